(** * C79: the forms of colors *)
From Coq Require Import Ascii String.
From Verif Require Import Base L_Base M_Style M_Parse S_Parse L_Parse S_Color L_Color.
Set Implicit Arguments.
Open Scope list_scope.
Open Scope nat_scope.

Definition ascii_only : classes :=
  mkClasses (fun c => ((9 <=? c)%N && (c <=? 13)%N) || (c =? 32)%N)
    (fun c => ((97 <=? c)%N && (c <=? 122)%N) || ((65 <=? c)%N && (c <=? 90)%N) || is_ascii_digit c || (c =? 95)%N) is_ascii_digit.
Lemma ascii_only_ok : ascii_classes ascii_only.
Proof. constructor; intros c _; cbn; unfold is_ascii_digit, ascii_space, ascii_digit, ascii_letter; split; intros H; lia. Qed.
Ltac pb := apply pat_b; reflexivity.

(** The case of the letters isn't significant *)
Theorem C79_case k s t : ascii_classes k -> same_text s t -> parse_color k s = parse_color k t.
Proof. intros K E. rewrite <- (parse_color_lower K s), <- (parse_color_lower K t), E. reflexivity. Qed.
Print Assumptions C79_case.
Example C79_case_example : same_text (lit "GREY(11)") (lit "grey(11)") /\ same_text (lit "#aBc") (lit "#AbC") /\ parse_color ascii_only (lit "#aBc") = Ok (Rgb 170 187 204).
Proof. repeat split. Qed.

(** Every documented form is read as its color *)
Lemma prefix_head p c s : pat p -> match p with x :: _ => fold c <> x | [] => False end -> ci_prefix p (c :: s) = None.
Proof. intros P H. destruct p as [|x p]; [destruct H|]. inversion P as [|? ? [P1 P2] _]; subst. cbn [ci_prefix]. rewrite ci_fold by assumption. destruct (N.eqb_spec (fold c) x); [congruence|reflexivity]. Qed.
Lemma grey_forms k f name ds : ascii_classes k -> In name ["gray("; "grey("; "grayscale("; "greyscale("]%string -> folded f name -> number ds ->
  rx_ansi k (f ++ ds ++ [41%N]) = None /\ rx_grey k (f ++ ds ++ [41%N]) = Some ds.
Proof.
  intros K H F D. split.
  - unfold rx_ansi, rx_call. destruct f as [|c f]; [cbn in H; intuition (subst; discriminate)|]. cbn [app]. rewrite prefix_head; [reflexivity|pb|].
    unfold folded in F. cbn [map] in F. assert (E : fold c = 103%N) by (cbn in H; destruct H as [<-|[<-|[<-|[<-|[]]]]]; injection F as F _; exact F). rewrite E. discriminate.
  - assert (P : forall p, pat (lit p) -> List.length (lit p) <= List.length (lit name) -> is_some (ci_prefix (lit p) (lit name)) = false -> rx_call k (lit p) (f ++ ds ++ [41%N]) = None).
    { intros p Pp L N. unfold rx_call. rewrite (prefix_none _ _ Pp F L N). reflexivity. }
    assert (C : rx_call k (lit name) (f ++ ds ++ [41%N]) = Some ds) by (apply call_number; [exact K| |exact F|exact D]; cbn in H; destruct H as [<-|[<-|[<-|[<-|[]]]]]; pb).
    unfold rx_grey. cbn in H. destruct H as [<-|[<-|[<-|[<-|[]]]]].
    + rewrite C. reflexivity.
    + rewrite (P "gray("%string) by (pb || (cbn; lia) || reflexivity). rewrite C. reflexivity.
    + rewrite (P "gray("%string), (P "grey("%string) by (pb || (cbn; lia) || reflexivity). rewrite C. reflexivity.
    + rewrite (P "gray("%string), (P "grey("%string), (P "grayscale("%string) by (pb || (cbn; lia) || reflexivity). rewrite C. reflexivity.
Qed.
Lemma next_number k w g c r : ascii_classes k -> Forall (fun c => rx_space k c = true) w -> number g -> rx_digit k c = false ->
  rx_next k (44%N :: w ++ g ++ c :: r) = Some (g, c :: r).
Proof.
  intros K W [G1 G2] C. unfold rx_next. cbn [one N.eqb Pos.eqb obind]. destruct g as [|d g]; [congruence|]. cbn [app].
  assert (X : rx_space k d = false).
  { inversion G2 as [|? ? D _]; subst. destruct (rx_space k d) eqn:E; [|reflexivity]. apply (ascii_space_class K) in E; [unfold ascii_space in E; lia|lia]. }
  rewrite (@span_app (rx_space k) w d (g ++ c :: r) W X). cbn [snd]. change (d :: g ++ c :: r) with ((d :: g) ++ c :: r).
  apply plus_app; [discriminate| |exact C]. apply number_digits; [exact K|]. split; [discriminate|exact G2].
Qed.
Lemma not_digit k c : ascii_classes k -> (c < 128)%N -> ~ ascii_digit c -> rx_digit k c = false.
Proof. intros K C D. destruct (rx_digit k c) eqn:E; [|reflexivity]. apply (ascii_digit_class K) in E; [contradiction|exact C]. Qed.
Theorem C79_forms k s c : ascii_classes k -> color_text k s c -> parse_color k s = Ok c.
Proof.
  intros K H. destruct H as [f ds F D L|f name ds N F D L|f r g b w1 w2 F R G B W1 W2 Lr Lg Lb|c1 c2 c3 r g b H1 H2 H3|c1 c1' c2 c3 r r' g b H1 H1' H2 H3
    |c1 c1' c2 c2' c3 r r' g g' b H1 H1' H2 H2' H3|c1 c1' c2 c2' c3 c3' r r' g g' b b' H1 H1' H2 H2' H3 H3']; unfold parse_color.
  - unfold rx_ansi. change (lit ")") with [41%N]. rewrite (call_number _ K (pat_b (lit "ansi(") eq_refl) F D). unfold parse_u8. rewrite (parse_number _ D).
    replace (decimal ds <=? 255)%N with true by lia. reflexivity.
  - change (lit ")") with [41%N]. destruct (grey_forms K N F D) as [E1 E2]. rewrite E1, E2. unfold parse_u8. rewrite (parse_number _ D).
    replace (decimal ds <=? 255)%N with true by lia. replace (23 <? decimal ds)%N with false by lia. unfold gray. rewrite N.min_l by lia. reflexivity.
  - assert (E1 : forall p t, pat p -> match p with x :: _ => x <> 114%N | [] => False end -> rx_call k p (f ++ t) = None).
    { intros p t P N. unfold rx_call. unfold folded in F. destruct f as [|c f]; [discriminate F|]. cbn [app]. rewrite prefix_head; [reflexivity|exact P|]. cbn in F. injection F as F _. rewrite F. destruct p; [exact N|congruence]. }
    unfold rx_ansi, rx_grey. rewrite !E1 by (pb || discriminate). cbn [or_else].
    assert (E : rx_rgb k (f ++ r ++ lit "," ++ w1 ++ g ++ lit "," ++ w2 ++ b ++ lit ")") = Some (r, g, b)).
    { unfold rx_rgb. rewrite (proj2 (prefix_fold (pat_b (lit "rgb(") eq_refl) _ (r ++ lit "," ++ w1 ++ g ++ lit "," ++ w2 ++ b ++ lit ")"))) by eauto. cbn [obind].
      assert (X44 : rx_digit k 44 = false) by (apply not_digit; [exact K|lia|unfold ascii_digit; lia]). assert (X41 : rx_digit k 41 = false) by (apply not_digit; [exact K|lia|unfold ascii_digit; lia]).
      change (lit "," ++ w1 ++ g ++ lit "," ++ w2 ++ b ++ lit ")") with (44%N :: w1 ++ g ++ 44%N :: w2 ++ b ++ [41%N]).
      rewrite (plus_app _ _ _ (proj1 R) (number_digits K R) X44). cbn [obind fst snd]. rewrite (@next_number k w1 g 44 _ K W1 G X44). cbn [obind fst snd]. rewrite (@next_number k w2 b 41 _ K W2 B X41). reflexivity. }
    rewrite E. unfold parse_u8. rewrite (parse_number _ R), (parse_number _ G), (parse_number _ B).
    replace (decimal r <=? 255)%N with true by lia. replace (decimal g <=? 255)%N with true by lia. replace (decimal b <=? 255)%N with true by lia. reflexivity.
  - change (lit "#" ++ [c1; c2; c3]) with (35%N :: [c1; c2; c3]). unfold rx_ansi, rx_grey, rx_call, rx_rgb. rewrite !prefix_head by (pb || discriminate). cbn [obind or_else].
    unfold rx_hex. cbn [one N.eqb Pos.eqb obind forallb]. rewrite (nibble_class K H1), (nibble_class K H2), (nibble_class K H3). cbn [andb].
    rewrite (hex_one H1), (hex_one H2), (hex_one H3). reflexivity.
  - change (lit "#" ++ [c1; c1'; c2; c3]) with (35%N :: [c1; c1'; c2; c3]). unfold rx_ansi, rx_grey, rx_call, rx_rgb. rewrite !prefix_head by (pb || discriminate). cbn [obind or_else].
    unfold rx_hex. cbn [one N.eqb Pos.eqb obind forallb]. rewrite (nibble_class K H1), (nibble_class K H1'), (nibble_class K H2), (nibble_class K H3). cbn [andb].
    rewrite (hex_two H1 H1'), (hex_one H2), (hex_one H3). reflexivity.
  - change (lit "#" ++ [c1; c1'; c2; c2'; c3]) with (35%N :: [c1; c1'; c2; c2'; c3]). unfold rx_ansi, rx_grey, rx_call, rx_rgb. rewrite !prefix_head by (pb || discriminate). cbn [obind or_else].
    unfold rx_hex. cbn [one N.eqb Pos.eqb obind forallb]. rewrite (nibble_class K H1), (nibble_class K H1'), (nibble_class K H2), (nibble_class K H2'), (nibble_class K H3). cbn [andb].
    rewrite (hex_two H1 H1'), (hex_two H2 H2'), (hex_one H3). reflexivity.
  - change (lit "#" ++ [c1; c1'; c2; c2'; c3; c3']) with (35%N :: [c1; c1'; c2; c2'; c3; c3']). unfold rx_ansi, rx_grey, rx_call, rx_rgb. rewrite !prefix_head by (pb || discriminate). cbn [obind or_else].
    unfold rx_hex. cbn [one N.eqb Pos.eqb obind forallb]. rewrite (nibble_class K H1), (nibble_class K H1'), (nibble_class K H2), (nibble_class K H2'), (nibble_class K H3), (nibble_class K H3'). cbn [andb].
    rewrite (hex_two H1 H1'), (hex_two H2 H2'), (hex_two H3 H3'). reflexivity.
Qed.
Print Assumptions C79_forms.
Example C79_forms_example : color_text ascii_only (lit "RGB(025,  100,0)") (Rgb 25 100 0).
Proof.
  change (lit "RGB(025,  100,0)") with (lit "RGB(" ++ lit "025" ++ lit "," ++ lit "  " ++ lit "100" ++ lit "," ++ lit "" ++ lit "0" ++ lit ")").
  change (Rgb 25 100 0) with (Rgb (decimal (lit "025")) (decimal (lit "100")) (decimal (lit "0"))).
  apply ct_rgb; try reflexivity; try (vm_compute; discriminate); try (split; [discriminate|]; repeat constructor; vm_compute; discriminate); repeat constructor.
Qed.

(** Levels of grey out of range are told *)
Theorem C79_grey_level k f name ds : ascii_classes k -> In name ["gray("; "grey("; "grayscale("; "greyscale("]%string -> folded f name -> number ds -> (23 < decimal ds)%N ->
  parse_color k (f ++ ds ++ lit ")") = Err (if (decimal ds <=? 255)%N then InvalidGreyLevel (decimal ds) else Unrecognized).
Proof.
  intros K N F D L. change (lit ")") with [41%N]. destruct (grey_forms K N F D) as [E1 E2]. unfold parse_color. rewrite E1, E2. unfold parse_u8. rewrite (parse_number _ D).
  destruct (decimal ds <=? 255)%N eqn:E; [|reflexivity]. replace (23 <? decimal ds)%N with true by lia. reflexivity.
Qed.
Print Assumptions C79_grey_level.
Example C79_grey_level_example : parse_color ascii_only (lit "Greyscale(24)") = Err (InvalidGreyLevel 24) /\ parse_color ascii_only (lit "gray(256)") = Err Unrecognized
  /\ parse_color ascii_only (lit "gray(23)") = Ok (AnsiValue 255).
Proof. vm_compute. repeat split. Qed.

(** Each name, in any case, is read as its color *)
Theorem C79_names k s name c : In (name, c) names -> folded s name -> parse_color k s = Ok c.
Proof.
  intros H F. assert (Pr : forall p, pat p -> is_some (ci_prefix p (lit name)) = false -> ci_prefix p s = None).
  { intros p P N. rewrite <- F, (prefix_some_fold P) in N. destruct (ci_prefix p s); [discriminate|reflexivity]. }
  assert (A : one 35 s = None).
  { unfold folded in F. destruct s as [|x s]; [reflexivity|]. cbn [one]. destruct (N.eqb_spec 35 x); [|reflexivity]. subst x. exfalso. cbn in F. cbn in H.
    repeat (destruct H as [E|H]; [injection E as <- _; discriminate F|]). destruct H. }
  assert (C : forall l : list (str * Color), Forall (fun x => pat (fst x)) l -> first_contained l s = first_contained l (lit name)).
  { intros l. induction 1 as [|[p a] l P _ IH]; [reflexivity|]. cbn [first_contained fst] in *. rewrite <- F at 1. rewrite (contains_fold P). destruct (ci_contains p s); [reflexivity|exact IH]. }
  unfold parse_color, rx_ansi, rx_grey, rx_call, rx_rgb, rx_hex. rewrite A, C by (repeat (constructor; [pb|]); constructor).
  cbn in H. repeat (destruct H as [E|H]; [injection E as <- <-; rewrite !Pr by (pb || reflexivity); vm_compute; reflexivity|]). destruct H.
Qed.
Print Assumptions C79_names.
(** the three other names of the code aren't read as their colors: see C51 *)
Example C79_names_example : folded (lit "DarkRed") "darkred" /\ In ("darkred"%string, DarkRed) names
  /\ parse_color ascii_only (lit "darkblue") = Ok Blue /\ parse_color ascii_only (lit "darkcyan") = Ok Cyan /\ parse_color ascii_only (lit "darkyellow") = Ok Yellow.
Proof. vm_compute. intuition. Qed.

(** Nothing else is read as a color, but texts in which there's a name *)
Theorem C79_only k s c : ascii_classes k -> parse_color k s = Ok c ->
  color_text k s c \/ exists name, In (name, c) names /\ contains_name s name.
Proof.
  intros K. unfold parse_color. change [41%N] with (lit ")").
  destruct (rx_ansi k s) as [ds|] eqn:E1.
  { unfold rx_ansi in E1. apply call_some in E1; [|pb]. destruct E1 as (f & -> & F & N & D). unfold parse_u8. destruct (parse_uint 255 ds) as [n|] eqn:P; [|discriminate].
    apply (parse_some _ K D) in P. destruct P as (P1 & -> & P3). intros E. injection E as <-. left. apply ct_ansi; assumption. }
  destruct (rx_grey k s) as [ds|] eqn:E2.
  { unfold parse_u8. destruct (parse_uint 255 ds) as [n|] eqn:P; [|discriminate]. destruct (23 <? n)%N eqn:L; [discriminate|]. intros E. injection E as <-. left.
    assert (X : exists f name, In name ["gray("; "grey("; "grayscale("; "greyscale("]%string /\ s = f ++ ds ++ [41%N] /\ map fold f = lit name /\ ds <> [] /\ Forall (fun c => rx_digit k c = true) ds).
    { unfold rx_grey, or_else in E2. destruct (rx_call k (lit "gray(") s) eqn:A1; [injection E2 as ->; apply call_some in A1; [|pb]; destruct A1 as (f & A); exists f, "gray("%string; split; [cbn; auto|exact A]|].
      destruct (rx_call k (lit "grey(") s) eqn:A2; [injection E2 as ->; apply call_some in A2; [|pb]; destruct A2 as (f & A); exists f, "grey("%string; split; [cbn; auto|exact A]|].
      destruct (rx_call k (lit "grayscale(") s) eqn:A3; [injection E2 as ->; apply call_some in A3; [|pb]; destruct A3 as (f & A); exists f, "grayscale("%string; split; [cbn; auto|exact A]|].
      apply call_some in E2; [|pb]; destruct E2 as (f & A); exists f, "greyscale("%string; split; [cbn; auto|exact A]. }
    destruct X as (f & name & I & -> & F & N & D). apply (parse_some _ K D) in P. destruct P as (P1 & -> & P3). unfold gray. rewrite N.min_l by lia. apply ct_grey with name; try assumption. lia. }
  destruct (rx_rgb k s) as [[[r g] b]|] eqn:E3.
  { unfold parse_u8. destruct (parse_uint 255 r) as [nr|] eqn:P1; [|discriminate]. destruct (parse_uint 255 g) as [ng|] eqn:P2; [|discriminate]. destruct (parse_uint 255 b) as [nb|] eqn:P3; [|discriminate].
    intros E. injection E as <-. left. unfold rx_rgb in E3. destruct (ci_prefix (lit "rgb(") s) as [t|] eqn:A; [|discriminate]. cbn [obind] in E3. apply prefix_fold in A; [|pb]. destruct A as (f & -> & F).
    destruct (plus (rx_digit k) t) as [[x1 t1]|] eqn:B1; [|discriminate]. cbn [obind fst snd] in E3. apply plus_some in B1. destruct B1 as (_ & D1 & ->).
    assert (Nx : forall u x y, rx_next k u = Some (x, y) -> exists w, Forall (fun c => rx_space k c = true) w /\ Forall (fun c => rx_digit k c = true) x /\ u = lit "," ++ w ++ x ++ y).
    { intros u x y H. unfold rx_next in H. destruct u as [|z u]; [discriminate|]. cbn [one] in H. destruct (N.eqb_spec 44 z) as [<-|]; [|discriminate]. cbn [obind] in H.
      apply plus_some in H. destruct H as (_ & H1 & H2). destruct (span_spec (rx_space k) u) as (S1 & S2 & _). exists (fst (span (rx_space k) u)). split; [exact S1|]. split; [exact H1|].
      rewrite <- H2. rewrite S2 at 1. reflexivity. }
    destruct (rx_next k t1) as [[x2 t2]|] eqn:B2; [|discriminate]. cbn [obind fst snd] in E3. apply Nx in B2. destruct B2 as (w1 & W1 & D2 & ->).
    destruct (rx_next k t2) as [[x3 t3]|] eqn:B3; [|discriminate]. cbn [obind fst snd] in E3. apply Nx in B3. destruct B3 as (w2 & W2 & D3 & ->).
    apply closed_some in E3. destruct E3 as [-> E3]. injection E3 as -> -> ->.
    apply (parse_some _ K D1) in P1. apply (parse_some _ K D2) in P2. apply (parse_some _ K D3) in P3. destruct P1 as (? & -> & ?), P2 as (? & -> & ?), P3 as (? & -> & ?). apply ct_rgb; assumption. }
  destruct (rx_hex k s) as [[[r g] b]|] eqn:E4.
  { destruct (hex r) as [nr|] eqn:P1; [|discriminate]. destruct (hex g) as [ng|] eqn:P2; [|discriminate]. destruct (hex b) as [nb|] eqn:P3; [|discriminate]. intros E. injection E as <-. left.
    unfold rx_hex in E4. destruct s as [|z s]; [discriminate|]. cbn [one] in E4. destruct (N.eqb_spec 35 z) as [<-|]; [|discriminate]. cbn [obind] in E4. destruct (forallb (rx_hexdigit k) s); [|discriminate].
    change (35%N :: s) with (lit "#" ++ s).
    destruct s as [|c1 [|c2 [|c3 [|c4 [|c5 [|c6 [|c7 s]]]]]]]; try discriminate; injection E4 as <- <- <-.
    - apply hex_one_some in P1, P2, P3. destruct P1 as (? & ? & ->), P2 as (? & ? & ->), P3 as (? & ? & ->). constructor; assumption.
    - apply hex_two_some in P1. apply hex_one_some in P2, P3. destruct P1 as (? & ? & ? & ? & ->), P2 as (? & ? & ->), P3 as (? & ? & ->). constructor; assumption.
    - apply hex_two_some in P1, P2. apply hex_one_some in P3. destruct P1 as (? & ? & ? & ? & ->), P2 as (? & ? & ? & ? & ->), P3 as (? & ? & ->). constructor; assumption.
    - apply hex_two_some in P1, P2, P3. destruct P1 as (? & ? & ? & ? & ->), P2 as (? & ? & ? & ? & ->), P3 as (? & ? & ? & ? & ->). constructor; assumption. }
  unfold color_names. cbn [first_contained]. intros H. right.
  assert (X : forall name, pat (lit name) -> ci_contains (lit name) s = true -> contains_name s name) by (intros name P Hc; apply (contains_infix P), Hc).
  assert (Sub : forall q p, pat (lit p) -> pat (q ++ lit p) -> ci_contains (lit p) s = false -> ci_contains (q ++ lit p) s = false).
  { intros q p P Q Hn. destruct (ci_contains (q ++ lit p) s) eqn:E; [|reflexivity]. apply contains_sub in E; [congruence|exact P|exact Q]. }
  assert (Fin : forall name, pat (lit name) -> ci_contains (lit name) s = true -> In (name, c) names -> exists name, In (name, c) names /\ contains_name s name)
    by (intros name P Hc I; exists name; split; [exact I|apply X; assumption]).
  destruct (ci_contains (lit "black") s) eqn:N1; [injection H as <-; apply (Fin "black"%string); [pb|exact N1|cbn; auto 20]|].
  destruct (ci_contains (lit "blue") s) eqn:N2; [injection H as <-; apply (Fin "blue"%string); [pb|exact N2|cbn; auto 20]|].
  destruct (ci_contains (lit "cyan") s) eqn:N3; [injection H as <-; apply (Fin "cyan"%string); [pb|exact N3|cbn; auto 20]|].
  pose proof (Sub (lit "dark") "blue"%string ltac:(pb) ltac:(pb) N2) as M1. change (lit "dark" ++ lit "blue") with (lit "darkblue") in M1. rewrite M1 in H.
  pose proof (Sub (lit "dark") "cyan"%string ltac:(pb) ltac:(pb) N3) as M2. change (lit "dark" ++ lit "cyan") with (lit "darkcyan") in M2. rewrite M2 in H.
  destruct (ci_contains (lit "darkgreen") s) eqn:N4; [injection H as <-; apply (Fin "darkgreen"%string); [pb|exact N4|cbn; auto 20]|].
  destruct (ci_contains (lit "darkmagenta") s) eqn:N5; [injection H as <-; apply (Fin "darkmagenta"%string); [pb|exact N5|cbn; auto 20]|].
  destruct (ci_contains (lit "darkred") s) eqn:N6; [injection H as <-; apply (Fin "darkred"%string); [pb|exact N6|cbn; auto 20]|].
  destruct (ci_contains (lit "green") s) eqn:N7; [injection H as <-; apply (Fin "green"%string); [pb|exact N7|cbn; auto 20]|].
  destruct (ci_contains (lit "grey") s) eqn:N8; [injection H as <-; apply (Fin "grey"%string); [pb|exact N8|cbn; auto 20]|].
  destruct (ci_contains (lit "magenta") s) eqn:N9; [injection H as <-; apply (Fin "magenta"%string); [pb|exact N9|cbn; auto 20]|].
  destruct (ci_contains (lit "red") s) eqn:N10; [injection H as <-; apply (Fin "red"%string); [pb|exact N10|cbn; auto 20]|].
  destruct (ci_contains (lit "yellow") s) eqn:N11; [injection H as <-; apply (Fin "yellow"%string); [pb|exact N11|cbn; auto 20]|].
  pose proof (Sub (lit "dark") "yellow"%string ltac:(pb) ltac:(pb) N11) as M3. change (lit "dark" ++ lit "yellow") with (lit "darkyellow") in M3. rewrite M3 in H.
  destruct (ci_contains (lit "white") s) eqn:N12; [injection H as <-; apply (Fin "white"%string); [pb|exact N12|cbn; auto 20]|]. discriminate.
Qed.
Print Assumptions C79_only.
Example C79_only_example : parse_color ascii_only (lit "a Redish thing") = Ok Red /\ contains_name (lit "a Redish thing") "red"
  /\ parse_color ascii_only (lit "#12345") = Ok (Rgb 18 52 85) /\ parse_color ascii_only (lit "rgb(1, 2)") = Err Unrecognized.
Proof. split; [vm_compute; reflexivity|]. split; [|split; vm_compute; reflexivity]. exists (lit "a "), (lit "Red"), (lit "ish thing"). split; reflexivity. Qed.
