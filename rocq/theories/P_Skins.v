(** * The ready-made skins (C92) *)
From Verif Require Import Base L_Base M_Style M_Fit M_Wrap M_Text M_View M_Render M_Area M_Serde S_Render S_Layout P_Layout S_Origin P_Origin S_Skins Demo P_Render.
Set Implicit Arguments.
Open Scope nat_scope.

Lemma idx_headers (k : MadSkin) n ls : line_style k (KHeader n) = Ret ls -> 8 < n /\ ls = paragraph k \/ 1 <= n <= 8 /\ nth_error (headers k) (n - 1) = Some ls.
Proof.
  cbn [line_style]. change MAX_HEADER_DEPTH with 8. destruct (Nat.leb_spec n 8) as [L|L]; [|intros E; injection E as <-; left; split; [exact L|reflexivity]].
  intros E. apply bind_Ret_inv in E as (i & Ei & E). right. unfold csub in Ei. destruct (1 <=? n) eqn:Z; [|discriminate]. injection Ei as <-.
  split; [lia|]. unfold idx in E. destruct (nth_error _ _); [injection E as <-; reflexivity|discriminate].
Qed.
Lemma eight n : 1 <= n <= 8 -> n = 1 \/ n = 2 \/ n = 3 \/ n = 4 \/ n = 5 \/ n = 6 \/ n = 7 \/ n = 8.
Proof. lia. Qed.
Ltac levels L := apply eight in L; repeat (destruct L as [-> |L]); [..|rewrite L in *].

(** ** The chars of the text *)

(** Each char of a text has exactly the look told by its flags and the kind of its line *)
Theorem C92_text : forall t kind ls f, line_style (skin_of t) kind = Ret ls -> has_looks (text_style (skin_of t) ls f) (text_looks t kind f).
Proof.
  assert (P : forall t kind f, title kind = None -> kind <> KCode -> has_looks (text_style (skin_of t) (paragraph (skin_of t)) f) (text_looks t kind f)).
  { intros t kind (((b & i) & c) & s) T K. unfold text_looks, first_title. rewrite T.
    destruct kind; try congruence; destruct t, b, i, c, s; (split; [reflexivity|]; split; [reflexivity|]; split; [reflexivity|]; intros []; reflexivity). }
  intros t kind ls f E. destruct kind as [|n|d|d| |]; try (injection E as <-; apply P; [reflexivity|discriminate]).
  - apply idx_headers in E as [(L & ->)|(L & E)]; [apply P; [|discriminate]; unfold title; destruct (Nat.leb_spec n 8); [lia|reflexivity]|].
    destruct f as (((b & i) & c) & s). unfold text_looks, first_title, title.
    levels L; destruct t; injection E as <-; destruct b, i, c, s; (split; [reflexivity|]; split; [reflexivity|]; split; [reflexivity|]; intros []; reflexivity).
  - injection E as <-. destruct f as (((b & i) & c) & s), t, b, i, c, s; (split; [reflexivity|]; split; [reflexivity|]; split; [reflexivity|]; intros []; reflexivity).
Qed.
Print Assumptions C92_text.
(** What the skin itself writes: bullets, quote marks, horizontal rules, the lines of the tables, ellipses and the scrollbar *)
Theorem C92_marks : forall t,
  let k := skin_of t in
  let gray_char n := mkLooks (Some n) None no_marks in
  (fst (drawn_char (bullet k)) = 8226%N /\ has_looks (snd (drawn_char (bullet k))) (gray_char 8%N))
  /\ (fst (drawn_char (quote_mark k)) = 9616%N /\ has_looks (snd (drawn_char (quote_mark k))) (mkLooks (Some 12%N) None only_bold))
  /\ (sc_char (horizontal_rule k) = 8213%N /\ has_looks (sc_style (horizontal_rule k)) (gray_char 6%N))
  /\ has_looks (ls_cs (table k)) (gray_char 7%N) /\ (ls_align (table k) = Unspecified /\ left_margin (table k) = 0 /\ right_margin (table k) = 0)
  /\ has_looks (ellipsis k) (mkLooks None None no_marks)
  /\ (fst (drawn_char (track (scrollbar k))) = 9616%N /\ has_looks (snd (drawn_char (track (scrollbar k)))) (gray_char 5%N))
  /\ (fst (drawn_char (thumb (scrollbar k))) = 9616%N /\ has_looks (snd (drawn_char (thumb (scrollbar k)))) (gray_char 21%N)).
Proof.
  assert (H : forall cs l, fg cs = option_map level (ink l) -> bg cs = option_map level (paper l) -> underline cs = None -> (forall a, cs_has_attr cs a = marks l a) -> has_looks cs l)
    by (unfold has_looks; auto).
  intros t. destruct t; cbv zeta; (repeat match goal with |- _ /\ _ => split end); try reflexivity; (apply H; [reflexivity..|intros []; reflexivity]).
Qed.
Print Assumptions C92_marks.
(** The first title is centered, all other lines are at the left; there's no margin *)
Theorem C92_lines : forall t kind ls, line_style (skin_of t) kind = Ret ls ->
  ls_align ls = (if first_title kind then Center else Unspecified) /\ left_margin ls = 0 /\ right_margin ls = 0.
Proof.
  intros t kind ls E. destruct kind as [|n|d|d| |]; try (destruct t; injection E as <-; repeat split; reflexivity).
  apply idx_headers in E as [(L & ->)|(L & E)].
  - unfold first_title, title. destruct (Nat.leb_spec n 8); [lia|]. destruct t; repeat split; reflexivity.
  - unfold first_title, title. levels L; destruct t; injection E as <-; repeat split; reflexivity.
Qed.
Print Assumptions C92_lines.

(** ** What is printed with them *)

Lemma looks_readable cs l : has_looks cs l -> (match ink l with Some n => (n <= 23)%N | None => True end) ->
  (match paper l with Some m => (m <= 23)%N /\ match ink l with Some n => (m + 14 <= n \/ n + 14 <= m)%N | None => False end | None => True end) -> readable cs.
Proof.
  destruct l as [i p m]. intros (F & B & _) HI HP. cbn [ink paper] in *. unfold readable. rewrite F, B. split.
  - destruct i as [n|]; [right; exists n; split; [exact HI|reflexivity]|left; reflexivity].
  - destruct p as [q|]; [|exact I]. destruct HP as (HP & D). destruct i as [n|]; [|destruct D]. exists n, q. repeat split; assumption.
Qed.
Lemma text_readable t kind f : readable (cs_default) -> forall cs, has_looks cs (text_looks t kind f) -> readable cs.
Proof.
  intros _ cs L. destruct f as (((b & i) & c) & s). unfold text_looks in L. destruct c.
  - apply (looks_readable L); destruct t; cbn; lia.
  - destruct kind as [|n|d|d| |]; try (apply (looks_readable L); destruct t; cbn; lia). apply (looks_readable L); cbn [ink paper]; [|exact I].
    destruct (title (KHeader n)) as [m|]; [|exact I]. destruct t; do 4 (destruct m as [|m]; [cbn; try exact I; lia|]); exact I.
Qed.
(** Special chars which can be read *)
Definition readable_specials (special : Special) : Prop := forall c r, special c = Some r -> readable (snd (drawn_char r)).
Lemma origin_readable special t text x : readable_specials special -> origin special (skin_of t) text x -> readable (snd x).
Proof.
  intros SP. destruct (C92_marks t) as (MB & MQ & MR & MT & _ & ME & _). intros [(mc & f & ls & _ & _ & L & [->|(_ & ->)])|[O|(c & r & E & ->)]]; [| | |eapply SP, E].
  - eapply text_readable; [split; [left; reflexivity|exact I]|apply C92_text, L].
  - apply (looks_readable ME); exact I.
  - destruct O as [kind ls L| | | |c _]; cbn [snd].
    + pose proof (C92_text t kind (false, false, false, false) L) as H. eapply text_readable; [split; [left; reflexivity|exact I]|exact H].
    + apply (looks_readable (proj2 MB)); cbn; lia.
    + apply (looks_readable (proj2 MQ)); cbn; lia.
    + apply (looks_readable (proj2 MR)); cbn; lia.
    + apply (looks_readable MT); cbn; lia.
Qed.
(** Whatever the text, all what is printed or drawn in an area with those skins can be read *)
Theorem C92_readable : forall u special t usize_max text size a out, readable_specials special ->
  print_text u special (skin_of t) usize_max text size = Ret out \/ write_in_area_on u special (skin_of t) usize_max text a = Ret out ->
  Forall (fun x => readable (snd x)) (drawn out).
Proof.
  intros u special t um text size a out SP [E|E].
  - apply C82_printed in E. revert E. apply Forall_impl. intros x [O| ->]; [eapply origin_readable; [exact SP|exact O]|split; [left; reflexivity|exact I]].
  - apply C82_area in E. revert E. apply Forall_impl. intros x O. eapply origin_readable; [exact SP|exact O].
Qed.
Print Assumptions C92_readable.

(** They only differ by colors: the same chars are printed at the same places *)
Theorem C92_same_shape : forall t t', same_shape (skin_of t) (skin_of t').
Proof. intros [] []; constructor; repeat constructor. Qed.
Print Assumptions C92_same_shape.
(** Without style, a text is printed as with the others, but for the first title, which isn't centered *)
Definition uncentered (k : MadSkin) : MadSkin :=
  set_headers k (match headers k with h :: r => mkLS (ls_cs h) Unspecified (left_margin h) (right_margin h) :: r | [] => [] end).
Theorem C92_no_style : forall t, same_shape skin_no_style (uncentered (skin_of t)).
Proof. intros []; constructor; repeat constructor. Qed.
Print Assumptions C92_no_style.

(** ** Example *)

Definition sample : list MLine :=
  [MNormal (mkMC (MHeader 1) [mkCompound [72; 105]%N false false false false]);
   MNormal (mkMC MParagraph [mkCompound [97; 32]%N false false false false; mkCompound [98; 99]%N true false true false]);
   MNormal (mkMC MQuote [mkCompound [113]%N false true false false]);
   MNormal (mkMC MCode [mkCompound [102; 40; 41]%N false false false false])].
Example C92_example : exists out, print_text demo no_special skin_default_light 1000 sample None = Ret out
  /\ (forall kind, kind = KParagraph \/ kind = KHeader 1 \/ kind = KCode -> exists ls, line_style skin_default_light kind = Ret ls)
  /\ existsb (fun x => match bg (snd x) with Some (AnsiValue 252) => true | _ => false end) (drawn out) = true
  /\ existsb (fun x => match fg (snd x) with Some (AnsiValue 232) => true | _ => false end) (drawn out) = true.
Proof. eexists. split; [vm_compute; reflexivity|]. split; [intros kind [-> |[-> | ->]]; eexists; reflexivity|]. split; vm_compute; reflexivity. Qed.
