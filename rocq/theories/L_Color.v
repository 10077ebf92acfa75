(** * Facts on the forms of colors *)
From Coq Require Import Ascii String.
From Verif Require Import Base L_Base M_Style M_Parse S_Parse L_Parse S_Color.
Set Implicit Arguments.
Open Scope list_scope.
Open Scope nat_scope.

(** ** Case folding *)
Lemma ci_fold p c : (p < 128)%N -> ~ (65 <= p <= 90)%N -> ci p c = (fold c =? p)%N.
Proof.
  intros H1 H2. unfold ci, fold, lower, is_lower.
  destruct (N.eqb_spec c 8490); [subst; lia|]. destruct (N.eqb_spec c 383); [subst; lia|]. destruct ((65 <=? c)%N && (c <=? 90)%N) eqn:E; lia.
Qed.
Definition pat (p : str) : Prop := Forall (fun c => (c < 128)%N /\ ~ (65 <= c <= 90)%N) p.
Lemma pat_b p : forallb (fun c => (c <? 128)%N && negb ((65 <=? c)%N && (c <=? 90)%N)) p = true -> pat p.
Proof. intros H. apply Forall_forall. intros c Hc. rewrite forallb_forall in H. specialize (H c Hc). lia. Qed.
Lemma prefix_fold p : pat p -> forall s t, ci_prefix p s = Some t <-> exists f, s = f ++ t /\ map fold f = p.
Proof.
  induction p as [|x p IH]; intros P s t; cbn [ci_prefix].
  - split; [intros E; injection E as <-; exists []; split; reflexivity|]. intros (f & -> & E). apply map_eq_nil in E. subst. reflexivity.
  - inversion P as [|? ? [P1 P2] P3]; subst. destruct s as [|c s].
    + split; [discriminate|]. intros (f & E & F). destruct f; [discriminate F|discriminate E].
    + rewrite ci_fold by assumption. destruct (N.eqb_spec (fold c) x) as [E|E].
      * rewrite IH by exact P3. split.
        -- intros (f & -> & F). exists (c :: f). cbn. rewrite E, F. split; reflexivity.
        -- intros (f & F & G). destruct f as [|d f]; [discriminate G|]. cbn in F, G. injection F as -> F. injection G as _ G. eauto.
      * split; [discriminate|]. intros (f & F & G). destruct f as [|d f]; [discriminate G|]. cbn in F, G. injection F as -> F. injection G as G _. congruence.
Qed.
Lemma fold_idem c : fold (fold c) = fold c.
Proof.
  unfold fold, lower. destruct (N.eqb_spec c 8490); [reflexivity|]. destruct (N.eqb_spec c 383); [reflexivity|].
  destruct (N.leb_spec 65 c), (N.leb_spec c 90); cbn [andb];
    repeat match goal with |- context [(?a =? ?b)%N] => destruct (N.eqb_spec a b); try lia end; try reflexivity;
    repeat match goal with |- context [(?a <=? ?b)%N] => destruct (N.leb_spec a b); try lia end; reflexivity.
Qed.
Lemma prefix_some_fold p : pat p -> forall s, is_some (ci_prefix p (map fold s)) = is_some (ci_prefix p s).
Proof.
  induction p as [|x p IH]; intros P s; [destruct s; reflexivity|]. inversion P as [|? ? [P1 P2] P3]; subst. destruct s as [|c s]; [reflexivity|].
  cbn [map ci_prefix]. rewrite !ci_fold, fold_idem by assumption. destruct (fold c =? x)%N; [apply IH, P3|reflexivity].
Qed.
Lemma contains_fold p : pat p -> forall s, ci_contains p (map fold s) = ci_contains p s.
Proof. intros P. induction s as [|c s IH]; cbn [ci_contains map]; rewrite <- ?(prefix_some_fold P []), <- ?(prefix_some_fold P (c :: s)); [reflexivity|]. rewrite IH. reflexivity. Qed.
Lemma contains_infix p : pat p -> forall s, ci_contains p s = true <-> exists a m b, s = a ++ m ++ b /\ map fold m = p.
Proof.
  intros P. induction s as [|c s IH].
  - cbn [ci_contains]. rewrite orb_false_r. destruct (ci_prefix p []) as [t|] eqn:E; cbn.
    + split; [|reflexivity]. intros _. apply (prefix_fold P) in E. destruct E as (f & E & F). symmetry in E. apply app_eq_nil in E. destruct E as [-> ->]. exists [], [], []. split; [reflexivity|exact F].
    + split; [discriminate|]. intros (a & m & b & A & M). symmetry in A. apply app_eq_nil in A. destruct A as [-> A]. apply app_eq_nil in A. destruct A as [-> ->].
      assert (X : ci_prefix p [] = Some []) by (apply (prefix_fold P); exists []; split; [reflexivity|exact M]). congruence.
  - cbn [ci_contains]. destruct (ci_prefix p (c :: s)) as [t|] eqn:E; cbn [is_some orb].
    + split; [|reflexivity]. intros _. apply (prefix_fold P) in E. destruct E as (f & E & F). exists [], f, t. split; assumption.
    + rewrite IH. split.
      * intros (a & m & b & -> & M). exists (c :: a), m, b. split; [reflexivity|exact M].
      * intros (a & m & b & A & M). destruct a as [|d a].
        -- exfalso. assert (X : ci_prefix p (c :: s) = Some b) by (apply (prefix_fold P); exists m; split; assumption). congruence.
        -- cbn in A. injection A as -> A. eauto.
Qed.
Lemma contains_sub q p s : pat p -> pat (q ++ p) -> ci_contains (q ++ p) s = true -> ci_contains p s = true.
Proof.
  intros P Q H. apply (contains_infix Q) in H. destruct H as (a & m & b & -> & M). apply (contains_infix P).
  apply map_eq_app in M. destruct M as (m1 & m2 & -> & M1 & M2). exists (a ++ m1), m2, b. split; [rewrite <- !app_assoc; reflexivity|exact M2].
Qed.

(** ** Numbers *)
Lemma dec_value_decimal ds : Forall (fun c => 48 <= c <= 57)%N ds -> forall a, dec_value a ds = Some (fold_left (fun a c => 10 * a + (c - 48))%N ds a).
Proof.
  induction 1 as [|c ds Hc _ IH]; intros a; [reflexivity|]. cbn [dec_value fold_left]. unfold is_ascii_digit. replace ((48 <=? c)%N && (c <=? 57)%N) with true by lia.
  rewrite IH. do 2 f_equal. lia.
Qed.
Lemma parse_number max ds : number ds -> parse_uint max ds = if (decimal ds <=? max)%N then Some (decimal ds) else None.
Proof.
  intros [Hn Hd]. destruct ds as [|c ds]; [congruence|]. cbn [parse_uint]. assert (Hc : (48 <= c <= 57)%N) by (inversion Hd; assumption).
  replace (c =? 43)%N with false by lia. cbn [andb]. rewrite (dec_value_decimal Hd). reflexivity.
Qed.
Lemma dec_value_some ds : forall a n, dec_value a ds = Some n -> Forall (fun c => 48 <= c <= 57)%N ds.
Proof.
  induction ds as [|c ds IH]; intros a n H; [constructor|]. cbn in H. unfold is_ascii_digit in H. destruct ((48 <=? c)%N && (c <=? 57)%N) eqn:E; [|discriminate]. constructor; [lia|]. eapply IH, H.
Qed.
Lemma parse_some k max ds n : ascii_classes k -> Forall (fun c => rx_digit k c = true) ds -> parse_uint max ds = Some n -> number ds /\ n = decimal ds /\ (n <= max)%N.
Proof.
  intros K D H. destruct ds as [|c ds]; [discriminate|]. cbn [parse_uint] in H.
  assert (Hc : (c =? 43)%N = false).
  { inversion D as [|? ? D1 _]; subst. destruct (N.eqb_spec c 43); [|reflexivity]. subst. apply (ascii_digit_class K) in D1; [|lia]. unfold ascii_digit in D1. lia. }
  rewrite Hc in H. cbn [andb] in H. unfold at_most in H. destruct (dec_value 0 (c :: ds)) as [v|] eqn:E; [|discriminate]. cbn [obind] in H. destruct (v <=? max)%N eqn:L; [|discriminate]. injection H as <-.
  pose proof (dec_value_some _ _ E) as F. rewrite (dec_value_decimal F) in E. injection E as <-. split; [split; [discriminate|exact F]|]. split; [reflexivity|lia].
Qed.
Lemma number_digits k ds : ascii_classes k -> number ds -> Forall (fun c => rx_digit k c = true) ds.
Proof. intros K [_ H]. eapply Forall_impl; [|exact H]. intros c Hc. cbn in Hc. apply (ascii_digit_class K); [lia|exact Hc]. Qed.
Lemma span_spec f s : Forall (fun c => f c = true) (fst (span f s)) /\ s = fst (span f s) ++ snd (span f s) /\ match snd (span f s) with c :: _ => f c = false | [] => True end.
Proof.
  induction s as [|c s IH]; [repeat constructor|]. cbn. destruct (f c) eqn:E; [|repeat split; [constructor|exact E]]. destruct (span f s) as [a b]. cbn in *. destruct IH as (A & B & D).
  split; [constructor; assumption|]. split; [rewrite B; reflexivity|exact D].
Qed.
Lemma plus_some f s x y : plus f s = Some (x, y) -> x <> [] /\ Forall (fun c => f c = true) x /\ s = x ++ y.
Proof.
  unfold plus. destruct (span_spec f s) as (A & B & _). destruct (span f s) as [a b]. cbn in *. destruct a; [discriminate|]. intros H. injection H as <- <-. repeat split; try assumption. discriminate.
Qed.
Lemma closed_some A s (v w : A) : closed s v = Some w <-> s = [41%N] /\ w = v.
Proof.
  unfold closed. destruct s as [|c s]; cbn [one obind]; [split; [discriminate|intros [X _]; discriminate]|].
  destruct (N.eqb_spec 41 c) as [<-|Hc]; [|split; [discriminate|intros [X _]; congruence]]. cbn [obind]. destruct s as [|d s]; cbn.
  - split; [intros E; injection E as <-; split; reflexivity|]. intros [_ ->]. reflexivity.
  - split; [discriminate|]. intros [X _]. discriminate.
Qed.
Lemma call_some k name s ds : pat name -> rx_call k name s = Some ds -> exists f, s = f ++ ds ++ [41%N] /\ map fold f = name /\ ds <> [] /\ Forall (fun c => rx_digit k c = true) ds.
Proof.
  intros P. unfold rx_call. destruct (ci_prefix name s) as [t|] eqn:E; [|discriminate]. cbn [obind]. apply (prefix_fold P) in E. destruct E as (f & -> & F).
  destruct (plus (rx_digit k) t) as [[x y]|] eqn:X; [|discriminate]. cbn [obind fst snd]. rewrite closed_some. intros [-> ->]. apply plus_some in X. destruct X as (X1 & X2 & ->). exists f. repeat split; assumption.
Qed.
Lemma call_number k f name ds : ascii_classes k -> pat name -> map fold f = name -> number ds -> rx_call k name (f ++ ds ++ [41%N]) = Some ds.
Proof.
  intros K P F D. unfold rx_call. assert (E : ci_prefix name (f ++ ds ++ [41%N]) = Some (ds ++ [41%N])) by (apply (prefix_fold P); eauto). rewrite E. cbn [obind].
  rewrite plus_app; [|apply D|apply number_digits; assumption|].
  - cbn [obind fst snd]. apply closed_some. split; reflexivity.
  - destruct (rx_digit k 41) eqn:X; [|reflexivity]. apply (ascii_digit_class K) in X; [unfold ascii_digit in X; lia|lia].
Qed.
(** texts which fold to different prefixes *)
Lemma prefix_none p q f s : pat p -> map fold f = q -> List.length p <= List.length q -> is_some (ci_prefix p q) = false -> ci_prefix p (f ++ s) = None.
Proof.
  intros P F L N. destruct (ci_prefix p (f ++ s)) as [t|] eqn:E; [|reflexivity]. exfalso. apply (prefix_fold P) in E. destruct E as (g & E & G).
  assert (Lg : List.length g <= List.length f). { apply (f_equal (@List.length _)) in F, G. rewrite map_length in F, G. lia. }
  assert (X : exists u, f = g ++ u). { exists (skipn (List.length g) f). apply (f_equal (firstn (List.length g))) in E. rewrite !firstn_app in E. replace (List.length g - List.length f) with 0 in E by lia.
    rewrite Nat.sub_diag, firstn_all in E. cbn in E. rewrite !app_nil_r in E. rewrite <- E at 1. symmetry. apply firstn_skipn. }
  destruct X as (u & ->). rewrite map_app, G in F. subst q. rewrite (proj2 (prefix_fold P (p ++ map fold u) (map fold u))) in N; [discriminate|].
  exists p. split; [reflexivity|]. rewrite <- G. rewrite map_map. apply map_ext. apply fold_idem.
Qed.
Lemma hex_digit_nibble c n : hex_digit c = Some n <-> nibble c n.
Proof.
  unfold hex_digit, is_ascii_digit. split.
  - destruct ((48 <=? c)%N && (c <=? 57)%N) eqn:E1; [intros H; injection H as <-; replace c with (48 + (c - 48))%N at 1 by lia; constructor; lia|].
    destruct ((97 <=? c)%N && (c <=? 102)%N) eqn:E2; [intros H; injection H as <-; replace c with (87 + (c - 87))%N at 1 by lia; apply nib_lower; lia|].
    destruct ((65 <=? c)%N && (c <=? 70)%N) eqn:E3; [intros H; injection H as <-; replace c with (55 + (c - 55))%N at 1 by lia; apply nib_upper; lia|]. discriminate.
  - intros H. destruct H as [n H|n H|n H].
    + replace ((48 <=? 48 + n)%N && (48 + n <=? 57)%N) with true by lia. f_equal. lia.
    + replace ((48 <=? 87 + n)%N && (87 + n <=? 57)%N) with false by lia. replace ((97 <=? 87 + n)%N && (87 + n <=? 102)%N) with true by lia. f_equal. lia.
    + replace ((48 <=? 55 + n)%N && (55 + n <=? 57)%N) with false by lia. replace ((97 <=? 55 + n)%N && (55 + n <=? 102)%N) with false by lia.
      replace ((65 <=? 55 + n)%N && (55 + n <=? 70)%N) with true by lia. f_equal. lia.
Qed.
Lemma nibble_ascii c n : nibble c n -> (c < 128)%N /\ (n <= 15)%N.
Proof. intros [m H|m H|m H]; lia. Qed.
Lemma nibble_class k c n : ascii_classes k -> nibble c n -> rx_hexdigit k c = true.
Proof.
  intros K H. unfold rx_hexdigit. destruct H as [n H|n H|n H]; [|lia|lia]. assert (X : rx_digit k (48 + n) = true) by (apply (ascii_digit_class K); unfold ascii_digit; lia). rewrite X. reflexivity.
Qed.
Lemma ulen_ascii c : (c < 128)%N -> blen [c] = 1.
Proof. intros H. unfold blen, len_utf8. cbn. destruct (N.ltb_spec c 128); [reflexivity|lia]. Qed.
Lemma hex_one c n : nibble c n -> hex [c] = Some (17 * n)%N.
Proof. intros H. unfold hex. rewrite ulen_ascii by (apply (nibble_ascii H)). cbn [Nat.eqb Nat.add app hex_value obind]. rewrite (proj2 (hex_digit_nibble c n) H). cbn [Nat.eqb Nat.add app hex_value obind]. f_equal. lia. Qed.
Lemma hex_two c d m n : nibble c m -> nibble d n -> hex [c; d] = Some (16 * m + n)%N.
Proof.
  intros H G. unfold hex. replace (blen [c; d]) with (blen [c] + blen [d]) by (unfold blen; cbn; lia).
  rewrite !ulen_ascii by (apply (nibble_ascii H) || apply (nibble_ascii G)). cbn [Nat.eqb Nat.add app hex_value obind]. rewrite (proj2 (hex_digit_nibble c m) H). cbn [Nat.eqb Nat.add app hex_value obind]. rewrite (proj2 (hex_digit_nibble d n) G). cbn [Nat.eqb Nat.add app hex_value obind]. f_equal. lia.
Qed.
Lemma hex_value_one c n : hex_value 0 [c] = Some n -> nibble c n.
Proof. cbn [Nat.eqb Nat.add app hex_value obind]. destruct (hex_digit c) as [d|] eqn:E; [|discriminate]. cbn [Nat.eqb Nat.add app hex_value obind]. intros H. injection H as <-. apply hex_digit_nibble, E. Qed.
Lemma hex_one_some c n : hex [c] = Some n -> exists m, nibble c m /\ n = (17 * m)%N.
Proof.
  unfold hex. destruct (Nat.eqb_spec (blen [c]) 1) as [L|L].
  - cbn [Nat.eqb Nat.add app hex_value obind]. destruct (hex_digit c) as [d|] eqn:E; [|discriminate]. cbn [Nat.eqb Nat.add app hex_value obind]. intros H. injection H as <-. exists d. split; [apply hex_digit_nibble, E|lia].
  - intros H. apply hex_value_one in H. exfalso. apply L, ulen_ascii. apply (nibble_ascii H).
Qed.
Lemma hex_two_some c d n : hex [c; d] = Some n -> exists a b, nibble c a /\ nibble d b /\ n = (16 * a + b)%N.
Proof.
  unfold hex. destruct (Nat.eqb_spec (blen [c; d]) 1) as [L|L].
  - exfalso. revert L. unfold blen, len_utf8. cbn. repeat match goal with |- context [(?a <? ?b)%N] => destruct (a <? b)%N end; lia.
  - cbn [Nat.eqb Nat.add app hex_value obind]. destruct (hex_digit c) as [a|] eqn:E; [|discriminate]. cbn [Nat.eqb Nat.add app hex_value obind]. destruct (hex_digit d) as [b|] eqn:F; [|discriminate]. cbn [Nat.eqb Nat.add app hex_value obind]. intros H. injection H as <-.
    exists a, b. split; [apply hex_digit_nibble, E|]. split; [apply hex_digit_nibble, F|lia].
Qed.

(** ** ASCII case *)
Section Lower.
Context (k : classes) (K : ascii_classes k).
Lemma lower_digit c : rx_digit k (lower c) = rx_digit k c.
Proof using K.
  unfold lower. destruct ((65 <=? c)%N && (c <=? 90)%N) eqn:E; [|reflexivity]. destruct (rx_digit k (c + 32)) eqn:A; [apply (ascii_digit_class K) in A; [unfold ascii_digit in A; lia|lia]|].
  destruct (rx_digit k c) eqn:B; [apply (ascii_digit_class K) in B; [unfold ascii_digit in B; lia|lia]|reflexivity].
Qed.
Lemma lower_space c : rx_space k (lower c) = rx_space k c.
Proof using K.
  unfold lower. destruct ((65 <=? c)%N && (c <=? 90)%N) eqn:E; [|reflexivity]. destruct (rx_space k (c + 32)) eqn:A; [apply (ascii_space_class K) in A; [unfold ascii_space in A; lia|lia]|].
  destruct (rx_space k c) eqn:B; [apply (ascii_space_class K) in B; [unfold ascii_space in B; lia|lia]|reflexivity].
Qed.
Lemma lower_hexdigit c : rx_hexdigit k (lower c) = rx_hexdigit k c.
Proof using K. unfold rx_hexdigit. rewrite lower_digit. unfold lower. destruct ((65 <=? c)%N && (c <=? 90)%N) eqn:E; [|reflexivity]. lia. Qed.
Lemma fold_lower c : fold (lower c) = fold c.
Proof using.
  unfold lower. destruct ((65 <=? c)%N && (c <=? 90)%N) eqn:E; [|reflexivity]. unfold fold, lower.
  repeat match goal with |- context [(?a =? ?b)%N] => destruct (N.eqb_spec a b); try lia end. rewrite E. replace ((65 <=? c + 32)%N && (c + 32 <=? 90)%N) with false by lia. reflexivity.
Qed.
Lemma prefix_lower p : pat p -> forall s, ci_prefix p (map lower s) = option_map (map lower) (ci_prefix p s).
Proof using.
  induction p as [|x p IH]; intros P s; [reflexivity|]. inversion P as [|? ? [P1 P2] P3]; subst. destruct s as [|c s]; [reflexivity|].
  cbn [map ci_prefix]. rewrite !ci_fold, fold_lower by assumption. destruct (fold c =? x)%N; [apply IH, P3|reflexivity].
Qed.
Lemma contains_lower p s : pat p -> ci_contains p (map lower s) = ci_contains p s.
Proof using. intros P. rewrite <- (contains_fold P s), <- (contains_fold P (map lower s)), map_map. f_equal. apply map_ext. exact fold_lower. Qed.
Lemma first_lower A (names : list (str * A)) s : Forall (fun x => pat (fst x)) names -> first_contained names (map lower s) = first_contained names s.
Proof using. induction 1 as [|[p a] l P _ IH]; [reflexivity|]. cbn [first_contained fst] in *. rewrite (contains_lower _ P), IH. reflexivity. Qed.
Definition both (x : str * str) : str * str := (map lower (fst x), map lower (snd x)).
Lemma span_lower f s : (forall c, f (lower c) = f c) -> span f (map lower s) = both (span f s).
Proof using. intros H. induction s as [|c s IH]; [reflexivity|]. cbn [map span]. rewrite H. destruct (f c); [|reflexivity]. rewrite IH. destruct (span f s). reflexivity. Qed.
Lemma plus_lower f s : (forall c, f (lower c) = f c) -> plus f (map lower s) = option_map both (plus f s).
Proof using. intros H. unfold plus. rewrite (span_lower _ _ H). destruct (span f s) as [a b]. destruct a; reflexivity. Qed.
Lemma one_lower p s : (p < 65)%N -> one p (map lower s) = option_map (map lower) (one p s).
Proof using.
  intros P. destruct s as [|c s]; [reflexivity|]. cbn [map one]. replace (p =? lower c)%N with (p =? c)%N; [destruct (p =? c)%N; reflexivity|].
  unfold lower. destruct ((65 <=? c)%N && (c <=? 90)%N) eqn:E; [|reflexivity]. lia.
Qed.
Lemma closed_lower A B (v : A) (w : B) s : closed (map lower s) w = option_map (fun _ => w) (closed s v).
Proof using. unfold closed. rewrite one_lower by lia. destruct (one 41 s) as [t|]; [|reflexivity]. cbn [option_map obind]. destruct t; reflexivity. Qed.
Lemma call_lower name s : pat name -> rx_call k name (map lower s) = option_map (map lower) (rx_call k name s).
Proof using K.
  intros P. unfold rx_call. rewrite (prefix_lower P). destruct (ci_prefix name s) as [t|]; [|reflexivity]. cbn [option_map obind]. rewrite (plus_lower _ _ lower_digit).
  destruct (plus (rx_digit k) t) as [[x y]|]; [|reflexivity]. cbn [option_map obind both fst snd]. rewrite (closed_lower x). destruct (closed y x) eqn:E; [|reflexivity].
  apply closed_some in E. destruct E as [_ ->]. reflexivity.
Qed.
Lemma grey_lower s : rx_grey k (map lower s) = option_map (map lower) (rx_grey k s).
Proof using K.
  unfold rx_grey. rewrite !call_lower by (apply pat_b; reflexivity). repeat match goal with |- context [rx_call k ?n s] => destruct (rx_call k n s); [reflexivity|] end. reflexivity.
Qed.
Lemma next_lower s : rx_next k (map lower s) = option_map both (rx_next k s).
Proof using K.
  unfold rx_next. rewrite one_lower by lia. destruct (one 44 s) as [t|]; [|reflexivity]. cbn [option_map obind]. rewrite (span_lower _ _ lower_space). cbn [both snd]. apply plus_lower, lower_digit.
Qed.
Definition three (x : str * str * str) : str * str * str := (map lower (fst (fst x)), map lower (snd (fst x)), map lower (snd x)).
Lemma rgb_lower s : rx_rgb k (map lower s) = option_map three (rx_rgb k s).
Proof using K.
  unfold rx_rgb. rewrite prefix_lower by (apply pat_b; reflexivity). destruct (ci_prefix (lit "rgb(") s) as [t|]; [|reflexivity]. cbn [option_map obind]. rewrite (plus_lower _ _ lower_digit).
  destruct (plus (rx_digit k) t) as [[x1 t1]|]; [|reflexivity]. cbn [option_map obind both fst snd]. rewrite next_lower.
  destruct (rx_next k t1) as [[x2 t2]|]; [|reflexivity]. cbn [option_map obind both fst snd]. rewrite next_lower.
  destruct (rx_next k t2) as [[x3 t3]|]; [|reflexivity]. cbn [option_map obind both fst snd]. rewrite (closed_lower (x1, x2, x3)).
  destruct (closed t3 (x1, x2, x3)) eqn:E; [|reflexivity]. apply closed_some in E. destruct E as [_ ->]. reflexivity.
Qed.
Lemma hex_lower s : rx_hex k (map lower s) = option_map three (rx_hex k s).
Proof using K.
  unfold rx_hex. rewrite one_lower by lia. destruct (one 35 s) as [t|]; [|reflexivity]. cbn [option_map obind].
  assert (E : forallb (rx_hexdigit k) (map lower t) = forallb (rx_hexdigit k) t) by (induction t as [|c t IH]; [reflexivity|cbn; rewrite lower_hexdigit, IH; reflexivity]).
  rewrite E. destruct (forallb (rx_hexdigit k) t); [|reflexivity]. destruct t as [|c1 [|c2 [|c3 [|c4 [|c5 [|c6 [|c7 t]]]]]]]; reflexivity.
Qed.
Lemma dec_value_lower s : forall a, dec_value a (map lower s) = dec_value a s.
Proof using.
  induction s as [|c s IH]; intros a; [reflexivity|]. cbn [map dec_value]. unfold lower at 1 2, is_ascii_digit. destruct ((65 <=? c)%N && (c <=? 90)%N) eqn:E; [|rewrite IH; reflexivity].
  replace ((48 <=? c + 32)%N && (c + 32 <=? 57)%N) with false by lia. replace ((48 <=? c)%N && (c <=? 57)%N) with false by lia. reflexivity.
Qed.
Lemma parse_lower max s : parse_uint max (map lower s) = parse_uint max s.
Proof using.
  destruct s as [|c s]; [reflexivity|]. cbn [map parse_uint]. rewrite <- (dec_value_lower s), <- (dec_value_lower (c :: s)). cbn [map].
  replace (lower c =? 43)%N with (c =? 43)%N by (unfold lower; destruct ((65 <=? c)%N && (c <=? 90)%N) eqn:E; lia). destruct s; reflexivity.
Qed.
Lemma hexd_lower c : hex_digit (lower c) = hex_digit c.
Proof using.
  unfold lower. destruct ((65 <=? c)%N && (c <=? 90)%N) eqn:E; [|reflexivity]. unfold hex_digit, is_ascii_digit.
  replace ((48 <=? c + 32)%N && (c + 32 <=? 57)%N) with false by lia. replace ((48 <=? c)%N && (c <=? 57)%N) with false by lia.
  replace ((97 <=? c)%N && (c <=? 102)%N) with false by lia. destruct ((65 <=? c)%N && (c <=? 70)%N) eqn:F.
  - replace ((97 <=? c + 32)%N && (c + 32 <=? 102)%N) with true by lia. f_equal. lia.
  - replace ((97 <=? c + 32)%N && (c + 32 <=? 102)%N) with false by lia. replace ((65 <=? c + 32)%N && (c + 32 <=? 70)%N) with false by lia. reflexivity.
Qed.
Lemma hexv_lower s : forall a, hex_value a (map lower s) = hex_value a s.
Proof using. induction s as [|c s IH]; intros a; [reflexivity|]. cbn [map hex_value]. rewrite hexd_lower. destruct (hex_digit c); [apply IH|reflexivity]. Qed.
Lemma blen_lower s : blen (map lower s) = blen s.
Proof using.
  unfold blen. rewrite map_map. f_equal. apply map_ext. intros c. unfold lower. destruct ((65 <=? c)%N && (c <=? 90)%N) eqn:E; [|reflexivity]. unfold len_utf8.
  replace (c + 32 <? 128)%N with true by lia. replace (c <? 128)%N with true by lia. reflexivity.
Qed.
Lemma hexs_lower s : hex (map lower s) = hex s.
Proof using. unfold hex. rewrite blen_lower, <- map_app, !hexv_lower. reflexivity. Qed.
Lemma parse_color_lower s : parse_color k (map lower s) = parse_color k s.
Proof using K.
  unfold parse_color, rx_ansi. rewrite call_lower by (apply pat_b; reflexivity). destruct (rx_call k (lit "ansi(") s); [cbn [option_map]; unfold parse_u8; rewrite parse_lower; reflexivity|]. cbn [option_map].
  rewrite grey_lower. destruct (rx_grey k s); [cbn [option_map]; unfold parse_u8; rewrite parse_lower; reflexivity|]. cbn [option_map].
  rewrite rgb_lower. destruct (rx_rgb k s) as [[[r g] b]|]; [cbn [option_map three fst snd]; unfold parse_u8; rewrite !parse_lower; reflexivity|]. cbn [option_map].
  rewrite hex_lower. destruct (rx_hex k s) as [[[r g] b]|]; [cbn [option_map three fst snd]; rewrite !hexs_lower; reflexivity|]. cbn [option_map].
  rewrite first_lower; [reflexivity|]. repeat (constructor; [apply pat_b; reflexivity|]). constructor.
Qed.
End Lower.
