(** * C61, C62, C75 Questions *)
From Verif Require Import Base L_Base Demo M_Ask S_Ask.
Set Implicit Arguments.
Open Scope nat_scope.

Lemma str_eqb_eq a : forall b, str_eqb a b = true <-> a = b.
Proof.
  induction a as [|x a IH]; intros [|y b]; cbn [str_eqb]; try (split; [discriminate || reflexivity|discriminate || reflexivity]).
  rewrite andb_true_iff, N.eqb_eq, IH. split; [intros (-> & ->); reflexivity|intros E; injection E as -> ->; auto].
Qed.
Lemma read_line_some s : forall l r, read_line s = (Some l, r) <-> s = map IChar l ++ r /\ is_line l r.
Proof.
  induction s as [|[c|] s IH]; intros l r; cbn [read_line].
  - split.
    + intros E. injection E as <- <-. split; [reflexivity|]. left. split; [intros []|reflexivity].
    + intros (E & _). destruct l; [|discriminate E]. cbn in E. subst. reflexivity.
  - destruct (N.eqb_spec c 10) as [->|N].
    + split.
      * intros E. injection E as <- <-. split; [reflexivity|]. right. exists []. split; [reflexivity|intros []].
      * intros (E & [(H & ->)|(b & -> & H)]).
        -- rewrite app_nil_r in E. destruct l as [|x l]; [discriminate E|]. injection E as <- E. destruct H. left. reflexivity.
        -- destruct b as [|x b]; [injection E as <-; reflexivity|]. injection E as <- E. destruct H. left. reflexivity.
    + destruct (read_line s) as ([l'|] & r') eqn:R.
      * split.
        -- intros E. injection E as <- <-. destruct (proj1 (IH l' r') eq_refl) as (-> & L). split; [reflexivity|].
           destruct L as [(H & ->)|(b & -> & H)]; [left; split; [intros [->|X]; [apply N; reflexivity|auto]|reflexivity]|].
           right. exists (c :: b). split; [reflexivity|]. intros [->|X]; [apply N; reflexivity|auto].
        -- intros (E & L). destruct l as [|x l].
           { destruct L as [(_ & ->)|(b & E' & _)]; [discriminate E|destruct b; discriminate E']. }
           injection E as <- E. assert (L' : is_line l r).
           { destruct L as [(H & ->)|(b & E' & H)]; [left; split; [intros X; apply H; right; exact X|reflexivity]|].
             right. destruct b as [|y b]; injection E' as -> E'; [destruct N; reflexivity|]. exists b. split; [assumption|]. intros X; apply H; right; exact X. }
           pose proof (proj2 (IH l r) (conj E L')) as X. injection X as -> ->. reflexivity.
      * split; [discriminate|]. intros (E & L). destruct l as [|x l].
           { destruct L as [(_ & ->)|(b & E' & _)]; [discriminate E|destruct b; discriminate E']. }
           injection E as <- E. assert (L' : is_line l r).
           { destruct L as [(H & ->)|(b & E' & H)]; [left; split; [intros X; apply H; right; exact X|reflexivity]|].
             right. destruct b as [|y b]; injection E' as -> E'; [destruct N; reflexivity|]. exists b. split; [assumption|]. intros X; apply H; right; exact X. }
           pose proof (proj2 (IH l r) (conj E L')) as X. discriminate X.
  - split; [discriminate|]. intros (E & [(_ & ->)|(b & -> & _)]).
    + destruct l; discriminate E.
    + destruct b; discriminate E.
Qed.
Lemma read_line_none s : forall r, read_line s = (None, r) <-> fails s r.
Proof.
  induction s as [|[c|] s IH]; intros r; cbn [read_line].
  - split; [discriminate|]. intros (b & _ & E). destruct b; discriminate E.
  - destruct (N.eqb_spec c 10) as [->|N].
    + split; [discriminate|]. intros (b & H & E). destruct b as [|x b]; [discriminate E|]. injection E as <- E. destruct H. left. reflexivity.
    + destruct (read_line s) as ([l'|] & r') eqn:R.
      * split; [discriminate|]. intros (b & H & E). destruct b as [|x b]; [discriminate E|]. injection E as <- E.
        assert (F : fails s r) by (exists b; split; [intros X; apply H; right; exact X|exact E]). apply IH in F. discriminate F.
      * split.
        -- intros E. injection E as <-. destruct (proj1 (IH r') eq_refl) as (b & H & ->). exists (c :: b). split; [|reflexivity]. intros [->|X]; [apply N; reflexivity|auto].
        -- intros (b & H & E). destruct b as [|x b]; [discriminate E|]. injection E as <- E.
           assert (F : fails s r) by (exists b; split; [intros X; apply H; right; exact X|exact E]). apply IH in F. injection F as <-. reflexivity.
  - split.
    + intros E. injection E as <-. exists []. split; [intros []|reflexivity].
    + intros (b & H & E). destruct b as [|x b]; [|discriminate E]. injection E as <-. reflexivity.
Qed.
Lemma trim_end_typed u s : typed u s (trim_end u s).
Proof.
  induction s as [|c s (w & E & W & L)]; cbn [trim_end].
  - exists []. split; [reflexivity|]. split; [constructor|]. intros y c X. destruct y; discriminate X.
  - destruct (trim_end u s) as [|x t] eqn:T.
    + cbn in E. subst w. destruct (is_white u c) eqn:WC.
      * exists (c :: s). split; [reflexivity|]. split; [constructor; assumption|]. intros y c' X. destruct y; discriminate X.
      * exists s. split; [reflexivity|]. split; [assumption|]. intros y c' X. destruct y as [|z [|]]; [injection X as <-; assumption|discriminate X|discriminate X].
    + exists w. split; [cbn; f_equal; exact E|]. split; [assumption|]. intros y c' X. destruct y as [|z y]; [discriminate X|].
      injection X as <- X. apply (L y). exact X.
Qed.
Lemma typed_unique u l x x' : typed u l x -> typed u l x' -> x = x'.
Proof.
  enough (Y : forall a w b v, a ++ w = b ++ v -> Forall (fun c => is_white u c = true) v -> (forall y c, a = y ++ [c] -> is_white u c = false) -> length a <= length b).
  { intros (w & E & W & L) (v & E' & V & L'). subst l. pose proof (Y _ _ _ _ E' V L) as A. pose proof (Y _ _ _ _ (eq_sym E') W L') as B.
    assert (length x = length x') as D by lia. clear - D E'. revert x' D E'. induction x as [|c x IH]; intros [|c' x'] D E; try discriminate D; [reflexivity|].
    injection E as <- E. f_equal. apply IH; [injection D as D; exact D|exact E]. }
  intros a w b v E V L. destruct (Nat.le_gt_cases (length a) (length b)) as [|G]; [assumption|exfalso].
  destruct (exists_last (l := a)) as (y & c & ->); [intros ->; cbn in G; lia|].
  assert (C : is_white u c = true).
  { rewrite app_length in G. cbn in G. rewrite Forall_forall in V. apply V.
    assert (NE : nth_error (b ++ v) (length y) = Some c).
    { rewrite <- E, <- app_assoc. rewrite nth_error_app2, Nat.sub_diag by lia. reflexivity. }
    rewrite nth_error_app2 in NE by lia. apply nth_error_In in NE. exact NE. }
  rewrite (L y c eq_refl) in C. discriminate C.
Qed.
Lemma find_key (l : list Answer) x :
  (fix go (l : list Answer) : option str := match l with [] => None | a :: r => if str_eqb (a_key a) x then Some x else go r end) l
  = Some x /\ (exists a, In a l /\ a_key a = x)
  \/ (fix go (l : list Answer) : option str := match l with [] => None | a :: r => if str_eqb (a_key a) x then Some x else go r end) l
  = None /\ ~ exists a, In a l /\ a_key a = x.
Proof.
  induction l as [|a l IH]; [right; split; [reflexivity|intros (? & [] & _)]|]. destruct (str_eqb (a_key a) x) eqn:E.
  - left. split; [reflexivity|]. exists a. split; [left; reflexivity|apply str_eqb_eq; exact E].
  - assert (NE : a_key a <> x) by (intros X; apply str_eqb_eq in X; congruence).
    destruct IH as [(-> & b & I & K)|(-> & N)]; [left|right]; (split; [reflexivity|]).
    + exists b. split; [right; exact I|exact K].
    + intros (b & [<-|I] & K); [contradiction|]. apply N. exists b. auto.
Qed.
Lemma attempt_spec q x : (exists r, attempt q x = Some r /\ accepts q x r) \/ (attempt q x = None /\ rejects q x).
Proof.
  unfold attempt. destruct x as [|c x].
  - destruct (q_default q) as [d|] eqn:D.
    + left. exists d. split; [reflexivity|]. left. auto.
    + destruct (find_key (q_answers q) []) as [(E & K)|(E & K)]; rewrite E; [left; exists []|right]; (split; [reflexivity|]).
      * right. split; [auto|]. split; [exact K|reflexivity].
      * split; [auto|exact K].
  - destruct (find_key (q_answers q) (c :: x)) as [(E & K)|(E & K)]; rewrite E; [left; exists (c :: x)|right]; (split; [reflexivity|]).
    + right. split; [left; discriminate|]. split; [exact K|reflexivity].
    + split; [left; discriminate|exact K].
Qed.
Lemma accepts_unique q x r r' : accepts q x r -> accepts q x r' -> r = r'.
Proof. intros [(A & B)|([A|A] & B & C)] [(A' & B')|([A'|A'] & B' & C')]; congruence. Qed.
Lemma accepts_rejects q x r : accepts q x r -> rejects q x -> False.
Proof. intros [(A & B)|([A|A] & B & C)] ([A'|A'] & B'); try congruence; auto. Qed.
Lemma attempt_some q x r : attempt q x = Some r <-> accepts q x r.
Proof.
  destruct (attempt_spec q x) as [(r' & E & A)|(E & R)]; rewrite E.
  - split; [intros X; injection X as <-; exact A|]. intros A'. f_equal. apply (accepts_unique A A').
  - split; [discriminate|]. intros A. destruct (accepts_rejects A R).
Qed.
Lemma attempt_none q x : attempt q x = None <-> rejects q x.
Proof.
  destruct (attempt_spec q x) as [(r' & E & A)|(E & R)]; rewrite E.
  - split; [discriminate|]. intros R. destruct (accepts_rejects A R).
  - split; auto.
Qed.
Lemma lines_app s a s' b s'' : lines s a s' -> lines s' b s'' -> lines s (a ++ b) s''.
Proof. induction 1 as [|l rest ls s' L _ IH]; intros B; [exact B|]. cbn. constructor; auto. Qed.
(** what the loop does after some rejected lines *)
Lemma loop_skip u q s ls s' : lines s ls s' -> forall xs, Forall2 (typed u) ls xs -> Forall (rejects q) xs -> forall fuel,
  ask_loop u (length ls + fuel) q s
  = match ask_loop u fuel q s' with Some (r, out, s'') => Some (r, map PNotUnderstood xs ++ out, s'') | None => None end.
Proof.
  induction 1 as [s|l rest ls s' L H IH]; intros xs T R fuel.
  - inversion T; subst. cbn. destruct (ask_loop u fuel q s) as [((r & o) & s'')|]; reflexivity.
  - inversion T as [|? x ? xs' T1 T2]; subst. inversion R as [|? ? R1 R2]; subst. cbn [length Nat.add ask_loop].
    rewrite (proj2 (read_line_some _ _ _) (conj eq_refl L)). rewrite (typed_unique (trim_end_typed u l) T1).
    rewrite (proj2 (attempt_none _ _) R1), (IH _ T2 R2). destruct (ask_loop u fuel q s') as [((r & o) & s'')|]; reflexivity.
Qed.
Lemma loop_inv u q fuel : forall s r out s', ask_loop u fuel q s = Some (r, out, s') ->
  exists ls xs s1, lines s ls s1 /\ Forall2 (typed u) ls xs /\ Forall (rejects q) xs /\ out = map PNotUnderstood xs /\ length ls < fuel
    /\ ((r = AErr /\ fails s1 s') \/ exists l x k, r = AOk k /\ lines s1 [l] s' /\ typed u l x /\ accepts q x k).
Proof.
  induction fuel as [|fuel IH]; intros s r out s' E; [discriminate E|]. cbn [ask_loop] in E.
  destruct (read_line s) as ([l|] & s1) eqn:R.
  - apply read_line_some in R. destruct R as (-> & L). destruct (attempt q (trim_end u l)) as [k|] eqn:A.
    + injection E as <- <- <-. exists [], [], (map IChar l ++ s1). split; [constructor|]. split; [constructor|]. split; [constructor|]. split; [reflexivity|].
      split; [cbn; lia|]. right. exists l, (trim_end u l), k. split; [reflexivity|]. split; [constructor; [assumption|constructor]|]. split; [apply trim_end_typed|]. apply attempt_some. exact A.
    + destruct (ask_loop u fuel q s1) as [((r1 & o1) & s2)|] eqn:F; [|discriminate E]. injection E as <- <- <-.
      destruct (IH _ _ _ _ F) as (ls & xs & s3 & H1 & H2 & H3 & -> & H4 & H5). exists (l :: ls), (trim_end u l :: xs), s3.
      split; [constructor; assumption|]. split; [constructor; [apply trim_end_typed|assumption]|]. split; [constructor; [apply attempt_none; exact A|assumption]|].
      split; [reflexivity|]. split; [cbn; lia|exact H5].
  - injection E as <- <- <-. apply read_line_none in R. exists [], [], s. split; [constructor|]. split; [constructor|]. split; [constructor|]. split; [reflexivity|]. split; [cbn; lia|auto].
Qed.

Section Theorems.
Context (u : unicode).

(** ** C61 *)

(** A question returns [k] exactly when some lines are rejected, none of them being a key or asking for the default, then a line gives [k]:
    the default when it's blank and there's one, else itself. Nothing after that line is read. *)
Theorem C61_answer q s k out s' :
  (exists fuel, ask u fuel q s = Some (AOk k, out, s'))
  <-> exists ls xs l x s1, lines s ls s1 /\ Forall2 (typed u) ls xs /\ Forall (rejects q) xs
      /\ lines s1 [l] s' /\ typed u l x /\ accepts q x k /\ out = prompt q ++ map PNotUnderstood xs.
Proof.
  split.
  - intros (fuel & E). unfold ask in E. destruct (ask_loop u fuel q s) as [((r & o) & s2)|] eqn:F; [|discriminate E]. injection E as -> <- ->.
    destruct (loop_inv _ _ _ _ F) as (ls & xs & s1 & H1 & H2 & H3 & -> & _ & [(X & _)|(l & x & k' & X & H4 & H5 & H6)]); [discriminate X|].
    injection X as <-. exists ls, xs, l, x, s1. repeat split; assumption.
  - intros (ls & xs & l & x & s1 & H1 & H2 & H3 & H4 & H5 & H6 & ->). exists (length ls + 1). unfold ask. rewrite (loop_skip H1 H2 H3).
    inversion H4 as [|? rest ? ? L H7]; subst. inversion H7; subst. cbn [ask_loop]. rewrite (proj2 (read_line_some _ _ _) (conj eq_refl L)).
    rewrite (typed_unique (trim_end_typed u l) H5), (proj2 (attempt_some _ _ _) H6), app_nil_r. reflexivity.
Qed.
(** So: the default, for a blank line, or a key which was typed *)
Theorem C61_returned q fuel s k out s' : ask u fuel q s = Some (AOk k, out, s') ->
  exists s1 l x, lines s1 [l] s' /\ typed u l x /\ ((x = [] /\ q_default q = Some k) \/ (x = k /\ key_of q k)).
Proof.
  intros E. destruct (proj1 (C61_answer q s k out s') (ex_intro _ fuel E)) as (ls & xs & l & x & s1 & _ & _ & _ & H4 & H5 & H6 & _).
  exists s1, l, x. split; [assumption|]. split; [assumption|]. destruct H6 as [(-> & D)|(_ & K & ->)]; auto.
Qed.
(** It fails exactly when the input does, before a line is accepted *)
Theorem C61_error q s out s' :
  (exists fuel, ask u fuel q s = Some (AErr, out, s'))
  <-> exists ls xs s1, lines s ls s1 /\ Forall2 (typed u) ls xs /\ Forall (rejects q) xs /\ fails s1 s' /\ out = prompt q ++ map PNotUnderstood xs.
Proof.
  split.
  - intros (fuel & E). unfold ask in E. destruct (ask_loop u fuel q s) as [((r & o) & s2)|] eqn:F; [|discriminate E]. injection E as -> <- ->.
    destruct (loop_inv _ _ _ _ F) as (ls & xs & s1 & H1 & H2 & H3 & -> & _ & [(_ & X)|(l & x & k' & X & _)]); [|discriminate X].
    exists ls, xs, s1. repeat split; assumption.
  - intros (ls & xs & s1 & H1 & H2 & H3 & H4 & ->). exists (length ls + 1). unfold ask. rewrite (loop_skip H1 H2 H3).
    cbn [ask_loop]. apply read_line_none in H4. rewrite H4, app_nil_r. reflexivity.
Qed.
(** What is shown before: the question, then each answer with its key, which is bold when it's the default *)
Theorem C61_prompt q : prompt q
  = (match q_md q with Some md => [PText md] | None => [] end)
    ++ concat (map (fun a => [PKey (match q_default q with Some d => if list_eq_dec N.eq_dec d (a_key a) then true else false | None => false end) (a_key a); PText (a_md a)]) (q_answers q)).
Proof.
  unfold prompt. f_equal. rewrite flat_map_concat_map. f_equal. apply map_ext. intros a. f_equal. f_equal. destruct (q_default q) as [d|]; [|reflexivity].
  destruct (list_eq_dec N.eq_dec d (a_key a)) as [E|N]; [apply str_eqb_eq; exact E|]. destruct (str_eqb d (a_key a)) eqn:E; [|reflexivity]. apply str_eqb_eq in E. contradiction.
Qed.
(** Building a question *)
Theorem C61_build md q key amd d :
  q_md (question_new md) = Some md /\ q_answers (question_new md) = [] /\ q_default (question_new md) = None
  /\ q_md (add_answer q key amd) = q_md q /\ q_default (add_answer q key amd) = q_default q
  /\ (forall k, key_of (add_answer q key amd) k <-> key_of q k \/ k = key)
  /\ q_answers (add_answer q key amd) = q_answers q ++ [mkAnswer key amd]
  /\ q_md (set_default q d) = q_md q /\ q_answers (set_default q d) = q_answers q /\ q_default (set_default q d) = Some d.
Proof.
  repeat split.
  - intros (a & I & <-). cbn in I. apply in_app_or in I. destruct I as [I|[<-|[]]]; [left; exists a; auto|right; reflexivity].
  - intros [(a & I & <-)| ->]; [exists a|exists (mkAnswer key amd)]; (split; [apply in_or_app|reflexivity]); [auto|right; left; reflexivity].
Qed.

(** ** C62 *)
Lemma rejected_forever q s : lines s [[]] s -> rejects q [] -> forall fuel, ask u fuel q s = None.
Proof.
  intros L R fuel. unfold ask. enough (ask_loop u fuel q s = None) as -> by reflexivity. induction fuel as [|fuel IH]; [reflexivity|].
  assert (T : Forall2 (typed u) [[]] [[]]).
  { constructor; [|constructor]. exists []. split; [reflexivity|]. split; [constructor|]. intros y c X. destruct y; discriminate X. }
  pose proof (loop_skip L T (Forall_cons _ R (Forall_nil _)) fuel) as X. rewrite IH in X. exact X.
Qed.
(** With a default, or when the empty text is a key, the end of the input is an answer: at most one more line than chars is read *)
Theorem C62_ends_partial q s : (exists d, q_default q = Some d) \/ key_of q [] -> exists r out s', ask u (S (length s)) q s = Some (r, out, s').
Proof.
  intros H. assert (NR : ~ rejects q []).
  { intros ([X|X] & K); [apply X; reflexivity|]. destruct H as [(d & D)|K']; [congruence|auto]. }
  unfold ask. enough (X : forall n s, length s <= n -> exists r out s', ask_loop u (S n) q s = Some (r, out, s')).
  { destruct (X _ s (le_n _)) as (r & out & s' & ->). eauto. }
  induction n as [|n IH]; intros t L; cbn [ask_loop]; destruct (read_line t) as ([l|] & t') eqn:R; eauto.
  - destruct t; [|cbn in L; lia]. injection R as <- <-. cbn [trim_end]. destruct (attempt_spec q []) as [(r & -> & _)|(_ & X)]; [eauto|contradiction].
  - destruct (attempt q (trim_end u l)) as [k|] eqn:A; [eauto|]. apply read_line_some in R. destruct R as (-> & LI).
    destruct l as [|c l]; [apply attempt_none in A; contradiction|]. rewrite app_length, map_length in L. cbn [length] in L.
    destruct (IH t') as (r & out & s' & E); [lia|]. cbn [ask_loop] in E. rewrite E. eauto.
Qed.
(** Exactly when the asking returns, for every input without failure *)
Theorem C62_iff q s : ~ In IFail s ->
  (exists fuel r, ask u fuel q s = Some r)
  <-> (exists d, q_default q = Some d) \/ key_of q [] \/ exists ls l s1 s' x, lines s ls s1 /\ lines s1 [l] s' /\ typed u l x /\ x <> [] /\ key_of q x.
Proof.
  intros NF. split.
  - intros (fuel & ((r & out) & s') & E). destruct r as [k|].
    + destruct (proj1 (C61_answer q s k out s') (ex_intro _ fuel E)) as (ls & xs & l & x & s1 & H1 & _ & _ & H4 & H5 & H6 & _).
      destruct H6 as [(_ & D)|(_ & K & ->)]; [left; eauto|]. right. destruct x as [|c x]; [left; exact K|]. right.
      exists ls, l, s1, s', (c :: x). repeat split; try assumption. discriminate.
    + destruct (proj1 (C61_error q s out s') (ex_intro _ fuel E)) as (ls & xs & s1 & H1 & _ & _ & H4 & _). exfalso.
      assert (X : forall s ls s1, lines s ls s1 -> In IFail s1 -> In IFail s).
      { clear. induction 1 as [|l rest ls s' L H IH]; intros I; [exact I|]. apply in_or_app. right. auto. }
      apply NF, (X _ _ _ H1). destruct H4 as (b & _ & ->). apply in_or_app. right. left. reflexivity.
  - intros [H|[H|(ls & l & s1 & s' & x & H1 & H2 & H3 & H4 & H5)]].
    + destruct (@C62_ends_partial q s) as (r & out & s' & E); [auto|]. eauto.
    + destruct (@C62_ends_partial q s) as (r & out & s' & E); [auto|]. eauto.
    + (* the loop returns at this line or before *)
      assert (X : exists ms ys m y t t' k, lines s ms t /\ Forall2 (typed u) ms ys /\ Forall (rejects q) ys /\ lines t [m] t' /\ typed u m y /\ accepts q y k).
      { clear NF. induction H1 as [s|l0 rest ls s1 L0 H1 IH].
        - exists [], [], l, x, s, s', x. split; [constructor|]. split; [constructor|]. split; [constructor|]. split; [assumption|]. split; [assumption|]. right. auto.
        - destruct (attempt_spec q (trim_end u l0)) as [(k & _ & A)|(_ & R)].
          + exists [], [], l0, (trim_end u l0), (map IChar l0 ++ rest), rest, k. split; [constructor|]. split; [constructor|]. split; [constructor|]. split; [constructor; [assumption|constructor]|]. split; [apply trim_end_typed|assumption].
          + destruct (IH H2) as (ms & ys & m & y & t & t' & k & A1 & A2 & A3 & A4 & A5 & A6). exists (l0 :: ms), (trim_end u l0 :: ys), m, y, t, t', k.
            split; [constructor; assumption|]. split; [constructor; [apply trim_end_typed|assumption]|]. split; [constructor; assumption|]. auto. }
      destruct X as (ms & ys & m & y & t & t' & k & A1 & A2 & A3 & A4 & A5 & A6).
      destruct (proj2 (C61_answer q s k (prompt q ++ map PNotUnderstood ys) t')) as (fuel & E); [|eauto].
      exists ms, ys, m, y, t. repeat split; assumption.
Qed.

(** ** C75 *)
Lemma exotic_spec q : has_exotic_default q = true <-> exists d, q_default q = Some d /\ ~ key_of q d.
Proof.
  unfold has_exotic_default, key_of. destruct (q_default q) as [d|]; [|split; [discriminate|intros (d & X & _); discriminate X]].
  enough (X : forall l, (fix go (l : list Answer) : bool := match l with [] => true | a :: r => if str_eqb (a_key a) d then false else go r end) l = true <-> ~ exists a, In a l /\ a_key a = d).
  { rewrite X. split; [intros N; exists d; auto|intros (d' & E & N); injection E as <-; exact N]. }
  induction l as [|a l IH]; [split; [intros _ (? & [] & _)|reflexivity]|]. destruct (str_eqb (a_key a) d) eqn:E.
  - apply str_eqb_eq in E. split; [discriminate|]. intros N. exfalso. apply N. exists a. split; [left; reflexivity|exact E].
  - assert (NE : a_key a <> d) by (intros X; apply str_eqb_eq in X; congruence). rewrite IH. split; intros N (b & I & K); apply N; [destruct I as [<-|I]; [contradiction|exists b; auto]|exists b; split; [right; exact I|exact K]].
Qed.
Theorem C75_exotic q : has_exotic_default q = true <-> exists d, q_default q = Some d /\ ~ key_of q d.
Proof. apply exotic_spec. Qed.
Lemma arms_spec key l : forall i, (exists j a, arms key l i = CBlock (i + j) /\ nth_error l j = Some a /\ a_key a = key /\ forall j' a', j' < j -> nth_error l j' = Some a' -> a_key a' <> key)
  \/ (arms key l i = CUnreachable /\ ~ exists a, In a l /\ a_key a = key).
Proof.
  induction l as [|a l IH]; intros i; cbn [arms]; [right; split; [reflexivity|intros (? & [] & _)]|]. destruct (str_eqb (a_key a) key) eqn:E.
  - apply str_eqb_eq in E. left. exists 0, a. rewrite Nat.add_0_r. split; [reflexivity|]. split; [reflexivity|]. split; [exact E|]. intros; lia.
  - assert (NE : a_key a <> key) by (intros X; apply str_eqb_eq in X; congruence).
    destruct (IH (S i)) as [(j & b & -> & N & K & F)|(-> & N)].
    + left. exists (S j), b. rewrite Nat.add_succ_r. split; [reflexivity|]. split; [exact N|]. split; [exact K|]. intros [|j'] a' L X; [injection X as <-; exact NE|]. apply (F j'); [lia|exact X].
    + right. split; [reflexivity|]. intros (b & [<-|I] & K); [contradiction|]. apply N. exists b. auto.
Qed.
(** The macro executes the block of the first answer whose key is what the question returns; it panics only for a default which isn't
    a key, or when the input fails, and never reaches its last arm *)
Theorem C75_macro fuel md default answers s c s' : ask_macro u fuel md default answers s = Some (c, s') ->
  let q := mkQuestion (Some md) answers default in
  match c with
  | CBlock i => exists k out a, ask u fuel q s = Some (AOk k, out, s') /\ nth_error answers i = Some a /\ a_key a = k
                /\ (forall j b, j < i -> nth_error answers j = Some b -> a_key b <> k) /\ (forall d, default = Some d -> key_of q d)
  | CExotic => s' = s /\ exists d, default = Some d /\ ~ key_of q d
  | CUnwrap => exists out, ask u fuel q s = Some (AErr, out, s')
  | CUnreachable => False
  end.
Proof.
  intros E q. unfold ask_macro in E. fold q in E. destruct (has_exotic_default q) eqn:X.
  - injection E as <- <-. apply exotic_spec in X. auto.
  - assert (ND : forall d, default = Some d -> key_of q d).
    { intros d D. destruct (find_key (q_answers q) d) as [(_ & K)|(_ & N)]; [exact K|]. exfalso.
      rewrite (proj2 (exotic_spec q)) in X by (exists d; split; [exact D|exact N]). discriminate X. }
    destruct (ask u fuel q s) as [(([k|] & out) & s2)|] eqn:A; [| |discriminate E]; injection E as <- <-; [|eauto].
    assert (K : key_of q k).
    { destruct (C61_returned _ _ _ A) as (s1 & l & x & _ & _ & [(_ & D)|(_ & K)]); [apply ND; exact D|exact K]. }
    destruct (arms_spec k answers 0) as [(j & a & -> & N & KK & F)|(_ & N)]; [|contradiction]. exists k, out, a. auto.
Qed.
End Theorems.

(** ** Examples and refutations *)
Definition type (l : list str) : list input := map IChar (concat (map (fun x => x ++ [10%N]) l)).
Definition yes_no (d : option str) : Question := mkQuestion (Some [63%N]) [mkAnswer [121%N] [89%N]; mkAnswer [110%N] [78%N]] d.
(** "maybe", "y " : y; then the rest isn't read *)
Example C61_example : ask demo 5 (yes_no (Some [110%N])) (type [[109%N]; [121; 32]%N; [122%N]])
  = Some (AOk [121%N], prompt (yes_no (Some [110%N])) ++ [PNotUnderstood [109%N]], type [[122%N]]).
Proof. reflexivity. Qed.
(** a blank line is the default *)
Example C61_default_example : exists out, ask demo 5 (yes_no (Some [110%N])) (type [[32; 9]%N; [121%N]]) = Some (AOk [110%N], out, type [[121%N]]).
Proof. eexists. reflexivity. Qed.
(** and the end of the input too *)
Example C62_default_example : exists out, ask demo 5 (yes_no (Some [110%N])) (type [[122%N]]) = Some (AOk [110%N], out, []).
Proof. eexists. reflexivity. Qed.
(** A key which ends with a space can't be chosen *)
Example C61_unreachable_key : forall u s fuel out s', is_white u 32 = true -> ask u fuel (mkQuestion None [mkAnswer [97; 32]%N []] None) s <> Some (AOk [97; 32]%N, out, s').
Proof.
  intros u s fuel out s' W E. destruct (C61_returned _ _ _ _ E) as (s1 & l & x & _ & (w & _ & _ & L) & [(_ & X)|(-> & _)]); [discriminate X|].
  rewrite (L [97%N] 32%N eq_refl) in W. discriminate W.
Qed.
(** At the end of the input, a question without default asks forever *)
Theorem C62_eof_refuted : exists q s, q_answers q <> [] /\ forall u fuel, ask u fuel q s = None.
Proof.
  exists (yes_no None), []. split; [discriminate|]. intros u fuel. apply rejected_forever.
  - apply (@ls_cons [] [] [] []); [left; split; [intros []|reflexivity]|constructor].
  - split; [right; reflexivity|]. intros (a & [<-|[<-|[]]] & E); discriminate E.
Qed.
(** With two answers for a key the first block is executed *)
Example C75_example : ask_macro demo 3 [63%N] (Some [110%N]) [mkAnswer [121%N] []; mkAnswer [110%N] []; mkAnswer [110%N] []] [] = Some (CBlock 1, []).
Proof. reflexivity. Qed.

Print Assumptions C61_answer.
Print Assumptions C61_returned.
Print Assumptions C61_error.
Print Assumptions C61_prompt.
Print Assumptions C61_build.
Print Assumptions C62_ends_partial.
Print Assumptions C62_iff.
Print Assumptions C62_eof_refuted.
Print Assumptions C75_exotic.
Print Assumptions C75_macro.
