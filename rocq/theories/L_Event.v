(** * Lemmas on the event source *)
From Verif Require Import Base L_Base M_View M_Content M_Input M_Event S_Event.
Set Implicit Arguments.
Open Scope nat_scope.

(** ** Keys *)
Lemma keycode_eqb_char k c : keycode_eqb k (KChar c) = true <-> k = KChar c.
Proof. destruct k; cbn; try (split; discriminate). rewrite N.eqb_eq. split; congruence. Qed.
Lemma keycode_eqb_eq a b : keycode_eqb a b = true <-> a = b.
Proof.
  split; [|intros <-; destruct a; try reflexivity; apply N.eqb_refl].
  destruct a, b; cbn; try discriminate; try reflexivity; intros E; apply N.eqb_eq in E; congruence.
Qed.
Lemma keycodes_eqb_eq a : forall b, keycodes_eqb a b = true <-> a = b.
Proof.
  induction a as [|x a IH]; intros [|y b]; cbn; try (split; discriminate); [tauto|].
  rewrite andb_true_iff, keycode_eqb_eq, IH. split; [intros (-> & ->); reflexivity|intros E; injection E as -> ->; auto].
Qed.
Lemma key_eqb_eq a b : key_eqb a b = true <-> a = b.
Proof.
  unfold key_eqb. rewrite andb_true_iff, N.eqb_eq, keycodes_eqb_eq. destruct a, b; cbn. split; [intros (-> & ->); reflexivity|intros E; injection E as -> ->; auto].
Qed.
Lemma is_seq_start_spec k : is_seq_start k = true <-> alt_underscore k.
Proof. unfold is_seq_start, alt_underscore, ALT. rewrite andb_true_iff, keycode_eqb_char, N.eqb_eq. tauto. Qed.
Lemma is_seq_end_spec k : is_seq_end k = true <-> alt_backslash k.
Proof. unfold is_seq_end, alt_backslash, ALT. rewrite andb_true_iff, keycode_eqb_char, N.eqb_eq. tauto. Qed.
Lemma intersects_spec k : intersects (k_mods k) (N.lor ALT CONTROL) = false <-> plain k.
Proof.
  unfold intersects, plain. rewrite negb_false_iff, N.eqb_eq. change (N.lor ALT CONTROL) with 6%N. split.
  - intros H. assert (A : N.testbit (N.land (k_mods k) 6) 1 = false) by (rewrite H; apply N.bits_0).
    assert (B : N.testbit (N.land (k_mods k) 6) 2 = false) by (rewrite H; apply N.bits_0).
    rewrite N.land_spec in A, B. change (N.testbit 6 1) with true in A. change (N.testbit 6 2) with true in B.
    rewrite andb_true_r in A, B. split; assumption.
  - intros (A & B). apply N.bits_inj_0. intros i. rewrite N.land_spec.
    destruct (N.eq_dec i 1) as [->|N1]; [rewrite A; reflexivity|]. destruct (N.eq_dec i 2) as [->|N2]; [rewrite B; reflexivity|].
    apply andb_false_intro2. destruct i as [|[[p|p|]|[p|p|]|]]; try reflexivity; try lia; destruct p; reflexivity || lia.
Qed.
Lemma plain_not_end k : plain k -> ~ alt_backslash k.
Proof. intros (_ & P) (_ & E). rewrite E in P. discriminate P. Qed.
Lemma start_not_plain k : alt_underscore k -> ~ plain k.
Proof. intros (_ & E) (_ & P). rewrite E in P. discriminate P. Qed.
Lemma start_not_end k : alt_underscore k -> ~ alt_backslash k.
Proof. intros (E & _) (E' & _). congruence. Qed.

(** ** Cutting a stream *)
Lemma cut_app l items p : cut l items p -> p = [] -> forall l' items' p', cut l' items' p' -> cut (l ++ l') (items ++ items') p'.
Proof.
  induction 1 as [|a inner A I|keys rest items p S C IH|a inner e rest items p A I B C IH|e rest items p B C IH]; intros E l' items' p' C'.
  - exact C'.
  - discriminate E.
  - rewrite <- app_assoc. cbn [app]. apply cut_seq; [assumption|]. apply IH; assumption.
  - rewrite <- !app_assoc. cbn [app]. apply (@cut_broken a inner e (rest ++ l') (items ++ items') p' A I B). apply IH; assumption.
  - cbn [app]. apply cut_single; [assumption|]. apply IH; assumption.
Qed.
Lemma cut_opened l items p : cut l items p -> p <> [] ->
  exists l0 a inner, l = l0 ++ map TKey (a :: inner) /\ p = a :: inner /\ alt_underscore a /\ Forall plain inner /\ cut l0 items [].
Proof.
  induction 1 as [|a inner A I|keys rest items p S C IH|a inner e rest items p A I B C IH|e rest items p B C IH]; intros E.
  - congruence.
  - exists [], a, inner. repeat split; try assumption; try constructor; apply A.
  - destruct (IH E) as (l0 & a & inner & -> & -> & A & I & C'). exists (map TKey keys ++ l0), a, inner.
    rewrite app_assoc. repeat split; try assumption; try apply A. apply cut_seq; assumption.
  - destruct (IH E) as (l0 & a' & inner' & -> & -> & A' & I' & C'). exists (map TKey (a :: inner) ++ e :: l0), a', inner'.
    rewrite <- app_assoc. repeat split; try assumption; try apply A'. apply cut_broken; assumption.
  - destruct (IH E) as (l0 & a' & inner' & -> & -> & A' & I' & C'). exists (e :: l0), a', inner'.
    repeat split; try assumption; try apply A'. apply cut_single; assumption.
Qed.
Lemma cut_snoc_single l items e : cut l items [] -> (forall k, e = TKey k -> ~ alt_underscore k) -> cut (l ++ [e]) (items ++ [ISingle e]) [].
Proof. intros C B. apply (cut_app C eq_refl). apply cut_single; [assumption|constructor]. Qed.
Lemma cut_snoc_open l items k : cut l items [] -> alt_underscore k -> cut (l ++ [TKey k]) items [k].
Proof. intros C A. rewrite <- (app_nil_r items). apply (cut_app C eq_refl). apply (@cut_open k []); [assumption|constructor]. Qed.
Lemma cut_snoc_plain l items p k : cut l items p -> p <> [] -> plain k -> cut (l ++ [TKey k]) items (p ++ [k]).
Proof.
  intros C N P. destruct (cut_opened C N) as (l0 & a & inner & -> & -> & A & I & C').
  rewrite <- app_assoc, <- (app_nil_r items). apply (cut_app C' eq_refl).
  change [TKey k] with (map TKey [k]). rewrite <- map_app. cbn [app]. apply cut_open; [assumption|]. apply Forall_app; auto.
Qed.
Lemma cut_snoc_end l items p k : cut l items p -> p <> [] -> alt_backslash k ->
  cut (l ++ [TKey k]) (items ++ [ISeq (p ++ [k])]) [] .
Proof.
  intros C N P. destruct (cut_opened C N) as (l0 & a & inner & -> & -> & A & I & C').
  rewrite <- app_assoc. apply (cut_app C' eq_refl).
  change [TKey k] with (map TKey [k]). rewrite <- map_app. rewrite <- (app_nil_r (map _ _)). apply cut_seq; [|constructor].
  exists a, inner, k. repeat split; try assumption; apply A || apply P.
Qed.
Lemma cut_snoc_broken l items p e : cut l items p -> p <> [] -> breaks e ->
  cut (l ++ [e]) (items ++ map (fun k => ISingle (TKey k)) p ++ [ISingle e]) [].
Proof.
  intros C N P. destruct (cut_opened C N) as (l0 & a & inner & -> & -> & A & I & C').
  rewrite <- app_assoc. apply (cut_app C' eq_refl). apply cut_broken; try assumption. constructor.
Qed.

(** Every stream has one cut *)
Fixpoint cutg (op : option (list KeyEvent)) (l : list TermEvent) : list item * list KeyEvent :=
  match l with
  | [] => ([], match op with Some ks => ks | None => [] end)
  | e :: r =>
    match op with
    | None =>
      match e with
      | TKey k => if is_seq_start k then cutg (Some [k]) r else let (i, p) := cutg None r in (ISingle e :: i, p)
      | _ => let (i, p) := cutg None r in (ISingle e :: i, p)
      end
    | Some ks =>
      let broken := let (i, p) := cutg None r in (map (fun k => ISingle (TKey k)) ks ++ ISingle e :: i, p) in
      match e with
      | TKey k => if is_seq_end k then let (i, p) := cutg None r in (ISeq (ks ++ [k]) :: i, p)
                  else if intersects (k_mods k) (N.lor ALT CONTROL) then broken else cutg (Some (ks ++ [k])) r
      | _ => broken
      end
    end
  end.
Lemma cutg_plain inner r : Forall plain inner -> forall ks, cutg (Some ks) (map TKey inner ++ r) = cutg (Some (ks ++ inner)) r.
Proof.
  induction 1 as [|k inner P F IH]; intros ks; [rewrite app_nil_r; reflexivity|].
  cbn [map app cutg]. replace (is_seq_end k) with false.
  - rewrite (proj2 (intersects_spec k) P), IH, <- app_assoc. reflexivity.
  - symmetry. destruct (is_seq_end k) eqn:E; [|reflexivity]. apply is_seq_end_spec in E. destruct (plain_not_end P E).
Qed.
Lemma cutg_breaks ks e r : breaks e -> cutg (Some ks) (e :: r) = let (i, p) := cutg None r in (map (fun k => ISingle (TKey k)) ks ++ ISingle e :: i, p).
Proof.
  intros B. cbn [cutg]. destruct e as [k| | | |]; try reflexivity. destruct (B k eq_refl) as (P & E).
  destruct (is_seq_end k) eqn:X; [apply is_seq_end_spec in X; destruct (E X)|].
  destruct (intersects (k_mods k) (N.lor ALT CONTROL)) eqn:Y; [reflexivity|]. apply intersects_spec in Y. destruct (P Y).
Qed.
Lemma cut_cutg l items p : cut l items p -> cutg None l = (items, p).
Proof.
  induction 1 as [|a inner A I|keys rest items p S C IH|a inner e rest items p A I B C IH|e rest items p B C IH].
  - reflexivity.
  - cbn [map cutg]. rewrite (proj2 (is_seq_start_spec a) A). rewrite <- (app_nil_r (map _ _)), (cutg_plain _ I). reflexivity.
  - destruct S as (a & inner & z & -> & A & I & Z). cbn [map app cutg]. rewrite (proj2 (is_seq_start_spec a) A).
    rewrite map_app, <- app_assoc, (cutg_plain _ I). cbn [map app cutg]. rewrite (proj2 (is_seq_end_spec z) Z), IH. reflexivity.
  - cbn [map app]. cbn [cutg]. rewrite (proj2 (is_seq_start_spec a) A), (cutg_plain _ I). rewrite (cutg_breaks _ _ B), IH. reflexivity.
  - cbn [cutg]. destruct e as [k| | | |]; try (rewrite IH; reflexivity).
    destruct (is_seq_start k) eqn:E; [apply is_seq_start_spec in E; destruct (B k eq_refl E)|]. rewrite IH. reflexivity.
Qed.
Lemma cut_unique l i p i' p' : cut l i p -> cut l i' p' -> i = i' /\ p = p'.
Proof. intros A B. apply cut_cutg in A. apply cut_cutg in B. rewrite A in B. injection B; auto. Qed.
Lemma alt_under_dec k : alt_underscore k \/ ~ alt_underscore k.
Proof. rewrite <- is_seq_start_spec. destruct (is_seq_start k); auto. Qed.
Lemma cut_total l : exists i p, cut l i p.
Proof.
  induction l as [|e l IH] using rev_ind; [exists [], []; constructor|]. destruct IH as (i & p & C).
  destruct p as [|a inner].
  - destruct e as [k| | | |]; try (eexists; eexists; apply (cut_snoc_single C); intros k' E; discriminate E).
    destruct (alt_under_dec k) as [A|A]; eexists; eexists; [apply (cut_snoc_open C A)|apply (cut_snoc_single C)]. intros k' E. injection E as <-. exact A.
  - assert (X : a :: inner <> []) by discriminate.
    destruct e as [k| | | |]; try (eexists; eexists; apply (cut_snoc_broken C X); intros k' E; discriminate E).
    destruct (is_seq_end k) eqn:E; [apply is_seq_end_spec in E; eexists; eexists; apply (cut_snoc_end C X E)|].
    destruct (intersects (k_mods k) (N.lor ALT CONTROL)) eqn:Y.
    + eexists; eexists; apply (cut_snoc_broken C X). intros k' Z. injection Z as <-.
      rewrite <- is_seq_end_spec, <- intersects_spec. split; congruence.
    + apply intersects_spec in Y. eexists; eexists; apply (cut_snoc_plain C X Y).
Qed.
Lemma cut_events l i p : cut l i p -> l = flat_map item_events i ++ map TKey p.
Proof.
  induction 1 as [|a inner A I|keys rest items p S C IH|a inner e rest items p A I B C IH|e rest items p B C IH].
  - reflexivity.
  - reflexivity.
  - cbn [flat_map item_events]. rewrite <- app_assoc, <- IH. reflexivity.
  - rewrite flat_map_app. cbn [flat_map item_events app]. rewrite <- app_assoc. cbn [app]. rewrite IH at 1. f_equal.
    generalize (a :: inner). clear. induction l as [|k l IH]; [reflexivity|]. cbn [map flat_map item_events app]. rewrite <- IH. reflexivity.
  - cbn [flat_map item_events app]. rewrite <- IH. reflexivity.
Qed.

(** ** Executions *)
Section Run.
Context {CS : Type} (transform : CS -> KeyEvent -> CS * option KeyComb) (options : EventSourceOptions).
Notation run := (run transform options).
Notation step := (step transform options).
Notation kept := (kept transform options).

Lemma run_app ls : forall s ls', run s (ls ++ ls') =
  match run s ls with Some (s1, os1) => match run s1 ls' with Some (s2, os2) => Some (s2, os1 ++ os2) | None => None end | None => None end.
Proof.
  induction ls as [|l ls IH]; intros s ls'; cbn [M_Event.run app].
  - destruct (run s ls') as [(s2 & os2)|]; reflexivity.
  - destruct (step s l) as [(s1 & os1)|]; [|reflexivity]. rewrite IH. destruct (run s1 ls) as [(s2 & os2)|]; [|reflexivity].
    destruct (run s2 ls') as [(s3 & os3)|]; [|reflexivity]. rewrite app_assoc. reflexivity.
Qed.
(** induction on executions *)
Lemma run_ind (P : source -> list obs -> Prop) s0 : P s0 [] ->
  (forall s os l s' os', P s os -> step s l = Some (s', os') -> P s' (os ++ os')) ->
  forall ls s os, run s0 ls = Some (s, os) -> P s os.
Proof.
  intros H0 H. induction ls as [|l ls IH] using rev_ind; intros s os R.
  - cbn in R. injection R as <- <-. exact H0.
  - rewrite run_app in R. destruct (run s0 ls) as [(s1 & os1)|]; [|discriminate]. cbn [M_Event.run] in R.
    destruct (step s1 l) as [(s2 & os2)|] eqn:E; [|discriminate]. injection R as <- <-. rewrite app_nil_r.
    apply (H _ _ _ _ _ (IH _ _ eq_refl) E).
Qed.
(** the same with the labels *)
Lemma run_ind_labels (P : list label -> source -> list obs -> Prop) s0 : P [] s0 [] ->
  (forall ls s os l s' os', P ls s os -> step s l = Some (s', os') -> P (ls ++ [l]) s' (os ++ os')) ->
  forall ls s os, run s0 ls = Some (s, os) -> P ls s os.
Proof.
  intros H0 H. induction ls as [|l ls IH] using rev_ind; intros s os R.
  - cbn in R. injection R as <- <-. exact H0.
  - rewrite run_app in R. destruct (run s0 ls) as [(s1 & os1)|]; [|discriminate]. cbn [M_Event.run] in R.
    destruct (step s1 l) as [(s2 & os2)|] eqn:E; [|discriminate]. injection R as <- <-. rewrite app_nil_r.
    apply (H _ _ _ _ _ _ (IH _ _ eq_refl) E).
Qed.
Lemma step_obs s l s' os : step s l = Some (s', os) -> os = [] \/ (exists o, os = [o]) \/ exists t, os = [OBroken t; OEnd].
Proof.
  intros E. destruct l; cbn [M_Event.step] in E.
  - destruct (s_pc s), r; try discriminate E; injection E as <- <-; eauto.
  - unfold go in E. destruct (s_pc s).
    all: repeat match type of E with context[if ?b then _ else _] => destruct b | context[match ?q with [] => _ | _ => _ end] => destruct q as [|[] ?] end;
    try discriminate E; injection E as <- <-; eauto.
  - destruct (alive s || rx_events s), (events s); try discriminate E; injection E as <- <-; eauto.
  - destruct (alive s || rx_seqs s), (seqs s); try discriminate E; injection E as <- <-; eauto.
  - destruct (alive s); [|discriminate E]. destruct (s_pc s); injection E as <- <-; eauto.
  - destruct (alive s); [|discriminate E]. injection E as <- <-; eauto.
  - destruct (alive s); [|discriminate E]. injection E as <- <-; eauto.
  - injection E as <- <-; eauto.
  - injection E as <- <-; eauto.
  - injection E as <- <-; eauto.
Qed.
(** Cutting an execution at an observation *)
Lemma run_split ls : forall s0 s a o b, run s0 ls = Some (s, a ++ o :: b) -> o <> OEnd ->
  exists ls1 l ls2 s1 s2 os, ls = ls1 ++ l :: ls2 /\ run s0 ls1 = Some (s1, a) /\ step s1 l = Some (s2, o :: os).
Proof.
  induction ls as [|l ls IH]; intros s0 s a o b R N.
  - cbn in R. destruct a; discriminate R.
  - cbn [M_Event.run] in R. destruct (step s0 l) as [(s1 & os1)|] eqn:E; [|discriminate].
    destruct (run s1 ls) as [(s2 & os2)|] eqn:R1; [|discriminate]. injection R as <- R.
    assert (L : (exists a', a = os1 ++ a' /\ os2 = a' ++ o :: b) \/ (a = [] /\ exists os, os1 = o :: os)).
    { destruct (step_obs _ _ E) as [->|[(x & ->)|(t & ->)]]; cbn [app] in R |- *.
      - left. exists a. auto.
      - destruct a as [|y a]; cbn [app] in R; [right; injection R as <- _; eauto|left; injection R as <- ->; eauto].
      - destruct a as [|y [|y' a]]; cbn [app] in R; [right; injection R as <- _; eauto|exfalso; congruence|left; injection R as <- <- ->; eauto]. }
    destruct L as [(a' & -> & ->)|(-> & os & ->)].
    + destruct (IH _ _ _ _ _ R1 N) as (ls1 & l' & ls2 & s3 & s4 & os & -> & R2 & S2).
      exists (l :: ls1), l', ls2, s3, s4, os. split; [reflexivity|]. split; [|assumption]. cbn [M_Event.run]. rewrite E, R2. reflexivity.
    + exists [], l, ls, s0, s1, os. auto.
Qed.

(** *** Deliveries *)
Fixpoint comb_after (c : CS) (items : list item) : CS :=
  match items with
  | [] => c
  | ISingle (TKey k) :: r => comb_after (fst (transform c k)) r
  | _ :: r => comb_after c r
  end.
Lemma kept_app i : forall c j, kept c (i ++ j) = kept c i ++ kept (comb_after c i) j.
Proof.
  induction i as [|[ks|[k|m|w h|g|p]] i IH]; intros c j; cbn [app S_Event.kept comb_after]; try (rewrite IH; reflexivity); [reflexivity| |].
  - destruct (transform c k) as (c' & [x|]); cbn [fst]; rewrite IH; [reflexivity|]. destruct (discard_raw_key_events options); reflexivity.
  - rewrite IH. destruct (kept_mouse options m); reflexivity.
Qed.
Lemma comb_after_app i : forall c j, comb_after c (i ++ j) = comb_after (comb_after c i) j.
Proof. induction i as [|[ks|[k|m|w h|g|p]] i IH]; intros c j; cbn [app comb_after]; try rewrite IH; reflexivity. Qed.

Definition next_items (n : next) : list item :=
  match n with NLoop => [] | NFlush ks e => map (fun k => ISingle (TKey k)) ks ++ [ISingle e] end.
Definition todo (p : pc) : list item :=
  match p with
  | PRead | PSeq _ | PDone => []
  | PFlush ks e => map (fun k => ISingle (TKey k)) ks ++ [ISingle e]
  | PEvent e => [ISingle e]
  | PCount _ n | PSend _ n | PWait n => next_items n
  end.
Definition current (p : pc) : list out :=
  match p with
  | PSeq ks => [OutSeq ks]
  | PCount t _ | PSend t _ => [OutEvent (te_event t) (key_combination t)]
  | _ => []
  end.
Record inv0 (c0 : CS) (s : source) (os : list obs) (dn td : list item) : Prop := {
  i_cut : cut (reads_of os) (dn ++ td) (match current_escape_sequence s with Some ks => ks | None => [] end);
  i_open : current_escape_sequence s <> Some [];
  i_read : s_pc s <> PRead -> current_escape_sequence s = None;
  i_outs : kept c0 dn = outs_of os ++ current (s_pc s);
  i_comb : s_pc s <> PDone -> combiner s = comb_after c0 dn;
  i_pc : s_pc s <> PDone -> td = todo (s_pc s)
}.
Definition inv c0 s os := exists dn td, inv0 c0 s os dn td.

Lemma reads_app a b : reads_of (a ++ b) = reads_of a ++ reads_of b.
Proof. apply flat_map_app. Qed.
Lemma outs_app a b : outs_of (a ++ b) = outs_of a ++ outs_of b.
Proof. apply flat_map_app. Qed.
Lemma sent_app a b : sent_of (a ++ b) = sent_of a ++ sent_of b.
Proof. apply flat_map_app. Qed.
Lemma got_app a b : got_of (a ++ b) = got_of a ++ got_of b.
Proof. apply flat_map_app. Qed.
Lemma seqs_app a b : seqs_of (a ++ b) = seqs_of a ++ seqs_of b.
Proof. apply flat_map_app. Qed.
Lemma gotseqs_app a b : gotseqs_of (a ++ b) = gotseqs_of a ++ gotseqs_of b.
Proof. apply flat_map_app. Qed.
Lemma unblocks_app a b : unblocks_of (a ++ b) = unblocks_of a ++ unblocks_of b.
Proof. apply flat_map_app. Qed.

Lemma set_double_click_spec (s : source (CS := CS)) t : exists lu b, set_double_click s t = (set_last_up s lu, mkTE (te_time t) (te_event t) b (key_combination t)).
Proof.
  unfold set_double_click.
  assert (X : exists lu b, (s, t) = (set_last_up s lu, mkTE (te_time t) (te_event t) b (key_combination t))).
  { exists (last_up s), (double_click t). destruct s, t; reflexivity. }
  destruct (te_event t) as [k|m|w h|g|p] eqn:E; try exact X. destruct (match m_kind m with MDown BLeft | MUp BLeft => true | _ => false end); [|exact X].
  eexists (match m_kind m with MUp BLeft => Some (mkClick (te_time t) (m_column m) (m_row m)) | _ => last_up s end), _. f_equal.
  - destruct (m_kind m) as [[]|[]|[]| | | | |]; destruct s; reflexivity.
  - instantiate (1 := match last_up s with Some l => N.eqb (m_column m) (c_x l) && N.eqb (m_row m) (c_y l) && N.ltb (te_time t - c_time l) DOUBLE_CLICK_MAX_DURATION || double_click t | None => double_click t end).
    destruct (last_up s) as [l|]; [|destruct t; cbn in *; subst; reflexivity].
    destruct (N.eqb (m_column m) (c_x l) && N.eqb (m_row m) (c_y l) && N.ltb (te_time t - c_time l) DOUBLE_CLICK_MAX_DURATION);
    destruct t; cbn in *; subst; reflexivity.
Qed.

Lemma inv_read c0 s os dn td e : inv0 c0 s os dn td -> s_pc s = PRead -> inv c0 (on_read s e) (os ++ [ORead e]).
Proof.
  intros [C O R K B T] E. rewrite E in *. specialize (B ltac:(discriminate)). specialize (T ltac:(discriminate)). cbn [todo current] in *. subst td.
  rewrite app_nil_r in *.
  assert (RD : reads_of (os ++ [ORead e]) = reads_of os ++ [e]) by (rewrite reads_app; reflexivity).
  assert (OD : outs_of (os ++ [ORead e]) = outs_of os) by (rewrite outs_app; cbn; apply app_nil_r).
  unfold on_read. destruct (current_escape_sequence s) as [keys|] eqn:Q.
  - assert (NK : keys <> []) by congruence.
    assert (BR : breaks e -> inv c0 (set_pc (set_seq s None) (PFlush keys e)) (os ++ [ORead e])).
    { intros H. exists dn, (map (fun k => ISingle (TKey k)) keys ++ [ISingle e]).
      split; cbn [set_pc set_seq current_escape_sequence s_pc combiner todo current]; try discriminate; auto.
      - rewrite RD. apply (cut_snoc_broken C NK H).
      - rewrite OD, app_nil_r. exact K. }
    destruct e as [k|m|w h|g|p]; try (apply BR; intros k X; discriminate X).
    destruct (is_seq_end k) eqn:Z.
    + apply is_seq_end_spec in Z. exists (dn ++ [ISeq (keys ++ [k])]), [].
      split; cbn [set_pc set_seq current_escape_sequence s_pc combiner todo current]; try discriminate; auto.
      * rewrite RD, app_nil_r. apply (cut_snoc_end C NK Z).
      * rewrite OD, kept_app, K. reflexivity.
      * intros _. rewrite comb_after_app. exact B.
    + destruct (intersects (k_mods k) (N.lor ALT CONTROL)) eqn:Y; cbn [negb].
      * apply BR. intros k' X. injection X as <-. rewrite <- is_seq_end_spec, <- intersects_spec. split; congruence.
      * apply intersects_spec in Y. exists dn, [].
        split; cbn [set_pc set_seq current_escape_sequence s_pc combiner todo current]; try rewrite E; try discriminate; auto.
        -- rewrite RD, app_nil_r. apply (cut_snoc_plain C NK Y).
        -- intros X. injection X as X. destruct keys; discriminate X.
        -- intros X. congruence.
        -- rewrite OD, app_nil_r. exact K.
  - assert (SG : (forall k, e = TKey k -> ~ alt_underscore k) -> inv c0 (set_pc s (PEvent e)) (os ++ [ORead e])).
    { intros H. exists dn, [ISingle e].
      split; cbn [set_pc set_seq current_escape_sequence s_pc combiner todo current]; try rewrite Q; try discriminate; auto.
      - rewrite RD. apply (cut_snoc_single C H).
      - rewrite OD, app_nil_r. exact K. }
    destruct e as [k|m|w h|g|p]; try (apply SG; intros k X; discriminate X).
    destruct (is_seq_start k) eqn:Z.
    + apply is_seq_start_spec in Z. exists dn, [].
      split; cbn [set_pc set_seq current_escape_sequence s_pc combiner todo current]; try rewrite E; try discriminate; auto.
      * rewrite RD, app_nil_r. apply (cut_snoc_open C Z).
      * intros X. congruence.
      * rewrite OD, app_nil_r. exact K.
    + apply SG. intros k' X. injection X as <-. rewrite <- is_seq_start_spec. congruence.
Qed.
Lemma inv_move c0 s os dn td s' os' dn' td' : inv0 c0 s os dn td -> s_pc s <> PRead -> s_pc s <> PDone -> s_pc s' <> PDone -> reads_of os' = [] ->
  dn' ++ td' = dn ++ td -> current_escape_sequence s' = current_escape_sequence s ->
  kept c0 dn' = outs_of os ++ outs_of os' ++ current (s_pc s') -> combiner s' = comb_after c0 dn' -> td' = todo (s_pc s') ->
  inv c0 s' (os ++ os').
Proof.
  intros [C O R K B T] E1 E2 E3 RD D Q K' B' T'. exists dn', td'. split; auto.
  - rewrite reads_app, RD, app_nil_r, D, Q. exact C.
  - rewrite Q. exact O.
  - intros _. rewrite Q. auto.
  - rewrite outs_app, <- app_assoc. exact K'.
Qed.
Lemma inv_event c0 s os dn td now e : inv0 c0 s os dn td -> s_pc s = PEvent e -> inv c0 (on_event transform options s now e) (os ++ []).
Proof.
  intros I E. pose proof I as [C O R K B T]. rewrite E in *. specialize (B ltac:(discriminate)). specialize (T ltac:(discriminate)).
  cbn [todo current] in *. subst td. rewrite app_nil_r in K.
  assert (MV : forall s' , s_pc s' <> PDone -> current_escape_sequence s' = current_escape_sequence s ->
    kept (combiner s) [ISingle e] = current (s_pc s') -> combiner s' = comb_after (combiner s) [ISingle e] -> todo (s_pc s') = [] ->
    inv c0 s' (os ++ [])).
  { intros s' H1 H2 H3 H4 H5. apply (@inv_move c0 s os dn [ISingle e] s' [] (dn ++ [ISingle e]) []); try assumption; try reflexivity; try congruence.
    - rewrite app_nil_r. reflexivity.
    - rewrite kept_app, K, <- B, H3. reflexivity.
    - rewrite comb_after_app, <- B. exact H4. }
  unfold on_event. unfold discarded_mouse.
  destruct e as [k|m|w h|g|p].
  - destruct (transform (combiner s) k) as (c & comb) eqn:F.
    destruct (discard_raw_key_events options && match comb with None => true | Some _ => false end) eqn:D.
    + apply andb_true_iff in D. destruct D as (D1 & D2). destruct comb; [discriminate|].
      apply MV; cbn [set_pc set_combiner s_pc current_escape_sequence combiner current todo S_Event.kept comb_after fst]; try rewrite F; try rewrite D1; try discriminate; reflexivity.
    + apply MV; cbn [set_pc set_combiner s_pc current_escape_sequence combiner current todo S_Event.kept comb_after fst next_items te_event key_combination]; try rewrite F; try discriminate; try reflexivity.
      destruct comb; [reflexivity|]. rewrite andb_true_r in D. rewrite D. reflexivity.
  - assert (KM : (discard_mouse_move options && match m_kind m with MMoved => true | _ => false end
      || discard_mouse_drag options && match m_kind m with MDrag _ => true | _ => false end) = negb (kept_mouse options m)).
    { unfold kept_mouse. destruct (m_kind m), (discard_mouse_move options), (discard_mouse_drag options); reflexivity. }
    rewrite KM. destruct (kept_mouse options m) eqn:KK; cbn [negb].
    + destruct (set_double_click_spec s (te_new now (TMouse m))) as (lu & b & ->).
      apply MV; cbn [set_pc set_last_up s_pc current_escape_sequence combiner current todo S_Event.kept comb_after next_items te_event key_combination te_new]; try rewrite KK; try discriminate; reflexivity.
    + apply MV; cbn [set_pc s_pc current_escape_sequence combiner current todo S_Event.kept comb_after]; try rewrite KK; try discriminate; reflexivity.
  - apply MV; try discriminate; reflexivity.
  - apply MV; try discriminate; reflexivity.
  - apply MV; try discriminate; reflexivity.
Qed.
Lemma inv_flush c0 s os dn td now keys e : inv0 c0 s os dn td -> s_pc s = PFlush keys e -> inv c0 (on_flush transform options s now keys e) (os ++ []).
Proof.
  intros I E. pose proof I as [C O R K B T]. rewrite E in *. specialize (B ltac:(discriminate)). specialize (T ltac:(discriminate)).
  cbn [todo current] in *. subst td. rewrite app_nil_r in K.
  unfold on_flush. destruct keys as [|k keys].
  - apply (@inv_move _ _ _ _ _ (set_pc s (PEvent e)) [] dn [ISingle e] I); cbn [set_pc s_pc combiner current_escape_sequence todo current]; try rewrite E; try discriminate; try reflexivity; auto.
    rewrite app_nil_r. exact K.
  - assert (MV : forall s' , s_pc s' <> PDone -> current_escape_sequence s' = current_escape_sequence s ->
      kept (combiner s) [ISingle (TKey k)] = current (s_pc s') -> combiner s' = fst (transform (combiner s) k) -> todo (s_pc s') = map (fun k => ISingle (TKey k)) keys ++ [ISingle e] ->
      inv c0 s' (os ++ [])).
    { intros s' H1 H2 H3 H4 H5. apply (@inv_move c0 s os dn _ s' [] (dn ++ [ISingle (TKey k)]) (map (fun k => ISingle (TKey k)) keys ++ [ISingle e]) I); try rewrite E; try discriminate; try assumption; try reflexivity; try congruence.
      - rewrite <- app_assoc. reflexivity.
      - rewrite kept_app, K, <- B, H3. reflexivity.
      - rewrite comb_after_app, <- B. exact H4. }
    cbn [S_Event.kept] in MV. destruct (transform (combiner s) k) as (c & comb) eqn:F.
    destruct (discard_raw_key_events options && match comb with None => true | Some _ => false end) eqn:D.
    + apply andb_true_iff in D. destruct D as (D1 & D2). destruct comb; [discriminate|].
      apply MV; cbn [set_pc set_combiner s_pc current_escape_sequence combiner current todo fst]; try rewrite D1; try discriminate; reflexivity.
    + apply MV; cbn [set_pc set_combiner s_pc current_escape_sequence combiner current todo fst next_items te_event key_combination]; try discriminate; try reflexivity.
      destruct comb; [reflexivity|]. rewrite andb_true_r in D. rewrite D. reflexivity.
Qed.
Lemma inv_done c0 s os dn td s' os' : inv0 c0 s os dn td -> s_pc s <> PRead -> s_pc s' = PDone -> reads_of os' = [] ->
  current_escape_sequence s' = current_escape_sequence s -> outs_of os' = current (s_pc s) -> inv c0 s' (os ++ os').
Proof.
  intros [C O R K B T] E1 E2 RD Q K'. exists dn, td. split; try (intros X; congruence).
  - rewrite reads_app, RD, app_nil_r, Q. exact C.
  - intros _. rewrite Q. auto.
  - rewrite outs_app, E2, K, K'. cbn [current]. rewrite app_nil_r. reflexivity.
Qed.
Lemma inv_app c0 s os s' os' : inv c0 s os -> s_pc s' = s_pc s -> current_escape_sequence s' = current_escape_sequence s -> combiner s' = combiner s ->
  reads_of os' = [] -> outs_of os' = [] -> inv c0 s' (os ++ os').
Proof.
  intros (dn & td & [C O R K B T]) E1 E2 E3 RD OD. exists dn, td. split; rewrite ?E1, ?E2, ?E3; auto.
  - rewrite reads_app, RD, app_nil_r. exact C.
  - rewrite outs_app, OD, app_nil_r. exact K.
Qed.
Lemma inv_go c0 s os now s' os' : inv c0 s os -> go transform options s now = Some (s', os') -> inv c0 s' (os ++ os').
Proof.
  intros (dn & td & I) G. unfold go in G. destruct (s_pc s) as [|keys|keys e|e|t n|t n|n|] eqn:E; try discriminate G.
  - destruct ((length (seqs s) <? ESCAPE_SEQUENCE_CHANNEL_SIZE) && (alive s || rx_seqs s)); injection G as <- <-;
    pose proof I as [C O R K B T]; rewrite E in *; specialize (B ltac:(discriminate)); specialize (T ltac:(discriminate)); cbn [todo current] in *; subst td;
    eapply (@inv_move _ _ _ _ _ _ _ dn [] I); rewrite ?E; cbn [set_pc set_seqs s_pc combiner current_escape_sequence current]; try discriminate; try reflexivity; auto.
  - injection G as <- <-. apply (inv_flush _ I E).
  - injection G as <- <-. apply (inv_event _ I E).
  - injection G as <- <-. pose proof I as [C O R K B T]; rewrite E in *; specialize (B ltac:(discriminate)); specialize (T ltac:(discriminate)).
    eapply (@inv_move _ _ _ _ _ _ _ dn td I); rewrite ?E; cbn [set_pc set_count s_pc combiner current_escape_sequence current todo] in *; try discriminate; try reflexivity; auto.
  - pose proof I as [C O R K B T]; rewrite E in *; specialize (B ltac:(discriminate)); specialize (T ltac:(discriminate)).
    destruct (alive s || rx_events s); injection G as <- <-.
    + eapply (@inv_move _ _ _ _ _ _ _ dn td I); rewrite ?E; cbn [set_pc set_events s_pc combiner current_escape_sequence current todo] in *; try discriminate; try reflexivity; auto.
    + eapply (@inv_done _ _ _ _ _ _ _ I); rewrite ?E; try discriminate; reflexivity.
  - pose proof I as [C O R K B T]; rewrite E in *; specialize (B ltac:(discriminate)); specialize (T ltac:(discriminate)).
    destruct (quits s) as [|[] q]; [destruct (alive s); [discriminate G|]| |]; injection G as <- <-.
    + eapply (@inv_done _ _ _ _ _ _ _ I); rewrite ?E; try discriminate; reflexivity.
    + eapply (@inv_done _ _ _ _ _ _ _ I); rewrite ?E; try discriminate; reflexivity.
    + destruct n as [|keys e]; eapply (@inv_move _ _ _ _ _ _ _ dn td I); rewrite ?E; cbn [goto set_pc set_quits s_pc combiner current_escape_sequence current todo next_items] in *; try discriminate; try reflexivity; auto.
Qed.
Lemma inv_run c0 ls s os : run (source_init c0) ls = Some (s, os) -> inv c0 s os.
Proof.
  apply run_ind.
  - exists [], []. split; cbn; try discriminate; auto. constructor.
  - clear. intros s os l s' os' I E. destruct l; cbn [M_Event.step] in E.
    + destruct (s_pc s) eqn:P, r as [e0|]; try discriminate E; injection E as <- <-.
      * destruct I as (dn & td & I). apply (inv_read _ I P).
      * rewrite app_nil_r. exact I.
    + apply (inv_go _ I E).
    + destruct (alive s || rx_events s), (events s); try discriminate E; injection E as <- <-; apply (@inv_app _ _ _ _ _ I); reflexivity.
    + destruct (alive s || rx_seqs s), (seqs s); try discriminate E; injection E as <- <-; apply (@inv_app _ _ _ _ _ I); reflexivity.
    + destruct (alive s); [|discriminate E]. destruct (s_pc s) eqn:P; injection E as <- <-; apply (@inv_app _ _ _ _ _ I); try reflexivity.
    + destruct (alive s); [|discriminate E]. injection E as <- <-; apply (@inv_app _ _ _ _ _ I); reflexivity.
    + destruct (alive s); [|discriminate E]. injection E as <- <-; apply (@inv_app _ _ _ _ _ I); reflexivity.
    + injection E as <- <-; apply (@inv_app _ _ _ _ _ I); reflexivity.
    + injection E as <- <-; apply (@inv_app _ _ _ _ _ I); reflexivity.
    + injection E as <- <-; apply (@inv_app _ _ _ _ _ I); reflexivity.
Qed.
End Run.
