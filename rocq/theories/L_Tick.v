(** * Lemmas on the ticker *)
From Coq Require Import Permutation.
From Verif Require Import Base L_Base M_Tick S_Tick.
Set Implicit Arguments.
Open Scope nat_scope.

Section Tick.
Context {P : Type}.
Notation ticker := (ticker P).
Notation obs := (obs P).
Notation label := (label P).
Implicit Types (k : ticker) (t : @thread P) (os : list obs) (ls : list label).

Lemma run_app ls : forall k ls', run k (ls ++ ls') =
  match run k ls with Some (s1, os1) => match run s1 ls' with Some (s2, os2) => Some (s2, os1 ++ os2) | None => None end | None => None end.
Proof.
  induction ls as [|l ls IH]; intros k ls'; cbn [M_Tick.run app].
  - destruct (run k ls') as [(s2 & os2)|]; reflexivity.
  - destruct (step k l) as [(s1 & os1)|]; [|reflexivity]. rewrite IH. destruct (run s1 ls) as [(s2 & os2)|]; [|reflexivity].
    destruct (run s2 ls') as [(s3 & os3)|]; [|reflexivity]. rewrite app_assoc. reflexivity.
Qed.
Lemma run_ind (Q : ticker -> list obs -> Prop) k0 : Q k0 [] ->
  (forall k os l k' os', Q k os -> step k l = Some (k', os') -> Q k' (os ++ os')) ->
  forall ls k os, run k0 ls = Some (k, os) -> Q k os.
Proof.
  intros H0 H. induction ls as [|l ls IH] using rev_ind; intros k os R.
  - cbn in R. injection R as <- <-. exact H0.
  - rewrite run_app in R. destruct (run k0 ls) as [(s1 & os1)|]; [|discriminate]. cbn [M_Tick.run] in R.
    destruct (step s1 l) as [(s2 & os2)|] eqn:E; [|discriminate]. injection R as <- <-. rewrite app_nil_r.
    apply (H _ _ _ _ _ (IH _ _ eq_refl) E).
Qed.

(** ** Vec *)
Lemma position_some {A} (f : A -> bool) l i : position f l = Some i -> exists a x b, l = a ++ x :: b /\ length a = i /\ f x = true /\ nth_error l i = Some x.
Proof.
  revert i. induction l as [|y l IH]; intros i E; cbn in E; [discriminate|]. destruct (f y) eqn:F.
  - injection E as <-. exists [], y, l. auto.
  - destruct (position f l) as [j|]; [|discriminate]. injection E as <-. destruct (IH j eq_refl) as (a & x & b & -> & L & X & N).
    exists (y :: a), x, b. cbn. auto.
Qed.
Lemma position_none {A} (f : A -> bool) l : position f l = None -> forall x, In x l -> f x = false.
Proof.
  induction l as [|y l IH]; intros E x [].
  - subst. cbn in E. destruct (f x); [discriminate|reflexivity].
  - apply IH; [|assumption]. cbn in E. destruct (f y); [discriminate|]. destruct (position f l); [discriminate|reflexivity].
Qed.
Lemma swap_remove_perm {A} (a : list A) x b : Permutation (swap_remove (a ++ x :: b) (length a)) (a ++ b).
Proof.
  unfold swap_remove. destruct b as [|z b _] using rev_ind.
  - rewrite rev_app_distr. cbn. rewrite rev_length, Nat.eqb_refl, rev_involutive, app_nil_r. apply Permutation_refl.
  - replace (a ++ x :: b ++ [z]) with ((a ++ x :: b) ++ [z]) by (rewrite <- app_assoc; reflexivity). rewrite rev_app_distr. cbn [rev app].
    rewrite rev_length, app_length. cbn [length]. destruct (Nat.eqb_spec (length a) (length a + S (length b))); [lia|].
    rewrite rev_involutive, set_nth_mid. apply Permutation_app_head. apply Permutation_cons_append.
Qed.

(** ** Steps by their effects *)
Definition hs k : list TickBeamHandle := beams k ++ match stopping k with Some l => l | None => [] end.
Definition signal t : @thread P := mkThread (t_mission t) (t_left t) (t_pc t) (match t_pc t with BEnd => t_msgs t | _ => S (t_msgs t) end) false.
Definition set_thread k i t : ticker := set_threads k (set_nth i t (threads k)).
Definition go t left pc msgs : @thread P := mkThread (t_mission t) left pc msgs (t_tx t).

Lemma handle_stop_some k h t : nth_error (threads k) (h_chan h) = Some t -> t_pc t = BEnd \/ t_msgs t = 0 ->
  handle_stop k h = Some (set_thread k (h_chan h) (signal t)).
Proof.
  intros E H. unfold handle_stop, set_thread, signal. rewrite E. destruct (t_pc t); try reflexivity;
  (destruct H as [H|H]; [discriminate H|]; rewrite H; reflexivity).
Qed.

(** ** Observations *)
Lemma sent_by_app i a b : sent_by i (a ++ b) = sent_by (P := P) i a ++ sent_by i b.
Proof. apply flat_map_app. Qed.
Lemma ticks_by_app i a b : ticks_by i (a ++ b) = ticks_by (P := P) i a ++ ticks_by i b.
Proof. apply flat_map_app. Qed.
Lemma started_app a b : started_ids (a ++ b) = started_ids (P := P) a ++ started_ids b.
Proof. apply flat_map_app. Qed.

(** ** Invariant *)
Definition spaced (d : N) (l : list N) : Prop := forall a x y b, l = a ++ x :: y :: b -> (x + d <= y)%N.
Lemma spaced_snoc d l x : spaced d l -> l <> [] -> (last l 0 + d <= x)%N -> spaced d (l ++ [x]).
Proof.
  intros S N H a u v b E. destruct b as [|w b _] using rev_ind.
  - replace (a ++ [u; v]) with ((a ++ [u]) ++ [v]) in E by (rewrite <- app_assoc; reflexivity). apply app_inj_tail in E. destruct E as (-> & <-).
    rewrite last_last in H. exact H.
  - replace (a ++ u :: v :: b ++ [w]) with ((a ++ u :: v :: b) ++ [w]) in E by (rewrite <- app_assoc; reflexivity).
    apply app_inj_tail in E. destruct E as (-> & _). apply (S a u v b). reflexivity.
Qed.
Definition count_ok t (n : nat) : Prop :=
  match remaining_count (t_mission t), t_left t with
  | None, None => t_pc t = BEnd -> t_tx t = false
  | Some c, Some l =>
    match t_pc t with
    | BLoop => n + l = c
    | BWait _ | BSend => n + l + 1 = c
    | BEnd => (l = 0 /\ n = c) \/ (n + l + 1 = c /\ t_tx t = false)
    end
  | _, _ => False
  end.
Definition time_ok (now : N) t (l : list N) : Prop :=
  spaced (period (t_mission t)) l /\ (last l 0 <= now)%N
  /\ match t_pc t with BWait d => (last l 0 + period (t_mission t) <= d)%N | BSend => (last l 0 + period (t_mission t) <= now)%N | _ => True end.
Definition chan_ok t : Prop := (t_tx t = true -> t_msgs t = 0) /\ (t_tx t = false -> t_pc t = BEnd \/ t_msgs t = 1).
Definition thr (now : N) os i t : Prop :=
  exists t0 : N, In (OStarted i (t_mission t) t0) os /\ chan_ok t /\ count_ok t (length (sent_by i os)) /\ time_ok now t (t0 :: sent_by i os).
Lemma thr_mono now os i t now' os' : thr now os i t -> (now <= now')%N -> sent_by i os' = [] -> thr now' (os ++ os') i t.
Proof.
  intros (t0 & S & C & N & T1 & T2 & T3) L E. exists t0. rewrite sent_by_app, E, app_nil_r. split; [apply in_or_app; auto|].
  split; [assumption|]. split; [assumption|]. split; [assumption|]. split; [lia|]. destruct (t_pc t); auto. lia.
Qed.
Lemma thr_signal now os i t : thr now os i t -> t_tx t = true -> thr now os i (signal t).
Proof.
  intros (t0 & S & (C1 & C2) & N & T) X. exists t0. split; [assumption|]. split; [|split; [|assumption]].
  - split; cbn; [discriminate|]. intros _. rewrite (C1 X). destruct (t_pc t); auto.
  - unfold count_ok in *. cbn. destruct (remaining_count (t_mission t)), (t_left t); auto. destruct (t_pc t); auto. tauto.
Qed.

Definition handle_ok k (h : TickBeamHandle) : Prop := h_id h = h_chan h /\ exists t, nth_error (threads k) (h_chan h) = Some t /\ t_tx t = true.
Record inv k os : Prop := {
  v_len : length (threads k) = next_id k;
  v_ids : started_ids os = seq 0 (next_id k);
  v_handles : forall h, In h (hs k) -> handle_ok k h;
  v_nodup : NoDup (map h_chan (hs k));
  v_all : forall i t, nth_error (threads k) i = Some t -> t_tx t = true -> In i (map h_chan (hs k));
  v_thr : forall i t, nth_error (threads k) i = Some t -> thr (clock k) os i t;
  v_none : forall i, next_id k <= i -> sent_by i os = []
}.
Lemma beam_step_spec k os i t k' os' : nth_error (threads k) i = Some t -> thr (clock k) os i t -> beam_step k i = Some (k', os') ->
  exists t', threads k' = set_nth i t' (threads k) /\ t_tx t' = t_tx t /\ thr (clock k) (os ++ os') i t'
    /\ (forall j, j <> i -> sent_by j os' = []) /\ started_ids os' = []
    /\ next_id k' = next_id k /\ beams k' = beams k /\ stopping k' = stopping k /\ clock k' = clock k.
Proof.
  intros E (t0 & S & C & N & T1 & T2 & T3) B. unfold beam_step in B. rewrite E in B.
  assert (IN : forall os', In (OStarted i (t_mission t) t0) (os ++ os')) by (intros; apply in_or_app; auto).
  unfold chan_ok in C. unfold count_ok in N.
  destruct (t_pc t) as [|d| |] eqn:PC.
  - destruct (t_left t) as [[|n]|] eqn:L; injection B as <- <-; eexists; (split; [reflexivity|]); (split; [reflexivity|]); (split; [|repeat split]);
    exists t0; cbn [t_mission]; (split; [apply IN|]); rewrite app_nil_r; unfold chan_ok, count_ok, time_ok; cbn [t_mission t_left t_pc t_msgs t_tx].
    + split; [split; [tauto|auto]|]. split; [|tauto]. destruct (remaining_count (t_mission t)); [|exact N]. left. lia.
    + split; [split; [tauto|intros X; destruct C as (_ & C); destruct (C X); [discriminate|auto]]|].
      split; [|split; [assumption|split; [assumption|lia]]]. destruct (remaining_count (t_mission t)); [|exact N]. lia.
    + split; [split; [tauto|intros X; destruct C as (_ & C); destruct (C X); [discriminate|auto]]|].
      split; [|split; [assumption|split; [assumption|lia]]]. destruct (remaining_count (t_mission t)); [exact N|discriminate].
  - destruct (t_msgs t) as [|n] eqn:M.
    + assert (X : t_tx t = true) by (destruct (t_tx t); [reflexivity|]; destruct C as (_ & C); destruct (C eq_refl); discriminate).
      rewrite X in B. cbn [negb orb] in B. destruct (N.leb_spec d (clock k)) as [D|D]; [|discriminate B]. injection B as <- <-.
      eexists; (split; [reflexivity|]); (split; [exact (eq_sym X)|]); (split; [|repeat split]).
      exists t0; cbn [t_mission]; (split; [apply IN|]); rewrite app_nil_r; unfold chan_ok, count_ok, time_ok; cbn [t_mission t_left t_pc t_msgs t_tx].
      split; [split; [reflexivity|discriminate]|]. split; [destruct (remaining_count (t_mission t)), (t_left t); auto; discriminate|]. split; [assumption|]. split; [assumption|]. lia.
    + injection B as <- <-. eexists; (split; [reflexivity|]); (split; [reflexivity|]); (split; [|repeat split]).
      exists t0; cbn [t_mission]; (split; [apply IN|]); rewrite app_nil_r; unfold chan_ok, count_ok, time_ok; cbn [t_mission t_left t_pc t_msgs t_tx].
      assert (X : t_tx t = false) by (destruct (t_tx t); [destruct C as (C & _); discriminate (C eq_refl)|reflexivity]).
      split; [split; [congruence|auto]|]. split; [|tauto]. destruct (remaining_count (t_mission t)), (t_left t); auto.
  - assert (SB : forall o, o = OTick i (payload (t_mission t)) (clock k) \/ o = OTickLost i (payload (t_mission t)) (clock k) ->
      thr (clock k) (os ++ [o]) i (go t (t_left t) BLoop (t_msgs t)) /\ (forall j, j <> i -> sent_by j [o] = []) /\ started_ids [o] = []).
    { intros o O. assert (Z : sent_by i [o] = [clock k]) by (destruct O as [->| ->]; cbn; rewrite Nat.eqb_refl; reflexivity). split; [|split].
      - exists t0; cbn [go t_mission]; (split; [apply IN|]); rewrite sent_by_app, Z; unfold chan_ok, count_ok, time_ok; cbn [go t_mission t_left t_pc t_msgs t_tx].
        split; [split; [tauto|intros X; destruct C as (_ & C); destruct (C X); [discriminate|auto]]|].
        split; [|rewrite app_comm_cons; split; [apply spaced_snoc; [assumption|discriminate|assumption]|split; [rewrite last_last; lia|exact I]]].
        rewrite app_length. cbn [length]. destruct (remaining_count (t_mission t)), (t_left t); auto; [lia|discriminate].
      - intros j J. destruct O as [->| ->]; cbn; rewrite (proj2 (Nat.eqb_neq j i) J); reflexivity.
      - destruct O as [->| ->]; reflexivity. }
    destruct (tick_rx k); injection B as <- <-; (eexists; (split; [reflexivity|]); (split; [reflexivity|])).
    + destruct (SB (OTick i (payload (t_mission t)) (clock k)) ltac:(auto)) as (A1 & A2 & A3). split; [exact A1|]. repeat split; assumption.
    + destruct (SB (OTickLost i (payload (t_mission t)) (clock k)) ltac:(auto)) as (A1 & A2 & A3). split; [exact A1|]. repeat split; assumption.
  - discriminate B.
Qed.
Lemma nth_set_nth {A} i j (a x : A) l : nth_error (set_nth i a l) j = Some x -> i < length l -> (j = i /\ x = a) \/ (j <> i /\ nth_error l j = Some x).
Proof.
  intros E L. destruct (Nat.eq_dec j i) as [->|N].
  - rewrite nth_error_set_nth_eq in E by assumption. injection E as <-. auto.
  - rewrite nth_error_set_nth_neq in E by congruence. auto.
Qed.
Lemma nth_lt {A} (l : list A) i x : nth_error l i = Some x -> i < length l.
Proof. intros E. apply nth_error_Some. congruence. Qed.
Lemma inv_beam k os i k' os' : inv k os -> beam_step k i = Some (k', os') -> inv k' (os ++ os').
Proof.
  intros [V1 V2 V3 V4 V5 V6 V7] B. destruct (nth_error (threads k) i) as [t|] eqn:E.
  2: { unfold beam_step in B. rewrite E in B. discriminate B. }
  destruct (@beam_step_spec k os i t k' os' E (V6 _ _ E) B) as (t' & T & X & H & O & S & N & BM & ST & CL).
  pose proof (nth_lt _ _ E) as L.
  assert (HS : hs k' = hs k) by (unfold hs; rewrite BM, ST; reflexivity).
  split; rewrite ?HS, ?N, ?CL.
  - rewrite T, set_nth_length. exact V1.
  - rewrite started_app, S, app_nil_r. exact V2.
  - intros h I. destruct (V3 h I) as (A1 & u & A2 & A3). split; [assumption|]. rewrite T. destruct (Nat.eq_dec i (h_chan h)) as [D|D].
    + exists t'. rewrite <- D, nth_error_set_nth_eq by assumption. rewrite <- D, E in A2. injection A2 as <-. split; [reflexivity|congruence].
    + exists u. rewrite nth_error_set_nth_neq by assumption. auto.
  - assumption.
  - intros j u. rewrite T. intros U X'. destruct (nth_set_nth _ _ _ U L) as [(-> & ->)|(D & U')]; [apply (V5 _ _ E); congruence|apply (V5 _ _ U' X')].
  - intros j u. rewrite T. intros U. destruct (nth_set_nth _ _ _ U L) as [(-> & ->)|(D & U')]; [exact H|].
    apply thr_mono with (now := clock k); [apply V6; assumption|lia|apply O; assumption].
  - intros j J. rewrite sent_by_app, V7 by assumption. apply O. lia.
Qed.
Lemma inv_stop k os h rest k' os' : inv k os -> In h (hs k) -> Permutation (hs k) (h :: rest) -> hs k' = rest ->
  (exists t, nth_error (threads k) (h_chan h) = Some t /\ threads k' = set_nth (h_chan h) (signal t) (threads k)) ->
  next_id k' = next_id k -> clock k' = clock k -> (forall j, sent_by j os' = []) -> started_ids os' = [] -> inv k' (os ++ os').
Proof.
  intros [V1 V2 V3 V4 V5 V6 V7] I PM HS (t & E & T) N CL O S. pose proof (nth_lt _ _ E) as L.
  destruct (V3 h I) as (A1 & u & A2 & A3). rewrite E in A2. injection A2 as <-.
  pose proof (Permutation_NoDup (Permutation_map h_chan PM) V4) as ND. cbn [map] in ND. apply NoDup_cons_iff in ND. destruct ND as (NI & ND).
  split; rewrite ?HS, ?N, ?CL.
  - rewrite T, set_nth_length. exact V1.
  - rewrite started_app, S, app_nil_r. exact V2.
  - intros g G. assert (G' : In g (hs k)) by (apply (Permutation_in _ (Permutation_sym PM)); right; assumption).
    destruct (V3 g G') as (B1 & v & B2 & B3). split; [assumption|]. exists v. rewrite T, nth_error_set_nth_neq; [auto|].
    intros D. apply NI. rewrite D. apply in_map. exact G.
  - assumption.
  - intros j v. rewrite T. intros U X'. destruct (nth_set_nth _ _ _ U L) as [(-> & ->)|(D & U')]; [discriminate X'|].
    pose proof (V5 _ _ U' X') as Z. apply (Permutation_in _ (Permutation_map h_chan PM)) in Z. destruct Z as [Z|Z]; [congruence|exact Z].
  - intros j v. rewrite T. intros U. apply thr_mono with (now := clock k); [|lia|apply O].
    destruct (nth_set_nth _ _ _ U L) as [(-> & ->)|(D & U')]; [apply thr_signal; [apply V6|]; assumption|apply V6; assumption].
  - intros j J. rewrite sent_by_app, V7 by assumption. apply O.
Qed.
Lemma inv_same k os k' os' : inv k os -> threads k' = threads k -> hs k' = hs k -> next_id k' = next_id k -> (clock k <= clock k')%N ->
  (forall j, sent_by j os' = []) -> started_ids os' = [] -> inv k' (os ++ os').
Proof.
  intros [V1 V2 V3 V4 V5 V6 V7] T HS N CL O S. split; rewrite ?HS, ?N, ?T; try assumption.
  - rewrite started_app, S, app_nil_r. exact V2.
  - intros h I. destruct (V3 h I) as (A1 & u & A2 & A3). split; [assumption|]. exists u. rewrite T. auto.
  - intros i t E. apply thr_mono with (now := clock k); auto.
  - intros j J. rewrite sent_by_app, V7 by assumption. apply O.
Qed.
Lemma stop_beam_spec k os id : inv k os -> stopping k = None ->
  (stop_beam k id = Some k /\ (forall h, In h (beams k) -> h_id h <> id))
  \/ exists h rest t, h_id h = id /\ h_chan h = id /\ In h (beams k) /\ Permutation (beams k) (h :: rest) /\ nth_error (threads k) (h_chan h) = Some t
     /\ stop_beam k id = Some (set_thread (set_beams k rest None) (h_chan h) (signal t)).
Proof.
  intros [V1 V2 V3 V4 V5 V6 V7] ST. unfold stop_beam. destruct (position (fun h => h_id h =? id) (beams k)) as [i|] eqn:PS.
  - right. destruct (position_some _ _ PS) as (a & h & b & E & L & F & NE). rewrite NE. apply Nat.eqb_eq in F.
    assert (I : In h (beams k)) by (rewrite E; apply in_or_app; right; left; reflexivity).
    destruct (V3 h) as (A1 & t & A2 & A3); [unfold hs; apply in_or_app; auto|].
    exists h, (swap_remove (beams k) i), t. split; [assumption|]. split; [congruence|]. split; [assumption|]. split.
    { rewrite E, <- L. rewrite swap_remove_perm. symmetry. apply Permutation_middle. }
    split; [assumption|]. rewrite ST. apply handle_stop_some; [exact A2|]. right.
    destruct (V6 _ _ A2) as (t0 & _ & (C & _) & _). apply C. exact A3.
  - left. split; [reflexivity|]. intros h I X. pose proof (position_none _ _ PS _ I) as Y. cbn in Y. apply Nat.eqb_neq in Y. contradiction.
Qed.
Lemma inv_step k os l k' os' : inv k os -> step k l = Some (k', os') -> inv k' (os ++ os').
Proof.
  intros V E. destruct l; cbn [step] in E.
  - destruct (stopping k) eqn:ST; [discriminate E|]. injection E as <- <-. destruct V as [V1 V2 V3 V4 V5 V6 V7].
    assert (HS : hs (start_beam k m) = hs k ++ [mkHandle (next_id k) (next_id k)]).
    { unfold hs. cbn [start_beam beams stopping]. rewrite ST, !app_nil_r, V1. reflexivity. }
    assert (TN : forall i t, nth_error (threads (start_beam k m)) i = Some t ->
      nth_error (threads k) i = Some t /\ i < next_id k \/ i = next_id k /\ t = mkThread m (remaining_count m) BLoop 0 true).
    { intros i t E. cbn [start_beam threads] in E. destruct (Nat.lt_ge_cases i (length (threads k))) as [L|L].
      - rewrite nth_error_app1 in E by assumption. left. split; [assumption|lia].
      - rewrite nth_error_app2 in E by assumption. right. destruct (i - length (threads k)) as [|n] eqn:D; [|destruct n; discriminate E].
        injection E as <-. split; [lia|reflexivity]. }
    split; rewrite ?HS.
    + cbn. rewrite app_length. cbn. lia.
    + rewrite started_app, V2. cbn [started_ids flat_map app start_beam next_id]. rewrite seq_S. reflexivity.
    + intros h I. apply in_app_or in I. destruct I as [I|[<-|[]]].
      * destruct (V3 h I) as (A1 & t & A2 & A3). split; [assumption|]. exists t. cbn [start_beam threads]. rewrite nth_error_app1; [auto|]. apply (nth_lt _ _ A2).
      * split; [reflexivity|]. cbn [h_chan start_beam threads]. eexists. rewrite nth_error_app2, <- V1, Nat.sub_diag by lia. split; reflexivity.
    + rewrite map_app. cbn [map h_chan]. apply (Permutation_NoDup (Permutation_cons_append _ _)). constructor; [|assumption].
      intros I. apply in_map_iff in I. destruct I as (h & X & I). destruct (V3 h I) as (_ & t & A2 & _). apply nth_lt in A2. lia.
    + intros i t U X. rewrite map_app. apply in_or_app. destruct (TN _ _ U) as [(U' & _)|(-> & _)]; [left; apply (V5 _ _ U' X)|right; left; reflexivity].
    + intros i t U. change (clock (start_beam k m)) with (clock k). destruct (TN _ _ U) as [(U' & _)|(-> & ->)].
      * apply thr_mono with (now := clock k); [auto|lia|reflexivity].
      * exists (clock k). rewrite sent_by_app, V7 by lia. cbn [t_mission]. split; [apply in_or_app; right; left; reflexivity|].
        split; [split; cbn; [reflexivity|discriminate]|]. split; [unfold count_ok; cbn; destruct (remaining_count m); [reflexivity|discriminate]|].
        split; [|cbn; split; [lia|exact I]]. intros a x y b Z. cbn in Z. destruct a as [|? [|]]; discriminate Z.
    + intros i L. cbn [start_beam next_id] in L. rewrite sent_by_app, V7 by lia. reflexivity.
  - destruct (stopping k) eqn:ST; [discriminate E|]. destruct (stop_beam_spec id V ST) as [(X & _)|(h & rest & t & H1 & H1' & H2 & H3 & H4 & X)]; rewrite X in E; injection E as <- <-.
    + apply (@inv_same _ _ _ _ V); reflexivity || lia.
    + apply (@inv_stop k os h rest _ _ V); try reflexivity.
      * unfold hs. rewrite ST. apply in_or_app. auto.
      * unfold hs. rewrite ST, app_nil_r. exact H3.
      * unfold hs. cbn. apply app_nil_r.
      * exists t. split; [exact H4|reflexivity].
  - destruct (stopping k) eqn:ST; [discriminate E|]. injection E as <- <-. apply (@inv_same _ _ _ _ V); try reflexivity; try lia.
    unfold hs. cbn. rewrite ST, app_nil_r. reflexivity.
  - destruct (stopping k) as [[|h r]|] eqn:ST; [| |discriminate E].
    + injection E as <- <-. apply (@inv_same _ _ _ _ V); try reflexivity; try lia. unfold hs. cbn. rewrite ST. reflexivity.
    + assert (I : In h (hs k)) by (unfold hs; rewrite ST; apply in_or_app; right; left; reflexivity).
      destruct (v_handles V h I) as (A1 & t & A2 & A3). assert (M : t_msgs t = 0).
      { destruct (v_thr V _ A2) as (t0 & _ & (C & _) & _). apply C. exact A3. }
      rewrite (@handle_stop_some _ _ t) in E by auto. injection E as <- <-. apply (@inv_stop k os h (beams k ++ r) _ _ V); try reflexivity.
      * assumption.
      * unfold hs. rewrite ST. symmetry. apply Permutation_middle.
      * exists t. split; [exact A2|reflexivity].
  - apply (inv_beam _ V E).
  - injection E as <- <-. apply (@inv_same _ _ _ _ V); try reflexivity. cbn. lia.
  - destruct (tick_rx k), (ticks k); try discriminate E. injection E as <- <-. apply (@inv_same _ _ _ _ V); reflexivity || lia.
  - injection E as <- <-. apply (@inv_same _ _ _ _ V); reflexivity || lia.
Qed.
Lemma inv_init : inv ticker_new [].
Proof.
  split; cbn; try reflexivity; try (intros i t E; destruct i; discriminate E).
  - intros h [].
  - constructor.
Qed.
Lemma inv_run ls k os : run ticker_new ls = Some (k, os) -> inv k os.
Proof. revert ls k os. apply (@run_ind inv); [apply inv_init|]. intros k os l k' os' V E. apply (inv_step _ V E). Qed.
Lemma inv_run_from ls : forall k os k' os', inv k os -> run k ls = Some (k', os') -> inv k' (os ++ os').
Proof.
  induction ls as [|l ls IH]; intros k os k' os' V R; cbn [run] in R.
  - injection R as <- <-. rewrite app_nil_r. exact V.
  - destruct (step k l) as [(k1 & os1)|] eqn:E; [|discriminate]. destruct (run k1 ls) as [(k2 & os2)|] eqn:R1; [|discriminate]. injection R as <- <-.
    rewrite app_assoc. apply (IH _ _ _ _ (inv_step _ V E) R1).
Qed.
End Tick.
