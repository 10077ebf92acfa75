(** * C59, C60, C74 The ticker *)
From Coq Require Import Permutation.
From Verif Require Import Base L_Base M_Tick S_Tick L_Tick.
Set Implicit Arguments.
Open Scope nat_scope.

Section Theorems.
Context {P : Type}.
Implicit Types (k : ticker P) (os : list (obs P)) (ls : list (label P)) (m : TickBeam P).

Lemma started_unique os i m t0 m' t0' : NoDup (started_ids os) -> In (OStarted i m t0) os -> In (OStarted i m' t0') os -> m = m' /\ t0 = t0'.
Proof.
  intros ND I I'. apply in_split in I. destruct I as (a & b & ->). rewrite started_app in ND. cbn [started_ids flat_map app] in ND.
  apply NoDup_remove_2 in ND. apply in_app_or in I'. destruct I' as [I'|[I'|I']].
  - exfalso. apply ND. apply in_or_app. left. apply in_flat_map. exists (OStarted i m' t0'). split; [assumption|left; reflexivity].
  - injection I' as <- <-. auto.
  - exfalso. apply ND. apply in_or_app. right. apply in_flat_map. exists (OStarted i m' t0'). split; [assumption|left; reflexivity].
Qed.
Lemma started_thread k os i m t0 : inv k os -> In (OStarted i m t0) os ->
  exists t, nth_error (threads k) i = Some t /\ t_mission t = m /\ chan_ok t /\ count_ok t (length (sent_by i os)) /\ time_ok (clock k) t (t0 :: sent_by i os).
Proof.
  intros V I. assert (J : In i (started_ids os)) by (apply in_flat_map; exists (OStarted i m t0); split; [assumption|left; reflexivity]).
  rewrite (v_ids V), in_seq, <- (v_len V) in J. destruct (nth_error (threads k) i) as [t|] eqn:E; [|apply nth_error_None in E; lia].
  destruct (v_thr V _ E) as (t0' & S & C & N & T). assert (ND : NoDup (started_ids os)) by (rewrite (v_ids V); apply seq_NoDup).
  destruct (started_unique _ _ _ _ _ _ ND S I) as (<- & <-). exists t. auto.
Qed.
Lemma step_one k l k' os : step k l = Some (k', os) -> os = [] \/ exists o, os = [o].
Proof.
  intros E. destruct l; cbn [step] in E.
  - destruct (stopping k); [discriminate E|]. injection E as <- <-. eauto.
  - destruct (stopping k); [discriminate E|]. destruct (stop_beam k id); [|discriminate E]. injection E as <- <-. eauto.
  - destruct (stopping k); [discriminate E|]. injection E as <- <-. eauto.
  - destruct (stopping k) as [[|h r]|]; [| |discriminate E]; [injection E as <- <-; eauto|].
    destruct (handle_stop (set_beams k (beams k) (Some r)) h); [|discriminate E]. injection E as <- <-. eauto.
  - unfold beam_step in E. destruct (nth_error (threads k) i) as [t|]; [|discriminate E]. destruct (t_pc t).
    + destruct (t_left t) as [[|n]|]; injection E as <- <-; eauto.
    + destruct (t_msgs t); [|injection E as <- <-; eauto]. destruct (negb (t_tx t) || N.leb deadline (clock k)); [|discriminate E]. injection E as <- <-; eauto.
    + destruct (tick_rx k); injection E as <- <-; eauto.
    + discriminate E.
  - injection E as <- <-. eauto.
  - destruct (tick_rx k), (ticks k); try discriminate E. injection E as <- <-. eauto.
  - injection E as <- <-. eauto.
Qed.
Lemma run_split ls : forall k0 k a o b, run k0 ls = Some (k, a ++ o :: b) ->
  exists ls1 l ls2 k1 k2, ls = ls1 ++ l :: ls2 /\ run k0 ls1 = Some (k1, a) /\ step k1 l = Some (k2, [o]) /\ run k2 ls2 = Some (k, b).
Proof.
  induction ls as [|l ls IH]; intros k0 k a o b R; cbn [run] in R.
  - destruct a; discriminate R.
  - destruct (step k0 l) as [(k1 & os1)|] eqn:E; [|discriminate R]. destruct (run k1 ls) as [(k2 & os2)|] eqn:R1; [|discriminate R].
    injection R as <- R. destruct (step_one _ _ E) as [->|(x & ->)]; cbn [app] in R.
    + subst os2. destruct (IH _ _ _ _ _ R1) as (ls1 & l' & ls2 & k3 & k4 & -> & R2 & S2 & R3). exists (l :: ls1), l', ls2, k3, k4.
      split; [reflexivity|]. split; [cbn [run]; rewrite E, R2; reflexivity|auto].
    + destruct a as [|y a]; cbn [app] in R; injection R as -> R.
      * subst os2. exists [], l, ls, k0, k1. auto.
      * subst os2. destruct (IH _ _ _ _ _ R1) as (ls1 & l' & ls2 & k3 & k4 & -> & R2 & S2 & R3). exists (l :: ls1), l', ls2, k3, k4.
        split; [reflexivity|]. split; [cbn [run]; rewrite E, R2; reflexivity|auto].
Qed.

(** ** C59 *)

(** A beam with a count sends no more ticks *)
Theorem C59_at_most ls k os i m t0 n : run ticker_new ls = Some (k, os) -> In (OStarted i m t0) os -> remaining_count m = Some n ->
  length (sent_by i os) <= n.
Proof.
  intros R I N. destruct (started_thread _ _ _ (inv_run _ R) I) as (t & E & M & _ & C & _). unfold count_ok in C. rewrite M, N in C.
  destruct (t_left t) as [l|]; [|destruct C]. destruct (t_pc t); lia.
Qed.
(** Its ticks have its payload, and only the started beams send some *)
Theorem C59_payload ls k os i p now : run ticker_new ls = Some (k, os) -> In (OTick i p now) os \/ In (OTickLost i p now) os ->
  exists m t0, In (OStarted i m t0) os /\ p = payload m.
Proof.
  intros R. revert i p now. assert (R' := R). revert ls k os R R'.
  enough (X : forall ls k os, run ticker_new ls = Some (k, os) -> inv k os /\ forall i p now, In (OTick i p now) os \/ In (OTickLost i p now) os -> exists m t0, In (OStarted i m t0) os /\ p = payload m).
  { intros ls k os R _ i p now H. destruct (X _ _ _ R) as (_ & X'). apply (X' _ _ _ H). }
  apply (@run_ind P (fun k os => inv k os /\ forall i p now, In (OTick i p now) os \/ In (OTickLost i p now) os -> exists m t0, In (OStarted i m t0) os /\ p = payload m)).
  - split; [apply inv_init|]. intros i p now [[]|[]].
  - intros k os l k' os' (V & IH) E. split; [apply (inv_step _ V E)|]. intros i p now H.
    assert (H' : (In (OTick i p now) os \/ In (OTickLost i p now) os) \/ (In (OTick i p now) os' \/ In (OTickLost i p now) os')).
    { destruct H as [H|H]; apply in_app_or in H; destruct H; auto. }
    destruct H' as [H'|H'].
    { destruct (IH _ _ _ H') as (m & t0 & I & X). exists m, t0. split; [apply in_or_app; auto|assumption]. }
    destruct l; cbn [step] in E.
    + destruct (stopping k); [discriminate E|]. injection E as <- <-. destruct H' as [[H'|[]]|[H'|[]]]; discriminate H'.
    + destruct (stopping k); [discriminate E|]. destruct (stop_beam k id); [|discriminate E]. injection E as <- <-. destruct H' as [[H'|[]]|[H'|[]]]; discriminate H'.
    + destruct (stopping k); [discriminate E|]. injection E as <- <-. destruct H' as [[]|[]].
    + destruct (stopping k) as [[|h r]|]; [| |discriminate E]; [injection E as <- <-; destruct H' as [[H'|[]]|[H'|[]]]; discriminate H'|].
      destruct (handle_stop (set_beams k (beams k) (Some r)) h); [|discriminate E]. injection E as <- <-. destruct H' as [[]|[]].
    + unfold beam_step in E. destruct (nth_error (threads k) i0) as [t|] eqn:T; [|discriminate E]. destruct (t_pc t).
      * destruct (t_left t) as [[|n]|]; injection E as <- <-; destruct H' as [[]|[]].
      * destruct (t_msgs t); [|injection E as <- <-; destruct H' as [[]|[]]]. destruct (negb (t_tx t) || N.leb deadline (clock k)); [|discriminate E]. injection E as <- <-; destruct H' as [[]|[]].
      * destruct (v_thr V _ T) as (t0 & S & _). destruct (tick_rx k); injection E as <- <-; destruct H' as [[H'|[]]|[H'|[]]]; try discriminate H'; injection H' as <- <- _;
        exists (t_mission t), t0; (split; [apply in_or_app; auto|reflexivity]).
      * discriminate E.
    + injection E as <- <-. destruct H' as [[]|[]].
    + destruct (tick_rx k), (ticks k); try discriminate E. injection E as <- <-. destruct H' as [[H'|[]]|[H'|[]]]; discriminate H'.
    + injection E as <- <-. destruct H' as [[]|[]].
Qed.
(** The ids are distinct *)
Theorem C59_ids ls k os : run ticker_new ls = Some (k, os) -> NoDup (started_ids os).
Proof. intros R. rewrite (v_ids (inv_run _ R)). apply seq_NoDup. Qed.
(** The ticks are received in the order they are sent *)
Theorem C59_received ls k os : run ticker_new ls = Some (k, os) -> all_ticks os = received os ++ ticks k.
Proof.
  revert ls k os. apply (@run_ind P (fun k os => all_ticks os = received os ++ ticks k)); [reflexivity|].
  intros k os l k' os' I E. unfold all_ticks, received in *. rewrite !flat_map_app, I. destruct l; cbn [step] in E.
  - destruct (stopping k); [discriminate E|]. injection E as <- <-. cbn. rewrite !app_nil_r. reflexivity.
  - destruct (stopping k) eqn:ST; [discriminate E|]. unfold stop_beam in E. destruct (position (fun h => h_id h =? id) (beams k)) as [i|].
    + destruct (nth_error (beams k) i) as [h|]; [|discriminate E]. unfold handle_stop in E. destruct (nth_error (threads (set_beams k (swap_remove (beams k) i) (stopping k))) (h_chan h)) as [t|]; [|discriminate E].
      destruct (t_pc t), (t_msgs t <? 1); try discriminate E; injection E as <- <-; cbn; rewrite !app_nil_r; reflexivity.
    + injection E as <- <-. cbn. rewrite !app_nil_r. reflexivity.
  - destruct (stopping k); [discriminate E|]. injection E as <- <-. cbn. rewrite !app_nil_r. reflexivity.
  - destruct (stopping k) as [[|h r]|]; [| |discriminate E]; [injection E as <- <-; cbn; rewrite !app_nil_r; reflexivity|].
    unfold handle_stop in E. destruct (nth_error (threads (set_beams k (beams k) (Some r))) (h_chan h)) as [t|]; [|discriminate E].
    destruct (t_pc t), (t_msgs t <? 1); try discriminate E; injection E as <- <-; cbn; rewrite !app_nil_r; reflexivity.
  - unfold beam_step in E. destruct (nth_error (threads k) i) as [t|]; [|discriminate E]. destruct (t_pc t).
    + destruct (t_left t) as [[|n]|]; injection E as <- <-; cbn; rewrite !app_nil_r; reflexivity.
    + destruct (t_msgs t); [|injection E as <- <-; cbn; rewrite !app_nil_r; reflexivity].
      destruct (negb (t_tx t) || N.leb deadline (clock k)); [|discriminate E]. injection E as <- <-; cbn; rewrite !app_nil_r; reflexivity.
    + destruct (tick_rx k); injection E as <- <-; cbn; rewrite !app_nil_r; [rewrite app_assoc|]; reflexivity.
    + discriminate E.
  - injection E as <- <-. cbn. rewrite !app_nil_r. reflexivity.
  - destruct (tick_rx k), (ticks k) as [|p r] eqn:T; try discriminate E. injection E as <- <-. cbn. rewrite !app_nil_r, <- app_assoc. reflexivity.
  - injection E as <- <-. cbn. rewrite !app_nil_r. reflexivity.
Qed.

Lemma not_stopped_tx i ls : forall k os, run ticker_new ls = Some (k, os) -> not_stopped i ls ->
  stopping k = None /\ forall t, nth_error (threads k) i = Some t -> t_tx t = true.
Proof.
  induction ls as [|l ls IH] using rev_ind; intros k os R (N1 & N2).
  - cbn in R. injection R as <- <-. split; [reflexivity|]. intros t E. destruct i; discriminate E.
  - rewrite run_app in R. destruct (run ticker_new ls) as [(k1 & os1)|] eqn:R1; [|discriminate]. cbn [run] in R.
    destruct (step k1 l) as [(k2 & os2)|] eqn:E; [|discriminate]. injection R as <- <-.
    assert (NS : not_stopped i ls) by (split; intros H; [apply N1|apply N2]; apply in_or_app; auto).
    destruct (IH _ _ eq_refl NS) as (ST & TX). pose proof (inv_run _ R1) as V.
    destruct l; cbn [step] in E.
    + rewrite ST in E. injection E as <- <-. split; [exact ST|]. intros t T. cbn [start_beam threads] in T.
      destruct (Nat.lt_ge_cases i (length (threads k1))) as [L|L]; [rewrite nth_error_app1 in T by assumption; auto|].
      rewrite nth_error_app2 in T by assumption. destruct (i - length (threads k1)) as [|x]; [injection T as <-; reflexivity|destruct x; discriminate T].
    + assert (D : id <> i) by (intros ->; apply N1; apply in_or_app; right; left; reflexivity).
      rewrite ST in E. destruct (stop_beam_spec id V ST) as [(X & _)|(h & rest & t & H1 & H1' & H2 & H3 & H4 & X)]; rewrite X in E; injection E as <- <-.
      * auto.
      * split; [reflexivity|]. intros u U. apply (TX u). cbn [set_thread set_threads set_beams threads] in U.
        rewrite nth_error_set_nth_neq in U by congruence. exact U.
    + exfalso. apply N2. apply in_or_app. right. left. reflexivity.
    + rewrite ST in E. discriminate E.
    + destruct (nth_error (threads k1) i0) as [t|] eqn:T0.
      2: { unfold beam_step in E. rewrite T0 in E. discriminate E. }
      destruct (@beam_step_spec _ k1 os1 i0 t k2 os2 T0 (v_thr V _ T0) E) as (t' & T & X & H & O & S & N & BM & ST' & CL).
      split; [congruence|]. intros u U. rewrite T in U. destruct (nth_set_nth _ _ _ U (nth_lt _ _ T0)) as [(-> & ->)|(D & U')]; [|auto].
      rewrite X. apply TX. exact T0.
    + injection E as <- <-. auto.
    + destruct (tick_rx k1), (ticks k1); try discriminate E. injection E as <- <-. auto.
    + injection E as <- <-. auto.
Qed.
(** the ticks still to send *)
Definition to_send (t : @thread P) (l : nat) : nat := match t_pc t with BLoop => l | BWait _ | BSend => S l | BEnd => 0 end.
(** from a wait or before a send to the start of the loop *)
Lemma cycle k i t : nth_error (threads k) i = Some t -> t_msgs t = 0 -> (exists d, t_pc t = BWait d) \/ t_pc t = BSend ->
  exists ls k' os', only_beam i ls /\ run k ls = Some (k', os') /\ length (sent_by i os') = 1
    /\ (tick_rx k = true -> ticks_by i os' = [payload (t_mission t)]) /\ tick_rx k' = tick_rx k
    /\ nth_error (threads k') i = Some (go t (t_left t) BLoop 0).
Proof.
  intros E M H. pose proof (nth_lt _ _ E) as L.
  assert (S1 : forall k t, nth_error (threads k) i = Some t -> t_msgs t = 0 -> t_pc t = BSend ->
    exists k' os', step k (LBeam i) = Some (k', os') /\ length (sent_by i os') = 1 /\ (tick_rx k = true -> ticks_by i os' = [payload (t_mission t)]) /\ tick_rx k' = tick_rx k
      /\ nth_error (threads k') i = Some (go t (t_left t) BLoop 0)).
  { clear. intros k t E M H. pose proof (nth_lt _ _ E) as L. cbn [step]. unfold beam_step. rewrite E, H. destruct (tick_rx k) eqn:RX; (eexists; eexists; (split; [reflexivity|])); cbn; rewrite Nat.eqb_refl; cbn;
    (split; [reflexivity|]); (split; [try reflexivity; discriminate|]); (split; [assumption || reflexivity|]); rewrite nth_error_set_nth_eq by assumption; rewrite M; reflexivity. }
  destruct H as [(d & H)|H].
  - set (k1 := mkTicker (next_id k) (beams k) (threads k) (ticks k) (tick_rx k) (stopping k) (clock k + d)%N).
    set (k2 := set_threads k1 (set_nth i (go t (t_left t) BSend 0) (threads k))).
    assert (B : step k1 (LBeam i) = Some (k2, [])).
    { cbn [step]. unfold beam_step. cbn [k1 threads]. rewrite E, H, M. cbn [k1 clock]. replace (N.leb d (clock k + d)) with true by (symmetry; apply N.leb_le; lia).
      rewrite orb_true_r. reflexivity. }
    destruct (S1 k2 (go t (t_left t) BSend 0)) as (k' & os' & S2 & A1 & A2 & A3 & A4); [cbn; apply nth_error_set_nth_eq; assumption|reflexivity|reflexivity|].
    exists [LTime d; LBeam i; LBeam i], k', os'. split; [intros l [<-|[<-|[<-|[]]]]; eauto|]. split.
    { change (run k [LTime d; LBeam i; LBeam i]) with (match run k1 [LBeam i; LBeam i] with Some (k'', os') => Some (k'', [] ++ os') | None => None end).
      cbn [run]. rewrite B, S2. cbn. rewrite app_nil_r. reflexivity. }
    auto.
  - destruct (S1 k t E M H) as (k' & os' & S2 & A1 & A2 & A3 & A4). exists [LBeam i], k', os'.
    split; [intros l [<-|[]]; auto|]. split; [cbn [run]; rewrite S2, app_nil_r; reflexivity|]. auto.
Qed.
Lemma run_cat ls k k1 os1 ls' k2 os2 : run k ls = Some (k1, os1) -> run k1 ls' = Some (k2, os2) -> run k (ls ++ ls') = Some (k2, os1 ++ os2).
Proof. intros R1 R2. rewrite run_app, R1, R2. reflexivity. Qed.
Lemma only_cat i a b : only_beam (P := P) i a -> only_beam i b -> only_beam i (a ++ b).
Proof. intros A B l H. apply in_app_or in H. destruct H; auto. Qed.
Lemma finish i : forall l k t, nth_error (threads k) i = Some t -> t_msgs t = 0 -> t_left t = Some l ->
  exists ls k' os', only_beam i ls /\ run k ls = Some (k', os') /\ ended k' i /\ length (sent_by i os') = to_send t l
    /\ (tick_rx k = true -> ticks_by i os' = repeat (payload (t_mission t)) (to_send t l)).
Proof.
  (* from the start of the loop *)
  assert (F : forall l k t, nth_error (threads k) i = Some t -> t_msgs t = 0 -> t_left t = Some l -> t_pc t = BLoop ->
    exists ls k' os', only_beam i ls /\ run k ls = Some (k', os') /\ ended k' i /\ length (sent_by i os') = l
      /\ (tick_rx k = true -> ticks_by i os' = repeat (payload (t_mission t)) l)).
  { induction l as [|l IH]; intros k t E M LF PC; pose proof (nth_lt _ _ E) as L.
    - exists [LBeam i], (set_threads k (set_nth i (go t (Some 0) BEnd 0) (threads k))), []. split; [intros x [<-|[]]; auto|]. split.
      { cbn [run step]. unfold beam_step. rewrite E, PC, LF, M. reflexivity. }
      split; [exists (go t (Some 0) BEnd 0); cbn; rewrite nth_error_set_nth_eq by assumption; auto|]. split; reflexivity.
    - set (t1 := go t (Some l) (BWait (clock k + period (t_mission t))%N) 0). set (k1 := set_threads k (set_nth i t1 (threads k))).
      assert (S1 : step k (LBeam i) = Some (k1, [])) by (cbn [step]; unfold beam_step; rewrite E, PC, LF, M; reflexivity).
      assert (E1 : nth_error (threads k1) i = Some t1) by (cbn; apply nth_error_set_nth_eq; assumption).
      destruct (@cycle k1 i t1 E1 eq_refl) as (ls2 & k2 & os2 & O2 & R2 & N2 & T2 & X2 & E2); [left; eexists; reflexivity|].
      destruct (IH k2 _ E2 eq_refl eq_refl eq_refl) as (ls3 & k3 & os3 & O3 & R3 & D3 & N3 & T3).
      exists (LBeam i :: ls2 ++ ls3), k3, (os2 ++ os3). split; [intros x [<-|H]; [auto|apply (only_cat O2 O3 _ H)]|]. split.
      { cbn [run]. rewrite S1. rewrite (run_cat _ _ _ R2 R3). reflexivity. }
      split; [assumption|]. split; [rewrite sent_by_app, app_length, N2, N3; reflexivity|]. intros RX. rewrite ticks_by_app, T2 by exact RX. rewrite T3 by (rewrite X2; exact RX). reflexivity. }
  intros l k t E M LF. unfold to_send. destruct (t_pc t) as [|d| |] eqn:PC.
  - apply F; assumption.
  - destruct (@cycle k i t E M) as (ls2 & k2 & os2 & O2 & R2 & N2 & T2 & X2 & E2); [left; eauto|].
    destruct (F l k2 _ E2 eq_refl LF eq_refl) as (ls3 & k3 & os3 & O3 & R3 & D3 & N3 & T3).
    exists (ls2 ++ ls3), k3, (os2 ++ os3). split; [apply only_cat; assumption|]. split; [apply (run_cat _ _ _ R2 R3)|]. split; [assumption|].
    split; [rewrite sent_by_app, app_length, N2, N3; reflexivity|]. intros RX. rewrite ticks_by_app, T2 by exact RX. rewrite T3 by (rewrite X2; exact RX). reflexivity.
  - destruct (@cycle k i t E M) as (ls2 & k2 & os2 & O2 & R2 & N2 & T2 & X2 & E2); [right; assumption|].
    destruct (F l k2 _ E2 eq_refl LF eq_refl) as (ls3 & k3 & os3 & O3 & R3 & D3 & N3 & T3).
    exists (ls2 ++ ls3), k3, (os2 ++ os3). split; [apply only_cat; assumption|]. split; [apply (run_cat _ _ _ R2 R3)|]. split; [assumption|].
    split; [rewrite sent_by_app, app_length, N2, N3; reflexivity|]. intros RX. rewrite ticks_by_app, T2 by exact RX. rewrite T3 by (rewrite X2; exact RX). reflexivity.
  - exists [], k, []. split; [intros x []|]. split; [reflexivity|]. split; [exists t; auto|]. split; reflexivity.
Qed.
(** When it isn't stopped: it has sent exactly its count of ticks when its thread ends, and it ends, whatever happened before,
    if it's only given time *)
Theorem C59_exactly ls k os i m t0 n : run ticker_new ls = Some (k, os) -> not_stopped i ls -> In (OStarted i m t0) os -> remaining_count m = Some n ->
  (ended k i -> length (sent_by i os) = n)
  /\ exists ls' k' os', only_beam i ls' /\ run k ls' = Some (k', os') /\ ended k' i /\ length (sent_by i (os ++ os')) = n
     /\ (tick_rx k = true -> ticks_by i os' = repeat (payload m) (n - length (sent_by i os))).
Proof.
  intros R NS I N. destruct (started_thread _ _ _ (inv_run _ R) I) as (t & E & M & (C1 & C2) & C & _). unfold count_ok in C. rewrite M, N in C.
  destruct (not_stopped_tx R NS) as (ST & TX). specialize (TX t E). destruct (t_left t) as [l|] eqn:LF; [|destruct C].
  split.
  - intros (t' & E' & D). rewrite E in E'. injection E' as <-. rewrite D in C. destruct C as [C|C]; [lia|]. destruct C; congruence.
  - destruct (@finish i l k t E (C1 TX) LF) as (ls' & k' & os' & O & R' & D & NN & T). exists ls', k', os'.
    assert (X : length (sent_by i os) + to_send t l = n).
    { unfold to_send. destruct (t_pc t); lia. }
    split; [assumption|]. split; [assumption|]. split; [assumption|]. split; [rewrite sent_by_app, app_length; lia|].
    intros RX. rewrite (T RX), M. f_equal. lia.
Qed.
(** A beam without count which isn't stopped sends as many ticks as wanted *)
Theorem C59_infinite ls k os i m t0 : run ticker_new ls = Some (k, os) -> not_stopped i ls -> In (OStarted i m t0) os -> remaining_count m = None ->
  forall n, exists ls' k' os', only_beam i ls' /\ run k ls' = Some (k', os') /\ length (sent_by i os') = n
    /\ (tick_rx k = true -> ticks_by i os' = repeat (payload m) n).
Proof.
  intros R NS I N. destruct (started_thread _ _ _ (inv_run _ R) I) as (t & E & M & (C1 & C2) & C & _). unfold count_ok in C. rewrite M, N in C.
  destruct (not_stopped_tx R NS) as (ST & TX). specialize (TX t E). destruct (t_left t) as [l|] eqn:LF; [destruct C|].
  assert (PC : t_pc t <> BEnd) by (intros X; specialize (C X); congruence).
  assert (F : forall n k t, nth_error (threads k) i = Some t -> t_mission t = m -> t_msgs t = 0 -> t_left t = None -> t_pc t <> BEnd ->
    exists ls' k' os', only_beam i ls' /\ run k ls' = Some (k', os') /\ length (sent_by i os') = n /\ (tick_rx k = true -> ticks_by i os' = repeat (payload m) n)).
  { clear. induction n as [|n IH]; intros k t E MS M LF PC.
    - exists [], k, []. split; [intros x []|]. repeat split.
    - pose proof (nth_lt _ _ E) as L.
      assert (W : exists ls1 k1 t1, only_beam i ls1 /\ run k ls1 = Some (k1, []) /\ nth_error (threads k1) i = Some t1 /\ t_mission t1 = m /\ t_msgs t1 = 0 /\ t_left t1 = None
        /\ tick_rx k1 = tick_rx k /\ ((exists d, t_pc t1 = BWait d) \/ t_pc t1 = BSend)).
      { destruct (t_pc t) as [|d| |] eqn:PC'.
        - exists [LBeam i]. eexists. exists (go t None (BWait (clock k + period (t_mission t))%N) 0). split; [intros x [<-|[]]; auto|].
          split; [cbn [run step]; unfold beam_step; rewrite E, PC', LF, M; reflexivity|]. cbn. rewrite nth_error_set_nth_eq by assumption.
          repeat split; eauto.
        - exists [], k, t. split; [intros x []|]. repeat split; eauto.
        - exists [], k, t. split; [intros x []|]. repeat split; eauto.
        - contradiction. }
      destruct W as (ls1 & k1 & t1 & O1 & R1 & E1 & MS1 & M1 & LF1 & X1 & W).
      destruct (@cycle k1 i t1 E1 M1 W) as (ls2 & k2 & os2 & O2 & R2 & N2 & T2 & X2 & E2).
      destruct (IH k2 _ E2 MS1 eq_refl LF1) as (ls3 & k3 & os3 & O3 & R3 & N3 & T3); [discriminate|].
      exists (ls1 ++ ls2 ++ ls3), k3, (os2 ++ os3). split; [apply only_cat; [|apply only_cat]; assumption|].
      split; [apply (@run_cat ls1 k k1 [] _ k3 (os2 ++ os3) R1); apply (run_cat _ _ _ R2 R3)|].
      split; [rewrite sent_by_app, app_length; lia|]. intros RX. rewrite ticks_by_app, T2, T3 by congruence. rewrite MS1. reflexivity. }
  intros n. apply (F n k t E M (C1 TX) LF PC).
Qed.
(** The three ways to ask for ticks: one, several, or as many as wanted *)
Theorem C59_missions ls k os i t0 p d : run ticker_new ls = Some (k, os) -> not_stopped i ls ->
  (In (OStarted i (tick_once p d) t0) os -> length (sent_by i os) <= 1 /\ (ended k i -> length (sent_by i os) = 1))
  /\ (forall n, In (OStarted i (tick_several_times p d n) t0) os -> length (sent_by i os) <= n /\ (ended k i -> length (sent_by i os) = n))
  /\ (In (OStarted i (tick_infinitely p d) t0) os -> ~ ended k i
      /\ forall n, exists ls' k' os', only_beam i ls' /\ run k ls' = Some (k', os') /\ length (sent_by i os') = n /\ (tick_rx k = true -> ticks_by i os' = repeat p n))
  /\ (forall n m, In m [tick_once p d; tick_several_times p d n; tick_infinitely p d] -> payload m = p /\ period m = d).
Proof.
  intros R NS. split; [|split; [|split]].
  - intros I. split; [eapply C59_at_most; [exact R|exact I|reflexivity]|eapply C59_exactly; [exact R|exact NS|exact I|reflexivity]].
  - intros n I. split; [eapply C59_at_most; [exact R|exact I|reflexivity]|eapply C59_exactly; [exact R|exact NS|exact I|reflexivity]].
  - intros I. split; [|eapply (@C59_infinite _ _ _ _ (tick_infinitely p d)); [exact R|exact NS|exact I|reflexivity]]. intros (t & E & X).
    destruct (started_thread _ _ _ (inv_run _ R) I) as (t' & E' & M & (C1 & C2) & C & _). rewrite E in E'. injection E' as <-. unfold count_ok in C. rewrite M in C. cbn in C.
    destruct (not_stopped_tx R NS) as (ST & TX). specialize (TX t E). destruct (t_left t) as [l|]; [destruct C|]. specialize (C X). congruence.
  - intros n m [<-|[<-|[<-|[]]]]; split; reflexivity.
Qed.
(** The steps which aren't of a beam nor stop it change nothing for it and send no tick for it *)
Theorem C59_independent ls k os i l k' os' : run ticker_new ls = Some (k, os) -> step k l = Some (k', os') ->
  l <> LBeam i -> l <> LStop i -> (l = LStopNext -> ~ exists h r, stopping k = Some (h :: r) /\ h_id h = i) -> i < length (threads k) ->
  nth_error (threads k') i = nth_error (threads k) i /\ sent_by i os' = [].
Proof.
  intros R E N1 N2 N3 L. pose proof (inv_run _ R) as V. destruct l; cbn [step] in E.
  - destruct (stopping k) eqn:ST; [discriminate E|]. injection E as <- <-. split; [|reflexivity]. cbn. apply nth_error_app1. assumption.
  - destruct (stopping k) eqn:ST; [discriminate E|]. destruct (stop_beam_spec id V ST) as [(X & _)|(h & rest & t & H1 & H1' & H2 & H3 & H4 & X)]; rewrite X in E; injection E as <- <-; (split; [|reflexivity]); [reflexivity|].
    cbn. apply nth_error_set_nth_neq. congruence.
  - destruct (stopping k) eqn:ST; [discriminate E|]. injection E as <- <-. split; reflexivity.
  - destruct (stopping k) as [[|h r]|] eqn:ST; [| |discriminate E].
    + injection E as <- <-. split; reflexivity.
    + assert (I : In h (hs k)) by (unfold hs; rewrite ST; apply in_or_app; right; left; reflexivity).
      destruct (v_handles V h I) as (A1 & t & A2 & A3). assert (M : t_msgs t = 0).
      { destruct (v_thr V _ A2) as (t0 & _ & (C & _) & _). apply C. exact A3. }
      rewrite (@handle_stop_some _ _ _ t) in E by auto. injection E as <- <-. split; [|reflexivity]. cbn. apply nth_error_set_nth_neq.
      intros D. apply N3; [reflexivity|]. exists h, r. split; [reflexivity|congruence].
  - destruct (nth_error (threads k) i0) as [t|] eqn:T0.
    2: { unfold beam_step in E. rewrite T0 in E. discriminate E. }
    destruct (@beam_step_spec _ k os i0 t k' os' T0 (v_thr V _ T0) E) as (t' & T & X & H & O & S & N & BM & ST' & CL).
    assert (D : i0 <> i) by congruence. split; [rewrite T; apply nth_error_set_nth_neq; assumption|apply O; congruence].
  - injection E as <- <-. split; reflexivity.
  - destruct (tick_rx k), (ticks k); try discriminate E. injection E as <- <-. split; reflexivity.
  - injection E as <- <-. split; reflexivity.
Qed.
(** and the steps of a beam only depend on its own state, on the time and on the receiver *)
Theorem C59_local k1 k2 i : nth_error (threads k1) i = nth_error (threads k2) i -> clock k1 = clock k2 -> tick_rx k1 = tick_rx k2 ->
  match step k1 (LBeam i), step k2 (LBeam i) with
  | Some (k1', os1), Some (k2', os2) => os1 = os2 /\ nth_error (threads k1') i = nth_error (threads k2') i
  | None, None => True
  | _, _ => False
  end.
Proof.
  intros E C X. cbn [step]. unfold beam_step. rewrite E, C, X. destruct (nth_error (threads k2) i) as [t|] eqn:E2; [|exact I].
  pose proof (nth_lt _ _ E) as L1. pose proof (nth_lt _ _ E2) as L2.
  assert (G : forall t', nth_error (set_nth i t' (threads k1)) i = nth_error (set_nth i t' (threads k2)) i) by (intros; rewrite !nth_error_set_nth_eq; auto).
  destruct (t_pc t).
  - destruct (t_left t) as [[|n]|]; (split; [reflexivity|apply G]).
  - destruct (t_msgs t); [|split; [reflexivity|apply G]]. destruct (negb (t_tx t) || N.leb deadline (clock k2)); [split; [reflexivity|apply G]|exact I].
  - destruct (tick_rx k2); (split; [reflexivity|apply G]).
  - exact I.
Qed.

(** As long as the receivers aren't dropped, no tick is lost and all those which are sent can be received at once. Then none can be. *)
Theorem C59_receiver ls k os : run ticker_new ls = Some (k, os) ->
  (~ In LDropRx ls -> (forall i p t, ~ In (OTickLost i p t) os)
     /\ exists k', run k (repeat LRecv (length (ticks k))) = Some (k', map OGot (ticks k)) /\ ticks k' = [] /\ threads k' = threads k /\ beams k' = beams k)
  /\ (In LDropRx ls -> step k LRecv = None).
Proof.
  assert (X : forall ls k os, run ticker_new ls = Some (k, os) -> (~ In LDropRx ls -> tick_rx k = true /\ forall i p t, ~ In (OTickLost i p t) os) /\ (In LDropRx ls -> tick_rx k = false)).
  { clear. intros ls. induction ls as [|l ls IH] using rev_ind; intros k os R; [injection R as <- <-; split; [intros _; split; [reflexivity|intros i p t []]|intros []]|].
    rewrite run_app in R. destruct (run ticker_new ls) as [(k1 & os1)|] eqn:R1; [|discriminate R]. cbn [run] in R. destruct (step k1 l) as [(k2 & os2)|] eqn:E; [|discriminate R]. injection R as <- <-. rewrite app_nil_r.
    destruct (IH _ _ eq_refl) as (A & B).
    assert (K : l <> LDropRx -> tick_rx k2 = tick_rx k1 /\ (tick_rx k1 = true -> forall i p t, ~ In (OTickLost i p t) os2)).
    { intros N. destruct l; cbn [step] in E; try congruence.
      - destruct (stopping k1); [discriminate E|]. injection E as <- <-. split; [reflexivity|]. intros _ i p t [H|[]]; discriminate H.
      - destruct (stopping k1); [discriminate E|]. unfold stop_beam in E. destruct (position (fun h => h_id h =? id) (beams k1)) as [i|].
        + destruct (nth_error (beams k1) i) as [h|]; [|discriminate E]. unfold handle_stop in E. destruct (nth_error _ (h_chan h)) as [t|]; [|discriminate E].
          destruct (t_pc t), (t_msgs t <? 1); try discriminate E; injection E as <- <-; (split; [reflexivity|]); intros _ j p t' [H|[]]; discriminate H.
        + injection E as <- <-. split; [reflexivity|]. intros _ j p t' [H|[]]; discriminate H.
      - destruct (stopping k1); [discriminate E|]. injection E as <- <-. split; [reflexivity|]. intros _ j p t' [].
      - destruct (stopping k1) as [[|h r]|]; [| |discriminate E]; [injection E as <- <-; split; [reflexivity|]; intros _ j p t' [H|[]]; discriminate H|].
        unfold handle_stop in E. destruct (nth_error _ (h_chan h)) as [t|]; [|discriminate E].
        destruct (t_pc t), (t_msgs t <? 1); try discriminate E; injection E as <- <-; (split; [reflexivity|]); intros _ j p t' [].
      - unfold beam_step in E. destruct (nth_error (threads k1) i) as [t|]; [|discriminate E]. destruct (t_pc t).
        + destruct (t_left t) as [[|n]|]; injection E as <- <-; (split; [reflexivity|]); intros _ j p t' [].
        + destruct (t_msgs t); [|injection E as <- <-; split; [reflexivity|]; intros _ j p t' []]. destruct (negb (t_tx t) || N.leb deadline (clock k1)); [|discriminate E]. injection E as <- <-; (split; [reflexivity|]); intros _ j p t' [].
        + destruct (tick_rx k1) eqn:X; injection E as <- <-; (split; [cbn; congruence|]); intros Y j p t' [H|[]]; [discriminate H|discriminate Y].
        + discriminate E.
      - injection E as <- <-. split; [reflexivity|]. intros _ j p t' [].
      - destruct (tick_rx k1) eqn:X, (ticks k1); try discriminate E. injection E as <- <-. split; [reflexivity|]. intros _ j p' t' [H|[]]; discriminate H. }
    assert (D : l = LDropRx \/ l <> LDropRx) by (destruct l; try (left; reflexivity); right; discriminate).
    destruct D as [->|D].
    - cbn [step] in E. injection E as <- <-. split; [intros H; exfalso; apply H; apply in_or_app; right; left; reflexivity|reflexivity].
    - destruct (K D) as (K1 & K2). rewrite K1. split; intros H.
      + destruct A as (A1 & A2); [intros I; apply H; apply in_or_app; auto|]. split; [exact A1|]. intros i p t I. apply in_app_or in I as [I|I]; [exact (A2 _ _ _ I)|exact (K2 A1 _ _ _ I)].
      + apply B. apply in_app_or in H as [H|[H|[]]]; [exact H|congruence]. }
  intros R. destruct (X _ _ _ R) as (A & B). split; intros H.
  - destruct (A H) as (A1 & A2). split; [exact A2|]. clear - A1. remember (ticks k) as l eqn:E. revert k A1 E. induction l as [|p l IH]; intros k A1 E; [exists k; auto|].
    cbn [length repeat run step]. rewrite A1, <- E. destruct (IH (set_ticks k l true) eq_refl eq_refl) as (k' & R & T & TH & BM). rewrite R. exists k'. auto.
  - cbn [step]. rewrite (B H). reflexivity.
Qed.

(** ** C60 *)
Definition rank (p : bpc) : nat := match p with BSend => 3 | BLoop => 2 | BWait _ => 1 | BEnd => 0 end.
Lemma stopped_run i ls : forall k os t k' os', inv k os -> nth_error (threads k) i = Some t -> t_tx t = false -> run k ls = Some (k', os') ->
  length (sent_by i os') <= (match t_pc t with BSend => 1 | _ => 0 end) /\ steps_of i ls <= rank (t_pc t).
Proof.
  induction ls as [|l ls IH]; intros k os t k' os' V E X R; cbn [run] in R.
  - injection R as <- <-. cbn. lia.
  - destruct (step k l) as [(k1 & os1)|] eqn:S1; [|discriminate R]. destruct (run k1 ls) as [(k2 & os2)|] eqn:R1; [|discriminate R]. injection R as <- <-.
    pose proof (inv_step _ V S1) as V1. pose proof (nth_lt _ _ E) as L.
    assert (KEEP : nth_error (threads k1) i = Some t -> sent_by i os1 = [] -> steps_of i (l :: ls) = steps_of i ls ->
      length (sent_by i (os1 ++ os2)) <= (match t_pc t with BSend => 1 | _ => 0 end) /\ steps_of i (l :: ls) <= rank (t_pc t)).
    { intros E1 O1 ->. rewrite sent_by_app, O1. apply (IH _ _ _ _ _ V1 E1 X R1). }
    destruct l; cbn [step] in S1.
    + destruct (stopping k); [discriminate S1|]. injection S1 as <- <-. apply KEEP; try reflexivity. cbn. rewrite nth_error_app1 by assumption. exact E.
    + destruct (stopping k) eqn:ST; [discriminate S1|]. destruct (stop_beam_spec id V ST) as [(Y & _)|(h & rest & u & H1 & H1' & H2 & H3 & H4 & Y)]; rewrite Y in S1; injection S1 as <- <-; apply KEEP; try reflexivity; [exact E|].
      cbn. rewrite nth_error_set_nth_neq; [exact E|]. intros D. destruct (v_handles V h) as (_ & u' & A2 & A3); [unfold hs; apply in_or_app; auto|]. rewrite D, E in A2. injection A2 as <-. congruence.
    + destruct (stopping k); [discriminate S1|]. injection S1 as <- <-. apply KEEP; try reflexivity. exact E.
    + destruct (stopping k) as [[|h r]|] eqn:ST; [| |discriminate S1].
      * injection S1 as <- <-. apply KEEP; try reflexivity. exact E.
      * assert (I : In h (hs k)) by (unfold hs; rewrite ST; apply in_or_app; right; left; reflexivity).
        destruct (v_handles V h I) as (A1 & u & A2 & A3). assert (M : t_msgs u = 0).
        { destruct (v_thr V _ A2) as (t0 & _ & (C & _) & _). apply C. exact A3. }
        rewrite (@handle_stop_some _ _ _ u) in S1 by auto. injection S1 as <- <-. apply KEEP; try reflexivity. cbn. rewrite nth_error_set_nth_neq; [exact E|].
        intros D. rewrite D, E in A2. injection A2 as <-. congruence.
    + destruct (Nat.eq_dec i i0) as [<-|D].
      * destruct (v_thr V _ E) as (t0 & _ & (_ & C2) & _). specialize (C2 X).
        assert (ST : forall u, nth_error (threads k1) i = Some u -> t_tx u = false -> length (sent_by i os1) + (match t_pc u with BSend => 1 | _ => 0 end) <= (match t_pc t with BSend => 1 | _ => 0 end) ->
          S (rank (t_pc u)) <= rank (t_pc t) -> length (sent_by i (os1 ++ os2)) <= (match t_pc t with BSend => 1 | _ => 0 end) /\ steps_of i (LBeam i :: ls) <= rank (t_pc t)).
        { intros u U XU A B. destruct (IH _ _ _ _ _ V1 U XU R1) as (I1 & I2). unfold steps_of in *. cbn [flat_map]. rewrite Nat.eqb_refl. cbn [app length]. rewrite sent_by_app, app_length. lia. }
        unfold beam_step in S1. rewrite E in S1. destruct (t_pc t) as [|d| |] eqn:PC.
        -- destruct C2 as [C2|C2]; [discriminate C2|]. destruct (t_left t) as [[|n]|]; injection S1 as <- <-; eapply ST; try (cbn; apply nth_error_set_nth_eq; assumption); try exact X; cbn; lia.
        -- destruct C2 as [C2|C2]; [discriminate C2|]. rewrite C2 in S1. injection S1 as <- <-. eapply ST; try (cbn; apply nth_error_set_nth_eq; assumption); try exact X; cbn; lia.
        -- destruct (tick_rx k); injection S1 as <- <-; eapply ST; try (cbn; apply nth_error_set_nth_eq; assumption); try exact X; cbn; rewrite ?Nat.eqb_refl; cbn; lia.
        -- discriminate S1.
      * destruct (nth_error (threads k) i0) as [u|] eqn:T0.
        2: { unfold beam_step in S1. rewrite T0 in S1. discriminate S1. }
        destruct (@beam_step_spec _ k os i0 u k1 os1 T0 (v_thr V _ T0) S1) as (t' & T & XX & H & O & S & N & BM & ST' & CL).
        apply KEEP; [rewrite T; rewrite nth_error_set_nth_neq by congruence; exact E|apply O; assumption|].
        unfold steps_of. cbn [flat_map]. rewrite (proj2 (Nat.eqb_neq i i0) D). reflexivity.
    + injection S1 as <- <-. apply KEEP; try reflexivity. exact E.
    + destruct (tick_rx k), (ticks k); try discriminate S1. injection S1 as <- <-. apply KEEP; try reflexivity. exact E.
    + injection S1 as <- <-. apply KEEP; try reflexivity. exact E.
Qed.
Lemma stop_tx k os id k' : inv k os -> stopping k = None -> stop_beam k id = Some k' -> id < next_id k ->
  exists t, nth_error (threads k') id = Some t /\ t_tx t = false.
Proof.
  intros V ST E L. rewrite <- (v_len V) in L. destruct (stop_beam_spec id V ST) as [(Y & N)|(h & rest & u & H1 & H1' & H2 & H3 & H4 & Y)]; rewrite Y in E; injection E as <-.
  - destruct (nth_error (threads k) id) as [t|] eqn:T; [|apply nth_error_None in T; lia]. exists t. split; [reflexivity|].
    destruct (t_tx t) eqn:X; [|reflexivity]. exfalso. pose proof (v_all V _ T X) as I. apply in_map_iff in I. destruct I as (h & C & I).
    unfold hs in I. rewrite ST, app_nil_r in I. apply (N h I). destruct (v_handles V h) as (A & _); [unfold hs; apply in_or_app; auto|]. congruence.
  - exists (signal u). cbn. rewrite H1'. rewrite nth_error_set_nth_eq by assumption. auto.
Qed.
Lemma started_lt k os i m t0 : inv k os -> In (OStarted i m t0) os -> i < next_id k.
Proof.
  intros V I. assert (J : In i (started_ids os)) by (apply in_flat_map; exists (OStarted i m t0); split; [assumption|left; reflexivity]).
  rewrite (v_ids V), in_seq in J. lia.
Qed.
(** After stop_beam returned, the beam sends at most one tick *)
Theorem C60_after_stop ls k os a id b m t0 : run ticker_new ls = Some (k, os) -> os = a ++ OStopped id :: b -> In (OStarted id m t0) a ->
  length (sent_by id b) <= 1.
Proof.
  intros R -> I. destruct (run_split _ _ _ _ _ R) as (ls1 & l & ls2 & k1 & k2 & -> & R1 & S1 & R2).
  pose proof (inv_run _ R1) as V. pose proof (inv_step _ V S1) as V2. pose proof (started_lt _ _ _ V I) as L.
  assert (X : exists t, nth_error (threads k2) id = Some t /\ t_tx t = false).
  { destruct l; cbn [step] in S1.
    - destruct (stopping k1); discriminate S1.
    - destruct (stopping k1) eqn:ST; [discriminate S1|]. destruct (stop_beam k1 id0) as [k3|] eqn:SB; [|discriminate S1]. injection S1 as <- <-.
      apply (stop_tx V ST SB L).
    - destruct (stopping k1); discriminate S1.
    - destruct (stopping k1) as [[|h r]|]; [discriminate S1| |discriminate S1]. destruct (handle_stop (set_beams k1 (beams k1) (Some r)) h); discriminate S1.
    - unfold beam_step in S1. destruct (nth_error (threads k1) i) as [t|]; [|discriminate S1]. destruct (t_pc t).
      + destruct (t_left t) as [[|n]|]; discriminate S1.
      + destruct (t_msgs t); [|discriminate S1]. destruct (negb (t_tx t) || N.leb deadline (clock k1)); discriminate S1.
      + destruct (tick_rx k1); discriminate S1.
      + discriminate S1.
    - discriminate S1.
    - destruct (tick_rx k1), (ticks k1); discriminate S1.
    - discriminate S1. }
  destruct X as (t & T & X). destruct (stopped_run _ _ V2 T X R2) as (A & _). destruct (t_pc t); lia.
Qed.
(** and its thread ends after at most 3 steps, none of which has to wait *)
Theorem C60_thread_ends ls k os id ls' k' os' m t0 : run ticker_new ls = Some (k, os) -> In (OStarted id m t0) os -> stopping k = None ->
  run k (LStop id :: ls') = Some (k', os') ->
  steps_of id ls' <= 3 /\ (ended k' id \/ exists k'' os'', step k' (LBeam id) = Some (k'', os'')).
Proof.
  intros R I ST R2. pose proof (inv_run _ R) as V. cbn [run] in R2. destruct (step k (LStop id)) as [(k1 & os1)|] eqn:S1; [|discriminate R2].
  pose proof (inv_step _ V S1) as V1. cbn [step] in S1. rewrite ST in S1. destruct (stop_beam k id) as [k3|] eqn:SB; [|discriminate S1]. injection S1 as <- <-.
  destruct (run k3 ls') as [(k4 & os4)|] eqn:R3; [|discriminate R2]. injection R2 as <- <-.
  destruct (stop_tx V ST SB (started_lt _ _ _ V I)) as (t & T & X). destruct (stopped_run _ _ V1 T X R3) as (_ & B). split; [destruct (t_pc t); cbn in B; lia|].
  assert (TX : forall ls k os k' os' t, inv k os -> run k ls = Some (k', os') -> nth_error (threads k) id = Some t -> t_tx t = false -> exists t', nth_error (threads k') id = Some t' /\ t_tx t' = false).
  { clear. induction ls as [|l ls IH]; intros k os k' os' t V R T X; cbn [run] in R; [injection R as <- <-; eauto|].
    destruct (step k l) as [(k1 & os1)|] eqn:S1; [|discriminate R]. destruct (run k1 ls) as [(k2 & os2)|] eqn:R1; [|discriminate R]. injection R as <- <-.
    pose proof (inv_step _ V S1) as V1. enough (exists t1, nth_error (threads k1) id = Some t1 /\ t_tx t1 = false) as (t1 & T1 & X1) by (apply (IH _ _ _ _ _ V1 R1 T1 X1)).
    destruct l; cbn [step] in S1.
    - destruct (stopping k); [discriminate S1|]. injection S1 as <- <-. exists t. cbn. rewrite nth_error_app1 by (apply (nth_lt _ _ T)). auto.
    - destruct (stopping k) eqn:ST; [discriminate S1|]. destruct (stop_beam_spec id0 V ST) as [(Y & _)|(h & rest & u & H1 & H1' & H2 & H3 & H4 & Y)]; rewrite Y in S1; injection S1 as <- <-; [eauto|].
      cbn. destruct (Nat.eq_dec (h_chan h) id) as [<-|D]; [|exists t; rewrite nth_error_set_nth_neq by assumption; auto].
      exists (signal u). rewrite nth_error_set_nth_eq by (apply (nth_lt _ _ T)). auto.
    - destruct (stopping k); [discriminate S1|]. injection S1 as <- <-. eauto.
    - destruct (stopping k) as [[|h r]|] eqn:ST; [| |discriminate S1]; [injection S1 as <- <-; eauto|].
      unfold handle_stop in S1. cbn [set_beams threads] in S1. destruct (nth_error (threads k) (h_chan h)) as [u|] eqn:U; [|discriminate S1].
      assert (G : forall w, t_tx w = false -> exists t1, nth_error (set_nth (h_chan h) w (threads k)) id = Some t1 /\ t_tx t1 = false).
      { intros w W. destruct (Nat.eq_dec (h_chan h) id) as [<-|D]; [exists w; rewrite nth_error_set_nth_eq by (apply (nth_lt _ _ T)); auto|exists t; rewrite nth_error_set_nth_neq by assumption; auto]. }
      destruct (t_pc u), (t_msgs u <? 1); try discriminate S1; injection S1 as <- <-; apply G; reflexivity.
    - destruct (nth_error (threads k) i) as [u|] eqn:T0.
      2: { unfold beam_step in S1. rewrite T0 in S1. discriminate S1. }
      destruct (@beam_step_spec _ k os i u k1 os1 T0 (v_thr V _ T0) S1) as (t' & TT & XX & _). rewrite TT.
      destruct (Nat.eq_dec i id) as [->|D]; [|exists t; rewrite nth_error_set_nth_neq by assumption; auto].
      exists t'. rewrite nth_error_set_nth_eq by (apply (nth_lt _ _ T)). rewrite T0 in T. injection T as ->. split; [reflexivity|congruence].
    - injection S1 as <- <-. eauto.
    - destruct (tick_rx k), (ticks k); try discriminate S1. injection S1 as <- <-. eauto.
    - injection S1 as <- <-. eauto. }
  destruct (TX _ _ _ _ _ _ V1 R3 T X) as (t' & T' & X'). pose proof (inv_run_from _ V1 R3) as V4.
  destruct (v_thr V4 _ T') as (t0' & _ & (_ & C2) & _). specialize (C2 X').
  destruct (t_pc t') as [|d| |] eqn:PC.
  - right. cbn [step]. unfold beam_step. rewrite T', PC. destruct (t_left t') as [[|n]|]; eauto.
  - right. cbn [step]. unfold beam_step. rewrite T', PC. destruct C2 as [C2|C2]; [discriminate C2|]. rewrite C2. eauto.
  - right. cbn [step]. unfold beam_step. rewrite T', PC. destruct (tick_rx k4); eauto.
  - left. exists t'. auto.
Qed.
(** The same after stop_all_beams for all beams *)
Theorem C60_after_stop_all ls k os a b id m t0 : run ticker_new ls = Some (k, os) -> os = a ++ OStoppedAll :: b -> In (OStarted id m t0) a ->
  length (sent_by id b) <= 1.
Proof.
  intros R -> I. destruct (run_split _ _ _ _ _ R) as (ls1 & l & ls2 & k1 & k2 & -> & R1 & S1 & R2).
  pose proof (inv_run _ R1) as V. pose proof (inv_step _ V S1) as V2. pose proof (started_lt _ _ _ V I) as L.
  assert (EB : forall ls k os, run ticker_new ls = Some (k, os) -> stopping k <> None -> beams k = []).
  { clear. apply (@run_ind P (fun k os => stopping k <> None -> beams k = [])); [reflexivity|]. intros k os l k' os' IH E.
    assert (HS : forall k h k', handle_stop k h = Some k' -> beams k' = beams (P := P) k /\ stopping k' = stopping k).
    { clear. intros k h k' E. unfold handle_stop in E. destruct (nth_error (threads k) (h_chan h)) as [u|]; [|discriminate E].
      destruct (t_pc u), (t_msgs u <? 1); try discriminate E; injection E as <-; auto. }
    destruct l; cbn [step] in E.
    - destruct (stopping k) eqn:ST; [discriminate E|]. injection E as <- <-. cbn. intros X. congruence.
    - destruct (stopping k) eqn:ST; [discriminate E|]. destruct (stop_beam k id) as [k3|] eqn:SB; [|discriminate E]. injection E as <- <-. unfold stop_beam in SB.
      destruct (position (fun h => h_id h =? id) (beams k)) as [i|]; [|injection SB as <-; intros X; congruence].
      destruct (nth_error (beams k) i) as [h|]; [|discriminate SB]. destruct (HS _ _ _ SB) as (_ & X). rewrite X. cbn. intros Y. congruence.
    - destruct (stopping k) eqn:ST; [discriminate E|]. injection E as <- <-. reflexivity.
    - destruct (stopping k) as [[|h r]|] eqn:ST; [| |discriminate E].
      + injection E as <- <-. cbn. intros X. contradiction.
      + destruct (handle_stop (set_beams k (beams k) (Some r)) h) as [k3|] eqn:SB; [|discriminate E]. injection E as <- <-.
        destruct (HS _ _ _ SB) as (X & _). rewrite X. intros _. cbn. apply IH. discriminate.
    - unfold beam_step in E. destruct (nth_error (threads k) i) as [t|]; [|discriminate E]. destruct (t_pc t).
      + destruct (t_left t) as [[|n]|]; injection E as <- <-; exact IH.
      + destruct (t_msgs t); [|injection E as <- <-; exact IH]. destruct (negb (t_tx t) || N.leb deadline (clock k)); [|discriminate E]. injection E as <- <-; exact IH.
      + destruct (tick_rx k); injection E as <- <-; exact IH.
      + discriminate E.
    - injection E as <- <-. exact IH.
    - destruct (tick_rx k), (ticks k); try discriminate E. injection E as <- <-. exact IH.
    - injection E as <- <-. exact IH. }
  assert (X : exists t, nth_error (threads k2) id = Some t /\ t_tx t = false).
  { destruct l; cbn [step] in S1.
    - destruct (stopping k1); discriminate S1.
    - destruct (stopping k1) eqn:ST; [discriminate S1|]. destruct (stop_beam k1 id0) as [k3|] eqn:SB; discriminate S1.
    - destruct (stopping k1); discriminate S1.
    - destruct (stopping k1) as [[|h r]|] eqn:ST; [|destruct (handle_stop (set_beams k1 (beams k1) (Some r)) h); discriminate S1|discriminate S1].
      injection S1 as <-. cbn [set_beams threads]. rewrite <- (v_len V) in L.
      destruct (nth_error (threads k1) id) as [t|] eqn:T; [|apply nth_error_None in T; lia]. exists t. split; [reflexivity|].
      destruct (t_tx t) eqn:X; [|reflexivity]. exfalso. pose proof (v_all V _ T X) as J. unfold hs in J. rewrite ST in J.
      rewrite (EB _ _ _ R1) in J by congruence. destruct J.
    - unfold beam_step in S1. destruct (nth_error (threads k1) i) as [t|]; [|discriminate S1]. destruct (t_pc t).
      + destruct (t_left t) as [[|n]|]; discriminate S1.
      + destruct (t_msgs t); [|discriminate S1]. destruct (negb (t_tx t) || N.leb deadline (clock k1)); discriminate S1.
      + destruct (tick_rx k1); discriminate S1.
      + discriminate S1.
    - discriminate S1.
    - destruct (tick_rx k1), (ticks k1); discriminate S1.
    - discriminate S1. }
  destruct X as (t & T & X). destruct (stopped_run _ _ V2 T X R2) as (A & _). destruct (t_pc t); lia.
Qed.
(** Stopping a beam doesn't change the others, which can still be stopped *)
Theorem C60_others ls k os id k' : run ticker_new ls = Some (k, os) -> step k (LStop id) = Some (k', [OStopped id]) ->
  (forall i, i <> id -> nth_error (threads k') i = nth_error (threads k) i)
  /\ (forall h, h_id h <> id -> (In h (beams k') <-> In h (beams k))) /\ ticks k' = ticks k /\ next_id k' = next_id k.
Proof.
  intros R S1. pose proof (inv_run _ R) as V. cbn [step] in S1. destruct (stopping k) eqn:ST; [discriminate S1|].
  destruct (stop_beam_spec id V ST) as [(Y & _)|(h & rest & u & H1 & H1' & H2 & H3 & H4 & Y)]; rewrite Y in S1; injection S1 as <-.
  - repeat split; auto.
  - cbn. split; [intros i D; apply nth_error_set_nth_neq; congruence|]. split; [|auto]. intros g D. split; intros I.
    + apply (Permutation_in _ (Permutation_sym H3)). right. exact I.
    + apply (Permutation_in _ H3) in I. destruct I as [I|I]; [congruence|exact I].
Qed.
(** Stopping never blocks *)
Theorem C60_never_blocks ls k os : run ticker_new ls = Some (k, os) ->
  (stopping k = None -> forall id, exists k', step k (LStop id) = Some (k', [OStopped id]))
  /\ (stopping k = None -> exists k', step k LStopAll = Some (k', []) /\ stopping k' = Some (beams k))
  /\ (forall l, stopping k = Some l -> exists k', run k (repeat LStopNext (S (length l))) = Some (k', [OStoppedAll]) /\ stopping k' = None).
Proof.
  intros R. pose proof (inv_run _ R) as V. split; [|split].
  - intros ST id. cbn [step]. rewrite ST. destruct (stop_beam_spec id V ST) as [(Y & _)|(h & rest & u & H1 & H1' & H2 & H3 & H4 & Y)]; rewrite Y; eexists; reflexivity.
  - intros ST. cbn [step]. rewrite ST. eexists. split; reflexivity.
  - intros l. clear R. revert k os V. induction l as [|h r IH]; intros k os V ST.
    + cbn. rewrite ST. eexists. split; reflexivity.
    + assert (I : In h (hs k)) by (unfold hs; rewrite ST; apply in_or_app; right; left; reflexivity).
      destruct (v_handles V h I) as (A1 & u & A2 & A3). assert (M : t_msgs u = 0).
      { destruct (v_thr V _ A2) as (t0 & _ & (C & _) & _). apply C. exact A3. }
      assert (S1 : step k LStopNext = Some (set_thread (set_beams k (beams k) (Some r)) (h_chan h) (signal u), [])).
      { cbn [step]. rewrite ST. rewrite (@handle_stop_some _ _ _ u) by auto. reflexivity. }
      destruct (IH _ _ (inv_step _ V S1) eq_refl) as (k' & R' & ST'). exists k'. split; [|assumption].
      change (repeat LStopNext (S (length (h :: r)))) with (@LStopNext P :: repeat LStopNext (S (length r))). cbn [run]. rewrite S1.
      cbn [run] in R'. rewrite R'. reflexivity.
Qed.

(** ** C74 *)

(** The ticks of a beam are at least one period apart, the first one at least one period after the start *)
Theorem C74_spacing ls k os i m t0 : run ticker_new ls = Some (k, os) -> In (OStarted i m t0) os ->
  forall a x y b, t0 :: sent_by i os = a ++ x :: y :: b -> (x + period m <= y)%N.
Proof.
  intros R I. destruct (started_thread _ _ _ (inv_run _ R) I) as (t & E & M & _ & _ & (S & _)). rewrite M in S. exact S.
Qed.
(** and none is sent in the future *)
Theorem C74_past ls k os i m t0 : run ticker_new ls = Some (k, os) -> In (OStarted i m t0) os ->
  forall n, length (sent_by i os) = n -> (t0 + N.of_nat n * period m <= clock k)%N.
Proof.
  intros R I n <-. destruct (started_thread _ _ _ (inv_run _ R) I) as (t & E & M & _ & _ & (S & L & _)). rewrite M in S.
  enough (X : forall l t0, spaced (period m) (t0 :: l) -> (t0 + N.of_nat (length l) * period m <= last (t0 :: l) 0)%N) by (specialize (X _ _ S); lia).
  clear. induction l as [|x l IH]; intros t0 S; [cbn; lia|].
  assert (H : (t0 + period m <= x)%N) by (apply (S [] t0 x l eq_refl)).
  assert (S' : spaced (period m) (x :: l)) by (intros a u v b E; apply (S (t0 :: a) u v b); rewrite E; reflexivity).
  specialize (IH _ S'). change (last (t0 :: x :: l) 0%N) with (last (x :: l) 0%N). cbn [length]. lia.
Qed.
End Theorems.

(** ** Examples *)
Definition demo_beam (i n : nat) : list (label N) := concat (repeat [LBeam i; LTime 10; LBeam i; LBeam i] n).
(** two beams, the second one stopped while it's about to send *)
Example C59_example :
  exists k os, run ticker_new ([LStart (tick_several_times 7%N 10 2); LStart (tick_infinitely 8%N 5)] ++ demo_beam 1 2 ++ demo_beam 0 2 ++ [LBeam 0; LBeam 1; LTime 5; LBeam 1; LStop 1; LBeam 1; LRecv]) = Some (k, os)
  /\ all_ticks os = [8; 8; 7; 7; 8]%N /\ sent_by 0 os = [30; 40]%N /\ sent_by 1 os = [10; 20; 45]%N /\ ended k 0 /\ not_stopped 0 (demo_beam 1 2).
Proof.
  eexists. eexists. split; [vm_compute; reflexivity|]. split; [reflexivity|]. split; [reflexivity|]. split; [reflexivity|].
  split; [eexists; split; reflexivity|]. split; cbn; intuition discriminate.
Qed.
Example C59_receiver_example :
  exists k os, run ticker_new (LStart (tick_several_times 7%N 10 2) :: demo_beam 0 2) = Some (k, os) /\ ticks k = [7; 7]%N /\ ~ In LDropRx (LStart (tick_several_times 7%N 10 2) :: demo_beam 0 2).
Proof. eexists. eexists. split; [vm_compute; reflexivity|]. split; [reflexivity|]. cbn. intuition discriminate. Qed.
(** the three kinds of missions *)
Example C59_missions_example :
  exists k os, run ticker_new ([LStart (tick_once 6%N 10); LStart (tick_several_times 7%N 10 2); LStart (tick_infinitely 8%N 10)] ++ demo_beam 0 1 ++ [LBeam 0] ++ demo_beam 1 2 ++ [LBeam 1] ++ demo_beam 2 5) = Some (k, os)
  /\ all_ticks os = [6; 7; 7; 8; 8; 8; 8; 8]%N /\ ended k 0 /\ ended k 1.
Proof. eexists. eexists. split; [vm_compute; reflexivity|]. split; [reflexivity|]. split; eexists; split; reflexivity. Qed.
(** One tick is sent after stop_beam returned *)
Example C60_one_more :
  exists k a b, run ticker_new [LStart (tick_once 7%N 10); LBeam 0; LTime 10; LBeam 0; LStop 0; LBeam 0; LBeam 0] = Some (k, a ++ OStopped 0 :: b)
  /\ In (OStarted 0 (tick_once 7%N 10) 0%N) a /\ sent_by 0 b = [10%N].
Proof.
  eexists. eexists [_]. eexists [_]. split; [vm_compute; reflexivity|]. split; [left; reflexivity|reflexivity].
Qed.
(** stop_beam for an id which isn't yet given has no effect on the beam which has it later *)
Example C60_before_start :
  exists k os, run ticker_new (LStop 0 :: LStart (tick_infinitely 7%N 10) :: demo_beam 0 3) = Some (k, os) /\ length (sent_by 0 os) = 3.
Proof. eexists. eexists. split; [vm_compute; reflexivity|reflexivity]. Qed.
(** The handles of the finished beams are kept *)
Example C60_handles_kept :
  exists k os, run ticker_new (LStart (tick_once 7%N 10) :: demo_beam 0 1 ++ [LBeam 0]) = Some (k, os) /\ ended k 0 /\ length (beams k) = 1.
Proof. eexists. eexists. split; [vm_compute; reflexivity|]. split; [eexists; split; reflexivity|reflexivity]. Qed.
(** A beam started at 3 with a period of 10: its ticks are late when its thread is, the next ones being then later too *)
Example C74_example :
  exists k os, run ticker_new [LTime 3; LStart (tick_infinitely 7%N 10); LStart (tick_once 8%N 2); LBeam 0; LTime 12; LBeam 1; LBeam 0; LBeam 0; LBeam 0; LTime 10; LBeam 0; LBeam 0] = Some (k, os)
  /\ In (OStarted 0 (tick_infinitely 7%N 10) 3%N) os /\ sent_by 0 os = [15; 25]%N /\ sent_by 1 os = [] /\ clock k = 25%N.
Proof. eexists. eexists. split; [vm_compute; reflexivity|]. split; [left; reflexivity|]. repeat split. Qed.

Print Assumptions C59_at_most.
Print Assumptions C59_payload.
Print Assumptions C59_ids.
Print Assumptions C59_received.
Print Assumptions C59_receiver.
Print Assumptions C59_exactly.
Print Assumptions C59_infinite.
Print Assumptions C59_missions.
Print Assumptions C59_independent.
Print Assumptions C59_local.
Print Assumptions C60_after_stop.
Print Assumptions C60_thread_ends.
Print Assumptions C60_after_stop_all.
Print Assumptions C60_others.
Print Assumptions C60_never_blocks.
Print Assumptions C74_spacing.
Print Assumptions C74_past.
