(** * C86: with an application which answers, everything which was read is delivered *)
From Verif Require Import Base L_Base M_View M_Content M_Input M_Event S_Event L_Event L_Event2 P_Event.
Set Implicit Arguments.
Open Scope nat_scope.

Section Drain.
Context {CS : Type} (transform : CS -> KeyEvent -> CS * option KeyComb) (options : EventSourceOptions).
Notation run := (run transform options).
Notation kept := (kept transform options).

(** What such an application does, while the thread of the source works: it receives the events, and asks for the next one *)
Definition answering (l : label) : Prop := match l with LGo _ | LRecv | LUnblock false => True | _ => False end.

(** The application isn't blocked: when the thread waits for an answer and there's one answer for each received event, an event can be
    received. *)
Theorem C86_no_deadlock c0 ls s os now : run (source_init c0) ls = Some (s, os) -> go transform options s now = None ->
  s_pc s <> PRead -> s_pc s <> PDone -> length (unblocks_of os) = length (got_of os) ->
  exists t s', step transform options s LRecv = Some (s', [OGot t]).
Proof.
  intros R G P D U. destruct (@C58_progress CS transform options _ _ _ _ _ R G) as [X|[X|(X & A)]]; try contradiction.
  pose proof (chan_events _ _ _ _ R) as C. rewrite C, app_length in X. cbn [step]. rewrite A. cbn [orb].
  destruct (events s) as [|t r]; [cbn in X; lia|]. eauto.
Qed.

Lemma answers_snoc os o : answers os -> (forall b, o = OUnblock b -> length (unblocks_of os) < length (got_of os)) -> answers (os ++ [o]).
Proof.
  intros A H a b c E. destruct (@exists_last _ (OUnblock b :: c)) as (c' & x & X); [discriminate|].
  rewrite X, app_assoc in E. apply app_inj_tail in E. destruct E as (E & <-).
  destruct c' as [|y c']; cbn [app] in X; injection X as X1 X2.
  - rewrite app_nil_r in E. rewrite <- E. apply (H b). symmetry. exact X1.
  - subst y. apply (A a b c'). exact E.
Qed.
Lemma answers_quiet os o : answers os -> unblocks_of o = [] -> answers (os ++ o).
Proof.
  intros A. revert os A. induction o as [|x o IH]; intros os A U; [rewrite app_nil_r; exact A|].
  change (x :: o) with ([x] ++ o) in *. rewrite app_assoc. rewrite unblocks_app in U. apply app_eq_nil in U. destruct U as (U1 & U2).
  apply IH; [|exact U2]. apply answers_snoc; [exact A|]. intros b ->. discriminate U1.
Qed.
Lemma answers_got os : answers os -> length (unblocks_of os) <= length (got_of os).
Proof.
  induction os as [|o os IH] using rev_ind; intros A; [cbn; lia|]. specialize (IH (answers_app _ A)).
  rewrite unblocks_app, got_app, !app_length. destruct o; try (cbn; lia). specialize (A os quit [] eq_refl). cbn. lia.
Qed.

Lemma drain n : forall c0 ls s os, run (source_init c0) ls = Some (s, os) -> work (s_pc s) <= n ->
  alive s = true -> s_pc s <> PDone -> ~ In true (unblocks_of os) -> answers os ->
  exists more s' os', Forall answering more /\ run s more = Some (s', os') /\ s_pc s' = PRead /\ alive s' = true
    /\ answers (os ++ os') /\ reads_of os' = [].
Proof.
  induction n as [|n IH]; intros c0 ls s os R W A D Q AN.
  - exists [], s, []. rewrite app_nil_r. split; [constructor|]. split; [reflexivity|].
    destruct (s_pc s) as [|q|ks e|e|t nx|t nx|nx|] eqn:P; cbn in W; try lia; auto. contradiction.
  - assert (CONT : forall more s1 o1, Forall answering more -> run s more = Some (s1, o1) -> work (s_pc s1) < work (s_pc s) -> alive s1 = true ->
        s_pc s1 <> PDone -> ~ In true (unblocks_of o1) -> answers (os ++ o1) -> reads_of o1 = [] ->
        exists more s' os', Forall answering more /\ run s more = Some (s', os') /\ s_pc s' = PRead /\ alive s' = true /\ answers (os ++ os') /\ reads_of os' = []).
    { intros m1 s1 o1 F R1 W1 A1 D1 Q1 AN1 RD1.
      destruct (IH c0 (ls ++ m1) s1 (os ++ o1)) as (m2 & s2 & o2 & F2 & R2 & P2 & A2 & AN2 & RD2); try assumption.
      - rewrite run_app, R, R1. reflexivity.
      - lia.
      - rewrite unblocks_app. intros I. apply in_app_or in I. tauto.
      - exists (m1 ++ m2), s2, (o1 ++ o2). split; [apply Forall_app; auto|]. split; [rewrite run_app, R1, R2; reflexivity|].
        split; [assumption|]. split; [assumption|]. split; [rewrite app_assoc; assumption|].
        unfold reads_of in *. rewrite flat_map_app, RD1, RD2. reflexivity. }
    destruct (quits_run _ _ _ _ R) as (used & U & ND & _). destruct (ND D) as (F & H).
    destruct (go transform options s 0) as [(s1 & o1)|] eqn:G.
    + assert (X : alive s1 = true /\ s_pc s1 <> PDone /\ unblocks_of o1 = [] /\ reads_of o1 = []).
      { clear CONT IH. unfold go in G. destruct (s_pc s) as [|q|ks e|e|t nx|t nx|nx|] eqn:P; try discriminate G.
        - destruct ((length (seqs s) <? ESCAPE_SEQUENCE_CHANNEL_SIZE) && (alive s || rx_seqs s)); injection G as <- <-; cbn; repeat split; try assumption; discriminate.
        - injection G as <- <-. unfold on_flush. destruct ks as [|k ks]; [cbn; repeat split; try assumption; discriminate|].
          destruct (transform (combiner s) k) as (c & comb).
          destruct (discard_raw_key_events options && match comb with None => true | Some _ => false end); cbn; repeat split; try assumption; discriminate.
        - injection G as <- <-. unfold on_event. destruct (discarded_mouse options e); [cbn; repeat split; try assumption; discriminate|].
          destruct e as [k|m|w h|g|p].
          + destruct (transform (combiner s) k) as (c & comb).
            destruct (discard_raw_key_events options && match comb with None => true | Some _ => false end); cbn; repeat split; try assumption; discriminate.
          + destruct (set_double_click_spec s (te_new 0 (TMouse m))) as (lu & b & ->). cbn. repeat split; try assumption; discriminate.
          + cbn. repeat split; try assumption; discriminate.
          + cbn. repeat split; try assumption; discriminate.
          + cbn. repeat split; try assumption; discriminate.
        - injection G as <- <-. cbn. repeat split; try assumption; discriminate.
        - rewrite A in G. injection G as <- <-. cbn. repeat split; try assumption; discriminate.
        - rewrite A in G. destruct (quits s) as [|[] q] eqn:QS; try discriminate G.
          + exfalso. apply Q. rewrite U. apply in_or_app. right. left. reflexivity.
          + injection G as <- <-. destruct nx; cbn; repeat split; try assumption; discriminate. }
      destruct X as (A1 & D1 & U1 & R1). apply (CONT [LGo 0] s1 o1); try assumption.
      * repeat constructor.
      * cbn [M_Event.run step]. rewrite G, app_nil_r. reflexivity.
      * apply (@work_go CS transform options _ _ _ _ G).
      * rewrite U1. intros [].
      * apply answers_quiet; assumption.
    + destruct (s_pc s) as [|q|ks e|e|t nx|t nx|nx|] eqn:P; unfold go in G; rewrite P in G; try discriminate G.
      * exists [], s, []. rewrite app_nil_r. repeat split; try assumption; constructor.
      * destruct ((length (seqs s) <? ESCAPE_SEQUENCE_CHANNEL_SIZE) && (alive s || rx_seqs s)); discriminate G.
      * rewrite A in G. discriminate G.
      * rewrite A in G. destruct (quits s) as [|[] q] eqn:QS; try discriminate G. clear G IH.
        rewrite app_nil_r in U. cbn [waiting] in H. rewrite <- U in H.
        pose proof (chan_events _ _ _ _ R) as C. rewrite C, app_length in H. pose proof (answers_got AN) as AG.
        destruct (events s) as [|t r] eqn:ES.
        -- apply (CONT [LUnblock false; LGo 0] (goto (set_quits s []) nx) [OUnblock false]).
           ++ repeat constructor.
           ++ cbn [M_Event.run step]. rewrite A, P. cbn [app go]. unfold go. cbn [set_quits s_pc quits]. rewrite P, QS. reflexivity.
           ++ destruct nx; cbn; lia.
           ++ destruct nx; assumption.
           ++ destruct nx; discriminate.
           ++ cbn. intuition discriminate.
           ++ apply answers_snoc; [assumption|]. intros b _. cbn in H. lia.
           ++ reflexivity.
        -- apply (CONT [LRecv; LUnblock false; LGo 0] (goto (set_quits (set_events s r) []) nx) [OGot t; OUnblock false]).
           ++ repeat constructor.
           ++ cbn [M_Event.run step]. rewrite A, ES. cbn [orb M_Event.run step set_events alive s_pc]. rewrite A, P.
              cbn [app]. unfold go. cbn [set_quits set_events s_pc quits]. rewrite P, QS. reflexivity.
           ++ destruct nx; cbn; lia.
           ++ destruct nx; assumption.
           ++ destruct nx; discriminate.
           ++ cbn. intuition discriminate.
           ++ change [OGot t; OUnblock false] with ([OGot t] ++ [OUnblock false]). rewrite app_assoc. apply answers_snoc.
              ** apply answers_quiet; [assumption|reflexivity].
              ** intros b _. rewrite unblocks_app, got_app, !app_length. cbn. lia.
           ++ reflexivity.
      * contradiction.
Qed.

(** The source being there and not told to quit, and the application having answered once for each event it received: from any state,
    if it goes on in this way, the thread comes back to reading. Then everything which was read and must be kept has been delivered, and
    the events have been received. *)
Theorem C86_drained c0 ls s os : run (source_init c0) ls = Some (s, os) ->
  alive s = true -> s_pc s <> PDone -> ~ In true (unblocks_of os) -> answers os ->
  exists more s' os', Forall answering more /\ run s more = Some (s', os') /\ s_pc s' = PRead
    /\ (exists items p, cut (reads_of os) items p /\ outs_of (os ++ os') = kept c0 items)
    /\ got_of (os ++ os') = sent_of (os ++ os') /\ answers (os ++ os').
Proof.
  intros R A D Q AN. destruct (@drain _ c0 ls s os R (le_n _) A D Q AN) as (more & s' & os' & F & R' & P & A' & AN' & RD).
  exists more, s', os'. split; [assumption|]. split; [assumption|]. split; [assumption|].
  assert (RR : run (source_init c0) (ls ++ more) = Some (s', os ++ os')) by (rewrite run_app, R, R'; reflexivity).
  split; [|split; [|assumption]].
  - destruct (@C55_exact CS transform options _ _ _ _ RR) as (items & p & rest & C & K & E). exists items, p.
    unfold reads_of in *. rewrite flat_map_app, RD, app_nil_r in C. split; [assumption|]. rewrite K, (E P), app_nil_r. reflexivity.
  - destruct (quits_run _ _ _ _ RR) as (used & U & ND & _). rewrite P in ND. destruct (ND ltac:(discriminate)) as (_ & H).
    cbn [waiting] in H. pose proof (answers_got AN') as G. pose proof (chan_events _ _ _ _ RR) as C.
    rewrite C, app_length in H. rewrite U, app_length in G. rewrite C.
    destruct (events s'); [rewrite app_nil_r; reflexivity|cbn in H; lia].
Qed.

(** And when it answers with a quit, the thread ends at once *)
Theorem C86_quit c0 ls s os now : run (source_init c0) ls = Some (s, os) -> go transform options s now = None ->
  s_pc s <> PRead -> s_pc s <> PDone ->
  exists s', run s [LUnblock true; LGo now] = Some (s', [OUnblock true; OEnd]) /\ s_pc s' = PDone.
Proof.
  intros R G P D. destruct (@C58_progress CS transform options _ _ _ _ _ R G) as [X|[X|(X & A)]]; try contradiction.
  unfold go in G. destruct (s_pc s) as [|q|ks e|e|t nx|t nx|nx|] eqn:PC; try discriminate G; try contradiction.
  - destruct ((length (seqs s) <? ESCAPE_SEQUENCE_CHANNEL_SIZE) && (alive s || rx_seqs s)); discriminate G.
  - rewrite A in G. discriminate G.
  - rewrite A in G. destruct (quits s) as [|[] q] eqn:QS; try discriminate G.
    eexists. cbn [M_Event.run step]. rewrite A, PC. unfold go. cbn [set_quits s_pc quits]. rewrite PC, QS. cbn [app]. split; reflexivity.
Qed.
(** When the source is dropped while the thread waits for an answer, the thread ends too *)
Theorem C86_dropped c0 ls s os now : run (source_init c0) ls = Some (s, os) -> go transform options s now = None ->
  s_pc s <> PRead -> s_pc s <> PDone ->
  exists s', run s [LDrop; LGo now] = Some (s', [OEnd]) /\ s_pc s' = PDone.
Proof.
  intros R G P D. destruct (@C58_progress CS transform options _ _ _ _ _ R G) as [X|[X|(X & A)]]; try contradiction.
  unfold go in G. destruct (s_pc s) as [|q|ks e|e|t nx|t nx|nx|] eqn:PC; try discriminate G; try contradiction.
  - destruct ((length (seqs s) <? ESCAPE_SEQUENCE_CHANNEL_SIZE) && (alive s || rx_seqs s)); discriminate G.
  - rewrite A in G. discriminate G.
  - rewrite A in G. destruct (quits s) as [|[] q] eqn:QS; try discriminate G.
    eexists. cbn [M_Event.run step]. unfold go. cbn [set_alive s_pc quits alive]. rewrite PC, QS. cbn [app]. split; reflexivity.
Qed.
(** A source which is dropped while the application has no receiver neither sends nor is heard any more: neither events nor sequences *)
Lemma step_receivers s l s' os : step transform options s l = Some (s', os) ->
  (alive s = false -> alive s' = false) /\ (alive s = false \/ l <> LClone -> rx_events s = false -> rx_events s' = false) /\ (alive s = false \/ l <> LCloneSeq -> rx_seqs s = false -> rx_seqs s' = false).
Proof.
  intros E. destruct l as [[e|]|now| | |b| | | | |]; cbn [step] in E.
  - destruct (s_pc s); try discriminate. injection E as <- _. unfold on_read. destruct (current_escape_sequence s), e; try destruct (is_seq_end _); try destruct (is_seq_start _); try destruct (negb _); cbn; auto.
  - destruct (s_pc s); try discriminate. injection E as <- _. auto.
  - unfold go in E. destruct (s_pc s) as [|q|ks e|e|t nx|t nx|nx|]; try discriminate.
    + destruct (_ && _); injection E as <- _; cbn; auto.
    + injection E as <- _. unfold on_flush. destruct ks as [|key ks]; [cbn; auto|]. destruct (transform (combiner s) key) as (c & comb). destruct (_ && _); cbn; auto.
    + injection E as <- _. unfold on_event. destruct (discarded_mouse options e); [cbn; auto|]. destruct e as [key|m|w h|str|].
      * destruct (transform (combiner s) key) as (c & comb). destruct (_ && _); cbn; auto.
      * unfold set_double_click. cbn [te_new te_event]. destruct (m_kind m) as [b|b|b| | | | | ]; try destruct b; cbn; auto.
      * cbn; auto.
      * cbn; auto.
      * cbn; auto.
    + injection E as <- _; cbn; auto.
    + destruct (_ || _); injection E as <- _; cbn; auto.
    + destruct (quits s) as [|[] q]; [destruct (alive s) eqn:A; [discriminate|]|..]; injection E as <- _; try destruct nx; cbn; auto.
  - destruct (_ || _); [|discriminate]. destruct (events s); [discriminate|]. injection E as <- _. cbn; auto.
  - destruct (_ || _); [|discriminate]. destruct (seqs s); [discriminate|]. injection E as <- _. cbn; auto.
  - destruct (alive s) eqn:A; [|discriminate]. destruct (s_pc s); injection E as <- _; cbn; rewrite ?A; auto.
  - destruct (alive s) eqn:A; [|discriminate]. injection E as <- _. cbn. split; [discriminate|]. split; [intros [H|H]; [discriminate|destruct H; reflexivity]|auto].
  - destruct (alive s) eqn:A; [|discriminate]. injection E as <- _. cbn. split; [discriminate|]. split; [auto|intros [H|H]; [discriminate|destruct H; reflexivity]].
  - injection E as <- _. cbn; auto.
  - injection E as <- _. cbn; auto.
  - injection E as <- _. cbn; auto.
Qed.
Lemma step_unheard s l s' os : step transform options s l = Some (s', os) -> alive s = false ->
  (rx_events s = false -> sent_of os = [] /\ got_of os = []) /\ (rx_seqs s = false -> seqs_of os = [] /\ gotseqs_of os = []).
Proof.
  intros E A. destruct l as [[e|]|now| | |b| | | | |]; cbn [step] in E; rewrite ?A in E; cbn [orb] in E; try discriminate E.
  - destruct (s_pc s); try discriminate. injection E as _ <-. cbn; auto.
  - destruct (s_pc s); try discriminate. injection E as _ <-. cbn; auto.
  - unfold go in E. rewrite A in E. cbn [orb] in E. destruct (s_pc s) as [|q|ks e|e|t nx|t nx|nx|]; try discriminate.
    + destruct (rx_seqs s); [|rewrite andb_false_r in E; injection E as _ <-; cbn; auto]. split; [|discriminate]. destruct (_ && _); injection E as _ <-; cbn; auto.
    + injection E as _ <-. cbn; auto.
    + injection E as _ <-. cbn; auto.
    + injection E as _ <-. cbn; auto.
    + destruct (rx_events s); injection E as _ <-; cbn; auto. split; [discriminate|auto].
    + destruct (quits s) as [|[] q]; injection E as _ <-; cbn; auto.
  - destruct (rx_events s); [|discriminate]. split; [discriminate|]. destruct (events s); [discriminate|]. injection E as _ <-. cbn; auto.
  - destruct (rx_seqs s); [|discriminate]. split; [|discriminate]. destruct (seqs s); [discriminate|]. injection E as _ <-. cbn; auto.
  - injection E as _ <-. cbn; auto.
  - injection E as _ <-. cbn; auto.
  - injection E as _ <-. cbn; auto.
Qed.
Theorem C86_unheard c0 ls s os ls' s' os' : run (source_init c0) ls = Some (s, os) -> run s (LDrop :: ls') = Some (s', os') ->
  (~ In LClone ls -> sent_of os' = [] /\ got_of os' = []) /\ (~ In LCloneSeq ls -> seqs_of os' = [] /\ gotseqs_of os' = []).
Proof.
  intros R R'.
  assert (K : (~ In LClone ls -> rx_events s = false) /\ (~ In LCloneSeq ls -> rx_seqs s = false)).
  { revert R. apply (@run_ind_labels CS transform options (fun ls s os => (~ In LClone ls -> rx_events s = false) /\ (~ In LCloneSeq ls -> rx_seqs s = false))); [split; reflexivity|].
    clear. intros ls s os l s' os' (I1 & I2) E. destruct (step_receivers _ _ E) as (_ & E1 & E2). split; intros N.
    - apply E1; [right; intros ->; apply N, in_or_app; right; left; reflexivity|apply I1; intros H; apply N, in_or_app; auto].
    - apply E2; [right; intros ->; apply N, in_or_app; right; left; reflexivity|apply I2; intros H; apply N, in_or_app; auto]. }
  assert (G : forall ls' s os', alive s = false -> run s ls' = Some (s', os') ->
    (rx_events s = false -> sent_of os' = [] /\ got_of os' = []) /\ (rx_seqs s = false -> seqs_of os' = [] /\ gotseqs_of os' = [])).
  { clear. induction ls' as [|l ls' IH]; intros s os' A R; cbn [M_Event.run] in R; [injection R as _ <-; cbn; auto|].
    destruct (step transform options s l) as [(s1 & o1)|] eqn:E; [|discriminate]. destruct (M_Event.run transform options s1 ls') as [(s2 & o2)|] eqn:R2; [|discriminate]. injection R as -> <-.
    destruct (step_receivers _ _ E) as (E0 & E1 & E2). destruct (IH _ _ (E0 A) R2) as (I1 & I2). destruct (step_unheard _ _ E A) as (U1 & U2). unfold sent_of, got_of, seqs_of, gotseqs_of in *. split; intros H; rewrite !flat_map_app.
    - destruct (U1 H) as (-> & ->). exact (I1 (E1 (or_introl A) H)).
    - destruct (U2 H) as (-> & ->). exact (I2 (E2 (or_introl A) H)). }
  cbn [M_Event.run step] in R'. destruct (M_Event.run transform options _ ls') as [(s2 & o2)|] eqn:R2; [|discriminate]. injection R' as -> <-. destruct (G _ (set_alive s false (rx_events s) (rx_seqs s)) o2 eq_refl R2) as (G1 & G2). cbn [set_alive rx_events rx_seqs] in G1, G2. split; intros H; [apply G1, K, H|apply G2, K, H].
Qed.
End Drain.

Print Assumptions C86_no_deadlock.
Print Assumptions C86_drained.
Print Assumptions C86_quit.
Print Assumptions C86_dropped.
Print Assumptions C86_unheard.
(** A key is read when the source is dropped: it's lost, and the thread ends *)
Example C86_unheard_example : exists s os s' os', demo_run [LRead (Some (TKey (ke 98 0)))] = Some (s, os)
  /\ run demo_transform default_options s [LDrop; LGo 5; LGo 5; LGo 6] = Some (s', os') /\ s_pc s' = PDone /\ exists t, os' = [OBroken t; OEnd].
Proof. eexists _, _, _, _. split; [vm_compute; reflexivity|]. split; [vm_compute; reflexivity|]. split; [reflexivity|]. eexists. reflexivity. Qed.

(** Four keys of a broken sequence and the click which broke it: from the state after these reads, all of them get delivered *)
Definition broken_reads : list label := reading [alt_u; ke 98 0; ke 99 1; ke 100 0] ++ [LRead (Some (mouse (MUp BLeft) 3 4))].
Example C86_example : exists s os more s' os', demo_run broken_reads = Some (s, os) /\ outs_of os = []
  /\ Forall answering more /\ run demo_transform default_options s more = Some (s', os') /\ s_pc s' = PRead
  /\ map (fun o => match o with OutEvent e _ => Some e | OutSeq _ => None end) (outs_of (os ++ os'))
     = map Some [TKey alt_u; TKey (ke 98 0); TKey (ke 99 1); TKey (ke 100 0); mouse (MUp BLeft) 3 4].
Proof.
  destruct (demo_run broken_reads) as [(s & os)|] eqn:R; [|discriminate R].
  exists s, os. destruct (@C86_drained _ demo_transform default_options tt broken_reads s os R) as (more & s' & os' & F & R' & P & (items & p & C & O) & _).
  - vm_compute in R. injection R as <- <-. reflexivity.
  - vm_compute in R. injection R as <- <-. discriminate.
  - vm_compute in R. injection R as <- <-. intros [].
  - vm_compute in R. injection R as <- <-. intros a b c E. do 5 (destruct a; [discriminate E|injection E as _ E]). destruct a; discriminate E.
  - exists more, s', os'. split; [reflexivity|]. vm_compute in R. injection R as <- <-. split; [reflexivity|].
    split; [exact F|]. split; [exact R'|]. split; [exact P|].
    pose proof (cut_cutg C) as E. vm_compute in E. injection E as <- <-. rewrite O. vm_compute. reflexivity.
Qed.
