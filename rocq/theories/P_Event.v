(** * C55-C58 The event source *)
From Verif Require Import Base L_Base M_View M_Content M_Input M_Event S_Event L_Event L_Event2.
Set Implicit Arguments.
Open Scope nat_scope.

Section Theorems.
Context {CS : Type} (transform : CS -> KeyEvent -> CS * option KeyComb) (options : EventSourceOptions).
Notation run := (run transform options).
Notation kept := (kept transform options).

(** ** C55 *)

(** Every stream is cut in one way, and the pieces are the stream *)
Theorem C55_cut l : exists items p, cut l items p
  /\ (forall items' p', cut l items' p' -> items' = items /\ p' = p)
  /\ l = flat_map item_events items ++ map TKey p.
Proof.
  destruct (cut_total l) as (i & p & C). exists i, p. split; [assumption|]. split; [|apply cut_events; assumption].
  intros i' p' C'. apply (cut_unique C' C).
Qed.
(** At any time of any execution: the deliveries are, in order, the ones of the pieces of what was read and isn't
    discarded. Some are still to do only when the thread isn't waiting for an event. *)
Theorem C55_exact c0 ls s os : run (source_init c0) ls = Some (s, os) ->
  exists items p rest, cut (reads_of os) items p /\ kept c0 items = outs_of os ++ rest /\ (s_pc s = PRead -> rest = []).
Proof.
  intros R. destruct (inv_run _ _ _ _ R) as (dn & td & [C O RD K B T]).
  exists (dn ++ td), (match current_escape_sequence s with Some ks => ks | None => [] end), (current (s_pc s) ++ kept (comb_after transform c0 dn) td).
  split; [assumption|]. split; [rewrite kept_app, K, app_assoc; reflexivity|].
  intros E. rewrite E in *. rewrite (T ltac:(discriminate)). reflexivity.
Qed.
(** The events are received in order, and so are the sequences *)
Theorem C55_received c0 ls s os : run (source_init c0) ls = Some (s, os) ->
  (exists waiting, sent_of os = got_of os ++ waiting /\ waiting = events s)
  /\ (exists waiting, seqs_of os = gotseqs_of os ++ waiting /\ waiting = seqs s /\ length waiting <= 10).
Proof.
  intros R. split; [exists (events s); split; [apply (chan_events _ _ _ _ R)|reflexivity]|].
  destruct (chan_seqs _ _ _ _ R). exists (seqs s). auto.
Qed.
(** The statement holds as long as nothing is lost *)
Theorem C55_once_partial c0 ls s os : run (source_init c0) ls = Some (s, os) -> nothing_lost os -> s_pc s = PRead ->
  exists items p, cut (reads_of os) items p /\ delivered_of os = kept c0 items.
Proof.
  intros R N P. destruct (C55_exact _ _ R) as (i & p & rest & C & K & E). exists i, p. split; [assumption|].
  rewrite K, (E P), app_nil_r. clear - N. unfold nothing_lost in N. induction os as [|o os IH]; [reflexivity|].
  cbn [delivered_of outs_of flat_map]. fold (delivered_of os) (outs_of os). rewrite IH by (intros o' H; apply N; right; exact H).
  specialize (N o (or_introl eq_refl)). destruct o; try reflexivity; destruct N.
Qed.
(** As long as the source isn't dropped, no event is lost, and a sequence is lost only when 10 of them are waiting to be received *)
Theorem C55_losses c0 ls s os : run (source_init c0) ls = Some (s, os) -> ~ In LDrop ls ->
  (forall t, ~ In (OBroken t) os)
  /\ forall a q b, os = a ++ OSeqLost q :: b -> length (seqs_of a) = length (gotseqs_of a) + 10.
Proof.
  intros R ND.
  assert (AL : forall ls s os, run (source_init c0) ls = Some (s, os) -> ~ In LDrop ls -> alive s = true).
  { clear. intros ls s os R. revert R. apply (@run_ind_labels CS transform options (fun ls s os => ~ In LDrop ls -> alive s = true)); [reflexivity|].
    clear. intros ls s os l s' os' I E N. assert (A : alive s = true) by (apply I; intros H; apply N; apply in_or_app; auto).
    apply step_effect in E. destruct E as [l s' os' P L P' O|now t n P|now q P L A'|now q P L|now t n P A'|now t n P A' R|now n q p P Q W|now n q P Q|now n P Q A'|t r V|q r V|b A' P|b A' P|l a e q A1 A2];
      try exact A; try congruence; try (cbn; assumption).
    - rewrite (l_alive L). exact A.
    - cbn. destruct a; [reflexivity|]. exfalso. apply N. apply in_or_app. right. left. apply A1; [assumption|reflexivity]. }
  split.
  - intros t H. apply in_split in H. destruct H as (a & b & ->). destruct (run_split _ _ _ _ _ _ R ltac:(discriminate)) as (ls1 & l & ls2 & s1 & s2 & os & -> & R1 & E).
    assert (A : alive s1 = true) by (apply (AL _ _ _ R1); intros H; apply ND; apply in_or_app; auto).
    apply step_effect in E. inversion E; subst; try congruence. destruct H2 as [H2|(e & H2)]; discriminate H2.
  - intros a q b ->. destruct (run_split _ _ _ _ _ _ R ltac:(discriminate)) as (ls1 & l & ls2 & s1 & s2 & os & -> & R1 & E).
    assert (A : alive s1 = true) by (apply (AL _ _ _ R1); intros H; apply ND; apply in_or_app; auto).
    destruct (chan_seqs _ _ _ _ R1) as (S1 & S2).
    apply step_effect in E. inversion E; subst; try congruence; [destruct H2 as [H2|(e & H2)]; discriminate H2|].
    rewrite S1, app_length. destruct H4 as [H4|(H4 & _)]; [lia|congruence].
Qed.

(** ** C56 *)

(** Every delivered sequence has the right form *)
Theorem C56_form c0 ls s os q : run (source_init c0) ls = Some (s, os) -> In (OSeq q) os \/ In (OGotSeq q) os -> is_sequence q.
Proof.
  intros R H. assert (In (OSeq q) os) as H1.
  { destruct H as [H|H]; [assumption|]. destruct (chan_seqs _ _ _ _ R) as (S1 & _).
    assert (X : In q (seqs_of os)).
    { rewrite S1. apply in_or_app. left. apply in_flat_map. exists (OGotSeq q). split; [assumption|left; reflexivity]. }
    apply in_flat_map in X. destruct X as (o & I & X). destruct o; try (destruct X; fail). all: cbn in X; destruct X as [X|[]]; subst; assumption. }
  destruct (C55_exact _ _ R) as (i & p & rest & C & K & _).
  assert (X : In (OutSeq q) (kept c0 i)).
  { rewrite K. apply in_or_app. left. apply in_flat_map. exists (OSeq q). split; [assumption|left; reflexivity]. }
  assert (Y : forall i c, In (OutSeq q) (kept c i) -> In (ISeq q) i).
  { clear. induction i as [|[ks|[k|m|w h|g|p]] i IH]; intros c; cbn [S_Event.kept]; [intros []| | | | | |].
    - intros [H|H]; [left; congruence|right; apply (IH _ H)].
    - destruct (transform c k) as (c' & [x|]); [intros [H|H]; [discriminate H|]|destruct (discard_raw_key_events options); [|intros [H|H]; [discriminate H|]]]; try intros H; right; apply (IH _ H).
    - destruct (kept_mouse options m); [intros [H|H]; [discriminate H|]|intros H]; right; apply (IH _ H).
    - intros [H|H]; [discriminate H|right; apply (IH _ H)].
    - intros [H|H]; [discriminate H|right; apply (IH _ H)].
    - intros [H|H]; [discriminate H|right; apply (IH _ H)]. }
  specialize (Y _ _ X). clear - C Y. induction C as [|a inner A I|keys rest items p S C IH|a inner e rest items p A I B C IH|e rest items p B C IH].
  - destruct Y.
  - destruct Y.
  - destruct Y as [Y|Y]; [injection Y as <-; assumption|auto].
  - apply in_app_or in Y. destruct Y as [Y|[Y|Y]]; [|discriminate Y|auto]. apply in_map_iff in Y. destruct Y as (k & Y & _). discriminate Y.
  - destruct Y as [Y|Y]; [discriminate Y|auto].
Qed.
(** A run of keys of this form is delivered as one sequence, between what comes before and after it, when it isn't read
    while another sequence is started *)
Theorem C56_runs_partial c0 ls s os pre items q post : run (source_init c0) ls = Some (s, os) -> s_pc s = PRead ->
  reads_of os = pre ++ map TKey q ++ post -> is_sequence q -> cut pre items [] ->
  exists after p, cut post after p /\ outs_of os = kept c0 items ++ OutSeq q :: kept (comb_after transform c0 items) after.
Proof.
  intros R P E S C. destruct (cut_total post) as (after & p & C2). exists after, p. split; [assumption|].
  assert (C3 : cut (reads_of os) (items ++ ISeq q :: after) p).
  { rewrite E. apply (cut_app C eq_refl). apply cut_seq; assumption. }
  destruct (C55_exact _ _ R) as (i & p' & rest & C4 & K & Z). destruct (cut_unique C3 C4) as (<- & <-).
  rewrite (Z P), app_nil_r, kept_app in K. rewrite <- K. reflexivity.
Qed.

(** The text of a sequence: the chars of its keys without modifier, in order *)
Theorem C56_text :
  seq_string [] = []
  /\ (forall l1 l2 c kind, seq_string (l1 ++ mkKE (KChar c) 0 kind :: l2) = seq_string l1 ++ c :: seq_string l2)
  /\ (forall l1 l2 k, (forall c, k_code k = KChar c -> k_mods k <> 0%N) -> seq_string (l1 ++ k :: l2) = seq_string l1 ++ seq_string l2)
  /\ (forall a z cs, alt_underscore a -> alt_backslash z -> seq_string (a :: map (fun c => mkKE (KChar c) 0 Press) cs ++ [z]) = cs).
Proof.
  assert (APP : forall a b, seq_string (a ++ b) = seq_string a ++ seq_string b).
  { induction a as [|k a IH]; intros b; [reflexivity|]. cbn [app seq_string]. rewrite IH. destruct (k_code k); try reflexivity. destruct (N.eqb (k_mods k) 0); reflexivity. }
  split; [reflexivity|]. split; [intros l1 l2 c kind; rewrite APP; reflexivity|]. split.
  - intros l1 l2 k N. rewrite APP. f_equal. cbn [seq_string]. destruct (k_code k) as [c| | | | | | | | | | | | | | |n]; try reflexivity.
    destruct (N.eqb_spec (k_mods k) 0) as [E|E]; [destruct (N c eq_refl E)|reflexivity].
  - intros a z cs (A1 & A2) (Z1 & Z2). cbn [seq_string]. rewrite A1, A2. cbn [N.eqb]. rewrite APP. cbn [seq_string]. rewrite Z1, Z2. cbn [N.eqb]. rewrite app_nil_r.
    induction cs as [|c cs IH]; [reflexivity|]. cbn [map seq_string k_code k_mods N.eqb]. rewrite IH. reflexivity.
Qed.

(** ** C57 *)
Theorem C57_double_click c0 ls s os : run (source_init c0) ls = Some (s, os) ->
  forall before t after, sent_of os = before ++ t :: after -> (double_click t = true <-> second_click before t).
Proof.
  intros R. destruct (dinv_run _ _ _ _ R) as (F & _). apply flagged_app in F. exact F.
Qed.
(** The same for what the application receives *)
Theorem C57_received c0 ls s os : run (source_init c0) ls = Some (s, os) ->
  forall before t after, got_of os = before ++ t :: after -> (double_click t = true <-> second_click before t).
Proof.
  intros R before t after E. apply (C57_double_click _ _ R before t (after ++ events s)).
  rewrite (chan_events _ _ _ _ R), E, <- app_assoc. reflexivity.
Qed.

(** ** C73 *)

(** A received event is a click exactly when it's an unmodified left release which isn't the second one of a double click *)
Theorem C73_click c0 ls s os : run (source_init c0) ls = Some (s, os) ->
  forall before t after, got_of os = before ++ t :: after -> forall x y,
  as_click t = Some (x, y) <-> te_event t = TMouse (mkMouse (MUp BLeft) x y 0) /\ ~ second_click before t.
Proof.
  intros R before t after E x y. rewrite <- (C57_received _ _ R _ _ _ E). unfold as_click.
  destruct (te_event t) as [k|[kd x' y' md]|w h|g|p]; try (split; [discriminate|intros (X & _); discriminate X]).
  destruct kd as [[]|[]|[]| | | | |]; try (split; [discriminate|intros (X & _); discriminate X]).
  destruct md as [|md]; [|split; [discriminate|intros (X & _); discriminate X]].
  destruct (double_click t); split.
  - discriminate.
  - intros (_ & X). destruct (X eq_refl).
  - intros X. injection X as -> ->. split; [reflexivity|discriminate].
  - intros (X & _). injection X as -> ->. reflexivity.
Qed.
(** is_key: the combination, or the key alone *)
Theorem C73_is_key into t key : te_is_key into t key = true
  <-> key_combination t = Some key \/ exists k, te_event t = TKey k /\ into k = key.
Proof.
  unfold te_is_key. destruct (key_combination t) as [c|].
  - destruct (key_eqb c key) eqn:E.
    + apply key_eqb_eq in E. subst. split; auto.
    + assert (N : c <> key) by (intros ->; rewrite (proj2 (key_eqb_eq key key) eq_refl) in E; discriminate E).
      destruct (te_event t) as [k|m|w h|g|p]; try (split; [discriminate|intros [X|(k & X & _)]; congruence]).
      rewrite key_eqb_eq. split; [intros H; right; exists k; auto|]. intros [X|(k' & X & Y)]; congruence.
  - destruct (te_event t) as [k|m|w h|g|p]; try (split; [discriminate|intros [X|(k & X & _)]; congruence]).
    rewrite key_eqb_eq. split; [intros H; right; exists k; auto|]. intros [X|(k' & X & Y)]; congruence.
Qed.

(** ** C58 *)

(** Whatever the calls of unblock: there's at most one more delivered event than there are calls, and none is delivered
    beyond the one a quit answers to *)
Theorem C58_credit c0 ls s os : run (source_init c0) ls = Some (s, os) ->
  length (sent_of os) <= length (unblocks_of os) + 1
  /\ forall i, nth_error (unblocks_of os) i = Some true -> length (sent_of os) <= i + 1.
Proof.
  intros R. destruct (quits_run _ _ _ _ R) as (used & U & ND & D). rewrite U, app_length.
  assert (X : length (sent_of os) <= length used + 1 /\ forall i, nth_error used i = Some true -> length (sent_of os) <= i + 1).
  { assert (FF : forall u i, Forall (fun b => b = false) u -> nth_error u i <> Some true).
    { intros u i F H. apply nth_error_In in H. rewrite Forall_forall in F. specialize (F _ H). discriminate F. }
    assert (PD : s_pc s = PDone \/ s_pc s <> PDone) by (destruct (s_pc s); auto; right; discriminate).
    destruct PD as [P|P].
    - destruct (D P) as [(F & H)|(u & -> & F & H)].
      + split; [assumption|]. intros i E. destruct (FF _ _ F E).
      + split; [lia|]. intros i E. rewrite H, app_length. cbn. assert (~ i < length u); [|lia].
        intros Hi. rewrite nth_error_app1 in E by assumption. destruct (FF _ _ F E).
    - destruct (ND P) as (F & H). split; [destruct (s_pc s); cbn in H; lia|]. intros i E. destruct (FF _ _ F E). }
  destruct X as (X1 & X2). split; [lia|]. intros i E. destruct (Nat.lt_ge_cases i (length used)) as [L|L].
  - rewrite nth_error_app1 in E by assumption. apply X2. exact E.
  - lia.
Qed.
Lemma answers_le c0 ls s os : run (source_init c0) ls = Some (s, os) -> answers os -> length (unblocks_of os) <= length (sent_of os).
Proof.
  intros R A. rewrite (chan_events _ _ _ _ R), app_length. clear R. enough (length (unblocks_of os) <= length (got_of os)) by lia.
  induction os as [|o os IH] using rev_ind; [cbn; lia|].
  assert (A' : answers os) by (intros a b c ->; apply (A a b (c ++ [o])); rewrite <- app_assoc; reflexivity).
  specialize (IH A'). rewrite unblocks_app, got_app, !app_length. destruct o; try (cbn; lia).
  specialize (A os quit [] eq_refl). cbn. lia.
Qed.
Lemma answers_app a b : answers (a ++ b) -> answers a.
Proof. intros A x q y E. apply (A x q (y ++ b)). rewrite E, <- app_assoc. reflexivity. Qed.
Lemma send_split c0 ls s a t b : run (source_init c0) ls = Some (s, a ++ OSent t :: b) ->
  exists used rest ls1 s1, run (source_init c0) ls1 = Some (s1, a) /\ unblocks_of a = used ++ rest /\ Forall (fun b => b = false) used /\ length (sent_of a) = length used.
Proof.
  intros R. destruct (run_split _ _ _ _ _ _ R ltac:(discriminate)) as (ls1 & l & ls2 & s1 & s2 & os & -> & R1 & E).
  destruct (quits_run _ _ _ _ R1) as (used & U & ND & D). exists used, (quits s1), ls1, s1. split; [assumption|]. split; [assumption|].
  assert (P : exists n, s_pc s1 = PSend t n).
  { apply step_effect in E. inversion E; subst; eauto. destruct H2 as [H2|(e & H2)]; discriminate H2. }
  destruct P as (n & P). rewrite P in ND. destruct (ND ltac:(discriminate)) as (F & H). split; [assumption|]. cbn in H. lia.
Qed.
(** When unblock is called once for each received event: between two deliveries there's a call of unblock(false), and
    there's none after unblock(true) *)
Theorem C58_one_by_one_partial c0 ls s os : run (source_init c0) ls = Some (s, os) -> answers os ->
  (forall a t1 b t2 c, os = a ++ OSent t1 :: b ++ OSent t2 :: c -> In (OUnblock false) b)
  /\ (forall a b t c, os <> a ++ OUnblock true :: b ++ OSent t :: c).
Proof.
  intros R A. split.
  - intros a t1 b t2 c E. rewrite E in R, A.
    replace (a ++ OSent t1 :: b ++ OSent t2 :: c) with ((a ++ OSent t1 :: b) ++ OSent t2 :: c) in R by (rewrite <- app_assoc; reflexivity).
    destruct (send_split _ _ _ _ _ R) as (used & rest & ls1 & s1 & R1 & U & F & H).
    destruct (run_split _ _ _ _ _ _ R1 ltac:(discriminate)) as (ls2 & l2 & ls3 & s2 & s3 & os2 & -> & R2 & E2).
    assert (A1 : answers a) by (apply (@answers_app _ _ A)).
    pose proof (answers_le _ _ R2 A1) as L. rewrite unblocks_app, sent_app in *. cbn [unblocks_of sent_of flat_map app] in U, H.
    fold (unblocks_of b) in U. fold (sent_of b) in H. rewrite app_length in H. cbn [length] in H.
    assert (X : nth_error (unblocks_of a ++ unblocks_of b) (length (unblocks_of a)) = Some false).
    { rewrite U. destruct (nth_error used (length (unblocks_of a))) as [v|] eqn:V.
      - rewrite nth_error_app1 by lia. rewrite V. rewrite Forall_forall in F. rewrite (F v (nth_error_In _ _ V)). reflexivity.
      - apply nth_error_None in V. lia. }
    rewrite nth_error_app2, Nat.sub_diag in X by lia. apply nth_error_In in X. apply in_flat_map in X. destruct X as (o & I & X).
    destruct o; try (destruct X; fail). all: cbn in X; destruct X as [X|[]]; subst; assumption.
  - intros a b t c E. rewrite E in R, A.
    replace (a ++ OUnblock true :: b ++ OSent t :: c) with ((a ++ OUnblock true :: b) ++ OSent t :: c) in R by (rewrite <- app_assoc; reflexivity).
    destruct (send_split _ _ _ _ _ R) as (used & rest & ls1 & s1 & R1 & U & F & H).
    destruct (run_split _ _ _ _ _ _ R1 ltac:(discriminate)) as (ls2 & l2 & ls3 & s2 & s3 & os2 & -> & R2 & E2).
    specialize (A a true _ eq_refl). rewrite unblocks_app, sent_app in *. cbn [unblocks_of sent_of flat_map app] in U, H.
    fold (unblocks_of b) in U. fold (sent_of b) in H. rewrite app_length in H.
    pose proof (chan_events _ _ _ _ R2) as CE. apply (f_equal (@length _)) in CE. rewrite app_length in CE.
    assert (X : nth_error (unblocks_of a ++ true :: unblocks_of b) (length (unblocks_of a)) = Some false).
    { rewrite U. destruct (nth_error used (length (unblocks_of a))) as [v|] eqn:V.
      - rewrite nth_error_app1 by lia. rewrite V. rewrite Forall_forall in F. rewrite (F v (nth_error_In _ _ V)). reflexivity.
      - apply nth_error_None in V. lia. }
    rewrite nth_error_app2, Nat.sub_diag in X by lia. discriminate X.
Qed.
(** The event count is the number of delivered events, but while an event is being delivered, and when the channel is broken *)
Theorem C58_count c0 ls s os : run (source_init c0) ls = Some (s, os) ->
  exists more, event_count s = (N.of_nat (length (sent_of os) + more) mod 2 ^ 64)%N /\ more <= 1
    /\ ((forall t, ~ In (OBroken t) os) -> (forall t n, s_pc s <> PSend t n) -> more = 0).
Proof.
  intros R. destruct (count_run _ _ _ _ R) as (C & B).
  assert (B1 : length (broken_of os) <= 1).
  { clear C B. enough (forall ls s os, run (source_init c0) ls = Some (s, os) -> length (broken_of os) <= 1 /\ (s_pc s <> PDone -> broken_of os = [])) by (apply (H _ _ _ R)).
    clear. intros ls s os R. revert ls s os R. apply (@run_ind CS transform options (fun s os => length (broken_of os) <= 1 /\ (s_pc s <> PDone -> broken_of os = []))).
    - cbn. auto.
    - intros s os l s' os' (I & B) E. apply step_effect in E. rewrite broken_app.
      destruct E as [l s' os' P L P' O|now t n P|now q P L A|now q P L|now t n P A|now t n P A R|now n q p P Q W|now n q P Q|now n P Q A|t r V|q r V|b A P|b A P|l a e q A A'];
        cbn [broken_of flat_map app]; rewrite ?app_nil_r; try rewrite P in *; cbn [s_pc set_pc set_events set_seqs set_quits set_alive];
        try (split; [assumption|intros _; apply B; discriminate]); try (split; [assumption|intros X; congruence]); try (split; assumption).
      + assert (s_pc s <> PDone) by (intros X; rewrite X in P; exact P). rewrite (B H).
        destruct O as [->|(e & ->)]; cbn; split; auto.
      + rewrite (B ltac:(discriminate)). cbn. split; [lia|]. intros X. congruence. }
  exists (length (broken_of os) + N.to_nat (sending (s_pc s))). split; [|split].
  - rewrite C. f_equal. lia.
  - destruct (s_pc s) eqn:P; cbn [sending]; try (cbn; lia). rewrite B by discriminate. cbn. lia.
  - intros NB NS. replace (broken_of os) with (@nil TimedEvent).
    + destruct (s_pc s); try reflexivity. destruct (NS t n eq_refl).
    + symmetry. destruct (broken_of os) as [|t r] eqn:Z; [reflexivity|]. exfalso. assert (In t (broken_of os)) by (rewrite Z; left; reflexivity).
      apply in_flat_map in H. destruct H as (o & I & H). destruct o; try (destruct H; fail). all: cbn in H; destruct H as [H|[]]; subst; apply (NB _ I).
Qed.
(** unblock panics exactly when it's called after the end of the thread *)
Theorem C58_unblock_panics (s : source (CS := CS)) b : alive s = true ->
  (step transform options s (LUnblock b) = Some (s, [OPanic]) <-> s_pc s = PDone).
Proof.
  intros A. cbn [step]. rewrite A. split; [|intros ->; reflexivity]. destruct (s_pc s); try reflexivity; discriminate.
Qed.
(** The thread is never stuck: it waits for an event, or for an answer to an event it has sent, or it's finished *)
Theorem C58_progress c0 ls s os now : run (source_init c0) ls = Some (s, os) -> go transform options s now = None ->
  s_pc s = PRead \/ s_pc s = PDone \/ (length (sent_of os) = length (unblocks_of os) + 1 /\ alive s = true).
Proof.
  intros R G. destruct (quits_run _ _ _ _ R) as (used & U & ND & D). unfold go in G. destruct (s_pc s) as [|q|ks e|e|t n|t n|n|] eqn:P; auto; try discriminate G.
  - destruct ((length (seqs s) <? ESCAPE_SEQUENCE_CHANNEL_SIZE) && (alive s || rx_seqs s)); discriminate G.
  - destruct (alive s || rx_events s); discriminate G.
  - destruct (quits s) as [|[] q] eqn:Q; [destruct (alive s); [|discriminate G]| |]; try discriminate G.
    right. right. destruct (ND ltac:(discriminate)) as (F & H). rewrite U, app_nil_r. cbn [waiting] in H. split; [assumption|reflexivity].
Qed.
Definition work (p : pc) : nat :=
  let more n := match n with NLoop => 0 | NFlush ks _ => 4 * length ks + 5 end in
  match p with
  | PRead | PDone => 0
  | PSeq _ => 1
  | PFlush ks _ => 4 * length ks + 5
  | PEvent _ => 4
  | PCount _ n => 3 + more n
  | PSend _ n => 2 + more n
  | PWait n => 1 + more n
  end.
Lemma work_go s now s' os : go transform options s now = Some (s', os) -> work (s_pc s') < work (s_pc s).
Proof.
  unfold go. destruct (s_pc s) as [|q|ks e|e|t n|t n|n|] eqn:P; intros G; try discriminate G.
  - destruct ((length (seqs s) <? ESCAPE_SEQUENCE_CHANNEL_SIZE) && (alive s || rx_seqs s)); injection G as <- <-; cbn; lia.
  - injection G as <- <-. unfold on_flush. destruct ks as [|k ks]; [cbn; lia|]. destruct (transform (combiner s) k) as (c & comb).
    destruct (discard_raw_key_events options && match comb with None => true | Some _ => false end); cbn; lia.
  - injection G as <- <-. unfold on_event. destruct (discarded_mouse options e); [cbn; lia|]. destruct e as [k|m|w h|g|p]; try (cbn; lia).
    + destruct (transform (combiner s) k) as (c & comb). destruct (discard_raw_key_events options && match comb with None => true | Some _ => false end); cbn; lia.
    + destruct (set_double_click_spec s (te_new now (TMouse m))) as (lu & b & ->). cbn. lia.
  - injection G as <- <-. cbn. destruct n; lia.
  - destruct (alive s || rx_events s); injection G as <- <-; cbn; destruct n; lia.
  - destruct (quits s) as [|[] q]; [destruct (alive s); [discriminate G|]| |]; injection G as <- <-; cbn; destruct n; cbn; lia.
Qed.
(** After a read, the thread does a bounded number of steps before the next one *)
Theorem C58_no_spin s : exists bound, forall nows, bound < length nows -> run s (map LGo nows) = None.
Proof.
  exists (work (s_pc s)). intros nows. revert s. induction nows as [|n nows IH]; intros s H; [cbn in H; lia|].
  cbn [map M_Event.run step]. destruct (go transform options s n) as [(s' & os)|] eqn:G; [|reflexivity].
  rewrite IH; [reflexivity|]. pose proof (work_go _ _ G). cbn in H. lia.
Qed.
End Theorems.

(** With the default options, everything is delivered but the mouse moves and the keys which don't complete a combination: drags are *)
Theorem C55_defaults CS (transform : CS -> KeyEvent -> CS * option KeyComb) c0 ls s os : run transform default_options (source_init c0) ls = Some (s, os) ->
  (forall m, In (OutEvent (TMouse m) None) (outs_of os) -> m_kind m <> MMoved) /\ (forall k, ~ In (OutEvent (TKey k) None) (outs_of os))
  /\ (s_pc s = PRead -> exists items p, cut (reads_of os) items p /\ forall e, In (ISingle e) items -> (forall k, e <> TKey k) -> (forall m, e = TMouse m -> m_kind m <> MMoved) ->
      In (OutEvent e None) (outs_of os)).
Proof.
  intros R. destruct (@C55_exact _ transform default_options _ _ _ _ R) as (items & p & rest & C & K & E).
  assert (Kp : forall o, In o (kept transform default_options c0 items) -> (forall m, o = OutEvent (TMouse m) None -> m_kind m <> MMoved) /\ (forall k, o <> OutEvent (TKey k) None)).
  { clear. revert c0. induction items as [|[q|e] r IH]; intros c0 o H; [destruct H|cbn [kept] in H; destruct H as [<-|H]; [split; [discriminate|intros k X; discriminate X]|apply (IH _ _ H)]|].
    - destruct e as [k|m|w h|g|t]; cbn [kept] in H.
      + destruct (transform c0 k) as [c' [comb|]]; cbn [discard_raw_key_events default_options] in H; [|apply (IH _ _ H)].
        destruct H as [<-|H]; [split; [discriminate|intros k0 X; discriminate X]|apply (IH _ _ H)].
      + unfold kept_mouse in H. cbn [discard_mouse_move discard_mouse_drag default_options negb] in H. destruct (m_kind m) eqn:M; try (apply (IH _ _ H));
          (destruct H as [<-|H]; [split; [intros m0 X; injection X as <-; rewrite M; discriminate|intros k X; discriminate X]|apply (IH _ _ H)]).
      + destruct H as [<-|H]; [split; [discriminate|intros k X; discriminate X]|apply (IH _ _ H)].
      + destruct H as [<-|H]; [split; [discriminate|intros k X; discriminate X]|apply (IH _ _ H)].
      + destruct H as [<-|H]; [split; [discriminate|intros k X; discriminate X]|apply (IH _ _ H)].
    }
  assert (In' : forall o, In o (outs_of os) -> In o (kept transform default_options c0 items)) by (intros o H; rewrite K; apply in_or_app; left; exact H).
  split; [|split].
  - intros m H. apply (proj1 (Kp _ (In' _ H)) m eq_refl).
  - intros k H. apply (proj2 (Kp _ (In' _ H)) k eq_refl).
  - intros P. exists items, p. split; [exact C|]. rewrite (E P), app_nil_r in K. rewrite <- K. clear. intros e I NK NM. revert c0. induction items as [|x r IH]; intros c0; [destruct I|].
    destruct I as [->|I].
    + destruct e as [k|m|w h|g|t]; try (left; reflexivity); [exfalso; apply (NK k eq_refl)|]. cbn [kept]. unfold kept_mouse. cbn [discard_mouse_move discard_mouse_drag default_options negb].
      specialize (NM m eq_refl). destruct (m_kind m); try (left; reflexivity). congruence.
    + specialize (IH I). destruct x as [q|[k|m|w h|g|t]]; cbn [kept]; try (right; apply IH).
      * destruct (transform c0 k) as [c' [comb|]]; [right; apply IH|apply IH].
      * destruct (kept_mouse default_options m); [right; apply IH|apply IH].
Qed.
Print Assumptions C55_defaults.

(** ** Examples and refutations *)
(** A combiner completing a combination at each key which isn't released *)
Definition demo_transform (c : unit) (k : KeyEvent) : unit * option KeyComb :=
  (tt, match k_kind k with Release => None | _ => Some (mkKey (k_mods k) [k_code k]) end).
Definition ke (c m : N) : KeyEvent := mkKE (KChar c) m Press.
Definition alt_u := ke 95 4.
Definition alt_b := ke 92 4.
Definition mouse (k : MouseEventKind) (x y : N) : TermEvent := TMouse (mkMouse k x y 0).
Definition demo_run := run demo_transform default_options (source_init tt).
(** reading an event and delivering it, at a time, with its reception and answer *)
Definition go5 (t : N) : list label := [LGo t; LGo t; LGo t; LRecv; LUnblock false; LGo t].
Definition shot (t : N) (e : TermEvent) : list label := LRead (Some e) :: go5 t.
Definition reading (l : list KeyEvent) : list label := map (fun k => LRead (Some (TKey k))) l.

Example C55_example :
  exists s os, demo_run (LRead (Some (mouse MMoved 3 4)) :: LGo 0
     :: shot 5 (TKey (ke 97 0)) ++ reading [alt_u; ke 98 0; ke 99 1; alt_b] ++ [LGo 6; LRecvSeq]
     ++ reading [alt_u; ke 98 0; ke 99 2] ++ go5 7 ++ go5 8 ++ LGo 9 :: go5 9) = Some (s, os)
   /\ outs_of os = [OutEvent (TKey (ke 97 0)) (Some (mkKey 0 [KChar 97])); OutSeq [alt_u; ke 98 0; ke 99 1; alt_b];
       OutEvent (TKey alt_u) (Some (mkKey 4 [KChar 95])); OutEvent (TKey (ke 98 0)) (Some (mkKey 0 [KChar 98])); OutEvent (TKey (ke 99 2)) (Some (mkKey 2 [KChar 99]))]
   /\ got_of os = sent_of os /\ gotseqs_of os = [[alt_u; ke 98 0; ke 99 1; alt_b]] /\ event_count s = 4%N /\ answers os.
Proof.
  eexists. eexists. split; [vm_compute; reflexivity|]. repeat split; try (vm_compute; reflexivity).
  intros a b c E. 
  repeat (destruct a as [|? a]; [try discriminate E; injection E as <- E; cbn; lia|]; injection E as <- E; try discriminate E).
  all: try (destruct a; discriminate E).
Qed.
Example C55_cut_example :
  cut (map TKey [ke 97 0; alt_u; ke 98 0; alt_b; alt_u; ke 99 2; alt_u; ke 98 0])
    [ISingle (TKey (ke 97 0)); ISeq [alt_u; ke 98 0; alt_b]; ISingle (TKey alt_u); ISingle (TKey (ke 99 2))] [alt_u; ke 98 0].
Proof.
  destruct (cut_total (map TKey [ke 97 0; alt_u; ke 98 0; alt_b; alt_u; ke 99 2; alt_u; ke 98 0])) as (i & p & C).
  pose proof (cut_cutg C) as E. vm_compute in E. injection E as <- <-. exact C.
Qed.

Example C55_defaults_example : exists s os, demo_run (shot 5 (mouse (MDrag BLeft) 3 4) ++ LRead (Some (mouse MMoved 3 5)) :: [LGo 6]) = Some (s, os)
  /\ outs_of os = [OutEvent (mouse (MDrag BLeft) 3 4) None] /\ s_pc s = PRead.
Proof. eexists. eexists. split; [vm_compute; reflexivity|]. split; vm_compute; reflexivity. Qed.

(** The eleventh sequence which isn't received is lost *)
Theorem C55_full_refuted : exists ls s os, run demo_transform default_options (source_init tt) ls = Some (s, os)
  /\ s_pc s = PRead /\ ~ In LDrop ls /\ In LCloneSeq ls /\ In (OSeqLost [alt_u; alt_b]) os
  /\ length (outs_of os) = 11 /\ length (delivered_of os) = 10.
Proof.
  exists (LCloneSeq :: concat (repeat (reading [alt_u; alt_b] ++ [LGo 0]) 11)). eexists. eexists. split; [vm_compute; reflexivity|].
  split; [reflexivity|]. split; [cbn; intuition discriminate|]. split; [left; reflexivity|].
  split; [do 32 right; left; reflexivity|]. split; reflexivity.
Qed.
(** A sequence following an unfinished one isn't recognized: its keys are delivered one by one *)
Theorem C56_runs_refuted : exists ls s os q, run demo_transform default_options (source_init tt) ls = Some (s, os)
  /\ s_pc s = PRead /\ is_sequence q /\ reads_of os = TKey alt_u :: TKey (ke 97 0) :: map TKey q /\ ~ In LDrop ls
  /\ seqs_of os = [] /\ length (sent_of os) = 5.
Proof.
  exists (reading [alt_u; ke 97 0; alt_u] ++ go5 0 ++ go5 1 ++ LGo 2 :: go5 2 ++ LRead (Some (TKey (ke 98 0))) :: go5 3 ++ LRead (Some (TKey alt_b)) :: go5 4).
  eexists. eexists. exists [alt_u; ke 98 0; alt_b]. split; [vm_compute; reflexivity|]. split; [reflexivity|].
  split; [exists alt_u, [ke 98 0], alt_b; repeat split; repeat constructor|]. split; [reflexivity|]. split; [cbn; intuition discriminate|]. split; reflexivity.
Qed.
Example C56_example :
  exists s os, demo_run (shot 0 (TKey (ke 97 0)) ++ reading [alt_u; ke 98 0; alt_b] ++ [LGo 0]) = Some (s, os)
  /\ In (OSeq [alt_u; ke 98 0; alt_b]) os /\ is_sequence [alt_u; ke 98 0; alt_b] /\ seq_string [alt_u; ke 98 0; alt_b] = [98%N].
Proof.
  eexists. eexists. split; [vm_compute; reflexivity|]. split; [cbn; tauto|]. split; [|reflexivity].
  exists alt_u, [ke 98 0], alt_b. repeat split; repeat constructor.
Qed.
(** Two clicks at the same place; the third one is too late *)
Example C57_example :
  option_map (fun so => map (fun t => (te_time t, double_click t)) (got_of (snd so)))
    (demo_run (shot 0 (mouse (MDown BLeft) 3 4) ++ shot 100000000 (mouse (MUp BLeft) 3 4)
       ++ shot 700000000 (mouse (MDown BLeft) 3 4) ++ shot 800000000 (mouse (MUp BLeft) 3 4) ++ shot 1500000000 (mouse (MDown BLeft) 3 4)
       ++ shot 1500000001 (mouse (MUp BLeft) 5 4) ++ shot 1500000002 (mouse (MDown BRight) 5 4) ++ shot 1500000003 (mouse (MDown BLeft) 5 4)))
  = Some [(0, false); (100000000, false); (700000000, true); (800000000, false); (1500000000, false); (1500000001, false); (1500000002, false); (1500000003, true)]%N.
Proof. vm_compute. reflexivity. Qed.
Example C73_example :
  option_map (fun so => map as_click (got_of (snd so)))
    (demo_run (shot 0 (mouse (MDown BLeft) 3 4) ++ shot 1 (mouse (MUp BLeft) 3 4) ++ shot 2 (mouse (MDown BLeft) 3 4) ++ shot 3 (mouse (MUp BLeft) 3 4)
       ++ shot 4 (TMouse (mkMouse (MUp BLeft) 5 4 2))))
  = Some [None; Some (3, 4); None; None; None]%N.
Proof. vm_compute. reflexivity. Qed.
(** A call of unblock before the event allows two events *)
Theorem C58_early_unblock_refuted : exists ls s os a t1 b t2 c, run demo_transform default_options (source_init tt) ls = Some (s, os)
  /\ os = a ++ OSent t1 :: b ++ OSent t2 :: c /\ ~ In (OUnblock false) b.
Proof.
  exists (LUnblock false :: LRead (Some (TKey (ke 97 0))) :: [LGo 0; LGo 0; LGo 0; LGo 0] ++ LRead (Some (TKey (ke 98 0))) :: [LGo 1; LGo 1; LGo 1]).
  eexists. eexists. eexists [_; _]. eexists. eexists [_]. eexists. eexists []. split; [vm_compute; reflexivity|]. split; [reflexivity|].
  intros [H|[]]. discriminate H.
Qed.
(** A call of unblock(true) while the thread reads doesn't prevent the next event *)
Theorem C58_early_quit_refuted : exists ls s os a t b, run demo_transform default_options (source_init tt) ls = Some (s, os)
  /\ os = a ++ OSent t :: b /\ In (OUnblock true) a.
Proof.
  exists (LUnblock true :: LRead (Some (TKey (ke 97 0))) :: [LGo 0; LGo 0; LGo 0; LGo 0]).
  eexists. eexists. eexists [_; _]. eexists. eexists [_]. split; [vm_compute; reflexivity|]. split; [reflexivity|]. left. reflexivity.
Qed.
Example C58_example :
  exists s os, demo_run (shot 0 (TKey (ke 97 0)) ++ LRead (Some (TKey (ke 98 0))) :: [LGo 1; LGo 1; LGo 1; LRecv; LUnblock true; LGo 2; LUnblock false]) = Some (s, os)
  /\ s_pc s = PDone /\ event_count s = 2%N /\ length (got_of os) = 2 /\ unblocks_of os = [false; true] /\ In OPanic os.
Proof. eexists. eexists. split; [vm_compute; reflexivity|]. repeat split. cbn. tauto. Qed.

Print Assumptions C55_cut.
Print Assumptions C55_exact.
Print Assumptions C55_received.
Print Assumptions C55_once_partial.
Print Assumptions C55_losses.
Print Assumptions C55_full_refuted.
Print Assumptions C56_form.
Print Assumptions C56_runs_partial.
Print Assumptions C56_runs_refuted.
Print Assumptions C56_text.
Print Assumptions C57_double_click.
Print Assumptions C57_received.
Print Assumptions C73_click.
Print Assumptions C73_is_key.
Print Assumptions C58_credit.
Print Assumptions C58_one_by_one_partial.
Print Assumptions C58_count.
Print Assumptions C58_unblock_panics.
Print Assumptions C58_progress.
Print Assumptions C58_no_spin.
Print Assumptions C58_early_unblock_refuted.
Print Assumptions C58_early_quit_refuted.
