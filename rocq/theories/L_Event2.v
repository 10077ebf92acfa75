(** * Lemmas on the event source: channels, counts, double clicks *)
From Verif Require Import Base L_Base M_View M_Content M_Input M_Event S_Event L_Event.
Set Implicit Arguments.
Open Scope nat_scope.

Section Run.
Context {CS : Type} (transform : CS -> KeyEvent -> CS * option KeyComb) (options : EventSourceOptions).
Notation source := (source (CS := CS)).
Notation run := (run transform options).
Notation step := (step transform options).

(** The local steps of the thread only change its own variables *)
Definition idle (p : pc) : Prop := match p with PRead | PSeq _ | PFlush _ _ | PEvent _ | PCount _ _ => True | _ => False end.
Record local (s s' : source) : Prop := {
  l_count : event_count s' = event_count s; l_events : events s' = events s; l_seqs : seqs s' = seqs s; l_quits : quits s' = quits s;
  l_alive : alive s' = alive s; l_rx : rx_events s' = rx_events s; l_rxs : rx_seqs s' = rx_seqs s
}.
Lemma local_read s e : s_pc s = PRead -> local s (on_read s e) /\ idle (s_pc (on_read s e)).
Proof.
  intros P. unfold on_read. destruct (current_escape_sequence s), e as [k| | | |]; try (split; [split; reflexivity|exact I]).
  - destruct (is_seq_end k); [split; [split; reflexivity|exact I]|].
    destruct (negb (intersects (k_mods k) (N.lor ALT CONTROL))); (split; [split; reflexivity|]); [|exact I]. cbn. rewrite P. exact I.
  - destruct (is_seq_start k); (split; [split; reflexivity|]); [|exact I]. cbn. rewrite P. exact I.
Qed.
Lemma local_flush s now keys e : local s (on_flush transform options s now keys e) /\ idle (s_pc (on_flush transform options s now keys e)).
Proof.
  unfold on_flush. destruct keys as [|k keys]; [split; [split; reflexivity|exact I]|].
  destruct (transform (combiner s) k) as (c & comb).
  destruct (discard_raw_key_events options && match comb with None => true | Some _ => false end); (split; [split; reflexivity|exact I]).
Qed.
Lemma local_event s now e : local s (on_event transform options s now e) /\ idle (s_pc (on_event transform options s now e)).
Proof.
  unfold on_event. destruct (discarded_mouse options e); [split; [split; reflexivity|exact I]|].
  destruct e as [k|m|w h|g|p]; try (split; [split; reflexivity|exact I]).
  - destruct (transform (combiner s) k) as (c & comb).
    destruct (discard_raw_key_events options && match comb with None => true | Some _ => false end); (split; [split; reflexivity|exact I]).
  - destruct (set_double_click_spec s (te_new now (TMouse m))) as (lu & b & ->). split; [split; reflexivity|exact I].
Qed.

(** The steps, by their effects *)
Inductive effect (s : source) : label -> source -> list obs -> Prop :=
| f_local l s' os : idle (s_pc s) -> local s s' -> idle (s_pc s') -> os = [] \/ (exists e, os = [ORead e]) -> effect s l s' os
| f_count now t n : s_pc s = PCount t n -> effect s (LGo now) (set_pc (set_count s ((event_count s + 1) mod 2 ^ 64)%N) (PSend t n)) []
| f_seq now q : s_pc s = PSeq q -> length (seqs s) < 10 -> alive s = true \/ rx_seqs s = true -> effect s (LGo now) (set_pc (set_seqs s (seqs s ++ [q])) PRead) [OSeq q]
| f_lost now q : s_pc s = PSeq q -> 10 <= length (seqs s) \/ alive s = false /\ rx_seqs s = false -> effect s (LGo now) (set_pc s PRead) [OSeqLost q]
| f_send now t n : s_pc s = PSend t n -> alive s = true \/ rx_events s = true -> effect s (LGo now) (set_pc (set_events s (events s ++ [t])) (PWait n)) [OSent t]
| f_broken now t n : s_pc s = PSend t n -> alive s = false -> rx_events s = false -> effect s (LGo now) (set_pc s PDone) [OBroken t; OEnd]
| f_more now n q p : s_pc s = PWait n -> quits s = false :: q -> p = PRead \/ (exists ks e, p = PFlush ks e) -> effect s (LGo now) (set_pc (set_quits s q) p) []
| f_quit now n q : s_pc s = PWait n -> quits s = true :: q -> effect s (LGo now) (set_pc (set_quits s q) PDone) [OEnd]
| f_closed now n : s_pc s = PWait n -> quits s = [] -> alive s = false -> effect s (LGo now) (set_pc s PDone) [OEnd]
| f_recv t r : events s = t :: r -> effect s LRecv (set_events s r) [OGot t]
| f_recvseq q r : seqs s = q :: r -> effect s LRecvSeq (set_seqs s r) [OGotSeq q]
| f_unblock b : alive s = true -> s_pc s <> PDone -> effect s (LUnblock b) (set_quits s (quits s ++ [b])) [OUnblock b]
| f_panic b : alive s = true -> s_pc s = PDone -> effect s (LUnblock b) s [OPanic]
| f_alive l a e q : (alive s = true -> a = false -> l = LDrop) -> (alive s = false -> a = false) -> effect s l (set_alive s a e q) [].
Lemma step_effect s l s' os : step s l = Some (s', os) -> effect s l s' os.
Proof.
  intros E. destruct l; cbn [M_Event.step] in E.
  - destruct (s_pc s) eqn:P, r; try discriminate E; injection E as <- <-.
    + destruct (local_read s t P). apply f_local; try assumption; [rewrite P; exact I|]. eauto.
    + apply f_local; [rewrite P; exact I|split; reflexivity|rewrite P; exact I|auto].
  - unfold go in E. destruct (s_pc s) as [|q|ks e|e|t n|t n|n|] eqn:P; try discriminate E.
    + destruct (Nat.ltb_spec (length (seqs s)) ESCAPE_SEQUENCE_CHANNEL_SIZE) as [H|H]; cbn [andb] in E.
      * destruct (alive s || rx_seqs s) eqn:A; injection E as <- <-.
        -- apply f_seq; try assumption. apply orb_true_iff. exact A.
        -- apply f_lost; try assumption. right. apply orb_false_iff. exact A.
      * injection E as <- <-. apply f_lost; try assumption. left. exact H.
    + injection E as <- <-. destruct (local_flush s now ks e). apply f_local; try assumption; [rewrite P; exact I|auto].
    + injection E as <- <-. destruct (local_event s now e). apply f_local; try assumption; [rewrite P; exact I|auto].
    + injection E as <- <-. apply f_count. exact P.
    + destruct (alive s || rx_events s) eqn:A; injection E as <- <-.
      * apply f_send; try assumption. apply orb_true_iff. exact A.
      * apply orb_false_iff in A. eapply f_broken; try eassumption; apply A.
    + destruct (quits s) as [|[] q] eqn:Q; [destruct (alive s) eqn:A; [discriminate E|]| |]; injection E as <- <-.
      * eapply f_closed; eassumption.
      * eapply f_quit; eassumption.
      * destruct n; cbn [goto]; eapply f_more; eauto.
  - destruct (alive s || rx_events s), (events s) eqn:V; try discriminate E; injection E as <- <-. apply f_recv. exact V.
  - destruct (alive s || rx_seqs s), (seqs s) eqn:V; try discriminate E; injection E as <- <-. apply f_recvseq. exact V.
  - destruct (alive s) eqn:A; [|discriminate E]. destruct (s_pc s) eqn:P; injection E as <- <-; try (apply f_unblock; [assumption|congruence]).
    apply f_panic; assumption.
  - destruct (alive s) eqn:A; [|discriminate E]. injection E as <- <-. apply f_alive; congruence.
  - destruct (alive s) eqn:A; [|discriminate E]. injection E as <- <-. apply f_alive; congruence.
  - injection E as <- <-. apply f_alive; congruence.
  - injection E as <- <-. apply f_alive; congruence.
  - injection E as <- <-. apply f_alive; congruence.
Qed.

(** ** Channels *)
Lemma chan_events c0 ls s os : run (source_init c0) ls = Some (s, os) -> sent_of os = got_of os ++ events s.
Proof.
  revert ls s os. apply (@run_ind CS transform options (fun s os => sent_of os = got_of os ++ events s)); [reflexivity|]. clear. intros s os l s' os' I E. rewrite sent_app, got_app, I. apply step_effect in E.
  destruct E as [l s' os' P L P' O|now t n P|now q P L A|now q P L|now t n P A|now t n P A R|now n q p P Q W|now n q P Q|now n P Q A|t r V|q r V|b A P|b A P|l a e q A A'];
    cbn [set_pc set_count set_seqs set_events set_quits set_alive events]; cbn [sent_of got_of flat_map app]; rewrite ?app_nil_r; try reflexivity.
  - rewrite (l_events L). destruct O as [->|(e & ->)]; cbn; rewrite !app_nil_r; reflexivity.
  - rewrite <- app_assoc. reflexivity.
  - rewrite V, <- app_assoc. reflexivity.
Qed.
Lemma chan_seqs c0 ls s os : run (source_init c0) ls = Some (s, os) -> seqs_of os = gotseqs_of os ++ seqs s /\ length (seqs s) <= 10.
Proof.
  revert ls s os. apply (@run_ind CS transform options (fun s os => seqs_of os = gotseqs_of os ++ seqs s /\ length (seqs s) <= 10)); [split; [reflexivity|cbn; lia]|]. clear. intros s os l s' os' (I & H) E. rewrite seqs_app, gotseqs_app, I. apply step_effect in E.
  destruct E as [l s' os' P L P' O|now t n P|now q P L A|now q P L|now t n P A|now t n P A R|now n q p P Q W|now n q P Q|now n P Q A|t r V|q r V|b A P|b A P|l a e q A A'];
    cbn [set_pc set_count set_seqs set_events set_quits set_alive seqs]; cbn [seqs_of gotseqs_of flat_map app]; rewrite ?app_nil_r; try (split; [reflexivity|assumption]).
  - rewrite (l_seqs L). split; [|assumption]. destruct O as [->|(e & ->)]; cbn; rewrite !app_nil_r; reflexivity.
  - rewrite <- app_assoc. split; [reflexivity|]. rewrite app_length. cbn. lia.
  - rewrite V in *. rewrite <- app_assoc. split; [reflexivity|]. cbn in H. lia.
Qed.
(** ** Counts *)
Definition sending (p : pc) : N := match p with PSend _ _ => 1%N | _ => 0%N end.
Definition broken_of (os : list obs) : list TimedEvent := flat_map (fun o => match o with OBroken t => [t] | _ => [] end) os.
Lemma broken_app a b : broken_of (a ++ b) = broken_of a ++ broken_of b.
Proof. apply flat_map_app. Qed.
Lemma count_run c0 ls s os : run (source_init c0) ls = Some (s, os) -> event_count s = ((N.of_nat (length (sent_of os) + length (broken_of os)) + sending (s_pc s)) mod 2 ^ 64)%N
  /\ (s_pc s <> PDone -> broken_of os = []).
Proof.
  revert ls s os. apply (@run_ind CS transform options (fun s os => event_count s = ((N.of_nat (length (sent_of os) + length (broken_of os)) + sending (s_pc s)) mod 2 ^ 64)%N
  /\ (s_pc s <> PDone -> broken_of os = []))); [split; reflexivity|]. clear. intros s os l s' os' (I & B) E. rewrite sent_app, broken_app, !app_length. apply step_effect in E.
  assert (ID : forall p, idle p -> sending p = 0%N /\ p <> PDone) by (intros []; cbn; intuition; discriminate).
  destruct E as [l s' os' P L P' O|now t n P|now q P L A|now q P L|now t n P A|now t n P A R|now n q p P Q W|now n q P Q|now n P Q A|t r V|q r V|b A P|b A P|l a e q A A'];
    cbn [set_pc set_count set_seqs set_events set_quits set_alive event_count s_pc]; cbn [sent_of broken_of flat_map app length sending];
    rewrite ?app_nil_r, ?Nat.add_0_r; try (rewrite P in I, B; cbn [sending] in I; split; [|intros _; try apply B; discriminate]; exact I); try (split; assumption).
  - rewrite (l_count L), I, (proj1 (ID _ P)), (proj1 (ID _ P')). specialize (B (proj2 (ID _ P))).
    destruct O as [->|(e & ->)]; cbn [sent_of broken_of flat_map app length]; rewrite !app_nil_r, !Nat.add_0_r; (split; [reflexivity|intros _; exact B]).
  - rewrite P in *. split; [|intros _; apply B; discriminate]. cbn [sending] in I. rewrite I, N.add_0_r. rewrite N.add_mod_idemp_l by discriminate. reflexivity.
  - rewrite P in *. split; [|intros _; apply B; discriminate]. cbn [sending] in I. rewrite I. f_equal. lia.
  - rewrite P in *. split; [|intros X; contradiction]. cbn [sending] in I. rewrite I. f_equal. lia.
  - rewrite P in *. destruct W as [->|(ks & e & ->)]; (split; [exact I|intros _; apply B; discriminate]).
Qed.
(** ** Quit messages *)
Definition waiting (p : pc) : nat := match p with PWait _ => 1 | _ => 0 end.
Lemma quits_run c0 ls s os : run (source_init c0) ls = Some (s, os) -> exists used, unblocks_of os = used ++ quits s
  /\ (s_pc s <> PDone -> Forall (fun b => b = false) used /\ length (sent_of os) = length used + waiting (s_pc s))
  /\ (s_pc s = PDone -> (Forall (fun b => b = false) used /\ length (sent_of os) <= length used + 1)
        \/ exists u, used = u ++ [true] /\ Forall (fun b => b = false) u /\ length (sent_of os) = length used).
Proof.
  revert ls s os. apply (@run_ind CS transform options (fun s os => exists used, unblocks_of os = used ++ quits s
  /\ (s_pc s <> PDone -> Forall (fun b => b = false) used /\ length (sent_of os) = length used + waiting (s_pc s))
  /\ (s_pc s = PDone -> (Forall (fun b => b = false) used /\ length (sent_of os) <= length used + 1)
        \/ exists u, used = u ++ [true] /\ Forall (fun b => b = false) u /\ length (sent_of os) = length used))).
  { exists []. cbn. repeat split; auto; discriminate. }
  clear. intros s os l s' os' (used & U & ND & D) E. rewrite sent_app, unblocks_app, !app_length, U. apply step_effect in E.
  assert (ID : forall p, idle p -> waiting p = 0 /\ p <> PDone) by (intros []; cbn; intuition; discriminate).
  destruct E as [l s' os' P L P' O|now t n P|now q P L A|now q P L|now t n P A|now t n P A R|now n q p P Q W|now n q P Q|now n P Q A|t r V|q r V|b A P|b A P|l a e q A A'];
    cbn [set_pc set_count set_seqs set_events set_quits set_alive quits s_pc]; cbn [sent_of unblocks_of flat_map app length];
    rewrite ?app_nil_r, ?Nat.add_0_r; try (exists used; split; [reflexivity|]; split; assumption).
  - exists used. rewrite (l_quits L), (proj1 (ID _ P')). specialize (ND (proj2 (ID _ P))). rewrite (proj1 (ID _ P)) in ND.
    destruct O as [->|(e & ->)]; cbn; rewrite !app_nil_r, ?Nat.add_0_r in *; (split; [reflexivity|]; split; [tauto|]; intros X; destruct (ID _ P') as (_ & Y); contradiction).
  - exists used. rewrite P in *. split; [reflexivity|]. split; [intros _; apply ND; discriminate|discriminate].
  - exists used. rewrite P in *. split; [reflexivity|]. split; [intros _; apply ND; discriminate|discriminate].
  - exists used. rewrite P in *. split; [reflexivity|]. split; [intros _; apply ND; discriminate|discriminate].
  - exists used. rewrite P in *. split; [reflexivity|]. destruct (ND ltac:(discriminate)) as (F & H). cbn [waiting] in *. split; [|discriminate]. intros _. split; [assumption|lia].
  - exists used. rewrite P in *. split; [reflexivity|]. destruct (ND ltac:(discriminate)) as (F & H). cbn [waiting] in *. split; [intros X; contradiction|]. intros _. left. split; [assumption|lia].
  - exists (used ++ [false]). rewrite P in *. destruct (ND ltac:(discriminate)) as (F & H). cbn [waiting] in *. rewrite Q, <- app_assoc. split; [reflexivity|].
    destruct W as [->|(ks & e & ->)]; (split; [intros _; split; [apply Forall_app; auto|rewrite app_length; cbn; lia]|discriminate]).
  - exists (used ++ [true]). rewrite P in *. destruct (ND ltac:(discriminate)) as (F & H). cbn [waiting] in *. rewrite Q, <- app_assoc. split; [reflexivity|].
    split; [intros X; contradiction|]. intros _. right. exists used. repeat split; [assumption|]. rewrite app_length; cbn; lia.
  - exists used. rewrite P in *. destruct (ND ltac:(discriminate)) as (F & H). cbn [waiting] in *. split; [reflexivity|].
    split; [intros X; contradiction|]. intros _. left. split; [assumption|lia].
  - exists used. rewrite <- app_assoc. split; [reflexivity|]. split; assumption.
Qed.

(** ** Double clicks *)
Definition flagged (l : list TimedEvent) : Prop := forall a t b, l = a ++ t :: b -> (double_click t = true <-> second_click a t).
Lemma flagged_snoc l t : flagged l -> (double_click t = true <-> second_click l t) -> flagged (l ++ [t]).
Proof.
  intros F H a t' b E. destruct b as [|x b] using rev_ind.
  - apply app_inj_tail in E. destruct E as (-> & ->). exact H.
  - clear IHb. rewrite app_comm_cons, app_assoc in E. apply app_inj_tail in E. destruct E as (-> & _). apply (F _ _ b eq_refl).
Qed.
Lemma flagged_app a b : flagged (a ++ b) -> flagged a.
Proof. intros F x t y E. apply (F x t (y ++ b)). rewrite E, <- app_assoc. reflexivity. Qed.
Definition up_of (l : list TimedEvent) (c : option TimedClick) : Prop :=
  match c with
  | None => forall t x y, In t l -> ~ left_release t x y
  | Some c => exists t, last_release l t (c_x c) (c_y c) /\ te_time t = c_time c
  end.
Lemma up_keep l c t : up_of l c -> (forall x y, ~ left_release t x y) -> up_of (l ++ [t]) c.
Proof.
  intros U N. destruct c as [c|]; cbn in *.
  - destruct U as (t0 & (a & b & -> & R & L) & T). exists t0. split; [|assumption]. exists a, (b ++ [t]).
    rewrite <- app_assoc. repeat split; try assumption. intros t' x y H. apply in_app_or in H. destruct H as [H|[<-|[]]]; [apply (L _ _ _ H)|apply N].
  - intros t' x y H. apply in_app_or in H. destruct H as [H|[<-|[]]]; [apply (U _ _ _ H)|apply N].
Qed.
Lemma last_release_unique l : forall t x y t' x' y', last_release l t x y -> last_release l t' x' y' -> t = t' /\ x = x' /\ y = y'.
Proof.
  induction l as [|z l IH] using rev_ind; intros t x y t' x' y' (a & b & E & R & L) (a' & b' & E' & R' & L'); [destruct a; discriminate E|].
  destruct b as [|w b _] using rev_ind; destruct b' as [|w' b' _] using rev_ind.
  - apply app_inj_tail in E. apply app_inj_tail in E'. destruct E as (_ & <-). destruct E' as (_ & <-). split; [reflexivity|].
    destruct R as (m & R), R' as (m' & R'). rewrite R in R'. injection R' as -> ->. auto.
  - exfalso. apply app_inj_tail in E. destruct E as (_ & <-). rewrite app_comm_cons, app_assoc in E'. apply app_inj_tail in E'. destruct E' as (_ & <-).
    apply (L' z x y); [apply in_or_app; right; left; reflexivity|exact R].
  - exfalso. apply app_inj_tail in E'. destruct E' as (_ & <-). rewrite app_comm_cons, app_assoc in E. apply app_inj_tail in E. destruct E as (_ & <-).
    apply (L z x' y'); [apply in_or_app; right; left; reflexivity|exact R'].
  - rewrite app_comm_cons, app_assoc in E, E'. apply app_inj_tail in E, E'. destruct E as (E & <-), E' as (E' & <-).
    apply IH; [exists a, b|exists a', b']; (split; [assumption|split; [assumption|]]); intros t0 x0 y0 H; [apply (L t0)|apply (L' t0)]; apply in_or_app; auto.
Qed.
Lemma not_click l t : (forall x y, ~ left_press t x y) -> (forall x y, ~ left_release t x y) -> double_click t = false -> (double_click t = true <-> second_click l t).
Proof. intros P R D. split; [congruence|]. intros (x & y & t0 & [H|H] & _); [destruct (P _ _ H)|destruct (R _ _ H)]. Qed.

Definition held (p : pc) : list TimedEvent := match p with PCount t _ | PSend t _ => [t] | _ => [] end.
Definition dinv (s : source) (os : list obs) : Prop :=
  flagged (sent_of os ++ held (s_pc s)) /\ (s_pc s <> PDone -> up_of (sent_of os ++ held (s_pc s)) (last_up s)).
Lemma dinv_flush s os now keys e : dinv s os -> s_pc s = PFlush keys e -> dinv (on_flush transform options s now keys e) os.
Proof.
  intros (F & U) P. unfold dinv in *. rewrite P in F, U. cbn [held] in *. rewrite app_nil_r in *. specialize (U ltac:(discriminate)).
  unfold on_flush. destruct keys as [|k keys]; [cbn; rewrite app_nil_r; auto|].
  destruct (transform (combiner s) k) as (c & comb). destruct (discard_raw_key_events options && match comb with None => true | Some _ => false end); [cbn; rewrite app_nil_r; auto|].
  assert (NR : forall x y t, te_event t = TKey k -> ~ left_release t x y) by (intros x y t E (m & X); congruence).
  assert (NP : forall x y t, te_event t = TKey k -> ~ left_press t x y) by (intros x y t E (m & X); congruence).
  cbn [set_pc set_combiner s_pc held last_up]. split.
  - apply flagged_snoc; [assumption|]. apply not_click; [intros; apply NP; reflexivity|intros; apply NR; reflexivity|reflexivity].
  - intros _. apply up_keep; [assumption|]. intros; apply NR; reflexivity.
Qed.
Lemma dinv_event s os now e : dinv s os -> s_pc s = PEvent e -> dinv (on_event transform options s now e) os.
Proof.
  intros (F & U) P. unfold dinv in *. rewrite P in F, U. cbn [held] in *. rewrite app_nil_r in *. specialize (U ltac:(discriminate)).
  unfold on_event. destruct (discarded_mouse options e); [cbn; rewrite app_nil_r; auto|].
  assert (G : forall t (s' : source), double_click t = false -> (forall x y, ~ left_press t x y) -> (forall x y, ~ left_release t x y) -> last_up s' = last_up s ->
    flagged (sent_of os ++ held (s_pc (set_pc s' (PCount t NLoop)))) /\ (s_pc (set_pc s' (PCount t NLoop)) <> PDone -> up_of (sent_of os ++ held (s_pc (set_pc s' (PCount t NLoop)))) (last_up (set_pc s' (PCount t NLoop))))).
  { intros t s' D NP NR E. cbn [set_pc s_pc held last_up]. split.
    - apply flagged_snoc; [assumption|]. apply not_click; assumption.
    - intros _. rewrite E. apply up_keep; assumption. }
  destruct e as [k|m|w h|g|p].
  - destruct (transform (combiner s) k) as (c & comb). destruct (discard_raw_key_events options && match comb with None => true | Some _ => false end); [cbn; rewrite app_nil_r; auto|].
    apply G; try reflexivity; intros x y (md & X); discriminate X.
  - unfold set_double_click. cbn [te_new te_event].
    destruct (match m_kind m with MDown BLeft | MUp BLeft => true | _ => false end) eqn:KB.
    2: { apply G; try reflexivity; intros x y (md & X); cbn in X; injection X as ->; discriminate KB. }
    set (t := te_new now (TMouse m)). cbn [te_time].
    assert (PR : forall b, left_press (mkTE now (TMouse m) b None) (m_column m) (m_row m) \/ left_release (mkTE now (TMouse m) b None) (m_column m) (m_row m)).
    { intros b. destruct m as [kd x y md]. cbn in *. destruct kd as [[]|[]|[]| | | | |]; try discriminate KB; [left|right]; exists md; reflexivity. }
    assert (XY : forall b x y, left_press (mkTE now (TMouse m) b None) x y \/ left_release (mkTE now (TMouse m) b None) x y -> x = m_column m /\ y = m_row m).
    { intros b x y [(md & X)|(md & X)]; cbn in X; injection X as ->; auto. }
    assert (T : exists b, (match last_up s with
        | Some l => if N.eqb (m_column m) (c_x l) && N.eqb (m_row m) (c_y l) && N.ltb (te_time t - c_time l) DOUBLE_CLICK_MAX_DURATION
                    then mkTE (te_time t) (TMouse m) true (key_combination t) else t
        | None => t end) = mkTE now (TMouse m) b None /\ (b = true <-> second_click (sent_of os) (mkTE now (TMouse m) b None))).
    { destruct (last_up s) as [l|] eqn:LU; cbn [up_of] in U.
      - destruct U as (t0 & LR & T0). change (te_time t) with now. change (key_combination t) with (@None KeyComb). rewrite <- T0.
        destruct (N.eqb (m_column m) (c_x l) && N.eqb (m_row m) (c_y l) && N.ltb (now - te_time t0) DOUBLE_CLICK_MAX_DURATION) eqn:C.
        + exists true. split; [reflexivity|]. split; [intros _|reflexivity]. rewrite !andb_true_iff, !N.eqb_eq, N.ltb_lt in C. destruct C as ((C1 & C2) & C3).
          exists (m_column m), (m_row m), t0. split; [apply PR|]. rewrite C1, C2. split; [assumption|]. cbn [te_time]. unfold DOUBLE_CLICK_MAX_DURATION in C3. lia.
        + exists false. split; [reflexivity|]. split; [discriminate|]. intros (x & y & t1 & H & LR1 & TT). destruct (XY _ _ _ H) as (-> & ->).
          destruct (last_release_unique LR LR1) as (<- & E1 & E2). rewrite E1, E2, !N.eqb_refl in C. cbn [andb] in C. cbn [te_time] in TT.
          apply N.ltb_ge in C. unfold DOUBLE_CLICK_MAX_DURATION in C. lia.
      - exists false. split; [reflexivity|]. split; [discriminate|]. intros (x & y & t1 & H & (a & b & E & R & _) & TT).
        exfalso. apply (U t1 x y); [|assumption]. rewrite E. apply in_or_app. right. left. reflexivity. }
    destruct T as (b & -> & SB). cbn [set_pc s_pc held].
    split; [apply flagged_snoc; [assumption|exact SB]|]. intros _.
    destruct m as [kd x y md]. cbn [m_kind m_column m_row] in *. destruct kd as [[]|[]|[]| | | | |]; try discriminate KB; cbn [set_pc set_last_up last_up].
    + apply up_keep; [assumption|]. intros x0 y0 (md' & X). discriminate X.
    + cbn [up_of c_x c_y c_time]. exists (mkTE now (TMouse (mkMouse (MUp BLeft) x y md)) b None). split; [|reflexivity].
      exists (sent_of os), []. repeat split; [exists md; reflexivity|]. intros t' x' y' [].
  - apply G; try reflexivity; intros x y (md & X); discriminate X.
  - apply G; try reflexivity; intros x y (md & X); discriminate X.
  - apply G; try reflexivity; intros x y (md & X); discriminate X.
Qed.
Lemma dinv_run c0 ls s os : run (source_init c0) ls = Some (s, os) -> dinv s os.
Proof.
  revert ls s os. apply (@run_ind CS transform options (fun s os => dinv s os)).
  { split; cbn; [intros a t b E; destruct a; discriminate E|]. intros _ t x y []. }
  clear. intros s os l s' os' I E.
  assert (NS : forall s' os', sent_of os' = [] -> held (s_pc s') = held (s_pc s) -> last_up s' = last_up s -> (s_pc s' <> PDone -> s_pc s <> PDone) -> dinv s' (os ++ os')).
  { intros s1 os1 H1 H2 H3 H4. destruct I as (F & U). unfold dinv. rewrite sent_app, H1, app_nil_r, H2, H3. split; auto. }
  assert (ON : forall s' os', sent_of os' = [] -> dinv s' os -> dinv s' (os ++ os')).
  { intros s1 os1 H1. unfold dinv. rewrite sent_app, H1, app_nil_r. auto. }
  destruct l; cbn [M_Event.step] in E.
  - destruct (s_pc s) eqn:P, r as [e0|]; try discriminate E; injection E as <- <-.
    + apply NS; try reflexivity; try discriminate; unfold on_read; destruct (current_escape_sequence s), e0 as [k| | | |]; try rewrite P; try reflexivity;
      try (destruct (is_seq_end k), (negb (intersects (k_mods k) (N.lor ALT CONTROL)))); try (destruct (is_seq_start k)); cbn; rewrite ?P; reflexivity.
    + rewrite app_nil_r. exact I.
  - unfold go in E. destruct (s_pc s) as [|q|ks e|e|t n|t n|n|] eqn:P; try discriminate E.
    + destruct ((length (seqs s) <? ESCAPE_SEQUENCE_CHANNEL_SIZE) && (alive s || rx_seqs s)); injection E as <- <-; apply NS; try rewrite P; try reflexivity; discriminate.
    + injection E as <- <-. apply ON; [reflexivity|]. apply (dinv_flush _ I P).
    + injection E as <- <-. apply ON; [reflexivity|]. apply (dinv_event _ I P).
    + injection E as <- <-. apply NS; try rewrite P; try reflexivity. discriminate.
    + destruct I as (F & U). rewrite P in F, U. cbn [held] in *. destruct (alive s || rx_events s); injection E as <- <-; unfold dinv; rewrite sent_app; cbn; rewrite !app_nil_r.
      * split; [assumption|]. intros _. apply U. discriminate.
      * split; [apply (@flagged_app _ _ F)|]. intros X. contradiction.
    + destruct (quits s) as [|[] q]; [destruct (alive s); [discriminate E|]| |]; injection E as <- <-.
      * apply NS; try rewrite P; try reflexivity. discriminate.
      * apply NS; try rewrite P; try reflexivity. discriminate.
      * destruct n; apply NS; try rewrite P; try reflexivity; discriminate.
  - destruct (alive s || rx_events s), (events s); try discriminate E; injection E as <- <-; apply NS; reflexivity || tauto.
  - destruct (alive s || rx_seqs s), (seqs s); try discriminate E; injection E as <- <-; apply NS; reflexivity || tauto.
  - destruct (alive s); [|discriminate E]. destruct (s_pc s) eqn:P; injection E as <- <-; apply NS; cbn; rewrite ?P; reflexivity || tauto.
  - destruct (alive s); [|discriminate E]. injection E as <- <-; apply NS; reflexivity || tauto.
  - destruct (alive s); [|discriminate E]. injection E as <- <-; apply NS; reflexivity || tauto.
  - injection E as <- <-; apply NS; reflexivity || tauto.
  - injection E as <- <-; apply NS; reflexivity || tauto.
  - injection E as <- <-; apply NS; reflexivity || tauto.
Qed.
End Run.
