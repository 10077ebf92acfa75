(** * C87: scrolling in several steps *)
From Verif Require Import Base L_Base Demo M_Style M_Fit S_Fit L_Fit M_F64 L_F64 M_View S_View L_View P_View M_List S_List L_List P_List.
Set Implicit Arguments.
Open Scope nat_scope.

(** Several calls, one after the other *)
Fixpoint steps {V} (scroll_lines : V -> Z -> outcome V) (v : V) (ns : list Z) : outcome V :=
  match ns with [] => Ret v | n :: r => v' <- scroll_lines v n ;; steps scroll_lines v' r end.
Definition sum (ns : list Z) : Z := fold_right Z.add 0%Z ns.
(** All in the same direction, and the total is that of an i32 other than its minimum *)
Definition one_way (ns : list Z) : Prop := (Forall (fun n => (0 <= n)%Z) ns \/ Forall (fun n => (n <= 0)%Z) ns) /\ (-2147483648 < sum ns)%Z.

Lemma sum_pos ns : Forall (fun n => (0 <= n)%Z) ns -> (0 <= sum ns)%Z.
Proof. unfold sum. induction 1; cbn in *; lia. Qed.
Lemma sum_neg ns : Forall (fun n => (n <= 0)%Z) ns -> (sum ns <= 0)%Z.
Proof. unfold sum. induction 1; cbn in *; lia. Qed.
Lemma one_way_inv n ns : one_way (n :: ns) -> one_way ns /\ (-2147483648 < n)%Z /\ (0 <= n /\ 0 <= sum ns \/ n <= 0 /\ sum ns <= 0)%Z.
Proof.
  intros ([F|F] & H); inversion F as [|? ? H1 H2]; subst; cbn [sum fold_right] in H; fold (sum ns) in H.
  - pose proof (sum_pos H2). split; [split; [left; assumption|lia]|]. lia.
  - pose proof (sum_neg H2). split; [split; [right; assumption|lia]|]. lia.
Qed.

Lemma tv_eq A (v w : TextView A) : scroll v = scroll w -> same_but_scroll v w -> v = w.
Proof. destruct v, w. unfold same_but_scroll. cbn. intros -> (-> & -> & -> & ->). reflexivity. Qed.
Lemma mv_eq A (v w : MadView A) : mv_scroll v = mv_scroll w -> mv_same_but_scroll v w -> v = w.
Proof. destruct v, w. unfold mv_same_but_scroll. cbn. intros -> (-> & -> & ->). reflexivity. Qed.
Lemma clamp_clamp len h s n m : scroll_ok len h s -> (0 <= n /\ 0 <= m \/ n <= 0 /\ m <= 0)%Z ->
  clamp len h (Z.of_N (clamp len h (Z.of_N s + n)) + m) = clamp len h (Z.of_N s + (n + m)).
Proof. unfold clamp, scroll_ok. generalize (max_scroll len h). lia. Qed.
Lemma clamp_ok len h z : scroll_ok len h (clamp len h z).
Proof. unfold clamp, scroll_ok. generalize (max_scroll len h). lia. Qed.
Lemma clamp_same len h s : scroll_ok len h s -> clamp len h (Z.of_N s + 0) = s.
Proof. unfold clamp, scroll_ok. generalize (max_scroll len h). lia. Qed.

(** In a text view, steps in one direction are as one of their total *)
Theorem C87_text : forall A ns (v : TextView A), tv_ok v -> one_way ns -> steps (@tv_try_scroll_lines A) v ns = tv_try_scroll_lines v (sum ns).
Proof.
  intros A. induction ns as [|n ns IH]; intros v Hv Hns.
  - cbn [steps sum fold_right]. destruct (C40_scroll_lines_partial A v 0 Hv ltac:(lia)) as (v' & E & S & B). change (sum []) with 0%Z. rewrite E. f_equal. apply tv_eq; [|exact B].
    rewrite S. symmetry. apply clamp_same. exact Hv.
  - destruct (one_way_inv Hns) as (H1 & H2 & H3). destruct (C40_scroll_lines_partial A v n Hv H2) as (v1 & E1 & S1 & B1). cbn [steps]. rewrite E1, bind_ret.
    assert (L : tv_len v1 = tv_len v /\ tv_height v1 = tv_height v). { unfold tv_len, tv_height. destruct B1 as (<- & <- & _). auto. }
    destruct L as (L1 & L2).
    assert (Hv1 : tv_ok v1). { unfold tv_ok. rewrite L1, L2, S1. apply clamp_ok. }
    rewrite IH by assumption. destruct H1 as (_ & H1). destruct Hns as (_ & Hs). 
    destruct (C40_scroll_lines_partial A v1 (sum ns) Hv1 H1) as (v2 & E2 & S2 & B2).
    destruct (C40_scroll_lines_partial A v (sum (n :: ns)) Hv Hs) as (v3 & E3 & S3 & B3). rewrite E2, E3. f_equal.
    apply tv_eq.
    + rewrite S2, S3, L1, L2, S1. apply clamp_clamp; assumption.
    + unfold same_but_scroll in *. intuition congruence.
Qed.
Print Assumptions C87_text.

Theorem C87_mad : forall A ns (v : MadView A), mv_ok v -> (0 < a_width (mv_area v))%N -> one_way ns ->
  steps (@mv_try_scroll_lines A) v ns = mv_try_scroll_lines v (sum ns).
Proof.
  intros A. induction ns as [|n ns IH]; intros v Hv Hw Hns.
  - cbn [steps sum fold_right]. destruct (C40_mad_lines_partial A v 0 Hv Hw ltac:(lia)) as (v' & E & S & B). change (sum []) with 0%Z. rewrite E. f_equal. apply mv_eq; [|exact B].
    rewrite S. symmetry. apply clamp_same. exact Hv.
  - destruct (one_way_inv Hns) as (H1 & H2 & H3). destruct (C40_mad_lines_partial A v n Hv Hw H2) as (v1 & E1 & S1 & B1). cbn [steps]. rewrite E1, bind_ret.
    assert (L : mv_len v1 = mv_len v /\ mv_area v1 = mv_area v). { unfold mv_len. destruct B1 as (<- & <- & _). auto. }
    destruct L as (L1 & L2).
    assert (Hv1 : mv_ok v1). { unfold mv_ok. rewrite L1, L2, S1. apply clamp_ok. }
    rewrite IH by (try assumption; rewrite L2; exact Hw). destruct H1 as (_ & H1). destruct Hns as (_ & Hs). 
    destruct (C40_mad_lines_partial A v1 (sum ns) Hv1 ltac:(rewrite L2; exact Hw) H1) as (v2 & E2 & S2 & B2).
    destruct (C40_mad_lines_partial A v (sum (n :: ns)) Hv Hw Hs) as (v3 & E3 & S3 & B3). rewrite E2, E3. f_equal.
    apply mv_eq.
    + rewrite S2, S3, L1, L2, S1. apply clamp_clamp; assumption.
    + unfold mv_same_but_scroll in *. intuition congruence.
Qed.
Print Assumptions C87_mad.

(** Scrolling down then up of the same number of lines gives the view back exactly when it was at its top or when the end wasn't hit *)
Theorem C87_back : forall A (v : TextView A) n, tv_ok v -> (0 <= n < 2147483648)%Z ->
  (steps (@tv_try_scroll_lines A) v [n; - n]%Z = Ret v <-> scroll v = 0%N \/ (Z.of_N (scroll v) + n <= Z.of_N (max_scroll (tv_len v) (tv_height v)))%Z).
Proof.
  intros A v n Hv Hn. destruct (C40_scroll_lines_partial A v n Hv ltac:(lia)) as (v1 & E1 & S1 & B1). cbn [steps]. rewrite E1, bind_ret.
  assert (L : tv_len v1 = tv_len v /\ tv_height v1 = tv_height v). { unfold tv_len, tv_height. destruct B1 as (<- & <- & _). auto. }
  destruct L as (L1 & L2).
  assert (Hv1 : tv_ok v1). { unfold tv_ok. rewrite L1, L2, S1. apply clamp_ok. }
  destruct (C40_scroll_lines_partial A v1 (- n) Hv1 ltac:(lia)) as (v2 & E2 & S2 & B2). rewrite E2, bind_ret. rewrite L1, L2, S1 in S2.
  assert (S3 : scroll v2 = scroll v <-> scroll v = 0%N \/ (Z.of_N (scroll v) + n <= Z.of_N (max_scroll (tv_len v) (tv_height v)))%Z).
  { rewrite S2. unfold clamp. unfold tv_ok, scroll_ok in Hv. revert Hv. clear - Hn. generalize (max_scroll (tv_len v) (tv_height v)). lia. }
  rewrite <- S3. split; [intros E; injection E as ->; reflexivity|]. intros E. f_equal. apply tv_eq; [exact E|]. unfold same_but_scroll in *. intuition congruence.
Qed.
Print Assumptions C87_back.

Lemma lv_eq {T} (v : ListView T) : with_scroll v (lv_scroll v) = v.
Proof. destruct v. reflexivity. Qed.
(** In a list without selection, which has at least as many displayed rows as its area and isn't scrolled too far, steps in one direction are as one of their total *)
Theorem C87_list_partial : forall T ns (v : ListView T), selection v = None -> tbody_height v <= displayed_rows_count v ->
  lv_scroll v <= displayed_rows_count v - tbody_height v + 1 -> one_way ns -> steps (@lv_try_scroll_lines T) v ns = lv_try_scroll_lines v (sum ns).
Proof.
  assert (Hmv : forall T (v : ListView T) s, selection v = None -> make_selection_visible (with_scroll v s) = Ret (with_scroll v s)).
  { intros T v s Hs. unfold make_selection_visible. cbn [selection with_scroll]. rewrite Hs. destruct (_ <=? _); reflexivity. }
  assert (F : forall T (v : ListView T) n, selection v = None -> tbody_height v <= displayed_rows_count v -> (-2147483648 < n)%Z ->
    lv_try_scroll_lines v n = Ret (with_scroll v (if (n <? 0)%Z then lv_scroll v - Z.to_nat (- n) else Nat.min (lv_scroll v + Z.to_nat n) (displayed_rows_count v - tbody_height v + 1)))).
  { intros T v n Hs Hh Hn. destruct (Z.ltb_spec n 0) as [H|H].
    - rewrite C45_scroll_up by lia. apply Hmv. exact Hs.
    - rewrite C45_scroll_down by exact H. rewrite (proj2 (Nat.ltb_ge _ _) Hh). apply Hmv. exact Hs. }
  intros T. induction ns as [|n ns IH]; intros v Hs Hh Hl Hns.
  - cbn [steps]. change (sum []) with 0%Z. rewrite F by (assumption || lia). change (0 <? 0)%Z with false. cbv iota. change (Z.to_nat 0) with 0. rewrite Nat.add_0_r, Nat.min_l by exact Hl. rewrite lv_eq. reflexivity.
  - destruct (one_way_inv Hns) as (H1 & H2 & H3). destruct Hns as (_ & Hns). cbn [steps]. rewrite F by assumption. rewrite bind_ret.
    set (s1 := if (n <? 0)%Z then _ else _).
    assert (Hs1 : s1 <= displayed_rows_count v - tbody_height v + 1) by (unfold s1; destruct (n <? 0)%Z; lia).
    rewrite IH; [|exact Hs|exact Hh|exact Hs1|exact H1]. destruct H1 as (_ & H1). rewrite F by (try assumption).
    rewrite F by assumption. cbn [with_scroll lv_scroll displayed_rows_count selection]. change (tbody_height (with_scroll v s1)) with (tbody_height v). 
    change (sum (n :: ns)) with (n + sum ns)%Z in *. f_equal. unfold with_scroll. cbn. f_equal. unfold s1. clear IH F Hmv.
    destruct (Z.ltb_spec n 0), (Z.ltb_spec (sum ns) 0), (Z.ltb_spec (n + sum ns) 0); lia.
Qed.
Print Assumptions C87_list_partial.

(** Steps of a view of 30 lines, in both directions *)
Example C87_example : let v := mkTV (mkArea 0 0 10 8) (seq 0 30) skin_default 4 true in
  tv_ok v /\ one_way [3; 0; 40]%Z /\ one_way [-1; -2]%Z
  /\ steps (@tv_try_scroll_lines nat) v [3; 0; 40]%Z = Ret (tv_with v 22) /\ steps (@tv_try_scroll_lines nat) v [-1; -2]%Z = Ret (tv_with v 1)
  /\ steps (@tv_try_scroll_lines nat) v [40; -40]%Z = Ret (tv_with v 0).
Proof.
  cbn zeta. split; [vm_compute; discriminate|]. split; [split; [left; repeat constructor; lia|reflexivity]|]. split; [split; [right; repeat constructor; lia|reflexivity]|].
  repeat split; vm_compute; reflexivity.
Qed.
(** In a list with a selection, steps in one direction may lead elsewhere than one of their total *)
Theorem C87_list_refuted : exists ops (v : ListView N) ns, lv_run (demo_lv 8) ops = Ret v /\ one_way ns /\ tbody_height v <= displayed_rows_count v
  /\ lv_scroll v <= displayed_rows_count v - tbody_height v + 1 /\ steps (@lv_try_scroll_lines N) v ns <> lv_try_scroll_lines v (sum ns).
Proof.
  exists (abc 30 ++ [LvUnselect; LvLines (-100)%Z; LvNext false; LvNext false; LvNext false; LvNext false]). eexists. exists [3; 1]%Z.
  split; [vm_compute; reflexivity|]. split; [split; [left; repeat constructor; lia|reflexivity]|]. split; [apply Nat.leb_le; vm_compute; reflexivity|].
  split; [apply Nat.leb_le; vm_compute; reflexivity|]. intros E.
  apply (f_equal (fun o => match o with Ret v => lv_scroll v | _ => 0 end)) in E. vm_compute in E. discriminate.
Qed.
Print Assumptions C87_list_refuted.
(** And a list having fewer displayed rows than its area can't be scrolled down *)
Example C87_short_list : exists ops (v : ListView N), lv_run (demo_lv 8) ops = Ret v /\ selection v = None /\ lv_try_scroll_lines v 0%Z = Panic.
Proof. exists [LvUnselect]. eexists. split; [vm_compute; reflexivity|]. split; vm_compute; reflexivity. Qed.
(** A list without selection *)
Example C87_list_example : exists v : ListView N, lv_run (demo_lv 8) (abc 30 ++ [LvUnselect; LvLines (-20)%Z]) = Ret v /\ selection v = None /\ tbody_height v <= displayed_rows_count v
  /\ lv_scroll v <= displayed_rows_count v - tbody_height v + 1 /\ steps (@lv_try_scroll_lines N) v [1; 3; 2]%Z = Ret (with_scroll v (lv_scroll v + 6)).
Proof.
  eexists. split; [vm_compute; reflexivity|]. split; [vm_compute; reflexivity|]. split; [apply Nat.leb_le; vm_compute; reflexivity|]. split; [apply Nat.leb_le; vm_compute; reflexivity|].
  vm_compute. reflexivity.
Qed.
