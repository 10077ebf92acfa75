(** * What is read in a list on the terminal is the list (C100) *)
From Verif Require Import Base L_Base Demo M_Style M_Fit M_View S_View L_View S_Fit L_Fit M_Render S_Render L_Render M_List S_List L_List L_List2.
From Verif Require Import S_Pen S_Paint S_Read S_ListRead P_List.
From Verif Require P_Paint P_Pen.
Set Implicit Arguments.
Open Scope nat_scope.

(** ** A line on the terminal *)

Definition inline (c : cmd) : Prop := match c with Print _ | Styled _ _ | SetFg _ | SetBg _ | ResetColor => True | _ => False end.
Definition in_line (x y n x' y' : nat) : bool := (y' =? y) && (x <=? x') && (x' <? x + n).
Lemma in_line_iff x y n x' y' : in_line x y n x' y' = true <-> y' = y /\ x <= x' < x + n.
Proof. unfold in_line. rewrite !andb_true_iff, Nat.eqb_eq, Nat.leb_le, Nat.ltb_lt. lia. Qed.
Lemma in_line_no x y n x' y' : in_line x y n x' y' = false <-> ~ (y' = y /\ x <= x' < x + n).
Proof. rewrite <- in_line_iff. destruct (in_line x y n x' y'); split; congruence. Qed.
Lemma typed u p : forall s tm, thin u s -> let t' := type_str u tm p s in
  (forall x y, t_cell t' x y = if in_line (t_x tm) (t_y tm) (length s) x y then Part (nth (x - t_x tm) s 0%N) 0 p else t_cell tm x y)
  /\ t_x t' = t_x tm + length s /\ t_y t' = t_y tm /\ t_pen t' = t_pen tm.
Proof.
  induction s as [|c s IH]; intros tm H; cbn zeta.
  - cbn [type_str length]. rewrite Nat.add_0_r. split; [|auto]. intros x y. destruct (in_line _ _ _ _ _) eqn:E; [|reflexivity]. apply in_line_iff in E. lia.
  - inversion H as [|? ? H1 H2]; subst. cbn [type_str]. destruct (IH (type_char u tm p c) H2) as (A & B & C & D). cbn [type_char cell_now t_x t_y t_pen t_cell] in A, B, C, D. rewrite H1 in A, B.
    rewrite B, C, D. split; [|cbn [length]; repeat split; lia]. intros x y. rewrite A.
    destruct (in_line (t_x tm + 1) (t_y tm) (length s) x y) eqn:E1; destruct (in_line (t_x tm) (t_y tm) (length (c :: s)) x y) eqn:E2.
    + apply in_line_iff in E1. cbn [length] in E2. replace (x - t_x tm) with (S (x - (t_x tm + 1))) by lia. reflexivity.
    + apply in_line_iff in E1. apply in_line_no in E2. cbn [length] in E2. lia.
    + apply in_line_no in E1. apply in_line_iff in E2. cbn [length] in E2. assert (x = t_x tm) by lia. subst x. destruct E2 as (-> & _).
      rewrite Nat.eqb_refl, Nat.leb_refl, (proj2 (Nat.ltb_lt _ _)) by lia. rewrite Nat.sub_diag. reflexivity.
    + apply in_line_no in E1, E2. cbn [length] in E2. match goal with |- (if ?b then _ else _) = _ => destruct b eqn:E3 end; [|reflexivity].
      rewrite !andb_true_iff, Nat.eqb_eq, Nat.leb_le, Nat.ltb_lt in E3. lia.
Qed.
Lemma with_same t p : t_pen t = p -> with_pen t p = t.
Proof. destruct t. cbn. intros <-. reflexivity. Qed.
(** What inline commands write, from the place of the cursor *)
Definition cell_of (m : option char * pen) : seen := match m with (Some c, p) => Part c 0 p | (None, p) => Nothing (p_bg p) end.
Lemma inked_fst : forall out p, Forall inline out -> map fst (inked p out) = map (fun x => Some (fst x)) (drawn out).
Proof.
  induction out as [|c out IH]; intros p F; [reflexivity|]. inversion F as [|? ? F1 F2]; subst. unfold drawn in *. destruct c; try contradiction F1; cbn [inked flat_map]; rewrite ?map_app, ?map_map, ?IH by exact F2; try reflexivity.
Qed.
Lemma inked_length out p : Forall inline out -> length (inked p out) = length (drawn out).
Proof. intros F. pose proof (f_equal (@length _) (inked_fst p F)) as E. rewrite !map_length in E. exact E. Qed.
Lemma inline_run u : forall out tm, Forall inline out -> thin u (map fst (drawn out)) -> let t' := term_run u tm out in
  (forall x y, t_cell t' x y = if in_line (t_x tm) (t_y tm) (length (drawn out)) x y then cell_of (nth (x - t_x tm) (inked (t_pen tm) out) (None, pen0)) else t_cell tm x y)
  /\ t_x t' = t_x tm + length (drawn out) /\ t_y t' = t_y tm.
Proof.
  unfold term_run. induction out as [|c out IH]; intros tm F H; cbn zeta.
  - cbn. rewrite Nat.add_0_r. split; [|auto]. intros x y. destruct (in_line _ _ _ _ _) eqn:E; [|reflexivity]. apply in_line_iff in E. lia.
  - inversion F as [|? ? F1 F2]; subst. cbn [fold_left].
    assert (W : forall s p q, thin u s -> thin u (map fst (drawn out)) -> length (drawn (c :: out)) = length s + length (drawn out) -> inked (t_pen tm) (c :: out) = map (fun ch => (Some ch, p)) s ++ inked q out ->
      let t1 := with_pen (type_str u tm p s) q in let t' := fold_left (term_step u) out t1 in
      (forall x y, t_cell t' x y = if in_line (t_x tm) (t_y tm) (length (drawn (c :: out))) x y then cell_of (nth (x - t_x tm) (inked (t_pen tm) (c :: out)) (None, pen0)) else t_cell tm x y)
      /\ t_x t' = t_x tm + length (drawn (c :: out)) /\ t_y t' = t_y tm).
    { intros s p q Hs Ho El Ei t1 t'. destruct (@typed u p s tm Hs) as (A & B & C & D). destruct (IH t1 F2 Ho) as (A' & B' & C'). fold t' in A', B', C'. cbn [t1 with_pen t_cell t_x t_y t_pen] in A', B', C'.
      rewrite B, C in *. rewrite B', C', El, Ei. split; [|split; [lia|reflexivity]]. intros x y. rewrite A', A. clear A' A.
      destruct (in_line (t_x tm) (t_y tm) (length s + length (drawn out)) x y) eqn:E.
      - apply in_line_iff in E. destruct (Nat.lt_ge_cases (x - t_x tm) (length s)) as [L|L].
        + rewrite (proj2 (in_line_no _ _ _ _ _)) by lia. rewrite (proj2 (in_line_iff _ _ _ _ _)) by lia. rewrite app_nth1 by (rewrite map_length; exact L).
          rewrite nth_indep with (d' := (Some 0%N, p)) by (rewrite map_length; exact L). rewrite (map_nth (fun ch => (Some ch, p)) s 0%N). reflexivity.
        + rewrite (proj2 (in_line_iff _ _ _ _ _)) by lia. rewrite app_nth2 by (rewrite map_length; exact L). rewrite map_length. do 2 f_equal. lia.
      - apply in_line_no in E. rewrite !(proj2 (in_line_no _ _ _ _ _)) by lia. reflexivity. }
    assert (Z : forall q, length (drawn (c :: out)) = length (drawn out) -> thin u (map fst (drawn out)) -> inked (t_pen tm) (c :: out) = inked q out ->
      let t' := fold_left (term_step u) out (with_pen tm q) in
      (forall x y, t_cell t' x y = if in_line (t_x tm) (t_y tm) (length (drawn (c :: out))) x y then cell_of (nth (x - t_x tm) (inked (t_pen tm) (c :: out)) (None, pen0)) else t_cell tm x y)
      /\ t_x t' = t_x tm + length (drawn (c :: out)) /\ t_y t' = t_y tm).
    { intros q El Ho Ei t'. destruct (IH (with_pen tm q) F2 Ho) as (A' & B' & C'). fold t' in A', B', C'. cbn [with_pen t_cell t_x t_y t_pen] in A', B', C'. rewrite El, Ei. auto. }
    clear IH. destruct c as [s|cs s|c|c|mx my| | | |]; try contradiction F1; cbn [term_step].
    + assert (Hd : drawn (Print s :: out) = map (fun ch => (ch, cs_default)) s ++ drawn out) by reflexivity. rewrite Hd in H. rewrite map_app, map_map in H. cbn [fst] in H. rewrite map_id in H. apply Forall_app in H as (H1 & H2).
      specialize (W s (t_pen tm) (t_pen tm) H1 H2). replace (with_pen (type_str u tm (t_pen tm) s) (t_pen tm)) with (type_str u tm (t_pen tm) s) in W.
      * apply W; [rewrite Hd, app_length, map_length; reflexivity|reflexivity].
      * destruct (@typed u (t_pen tm) s tm H1) as (_ & _ & _ & D). symmetry. apply with_same. exact D.
    + assert (Hd : drawn (Styled cs s :: out) = map (fun ch => (ch, cs)) s ++ drawn out) by reflexivity. rewrite Hd in H. rewrite map_app, map_map in H. cbn [fst] in H. rewrite map_id in H. apply Forall_app in H as (H1 & H2).
      apply (W s (worn_over (t_pen tm) cs) (worn_out (t_pen tm) cs) H1 H2); [rewrite Hd, app_length, map_length; reflexivity|reflexivity].
    + apply Z; [reflexivity|exact H|reflexivity].
    + apply Z; [reflexivity|exact H|reflexivity].
    + apply Z; [reflexivity|exact H|reflexivity].
Qed.
(** Reading a part of a line just written *)
Lemma inline_read u out tm from n : Forall inline out -> thin u (map fst (drawn out)) -> from + n <= length (drawn out) ->
  read_row (term_run u tm out) (t_x tm + from) (t_y tm) n = map fst (sub (drawn out) from n).
Proof.
  intros F H L. destruct (@inline_run u out tm F H) as (A & _). unfold read_row.
  assert (E : forall x, x < n -> read_cell (t_cell (term_run u tm out) (t_x tm + from + x) (t_y tm)) = [nth (from + x) (map fst (drawn out)) 0%N]).
  { intros x Lx. rewrite A, (proj2 (in_line_iff _ _ _ _ _)) by lia. replace (t_x tm + from + x - t_x tm) with (from + x) by lia.
    pose proof (inked_fst (t_pen tm) F) as E. rewrite <- (map_map fst Some) in E. assert (L2 : from + x < length (inked (t_pen tm) out)) by (rewrite inked_length by exact F; lia).
    destruct (nth_error (inked (t_pen tm) out) (from + x)) as [m|] eqn:Em; [|apply nth_error_None in Em; lia]. rewrite (nth_error_nth _ _ _ Em).
    apply (f_equal (fun l => nth_error l (from + x))) in E. rewrite nth_error_map, Em in E. cbn [option_map] in E. rewrite nth_error_map in E. destruct (nth_error (map fst (drawn out)) (from + x)) as [c|] eqn:Ec; [|discriminate E].
    cbn [option_map] in E. destruct m as (mc & p). injection E as ->. rewrite (nth_error_nth _ _ _ Ec). reflexivity. }
  clear A. unfold sub. rewrite <- firstn_map, <- skipn_map. set (l := map fst (drawn out)) in *. assert (L' : from + n <= length l) by (unfold l; rewrite map_length; exact L). clearbody l. clear L.
  revert from L' E. induction n as [|n IH]; intros from L' E; [reflexivity|]. cbn [seq flat_map]. pose proof (E 0 ltac:(lia)) as E0. rewrite !Nat.add_0_r in E0. rewrite E0.
  destruct (nth_error l from) as [c|] eqn:Ec; [|apply nth_error_None in Ec; lia]. rewrite (nth_error_nth _ _ _ Ec).
  assert (K : skipn from l = c :: skipn (S from) l). { clear - Ec. revert from Ec. induction l as [|a l IH]; intros [|from] Ec; try discriminate; cbn in *; [congruence|auto]. }
  rewrite K. cbn [firstn app]. f_equal. rewrite <- (IH (S from)); [|lia|].
  - rewrite Nat.add_succ_r. reflexivity.
  - intros x Lx. replace (t_x tm + S from + x) with (t_x tm + from + S x) by lia. rewrite E by lia. do 2 f_equal. lia.
Qed.

Lemma inline_at u out c x y p from n : Forall inline out -> thin u (map fst (drawn out)) -> from + n <= length (drawn out) ->
  read_row (term_run u (mkTerm c x y p) out) (x + from) y n = map fst (sub (drawn out) from n).
Proof. apply inline_read. Qed.

(** ** Lines of the terminal written one after the other *)

Definition on_line (u : unicode) (y : nat) (out : list cmd) : Prop := forall t x' y', y' <> y -> t_cell (term_run u t out) x' y' = t_cell t x' y'.
Lemma on_line_app u y a b : on_line u y a -> on_line u y b -> on_line u y (a ++ b).
Proof. intros A B t x' y' N. rewrite P_Paint.term_run_app. rewrite B, A by exact N. reflexivity. Qed.
Lemma on_line_inline u x y out : Forall inline out -> thin u (map fst (drawn out)) -> on_line u (N.to_nat y) (MoveTo x y :: out).
Proof.
  intros F H t x' y' N. change (term_run u t (MoveTo x y :: out)) with (term_run u (mkTerm (t_cell t) (N.to_nat x) (N.to_nat y) (t_pen t)) out).
  destruct (@inline_run u out (mkTerm (t_cell t) (N.to_nat x) (N.to_nat y) (t_pen t)) F H) as (A & _). rewrite A. cbn [t_x t_y t_cell]. rewrite (proj2 (in_line_no _ _ _ _ _)); [reflexivity|]. intros (E & _). exact (N E).
Qed.
Lemma on_line_clear u x y : on_line u (N.to_nat y) [MoveTo x y; ClearUntilNewLine].
Proof. intros t x' y' N. cbn. rewrite (proj2 (Nat.eqb_neq _ _) N). reflexivity. Qed.
Lemma lines_kept u y0 (f : nat -> list cmd) : (forall j, on_line u (y0 + j) (f j)) -> forall n s t x y, ~ (y0 + s <= y < y0 + s + n) -> t_cell (term_run u t (flat_map f (seq s n))) x y = t_cell t x y.
Proof.
  intros H. induction n as [|n IH]; intros s t x y N; [reflexivity|]. cbn [seq flat_map]. rewrite P_Paint.term_run_app, IH by lia. apply H. lia.
Qed.
Lemma lines_read u y0 (f : nat -> list cmd) : (forall j, on_line u (y0 + j) (f j)) -> forall n s t j, s <= j < s + n ->
  exists t', forall x, t_cell (term_run u t (flat_map f (seq s n))) x (y0 + j) = t_cell (term_run u t' (f j)) x (y0 + j).
Proof.
  intros H. induction n as [|n IH]; intros s t j L; [lia|]. cbn [seq flat_map]. rewrite P_Paint.term_run_app. destruct (Nat.eq_dec j s) as [->|N].
  - exists t. intros x. apply (@lines_kept u y0 f H); lia.
  - destruct (IH (S s) (term_run u t (f s)) j ltac:(lia)) as (t' & E). exists t'. exact E.
Qed.

(** ** The lines of a list *)

Lemma counted_inline sp s w cs : Forall inline (write_counted_str sp s w cs).
Proof. destruct (P_Pen.counted sp s w cs) as (t & ->). repeat constructor. Qed.
Lemma sc_inline c : Forall inline (sc_queue c).
Proof. repeat constructor. Qed.
Lemma row_inline {T} (v : ListView T) sel d : Forall inline (row_cmds v sel d).
Proof.
  unfold row_cmds. apply P_Paint.join_Forall; [destruct sel; repeat constructor|]. apply Forall_forall. intros x X. apply in_map_iff in X as (c & <- & _). apply counted_inline.
Qed.
Lemma title_inline {T} (v : ListView T) out : title_line v = Ret out -> Forall inline out.
Proof.
  unfold title_line. intros E. apply bind_Ret_inv in E as (ts & E & E2). injection E2 as <-. apply P_Paint.join_Forall; [apply sc_inline|]. eapply P_Pen.map_out_Forall; [|exact E].
  intros q r Q. unfold title_cmds in Q. do 5 apply bind_Ret_inv in Q as (? & _ & Q). injection Q as <-. apply counted_inline.
Qed.
Lemma separator_inline {T} (v : ListView T) out : separator_line v = Ret out -> Forall inline out.
Proof.
  unfold separator_line. intros E. apply bind_Ret_inv in E as (ts & E & E2). injection E2 as <-. apply P_Paint.join_Forall; [apply sc_inline|]. eapply P_Pen.map_out_Forall; [|exact E].
  intros q r Q. unfold separator_cmds in Q. apply bind_Ret_inv in Q as (? & _ & Q). injection Q as <-. apply P_Paint.join_Forall; [apply sc_inline|]. apply Forall_forall. intros z Z. apply in_map_iff in Z as (c & <- & _).
  apply Forall_concat, Forall_forall. intros z Z. apply repeat_spec in Z. subst z. apply sc_inline.
Qed.
Lemma thin_drawn u l : (forall x, In x (drawn l) -> chw u (fst x) = 1) -> thin u (map fst (drawn l)).
Proof. intros H. apply Forall_map, Forall_forall. exact H. Qed.
Lemma title_thin {T} u (v : ListView T) out : well_titled v -> headers (lv_skin v) <> [] -> thin u [32; c_vbar; c_tee; c_cross; c_hbar]%N ->
  (forall c, In c (columns v) -> thin u (lc_title c)) -> title_line v = Ret out -> thin u (map fst (drawn out)).
Proof.
  intros Ht Hh Hn Hcols Et. unfold thin in Hn. rewrite Forall_forall in Hn. assert (Hsp : chw u 32%N = 1) by (apply Hn; cbn; tauto). apply thin_drawn.
  intros x Hx. destruct (@titles_at T v Hh _ _ Ht) as (cs & E & Lc & St & At).
  unfold title_line in Et. rewrite E, bind_ret in Et. injection Et as <-. rewrite (@drawn_join _ _ (c_vbar, ls_cs (table (lv_skin v)))) in Hx by reflexivity.
  rewrite join_pieces, map_map in Hx. apply pieces_in in Hx as (sp & H1 & H2). apply in_map_iff in H1 as (c & <- & Hc1). destruct H2 as [->|H2]; [apply Hn; cbn; tauto|]. cbn [snd] in H2.
  apply In_nth_error in Hc1 as (q & Eq). assert (Lq : q < length (titles v)) by (rewrite <- Lc; apply nth_error_Some; congruence).
  destruct (nth_error (titles v) q) as [g|] eqn:Eg; [|apply nth_error_None in Eg; lia].
  destruct (runs_sound Ht ltac:(lia) g (nth_error_In _ _ Eg)) as (a & b & -> & Hr & _). destruct (At q a b Eg (proj1 Hr)) as (tt & c' & F1 & F2 & F3 & _).
  assert (c' = c) by congruence. subst c'. eapply cell_narrow; [exact Hsp| |exact F3|exact H2].
  apply nth_error_In in F1. apply in_map_iff in F1 as (col & <- & Hcol). apply Hcols, Hcol.
Qed.
Lemma separator_thin {T} u (v : ListView T) out : well_titled v -> thin u [32; c_vbar; c_tee; c_cross; c_hbar]%N -> separator_line v = Ret out -> thin u (map fst (drawn out)).
Proof.
  intros Ht Hn Es. unfold thin in Hn. rewrite Forall_forall in Hn. apply thin_drawn. intros x Hx. destruct (separator_line_eq Ht) as (s' & E' & D). rewrite E' in Es. injection Es as <-. rewrite D in Hx.
  apply pieces_in in Hx as (sp & H1 & H2). apply in_map_iff in H1 as (j & <- & _). destruct H2 as [->|H2].
  - cbn [fst]. destruct (_ && _); apply Hn; cbn; tauto.
  - cbn [snd] in H2. apply repeat_spec in H2 as ->. apply Hn. cbn. tauto.
Qed.
Lemma row_thin {T} u (v : ListView T) sel d : cells_ok v -> thin u [32; c_vbar; c_tee; c_cross; c_hbar]%N -> (forall c, In c (columns v) -> thin u (con (extract c d))) ->
  thin u (map fst (drawn (row_cmds v sel d))).
Proof.
  intros Hc Hn Hcols. unfold thin in Hn. rewrite Forall_forall in Hn. assert (Hsp : chw u 32%N = 1) by (apply Hn; cbn; tauto). apply thin_drawn. intros x Hx.
  rewrite row_drawn in Hx. apply pieces_in in Hx as (sp & H1 & H2). apply in_map_iff in H1 as (c & <- & Hi).
  destruct H2 as [->|H2]; [apply Hn; cbn; tauto|]. cbn [snd] in H2. rewrite (Hc c d Hi) in H2.
  eapply cell_narrow; [exact Hsp|apply (Hcols c Hi)|eapply proj1, write_str_drawn|exact H2].
Qed.
Lemma cell_put align w s cs d : cell_drawn align w s cs d -> put_in align w s (map fst d).
Proof. intros (t & -> & A & B). rewrite map_map. cbn [fst]. rewrite map_id. split; assumption. Qed.
Lemma cell_at ws p : p < length ws -> col_start ws p + nth p ws 0 <= line_len ws.
Proof.
  unfold col_start, line_len. revert p. induction ws as [|w ws IH]; intros [|p] L; cbn [length firstn map nth] in *; try lia.
  - change (sum (w :: ws)) with (w + sum ws). change (sum []) with 0. lia.
  - change (sum (w :: ws)) with (w + sum ws). change (sum (S w :: map S (firstn p ws))) with (S w + sum (map S (firstn p ws))). specialize (IH p ltac:(lia)). lia.
Qed.
Lemma edge_in ws j : 0 < j <= length ws -> 0 < col_start ws j <= line_len ws + 1.
Proof.
  unfold col_start, line_len. revert j. induction ws as [|w ws IH]; intros [|j] L; cbn [length firstn map] in *; try lia.
  change (sum (w :: ws)) with (w + sum ws). change (sum (S w :: map S (firstn j ws))) with (S w + sum (map S (firstn j ws))).
  destruct j as [|j]; [change (firstn 0 ws) with (@nil nat); change (sum (map S [])) with 0; lia|]. specialize (IH (S j) ltac:(lia)). lia.
Qed.
Lemma col_start_lt ws i j : i < j <= length ws -> col_start ws i < col_start ws j.
Proof.
  unfold col_start. revert i j. induction ws as [|w ws IH]; intros i [|j] L; cbn [length] in *; try lia. destruct i as [|i]; cbn [firstn map].
  - cbn. lia.
  - specialize (IH i j ltac:(lia)). change (sum (S w :: map S (firstn i ws))) with (S w + sum (map S (firstn i ws))). change (sum (S w :: map S (firstn j ws))) with (S w + sum (map S (firstn j ws))). lia.
Qed.
Lemma sub_one {A} (l : list A) k x : nth_error l k = Some x -> sub l k 1 = [x].
Proof. unfold sub. revert k. induction l as [|a l IH]; intros [|k] E; try discriminate; cbn in *; [congruence|auto]. Qed.
Lemma read_clear u tm x w : read_row (term_run u tm [ClearUntilNewLine]) (t_x tm + x) (t_y tm) w = repeat 32%N w.
Proof.
  unfold read_row. assert (G : forall x, read_cell (t_cell (term_run u tm [ClearUntilNewLine]) (t_x tm + x) (t_y tm)) = [32%N]).
  { clear x. intros x. cbn. rewrite Nat.eqb_refl, (proj2 (Nat.leb_le _ _)) by lia. reflexivity. }
  revert x. induction w as [|w IH]; intros x; [reflexivity|]. cbn [seq flat_map repeat]. rewrite G, <- (IH (S x)), Nat.add_succ_r. reflexivity.
Qed.

(** ** C100 *)

(** What is read on the terminal: the titles over their columns, the rule under them, the displayed rows from the scroll, a blank line for each
    line of the area without row, and the scrollbar at the right of the area *)
Theorem C100_list : forall u T (v : ListView T) sb, well_titled v -> headers (lv_skin v) <> [] -> cells_ok v -> thin_list u v ->
  let a := lv_area v in let ws := widths_of (columns v) in let tts := map (@lc_title T) (columns v) in
  let left := N.to_nat (a_left a) in let top := N.to_nat (a_top a) in let lines := N.to_nat (a_height a) - 2 in
  (a_left a + a_width a < U16)%N -> (a_top a + 1 < U16)%N -> (a_top a + a_height a <= U16)%N ->
  lv_scroll v <= length (rows v) -> lv_scrollbar v = Ret sb -> line_len ws <= N.to_nat (a_width a) ->
  exists out, lv_write_on v = Ret out /\ forall tm, let t := term_run u tm out in
  (forall i j title, title_run tts i j -> nth_error tts i = Some title ->
     let w := col_start ws j - 1 - col_start ws i in
     put_in Center w title (read_row t (left + col_start ws i) top w)
     /\ (0 < i -> read_row t (left + col_start ws i - 1) top 1 = [c_vbar]))
  /\ (forall p, p < length ws ->
     read_row t (left + col_start ws p) (top + 1) (nth p ws 0) = repeat c_hbar (nth p ws 0)
     /\ (0 < p -> nth_error tts p = nth_error tts (p - 1) -> read_row t (left + col_start ws p - 1) (top + 1) 1 = [c_tee])
     /\ (0 < p -> nth_error tts p <> nth_error tts (p - 1) -> read_row t (left + col_start ws p - 1) (top + 1) 1 = [c_cross]))
  /\ (forall j i r, nth_error (seen_rows v) j = Some i -> nth_error (rows v) i = Some r -> forall p c, nth_error (columns v) p = Some c ->
     put_in (lc_align c) (N.to_nat (lc_width c)) (con (extract c (data r))) (read_cell_of t v p j)
     /\ (0 < p -> read_row t (left + col_start ws p - 1) (top + 2 + j) 1 = [c_vbar]))
  /\ (forall j, length (seen_rows v) <= j < lines -> read_row t left (top + 2 + j) (N.to_nat (a_width a)) = repeat 32%N (N.to_nat (a_width a)))
  /\ (forall from to j, sb = Some (from, to) -> j < lines ->
     read_row t (left + N.to_nat (a_width a)) (top + 2 + j) 1
     = [snd (sc_cache (if ((from <=? N.of_nat j) && (N.of_nat j <=? to))%N then thumb (scrollbar (lv_skin v)) else track (scrollbar (lv_skin v))))]).
Proof.
  intros u T v sb Ht Hh Hc (Hn & Hsc & Hl) a ws tts left top lines H1 H2 H3 Hs Hsb Hw.
  destruct (C70_drawn Ht Hh H1 H2 H3 Hs Hsb) as (title & sep & Et & Es & E). fold a in E. eexists. split; [exact E|]. clear E. intros tm t.
  set (f := fun j : nat => _) in t.
  assert (Lt : thin u (map fst (drawn title))) by (eapply title_thin; eauto; intros c Ic; apply Hl, Ic). assert (Ls : thin u (map fst (drawn sep))) by (eapply separator_thin; eauto).
  pose proof (title_inline _ Et) as It. pose proof (separator_inline _ Es) as Is.
  assert (Hseen : forall j i, nth_error (seen_rows v) j = Some i -> j < lines /\ exists r, nth_error (rows v) i = Some r).
  { clear t f. intros j i Ej. assert (Lj : j < length (seen_rows v)) by (apply nth_error_Some; congruence). unfold seen_rows in *. rewrite firstn_length in Lj. fold a lines in Lj |- *. split; [lia|].
    apply nth_error_In in Ej. assert (I : In i (List.filter (displayed_b v) (seq (lv_scroll v) (length (rows v) - lv_scroll v)))) by (rewrite <- (firstn_skipn (N.to_nat (a_height (lv_area v)) - 2) (List.filter _ _)); apply in_app_iff; left; exact Ej).
    apply filter_In in I as (_ & I). unfold displayed_b in I. destruct (nth_error (rows v) i) as [r|]; [eauto|discriminate]. }
  set (mid := fun j : nat => match nth_error (seen_rows v) j with
               | Some i => match nth_error (rows v) i with
                           | Some r => row_cmds v (match selection v with Some s => s =? i | None => false end) (data r)
                           | None => []
                           end
               | None => [ClearUntilNewLine]
               end).
  set (bar := fun j : nat => match sb with
               | Some (t, b) => MoveTo (a_left a + a_width a)%N (a_top a + 2 + N.of_nat j)%N
                                :: sc_queue (if ((t <=? N.of_nat j) && (N.of_nat j <=? b))%N then thumb (scrollbar (lv_skin v)) else track (scrollbar (lv_skin v)))
               | None => []
               end).
  assert (Ef : forall j, f j = (MoveTo (a_left a) (a_top a + 2 + N.of_nat j)%N :: mid j) ++ bar j) by reflexivity.
  assert (Rt : forall r sel, In r (rows v) -> thin u (map fst (drawn (row_cmds v sel (data r))))) by (intros r sel Ir; apply row_thin; auto; intros c Ic; apply Hl; auto).
  assert (Om : forall j, on_line u (top + 2 + j) (MoveTo (a_left a) (a_top a + 2 + N.of_nat j)%N :: mid j)).
  { intros j. replace (top + 2 + j) with (N.to_nat (a_top a + 2 + N.of_nat j)) by (unfold top; lia). unfold mid. destruct (nth_error (seen_rows v) j) as [i|]; [|apply on_line_clear].
    destruct (nth_error (rows v) i) as [r|] eqn:Er; [|apply on_line_inline; constructor]. apply on_line_inline; [apply row_inline|]. apply Rt. eapply nth_error_In, Er. }
  assert (Sth : forall b : bool, thin u (map fst (drawn (sc_queue (if b then thumb (scrollbar (lv_skin v)) else track (scrollbar (lv_skin v))))))).
  { inversion Hsc as [|? ? Q1 Q2]; subst. inversion Q2; subst. intros []; repeat constructor; assumption. }
  assert (Ob : forall j, on_line u (top + 2 + j) (bar j)).
  { intros j. replace (top + 2 + j) with (N.to_nat (a_top a + 2 + N.of_nat j)) by (unfold top; lia). unfold bar. destruct sb as [(q & b)|]; [|intros t0 x' y' _; reflexivity].
    apply on_line_inline; [apply sc_inline|apply Sth]. }
  assert (Of : forall j, on_line u (top + 2 + j) (f j)) by (intros j; rewrite Ef; apply on_line_app; auto).
  assert (Et' : forall tm, term_run u tm (MoveTo (a_left a) (a_top a) :: title) = term_run u (mkTerm (t_cell tm) left top (t_pen tm)) title) by reflexivity.
  set (t1 := term_run u tm (MoveTo (a_left a) (a_top a) :: title)). set (t2 := term_run u t1 (MoveTo (a_left a) (a_top a + 1)%N :: sep)).
  assert (E3 : t = term_run u t2 (flat_map f (seq 0 lines))).
  { unfold t, t2, t1. rewrite <- !P_Paint.term_run_app. reflexivity. }
  assert (R0 : forall x n, read_row t x top n = read_row t1 x top n).
  { intros x n. unfold read_row. rewrite !flat_map_concat_map. f_equal. apply map_ext. intros i. f_equal. rewrite E3. rewrite (@lines_kept u (top + 2) f Of) by lia.
    unfold t2. apply (@on_line_inline u (a_left a) (a_top a + 1)%N sep Is Ls). unfold top. lia. }
  assert (R1 : forall x n, read_row t x (top + 1) n = read_row t2 x (top + 1) n).
  { intros x n. unfold read_row. rewrite !flat_map_concat_map. f_equal. apply map_ext. intros i. f_equal. rewrite E3. apply (@lines_kept u (top + 2) f Of). lia. }
  assert (R2 : forall j, j < lines -> exists t', forall x n, read_row t x (top + 2 + j) n = read_row (term_run u t' (f j)) x (top + 2 + j) n).
  { intros j Lj. destruct (@lines_read u (top + 2) f Of lines 0 t2 j ltac:(lia)) as (t' & Q). exists t'. intros x n. unfold read_row. rewrite !flat_map_concat_map. f_equal. apply map_ext. intros i. f_equal. rewrite E3. apply Q. }
  assert (Lt1 : t1 = term_run u (mkTerm (t_cell tm) left top (t_pen tm)) title) by reflexivity.
  assert (Lt2 : t2 = term_run u (mkTerm (t_cell t1) left (top + 1) (t_pen t1)) sep).
  { unfold t2. change (term_run u t1 (MoveTo (a_left a) (a_top a + 1)%N :: sep)) with (term_run u (mkTerm (t_cell t1) (N.to_nat (a_left a)) (N.to_nat (a_top a + 1)) (t_pen t1)) sep). do 2 f_equal. unfold top. lia. }
  assert (Rm : forall j, j < lines -> exists t', (forall x n, x + n <= left + N.to_nat (a_width a) -> read_row t x (top + 2 + j) n = read_row (term_run u (mkTerm (t_cell t') left (top + 2 + j) (t_pen t')) (mid j)) x (top + 2 + j) n)
     /\ forall x n, read_row t x (top + 2 + j) n = read_row (term_run u (term_run u t' (MoveTo (a_left a) (a_top a + 2 + N.of_nat j)%N :: mid j)) (bar j)) x (top + 2 + j) n).
  { intros j Lj. destruct (R2 j Lj) as (t' & Q). exists t'. split.
    - intros x n Lx. rewrite Q. rewrite Ef, P_Paint.term_run_app. change (term_run u t' (MoveTo (a_left a) (a_top a + 2 + N.of_nat j)%N :: mid j)) with (term_run u (mkTerm (t_cell t') left (N.to_nat (a_top a + 2 + N.of_nat j)) (t_pen t')) (mid j)).
      replace (N.to_nat (a_top a + 2 + N.of_nat j)) with (top + 2 + j) by (unfold top; lia). unfold bar. destruct sb as [(q & b)|]; [|reflexivity].
      unfold read_row. rewrite !flat_map_concat_map. f_equal. apply map_ext_in. intros i Ii. apply in_seq in Ii. f_equal.
      match goal with |- t_cell (term_run u ?t0 (MoveTo ?x0 ?y0 :: ?o)) _ _ = _ => change (term_run u t0 (MoveTo x0 y0 :: o)) with (term_run u (mkTerm (t_cell t0) (N.to_nat x0) (N.to_nat y0) (t_pen t0)) o) end.
      match goal with |- t_cell (term_run u ?t0 ?o) _ _ = _ => destruct (@inline_run u o t0 (sc_inline _) (Sth _)) as (A & _) end. rewrite A. cbn [t_x t_y t_cell].
      rewrite (proj2 (in_line_no _ _ _ _ _)); [reflexivity|]. unfold left in Lx. lia.
    - intros x n. rewrite Q, Ef, P_Paint.term_run_app. reflexivity. }
  split; [|split; [|split; [|split]]].
  - intros i j tt Hr Ett w. destruct (C47_title Ht Hh) as (out & Eo & Lo & Ho). rewrite Eo in Et. injection Et as ->. fold ws in Lo, Ho. fold tts in Ho. destruct (Ho i j tt Hr Ett) as (P1 & P2). fold w in P1.
    destruct Hr as (Hij & _). assert (Hlen : length tts = length ws) by (unfold tts, ws, widths_of; rewrite !map_length; reflexivity). destruct (@edge_in ws j ltac:(lia)) as (_ & E1).
    assert (Ei : 0 < i -> 0 < col_start ws i) by (intros Hi; apply edge_in; lia). assert (Ei2 : i = 0 -> col_start ws i = 0) by (intros ->; reflexivity).
    assert (Eij : col_start ws i < col_start ws j).
    { apply col_start_lt. lia. }
    rewrite !R0. rewrite Lt1. split.
    + rewrite (@inline_at u title (t_cell tm) left top (t_pen tm) (col_start ws i) w It Lt) by (unfold w; lia). eapply cell_put, P1.
    + intros Hi. specialize (Ei Hi). replace (left + col_start ws i - 1) with (left + (col_start ws i - 1)) by lia.
      rewrite (@inline_at u title (t_cell tm) left top (t_pen tm) (col_start ws i - 1) 1 It Lt) by lia. rewrite (sub_one _ _ (P2 Hi)). reflexivity.
  - intros p Lp. destruct (C47_separator Ht) as (out & Eo & Lo & Ho). rewrite Eo in Es. injection Es as ->. fold ws in Lo, Ho. fold tts in Ho.
    assert (Hlen : length (columns v) = length ws) by (unfold ws, widths_of; rewrite !map_length; reflexivity). destruct (Ho p ltac:(lia)) as (P1 & P2 & P3). pose proof (cell_at ws Lp) as Lc.
    rewrite !R1, Lt2. split.
    + rewrite (@inline_at u sep (t_cell t1) left (top + 1) (t_pen t1) (col_start ws p) (nth p ws 0) Is Ls) by lia. rewrite P1. rewrite map_repeat. reflexivity.
    + assert (Q : 0 < p -> forall x, nth_error (drawn sep) (col_start ws p - 1) = Some x -> read_row (term_run u (mkTerm (t_cell t1) left (top + 1) (t_pen t1)) sep) (left + col_start ws p - 1) (top + 1) 1 = [fst x]).
      { intros Hp x Ex. destruct (@edge_in ws p ltac:(lia)) as (E1 & E2). replace (left + col_start ws p - 1) with (left + (col_start ws p - 1)) by lia.
        rewrite (@inline_at u sep (t_cell t1) left (top + 1) (t_pen t1) (col_start ws p - 1) 1 Is Ls) by lia. rewrite (sub_one _ _ Ex). reflexivity. }
      split; intros Hp Hq; [exact (Q Hp _ (P2 Hp Hq))|exact (Q Hp _ (P3 Hp Hq))].
  - intros j i r Ej Er p c Ec. destruct (Hseen j i Ej) as (Lj & _). destruct (Rm j Lj) as (t' & Q & _). unfold read_cell_of. fold a ws left top.
    assert (Lp : p < length ws) by (unfold ws, widths_of; rewrite map_length; apply nth_error_Some; congruence). assert (Ew : nth p ws 0 = N.to_nat (lc_width c)) by (unfold ws, widths_of; apply nth_error_nth; rewrite nth_error_map, Ec; reflexivity).
    pose proof (cell_at ws Lp) as Lc. set (sel := match selection v with Some s => s =? i | None => false end). assert (Em : mid j = row_cmds v sel (data r)) by (unfold mid; rewrite Ej, Er; reflexivity).
    destruct (C47_row sel (data r) Hc) as (Lo & Ho). fold ws in Lo, Ho. destruct (Ho p c Ec) as (P1 & P2). cbv zeta in P1. pose proof (row_inline v sel (data r)) as Ir. pose proof (Rt r sel (nth_error_In _ _ Er)) as Tr. rewrite Em in Q. split.
    + rewrite Q by lia. rewrite (@inline_at u _ (t_cell t') left (top + 2 + j) (t_pen t') (col_start ws p) (nth p ws 0) Ir Tr) by lia. rewrite Ew. eapply cell_put, P1.
    + intros Hp. destruct (@edge_in ws p ltac:(lia)) as (E1 & E2). replace (left + col_start ws p - 1) with (left + (col_start ws p - 1)) by lia. rewrite Q by lia.
      rewrite (@inline_at u _ (t_cell t') left (top + 2 + j) (t_pen t') (col_start ws p - 1) 1 Ir Tr) by lia. rewrite (sub_one _ _ (P2 Hp)). reflexivity.
  - intros j (L1 & L2). destruct (Rm j L2) as (t' & Q & _). rewrite Q by lia. assert (Em : mid j = [ClearUntilNewLine]) by (unfold mid; rewrite (proj2 (nth_error_None _ _) L1); reflexivity). rewrite Em.
    pose proof (read_clear u (mkTerm (t_cell t') left (top + 2 + j) (t_pen t')) 0 (N.to_nat (a_width a))) as K. cbn [t_x t_y] in K. rewrite Nat.add_0_r in K. exact K.
  - intros from to j -> Lj. destruct (Rm j Lj) as (t' & _ & Q). rewrite Q. unfold bar. set (b := (_ && _)%bool).
    match goal with |- read_row (term_run u ?t0 (MoveTo ?x0 ?y0 :: ?o)) _ _ _ = _ => change (term_run u t0 (MoveTo x0 y0 :: o)) with (term_run u (mkTerm (t_cell t0) (N.to_nat x0) (N.to_nat y0) (t_pen t0)) o); pose proof (@inline_read u o (mkTerm (t_cell t0) (N.to_nat x0) (N.to_nat y0) (t_pen t0)) 0 1 (sc_inline _) (Sth b)) as K end.
    cbn [t_x t_y] in K. rewrite Nat.add_0_r in K. replace (left + N.to_nat (a_width a)) with (N.to_nat (a_left a + a_width a)) by (unfold left; lia). replace (top + 2 + j) with (N.to_nat (a_top a + 2 + N.of_nat j)) by (unfold top; lia).
    rewrite K; [destruct b; reflexivity|destruct b; cbn; lia].
Qed.
Print Assumptions C100_list.
Lemma seen_data {T} (v : ListView T) :
  map (fun i => option_map (@data T) (nth_error (rows v) i)) (seen_rows v) = map Some (firstn (N.to_nat (a_height (lv_area v)) - 2) (shown_from v)).
Proof.
  unfold seen_rows, shown_from. rewrite <- !firstn_map. f_equal. rewrite !map_map.
  assert (G : forall l s, (forall i, nth_error (rows v) (s + i) = nth_error l i) ->
    map (fun i => option_map (@data T) (nth_error (rows v) i)) (List.filter (displayed_b v) (seq s (length l))) = map (fun x => Some (data x)) (List.filter (@displayed T) l)).
  { induction l as [|r l IH]; intros s H; [reflexivity|]. cbn [length seq List.filter]. pose proof (H 0) as H0. rewrite Nat.add_0_r in H0. cbn in H0. unfold displayed_b at 1. rewrite H0.
    assert (Hl : forall i, nth_error (rows v) (S s + i) = nth_error l i) by (intros i; transitivity (nth_error (rows v) (s + S i)); [f_equal; lia|exact (H (S i))]). destruct (displayed r); [cbn [map]; rewrite H0; cbn [option_map]; f_equal|]; apply IH, Hl. }
  rewrite <- skipn_length. apply G. intros i. clear G. generalize (rows v) (lv_scroll v). induction l as [|r l IH]; intros [|n]; cbn; auto. destruct i; reflexivity.
Qed.
(** In each column, from top to bottom, are read the cells of the displayed rows, from the scroll; a text too long for its column is cut, one which isn't is read whole *)
Theorem C100_rows : forall u T (v : ListView T) sb, well_titled v -> drawable u v -> is_white u 32%N = true ->
  lv_scroll v <= length (rows v) -> lv_scrollbar v = Ret sb ->
  exists out, lv_write_on v = Ret out /\ forall tm p c, nth_error (columns v) p = Some c ->
  let shown := firstn (N.to_nat (a_height (lv_area v)) - 2) (shown_from v) in
  map (fun j => visible u (read_cell_of (term_run u tm out) v p j)) (seq 0 (length shown)) = map (fun d => visible u (firstn (N.to_nat (lc_width c)) (con (extract c d)))) shown.
Proof.
  intros u T v sb Ht (Hh & Hc & Hn & H1 & H2 & H3 & Hw) W Hs Hsb. destruct (C100_list Ht Hh Hc Hn H1 H2 H3 Hs Hsb Hw) as (out & E & R). exists out. split; [exact E|]. intros tm p c Ep shown.
  destruct (R tm) as (_ & _ & R' & _). clear R. pose proof (seen_data v) as D. fold shown in D.
  assert (G : forall j d, nth_error shown j = Some d -> visible u (read_cell_of (term_run u tm out) v p j) = visible u (firstn (N.to_nat (lc_width c)) (con (extract c d)))).
  { intros j d Ej. apply (f_equal (fun l => nth_error l j)) in D. rewrite !nth_error_map, Ej in D. cbn [option_map] in D. destruct (nth_error (seen_rows v) j) as [i|] eqn:Ei; [|discriminate D]. cbn [option_map] in D.
    destruct (nth_error (rows v) i) as [r|] eqn:Er; [|discriminate D]. injection D as <-. destruct (R' j i r Ei Er p c Ep) as ((P1 & P2) & _).
    destruct (Nat.le_gt_cases (N.to_nat (lc_width c)) (length (con (extract c (data r))))) as [L|L]; [rewrite (P1 L); reflexivity|].
    destruct (P2 L) as (lp & rp & _ & ->). rewrite firstn_all2 by lia. unfold visible. rewrite !filter_app.
    assert (Z : forall n, List.filter (fun c0 => negb (is_white u c0) && (0 <? chw u c0)) (repeat 32%N n) = []) by (induction n as [|n IH]; [reflexivity|]; cbn [repeat List.filter]; rewrite W; exact IH). rewrite !Z, app_nil_r. reflexivity. }
  set (f := fun j => visible u (read_cell_of (term_run u tm out) v p j)) in *. change (forall j d, nth_error shown j = Some d -> f j = visible u (firstn (N.to_nat (lc_width c)) (con (extract c d)))) in G. clearbody f. clear - G.
  assert (K : forall l s, (forall j d, nth_error l j = Some d -> f (s + j) = visible u (firstn (N.to_nat (lc_width c)) (con (extract c d)))) -> map f (seq s (length l)) = map (fun d => visible u (firstn (N.to_nat (lc_width c)) (con (extract c d)))) l).
  { induction l as [|d l IH]; intros s H; [reflexivity|]. cbn [length seq map]. f_equal; [rewrite <- (H 0 d eq_refl), Nat.add_0_r; reflexivity|]. apply IH. intros j d' Ej. rewrite <- (H (S j) d' Ej). f_equal. lia. }
  apply K. intros j d. exact (G j d).
Qed.
Print Assumptions C100_rows.
Lemma filtered {T} (f : T -> bool) : forall l : list (Row T), Forall (fun r => displayed r = f (data r)) l -> map (@data T) (List.filter (@displayed T) l) = List.filter f (map (@data T) l).
Proof. induction 1 as [|r l H _ IH]; [reflexivity|]. cbn [map List.filter]. rewrite H. destruct (f (data r)); cbn [map]; congruence. Qed.
Lemma perm_filter {T} (f : T -> bool) (l m : list T) : Permutation l m -> Permutation (List.filter f l) (List.filter f m).
Proof.
  induction 1 as [|a l m _ IH|a b l|l m n _ IH1 _ IH2]; [constructor| | |eapply perm_trans; eassumption].
  - cbn [List.filter]. destruct (f a); [apply perm_skip|]; exact IH.
  - cbn [List.filter]. destruct (f a), (f b); try apply Permutation_refl. apply perm_swap.
Qed.
Lemma ordered_filter {T} (cmp : T -> T -> comparison) (f : T -> bool) l : ordered cmp l -> ordered cmp (List.filter f l).
Proof.
  unfold ordered. induction 1 as [|a l _ IH H]; [constructor|]. cbn [List.filter]. destruct (f a); [|exact IH]. constructor; [exact IH|]. rewrite Forall_forall in *. intros x I. apply filter_In in I as (I & _). auto.
Qed.
Lemma filters_commute {T} (f g : T -> bool) l : List.filter f (List.filter g l) = List.filter g (List.filter f l).
Proof. induction l as [|a l IH]; [reflexivity|]. cbn [List.filter]. destruct (f a) eqn:F, (g a) eqn:G; cbn [List.filter]; rewrite ?F, ?G; congruence. Qed.
(** After any history without order, a list which isn't scrolled and is high enough shows the rows added since the last clear which are accepted by the last
    filter; with the order set first, it shows them sorted *)
Theorem C100_history : forall u T area cols k (v0 v : ListView T) ops, lv_new area cols k = Ret v0 -> lv_run v0 ops = Ret v ->
  drawable u v -> is_white u 32%N = true -> lv_scroll v = 0 -> length (List.filter (current_filter ops) (S_List.given ops)) <= N.to_nat (a_height (lv_area v)) - 2 ->
  exists out shown, lv_write_on v = Ret out
  /\ Permutation (List.filter (current_filter ops) (S_List.given ops)) shown
  /\ (current_order ops = None -> shown = List.filter (current_filter ops) (S_List.given ops))
  /\ (forall order ops', ops = LvSort order :: ops' -> total_order order -> (forall o, ~ In (LvSort o) ops') -> ordered order shown /\ stable order (List.filter (current_filter ops) (S_List.given ops)) shown)
  /\ forall tm p c, nth_error (columns v) p = Some c ->
     map (fun j => visible u (read_cell_of (term_run u tm out) v p j)) (seq 0 (length shown)) = map (fun d => visible u (firstn (N.to_nat (lc_width c)) (con (extract c d)))) shown.
Proof.
  intros u T area cols k v0 v ops E0 E D W Hs Hf. destruct (@C43_consistent _ _ _ _ _ _ _ E0 E) as (P & F & Cn & _). destruct (@C47_reachable _ _ _ _ _ _ _ E0 E) as (Ht & _).
  pose proof (@filtered T (current_filter ops) (rows v) F) as Es. assert (Pf : Permutation (List.filter (current_filter ops) (S_List.given ops)) (shown_from v)).
  { unfold shown_from. rewrite Hs. change (skipn 0 (rows v)) with (rows v). rewrite Es. apply Permutation_sym. apply perm_filter. exact P. }
  assert (Hsb : lv_scrollbar v = Ret None).
  { unfold lv_scrollbar. injection Cn as Cn _. rewrite compute_scrollbar_eq. rewrite (proj2 (N.leb_le _ _)); [reflexivity|]. unfold tbody_height16.
    pose proof (N.mod_le (N.of_nat (displayed_rows_count v)) U16 ltac:(discriminate)) as M. revert M. generalize (N.of_nat (displayed_rows_count v) mod U16)%N. intros m M. destruct (N.ltb_spec 2 (a_height (lv_area v))); lia. }
  destruct (@C100_rows u T v None Ht D W ltac:(lia) Hsb) as (out & Eo & R). exists out, (shown_from v). split; [exact Eo|]. split; [exact Pf|].
  split; [|split].
  - intros Ho. unfold shown_from. rewrite Hs. change (skipn 0 (rows v)) with (rows v). rewrite Es. rewrite (@C43_in_order _ _ _ _ _ _ _ E0 E Ho). reflexivity.
  - intros order ops' -> Ho Hno. destruct (@C48_always _ _ _ _ _ _ _ _ E0 Ho Hno E) as (S1 & S2). unfold shown_from. rewrite Hs. change (skipn 0 (rows v)) with (rows v). rewrite Es.
    split; [apply ordered_filter, S1|]. intros a. rewrite !(filters_commute (same_as order a)). f_equal. exact (S2 a).
  - intros tm p c Ep. specialize (R tm p c Ep). cbv zeta in R. rewrite firstn_all2 in R; [exact R|]. rewrite <- (Permutation_length Pf). exact Hf.
Qed.
Print Assumptions C100_history.

(** ** Examples *)

Definition read_lines {T} (v : ListView T) (w h : nat) : list str := match lv_write_on v with Ret out => map (fun y => read_row (term_run demo P_Paint.full_term out) 0 y w) (seq 0 h) | _ => [] end.
Definition sorted_ops : list (lv_op N) := LvSort (fun a b => N.compare b a) :: abc 4 ++ [LvFilter (fun n => negb (n =? 98)%N); LvDimensions].
Definition sorted_new : ListView N := match lv_new (mkArea 1 0 12 7) demo_cols skin_default with Ret v => v | _ => demo_lv 0 end.
Definition sorted_lv : ListView N := match lv_run sorted_new sorted_ops with Ret v => v | _ => demo_lv 0 end.
(** A sorted and filtered list of three rows on a terminal which was full of [x]: its lines are cleared under its last row *)
Example C100_example : read_lines sorted_lv 13 7
  = [[120; 32; 65; 66; 32; 32; 9474; 32; 32; 67; 32; 32; 120]; [120; 9472; 9472; 9472; 9472; 9472; 9532; 9472; 9516; 9472; 9472; 9472; 120];
     [120; 32; 100; 101; 102; 32; 9474; 100; 9474; 100; 45; 100; 120]; [120; 32; 99; 100; 101; 32; 9474; 99; 9474; 99; 45; 99; 120];
     [120; 32; 97; 98; 99; 32; 9474; 97; 9474; 97; 45; 97; 120]; [120; 32; 32; 32; 32; 32; 32; 32; 32; 32; 32; 32; 32]; [120; 32; 32; 32; 32; 32; 32; 32; 32; 32; 32; 32; 32]]%N
  /\ List.filter (current_filter sorted_ops) (S_List.given sorted_ops) = [97; 99; 100]%N.
Proof. split; vm_compute; reflexivity. Qed.
Lemma thin_b u s : forallb (fun c => chw u c =? 1) s = true -> thin u s.
Proof. intros H. apply Forall_forall. intros c Ic. rewrite forallb_forall in H. apply Nat.eqb_eq, H, Ic. Qed.
Lemma sorted_made : lv_new (mkArea 1 0 12 7) demo_cols skin_default = Ret sorted_new /\ lv_run sorted_new sorted_ops = Ret sorted_lv.
Proof.
  split.
  - unfold sorted_new. destruct (C47_new (mkArea 1 0 12 7) demo_cols skin_default) as (v & E & _). rewrite E. reflexivity.
  - unfold sorted_lv. assert (H : match lv_run sorted_new sorted_ops with Ret _ => true | _ => false end = true) by (vm_compute; reflexivity). destruct (lv_run sorted_new sorted_ops); [reflexivity|discriminate H..].
Qed.
(** The hypotheses of the theorems for it *)
Example C100_hypotheses : well_titled sorted_lv /\ drawable demo sorted_lv /\ is_white demo 32%N = true /\ lv_scroll sorted_lv = 0 /\ total_order (fun a b => N.compare b a)
  /\ length (List.filter (current_filter sorted_ops) (S_List.given sorted_ops)) <= N.to_nat (a_height (lv_area sorted_lv)) - 2.
Proof.
  split; [eapply (@well_titled_run N (mkArea 1 0 12 7) demo_cols skin_default _ _ sorted_ops); apply sorted_made|]. split; [|split; [reflexivity|split; [vm_compute; reflexivity|split; [|apply Nat.leb_le; vm_compute; reflexivity]]]].
  - split; [vm_compute; discriminate|]. split; [intros c d Hc; vm_compute in Hc; destruct Hc as [<-|[<-|[<-|[]]]]; reflexivity|]. split; [|split; [vm_compute; reflexivity|split; [vm_compute; reflexivity|split; [vm_compute; discriminate|apply Nat.leb_le; vm_compute; reflexivity]]]].
    split; [apply thin_b; vm_compute; reflexivity|]. split; [apply thin_b; vm_compute; reflexivity|].
    assert (B : forallb (fun c => forallb (fun x => chw demo x =? 1) (lc_title c) && forallb (fun r => forallb (fun x => chw demo x =? 1) (con (extract c (data r)))) (rows sorted_lv)) (columns sorted_lv) = true) by (vm_compute; reflexivity).
    rewrite forallb_forall in B. intros c Ic. apply B in Ic. apply andb_prop in Ic as (I1 & I2). split; [apply thin_b, I1|]. rewrite forallb_forall in I2. intros r Ir. apply thin_b, I2, Ir.
  - split; [intros a b; apply N.compare_antisym|]. intros a b c. rewrite !N.compare_le_iff. lia.
Qed.
