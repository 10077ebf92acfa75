(** * Lemmas on the rendering *)
From Verif Require Import Base L_Base M_Style M_Fit S_Fit L_Fit M_Wrap S_Wrap L_Wrap M_Text M_Render S_Render S_Text P_Wrap.
Set Implicit Arguments.
Open Scope nat_scope.

Lemma Ret_inj A (a b : A) : Ret a = Ret b -> b = a.
Proof. congruence. Qed.
Lemma drawn_app a b : drawn (a ++ b) = drawn a ++ drawn b.
Proof. apply flat_map_app. Qed.
Lemma width_app u a b : drawn_width u (a ++ b) = drawn_width u a + drawn_width u b.
Proof. unfold drawn_width. rewrite map_app. apply sumw_app. Qed.
Lemma width_cons u x b : drawn_width u (x :: b) = chw u (fst x) + drawn_width u b.
Proof. reflexivity. Qed.
Lemma width_repeat u x n : chw u (fst x) = 1 -> drawn_width u (repeat x n) = n.
Proof. intros H. induction n as [|n IH]; [reflexivity|]. cbn [repeat]. rewrite width_cons, H, IH. reflexivity. Qed.
Lemma map_repeat A B (f : A -> B) x n : map f (repeat x n) = repeat (f x) n.
Proof. induction n; cbn; congruence. Qed.
Lemma drawn_repeat_char cs c n : drawn (cs_repeat_char cs c n) = repeat (c, cs) n.
Proof.
  unfold cs_repeat_char. destruct (Nat.ltb_spec 0 n) as [H|H]; [|replace n with 0 by lia; reflexivity].
  cbn [drawn flat_map]. rewrite app_nil_r. apply map_repeat.
Qed.
Lemma concat_single A (c : A) n : concat (repeat [c] n) = repeat c n.
Proof. induction n; cbn; congruence. Qed.
Lemma drawn_repeat_space cs n : drawn (cs_repeat_space cs n) = blanks cs n.
Proof.
  unfold cs_repeat_space, cs_repeat_string, blanks. destruct (Nat.ltb_spec 0 n) as [H|H]; [|replace n with 0 by lia; reflexivity].
  cbn [drawn flat_map]. rewrite app_nil_r, concat_single. apply map_repeat.
Qed.
Lemma drawn_ls_space l n : drawn (ls_repeat_space l n) = blanks (ls_cs l) n.
Proof. apply drawn_repeat_char. Qed.
Lemma drawn_char_queue s : drawn (sc_queue s) = [drawn_char s].
Proof. reflexivity. Qed.
Lemma drawn_spaces k n : drawn (concat (repeat (cs_queue (ls_cs (paragraph k)) [c_space]) n)) = blanks (ls_cs (paragraph k)) n.
Proof. induction n as [|n IH]; [reflexivity|]. cbn [repeat concat]. rewrite drawn_app, IH. reflexivity. Qed.
Lemma blanks_app cs a b : blanks cs a ++ blanks cs b = blanks cs (a + b).
Proof. unfold blanks. now rewrite repeat_app. Qed.

Lemma mark_spec k kind : drawn (composite_mark k kind) = mark_drawn k kind.
Proof.
  unfold composite_mark, mark_drawn. rewrite !drawn_app. destruct kind; destruct (indent_mode k); cbn [app];
    rewrite ?drawn_app, ?drawn_spaces, ?drawn_char_queue, ?app_nil_r; try reflexivity.
  cbn [drawn flat_map map cs_queue app]. replace (depth + 2) with (depth + 1 + 1) by lia. rewrite <- (blanks_app _ (depth + 1)). reflexivity.
Qed.
Lemma compound_spec special k ls c : drawn (compound_out special k ls c) = compound_drawn special k ls c.
Proof. unfold compound_out, compound_drawn. destruct (special c); [reflexivity|]. cbn. apply app_nil_r. Qed.
Lemma compounds_spec special k ls cs : drawn (flat_map (compound_out special k ls) cs) = flat_map (compound_drawn special k ls) cs.
Proof. induction cs as [|c cs IH]; [reflexivity|]. cbn [flat_map]. rewrite drawn_app, compound_spec, IH. reflexivity. Qed.

Lemma shared_spec align inner outer : let '(lp, rp) := completions align inner outer in shared align inner outer lp rp.
Proof.
  destruct (completions align inner outer) as [lp rp] eqn:E. apply completions_spec in E as (H1 & H2 & H3 & H4).
  split; [exact H1|]. destruct align; auto.
Qed.
Lemma shared_opt_spec align inner outer : let '(lp, rp) := optional_completions align inner outer in shared_opt align inner outer lp rp.
Proof. destruct outer as [w|]; [apply shared_spec|split; reflexivity]. Qed.
Lemma margins_spec ls wm outer : let '(lm, rm) := if wm : bool then margins_in ls outer else (0, 0) in margins_ok ls wm outer lm rm.
Proof.
  destruct wm; [|split; [split; reflexivity|discriminate]]. unfold margins_in, margins_ok. destruct outer as [w|].
  - destruct (Nat.ltb_spec w (left_margin ls + right_margin ls + 3)); split; try discriminate; intros _; split; intros; try (split; reflexivity); lia.
  - split; [discriminate|]. intros _. split; reflexivity.
Qed.

Lemma composite_spec special k fc outer wr wm l : write_fmt_composite special k fc outer wr wm = Ret l ->
  composite_drawn special k fc outer wr wm (drawn l).
Proof.
  unfold write_fmt_composite. intros E. apply bind_Ret_inv in E as (ls & El & E). apply bind_Ret_inv in E as ([] & _ & E).
  pose proof (margins_spec ls wm outer) as Hm. destruct (if wm then margins_in ls outer else (0, 0)) as [lm rm].
  destruct (fc_completions fc) as [li ri] eqn:Ei.
  pose proof (shared_opt_spec (ls_align ls) (room fc + lm + rm) outer) as Ho. unfold room in Ho.
  destruct (optional_completions (ls_align ls) _ outer) as [lp rp]. injection E as <-.
  exists ls, lm, rm, lp, rp, li, ri. split; [exact El|]. split; [exact Hm|]. split; [exact Ho|]. split.
  - unfold fc_completions in Ei. destruct (fc_spacing fc) as [sp|]; [|injection Ei as <- <-; split; reflexivity].
    unfold completions_for in Ei. pose proof (shared_spec (sp_align sp) (visible_length fc) (sp_width sp)) as H. now rewrite Ei in H.
  - rewrite !drawn_app, drawn_ls_space, !drawn_repeat_space, mark_spec, compounds_spec.
    destruct wr; [rewrite drawn_ls_space|]; reflexivity.
Qed.
Lemma overflow_ret k kind : drawn_kind kind -> mark_overflow k kind = Ret tt.
Proof. intros (_ & H). unfold mark_overflow. destruct (indent_mode k), kind; try reflexivity. rewrite (proj2 (Nat.ltb_lt _ _) H). reflexivity. Qed.
Lemma composite_ret special k fc outer wr wm : skin_ok k -> drawn_kind (fc_kind fc) -> exists l, write_fmt_composite special k fc outer wr wm = Ret l.
Proof.
  intros Hk Hg. unfold write_fmt_composite. destruct (line_style_ret Hk (proj1 Hg)) as [ls ->]. rewrite bind_ret, (overflow_ret k Hg), bind_ret.
  destruct (if wm then _ else _), (fc_completions fc), (optional_completions _ _ _). eexists. reflexivity.
Qed.

Lemma row_width_spec cells : row_width cells = table_line_width (map room cells).
Proof.
  unfold row_width, table_line_width. rewrite map_length.
  assert (H : forall m, fold_left (fun s cell => s + match fc_spacing cell with Some sp => sp_width sp | None => visible_length cell end + 1) cells m
    = m + sum (map room cells) + length cells).
  { induction cells as [|c cells IH]; intros m; cbn [fold_left map sum length]; [lia|]. rewrite IH. unfold room at 2. lia. }
  rewrite H. lia.
Qed.
Lemma rule_width_spec ws : 1 + fold_left (fun s w => s + w + 1) ws 0 = table_line_width ws.
Proof.
  unfold table_line_width. assert (H : forall m, fold_left (fun s w => s + w + 1) ws m = m + sum ws + length ws).
  { induction ws as [|c ws IH]; intros m; cbn [fold_left sum length]; [lia|]. rewrite IH. lia. }
  rewrite H. lia.
Qed.
Lemma cells_spec special k cells l : write_cells special k cells = Ret l ->
  exists ds, Forall2 (fun c dc => composite_drawn special k c None false false dc) cells ds
  /\ drawn l = flat_map (fun dc => (vertical (table_border_chars k), ls_cs (table k)) :: dc) ds.
Proof.
  revert l. induction cells as [|c cells IH]; intros l E; cbn [write_cells] in E.
  - injection E as <-. exists []. split; [constructor|reflexivity].
  - apply bind_Ret_inv in E as (a & Ea & E). apply bind_Ret_inv in E as (b & Eb & E). injection E as <-.
    destruct (IH _ Eb) as (ds & H1 & H2). exists (drawn a :: ds). split; [constructor; [apply composite_spec, Ea|exact H1]|].
    cbn [flat_map]. rewrite <- H2. cbn [app]. rewrite <- drawn_app. reflexivity.
Qed.
Lemma cells_ret special k cells : skin_ok k -> Forall (fun c => drawn_kind (fc_kind c)) cells -> exists l, write_cells special k cells = Ret l.
Proof.
  intros Hk. induction 1 as [|c cells Hc _ [l IH]]; [eexists; reflexivity|]. cbn [write_cells].
  destruct (composite_ret special c None false false Hk Hc) as [a ->]. rewrite bind_ret, IH, bind_ret. eexists. reflexivity.
Qed.
Lemma rule_spec k p ws :
  drawn (cs_queue (ls_cs (table k)) [rule_left (table_border_chars k) p] ++ rule_cells k p true ws ++ cs_queue (ls_cs (table k)) [rule_right (table_border_chars k) p])
  = rule_drawn k (rule_left (table_border_chars k) p) (rule_mid (table_border_chars k) p) (rule_right (table_border_chars k) p) ws.
Proof.
  rewrite !drawn_app. unfold rule_drawn. cbn [app drawn flat_map cs_queue map]. f_equal. f_equal.
  assert (H : forall ws, drawn (rule_cells k p false ws) =
    flat_map (fun w => (rule_mid (table_border_chars k) p, ls_cs (table k)) :: repeat (horizontal (table_border_chars k), ls_cs (table k)) w) ws).
  { induction ws0 as [|w ws0 IH]; [reflexivity|]. cbn [rule_cells flat_map]. rewrite !drawn_app, drawn_repeat_char, IH. reflexivity. }
  destruct ws as [|w ws]; [reflexivity|]. cbn [rule_cells app]. fold (drawn (cs_repeat_char (ls_cs (table k)) (horizontal (table_border_chars k)) w ++ rule_cells k p false ws)).
  rewrite drawn_app, drawn_repeat_char, H. reflexivity.
Qed.

Lemma line_spec special k line width wr l : write_fmt_line special k line width wr = Ret l -> line_drawn special k line width wr (drawn l).
Proof.
  unfold write_fmt_line. destruct line as [fc|cells|r|]; intros E.
  - apply composite_spec, E.
  - rewrite row_width_spec in E. pose proof (shared_opt_spec (ls_align (table k)) (table_line_width (map room cells)) width) as Ho.
    destruct (optional_completions (ls_align (table k)) _ width) as [lp rp]. apply bind_Ret_inv in E as (a & Ea & E). apply Ret_inj in E as ->.
    destruct (cells_spec _ _ _ Ea) as (ds & H1 & H2). exists lp, rp, ds. split; [exact Ho|]. split; [exact H1|].
    rewrite !drawn_app, H2, drawn_ls_space. destruct wr; [rewrite drawn_ls_space|]; reflexivity.
  - rewrite rule_width_spec in E. pose proof (shared_opt_spec (ls_align (table k)) (table_line_width (widths r)) width) as Ho.
    destruct (optional_completions (ls_align (table k)) _ width) as [lp rp]. apply Ret_inj in E as ->. exists lp, rp. split; [exact Ho|].
    rewrite drawn_app, drawn_ls_space. f_equal. rewrite !app_assoc, drawn_app. f_equal; [|destruct wr; [apply drawn_ls_space|reflexivity]].
    rewrite <- app_assoc, rule_spec. destruct (position r); reflexivity.
  - apply Ret_inj in E as ->. cbn. destruct width as [w|]; [|reflexivity]. cbn. rewrite app_nil_r. apply map_repeat.
Qed.
Definition good_cells (l : FmtLine) : Prop :=
  match l with Normal fc => drawn_kind (fc_kind fc) | TableRow cells => Forall (fun c => drawn_kind (fc_kind c)) cells | _ => True end.
Lemma line_ret special k line width wr : skin_ok k -> good_cells line -> exists l, write_fmt_line special k line width wr = Ret l.
Proof.
  intros Hk Hg. unfold write_fmt_line. destruct line as [fc|cells|r|].
  - now apply composite_ret.
  - destruct (optional_completions _ _ _) as [lp rp]. destruct (cells_ret special Hk Hg) as [l ->]. rewrite bind_ret. eexists. reflexivity.
  - destruct (optional_completions _ _ _) as [lp rp]. eexists. reflexivity.
  - eexists. reflexivity.
Qed.

(** ** Widths *)
Lemma narrow_in u k c : narrow_chars u k -> In c (skin_chars k) -> chw u c = 1.
Proof. unfold narrow_chars. rewrite Forall_forall. auto. Qed.
Ltac narrow H := apply (narrow_in H); cbn; tauto.

Lemma blanks_width u cs n : chw u 32%N = 1 -> drawn_width u (blanks cs n) = n.
Proof. intros H. apply width_repeat. exact H. Qed.
Lemma mark_width u k kind : narrow_chars u k -> drawn_width u (mark_drawn k kind) = lead k kind.
Proof.
  intros H. assert (H32 : chw u 32%N = 1) by (narrow H).
  assert (Hb : chw u (snd (sc_cache (bullet k))) = 1) by (narrow H). assert (Hq : chw u (snd (sc_cache (quote_mark k))) = 1) by (narrow H).
  unfold mark_drawn, lead. destruct kind; try reflexivity.
  - rewrite !width_app, !blanks_width by exact H32. rewrite width_cons. unfold drawn_char. cbn [fst]. rewrite Hb. cbn. lia.
  - destruct (indent_mode k); [reflexivity|]. apply blanks_width, H32.
  - rewrite width_app, blanks_width by exact H32. rewrite width_cons. unfold drawn_char. cbn [fst]. rewrite Hq. cbn. lia.
Qed.
Lemma map_fst_const A B (b : B) (l : list A) : map fst (map (fun a => (a, b)) l) = l.
Proof. induction l; cbn; congruence. Qed.
Lemma compounds_width u special k ls cs : same_widths u special ->
  drawn_width u (flat_map (compound_drawn special k ls) cs) = sumw (chw u) (text_of cs).
Proof.
  intros H. induction cs as [|c cs IH]; [reflexivity|]. cbn [flat_map text_of]. rewrite width_app, IH, sumw_app. f_equal.
  unfold compound_drawn. destruct (special c) as [r|] eqn:E.
  - rewrite <- (H _ _ E). rewrite width_cons. cbn. lia.
  - unfold drawn_width. rewrite map_fst_const. reflexivity.
Qed.
(** The width of a composite without outer padding is its room *)
Lemma composite_width u special k fc outer wr wm d : narrow_chars u k -> same_widths u special -> in_room u k fc ->
  composite_drawn special k fc outer wr wm d ->
  exists ls lm rm lp rp, line_style k (fc_kind fc) = Ret ls /\ margins_ok ls wm outer lm rm
    /\ shared_opt (ls_align ls) (room fc + lm + rm) outer lp rp
    /\ drawn_width u d = lp + lm + room fc + (if wr then rp + rm else 0).
Proof.
  intros Hn Hs [Hr Hl] (ls & lm & rm & lp & rp & li & ri & H1 & H2 & H3 & H4 & ->). exists ls, lm, rm, lp, rp.
  split; [exact H1|]. split; [exact H2|]. split; [exact H3|]. assert (H32 : chw u 32%N = 1) by (narrow Hn).
  rewrite !width_app, !blanks_width, mark_width, (compounds_width _ _ _ Hs) by assumption.
  assert (He : drawn_width u (if wr then blanks (ls_cs (paragraph k)) (rp + rm) else []) = if wr then rp + rm else 0)
    by (destruct wr; [apply blanks_width, H32|reflexivity]).
  rewrite He. assert (Hi : li + shown u k fc + ri = room fc).
  { unfold room, length_ok in *. destruct (fc_spacing fc) as [sp|]; [destruct H4 as [H4 _]|]; lia. }
  unfold shown in Hi. lia.
Qed.
Lemma row_cells_width u special k cells ds : narrow_chars u k -> same_widths u special -> Forall (in_room u k) cells ->
  Forall2 (fun c dc => composite_drawn special k c None false false dc) cells ds ->
  drawn_width u (flat_map (fun dc => (vertical (table_border_chars k), ls_cs (table k)) :: dc) ds) + 1 = table_line_width (map room cells).
Proof.
  intros Hn Hs Hr HF. unfold table_line_width. rewrite map_length. induction HF as [|c d cells ds Hc _ IH]; [reflexivity|]. inversion Hr as [|? ? Hr1 Hr2]; subst.
  specialize (IH Hr2). cbn [flat_map map sum length]. rewrite width_app, width_cons. cbn [fst].
  assert (Hv : chw u (vertical (table_border_chars k)) = 1) by (narrow Hn). rewrite Hv.
  destruct (composite_width Hn Hs Hr1 Hc) as (ls & lm & rm & lp & rp & _ & [Hm _] & [-> ->] & ->). destruct (Hm eq_refl) as [-> ->]. lia.
Qed.
Lemma rule_width u k l m r ws : chw u l = 1 -> chw u m = 1 -> chw u r = 1 -> chw u (horizontal (table_border_chars k)) = 1 ->
  drawn_width u (rule_drawn k l m r ws) = match ws with [] => 2 | _ => table_line_width ws end.
Proof.
  intros Hl Hm Hr Hh. unfold rule_drawn. rewrite width_cons, width_app, width_cons. cbn [fst]. rewrite Hl, Hr. change (drawn_width u []) with 0.
  destruct ws as [|w ws]; [reflexivity|]. rewrite width_app, width_repeat by exact Hh.
  assert (H : drawn_width u (flat_map (fun w => (m, ls_cs (table k)) :: repeat (horizontal (table_border_chars k), ls_cs (table k)) w) ws) = sum ws + length ws).
  { induction ws as [|x ws IH]; [reflexivity|]. cbn [flat_map sum length]. rewrite width_app, width_cons, width_repeat, IH by exact Hh. cbn [fst]. lia. }
  rewrite H. unfold table_line_width. cbn [sum length]. lia.
Qed.
