(** * Every line of a source is reached, and read, in a scrolled view (C104) *)
From Verif Require Import Base L_Base M_Style M_Fit M_Wrap M_TblFit S_Wrap M_Text S_Text M_Fitter M_View S_View M_Render S_Render M_Area S_Input S_Pen S_Area S_Paint S_Read S_Whole S_Pages L_Clean Demo.
From Verif Require Import P_Wrap P_Text P_Render P_Local S_Local P_View P_Area P_Paint P_Read P_Pen P_Whole P_Pages.
Set Implicit Arguments.
Open Scope nat_scope.

Definition down : mv_op := MvKey (mkKey 0 [KDown]).
Definition up : mv_op := MvKey (mkKey 0 [KUp]).
Lemma place_app n h a b : place n h (a ++ b) = fold_left (fun s o => clamp n h (Z.of_N s + asked (Z.of_N h) o)) b (place n h a).
Proof. unfold place. apply fold_left_app. Qed.
Lemma downs n h j : forall s, (s <= max_scroll n h)%N -> fold_left (fun s o => clamp n h (Z.of_N s + asked (Z.of_N h) o)) (repeat down j) s = N.min (s + N.of_nat j) (max_scroll n h).
Proof.
  induction j as [|j IH]; intros s Hs; cbn [repeat fold_left]; [lia|]. rewrite IH by (unfold clamp; lia). cbn [asked down]. unfold clamp. generalize dependent (max_scroll n h). intros m. lia.
Qed.
Lemma ups n h j : forall s, (s <= max_scroll n h)%N -> fold_left (fun s o => clamp n h (Z.of_N s + asked (Z.of_N h) o)) (repeat up j) s = (s - N.of_nat j)%N.
Proof.
  induction j as [|j IH]; intros s Hs; cbn [repeat fold_left]; [lia|]. rewrite IH by (unfold clamp; lia). cbn [asked up]. unfold clamp. generalize dependent (max_scroll n h). intros m. lia.
Qed.

(** Whatever is asked to the view, it's drawn and all the source lines whose rows are after the place where the reader went, and in the height of the area, are read. How the rows are shared among the source lines doesn't
    depend on what is asked. *)
Theorem C104_anywhere : forall u k um text a, usual u no_special k ->
  (6 <= a_width a)%N -> (1 <= a_height a)%N -> on_screen a -> margins_not_just k (N.to_nat (a_width a)) ->
  Forall (area_source u k (N.to_nat (a_width a) - 1)) text -> is_white u 32%N = true ->
  exists t ps, area_text u k um text a = Ret t
  /\ length ps = length text /\ Forall (fun p => 1 <= l_rows p) ps /\ sum (map l_rows ps) = length (txt_lines t) /\ aligned text ps
  /\ (length (txt_lines t) < N.to_nat 65536 -> forall ops, Forall (mv_op_ok (a_height a)) ops ->
  exists v out, mv_run (source_view u k um text a) ops = Ret v /\ mv_write_on (render_line no_special k) v = Ret out
  /\ let s := N.to_nat (place (N.of_nat (length (txt_lines t))) (a_height a) ops) in
     forall tm i l p, nth_error text i = Some l -> nth_error ps i = Some p ->
     let n := sum (map l_rows (firstn i ps)) in s <= n -> n + l_rows p <= s + N.to_nat (a_height a) ->
     reads_line u k (term_run u tm out) p l (N.to_nat (a_left a)) (N.to_nat (a_top a) + (n - s)) (text_columns (txt_lines t) a)).
Proof.
  intros u k um text a U W Hh S M T Wh. destruct (@C101_view u k um text a U W Hh S M T Wh) as (t & ps & Et & P1 & P2 & P3 & P4 & V). exists t, ps. do 5 (split; [assumption|]). intros L1 ops Ho.
  destruct (@run_place _ (mv_text (source_view u k um text a)) a k ops ltac:(lia) ltac:(lia) Ho) as (Er & Hp). rewrite (@lines_of_view u k um text a t Et) in Er, Hp. cbv zeta.
  set (s := place _ _ ops) in *. destruct (V L1 s) as (out & Eo & H); [unfold max_scroll in Hp; lia|]. cbv zeta in H.
  match type of H with context [if ?b then ?x else ?y] => replace (if b then x else y) with (text_columns (txt_lines t) a) in H by (unfold text_columns; destruct (Nat.leb_spec (length (txt_lines t)) (N.to_nat (a_height a))), (Nat.ltb_spec (N.to_nat (a_height a)) (length (txt_lines t))); lia) end.
  exists (mv_with (source_view u k um text a) s), out. split; [exact Er|]. split; [rewrite (@mad_view_write _ _ _ _ _ _ _ _ Et); exact Eo|]. exact H.
Qed.
(** Wherever the reader went, some presses on up or down bring any source line whose rows aren't more than those of the area *)
Theorem C104_reach : forall u k um text a, usual u no_special k ->
  (6 <= a_width a)%N -> (1 <= a_height a)%N -> on_screen a -> margins_not_just k (N.to_nat (a_width a)) ->
  Forall (area_source u k (N.to_nat (a_width a) - 1)) text -> is_white u 32%N = true ->
  exists t ps, area_text u k um text a = Ret t /\ length ps = length text /\ Forall (fun p => 1 <= l_rows p) ps /\ sum (map l_rows ps) = length (txt_lines t) /\ aligned text ps
  /\ (length (txt_lines t) < N.to_nat 65536 -> forall ops, Forall (mv_op_ok (a_height a)) ops ->
  forall i l p, nth_error text i = Some l -> nth_error ps i = Some p -> l_rows p <= N.to_nat (a_height a) ->
  exists key j v out y, (key = up \/ key = down) /\ mv_run (source_view u k um text a) (ops ++ repeat key j) = Ret v /\ mv_write_on (render_line no_special k) v = Ret out
  /\ y + l_rows p <= N.to_nat (a_height a)
  /\ forall tm, reads_line u k (term_run u tm out) p l (N.to_nat (a_left a)) (N.to_nat (a_top a) + y) (text_columns (txt_lines t) a)).
Proof.
  intros u k um text a U W Hh S M T Wh. destruct (@C104_anywhere u k um text a U W Hh S M T Wh) as (t & ps & Et & P1 & P2 & P3 & P4 & V). exists t, ps. do 5 (split; [assumption|]).
  intros L1 ops Ho i l p Hi Hp Hl. set (n := sum (map l_rows (firstn i ps))).
  destruct (@run_place _ (mv_text (source_view u k um text a)) a k ops ltac:(lia) ltac:(lia) Ho) as (_ & Hs). rewrite (@lines_of_view u k um text a t Et) in Hs. set (s := place _ _ ops) in Hs.
  assert (Ln : n + l_rows p <= length (txt_lines t)).
  { rewrite <- P3. unfold n. clear - Hp. revert i Hp. induction ps as [|p0 ps IH]; intros [|i] Hp; try discriminate; cbn [nth_error firstn map] in *.
    - injection Hp as ->. change (sum (l_rows p :: map l_rows ps)) with (l_rows p + sum (map l_rows ps)). unfold sum at 1. cbn. lia.
    - change (sum (l_rows p0 :: map l_rows ps)) with (l_rows p0 + sum (map l_rows ps)). change (sum (l_rows p0 :: map l_rows (firstn i ps))) with (l_rows p0 + sum (map l_rows (firstn i ps))). specialize (IH i Hp). lia. }
  set (m := N.of_nat (length (txt_lines t))) in *. set (h := a_height a) in *.
  assert (Q : exists key j, (key = up \/ key = down) /\ place m h (ops ++ repeat key j) = N.min (N.of_nat n) (max_scroll m h)).
  { destruct (N.le_gt_cases s (N.of_nat n)) as [L|L].
    - exists down, (n - N.to_nat s). split; [right; reflexivity|]. rewrite place_app. fold s. rewrite downs by exact Hs. lia.
    - exists up, (N.to_nat s - n). split; [left; reflexivity|]. rewrite place_app. fold s. rewrite ups by exact Hs. lia. }
  destruct Q as (key & j & K & Q). destruct (V L1 (ops ++ repeat key j)) as (v & out & E1 & E2 & H).
  { apply Forall_app. split; [exact Ho|]. apply Forall_forall. intros o I. apply repeat_spec in I. subst o. destruct K as [-> | ->]; exact I. }
  exists key, j, v, out, (n - N.to_nat (place m h (ops ++ repeat key j))). cbv zeta in H. fold h m in H. rewrite Q in *. unfold max_scroll in *. split; [exact K|]. split; [exact E1|]. split; [exact E2|]. split; [lia|].
  intros tm. apply (H tm i l p Hi Hp); fold n; lia.
Qed.
Print Assumptions C104_anywhere.
Print Assumptions C104_reach.

(** The text of [C101_example] in an area of 4 rows, after a page down and a press on down: the first table and the item which is on two rows are read; then up to the quote, which is on two rows too *)
Definition seen_after (ops : list mv_op) : outcome (list cmd) := v <- mv_run (source_view demo skin_default 1000 whole_text (mkArea 3 2 18 4)) ops ;; mv_write_on (render_line no_special skin_default) v.
Example C104_example : usual demo no_special skin_default /\ margins_not_just skin_default 18 /\ Forall (area_source demo skin_default 17) whole_text
  /\ exists t out out', area_text demo skin_default 1000 whole_text (mkArea 3 2 18 4) = Ret t /\ length (txt_lines t) = 10
  /\ Forall (mv_op_ok 4) ([page_down; down] ++ repeat up 5) /\ place 10 4 [page_down; down] = 5%N /\ place 10 4 ([page_down; down] ++ repeat up 5) = 0%N
  /\ seen_after [page_down; down] = Ret out /\ seen_after ([page_down; down] ++ repeat up 5) = Ret out'
  /\ map (fun j => visible demo (read_row (term_run demo full_term out) 3 (2 + j) 17)) (seq 0 4) = [[9474; 97; 9474; 98; 98; 9474]%N; (9474 :: letters 4 ++ [9474; 9474])%N; 8226%N :: letters 9; letters 9]
  /\ map (fun j => visible demo (read_row (term_run demo (term_run demo full_term out) out') 3 (2 + j) 17)) (seq 0 4) = [9616%N :: letters 9; 9616%N :: letters 9; [98; 98]%N; [99]%N].
Proof.
  split; [exact demo_usual|]. split; [intros kind ls El; destruct (default_margins _ El) as [-> ->]; discriminate|]. split; [exact whole_source|].
  do 3 eexists. split; [vm_compute; reflexivity|]. split; [reflexivity|]. split; [repeat (constructor; [exact I|]); constructor|]. do 4 (split; [vm_compute; reflexivity|]). split; vm_compute; reflexivity.
Qed.
