(** * Lemmas on the drawing of list views *)
From Verif Require Import Base L_Base M_Style M_Fit M_View L_View S_Fit L_Fit M_Render S_Render L_Render M_List S_List L_List.
Set Implicit Arguments.
Open Scope nat_scope.

(** ** Pieces with a separator before each one but the first *)
Definition body {A} (l : list (A * list A)) : list A := flat_map (fun sp => fst sp :: snd sp) l.
Definition pieces {A} (l : list (A * list A)) : list A := match l with [] => [] | sp :: r => snd sp ++ body r end.
Lemma body_pieces A (s : A) p r : s :: pieces ((s, p) :: r) = body ((s, p) :: r).
Proof. reflexivity. Qed.
Lemma body_app A (a b : list (A * list A)) : body (a ++ b) = body a ++ body b.
Proof. apply flat_map_app. Qed.
Lemma body_len A (l : list (A * list A)) : length (body l) = sum (map S (map (fun sp => length (snd sp)) l)).
Proof. induction l as [|[s p] l IH]; [reflexivity|]. cbn. rewrite app_length. cbn in IH. unfold body in IH. rewrite IH. reflexivity. Qed.
Lemma pieces_at A (l : list (A * list A)) ws i s p : map (fun sp => length (snd sp)) l = ws -> nth_error l i = Some (s, p) ->
  sub (pieces l) (col_start ws i) (length p) = p /\ (0 < i -> nth_error (pieces l) (col_start ws i - 1) = Some s).
Proof.
  intros Hw E. destruct l as [|[s0 p0] r]; [destruct i; discriminate|].
  assert (B : forall j, nth_error (body ((s0, p0) :: r)) (S j) = nth_error (pieces ((s0, p0) :: r)) j) by reflexivity.
  assert (K : forall j, skipn (S j) (body ((s0, p0) :: r)) = skipn j (pieces ((s0, p0) :: r))) by reflexivity.
  apply nth_error_split in E as (l1 & l2 & E & L). assert (Ec : col_start ws i = length (body l1)).
  { unfold col_start. rewrite <- Hw, E, map_app, firstn_app_exact by (rewrite map_length; symmetry; exact L). symmetry. apply body_len. }
  split.
  - unfold sub. rewrite <- K, E, body_app. cbn [body flat_map fst snd]. rewrite Ec.
    rewrite skipn_app. replace (S (length (body l1)) - length (body l1)) with 1 by lia. rewrite skipn_all2 by lia. cbn [app skipn].
    apply firstn_app_exact. reflexivity.
  - intros Hi. assert (0 < length (body l1)) by (destruct l1 as [|[a b] l1]; [cbn in L; lia|cbn; lia]).
    rewrite <- B, E, body_app. replace (S (col_start ws i - 1)) with (length (body l1)) by lia. rewrite nth_error_app2, Nat.sub_diag by lia. reflexivity.
Qed.
Lemma sum_S l : sum (map S l) = sum l + length l.
Proof. induction l as [|a l IH]; cbn; [reflexivity|]. cbn in IH. unfold sum in *. lia. Qed.
Lemma pieces_len A (l : list (A * list A)) ws : map (fun sp => length (snd sp)) l = ws -> length (pieces l) = line_len ws.
Proof.
  intros <-. unfold line_len. destruct l as [|[s p] r]; [reflexivity|]. cbn [pieces snd map length]. rewrite app_length, body_len, sum_S. cbn. unfold sum in *. rewrite !map_length. lia.
Qed.
Lemma join_pieces A (x : A) l : join [x] l = pieces (map (fun p => (x, p)) l).
Proof.
  destruct l as [|p l]; [reflexivity|]. cbn [map pieces snd]. revert p. induction l as [|q l IH]; intros p; [reflexivity|].
  cbn [join]. cbn [join] in IH. rewrite IH. reflexivity.
Qed.
Lemma drawn_join sep l x : drawn sep = [x] -> drawn (join sep l) = join [x] (map drawn l).
Proof.
  intros H. induction l as [|p l IH]; [reflexivity|]. cbn [join map]. rewrite drawn_app. f_equal. destruct l as [|q l]; [reflexivity|].
  rewrite drawn_app, H, IH. reflexivity.
Qed.

(** ** Titles *)
Inductive runs_from (ts : list str) : nat -> list (list nat) -> Prop :=
| runs_end : runs_from ts (length ts) []
| runs_cons : forall a b g, a < b <= length ts -> (forall i, a <= i < b -> nth_error ts i = nth_error ts a) ->
    (b < length ts -> nth_error ts b <> nth_error ts a) -> runs_from ts b g -> runs_from ts a (seq a (b - a) :: g).
Lemma str_eqb_spec a b : str_eqb a b = true <-> a = b.
Proof.
  revert b. induction a as [|x a IH]; intros [|y b]; cbn; try (split; congruence). rewrite andb_true_iff, IH, N.eqb_eq. split; [intros [-> ->]; reflexivity|intros H; injection H; auto].
Qed.
Lemma make_titles_spec T (all : list (ListViewColumn T)) : forall rest don a before,
  all = don ++ rest -> a < length don -> (forall j, a <= j < length don -> nth_error (map (@lc_title T) all) j = nth_error (map (@lc_title T) all) a) ->
  exists ts, make_titles all rest (length don) (seq a (length don - a) :: before) = Ret (rev before ++ ts) /\ runs_from (map (@lc_title T) all) a ts.
Proof.
  induction rest as [|c rest IH]; intros don a before Hall Ha Hs.
  - cbn [make_titles]. rewrite app_nil_r in Hall. subst don. exists [seq a (length all - a)]. split; [reflexivity|].
    rewrite <- (map_length (@lc_title T) all) in *. apply runs_cons; try lia; [exact Hs|constructor].
  - cbn [make_titles]. rewrite (idx_ret (seq a (length don - a)) 0 (a := a)) by (destruct (length don - a) eqn:E; [lia|reflexivity]). rewrite bind_ret.
    assert (La : a < length all) by (rewrite Hall, app_length; lia).
    destruct (@idx_lt _ all a La) as (f & Ef). rewrite Ef, bind_ret. apply idx_inv in Ef.
    assert (Ec : nth_error all (length don) = Some c) by (rewrite Hall, nth_error_app2, Nat.sub_diag by lia; reflexivity).
    assert (Hn : all = (don ++ [c]) ++ rest) by (rewrite <- app_assoc; exact Hall).
    assert (Hl : length (don ++ [c]) = length don + 1) by (rewrite app_length; reflexivity).
    destruct (str_eqb (lc_title f) (lc_title c)) eqn:Eq.
    + apply str_eqb_spec in Eq. rewrite <- Hl. replace (seq a (length don - a) ++ [length don]) with (seq a (length (don ++ [c]) - a)).
      2:{ rewrite Hl. replace (length don + 1 - a) with ((length don - a) + 1) by lia. rewrite seq_app. cbn. f_equal. f_equal. lia. }
      apply IH; [exact Hn|lia|]. intros j Hj. rewrite Hl in Hj. destruct (Nat.eq_dec j (length don)) as [->|]; [|apply Hs; lia].
      rewrite (map_nth_error (@lc_title T) _ _ Ec), (map_nth_error (@lc_title T) _ _ Ef). congruence.
    + destruct (IH (don ++ [c]) (length don) (seq a (length don - a) :: before) Hn) as (ts & E & R); [lia| |].
      { intros j Hj. replace j with (length don) by lia. reflexivity. }
      replace (length (don ++ [c]) - length don) with 1 in E by lia. cbn [seq] in E. rewrite <- Hl, E. cbn [rev]. rewrite <- app_assoc.
      eexists. split; [reflexivity|]. apply runs_cons; try assumption.
      * split; [exact Ha|]. rewrite map_length, Hall, app_length. lia.
      * intros _ H. rewrite (map_nth_error (@lc_title T) _ _ Ec), (map_nth_error (@lc_title T) _ _ Ef) in H. injection H as H. symmetry in H. apply str_eqb_spec in H. congruence.
Qed.
Lemma lv_new_spec T area (cols : list (ListViewColumn T)) k : exists ts,
  lv_new area cols k = Ret (mkLV ts cols [] area 0 k None 0 None None (gray 5)) /\ runs_from (map (@lc_title T) cols) 0 ts.
Proof.
  unfold lv_new. destruct cols as [|c cols]; [exists []; split; [reflexivity|constructor]|].
  destruct (@make_titles_spec T (c :: cols) cols [c] 0 [] eq_refl ltac:(cbn; lia)) as (ts & E & R).
  { intros j Hj. cbn in Hj. replace j with 0 by lia. reflexivity. }
  exists ts. split; [|exact R]. cbn [make_titles]. cbn [length seq Nat.sub rev app Nat.add] in *. rewrite E. reflexivity.
Qed.
Definition well_titled {T} (v : ListView T) : Prop := runs_from (map (@lc_title T) (columns v)) 0 (titles v).
Lemma widen_titles T (cols cols' : list (ListViewColumn T)) e : widen cols e = Ret cols' -> map (@lc_title T) cols' = map (@lc_title T) cols /\ map (@extract T) cols' = map (@extract T) cols.
Proof.
  revert e cols'. induction cols as [|c cols IH]; intros e cols' E; cbn [widen] in E; [injection E as <-; auto|].
  apply bind_Ret_inv in E as (? & _ & E). apply bind_Ret_inv in E as (? & _ & E). apply bind_Ret_inv in E as (? & _ & E). apply bind_Ret_inv in E as (rest & Er & E).
  injection E as <-. destruct (IH _ _ Er) as [E1 E2]. cbn. rewrite E1, E2. auto.
Qed.
Lemma titles_kept T (v v' : ListView T) o : lv_apply v o = Ret v' ->
  titles v' = titles v /\ map (@lc_title T) (columns v') = map (@lc_title T) (columns v) /\ map (@extract T) (columns v') = map (@extract T) (columns v) /\ lv_skin v' = lv_skin v.
Proof.
  intros E. assert (Hn : nav o -> titles v' = titles v /\ columns v' = columns v /\ lv_skin v' = lv_skin v) by (intros Hnav; destruct (@nav_same _ _ _ _ Hnav E) as (s & sel & ->); auto).
  destruct o; try (destruct (Hn I) as (-> & -> & ->); auto); cbn in E; try (injection E as <-; auto).
  - rewrite add_row_eq_full. auto.
  - unfold update_dimensions in E. apply bind_Ret_inv in E as (s & _ & E). destruct (_ <=? _)%Z.
    + injection E as <-. cbn. rewrite !map_map. auto.
    + apply bind_Ret_inv in E as (e & _ & E). apply bind_Ret_inv in E as (c & Ec & E). injection E as <-. cbn. destruct (widen_titles _ _ Ec) as [-> ->]. auto.
Qed.
Lemma well_titled_run T area cols k (v0 v : ListView T) ops : lv_new area cols k = Ret v0 -> lv_run v0 ops = Ret v -> well_titled v.
Proof.
  intros H0. destruct (lv_new_spec area cols k) as (ts & E0 & R). rewrite E0 in H0. injection H0 as <-. revert v. induction ops as [|o ops IH] using rev_ind; intros v E.
  - injection E as <-. exact R.
  - apply run_snoc in E as (w & Ew & E). specialize (IH w Ew). apply titles_kept in E as (E1 & E2 & _). unfold well_titled. rewrite E1, E2. exact IH.
Qed.
(** every run is there *)
Lemma runs_complete ts i l : runs_from ts i l -> forall a b, title_run ts a b -> i <= a -> exists q, nth_error l q = Some (seq a (b - a)).
Proof.
  induction 1 as [|a b l L Hs Hd R IH]; intros a' b' (Lr & Hr1 & Hr2 & Hr3) Hi; [lia|].
  destruct (Nat.lt_ge_cases a' b) as [L1|L1].
  - assert (a' = a). { destruct (Nat.eq_dec a' a) as [|N]; [assumption|]. exfalso. apply Hr2; [lia|]. rewrite (Hs a'), (Hs (a' - 1)) by lia. reflexivity. }
    subst a'. assert (b' = b); [|subst; exists 0; reflexivity]. destruct (Nat.lt_trichotomy b' b) as [L2|[L2|L2]]; [|exact L2|].
    + exfalso. apply Hr3; [lia|]. apply Hs. lia.
    + exfalso. apply Hd; [lia|]. apply Hr1. lia.
  - destruct (IH a' b') as (q & E); [split; auto|exact L1|]. exists (S q). exact E.
Qed.
Lemma runs_sound ts i l : runs_from ts i l -> (0 < i -> i < length ts -> nth_error ts (i - 1) <> nth_error ts i) -> forall g, In g l -> exists a b, g = seq a (b - a) /\ title_run ts a b /\ i <= a.
Proof.
  induction 1 as [|a b l L Hs Hd R IH]; intros Hi g Hg; [contradiction|]. destruct Hg as [<-|Hg].
  - exists a, b. split; [reflexivity|]. split; [|lia]. split; [exact L|]. split; [exact Hs|]. split; [intros Ha; apply Hi; lia|exact Hd].
  - destruct (IH) with (g := g) as (a' & b' & E & Hr & L'); [|exact Hg|].
    + intros _ Lb. rewrite (Hs (b - 1)) by lia. apply not_eq_sym, Hd, Lb.
    + exists a', b'. split; [exact E|]. split; [exact Hr|]. lia.
Qed.

(** ** Lines *)
Lemma map_out_ret A B (f : A -> outcome B) l l' : Forall2 (fun a b => f a = Ret b) l l' -> map_out f l = Ret l'.
Proof. induction 1 as [|a b l l' E F IH]; [reflexivity|]. cbn. rewrite E, bind_ret, IH. reflexivity. Qed.
Lemma map_out_idx A (l : list A) a k : a + k <= length l -> map_out (idx l) (seq a k) = Ret (sub l a k).
Proof.
  revert a. induction k as [|k IH]; intros a H; [reflexivity|]. cbn [seq map_out]. destruct (@idx_lt _ l a ltac:(lia)) as (x & E). rewrite E, bind_ret.
  rewrite IH by lia. rewrite bind_ret. apply idx_inv in E. apply split_nth in E as (l1 & l2 & -> & <-). unfold sub.
  rewrite skipn_cons_exact, skipn_app_exact by reflexivity. reflexivity.
Qed.
Lemma sub_nth A (l : list A) d a k : a + k <= length l -> sub l a k = map (fun j => nth j l d) (seq a k).
Proof.
  revert a. induction k as [|k IH]; intros a H; [reflexivity|]. cbn [seq map]. rewrite <- IH by lia. unfold sub.
  destruct (nth_error l a) as [x|] eqn:E; [|apply nth_error_None in E; lia]. rewrite (nth_error_nth _ _ d E).
  apply split_nth in E as (l1 & l2 & -> & <-). rewrite skipn_app_exact by reflexivity. rewrite skipn_cons_exact by reflexivity. reflexivity.
Qed.
Lemma map_sub A B (f : A -> B) l a k : map f (sub l a k) = sub (map f l) a k.
Proof. unfold sub. rewrite <- firstn_map. f_equal. symmetry. revert a. induction l as [|x l IH]; intros [|a]; cbn; auto. Qed.
Lemma sub_len A (l : list A) a k : a + k <= length l -> length (sub l a k) = k.
Proof. intros H. unfold sub. rewrite firstn_length, skipn_length. lia. Qed.
Lemma col_start_add ws a k : a + k <= length ws -> col_start ws (a + k) = col_start ws a + sum (map S (sub ws a k)).
Proof.
  intros H. unfold col_start, sub. rewrite <- (firstn_skipn a ws) at 1. rewrite firstn_app, firstn_length, Nat.min_l by lia.
  rewrite firstn_firstn, Nat.min_r by lia. replace (a + k - a) with k by lia. rewrite map_app, sum_app. reflexivity.
Qed.
Lemma col_start_all ws : ws <> [] -> col_start ws (length ws) = S (line_len ws).
Proof. intros H. unfold col_start, line_len. rewrite firstn_all, sum_S. destruct ws; [congruence|]. cbn [length]. lia. Qed.

Section Lines.
  Context {T : Type} (v : ListView T).
  Let ws := widths_of (columns v).
  Let tts := map (@lc_title T) (columns v).
  Let h0 := nth 0 (headers (lv_skin v)) ls_default.
  Context (Hh : headers (lv_skin v) <> []).
  Lemma len_ws : length ws = length tts.
  Proof. unfold ws, tts, widths_of. rewrite !map_length. reflexivity. Qed.
  Lemma len_cols : length tts = length (columns v).
  Proof. unfold tts. apply map_length. Qed.

  Lemma title_cmds_eq a b tt : a < b <= length tts -> nth_error tts a = Some tt ->
    title_cmds v (seq a (b - a)) = Ret (write_str (mkSpacing (col_start ws b - col_start ws a - 1) Center) tt (ls_cs h0)).
  Proof.
    intros L E. pose proof len_cols as Lc. pose proof len_ws as Lw. unfold title_cmds. rewrite map_out_idx by lia. rewrite bind_ret.
    rewrite map_sub. fold (widths_of (columns v)). fold ws.
    assert (S0 : col_start ws b = col_start ws a + sum (map S (sub ws a (b - a)))) by (rewrite <- col_start_add by lia; f_equal; lia).
    rewrite sum_S, sub_len in S0 by lia. rewrite seq_length. rewrite csub_ret by lia. rewrite bind_ret.
    rewrite (idx_ret (seq a (b - a)) 0 (a := a)) by (destruct (b - a) eqn:E'; [lia|reflexivity]). rewrite bind_ret.
    destruct (@idx_lt _ (columns v) a ltac:(lia)) as (c & Ec). rewrite Ec, bind_ret. apply idx_inv in Ec.
    unfold tts in E. rewrite (map_nth_error _ _ _ Ec) in E. injection E as <-.
    unfold h0. destruct (headers (lv_skin v)) as [|h hs]; [congruence|]. rewrite (idx_ret (h :: hs) 0 (a := h)) by reflexivity. rewrite bind_ret.
    do 2 f_equal. f_equal. lia.
  Qed.
  Lemma write_str_drawn w al s cs : cell_drawn al w s cs (drawn (write_str (mkSpacing w al) s cs)) /\ length (drawn (write_str (mkSpacing w al) s cs)) = w.
  Proof.
    destruct (write_str_length (mkSpacing w al) s cs) as (t & E & L). rewrite E. cbn [drawn flat_map]. rewrite app_nil_r. split; [|rewrite map_length; exact L].
    unfold write_str in E. destruct (write_counted_str_spec (mkSpacing w al) s (length s) cs) as (t' & E' & H1 & H2). rewrite E' in E. injection E as ->.
    exists t. split; [reflexivity|]. split; [exact H1|]. intros H. destruct (H2 H) as (lp & rp & C & ->). exists lp, rp. split; [|reflexivity].
    apply completions_spec in C as (C1 & C2 & C3 & C4). split; [exact C1|]. destruct al; auto.
  Qed.
  Lemma titles_at i l : runs_from tts i l -> exists cs, map_out (title_cmds v) l = Ret cs
    /\ length cs = length l
    /\ (l <> [] -> sum (map S (map (fun c => length (drawn c)) cs)) + col_start ws i = col_start ws (length ws))
    /\ forall q a b, nth_error l q = Some (seq a (b - a)) -> a < b <= length tts ->
       exists tt c, nth_error tts a = Some tt /\ nth_error cs q = Some c
         /\ cell_drawn Center (col_start ws b - col_start ws a - 1) tt (ls_cs h0) (drawn c) /\ length (drawn c) = col_start ws b - col_start ws a - 1
         /\ sum (map S (map (fun c => length (drawn c)) (firstn q cs))) + col_start ws i = col_start ws a.
  Proof.
    induction 1 as [|a b l L Hs Hd R IH].
    - exists []. split; [reflexivity|]. split; [reflexivity|]. split; [congruence|]. intros [|q]; discriminate.
    - destruct IH as (cs & E & Lc & St & At). destruct (nth_error tts a) as [tt|] eqn:Et; [|apply nth_error_None in Et; lia].
      cbn [map_out]. rewrite (title_cmds_eq L Et), bind_ret, E, bind_ret. set (c := write_str _ tt _).
      destruct (write_str_drawn (col_start ws b - col_start ws a - 1) Center tt (ls_cs h0)) as [D1 D2]. fold c in D1, D2.
      pose proof len_ws as Lw.
      assert (S0 : col_start ws b = col_start ws a + sum (map S (sub ws a (b - a)))) by (rewrite <- col_start_add by lia; f_equal; lia).
      rewrite sum_S, sub_len in S0 by lia.
      exists (c :: cs). split; [reflexivity|]. split; [cbn; rewrite Lc; reflexivity|]. split.
      + intros _. cbn [map sum fold_right]. destruct l as [|g l].
        * destruct cs; [|discriminate]. inversion R; subst. cbn. rewrite D2. rewrite Lw. lia.
        * specialize (St ltac:(discriminate)). cbn in St |- *. unfold sum in *. rewrite D2. lia.
      + intros [|q] a' b' Eq Lq.
        * cbn in Eq. injection Eq as Eq. assert (a' = a /\ b' = b) as [-> ->].
          { assert (length (seq a (b - a)) = length (seq a' (b' - a'))) by congruence. rewrite !seq_length in H. destruct (b - a) eqn:E1; [lia|]. destruct (b' - a') eqn:E2; [lia|].
            cbn in Eq. injection Eq as -> _. lia. }
          exists tt, c. cbn. auto.
        * cbn in Eq. destruct (At q a' b' Eq Lq) as (tt' & c' & F1 & F2 & F3 & F4 & F5). exists tt', c'. split; [exact F1|]. split; [exact F2|]. split; [exact F3|]. split; [exact F4|].
          cbn [firstn map]. cbn [map sum fold_right]. unfold sum in *. rewrite D2. lia.
  Qed.

  (** the separator line *)
  Let cs := ls_cs (table (lv_skin v)).
  Let tag (j : nat) : char * CStyle :=
    if (0 <? j) && (match nth_error tts j, nth_error tts (j - 1) with Some a, Some b => str_eqb a b | _, _ => false end) then (c_tee, cs) else (c_cross, cs).
  Let rule (j : nat) : (char * CStyle) * list (char * CStyle) := (tag j, repeat (c_hbar, cs) (nth j ws 0)).
  Lemma hbars w : drawn (concat (repeat (sc_queue (sc_new cs c_hbar)) w)) = repeat (c_hbar, cs) w.
  Proof. induction w as [|w IH]; [reflexivity|]. cbn [repeat concat]. rewrite drawn_app, IH. reflexivity. Qed.
  Lemma separator_at i l : runs_from tts i l -> (0 < i -> i < length tts -> nth_error tts (i - 1) <> nth_error tts i) ->
    exists out, map_out (separator_cmds v) l = Ret out
      /\ body (map (fun c => ((c_cross, cs), drawn c)) out) = body (map rule (seq i (length tts - i))).
  Proof.
    induction 1 as [|a b l L Hs Hd R IH]; intros Hi.
    - exists []. rewrite Nat.sub_diag. split; reflexivity.
    - destruct IH as (out & E & B). { intros _ Lb. rewrite (Hs (b - 1)) by lia. apply not_eq_sym, Hd, Lb. }
      pose proof len_cols as Lc. pose proof len_ws as Lw. cbn [map_out]. unfold separator_cmds at 1. fold cs. rewrite map_out_idx by lia. rewrite bind_ret. cbn [bind]. rewrite E, bind_ret.
      eexists. split; [reflexivity|]. cbn [map]. replace (length tts - a) with ((b - a) + (length tts - b)) by lia. rewrite seq_app, map_app, body_app.
      replace (a + (b - a)) with b by lia. rewrite <- B. change (body (?x :: ?y)) with (body ([x] ++ y)). rewrite body_app. f_equal.
      cbn [body flat_map fst snd]. rewrite app_nil_r. rewrite (@drawn_join _ _ (c_tee, cs)) by reflexivity. rewrite map_map, join_pieces.
      assert (Em : map (fun x => drawn (concat (repeat (sc_queue (sc_new cs c_hbar)) (N.to_nat (lc_width x))))) (sub (columns v) a (b - a)) = map (fun j => repeat (c_hbar, cs) (nth j ws 0)) (seq a (b - a))).
      { rewrite <- (map_map (fun j => nth j ws 0) (fun w => repeat (c_hbar, cs) w)). rewrite <- (@sub_nth _ ws 0) by lia. unfold ws, widths_of. rewrite <- map_sub, map_map.
        apply map_ext. intros c. apply hbars. }
      rewrite Em. clear Em. destruct (b - a) as [|k] eqn:Ek; [lia|]. cbn [seq map]. change (body (rule a :: ?r)) with (tag a :: repeat (c_hbar, cs) (nth a ws 0) ++ body r). cbn [pieces snd]. apply f_equal2; [|apply f_equal].
      + unfold tag. destruct (Nat.ltb_spec 0 a) as [La|La]; [|reflexivity]. cbn [andb]. specialize (Hi La ltac:(lia)).
        destruct (nth_error tts a) as [x|]; [|reflexivity]. destruct (nth_error tts (a - 1)) as [y|]; [|reflexivity].
        destruct (str_eqb x y) eqn:Eq; [|reflexivity]. apply str_eqb_spec in Eq. congruence.
      + rewrite !map_map. assert (Hj : forall j, In j (seq (S a) k) -> ((c_tee, cs), repeat (c_hbar, cs) (nth j ws 0)) = rule j).
        { intros j Hj. apply in_seq in Hj. unfold rule. f_equal. unfold tag. rewrite (proj2 (Nat.ltb_lt 0 j)) by lia. cbn [andb]. rewrite (Hs j), (Hs (j - 1)) by lia.
          destruct (nth_error tts a) as [x|] eqn:E1; [|apply nth_error_None in E1; lia]. rewrite (proj2 (str_eqb_spec x x) eq_refl). reflexivity. }
        clear - Hj. induction (seq (S a) k) as [|j l IH]; [reflexivity|]. cbn [map]. rewrite (Hj j) by (left; reflexivity). change (body (?x :: ?r)) with (body ([x] ++ r)). rewrite !body_app. rewrite IH by (intros; apply Hj; right; assumption). reflexivity.
  Qed.
  Lemma pieces_tl A (l : list (A * list A)) : pieces l = tl (body l).
  Proof. destruct l as [|[s p] r]; reflexivity. Qed.
  Lemma separator_line_eq : well_titled v -> exists out, separator_line v = Ret out /\ drawn out = pieces (map rule (seq 0 (length tts))).
  Proof.
    intros R. destruct (separator_at R) as (out & E & B); [lia|]. unfold separator_line. fold cs. rewrite E, bind_ret. eexists. split; [reflexivity|].
    rewrite (@drawn_join _ _ (c_cross, cs)) by reflexivity. rewrite join_pieces, map_map, !pieces_tl, B, Nat.sub_0_r. reflexivity.
  Qed.
  Lemma rule_widths : map (fun sp => length (snd sp)) (map rule (seq 0 (length tts))) = ws.
  Proof.
    rewrite map_map. rewrite <- len_ws. assert (E : sub ws 0 (length ws) = ws) by (unfold sub; cbn; apply firstn_all). rewrite <- E at 2. rewrite (@sub_nth _ ws 0) by lia.
    apply map_ext. intros j. unfold rule. cbn [snd]. apply repeat_length.
  Qed.
  Lemma rule_nth j : j < length tts -> nth_error (map rule (seq 0 (length tts))) j = Some (rule j).
  Proof. intros H. apply (map_nth_error rule). rewrite seq_nth_error by exact H. reflexivity. Qed.

  (** the rows *)
  Lemma row_drawn selected d : drawn (row_cmds v selected d) =
    pieces (map (fun c => ((c_vbar, cs), drawn (write_counted_str (lc_spacing c) (con (extract c d)) (cell_width (extract c d))
       (if selected : bool then cs_set_bg (cell_style (extract c d)) (selection_background v) else cell_style (extract c d))))) (columns v)).
  Proof.
    unfold row_cmds. rewrite (@drawn_join _ _ (c_vbar, cs)) by (destruct selected; reflexivity). rewrite join_pieces, !map_map. reflexivity.
  Qed.
End Lines.

(** ** Drawing *)
Lemma skipn_nth_cons A (l : list A) i x : nth_error l i = Some x -> skipn i l = x :: skipn (S i) l.
Proof. intros E. apply split_nth in E as (l1 & l2 & -> & <-). rewrite skipn_app_exact by reflexivity. rewrite skipn_cons_exact by reflexivity. reflexivity. Qed.
Definition later {T} (v : ListView T) (i : nat) : list nat := List.filter (displayed_b v) (seq i (length (rows v) - i)).
Definition row_out {T} (v : ListView T) (o : option nat) : list cmd :=
  match o with
  | None => [ClearUntilNewLine]
  | Some j => match nth_error (rows v) j with
              | Some r => row_cmds v (match selection v with Some s => s =? j | None => false end) (data r)
              | None => []
              end
  end.
Lemma later_step T (v : ListView T) i r : nth_error (rows v) i = Some r -> later v i = if displayed r then i :: later v (S i) else later v (S i).
Proof.
  intros E. assert (i < length (rows v)) by (apply nth_error_Some; congruence). unfold later. replace (length (rows v) - i) with (S (length (rows v) - S i)) by lia.
  cbn [seq List.filter]. unfold displayed_b at 1. rewrite E. reflexivity.
Qed.
Lemma next_row_spec T (v : ListView T) : forall k i, length (rows v) - i = k -> i <= length (rows v) ->
  exists i', next_row v (skipn i (rows v)) i = (row_out v (hd_error (later v i)), i') /\ i' <= length (rows v) /\ later v i' = tl (later v i).
Proof.
  induction k as [|k IH]; intros i Hk Hi.
  - rewrite skipn_all2 by lia. exists i. unfold later. rewrite Hk. cbn. split; [reflexivity|]. split; [exact Hi|reflexivity].
  - destruct (nth_error (rows v) i) as [r|] eqn:E; [|apply nth_error_None in E; lia]. rewrite (skipn_nth_cons _ _ E). cbn [next_row]. rewrite (later_step _ _ E).
    destruct (displayed r).
    + exists (i + 1). cbn [hd_error tl row_out]. rewrite E. split; [reflexivity|]. split; [lia|]. rewrite Nat.add_1_r. reflexivity.
    + rewrite Nat.add_1_r. apply IH; lia.
Qed.
Definition bar_out {T} (v : ListView T) (sb : option (N * N)) (sx : N) (j : nat) : list cmd :=
  match sb with
  | Some (t, b) => [MoveTo sx (a_top (lv_area v) + 2 + N.of_nat j)%N]
      ++ (if ((t <=? N.of_nat j) && (N.of_nat j <=? b))%N then sc_queue (thumb (scrollbar (lv_skin v))) else sc_queue (track (scrollbar (lv_skin v))))
  | None => []
  end.
Definition line_out {T} (v : ListView T) sb sx j o : list cmd :=
  MoveTo (a_left (lv_area v)) (a_top (lv_area v) + 2 + N.of_nat j)%N :: row_out v o ++ bar_out v sb sx j.
Lemma row_lines_spec T (v : ListView T) sx sb : forall n j i, (a_top (lv_area v) + 2 + N.of_nat (j + n) <= U16)%N -> i <= length (rows v) ->
  row_lines v sx sb (2 + N.of_nat j) n i = Ret (flat_map (fun q => line_out v sb sx (j + q) (nth_error (later v i) q)) (seq 0 n)).
Proof.
  induction n as [|n IH]; intros j i Ht Hi; [reflexivity|]. cbn [row_lines].
  assert (Ea : add16 (a_top (lv_area v)) (2 + N.of_nat j) = Ret (a_top (lv_area v) + 2 + N.of_nat j)%N).
  { unfold add16. destruct (N.ltb_spec (a_top (lv_area v) + (2 + N.of_nat j)) U16); [f_equal; lia|lia]. }
  rewrite Ea, bind_ret. unfold next_row_at. rewrite (proj2 (Nat.leb_le _ _) Hi). destruct (@next_row_spec T v _ i eq_refl Hi) as (i' & En & Hi' & Hl). rewrite En, bind_ret. cbv beta iota.
  replace (2 + N.of_nat j + 1)%N with (2 + N.of_nat (S j))%N by lia. rewrite (IH (S j) i') by (try exact Hi'; lia). rewrite bind_ret. f_equal.
  change (seq 0 (S n)) with (0 :: seq 1 n). cbn [flat_map]. rewrite Nat.add_0_r. unfold line_out at 2. rewrite <- app_comm_cons. apply f_equal. rewrite <- app_assoc.
  apply f_equal2; [destruct (later v i); reflexivity|]. apply f_equal2.
  - unfold bar_out. destruct sb as [[t b]|]; [|reflexivity]. cbn [app]. replace (2 + N.of_nat j - 2)%N with (N.of_nat j) by lia. reflexivity.
  - rewrite Hl. rewrite <- seq_shift. rewrite !flat_map_concat_map, map_map. f_equal. apply map_ext. intros q. rewrite Nat.add_succ_comm. destruct (later v i); [destruct q; reflexivity|reflexivity].
Qed.
