(** * Exact conditions: the areas (C49), the scrollbars (C42), the text views (C66), the columns (C46), the code blocks (C34) *)
From Verif Require Import Base L_Base Demo M_Style M_Fit S_Fit L_Fit M_F64 M_View S_View L_View P_View M_List P_List.
Set Implicit Arguments.
Open Scope N_scope.

(** ** C49 *)

(** Asking whether an area contains a cell panics exactly when an edge has to be computed which isn't a [u16]. There's no wrong answer. *)
Theorem C49_contains_exact : forall a x y,
  (contains a x y = Panic <-> a_left a <= x /\ (65536 <= a_left a + a_width a
     \/ (x < a_left a + a_width a /\ a_top a <= y /\ 65536 <= a_top a + a_height a)))
  /\ (contains a x y <> Panic -> exists b, contains a x y = Ret b /\ (b = true <-> cell_in a x y)).
Proof.
  intros a x y. unfold contains, cell_in, add16, U16.
  destruct (N.leb_spec (a_left a) x); cbn [negb]; [|split; [split; [discriminate|lia]|exists false; split; [reflexivity|split; [discriminate|lia]]]].
  destruct (N.ltb_spec (a_left a + a_width a) 65536); cbn [bind]; [|split; [split; [lia|reflexivity]|congruence]].
  destruct (N.ltb_spec x (a_left a + a_width a)); cbn [negb]; [|split; [split; [discriminate|lia]|exists false; split; [reflexivity|split; [discriminate|lia]]]].
  destruct (N.leb_spec (a_top a) y); cbn [negb]; [|split; [split; [discriminate|lia]|exists false; split; [reflexivity|split; [discriminate|lia]]]].
  destruct (N.ltb_spec (a_top a + a_height a) 65536); cbn [bind]; [|split; [split; [lia|reflexivity]|congruence]].
  split; [split; [discriminate|lia]|]. intros _. eexists. split; [reflexivity|]. lia.
Qed.
Print Assumptions C49_contains_exact.
(** An area which reaches the last row can be asked about a cell at its right *)
Example C49_contains_exact_example : contains (mkArea 3 65530 4 6) 9 65533 = Ret false /\ contains (mkArea 3 65530 4 6) 5 65533 = Panic
  /\ contains (mkArea 3 65530 4 6) 5 3 = Ret false.
Proof. repeat split. Qed.
(** The edges are given exactly when they are [u16]s *)
Theorem C49_edges_exact : forall a,
  (right a = Panic <-> 65536 <= a_left a + a_width a) /\ (bottom a = Panic <-> 65536 <= a_top a + a_height a)
  /\ (forall r, right a = Ret r -> r = a_left a + a_width a) /\ (forall b, bottom a = Ret b -> b = a_top a + a_height a).
Proof.
  intros a. unfold right, bottom, add16, U16. destruct (N.ltb_spec (a_left a + a_width a) 65536); destruct (N.ltb_spec (a_top a + a_height a) 65536);
    (split; [split; [discriminate||lia|lia||reflexivity]|]); (split; [split; [discriminate||lia|lia||reflexivity]|]); split; congruence.
Qed.
Print Assumptions C49_edges_exact.
(** An area can be padded exactly when there's room for the padding and the new corner is made of [u16]s. What's got is in any case the area
    without the cells at less than the padding from the borders. *)
Theorem C49_pad_exact : forall a dx dy, a_width a < 65536 -> a_height a < 65536 ->
  (pad a dx dy = Panic <-> ~ (a_left a + dx < 65536 /\ a_top a + dy < 65536 /\ 2 * dx <= a_width a /\ 2 * dy <= a_height a))
  /\ (forall p, pad a dx dy = Ret p -> inside p a
      /\ (forall x y, cell_in p x y <->
            (a_left a + dx <= x /\ x + dx < a_left a + a_width a) /\ (a_top a + dy <= y /\ y + dy < a_top a + a_height a))
      /\ a_width p + 2 * dx = a_width a /\ a_height p + 2 * dy = a_height a).
Proof.
  intros a dx dy Hw Hh. unfold pad, add16, mul16, sub16, U16.
  destruct (N.ltb_spec (a_left a + dx) 65536); cbn [bind]; [|split; [split; [lia|reflexivity]|discriminate]].
  destruct (N.ltb_spec (a_top a + dy) 65536); cbn [bind]; [|split; [split; [lia|reflexivity]|discriminate]].
  destruct (N.ltb_spec (2 * dx) 65536); cbn [bind]; [|split; [split; [lia|reflexivity]|discriminate]].
  destruct (N.leb_spec (2 * dx) (a_width a)); cbn [bind]; [|split; [split; [lia|reflexivity]|discriminate]].
  destruct (N.ltb_spec (2 * dy) 65536); cbn [bind]; [|split; [split; [lia|reflexivity]|discriminate]].
  destruct (N.leb_spec (2 * dy) (a_height a)); cbn [bind]; [|split; [split; [lia|reflexivity]|discriminate]].
  split; [split; [discriminate|lia]|]. intros p E. apply (f_equal (fun o => match o with Ret x => x | _ => a end)) in E. rewrite <- E. unfold inside, cell_in. cbn [a_left a_top a_width a_height].
  split; [intros; lia|]. split; [intros; lia|lia].
Qed.
Print Assumptions C49_pad_exact.
Example C49_pad_exact_example : pad (mkArea 65000 2 600 9) 300 4 = Ret (mkArea 65300 6 0 1) /\ pad (mkArea 65300 2 600 9) 300 4 = Panic /\ pad (mkArea 5 2 600 9) 300 5 = Panic.
Proof. repeat split. Qed.
(** Padding for a maximal width panics exactly when the new left column isn't a [u16] *)
Theorem C49_max_width_exact : forall a m,
  (pad_for_max_width a m = Panic <-> m < a_width a /\ 65536 <= a_left a + (a_width a - m) / 2)
  /\ (forall p, pad_for_max_width a m = Ret p -> inside p a
      /\ a_width p = N.min (a_width a) m /\ a_top p = a_top a /\ a_height p = a_height a
      /\ (let before := a_left p - a_left a in
          let after := a_left a + a_width a - (a_left p + a_width p) in before <= after <= before + 1)).
Proof.
  intros a m. unfold pad_for_max_width. destruct (N.leb_spec (a_width a) m) as [L|L].
  - split; [split; [discriminate|lia]|]. intros p E. injection E as <-. unfold inside. split; [auto|]. cbv zeta. lia.
  - rewrite sub16_ret by lia. cbn [bind]. pose proof (N.div_mod (a_width a - m) 2 ltac:(lia)). pose proof (N.mod_lt (a_width a - m) 2 ltac:(lia)).
    revert H H0. generalize ((a_width a - m) mod 2) ((a_width a - m) / 2). intros r q E1 E2.
    unfold add16, U16. destruct (N.ltb_spec (a_left a + q) 65536); cbn [bind]; [|split; [split; [lia|reflexivity]|discriminate]].
    rewrite sub16_ret by lia. cbn [bind]. split; [split; [discriminate|lia]|]. intros p E. injection E as <-.
    unfold inside, cell_in. cbn [a_left a_top a_width a_height]. cbv zeta. repeat split; try lia.
Qed.
Print Assumptions C49_max_width_exact.
Example C49_max_width_exact_example : pad_for_max_width (mkArea 65500 2 60 9) 11 = Ret (mkArea 65524 2 11 9) /\ pad_for_max_width (mkArea 65500 2 100 9) 11 = Panic.
Proof. split; reflexivity. Qed.

(** ** C42 *)

(** When the scrollbar of a text is computed, it's there exactly when the number of lines, as a [u16], is over the height: it's wrong
    exactly for the texts of at least 65536 lines whose number of lines, as a [u16], isn't over the height. *)
Theorem C42_exact : forall A (v : TextView A) sb, show_scrollbar v = true -> tv_height v < 65536 -> tv_scrollbar v = Ret sb ->
  (sb <> None <-> tv_height v < tv_len v mod 65536)
  /\ ((sb <> None <-> tv_height v < tv_len v) <-> ~ (65536 <= tv_len v /\ tv_len v mod 65536 <= tv_height v)).
Proof.
  intros A v sb Hs Hh E. unfold tv_scrollbar in E. rewrite Hs in E. unfold area_scrollbar in E. change (content_height v) with (tv_len v) in E.
  fold (tv_height v) in E. unfold U16 in E.
  assert (B : sb <> None <-> tv_height v < tv_len v mod 65536).
  { destruct (N.le_gt_cases (tv_len v mod 65536) (tv_height v)) as [L|L].
    - rewrite (proj2 (C39_none_iff_fits _ _ _ _ _) L) in E. injection E as <-. split; [congruence|lia].
    - split; [intros; exact L|]. intros _ ->. apply C39_none_iff_fits in E. lia. }
  split; [exact B|]. rewrite B. destruct (N.lt_ge_cases (tv_len v) 65536) as [L|L].
  - rewrite N.mod_small by exact L. split; [lia|tauto].
  - revert B. generalize (tv_len v mod 65536). intros m _. split; [intros H; lia|intros; lia].
Qed.
Print Assumptions C42_exact.
Definition tall (n h : N) (s : N) : TextView unit := mkTV (mkArea 0 0 80 h) (repeat tt (N.to_nat n)) skin_default s true.
Lemma tall_len n h s : tv_len (tall n h s) = n.
Proof. unfold tv_len, tall. cbn [tv_lines]. rewrite repeat_length. lia. Qed.
(** The scrollbar of 65600 lines on 50 rows is there, as if there were 64 lines *)
Example C42_exact_example : tv_scrollbar (tall 65600 50 10) = Ret (Some (7, 46)) /\ tv_len (tall 65600 50 10) mod 65536 = 64.
Proof. unfold tv_scrollbar, area_scrollbar. change (content_height (tall 65600 50 10)) with (tv_len (tall 65600 50 10)). rewrite tall_len. split; reflexivity. Qed.
(** Texts of 131333 lines on 260 rows, scrolled of 131071 lines: the row of the thumb isn't a [u16] *)
Example C42_panic_example : tv_ok (tall 131333 260 131071) /\ on_screen (tv_area (tall 131333 260 131071)) /\ tv_scrollbar (tall 131333 260 131071) = Panic.
Proof.
  split; [|split; [split; reflexivity|]].
  - unfold tv_ok, scroll_ok. rewrite tall_len. vm_compute. discriminate.
  - unfold tv_scrollbar, area_scrollbar. change (content_height (tall 131333 260 131071)) with (tv_len (tall 131333 260 131071)). rewrite tall_len. reflexivity.
Qed.

(** ** C66 *)

Lemma rows_panic A (render : A -> nat -> outcome (list cmd)) v w sb : (forall l, exists c, render l w = Ret c) -> a_top (tv_area v) < 65536 ->
  forall n j lines, 65536 < a_top (tv_area v) + j + N.of_nat n -> a_top (tv_area v) + j <= 65536 -> tv_write_rows render v w sb lines j n = Panic.
Proof.
  intros Hr Ht. induction n as [|n IH]; intros j lines Hn Hj; [lia|]. cbn [tv_write_rows]. unfold add16, U16.
  destruct (N.ltb_spec (a_top (tv_area v) + j) 65536) as [L|L]; [|reflexivity]. cbn [bind].
  destruct lines as [|l rest].
  - destruct (filling_styled_spec 32%N (ls_cs (paragraph (tv_skin v))) w) as (c & Ec & _). unfold SPACE_FILLING, c_space. rewrite Ec. cbn [bind]. rewrite IH by lia. reflexivity.
  - destruct (Hr l) as (c & Ec). rewrite Ec. cbn [bind]. rewrite IH by lia. reflexivity.
Qed.
(** Drawing a text view panics exactly when there's a scrollbar but no column, or when a row of the area isn't a [u16] *)
Theorem C66_exact : forall A (render : A -> nat -> outcome (list cmd)) v sb, (forall l w, exists c, render l w = Ret c) ->
  a_top (tv_area v) < 65536 -> tv_scrollbar v = Ret sb ->
  (tv_write_on render v = Panic <-> (sb <> None /\ a_width (tv_area v) = 0) \/ 65536 < a_top (tv_area v) + tv_height v)
  /\ (tv_write_on render v <> Panic -> exists w rows, tv_write_on render v = Ret (concat rows)
      /\ length rows = N.to_nat (tv_height v)
      /\ forall j row, nth_error rows j = Some row -> row_ok render v w sb (N.of_nat j) row).
Proof.
  intros A render v sb Hr Ht Hsb. unfold tv_write_on. rewrite Hsb. cbn [bind].
  set (w := match sb with Some _ => a_width (tv_area v) - 1 | None => a_width (tv_area v) end).
  destruct (match sb with Some _ => a_width (tv_area v) =? 0 | None => false end) eqn:D.
  - destruct sb as [p|]; [|discriminate]. apply N.eqb_eq in D. rewrite D. change (subN 0 1) with (@Panic N). cbn [bind].
    split; [split; [intros _; left; split; [discriminate|reflexivity]|reflexivity]|congruence].
  - assert (E : (if match sb with Some _ => true | None => false end then subN (a_width (tv_area v)) 1 else Ret (a_width (tv_area v))) = Ret w).
    { unfold w. destruct sb; [|reflexivity]. apply N.eqb_neq in D. rewrite subN_ret by lia. reflexivity. }
    rewrite E. cbn [bind].
    assert (D' : ~ (sb <> None /\ a_width (tv_area v) = 0)) by (intros (D1 & D2); destruct sb; [rewrite D2 in D; discriminate|congruence]).
    destruct (N.le_gt_cases (a_top (tv_area v) + tv_height v) 65536) as [L|L].
    + destruct (@rows_spec A render v w sb (fun l _ => Hr l (N.to_nat w))) with (n := N.to_nat (tv_height v)) (j := 0) as (rows & Er & Hl & Hrows).
      * unfold w. destruct sb; [apply N.eqb_neq in D|]; lia.
      * lia.
      * rewrite N.add_0_r in Er. fold (tv_height v). rewrite Er. split; [split; [discriminate|intros [X|X]; [tauto|lia]]|]. intros _. exists w, rows. split; [reflexivity|]. split; [exact Hl|].
        intros j row Hj. apply (Hrows j row Hj).
    + fold (tv_height v). rewrite (@rows_panic A render v (N.to_nat w) sb) by (try lia; auto). split; [split; auto|congruence].
Qed.
Print Assumptions C66_exact.
(** An area whose last row is the last [u16] is drawn; one row more and it isn't *)
Example C66_exact_example : let r (l : unit) (w : nat) := Ret [Print [65]] in
  map (fun h => match tv_write_on r (mkTV (mkArea 0 65533 9 h) (repeat tt 2) skin_default 0 true) with Ret l => Some (length l) | _ => None end) [3; 4] = [Some 6%nat; None].
Proof. vm_compute. reflexivity. Qed.

(** ** C46 *)

Definition i32_bounds {T} (c : ListViewColumn T) : Prop := lc_min c < 2147483648 /\ lc_max c < 2147483648.
Lemma widen_panic T (cols : list (ListViewColumn T)) excess : Forall i32_bounds cols -> (0 <= excess < 2147483648)%Z -> Exists (fun c => lc_max c < lc_min c) cols -> widen cols excess = Panic.
Proof.
  intros F. revert excess. induction F as [|c cols [H1 H2] F IH]; intros ex He X; [inversion X|]. cbn [widen]. unfold subN.
  destruct (N.leb_spec (lc_min c) (lc_max c)) as [L|L]; [|reflexivity]. cbn [bind].
  assert (X' : Exists (fun c => lc_max c < lc_min c) cols) by (inversion X; subst; [lia|assumption]). clear X.
  rewrite as_i32_small by lia. set (d := Z.min (Z.of_N (lc_max c - lc_min c)) ex). assert (Hd : (0 <= d <= ex)%Z) by lia. rewrite i32_ok by lia. cbn [bind].
  destruct (_ <? _); [|reflexivity]. cbn [bind]. rewrite (IH (ex - d)%Z) by (auto; lia). reflexivity.
Qed.
Lemma sum_mins T (cols : list (ListViewColumn T)) acc : Forall i32_bounds cols -> (0 <= acc)%Z -> (acc + total (@lc_min T) cols < 2147483648)%Z ->
  sum_i32 (map (fun c => as_i32 (lc_min c)) cols) acc = Ret (acc + total (@lc_min T) cols)%Z.
Proof.
  intros F. revert acc. induction F as [|c cols [H1 H2] F IH]; intros acc Ha Hs; cbn [map sum_i32]; [f_equal; cbn; lia|].
  rewrite total_cons in *. pose proof (total_nonneg (@lc_min T) cols).
  rewrite as_i32_small by lia. rewrite i32_ok by lia. cbn [bind]. rewrite IH by lia. f_equal. lia.
Qed.
(** Giving their widths to columns panics exactly when there's more place than what they all need and one of them has its bounds in disorder;
    without more place, they all have their minimal width, whatever the maximal ones. *)
Theorem C46_exact : forall T (v : ListView T), Forall i32_bounds (columns v) -> (total (@lc_min T) (columns v) < 2147483648)%Z -> a_width (lv_area v) < 65536 ->
  let available := (Z.of_N (a_width (lv_area v)) - Z.of_nat (length (columns v) - 1) - 1)%Z in
  columns v <> [] ->
  (update_dimensions v = Panic <-> (total (@lc_min T) (columns v) < available)%Z /\ Exists (fun c => lc_max c < lc_min c) (columns v))
  /\ ((available <= total (@lc_min T) (columns v))%Z -> exists cols, update_dimensions v = Ret (with_columns v cols)
      /\ Forall2 (fun c c' => c' = set_width c (lc_min c)) (columns v) cols).
Proof.
  intros T v F Hs Hw av Hne. unfold update_dimensions. rewrite sum_mins by (auto; lia). cbn [bind]. rewrite Z.add_0_l.
  replace (Z.of_N (a_width (lv_area v)) - (Z.of_nat (length (columns v)) - 1) - 1)%Z with av by (unfold av; destruct (columns v); [congruence|cbn [length]; lia]).
  assert (H0 : (0 <= total (@lc_min T) (columns v))%Z) by apply total_nonneg.
  destruct (Z.leb_spec av (total (@lc_min T) (columns v))) as [L|L].
  - split; [split; [discriminate|lia]|]. intros _. eexists. split; [reflexivity|]. clear. induction (columns v); constructor; auto.
  - split; [|lia]. rewrite i32_ok by lia. cbn [bind]. split.
    + intros E. split; [exact L|]. destruct (Exists_dec (fun c => lc_max c < lc_min c) (columns v)) as [X|X]; [intros c; destruct (N.ltb (lc_max c) (lc_min c)) eqn:Q; [left|right]; lia|exact X|].
      exfalso. destruct (@widen_ok T (columns v) (av - total (@lc_min T) (columns v))%Z) as (cols & Ec & _); [|lia|rewrite Ec in E; discriminate].
      clear - F X. apply Forall_forall. intros c Hc. rewrite Forall_forall in F. destruct (F c Hc) as (B1 & B2). split; [|exact B2]. destruct (N.le_gt_cases (lc_min c) (lc_max c)) as [Q|Q]; [exact Q|].
      destruct X. apply Exists_exists. exists c. split; assumption.
    + intros (_ & X). rewrite widen_panic by (auto; lia). reflexivity.
Qed.
Print Assumptions C46_exact.
(** In an area of 12 columns, a column of at least 5 and at most 3, and another one: it panics only with more place than the minimal widths *)
Example C46_exact_example :
  map (fun w => match lv_new (mkArea 0 0 20 10) [column_new [65]%N 5 3 (fun n => cell_new [n] cs_default); column_new [66]%N 4 9 (fun n => cell_new [n] cs_default)] skin_default with
    | Ret v => match update_dimensions (with_area v (mkArea 0 0 w 10)) with Ret v' => map (@lc_width N) (columns v') | _ => [] end | _ => [0] end) [9; 11; 12]
  = [[5; 4]; [5; 4]; []].
Proof. vm_compute. reflexivity. Qed.
