(** * Lemmas for input fields *)
From Verif Require Import Base L_Base M_Style M_Fit S_Fit L_Fit M_View S_View L_View M_Content S_Content L_Content L_Content2 L_Content3 M_Input S_Input.
Set Implicit Arguments.
Open Scope nat_scope.

Lemma Ret_inj {A} (a b : A) : Ret a = Ret b -> a = b. Proof. congruence. Qed.
Lemma columns_nil u : columns u [] = 0. Proof. reflexivity. Qed.
Lemma columns_cons u c l : columns u (c :: l) = columns u [c] + columns u l.
Proof. unfold columns. cbn. lia. Qed.
Lemma columns_app u a b : columns u (a ++ b) = columns u a + columns u b.
Proof. unfold columns. rewrite map_app, sum_app. reflexivity. Qed.
Lemma columns_one u c : columns u [c] = char_width u c.
Proof. unfold columns, char_width. cbn. lia. Qed.
Lemma line_width_columns u l : line_width u l = columns u l.
Proof. rewrite columns_char_width. reflexivity. Qed.
Lemma columns_firstn_le u i l : columns u (firstn i l) <= columns u l.
Proof. rewrite <- (firstn_skipn i l) at 2. rewrite columns_app. lia. Qed.
Lemma columns_firstn_mono u i j l : i <= j -> columns u (firstn i l) <= columns u (firstn j l).
Proof. intros. replace (firstn i l) with (firstn i (firstn j l)) by (rewrite firstn_firstn; f_equal; lia). apply columns_firstn_le. Qed.

(** ** The scroll *)

Lemma fix_scroll_y_spec focus h len y sy : y < len ->
  exists s, fix_scroll_y focus h len y sy = Ret s
  /\ (len <= h -> s = 0)
  /\ (h < len -> s <= len - h \/ (h = 0 /\ s <= len))
  /\ (h < len -> focus = false -> s = Nat.min sy (len - h))
  /\ (h < len -> focus = true -> let t := Nat.min sy (len - h) in
        (t <= y < t + h -> s = t)
        /\ (y < t -> s = if (0 <? y) && (4 <? h) then y - 1 else y)
        /\ (t + h <= y -> s = if y + 1 =? len then y + 1 - h else y - h)).
Proof.
  intros Hy. unfold fix_scroll_y. destruct (Nat.ltb_spec h len) as [L|L]; [|exists 0; repeat split; intros; lia].
  assert (E : (if len <? sy + h then csub len h else Ret sy) = Ret (Nat.min sy (len - h))).
  { destruct (Nat.ltb_spec len (sy + h)); [rewrite csub_ret by lia|]; f_equal; lia. }
  rewrite E, bind_ret. set (t := Nat.min sy (len - h)). cbv zeta. destruct focus.
  - destruct (Nat.ltb_spec y t).
    + eexists. split; [reflexivity|]. repeat split; intros; try discriminate; try lia; destruct ((0 <? y) && (4 <? h)); lia.
    + destruct (Nat.leb_spec (t + h) y).
      * rewrite csub_ret by lia. rewrite bind_ret. destruct (Nat.ltb_spec (y + 1) len).
        -- rewrite csub_ret by lia. eexists. split; [reflexivity|]. repeat split; intros; try discriminate; try lia.
           destruct (Nat.eqb_spec (y + 1) len); lia.
        -- eexists. split; [reflexivity|]. repeat split; intros; try discriminate; try lia.
           destruct (Nat.eqb_spec (y + 1) len); lia.
      * eexists. split; [reflexivity|]. repeat split; intros; try discriminate; lia.
  - eexists. split; [reflexivity|]. repeat split; intros; try discriminate; lia.
Qed.

(** The scroll before the last correction *)
Lemma fix_scroll_x_spec u focus w line x sx : x <= length line ->
  let lw := columns u line in let wpx := columns u (firstn x line) in
  exists s, fix_scroll_x u focus w line x sx = Ret s
  /\ (lw < w -> s = 0)
  /\ (w <= lw -> exists t, s = Nat.min t (lw + 1 - w)
        /\ (focus = false -> t = sx)
        /\ (focus = true -> 4 <= w -> (sx + 2 <= wpx <= sx + w - 2 -> t = sx)
              /\ (wpx < sx + 2 -> t = wpx - 2) /\ (sx + w - 2 < wpx -> t = wpx + 2 - w))
        /\ (focus = true -> w < 4 -> (x < 2 -> t = 0) /\ (2 <= x < sx + 1 -> t = x - 1)
              /\ (2 <= x -> sx + w < x -> t = x + 1 - w) /\ (2 <= x -> sx + 1 <= x <= sx + w -> t = sx))).
Proof.
  intros Hx lw wpx. unfold fix_scroll_x. rewrite line_width_columns. fold lw. cbv zeta.
  destruct (Nat.ltb_spec lw w) as [L|L]; [exists 0; repeat split; intros; lia|].
  assert (F : exists t, (if focus
      then if w <? 4
           then if x <? 2 then Ret 0 else if x <? sx + 1 then csub x 1 else if sx + w <? x then csub (x + 1) w else Ret sx
           else wpx0 <- char_idx_to_col u line x ;; (if wpx0 <? sx + 2 then if wpx0 <? 2 then Ret 0 else csub wpx0 2
                                                     else m <- csub (sx + w) 2 ;; (if m <? wpx0 then csub (wpx0 + 2) w else Ret sx))
      else Ret sx) = Ret t
        /\ (focus = false -> t = sx)
        /\ (focus = true -> 4 <= w -> (sx + 2 <= wpx <= sx + w - 2 -> t = sx)
              /\ (wpx < sx + 2 -> t = wpx - 2) /\ (sx + w - 2 < wpx -> t = wpx + 2 - w))
        /\ (focus = true -> w < 4 -> (x < 2 -> t = 0) /\ (2 <= x < sx + 1 -> t = x - 1)
              /\ (2 <= x -> sx + w < x -> t = x + 1 - w) /\ (2 <= x -> sx + 1 <= x <= sx + w -> t = sx))).
  { destruct focus; [|exists sx; repeat split; intros; discriminate || lia].
    destruct (Nat.ltb_spec w 4) as [W|W].
    - destruct (Nat.ltb_spec x 2); [exists 0; repeat split; intros; discriminate || lia|].
      destruct (Nat.ltb_spec x (sx + 1)); [rewrite csub_ret by lia; eexists; repeat split; intros; discriminate || lia|].
      destruct (Nat.ltb_spec (sx + w) x); [rewrite csub_ret by lia; eexists; repeat split; intros; discriminate || lia|].
      eexists; repeat split; intros; discriminate || lia.
    - unfold char_idx_to_col. destruct (Nat.leb_spec x (length line)); [|lia]. rewrite bind_ret, <- columns_char_width. fold wpx.
      destruct (Nat.ltb_spec wpx (sx + 2)).
      + destruct (Nat.ltb_spec wpx 2); [|rewrite csub_ret by lia]; eexists; repeat split; intros; discriminate || lia.
      + rewrite csub_ret by lia. rewrite bind_ret. destruct (Nat.ltb_spec (sx + w - 2) wpx); [rewrite csub_ret by lia|];
          eexists; repeat split; intros; discriminate || lia. }
  destruct F as (t & -> & F1 & F2 & F3). rewrite bind_ret. destruct (Nat.ltb_spec (lw + 1) (t + w)).
  - rewrite csub_ret by (clear F1 F2 F3; lia). eexists. split; [reflexivity|]. split; [clear F1 F2 F3; lia|]. intros _. exists t. split; [clear F1 F2 F3; lia|]. auto.
  - eexists. split; [reflexivity|]. split; [clear F1 F2 F3; lia|]. intros _. exists t. split; [clear F1 F2 F3; lia|]. auto.
Qed.

Lemma cursor_line_of f : valid (if_content f) -> exists l, nth_error (clines (if_content f)) (cursor_row f) = Some l /\ px (cpos (if_content f)) <= length l.
Proof. intros V. exact (cursor_line V). Qed.

Lemma text_width_eq f : 1 <= N.to_nat (a_width (if_area f)) ->
  (if height f <? nb_lines f then csub (N.to_nat (a_width (if_area f))) 1 else Ret (N.to_nat (a_width (if_area f)))) = Ret (text_width f).
Proof. intros. unfold text_width. destruct (height f <? nb_lines f); [rewrite csub_ret by lia; reflexivity|f_equal; lia]. Qed.

Lemma fix_scroll_spec u f : valid (if_content f) -> 1 <= N.to_nat (a_width (if_area f)) ->
  exists sy sx l, fix_scroll u f = Ret (with_scroll f (mkPos sy sx))
  /\ nth_error (clines (if_content f)) (cursor_row f) = Some l /\ px (cpos (if_content f)) <= length l
  /\ fix_scroll_y (focused f) (height f) (nb_lines f) (cursor_row f) (py (if_scroll f)) = Ret sy
  /\ fix_scroll_x u (focused f) (text_width f) l (px (cpos (if_content f))) (px (if_scroll f)) = Ret sx.
Proof.
  intros V W. destruct (cursor_line_of f V) as (l & El & Hl). assert (Hy : cursor_row f < nb_lines f) by (apply nth_error_Some; unfold cursor_row in El; unfold nb_lines, cursor_row; congruence).
  destruct (fix_scroll_y_spec (focused f) (height f) (py (if_scroll f)) Hy) as (sy & Ey & _).
  destruct (@fix_scroll_x_spec u (focused f) (text_width f) l (px (cpos (if_content f))) (px (if_scroll f)) Hl) as (sx & Ex & _).
  exists sy, sx, l. split; [|auto]. unfold fix_scroll. fold (height f) (nb_lines f) (cursor_row f). rewrite text_width_eq by exact W. rewrite bind_ret, Ey, bind_ret.
  unfold current_line. fold (cursor_row f). unfold idx. rewrite El, bind_ret, Ex, bind_ret. reflexivity.
Qed.

(** The only panic *)
Lemma fix_scroll_panics u f : a_width (if_area f) = 0%N -> height f < nb_lines f -> fix_scroll u f = Panic.
Proof. intros W L. unfold fix_scroll. fold (height f) (nb_lines f). rewrite (proj2 (Nat.ltb_lt _ _) L), W. reflexivity. Qed.

(** ** Drawing *)

Lemma cursor_at_ret a d j w : d < w -> (a_left a + N.of_nat w < 65536)%N -> (a_top a + j < 65536)%N ->
  cursor_at a d j = Ret ((a_left a + N.of_nat d)%N, (a_top a + j)%N).
Proof. intros. unfold cursor_at. rewrite N.mod_small by (unfold U16; lia). rewrite !add16_ret by lia. reflexivity. Qed.


Lemma flagged_cons sel k c p : flagged sel k (c :: p) = (c, sel k) :: flagged sel (S k) p.
Proof. reflexivity. Qed.
Lemma last_flag_app u a : forall x b, last_flag u x (a ++ b) = match last_flag u (x + cells_width u a) b with Some y => Some y | None => last_flag u x a end.
Proof.
  induction a as [|[c f] a IH]; intros x b; cbn -[columns].
  - unfold cells_width. cbn. rewrite Nat.add_0_r. destruct (last_flag u x b); reflexivity.
  - rewrite IH. replace (cells_width u ((c, f) :: a)) with (columns u [c] + cells_width u a) by (unfold cells_width; cbn [map fst]; rewrite <- columns_cons; reflexivity).
    rewrite Nat.add_assoc. destruct (last_flag u (x + columns u [c] + cells_width u a) b); [reflexivity|]. reflexivity.
Qed.
Lemma map_fst_flagged sel p : forall k, map fst (flagged sel k p) = p.
Proof. induction p as [|c p IH]; intros k; [reflexivity|]. rewrite flagged_cons. cbn. rewrite IH. reflexivity. Qed.
Lemma flagged_width u sel k p : cells_width u (flagged sel k p) = columns u p.
Proof. unfold cells_width. rewrite map_fst_flagged. reflexivity. Qed.
Lemma flagged_length sel p : forall k, length (flagged sel k p) = length p.
Proof. induction p as [|c p IH]; intros k; [reflexivity|]. rewrite flagged_cons. cbn. rewrite IH. reflexivity. Qed.

(** After the skipped chars *)
Lemma draw_chars_shown u f normal sel w skip j : (a_left (if_area f) + N.of_nat w < 65536)%N -> (a_top (if_area f) + j < 65536)%N ->
  forall chars n i s d, n = i + length chars -> (chars <> [] -> skip <= s) -> d < w ->
  exists p q ending, masked f chars = p ++ q
  /\ draw_chars u f normal sel n w skip j chars i s d
     = Ret (styled normal (cursor_style f) (flagged sel i p ++ ending), d + columns u p + length ending, at_ (if_area f) j (last_flag u d (flagged sel i p ++ ending)))
  /\ match q with
     | [] => d + columns u p <= w /\ (forall p' c, p = p' ++ [c] -> d + columns u p' < w) /\ ending = []
     | c :: q' => d + columns u p < w /\ w <= d + columns u p + columns u [c] /\ (q' = [] -> w < d + columns u p + columns u [c])
                  /\ ending = [(c_ellipsis, sel (i + length p))]
     end.
Proof.
  intros Hl Ht chars. induction chars as [|c chars IH]; intros n i s d Hn Hs Hd.
  - exists [], [], []. unfold masked. split; [destruct (password_mode f); reflexivity|]. cbn. split; [f_equal; f_equal; f_equal; lia|].
    repeat split; try lia. intros p' c' E. destruct p'; discriminate.
  - cbn [draw_chars]. set (c' := if password_mode f then 42%N else c).
    assert (EM : masked f (c :: chars) = c' :: masked f chars) by (unfold masked, c'; destruct (password_mode f); reflexivity).
    rewrite EM. specialize (Hs ltac:(discriminate)). rewrite (proj2 (Nat.ltb_ge _ _) Hs). rewrite <- columns_one.
    assert (Hlast : (i =? n - 1) = true <-> chars = []) by (rewrite Nat.eqb_eq; cbn [length] in Hn; destruct chars; cbn [length] in Hn; split; intros; try discriminate; try lia; reflexivity).
    destruct ((w <=? d + columns u [c']) && (negb (i =? n - 1) || (w <? d + columns u [c']))) eqn:EB.
    + apply andb_true_iff in EB as [B1 B2]. apply Nat.leb_le in B1.
      exists [], (c' :: masked f chars), [(c_ellipsis, sel i)]. split; [reflexivity|]. split.
      * cbn [flagged app combine last_flag styled map fst snd]. unfold flagged. cbn [combine length seq map app]. cbn [last_flag styled map fst snd length]. rewrite columns_nil. replace (d + 0 + 1) with (d + 1) by lia.
        destruct (sel i); [rewrite (@cursor_at_ret (if_area f) d j w Hd Hl Ht), bind_ret|]; reflexivity.
      * rewrite columns_nil. repeat split; try lia; [|cbn [length]; rewrite Nat.add_0_r; reflexivity].
        intros E. assert (chars = []) by (unfold masked in E; destruct (password_mode f), chars; cbn in E; congruence || auto). apply Hlast in H. rewrite H in B2. cbn [negb orb] in B2. apply Nat.ltb_lt in B2. lia.
    + destruct (Nat.leb_spec w (d + columns u [c'])) as [L|L].
      * cbn [andb] in EB. apply orb_false_iff in EB as [B1 B2]. apply negb_false_iff in B1. apply Hlast in B1. subst chars. apply Nat.ltb_ge in B2.
        exists [c'], [], []. split; [unfold masked; destruct (password_mode f); reflexivity|]. split.
        -- unfold flagged. cbn [combine length seq map app last_flag styled map fst snd]. replace (d + columns u [c'] + 0) with (d + columns u [c']) by lia. 
           destruct (sel i); [rewrite (@cursor_at_ret (if_area f) d j w Hd Hl Ht), !bind_ret|rewrite bind_ret]; reflexivity.
        -- repeat split; try lia. intros p' x E. destruct p' as [|a p']; [rewrite columns_nil; lia|]. destruct p'; discriminate.
      * clear EB. destruct (IH n (S i) s (d + columns u [c']) ltac:(cbn [length] in Hn; lia) (fun _ => Hs) ltac:(lia)) as (p & q & e & E1 & E2 & E3).
        exists (c' :: p), q, e. split; [rewrite E1; reflexivity|]. split.
        -- rewrite E2. rewrite flagged_cons. cbn [app last_flag]. rewrite (columns_cons u c' p).
           replace (d + columns u [c'] + columns u p + length e) with (d + (columns u [c'] + columns u p) + length e) by lia.
           destruct (sel i).
           ++ rewrite (@cursor_at_ret (if_area f) d j w Hd Hl Ht), !bind_ret. unfold styled. cbn [map fst snd cs_queue app].
              destruct (last_flag u (d + columns u [c']) (flagged sel (S i) p ++ e)); reflexivity.
           ++ rewrite !bind_ret. unfold styled. cbn [map fst snd cs_queue app].
              destruct (last_flag u (d + columns u [c']) (flagged sel (S i) p ++ e)); reflexivity.
        -- destruct q as [|c0 q'].
           ++ destruct E3 as (F1 & F2 & F3). rewrite (columns_cons u c' p). repeat split; try lia; auto. intros p' x E. destruct p' as [|a p']; [rewrite columns_nil; lia|].
              injection E as <- E. rewrite columns_cons. specialize (F2 _ _ E). lia.
           ++ destruct E3 as (F1 & F2 & F3 & F4). rewrite (columns_cons u c' p). split; [lia|]. split; [lia|]. split; [intros Hq; specialize (F3 Hq); lia|]. rewrite F4. cbn [length]. replace (i + S (length p)) with (S i + length p) by lia. reflexivity.
Qed.

(** The skipped chars *)
Lemma draw_chars_skip u f normal sel w skip j n : forall chars i s,
  exists k, k <= length chars
  /\ draw_chars u f normal sel n w skip j chars i s 0
     = draw_chars u f normal sel n w skip j (skipn k chars) (i + k) (s + columns u (masked f (firstn k chars))) 0
  /\ (forall m, m < k -> s + columns u (masked f (firstn m chars)) < skip)
  /\ (skip <= s + columns u (masked f (firstn k chars)) \/ k = length chars).
Proof.
  induction chars as [|c chars IH]; intros i s.
  - exists 0. rewrite firstn_nil. replace (masked f []) with (@nil char) by (unfold masked; destruct (password_mode f); reflexivity). rewrite columns_nil, !Nat.add_0_r.
    repeat split; intros; try lia. right. reflexivity.
  - destruct (Nat.ltb_spec s skip) as [L|L].
    + set (c' := if password_mode f then 42%N else c).
      assert (EM : forall l, masked f (c :: l) = c' :: masked f l) by (intros; unfold masked, c'; destruct (password_mode f); reflexivity).
      destruct (IH (S i) (s + columns u [c'])) as (k & Hk & E & F & G). exists (S k). split; [cbn; lia|]. split; [|split].
      * cbn [draw_chars skipn firstn]. rewrite (proj2 (Nat.ltb_lt _ _) L). fold c'. rewrite <- columns_one, E, EM, (columns_cons u c' (masked f (firstn k chars))).
        replace (i + S k) with (S i + k) by lia. rewrite Nat.add_assoc. reflexivity.
      * intros [|m] Hm; cbn [firstn]; [replace (masked f []) with (@nil char) by (unfold masked; destruct (password_mode f); reflexivity); rewrite columns_nil; lia|]. rewrite EM, columns_cons. specialize (F m ltac:(lia)). lia.
      * cbn [firstn]. rewrite EM, columns_cons. destruct G as [G|G]; [left; lia|right; cbn; lia].
    + exists 0. cbn [firstn skipn]. replace (masked f []) with (@nil char) by (unfold masked; destruct (password_mode f); reflexivity). rewrite columns_nil, !Nat.add_0_r.
      repeat split; intros; try lia; left; lia.
Qed.

Lemma masked_firstn f k l : masked f (firstn k l) = firstn k (masked f l).
Proof. unfold masked. destruct (password_mode f); [rewrite firstn_map|]; reflexivity. Qed.
Lemma masked_skipn f k l : masked f (skipn k l) = skipn k (masked f l).
Proof. unfold masked. destruct (password_mode f); [rewrite skipn_map|]; reflexivity. Qed.
Lemma masked_length f l : length (masked f l) = length l.
Proof. unfold masked. destruct (password_mode f); [apply map_length|reflexivity]. Qed.

Lemma last_flag_spaces u cells n : forall x, last_flag u x (cells ++ repeat (32%N, false) n) = last_flag u x cells.
Proof.
  assert (H : forall n x, last_flag u x (repeat (32%N, false) n) = None) by (intros m; induction m as [|m IH]; intros x; [reflexivity|]; cbn [repeat last_flag]; rewrite IH; reflexivity).
  intros x. rewrite last_flag_app, H. reflexivity.
Qed.
Lemma concat_repeat_one {A} (a : A) n : concat (repeat [a] n) = repeat a n.
Proof. induction n as [|n IH]; [reflexivity|]. cbn. rewrite IH. reflexivity. Qed.

(** A line, for a width [w] *)
Lemma draw_line_spec u f w j y l : 1 <= w -> usual_widths u ->
  (a_left (if_area f) + N.of_nat w < 65536)%N -> (a_top (if_area f) + j < 65536)%N ->
  let e := (0 <? px (if_scroll f)) && (4 <? w) in
  exists k cells, first_idx_at u (masked f l) (px (if_scroll f) + b2n e) k
  /\ shows u (w - b2n e) (masked f l) (is_selected f y) (cursor_at_end f y l) k cells
  /\ draw_line u f (normal_style f) w j y l
     = Ret ((if e then [Styled (normal_style f) [c_ellipsis]] else []) ++ styled (normal_style f) (cursor_style f) cells, at_ (if_area f) j (last_flag u 0 cells)).
Proof.
  intros Hw HU Hl Ht e. unfold draw_line. fold e. 
  assert (Ee : (if e then px (if_scroll f) + 1 else px (if_scroll f)) = px (if_scroll f) + b2n e) by (destruct e; cbn; lia).
  assert (Ew : (if e then w - 1 else w) = w - b2n e) by (destruct e; cbn; lia).
  rewrite Ee, Ew. set (skip := px (if_scroll f) + b2n e). set (w' := w - b2n e).
  assert (Hw' : 1 <= w') by (subst w' e; destruct (0 <? px (if_scroll f)), (Nat.ltb_spec 4 w); cbn [andb b2n]; lia).
  assert (Hl' : (a_left (if_area f) + N.of_nat w' < 65536)%N) by (subst w'; lia).
  change (fun i : nat => focused f && range_contains (selection (if_content f)) i y) with (is_selected f y).
  change (focused f && (y =? py (cpos (if_content f))) && (px (cpos (if_content f)) =? length l)) with (cursor_at_end f y l).
  destruct (@draw_chars_skip u f (normal_style f) (is_selected f y) w' skip j (length l) l 0 0) as (k & Hk & E1 & F & G).
  assert (HF : first_idx_at u (masked f l) skip k).
  { split.
    - rewrite masked_length. destruct (Nat.eq_dec k (length l)); [right; auto|left]. split; [lia|]. destruct G as [G|G]; [|lia]. rewrite masked_firstn in G. lia.
    - intros m Hm. specialize (F m Hm). rewrite masked_firstn in F. lia. }
  destruct (@draw_chars_shown u f (normal_style f) (is_selected f y) w' skip j Hl' Ht (skipn k l) (length l) (0 + k) (0 + columns u (masked f (firstn k l))) 0)
    as (p & q & en & E2 & E3 & E4); [rewrite skipn_length; lia| |lia|].
  { intros Hne. destruct G as [G|G]; [exact G|]. exfalso. apply Hne. apply skipn_all2. lia. }
  cbn [Nat.add] in E1, E2, E3, E4. rewrite E1, E3, bind_ret. clear E1 E3.
  set (used := columns u p + length en). set (after := if (used <? w') && cursor_at_end f y l then [(32%N, true)] else []).
  exists k, (flagged (is_selected f y) k p ++ en ++ after ++ repeat (32%N, false) (w' - used - length after)).
  split; [exact HF|]. split.
  { exists p, q, en. split; [rewrite <- masked_skipn; exact E2|]. split; [reflexivity|exact E4]. }
  rewrite !app_assoc, last_flag_spaces. unfold styled at 2. rewrite map_app. fold (styled (normal_style f) (cursor_style f) ((flagged (is_selected f y) k p ++ en) ++ after)).
  assert (ER : forall n, map (fun c : N * bool => Styled (if snd c then cursor_style f else normal_style f) [fst c]) (repeat (32%N, false) n) = concat (repeat (cs_queue (normal_style f) [c_space]) n))
    by (intros n; induction n as [|n IHn]; [reflexivity|]; cbn [repeat map concat]; rewrite IHn; reflexivity).
  rewrite ER. clear ER.
  assert (CW : cells_width u (flagged (is_selected f y) k p ++ en) = used).
  { unfold cells_width. rewrite map_app, columns_app. rewrite map_fst_flagged. unfold used. f_equal. 
    destruct q; [destruct E4 as (_ & _ & ->); reflexivity|]. destruct E4 as (_ & _ & _ & ->). cbn. unfold columns, c_ellipsis. cbn. destruct HU as (_ & HU & _). rewrite HU. reflexivity. }
  unfold after. destruct (Nat.ltb_spec used w') as [L|L]; cbn [andb]; [destruct (cursor_at_end f y l); cbn [andb]|].
  - rewrite (@cursor_at_ret (if_area f) used j w' L Hl' Ht). rewrite !bind_ret. f_equal. f_equal.
    + unfold styled. rewrite (map_app _ _ [_]). cbn [map fst snd]. rewrite <- !app_assoc. cbn [length]. replace (w' - (used + 1)) with (w' - used - 1) by lia. reflexivity.
    + rewrite last_flag_app, CW. cbn [last_flag Nat.add]. reflexivity.
  - rewrite bind_ret. rewrite app_nil_r. cbn [app length]. rewrite Nat.sub_0_r. reflexivity.
  - rewrite bind_ret. rewrite app_nil_r. cbn [app length]. rewrite Nat.sub_0_r. reflexivity.
Qed.

(** The rows of the area *)
Lemma draw_rows_spec u f sbs w sb : 1 <= w -> usual_widths u -> (a_left (if_area f) + N.of_nat w < 65536)%N ->
  forall n j, (a_top (if_area f) + j + N.of_nat n <= 65536)%N ->
  exists rows ps, draw_rows u f (normal_style f) sbs w sb (skipn (py (if_scroll f) + N.to_nat j) (clines (if_content f))) (py (if_scroll f) + N.to_nat j) j n
      = Ret (concat rows, last_some ps)
    /\ length rows = n /\ length ps = n
    /\ forall i row p, nth_error rows i = Some row -> nth_error ps i = Some p -> row_shown u f sbs w sb (j + N.of_nat i) row p.
Proof.
  intros Hw HU Hl. induction n as [|n IH]; intros j Hj.
  - exists [], []. split; [reflexivity|]. split; [reflexivity|]. split; [reflexivity|]. intros [|i] row p Hi; discriminate.
  - cbn [draw_rows]. rewrite add16_ret, bind_ret by lia. rewrite (N.add_comm j (a_top (if_area f))).
    destruct (IH (j + 1)%N ltac:(lia)) as (rows & ps & E & Hlen & Hlps & Hrows).
    replace (py (if_scroll f) + N.to_nat (j + 1)) with (S (py (if_scroll f) + N.to_nat j)) in E by lia.
    set (ay := (a_top (if_area f) + j)%N) in *.
    set (bar := match sb with Some _ => _ | None => _ end).
    assert (K : forall content p, row_shown u f sbs w sb j (MoveTo (a_left (if_area f)) ay :: content ++ bar) p ->
      exists rows' ps', Ret (MoveTo (a_left (if_area f)) ay :: content ++ bar ++ concat rows, match last_some ps with Some q => Some q | None => p end) = Ret (concat rows', last_some ps')
        /\ length rows' = S n /\ length ps' = S n
        /\ forall i row p, nth_error rows' i = Some row -> nth_error ps' i = Some p -> row_shown u f sbs w sb (j + N.of_nat i) row p).
    { intros content p Hrow. exists ((MoveTo (a_left (if_area f)) ay :: content ++ bar) :: rows), (p :: ps).
      split; [cbn [concat app last_some]; rewrite app_assoc; reflexivity|]. split; [cbn; congruence|]. split; [cbn; congruence|].
      intros [|i] row p0 Hi Hp; cbn in Hi, Hp.
      - injection Hi as <-. injection Hp as <-. rewrite N.add_0_r. exact Hrow.
      - replace (j + N.of_nat (S i))%N with (j + 1 + N.of_nat i)%N by lia. apply Hrows; assumption. }
    assert (Hbar : bar_shown f sbs sb j bar).
    { unfold bar, bar_shown. destruct sb as [[t b]|]; [|reflexivity]. fold ay. 
      destruct ((t <=? ay) && (ay <=? b))%N eqn:Eb; split; intros; try reflexivity; lia. }
    rewrite skipn_nth. unfold row_shown in K at 1.
    destruct (nth_error (clines (if_content f)) (py (if_scroll f) + N.to_nat j)) as [l|] eqn:En.
    + destruct (@draw_line_spec u f w j (py (if_scroll f) + N.to_nat j) l Hw HU Hl ltac:(lia)) as (k & cells & H1 & H2 & H3).
      rewrite H3, bind_ret. cbn [tl]. rewrite E, bind_ret.
      destruct (K ((if (0 <? px (if_scroll f)) && (4 <? w) then [Styled (normal_style f) [c_ellipsis]] else []) ++ styled (normal_style f) (cursor_style f) cells)
                  (at_ (if_area f) j (last_flag u 0 cells))) as (r & q & K1 & K2).
      { eexists _, bar. split; [reflexivity|]. split; [|exact Hbar]. exists k, cells. auto. }
      exists r, q. split; [|exact K2]. rewrite <- K1. destruct (last_some ps); reflexivity.
    + destruct (filling_styled_spec 32%N (normal_style f) w) as (c & Ec & Hc & Hst).
      unfold SPACE_FILLING, c_space. rewrite Ec, !bind_ret. cbn [tl]. rewrite (skipn_none _ _ En) in E. rewrite E, bind_ret.
      destruct (K c None) as (r & q & K1 & K2).
      { exists c, bar. split; [reflexivity|]. split; [|exact Hbar]. split; [exact Hc|]. split; [|reflexivity]. apply Forall_forall. exact Hst. }
      exists r, q. split; [|exact K2]. rewrite <- K1. destruct (last_some ps); reflexivity.
Qed.

Lemma area_scrollbar_spec a s c : on_screen a -> (1 <= a_height a)%N -> (c < 65536)%N -> (s <= c - a_height a)%N -> exists sb, area_scrollbar a (s mod U16) (c mod U16) = Ret sb
  /\ (sb <> None <-> (a_height a < c)%N).
Proof.
  intros [_ Hs] Hh Hc Hsc. unfold area_scrollbar. rewrite !N.mod_small by (unfold U16; lia). rewrite compute_scrollbar_eq.
  destruct (N.leb_spec c (a_height a)) as [L|L]; [exists None; split; [reflexivity|split; [congruence|lia]]|].
  set (top := a_top a) in *. set (h := a_height a) in *.
  assert (B : (top + tb_of s c h < U16 /\ bot_of s c h top < U16)%N).
  { pose proof (@bot_bounds s c h top L ltac:(lia) Hsc). unfold U16. lia. }
  destruct B as [B1 B2]. rewrite (proj2 (N.ltb_lt _ _) B1), (proj2 (N.ltb_lt _ _) B2). eexists. split; [reflexivity|]. split; [auto|discriminate].
Qed.
