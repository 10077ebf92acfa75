(** * Proofs about the content of an input field: flat text, validity, basic editing *)
From Verif Require Import Base L_Base M_Content S_Content.
Set Implicit Arguments.

(** ** Flat text of decomposed lines *)

Definition pj (pre : list Line) : str := concat (map (fun l => l ++ [c_nl]) pre).
Definition sj (post : list Line) : str := concat (map (fun l => c_nl :: l) post).

Lemma pj_app a b : pj (a ++ b) = pj a ++ pj b.
Proof. unfold pj. now rewrite map_app, concat_app. Qed.
Lemma sj_app a b : sj (a ++ b) = sj a ++ sj b.
Proof. unfold sj. now rewrite map_app, concat_app. Qed.
Lemma sj_cons l r : sj (l :: r) = c_nl :: l ++ sj r.
Proof. reflexivity. Qed.
Lemma pj_cons l r : pj (l :: r) = l ++ c_nl :: pj r.
Proof. unfold pj; simpl. now rewrite <- app_assoc. Qed.
Lemma pj_snoc r l : pj (r ++ [l]) = pj r ++ l ++ [c_nl].
Proof. rewrite pj_app. unfold pj; simpl. now rewrite app_nil_r. Qed.

Lemma flat_mid pre l post : flat (pre ++ l :: post) = pj pre ++ l ++ sj post.
Proof.
  destruct pre as [|p pre]; [reflexivity|].
  simpl. rewrite map_app, concat_app. simpl.
  unfold pj; simpl. rewrite <- !app_assoc. f_equal. simpl.
  assert (H: forall pre, concat (map (fun l' => c_nl :: l') pre) ++ [c_nl]
                         = c_nl :: concat (map (fun l => l ++ [c_nl]) pre)).
  { clear. induction pre; simpl; [reflexivity|].
    rewrite <- app_assoc, IHpre. now rewrite <- app_assoc. }
  change (c_nl :: l ++ sj post) with ([c_nl] ++ (l ++ sj post)).
  change (c_nl :: concat (map (fun l0 => l0 ++ [c_nl]) pre) ++ l ++ sj post)
    with ((c_nl :: concat (map (fun l0 => l0 ++ [c_nl]) pre)) ++ l ++ sj post).
  rewrite <- H, <- !app_assoc. reflexivity.
Qed.

Lemma display_lines_flat ls : display_lines ls = flat ls.
Proof.
  induction ls as [|l ls IH]; [reflexivity|].
  destruct ls as [|l' ls]; simpl in *; [now rewrite app_nil_r|].
  rewrite IH. reflexivity.
Qed.

Lemma length_pj pre : length (pj pre) = sum (map (fun l => length l + 1) pre).
Proof.
  induction pre; [reflexivity|]. rewrite pj_cons, app_length. simpl. lia.
Qed.

Lemma offset_mid pre rest x : offset_in (pre ++ rest) (mkPos (length pre) x) = length (pj pre) + x.
Proof.
  unfold offset_in; simpl. rewrite firstn_app_exact by reflexivity. now rewrite length_pj.
Qed.

Lemma decomp ls p : valid_pos ls p ->
  exists pre l1 l2 post, ls = pre ++ (l1 ++ l2) :: post /\ p = mkPos (length pre) (length l1).
Proof.
  intros (l & Hl & Hx). apply split_nth in Hl. destruct Hl as (pre & post & E & L).
  destruct (split_at l Hx) as (l1 & l2 & E1 & L1).
  exists pre, l1, l2, post. subst. destruct p; simpl in *; subst. auto.
Qed.

Lemma valid_pos_mid pre l post x : x <= length l -> valid_pos (pre ++ l :: post) (mkPos (length pre) x).
Proof. intros H. exists l. simpl. now rewrite nth_error_mid. Qed.

Definition clean (ls : list Line) : Prop := forall l ch, In l ls -> In ch l -> clean_char ch.

Lemma clean_app a b : clean (a ++ b) <-> clean a /\ clean b.
Proof.
  unfold clean. split.
  - intros H; split; intros l ch Hl; apply H, in_or_app; auto.
  - intros [Ha Hb] l ch Hl. apply in_app_or in Hl. destruct Hl; eauto.
Qed.

Lemma clean_cons l b : clean (l :: b) <-> (forall ch, In ch l -> clean_char ch) /\ clean b.
Proof.
  unfold clean. split.
  - intros H; split; intros; eapply H; simpl; eauto.
  - intros [Ha Hb] l' ch [->|Hl]; eauto.
Qed.

(** ** Clamping positions *)

Definition clamp (ls : list Line) (p : Pos) : Pos :=
  if length ls <=? py p then mkPos (length ls - 1) (length (nth (length ls - 1) ls []))
  else mkPos (py p) (min (px p) (length (nth (py p) ls []))).

Lemma idx_nth {A} (l : list A) i d : i < length l -> idx l i = Ret (nth i l d).
Proof. intros H. unfold idx. now rewrite (nth_error_nth' l d H). Qed.

Lemma content_end_eq c : clines c <> [] ->
  content_end c = Ret (mkPos (length (clines c) - 1) (length (nth (length (clines c) - 1) (clines c) []))).
Proof.
  intros H. unfold content_end.
  assert (0 < length (clines c)) by (destruct (clines c); simpl; [congruence|lia]).
  rewrite csub_ret by lia. simpl. rewrite (idx_nth _ ([]:Line)) by lia. reflexivity.
Qed.

Lemma make_valid_pos_eq c p : clines c <> [] -> make_valid_pos c p = Ret (clamp (clines c) p).
Proof.
  intros H. unfold make_valid_pos, clamp.
  destruct (length (clines c) <=? py p) eqn:E.
  - now apply content_end_eq.
  - rewrite (idx_nth _ ([]:Line)) by lia. reflexivity.
Qed.

Lemma clamp_valid ls p : ls <> [] -> valid_pos ls (clamp ls p).
Proof.
  intros H. assert (0 < length ls) by (destruct ls; simpl; [congruence|lia]).
  unfold clamp. destruct (length ls <=? py p) eqn:E; unfold valid_pos; simpl;
    eexists; (split; [apply (nth_error_nth' _ ([]:Line)); lia | lia]).
Qed.

Lemma clamp_id ls p : valid_pos ls p -> clamp ls p = p.
Proof.
  intros (l & Hl & Hx). unfold clamp.
  assert (py p < length ls) by (apply nth_error_Some; congruence).
  destruct (length ls <=? py p) eqn:E; [lia|].
  apply nth_error_nth with (d:=[]) in Hl. rewrite Hl. destruct p; simpl in *. f_equal. lia.
Qed.

Lemma fix_selection_eq c : clines c <> [] ->
  fix_selection c =
    Ret (mkContent (clamp (clines c) (cpos c)) (option_map (clamp (clines c)) (ctail c)) (clines c)).
Proof.
  intros H. unfold fix_selection, fix_pos, fix_selection_tail.
  rewrite make_valid_pos_eq by assumption. simpl.
  destruct c as [p [t|] ls]; simpl in *; [|reflexivity].
  rewrite make_valid_pos_eq by assumption. reflexivity.
Qed.

Lemma app_cons_nonnil {A} (a : list A) x b : a ++ x :: b <> [].
Proof. destruct a; discriminate. Qed.

#[export] Hint Resolve app_cons_nonnil : core.

Lemma tail_clamp_valid ls (t : option Pos) t' : ls <> [] ->
  option_map (clamp ls) t = Some t' -> valid_pos ls t'.
Proof. intros H. destruct t; simpl; intros E; inversion E. now apply clamp_valid. Qed.

(** Making a valid content from its parts *)
Lemma mk_valid p t ls :
  valid_pos ls p -> (forall t', t = Some t' -> valid_pos ls t') -> clean ls ->
  valid (mkContent p t ls).
Proof.
  intros Hp Ht Hc. unfold valid; simpl. repeat split; auto.
  - destruct Hp as (l & Hl & _). intros ->. destruct (py p); discriminate.
  - intros ->. destruct (Hc _ _ H H0) as (A & _). now apply A.
  - intros ->. destruct (Hc _ _ H H0) as (_ & A & _). now apply A.
  - intros ->. destruct (Hc _ _ H H0) as (_ & _ & A). now apply A.
Qed.

Lemma valid_inv c : valid c ->
  exists pre l1 l2 post, c = mkContent (mkPos (length pre) (length l1)) (ctail c) (pre ++ (l1 ++ l2) :: post)
  /\ (forall t, ctail c = Some t -> valid_pos (pre ++ (l1 ++ l2) :: post) t)
  /\ clean (pre ++ (l1 ++ l2) :: post).
Proof.
  intros (_ & Hp & Ht & Hc). apply decomp in Hp. destruct Hp as (pre & l1 & l2 & post & E & Ep).
  exists pre, l1, l2, post. destruct c as [p t ls]; simpl in *; subst. auto.
Qed.

Lemma valid_default : valid content_default.
Proof.
  apply mk_valid; simpl.
  - exists []. simpl. auto.
  - discriminate.
  - intros l ch [<-|[]] [].
Qed.

(** ** Insertion *)

Lemma insert_char_eq pre l1 l2 post t ch :
  clean_char ch ->
  insert_char (mkContent (mkPos (length pre) (length l1)) t (pre ++ (l1 ++ l2) :: post)) ch
  = Ret (mkContent (mkPos (length pre) (length (l1 ++ [ch]))) t (pre ++ ((l1 ++ [ch]) ++ l2) :: post)).
Proof.
  intros (H1 & H2 & H3). unfold insert_char. simpl.
  apply N.eqb_neq in H1, H2, H3. rewrite H1, H2, H3. simpl.
  rewrite idx_app_mid. simpl. rewrite vec_insert_mid by reflexivity. simpl.
  rewrite set_nth_mid, app_length. simpl. rewrite <- app_assoc. simpl.
  replace (length l1 + 1) with (S (length l1)) by lia. reflexivity.
Qed.

Lemma insert_new_line_eq pre l1 l2 post t :
  insert_new_line (mkContent (mkPos (length pre) (length l1)) t (pre ++ (l1 ++ l2) :: post))
  = Ret (mkContent (mkPos (length (pre ++ [l1])) 0) (option_map (clamp (pre ++ l1 :: l2 :: post)) t)
           ((pre ++ [l1]) ++ ([] ++ l2) :: post)).
Proof.
  unfold insert_new_line. simpl.
  rewrite idx_app_mid. simpl. rewrite vec_split_off_mid by reflexivity. simpl.
  rewrite set_nth_mid. replace (pre ++ l1 :: post) with ((pre ++ [l1]) ++ post) by now rewrite <- app_assoc.
  rewrite vec_insert_mid by (rewrite app_length; simpl; lia). simpl.
  rewrite fix_selection_eq by (simpl; auto). simpl.
  rewrite <- !app_assoc. simpl. f_equal. f_equal.
  rewrite clamp_id.
  - f_equal. rewrite app_length. simpl. lia.
  - replace (pre ++ l1 :: l2 :: post) with ((pre ++ [l1]) ++ l2 :: post) by now rewrite <- app_assoc.
    replace (S (length pre)) with (length (pre ++ [l1])) by (rewrite app_length; simpl; lia).
    apply valid_pos_mid. lia.
Qed.

(** General statement used by the property theorems: an operation replaced the text around the cursor *)
Lemma text_mid p t pre l1 l2 post : text (mkContent p t (pre ++ (l1 ++ l2) :: post))
  = (pj pre ++ l1) ++ (l2 ++ sj post).
Proof. unfold text; simpl. rewrite flat_mid, <- !app_assoc. reflexivity. Qed.

Lemma cursor_mid t pre l1 rest :
  cursor (mkContent (mkPos (length pre) (length l1)) t (pre ++ rest)) = length (pj pre ++ l1).
Proof. unfold cursor, offset; simpl. rewrite offset_mid, app_length. reflexivity. Qed.

Lemma before_mid t pre l1 l2 post :
  let c := mkContent (mkPos (length pre) (length l1)) t (pre ++ (l1 ++ l2) :: post) in
  firstn (cursor c) (text c) = pj pre ++ l1.
Proof. intros c. subst c. rewrite cursor_mid, text_mid. now apply firstn_app_exact. Qed.

Lemma after_mid t pre l1 l2 post :
  let c := mkContent (mkPos (length pre) (length l1)) t (pre ++ (l1 ++ l2) :: post) in
  skipn (cursor c) (text c) = l2 ++ sj post.
Proof. intros c. subst c. rewrite cursor_mid, text_mid. now apply skipn_app_exact. Qed.


Lemma insert_char_spec c ch : valid c ->
  exists c', insert_char c ch = Ret c' /\ valid c' /\ inserted c c' (typed [ch])
             /\ (ch <> c_nl -> ctail c' = ctail c).
Proof.
  intros V. destruct (valid_inv V) as (pre & l1 & l2 & post & E & Ht & Hc).
  destruct (N.eq_dec ch c_nl) as [->|N1].
  - rewrite E. unfold insert_char. simpl.
    rewrite insert_new_line_eq. eexists; split; [reflexivity|].
    replace (pre ++ l1 :: l2 :: post) with ((pre ++ [l1]) ++ ([] ++ l2) :: post) by now rewrite <- app_assoc.
    apply clean_app in Hc. destruct Hc as [Hpre Hc]. apply clean_cons in Hc. destruct Hc as [Hl Hpost].
    split; [|split; [|congruence]].
    + apply mk_valid.
      * apply valid_pos_mid. lia.
      * intros t' Et. eapply tail_clamp_valid; eauto.
      * rewrite clean_app, clean_app, !clean_cons.
        split; [split; [exact Hpre | split; [|intros ? ? []]] | split; [|exact Hpost]];
          intros ch Hi; apply Hl, in_or_app; simpl in *; auto.
    + unfold inserted. rewrite before_mid, after_mid, cursor_mid.
      change (mkPos (length (pre ++ [l1])) 0) with (mkPos (length (pre ++ [l1])) (length (@nil char))).
      rewrite cursor_mid, text_mid. split.
      * rewrite pj_snoc. simpl. rewrite !app_nil_r, <- !app_assoc. reflexivity.
      * rewrite pj_snoc, !app_length. simpl. lia.
  - destruct (N.eq_dec ch c_cr) as [->|N2].
    { exists c. split; [reflexivity|]. split; [auto|]. split; [|auto].
      unfold inserted; simpl. rewrite firstn_skipn. split; [reflexivity|lia]. }
    destruct (N.eq_dec ch c_bs) as [->|N3].
    { exists c. split; [reflexivity|]. split; [auto|]. split; [|auto].
      unfold inserted; simpl. rewrite firstn_skipn. split; [reflexivity|lia]. }
    assert (C: clean_char ch) by (repeat split; auto).
    rewrite E. rewrite insert_char_eq by assumption. eexists; split; [reflexivity|].
    split; [|split; [|reflexivity]].
    + apply mk_valid.
      * apply valid_pos_mid. rewrite !app_length. simpl. lia.
      * intros t' Et. destruct (Ht _ Et) as (l & Hl & Hx).
        unfold valid_pos.
        destruct (Nat.lt_trichotomy (py t') (length pre)) as [L|[L|L]].
        -- rewrite nth_error_app1 in * by assumption. eauto.
        -- rewrite L in *. rewrite nth_error_mid in *. inversion Hl; subst.
           eexists; split; [reflexivity|]. rewrite !app_length in *. simpl. lia.
        -- rewrite nth_error_app2 in * by lia. destruct (py t' - length pre) eqn:X; [lia|]. simpl in *. eauto.
      * rewrite clean_app, clean_cons in *. destruct Hc as (A & B & D). split; [auto|]. split; auto.
        intros ch' Hi. rewrite <- app_assoc in Hi. apply in_app_or in Hi. destruct Hi as [Hi|Hi].
        -- apply B, in_or_app; auto.
        -- simpl in Hi. destruct Hi as [<-|Hi]; auto. apply B, in_or_app; auto.
    + unfold inserted. rewrite before_mid, after_mid, !cursor_mid, text_mid.
      unfold typed; simpl.
      apply N.eqb_neq in N2, N3. rewrite N2, N3. simpl. split.
      * rewrite <- !app_assoc. reflexivity.
      * rewrite !app_length. simpl. lia.
Qed.

Lemma insert_new_line_spec c : valid c ->
  exists c', insert_new_line c = Ret c' /\ valid c' /\ inserted c c' [c_nl].
Proof.
  intros V. destruct (insert_char_spec c_nl V) as (c' & A & B & C & _). eauto.
Qed.

Lemma inserted_trans c1 c2 c3 a b :
  inserted c1 c2 a -> inserted c2 c3 b -> cursor c1 <= length (text c1) -> inserted c1 c3 (a ++ b).
Proof.
  intros [T1 C1] [T2 C2] Hle. unfold inserted. split.
  - rewrite T2, C1, T1.
    assert (L : length (firstn (cursor c1) (text c1)) = cursor c1) by (rewrite firstn_length; lia).
    set (A := firstn (cursor c1) (text c1)) in *. set (B := skipn (cursor c1) (text c1)).
    rewrite (app_assoc A a B).
    rewrite firstn_app_exact by (rewrite app_length; lia).
    rewrite skipn_app_exact by (rewrite app_length; lia).
    now rewrite <- !app_assoc.
  - rewrite C2, C1, app_length. lia.
Qed.

Lemma cursor_le c : valid c -> cursor c <= length (text c).
Proof.
  intros V. destruct (valid_inv V) as (pre & l1 & l2 & post & E & Ht & Hc).
  rewrite E. rewrite cursor_mid, text_mid, !app_length. lia.
Qed.

Lemma insert_str_spec s : forall c, valid c ->
  exists c', insert_str c s = Ret c' /\ valid c' /\ inserted c c' (typed s).
Proof.
  induction s as [|ch s IH]; intros c V.
  - exists c. simpl. split; [reflexivity|]. split; auto. unfold inserted; simpl.
    rewrite firstn_skipn. split; [reflexivity|lia].
  - destruct (insert_char_spec ch V) as (c1 & E1 & V1 & I1 & _).
    destruct (IH c1 V1) as (c2 & E2 & V2 & I2).
    exists c2. simpl. rewrite E1. simpl. split; [assumption|]. split; [assumption|].
    assert (typed (ch :: s) = typed [ch] ++ typed s) as ->.
    { unfold typed; simpl. destruct (negb (N.eqb ch c_cr) && negb (N.eqb ch c_bs)); reflexivity. }
    eapply inserted_trans; eauto. now apply cursor_le.
Qed.

Lemma content_from_spec s : exists c, content_from s = Ret c /\ valid c /\ text c = typed s
  /\ cursor c = length (typed s).
Proof.
  destruct (insert_str_spec s valid_default) as (c & E & V & I1 & I2).
  exists c. split; [exact E|]. split; [exact V|]. split; [|exact I2].
  rewrite I1. change (cursor content_default) with 0. change (text content_default) with (@nil char).
  simpl. apply app_nil_r.
Qed.

(** ** Iteration over the text *)

Lemma valid_end c : valid c -> exists pre l, clines c = pre ++ [l] /\ content_end c = Ret (mkPos (length pre) (length l)).
Proof.
  intros (N & _). rewrite content_end_eq by assumption.
  destruct (exists_last N) as (pre & l & E). exists pre, l. split; [assumption|].
  rewrite E, app_length. simpl. replace (length pre + 1 - 1) with (length pre) by lia.
  rewrite app_nth2, Nat.sub_diag by lia. reflexivity.
Qed.

(** From a valid position the iterator yields the flat text up to and including the end position *)
Lemma chars_next_char pre l1 ch l2 post stop :
  pos_ltb stop (mkPos (length pre) (length l1)) = false ->
  chars_next (pre ++ (l1 ++ ch :: l2) :: post) (mkPos (length pre) (length l1)) stop
  = Ret (Some (ch, mkPos (length pre) (length (l1 ++ [ch])))).
Proof.
  intros H. unfold chars_next. rewrite H. simpl. rewrite idx_app_mid. simpl.
  rewrite nth_error_mid. rewrite app_length. simpl.
  replace (length l1 + 1) with (S (length l1)) by lia. reflexivity.
Qed.

Lemma chars_next_nl pre l1 l post stop :
  pos_ltb stop (mkPos (length pre) (length l1)) = false ->
  chars_next (pre ++ l1 :: l :: post) (mkPos (length pre) (length l1)) stop
  = Ret (Some (c_nl, mkPos (length (pre ++ [l1])) 0)).
Proof.
  intros H. unfold chars_next. rewrite H. simpl. rewrite idx_app_mid. simpl.
  replace (nth_error l1 (length l1)) with (@None char) by (symmetry; apply nth_error_None; lia).
  rewrite !app_length. simpl.
  destruct (S (length pre) <? length pre + S (S (length post))) eqn:E; [|lia].
  replace (length pre + 1) with (S (length pre)) by lia. reflexivity.
Qed.

Lemma chars_next_end pre l1 stop :
  chars_next (pre ++ [l1]) (mkPos (length pre) (length l1)) stop = Ret None.
Proof.
  unfold chars_next. destruct (pos_ltb stop (mkPos (length pre) (length l1))); [reflexivity|].
  simpl. rewrite idx_app_mid. simpl.
  replace (nth_error l1 (length l1)) with (@None char) by (symmetry; apply nth_error_None; lia).
  rewrite !app_length. simpl.
  destruct (S (length pre) <? length pre + 1) eqn:E; [lia|]. reflexivity.
Qed.

Lemma pos_ltb_spec a b : pos_ltb a b = true <-> (py a < py b \/ (py a = py b /\ px a < px b)).
Proof. unfold pos_ltb. lia. Qed.

(** Offsets are monotonic: comparing valid positions is comparing offsets *)
Lemma offset_lt ls p q : valid_pos ls p -> valid_pos ls q ->
  (pos_ltb p q = true <-> offset_in ls p < offset_in ls q).
Proof.
  assert (M : forall ls p q, valid_pos ls p -> valid_pos ls q -> pos_ltb p q = true -> offset_in ls p < offset_in ls q).
  { clear. intros ls p q (l & Hl & Hx) (l' & Hl' & Hx') H. apply pos_ltb_spec in H.
    unfold offset_in. destruct H as [H|[H H']].
    - apply split_nth in Hl. destruct Hl as (pre & post & E & L). subst ls.
      rewrite <- L. rewrite firstn_app_exact by reflexivity.
      replace (py q) with (length pre + S (py q - length pre - 1)) by lia.
      rewrite firstn_app_2. simpl. rewrite map_app, sum_app. simpl. lia.
    - rewrite H. lia. }
  intros Hp Hq. split; [now apply M|].
  intros H. destruct (pos_ltb p q) eqn:E; [reflexivity|].
  destruct (pos_ltb q p) eqn:E2.
  - apply (M _ _ _ Hq Hp) in E2. lia.
  - assert (py p = py q /\ px p = px q) as [A B].
    { unfold pos_ltb in *. lia. }
    destruct p, q; simpl in *; subst. lia.
Qed.

Lemma offset_inj ls p q : valid_pos ls p -> valid_pos ls q -> offset_in ls p = offset_in ls q -> p = q.
Proof.
  intros Hp Hq H.
  assert (pos_ltb p q = false) by (destruct (pos_ltb p q) eqn:E; auto; apply (offset_lt Hp Hq) in E; lia).
  assert (pos_ltb q p = false) by (destruct (pos_ltb q p) eqn:E; auto; apply (offset_lt Hq Hp) in E; lia).
  destruct p, q. unfold pos_ltb in *. simpl in *. f_equal; lia.
Qed.

Lemma slice_cons (s : str) a b x : nth_error s a = Some x -> a < b -> slice a b s = x :: slice (S a) b s.
Proof.
  intros N L. apply split_nth in N. destruct N as (p & q & -> & <-). unfold slice.
  rewrite skipn_app_exact, skipn_cons_exact by reflexivity.
  replace (b - length p) with (S (b - S (length p))) by lia. reflexivity.
Qed.

(** The iterator from [p] to [stop] yields the slice of the flat text; by induction on what remains *)
Lemma chars_collect_spec ls stop : valid_pos ls stop ->
  forall fuel p, valid_pos ls p -> length (flat ls) - offset_in ls p < fuel ->
  chars_collect fuel ls p stop = Ret (slice (offset_in ls p) (S (offset_in ls stop)) (flat ls)).
Proof.
  intros Hs. induction fuel as [|f IH]; intros p Hp Hf; [lia|].
  simpl. destruct (pos_ltb stop p) eqn:Lt.
  { unfold chars_next. rewrite Lt. simpl.
    apply (offset_lt Hs Hp) in Lt. unfold slice. replace (S (offset_in ls stop) - offset_in ls p) with 0 by lia. reflexivity. }
  assert (GE : offset_in ls p <= offset_in ls stop).
  { destruct (Nat.le_gt_cases (offset_in ls p) (offset_in ls stop)); auto.
    apply (offset_lt Hs Hp) in H. congruence. }
  destruct (decomp Hp) as (pre & l1 & l2 & post & E & Ep).
  destruct l2 as [|ch l2].
  - rewrite app_nil_r in E. destruct post as [|l post].
    + subst. rewrite chars_next_end. simpl. rewrite offset_mid, flat_mid.
      unfold slice. rewrite skipn_all2; [now rewrite firstn_nil|].
      rewrite !app_length. simpl. lia.
    + assert (EN : chars_next ls p stop = Ret (Some (c_nl, mkPos (length (pre ++ [l1])) 0))).
      { subst. now apply chars_next_nl. }
      rewrite EN. simpl.
      assert (E' : ls = (pre ++ [l1]) ++ l :: post) by (subst; now rewrite <- app_assoc).
      assert (O : offset_in ls (mkPos (length (pre ++ [l1])) 0) = S (offset_in ls p)).
      { rewrite E' at 1. rewrite offset_mid. subst. rewrite offset_mid, pj_snoc, !app_length. simpl. lia. }
      assert (NL : nth_error (flat ls) (offset_in ls p) = Some c_nl).
      { subst. rewrite offset_mid, flat_mid. rewrite sj_cons, app_assoc.
        rewrite nth_error_app2 by (rewrite app_length; lia). rewrite app_length, Nat.sub_diag. reflexivity. }
      rewrite IH.
      * simpl. f_equal. rewrite O. symmetry. apply slice_cons; [assumption|lia].
      * rewrite E'. apply valid_pos_mid. lia.
      * rewrite O. apply split_nth in NL. destruct NL as (a & b & EF & LF). rewrite EF in *.
        rewrite app_length in *. simpl in *. lia.
  - assert (EN : chars_next ls p stop = Ret (Some (ch, mkPos (length pre) (length (l1 ++ [ch]))))).
    { subst. now apply chars_next_char. }
    rewrite EN. simpl.
    assert (O : offset_in ls (mkPos (length pre) (length (l1 ++ [ch]))) = S (offset_in ls p)).
    { subst. rewrite !offset_mid, app_length. simpl. lia. }
    assert (NL : nth_error (flat ls) (offset_in ls p) = Some ch).
    { subst. rewrite offset_mid, flat_mid. rewrite <- app_assoc, app_assoc.
      rewrite nth_error_app2 by (rewrite app_length; lia). rewrite app_length, Nat.sub_diag. reflexivity. }
    rewrite IH.
    * simpl. f_equal. rewrite O. symmetry. apply slice_cons; [assumption|lia].
    * rewrite E. apply valid_pos_mid. rewrite !app_length. simpl. lia.
    * rewrite O. apply split_nth in NL. destruct NL as (a & b & EF & LF). rewrite EF in *.
      rewrite app_length in *. simpl in *. lia.
Qed.

Lemma flat_length_fuel ls : length (flat ls) < chars_fuel ls.
Proof.
  unfold chars_fuel. destruct ls as [|l ls]; simpl; [lia|].
  rewrite app_length. assert (H: length (sj ls) = sum (map (fun l => S (length l)) ls)).
  { induction ls; [reflexivity|]. rewrite sj_cons. simpl. rewrite app_length. lia. }
  unfold sj in H. lia.
Qed.

Lemma content_chars_spec c : valid c -> content_chars c = Ret (text c).
Proof.
  intros V. destruct (valid_end V) as (pre & l & E & Ee). unfold content_chars. rewrite Ee, bind_ret.
  assert (Ve : valid_pos (clines c) (mkPos (length pre) (length l))).
  { rewrite E. apply valid_pos_mid. lia. }
  rewrite chars_collect_spec.
  - f_equal. unfold slice, text. change (offset_in (clines c) (mkPos 0 0)) with 0. rewrite Nat.sub_0_r. change (skipn 0 (flat (clines c))) with (flat (clines c)).
    apply firstn_all2. rewrite E, offset_mid, flat_mid. simpl. rewrite !app_length. simpl. lia.
  - assumption.
  - destruct V as (N & _). destruct (clines c) as [|l0 r]; [congruence|]. exists l0. simpl. split; [reflexivity|lia].
  - pose proof (flat_length_fuel (clines c)). lia.
Qed.

(** [is_str] follows the same iteration *)
Lemma is_str_loop_spec ls stop : valid_pos ls stop ->
  forall s p, valid_pos ls p ->
  is_str_loop ls p stop s =
    Ret (if list_eq_dec N.eq_dec (slice (offset_in ls p) (S (offset_in ls stop)) (flat ls)) s then true else false).
Proof.
  intros Hs. induction s as [|b s IH]; intros p Hp.
  - pose proof (chars_collect_spec Hs (fuel := S (length (flat ls))) Hp ltac:(lia)) as CC.
    simpl in CC. simpl. destruct (chars_next ls p stop) as [[[ch p']|]| |] eqn:EN; simpl in *; try discriminate.
    + destruct (chars_collect (length (flat ls)) ls p' stop); simpl in *; try discriminate.
      match type of CC with Ret ?x = Ret ?y => assert (CC' : x = y) by congruence end. rewrite <- CC'. reflexivity.
    + match type of CC with Ret ?x = Ret ?y => assert (CC' : x = y) by congruence end. rewrite <- CC'. reflexivity.
  - pose proof (chars_collect_spec Hs (fuel := S (length (flat ls))) Hp ltac:(lia)) as CC.
    simpl in CC. simpl. destruct (chars_next ls p stop) as [[[ch p']|]| |] eqn:EN; simpl in *; try discriminate.
    + assert (Hp' : valid_pos ls p' /\ offset_in ls p' = S (offset_in ls p)
                    /\ nth_error (flat ls) (offset_in ls p) = Some ch /\ offset_in ls p <= offset_in ls stop).
      { clear CC IH. assert (PL : pos_ltb stop p = false).
        { unfold chars_next in EN. destruct (pos_ltb stop p); [discriminate|reflexivity]. }
        assert (GE : offset_in ls p <= offset_in ls stop).
        { destruct (Nat.le_gt_cases (offset_in ls p) (offset_in ls stop)); auto.
          apply (offset_lt Hs Hp) in H. congruence. }
        destruct (decomp Hp) as (pre & l1 & l2 & post & E & Ep). subst ls p.
        destruct l2 as [|ch' l2].
        - rewrite app_nil_r in *. destruct post as [|l post].
          + rewrite chars_next_end in EN. discriminate.
          + rewrite chars_next_nl in EN by assumption. inversion EN; subst ch p'; clear EN.
            assert (E' : pre ++ l1 :: l :: post = (pre ++ [l1]) ++ l :: post) by now rewrite <- app_assoc.
            repeat split.
            * rewrite E'. apply valid_pos_mid. lia.
            * rewrite E' at 1. rewrite !offset_mid, pj_snoc, !app_length. simpl. lia.
            * rewrite offset_mid, flat_mid. rewrite sj_cons, app_assoc.
              rewrite nth_error_app2 by (rewrite app_length; lia). rewrite app_length, Nat.sub_diag. reflexivity.
            * assumption.
        - rewrite chars_next_char in EN by assumption. inversion EN; subst ch p'; clear EN.
          repeat split.
          + apply valid_pos_mid. rewrite !app_length. simpl. lia.
          + rewrite !offset_mid, app_length. simpl. lia.
          + rewrite offset_mid, flat_mid. rewrite <- app_assoc, app_assoc.
            rewrite nth_error_app2 by (rewrite app_length; lia). rewrite app_length, Nat.sub_diag. reflexivity.
          + assumption. }
      destruct Hp' as (V' & O' & N' & GE).
      assert (SL : slice (offset_in ls p) (S (offset_in ls stop)) (flat ls)
                   = ch :: slice (offset_in ls p') (S (offset_in ls stop)) (flat ls)).
      { rewrite O'. apply slice_cons; [assumption|lia]. }
      rewrite SL. destruct (N.eqb ch b) eqn:EB.
      * apply N.eqb_eq in EB. subst b. rewrite IH by assumption.
        destruct (list_eq_dec N.eq_dec (slice (offset_in ls p') (S (offset_in ls stop)) (flat ls)) s);
        destruct (list_eq_dec N.eq_dec (ch :: slice (offset_in ls p') (S (offset_in ls stop)) (flat ls)) (ch :: s)); congruence.
      * apply N.eqb_neq in EB. destruct (list_eq_dec N.eq_dec _ (b :: s)); congruence.
    + match type of CC with Ret ?x = Ret ?y => assert (CC' : x = y) by congruence end. rewrite <- CC'. reflexivity.
Qed.

Lemma is_str_spec c s : valid c -> is_str c s = Ret (if list_eq_dec N.eq_dec (text c) s then true else false).
Proof.
  intros V. unfold is_str. destruct (valid_end V) as (pre & l & E & Ee). rewrite Ee, bind_ret.
  assert (Ve : valid_pos (clines c) (mkPos (length pre) (length l))).
  { rewrite E. apply valid_pos_mid. lia. }
  rewrite is_str_loop_spec; [|assumption|].
  - assert (SL : slice (offset_in (clines c) (mkPos 0 0)) (S (offset_in (clines c) (mkPos (length pre) (length l)))) (flat (clines c)) = text c).
    { unfold slice, text. change (offset_in (clines c) (mkPos 0 0)) with 0. rewrite Nat.sub_0_r. change (skipn 0 (flat (clines c))) with (flat (clines c)).
      apply firstn_all2. rewrite E, offset_mid, flat_mid. simpl. rewrite !app_length. simpl. lia. }
    now rewrite SL.
  - destruct V as (N & _). destruct (clines c) as [|l0 r]; [congruence|]. exists l0. simpl. split; [reflexivity|lia].
Qed.

Lemma set_str_spec c s : valid c ->
  exists c', set_str c s = Ret c' /\ valid c'
  /\ (text c = s -> c' = c)
  /\ (text c <> s -> text c' = typed s /\ cursor c' = length (text c') /\ ctail c' = None).
Proof.
  intros V. unfold set_str. rewrite is_str_spec by assumption. simpl.
  destruct (list_eq_dec N.eq_dec (text c) s) as [E|E].
  - exists c. split; [reflexivity|]. split; [assumption|]. split; [auto|congruence].
  - assert (H : forall s c, valid c -> ctail c = None -> exists c', insert_str c s = Ret c' /\ ctail c' = None /\ valid c').
    { clear. induction s; intros c V T; [exists c; auto|].
      destruct (insert_char_spec a V) as (c1 & E1 & V1 & I1 & T1).
      assert (T1' : ctail c1 = None).
      { destruct (N.eq_dec a c_nl) as [->|Ne]; [|now rewrite T1].
        destruct (valid_inv V) as (pre & l1 & l2 & post & E & _). rewrite E in E1.
        unfold insert_char in E1. simpl in E1. rewrite insert_new_line_eq in E1. inversion E1. simpl. now rewrite T. }
      destruct (IHs c1 V1 T1') as (c2 & E2 & T2 & V2). exists c2. simpl. rewrite E1. simpl. auto. }
    destruct (insert_str_spec s valid_default) as (c' & E' & V' & I1 & I2).
    change (clear c) with content_default.
    exists c'. split; [assumption|]. split; [assumption|]. split; [congruence|]. intros _.
    assert (T : text c' = typed s) by (rewrite I1; simpl; now rewrite app_nil_r).
    split; [assumption|]. split; [rewrite I2, T; reflexivity|].
    destruct (H s content_default valid_default eq_refl) as (c2 & E2 & T2 & _). congruence.
Qed.
