(** * Lemmas on texts: tables and code blocks *)
From Verif Require Import Base L_Base M_Style M_Fit S_Fit L_Fit M_Wrap S_Wrap L_Wrap M_TblFit S_TblFit L_TblFit P_TblFit M_Text S_Text.
Set Implicit Arguments.

(** ** runs *)
Lemma by_runs_mono {A} (p : A -> bool) (R R' : list A -> list A -> Prop) :
  (forall t t', Forall (fun l => p l = true) t -> R t t' -> R' t t') -> forall a b, by_runs p R a b -> by_runs p R' a b.
Proof. intros H a b. induction 1; constructor; auto. Qed.
Lemma all_runs_mono {A} (p : A -> bool) (P P' : list A -> Prop) :
  (forall t, Forall (fun l => p l = true) t -> P t -> P' t) -> forall a, all_runs p P a -> all_runs p P' a.
Proof. intros H a. induction 1; constructor; auto. Qed.

Section Runs.
Context {A : Type} (size : A -> option nat).
Definition sized (l : A) : bool := match size l with Some _ => true | None => false end.
Definition size_of (l : A) : nat := match size l with Some n => n | None => 0 end.
Definition max_size (t : list A) : nat := fold_right Nat.max 0 (map size_of t).

Lemma split_run (l : list A) : exists t a, l = t ++ a /\ Forall (fun x => sized x = true) t /\ starts_out sized a.
Proof.
  induction l as [|x l (t & a & -> & H1 & H2)]; [exists [], []; repeat split; constructor|].
  destruct (sized x) eqn:E.
  - exists (x :: t), a. split; [reflexivity|]. split; [constructor; assumption|exact H2].
  - exists [], (x :: t ++ a). split; [reflexivity|]. split; [constructor|exact E].
Qed.
(** induction on a list by runs *)
Lemma runs_ind (P : list A -> Prop) : P [] -> (forall x l, sized x = false -> P l -> P (x :: l)) ->
  (forall t a, t <> [] -> Forall (fun x => sized x = true) t -> starts_out sized a -> P a -> P (t ++ a)) -> forall l, P l.
Proof.
  intros H0 H1 H2 l. remember (length l) as n eqn:En. assert (Hn : length l <= n) by lia. clear En. revert l Hn.
  induction n as [|n IH]; intros l Hn; [destruct l; [exact H0|cbn in Hn; lia]|].
  destruct (split_run l) as (t & a & -> & Ht & Ha). destruct t as [|x t].
  - destruct a as [|x a]; [exact H0|]. cbn in *. apply H1; [exact Ha|]. apply IH. lia.
  - apply H2; [discriminate|assumption..|]. apply IH. rewrite app_length in Hn. cbn in Hn. lia.
Qed.

Lemma find_runs_in t : forall i c a, Forall (fun x => sized x = true) t -> starts_out sized a ->
  find_runs size i (Some c) (t ++ a) = mkTable (tb_start c) (tb_height c + length t) (Nat.max (tb_nbcols c) (max_size t))
    :: find_runs size (i + length t) None a.
Proof.
  induction t as [|x t IH]; intros i c a Ht Ha; cbn [app].
  - cbn. rewrite Nat.max_0_r, !Nat.add_0_r. replace (mkTable _ _ _) with c by (destruct c; reflexivity).
    destruct a as [|x a]; [reflexivity|]. unfold starts_out, sized in Ha. cbn [find_runs]. destruct (size x); [discriminate|reflexivity].
  - inversion Ht as [|? ? H1 H2]; subst. unfold sized in H1. cbn [find_runs]. destruct (size x) as [n|] eqn:E; [|discriminate].
    rewrite IH by assumption. unfold max_size. cbn [map fold_right length]. cbn [tb_start tb_height tb_nbcols]. unfold size_of at 2. rewrite E.
    rewrite <- Nat.max_assoc. do 2 f_equal; lia.
Qed.
Lemma find_runs_run t i a : t <> [] -> Forall (fun x => sized x = true) t -> starts_out sized a ->
  find_runs size i None (t ++ a) = mkTable i (length t) (max_size t) :: find_runs size (i + length t) None a.
Proof.
  intros Hn Ht Ha. destruct t as [|x t]; [congruence|]. inversion Ht as [|? ? H1 H2]; subst. unfold sized in H1. cbn [find_runs app].
  destruct (size x) as [n|] eqn:E; [|discriminate]. rewrite find_runs_in by assumption. cbn [tb_start tb_height tb_nbcols].
  unfold max_size. cbn [map fold_right length]. unfold size_of at 2. rewrite E. do 2 f_equal; lia.
Qed.
Lemma find_runs_out x i a : sized x = false -> find_runs size i None (x :: a) = find_runs size (S i) None a.
Proof. unfold sized. cbn [find_runs]. destruct (size x); [discriminate|reflexivity]. Qed.

(** changing the runs from the last one to the first one *)
Lemma fold_runs_rev (f : Table -> list A -> outcome (list A)) (R : list A -> list A -> Prop) :
  (forall pre t post out, t <> [] -> Forall (fun x => sized x = true) t ->
     (f (mkTable (length pre) (length t) (max_size t)) (pre ++ t ++ post) = Ret out <-> exists t', R t t' /\ out = pre ++ t' ++ post)) ->
  forall l pre out,
    fold_left (fun ls t => l <- ls ;; f t l) (rev (find_runs size (length pre) None l)) (Ret (pre ++ l)) = Ret out
    <-> exists l', by_runs sized R l l' /\ out = pre ++ l'.
Proof.
  intros Hf l. induction l as [|x l Hx IH|t a Hn Ht Ha IH] using runs_ind; intros pre out.
  - cbn. split; [intros E; injection E as <-; exists []; split; [constructor|reflexivity]|].
    intros (l' & H & ->). inversion H as [| |t t' a b H1 H2 H3 H4 H5 E1 E2]; subst; [reflexivity|]. destruct t; [congruence|discriminate].
  - rewrite find_runs_out by exact Hx. replace (S (length pre)) with (length (pre ++ [x])) by (rewrite app_length; cbn; lia).
    replace (pre ++ x :: l) with ((pre ++ [x]) ++ l) by (rewrite <- app_assoc; reflexivity). rewrite IH. split.
    + intros (l' & H & ->). exists (x :: l'). split; [constructor; assumption|rewrite <- app_assoc; reflexivity].
    + intros (l' & H & ->). inversion H as [|? ? b H1 H2 E1 E2|t t' a b H1 H2 H3 H4 H5 E1 E2]; subst.
      * exists b. split; [assumption|rewrite <- app_assoc; reflexivity].
      * destruct t as [|y t]; [congruence|]. injection E1 as -> E1. inversion H2; subst. congruence.
  - rewrite find_runs_run by assumption. cbn [rev]. rewrite fold_left_app. cbn [fold_left].
    replace (length pre + length t) with (length (pre ++ t)) by apply app_length.
    replace (pre ++ t ++ a) with ((pre ++ t) ++ a) by (rewrite app_assoc; reflexivity). split.
    + intros E. apply bind_Ret_inv in E as (l1 & E1 & E). apply IH in E1 as (a' & Ha' & ->). rewrite <- app_assoc in E.
      apply Hf in E as (t' & Ht' & ->); [|assumption..]. exists (t' ++ a'). split; [constructor; assumption|reflexivity].
    + intros (l' & H & ->). 
      assert (Hinv : exists t' b, l' = t' ++ b /\ R t t' /\ by_runs sized R a b).
      { clear - H Hn Ht Ha. inversion H as [E1 E2|x a0 b H1 H2 E1 E2|t0 t' a0 b H1 H2 H3 H4 H5 E1 E2]; subst.
        - symmetry in E1. apply app_eq_nil in E1 as [E1 _]. congruence.
        - destruct t as [|y t]; [congruence|]. injection E1 as -> E1. inversion Ht; subst. congruence.
        - assert (t0 = t /\ a0 = a) as [-> ->]; [|eauto 6].
          clear - E1 Ht Ha H2 H3. revert t E1 Ht. induction t0 as [|y t0 IH]; intros [|z t] E1 Ht; cbn in *.
          + auto.
          + subst a0. inversion Ht; subst. cbn in H3. congruence.
          + subst a. inversion H2; subst. cbn in Ha. congruence.
          + injection E1 as -> E1. inversion Ht; subst. inversion H2; subst. destruct (IH ltac:(assumption) t E1 ltac:(assumption)) as [-> ->]. auto. }
      destruct Hinv as (t' & b & -> & H1 & H2). rewrite (proj2 (IH (pre ++ t) ((pre ++ t) ++ b))) by (exists b; split; [assumption|reflexivity]).
      rewrite bind_ret, <- app_assoc. apply Hf; [assumption..|]. eauto.
Qed.

(** changing the runs from the first one to the last one, without changing the number of lines *)
Lemma fold_runs_fwd (f : Table -> list A -> list A) (g : nat -> A -> A) :
  (forall pre t post, f (mkTable (length pre) (length t) (max_size t)) (pre ++ t ++ post) = pre ++ map (g (max_size t)) t ++ post) ->
  forall l pre, exists l', fold_left (fun ls t => f t ls) (find_runs size (length pre) None l) (pre ++ l) = pre ++ l'
    /\ by_runs sized (fun t t' => t' = map (g (max_size t)) t) l l'.
Proof.
  intros Hf l. induction l as [|x l Hx IH|t a Hn Ht Ha IH] using runs_ind; intros pre.
  - exists []. split; [reflexivity|constructor].
  - rewrite find_runs_out by exact Hx. replace (S (length pre)) with (length (pre ++ [x])) by (rewrite app_length; cbn; lia).
    replace (pre ++ x :: l) with ((pre ++ [x]) ++ l) by (rewrite <- app_assoc; reflexivity).
    destruct (IH (pre ++ [x])) as (l' & E & H). rewrite E. exists (x :: l'). split; [rewrite <- app_assoc; reflexivity|constructor; assumption].
  - rewrite find_runs_run by assumption. cbn [fold_left]. rewrite Hf.
    replace (length pre + length t) with (length (pre ++ map (g (max_size t)) t)) by (rewrite app_length, map_length; reflexivity).
    rewrite app_assoc. destruct (IH (pre ++ map (g (max_size t)) t)) as (l' & E & H). rewrite E. eexists. split; [symmetry; apply app_assoc|].
    constructor; auto.
Qed.
End Runs.

(** ** phase A: missing cells *)
Lemma push_cols_spec : forall m ws als i, length ws <= i + m -> length als <= i + m -> i <= length ws -> i <= length als ->
  push_cols ws als (seq i m) = (ws ++ repeat 0 (i + m - length ws), als ++ repeat Unspecified (i + m - length als)).
Proof.
  induction m as [|m IH]; intros ws als i H1 H2 H3 H4; cbn [seq push_cols].
  - replace (i + 0 - length ws) with 0 by lia. replace (i + 0 - length als) with 0 by lia. cbn. rewrite !app_nil_r. reflexivity.
  - assert (Hw : exists ws', (if length ws <=? i then ws ++ [0] else ws) = ws' /\ length ws' <= S i + m /\ S i <= length ws'
                 /\ ws' ++ repeat 0 (S i + m - length ws') = ws ++ repeat 0 (i + S m - length ws)).
    { destruct (Nat.leb_spec (length ws) i) as [L|L].
      - exists (ws ++ [0]). split; [reflexivity|]. rewrite app_length. cbn [length]. split; [lia|]. split; [lia|].
        rewrite <- app_assoc. f_equal. replace (i + S m - length ws) with (S (S i + m - (length ws + 1))) by lia. reflexivity.
      - exists ws. split; [reflexivity|]. split; [lia|]. split; [lia|]. do 2 f_equal. lia. }
    assert (Ha : exists als', (if length als <=? i then als ++ [Unspecified] else als) = als' /\ length als' <= S i + m /\ S i <= length als'
                 /\ als' ++ repeat Unspecified (S i + m - length als') = als ++ repeat Unspecified (i + S m - length als)).
    { destruct (Nat.leb_spec (length als) i) as [L|L].
      - exists (als ++ [Unspecified]). split; [reflexivity|]. rewrite app_length. cbn [length]. split; [lia|]. split; [lia|].
        rewrite <- app_assoc. f_equal. replace (i + S m - length als) with (S (S i + m - (length als + 1))) by lia. reflexivity.
      - exists als. split; [reflexivity|]. split; [lia|]. split; [lia|]. do 2 f_equal. lia. }
    destruct Hw as (ws' & -> & W1 & W2 & W3). destruct Ha as (als' & -> & A1 & A2 & A3).
    rewrite IH by lia. rewrite W3, A3. reflexivity.
Qed.
Lemma set_nbcols_spec r n : set_nbcols r n = mkRule (position r)
  (firstn n (widths r) ++ repeat 0 (n - length (widths r))) (firstn n (aligns r) ++ repeat Unspecified (n - length (aligns r))).
Proof.
  unfold set_nbcols. rewrite push_cols_spec; rewrite ?firstn_length; try lia.
  cbn [plus]. do 2 f_equal; f_equal; lia.
Qed.

Definition pad (n : nat) (l : FmtLine) : FmtLine :=
  match l with
  | TableRow cells => TableRow (cells ++ repeat fc_new (n - length cells))
  | TableRule r => TableRule (set_nbcols r n)
  | x => x
  end.
Definition seen_cells (cells : list FmtComposite) : list (nat * nat) := combine (seq 0 (length cells)) (map visible_length cells).
Definition seen_of (l : FmtLine) : list (nat * nat) := match l with TableRow cells => seen_cells cells | _ => [] end.

Lemma see_cells_app a b t : see_cells t (a ++ b) = see_cells (see_cells t a) b.
Proof. revert t. induction a as [|[i w] a IH]; intros t; cbn; [reflexivity|]. apply IH. Qed.
Lemma repeat_snoc {A} (x : A) n : repeat x n ++ [x] = x :: repeat x n.
Proof. induction n; cbn; [reflexivity|]. rewrite IHn. reflexivity. Qed.
Lemma see_row_missing m : forall tf cells, see_row tf cells (seq (length cells) m) = Ret (tf, cells ++ repeat fc_new m).
Proof.
  induction m as [|m IH]; intros tf cells; cbn [seq see_row repeat]; [rewrite app_nil_r; reflexivity|].
  rewrite Nat.leb_refl. replace (S (length cells)) with (length (cells ++ [fc_new])) by (rewrite app_length; cbn; lia).
  rewrite IH, <- app_assoc. reflexivity.
Qed.
Lemma see_row_present : forall rest done tf m,
  see_row tf (done ++ rest) (seq (length done) (length rest + m))
  = see_row (see_cells tf (combine (seq (length done) (length rest)) (map visible_length rest))) (done ++ rest) (seq (length (done ++ rest)) m).
Proof.
  induction rest as [|c rest IH]; intros done tf m.
  - cbn [length plus map seq combine see_cells]. rewrite app_length. cbn [length]. rewrite Nat.add_0_r. reflexivity.
  - cbn [length plus seq see_row map combine see_cells]. rewrite app_length. cbn [length].
    destruct (Nat.leb_spec (length done + S (length rest)) (length done)); [lia|]. rewrite idx_app_mid, bind_ret.
    replace (done ++ c :: rest) with ((done ++ [c]) ++ rest) by (rewrite <- app_assoc; reflexivity).
    replace (S (length done)) with (length (done ++ [c])) by (rewrite app_length; cbn; lia). rewrite IH.
    f_equal. f_equal. rewrite !app_length. cbn. lia.
Qed.
Lemma see_row_spec tf cells n : length cells <= n -> see_row tf cells (seq 0 n) = Ret (see_cells tf (seen_cells cells), cells ++ repeat fc_new (n - length cells)).
Proof.
  intros H. pose proof (see_row_present cells [] tf (n - length cells)) as E. cbn [app length] in E.
  replace (length cells + (n - length cells)) with n in E by lia. rewrite E, see_row_missing. reflexivity.
Qed.
Lemma see_lines_spec n : forall t tf, Forall (fun l => is_table l = true) t -> Forall (fun l => cols_asked l <= n) t ->
  see_lines n tf t = Ret (see_cells tf (flat_map seen_of t), map (pad n) t).
Proof.
  induction t as [|l t IH]; intros tf Ht Hn; [reflexivity|]. inversion Ht; subst. inversion Hn; subst.
  destruct l as [fc|cells|r|]; try discriminate; cbn [see_lines flat_map seen_of map pad].
  - rewrite see_row_spec by assumption. rewrite bind_ret. rewrite IH by assumption. rewrite bind_ret, see_cells_app. reflexivity.
  - rewrite IH by assumption. reflexivity.
Qed.

(** ** phase B: wrapping the cells *)
Definition cell_lines (u : unicode) (k : MadSkin) (c : FmtComposite) (w : nat) : outcome (list FmtComposite) :=
  if w <? visible_length c then
    (o <- hard_wrap_composite u k c w ;; match o with Some (f :: r) => Ret (f :: r) | _ => Panic end)
  else Ret [c].
Definition cells_lines (u : unicode) (k : MadSkin) (ws : list nat) (cells : list FmtComposite) (css : list (list FmtComposite)) : Prop :=
  Forall2 (fun cw ls => cell_lines u k (fst cw) (snd cw) = Ret ls) (combine cells ws) css.
Definition first_of (ls : list FmtComposite) : FmtComposite := hd fc_new ls.

Lemma wrap_cells_missing u k ws m : forall cells to_add,
  wrap_cells u k ws cells to_add (seq (length cells) m) = Ret (cells ++ repeat fc_new m, to_add).
Proof.
  induction m as [|m IH]; intros cells to_add; cbn [seq wrap_cells repeat]; [rewrite app_nil_r; reflexivity|].
  rewrite Nat.leb_refl. replace (S (length cells)) with (length (cells ++ [fc_new])) by (rewrite app_length; cbn; lia).
  rewrite IH, <- app_assoc. reflexivity.
Qed.
Lemma wrap_cells_iff u k : forall rest done adds wd wr r,
  length wd = length done -> length adds = length done -> length rest <= length wr ->
  (wrap_cells u k (wd ++ wr) (done ++ rest) adds (seq (length done) (length wr)) = Ret r
   <-> exists css, cells_lines u k wr rest css
       /\ r = (done ++ map first_of css ++ repeat fc_new (length wr - length rest), adds ++ map (@tl _) css)).
Proof.
  induction rest as [|c rest IH]; intros done adds wd wr r Hwd Ha Hr.
  - rewrite app_nil_r, wrap_cells_missing. unfold cells_lines. cbn [combine length]. rewrite Nat.sub_0_r. split.
    + intros E. injection E as <-. exists []. split; [constructor|]. cbn. rewrite app_nil_r. reflexivity.
    + intros (css & H & ->). inversion H; subst. cbn. rewrite app_nil_r. reflexivity.
  - destruct wr as [|w wr]; [cbn in Hr; lia|]. cbn [length seq wrap_cells]. rewrite app_length. cbn [length] in *.
    destruct (Nat.leb_spec (length done + S (length rest)) (length done)); [lia|]. cbv zeta. rewrite idx_app_mid, bind_ret.
    replace (length done) with (length wd) at 1 by exact Hwd. rewrite idx_app_mid, bind_ret. unfold cells_lines. cbn [combine fst snd].
    unfold cell_lines. destruct (Nat.ltb_spec w (visible_length c)) as [L|L].
    + assert (Hstep : forall f o, wrap_cells u k (wd ++ w :: wr) (set_nth (length done) f (done ++ c :: rest)) (set_nth (length done) ([] ++ o) (adds ++ [[]]))
               (seq (S (length done)) (length wr)) = Ret r
             <-> exists css, Forall2 (fun cw ls => cell_lines u k (fst cw) (snd cw) = Ret ls) (combine rest wr) css
                 /\ r = (done ++ (f :: map first_of css) ++ repeat fc_new (S (length wr) - S (length rest)), adds ++ o :: map (@tl _) css)).
      { intros f o. rewrite set_nth_mid. rewrite <- Ha at 1. rewrite set_nth_mid.
        replace (wd ++ w :: wr) with ((wd ++ [w]) ++ wr) by (rewrite <- app_assoc; reflexivity).
        replace (done ++ f :: rest) with ((done ++ [f]) ++ rest) by (rewrite <- app_assoc; reflexivity).
        replace (S (length done)) with (length (done ++ [f])) by (rewrite app_length; cbn; lia).
        rewrite IH; [|rewrite ?app_length; cbn; lia..]. unfold cells_lines. cbn [Nat.sub app].
        split; intros (css & H1 & H2); exists css; (split; [exact H1|]); rewrite H2; rewrite <- !app_assoc; reflexivity. }
      split.
      * intros E. apply bind_Ret_inv in E as (o & Eo & E). destruct o as [[|f o]|]; try discriminate.
        replace (length done) with (length adds) in E at 1 by exact Ha. rewrite idx_app_mid, bind_ret in E. apply Hstep in E as (css & H1 & H2).
        exists ((f :: o) :: css). split; [|exact H2]. constructor; [|exact H1]. cbn [fst snd]. destruct (Nat.ltb_spec w (visible_length c)); [|lia].
        rewrite Eo. reflexivity.
      * intros (css & H1 & H2). inversion H1 as [|? ls ? css' Hc Hcs E1 E2]; subst css. cbn [fst snd] in Hc.
        destruct (Nat.ltb_spec w (visible_length c)); [|lia]. apply bind_Ret_inv in Hc as (o & Eo & Hc). rewrite Eo, bind_ret.
        destruct o as [[|f o]|]; try discriminate. injection Hc as <-. 
        replace (length done) with (length adds) at 1 by exact Ha. rewrite idx_app_mid, bind_ret. apply Hstep. exists css'. split; [exact Hcs|exact H2].
    + replace (wd ++ w :: wr) with ((wd ++ [w]) ++ wr) by (rewrite <- app_assoc; reflexivity).
      replace (done ++ c :: rest) with ((done ++ [c]) ++ rest) by (rewrite <- app_assoc; reflexivity).
      replace (S (length done)) with (length (done ++ [c])) by (rewrite app_length; cbn; lia).
      rewrite IH; [|rewrite ?app_length; cbn; lia..]. unfold cells_lines. split.
      * intros (css & H1 & H2). exists ([c] :: css). split.
        -- constructor; [|exact H1]. cbn [fst snd]. destruct (Nat.ltb_spec w (visible_length c)); [lia|reflexivity].
        -- rewrite H2. cbn [map first_of hd tl Nat.sub]. rewrite <- !app_assoc. reflexivity.
      * intros (css & H1 & H2). inversion H1 as [|? ls ? css' Hc Hcs E1 E2]; subst css. cbn [fst snd] in Hc.
        destruct (Nat.ltb_spec w (visible_length c)); [lia|]. injection Hc as <-. exists css'. split; [exact Hcs|].
        rewrite H2. cbn [map first_of hd tl Nat.sub]. rewrite <- !app_assoc. reflexivity.
Qed.

(** the rows to insert *)
Definition nth_or_new (i : nat) (l : list FmtComposite) : FmtComposite := nth i l fc_new.
Lemma pick_cells_spec : forall to_add i, Forall (fun c => length c <= S i) to_add ->
  pick_cells i to_add = Ret (map (nth_or_new i) to_add, map (firstn i) to_add).
Proof.
  induction to_add as [|c to_add IH]; intros i H; [reflexivity|]. inversion H as [|? ? H1 H2]; subst. cbn [pick_cells map].
  destruct (Nat.ltb_spec i (length c)) as [L|L].
  - destruct (nth_error c i) as [x|] eqn:E; [|apply nth_error_None in E; lia]. unfold vec_remove. rewrite E, bind_ret.
    rewrite IH by assumption. rewrite bind_ret. unfold nth_or_new at 2. rewrite (nth_error_nth c i fc_new E).
    rewrite skipn_all2 by lia. rewrite app_nil_r. reflexivity.
  - rewrite bind_ret, IH by assumption. rewrite bind_ret. unfold nth_or_new at 2. rewrite nth_overflow by lia.
    rewrite firstn_all2 by lia. reflexivity.
Qed.
Lemma insert_rows_spec nbcols pre l post : forall nb to_add height, length to_add <= nbcols -> Forall (fun c => length c <= nb) to_add ->
  insert_rows nbcols (length pre) nb to_add (pre ++ l :: post) height
  = Ret (pre ++ l :: map (fun i => TableRow (map (nth_or_new i) to_add)) (seq 0 nb) ++ post, height + nb).
Proof.
  intros nb. revert post. induction nb as [|nb IH]; intros post to_add height Hl Hc; cbn [insert_rows].
  - rewrite Nat.add_0_r. reflexivity.
  - rewrite firstn_all2 by exact Hl. rewrite skipn_all2 by exact Hl. rewrite pick_cells_spec by exact Hc. rewrite bind_ret, app_nil_r.
    replace (pre ++ l :: post) with ((pre ++ [l]) ++ post) by (rewrite <- app_assoc; reflexivity).
    replace (length pre + 1) with (length (pre ++ [l])) by (rewrite app_length; reflexivity).
    rewrite vec_insert_mid by reflexivity. rewrite bind_ret, <- app_assoc. cbn [app]. rewrite IH.
    + rewrite seq_S, map_app. cbn [plus map]. rewrite <- !app_assoc. cbn [app]. f_equal. f_equal; [|lia]. do 2 f_equal. f_equal.
      apply map_ext_in. intros i Hi. apply in_seq in Hi. f_equal. rewrite map_map. apply map_ext. intros c. unfold nth_or_new.
      rewrite <- (firstn_skipn nb c) at 2. destruct (Nat.lt_ge_cases i (length c)).
      * rewrite app_nth1; [reflexivity|]. rewrite firstn_length. lia.
      * rewrite !nth_overflow; [reflexivity|..]; rewrite ?app_length, ?firstn_length, ?skipn_length; lia.
    + rewrite map_length. exact Hl.
    + apply Forall_map. apply Forall_forall. intros c _. rewrite firstn_length. lia.
Qed.
Lemma max_len_fold (l : list (list FmtComposite)) : forall m, fold_left (fun m c => Nat.max m (length c)) l m = Nat.max m (fold_right Nat.max 0 (map (@length _) l)).
Proof. induction l as [|x l IH]; intros m; cbn; [lia|]. rewrite IH. lia. Qed.
Lemma fold_max_in l x : In x l -> x <= fold_right Nat.max 0 l.
Proof. induction l; cbn; [tauto|]. intros [->|H]; [lia|]. specialize (IHl H). lia. Qed.

(** the rows replacing a line of a table *)
Definition group_of (n : nat) (css : list (list FmtComposite)) : list FmtLine :=
  TableRow (map first_of css ++ repeat fc_new (n - length css))
  :: map (fun i => TableRow (map (fun ls => nth_or_new i (tl ls)) css)) (seq 0 (fold_right Nat.max 0 (map (fun ls => length (tl ls)) css))).
Definition row_group (u : unicode) (k : MadSkin) (ws : list nat) (l : FmtLine) (g : list FmtLine) : Prop :=
  match l with
  | TableRow cells => exists css, cells_lines u k ws (firstn (length ws) cells) css /\ g = group_of (length ws) css
  | x => g = [x]
  end.
Lemma Forall2_len {A B} (P : A -> B -> Prop) l l' : Forall2 P l l' -> length l = length l'.
Proof. induction 1; cbn; congruence. Qed.
Lemma cells_lines_length u k ws cells css : cells_lines u k ws cells css -> length cells <= length ws -> length css = length cells.
Proof. intros H Hl. apply Forall2_len in H. rewrite combine_length in H. lia. Qed.

Lemma wrap_rows_iff u k ws pre : forall t post height r,
  (wrap_rows u k ws (length ws) (length pre) (length t) (pre ++ t ++ post) height = Ret r
   <-> exists gs, Forall2 (row_group u k ws) t gs /\ r = (pre ++ concat gs ++ post, height + (length (concat gs) - length t))
         /\ length t <= length (concat gs)).
Proof.
  intros t. induction t as [|l t IH] using rev_ind; intros post height r; cbn [length wrap_rows].
  - split.
    + intros E. injection E as <-. exists []. split; [constructor|]. cbn. rewrite Nat.add_0_r. split; [reflexivity|lia].
    + intros (gs & H & -> & _). inversion H; subst. cbn. rewrite Nat.add_0_r. reflexivity.
  - rewrite app_length. cbn [length]. rewrite Nat.add_1_r. cbn [wrap_rows]. cbv zeta.
    replace (pre ++ (t ++ [l]) ++ post) with ((pre ++ t) ++ l :: post) by (rewrite <- !app_assoc; reflexivity).
    replace (length pre + length t) with (length (pre ++ t)) by apply app_length. rewrite idx_app_mid, bind_ret.
    assert (Hstep : forall g h, (wrap_rows u k ws (length ws) (length pre) (length t) ((pre ++ t) ++ g ++ post) h = Ret r
       <-> exists gs, Forall2 (row_group u k ws) t gs /\ r = (pre ++ concat (gs ++ [g]) ++ post, h + (length (concat gs) - length t)) /\ length t <= length (concat gs))).
    { intros g h. rewrite <- app_assoc. rewrite (IH (g ++ post)).
      split; intros (gs & H1 & H2 & H3); exists gs; (split; [exact H1|]); (split; [|exact H3]); rewrite H2; rewrite concat_app; cbn; rewrite app_nil_r, <- !app_assoc; reflexivity. }
    assert (Hsplit : forall gs, Forall2 (row_group u k ws) (t ++ [l]) gs <-> exists gs' g, gs = gs' ++ [g] /\ Forall2 (row_group u k ws) t gs' /\ row_group u k ws l g).
    { intros gs. split.
      - intros H. apply Forall2_app_inv_l in H as (gs' & gl & H1 & H2 & ->). inversion H2 as [|? g ? ? H3 H4]; subst. inversion H4; subst. eauto.
      - intros (gs' & g & -> & H1 & H2). apply Forall2_app; [assumption|]. constructor; [assumption|constructor]. }
    assert (Hother : (forall cells, l <> TableRow cells) -> (wrap_rows u k ws (length ws) (length pre) (length t) ((pre ++ t) ++ l :: post) height = Ret r
       <-> exists gs, Forall2 (row_group u k ws) (t ++ [l]) gs /\ r = (pre ++ concat gs ++ post, height + (length (concat gs) - S (length t))) /\ S (length t) <= length (concat gs))).
    { intros Hl. change (l :: post) with ([l] ++ post). rewrite Hstep. split.
      - intros (gs & H1 & H2 & H3). exists (gs ++ [[l]]). split; [apply Hsplit; exists gs, [l]; split; [reflexivity|]; split; [exact H1|]; destruct l; try reflexivity; exfalso; eapply Hl; reflexivity|].
        rewrite H2, concat_app, app_length. cbn. split; [do 2 f_equal; lia|lia].
      - intros (gs & H1 & H2 & H3). apply Hsplit in H1 as (gs' & g & -> & H1 & Hg). exists gs'. split; [exact H1|].
        assert (g = [l]) as -> by (destruct l; try exact Hg; exfalso; eapply Hl; reflexivity).
        assert (El : length (concat (gs' ++ [[l]])) = S (length (concat gs'))) by (rewrite concat_app, app_length; cbn; lia).
        rewrite El in H2, H3. split; [|lia]. rewrite H2. reflexivity. }
    destruct l as [fc|cells|rule|]; try (apply Hother; discriminate).
    clear Hother. split.
    + intros E. apply bind_Ret_inv in E as ([cells' to_add] & E1 & E).
      pose proof (@wrap_cells_iff u k (firstn (length ws) cells) [] [] [] ws (cells', to_add) eq_refl eq_refl) as Hw. rewrite firstn_length in Hw.
      cbn [app length] in Hw. apply Hw in E1; [|lia]. clear Hw. destruct E1 as (css & Hcss & E1). injection E1 as -> ->.
      pose proof (cells_lines_length Hcss) as Hlen. rewrite firstn_length in Hlen. specialize (Hlen ltac:(lia)).
      rewrite set_nth_mid in E. rewrite max_len_fold in E. cbn [Nat.max] in E. rewrite insert_rows_spec in E.
      * rewrite bind_ret in E. 
        match type of E with wrap_rows _ _ _ _ _ _ (_ ++ ?x :: ?y ++ post) _ = _ => change (x :: y ++ post) with ((x :: y) ++ post) in E end.
        apply Hstep in E as (gs & H1 & H2 & H3). 
        match type of H2 with _ = (_ ++ concat (_ ++ [?g]) ++ _, _) => assert (Hg : g = group_of (length ws) css) end.
        { unfold group_of. rewrite Hlen. f_equal. rewrite !map_map. apply map_ext. intros i. rewrite map_map. reflexivity. }
        rewrite Hg in H2. exists (gs ++ [group_of (length ws) css]). split; [apply Hsplit; eexists _, _; split; [reflexivity|]; split; [exact H1|]; exists css; split; [exact Hcss|reflexivity]|].
        rewrite H2. rewrite concat_app, app_length. cbn [concat app length group_of]. rewrite app_nil_r. cbn [length]. rewrite !map_length, !seq_length, !map_map. split; [|lia].
        f_equal. lia.
      * rewrite map_length. lia.
      * apply Forall_forall. intros c Hc. apply fold_max_in. apply in_map. exact Hc.
    + intros (gs & H1 & H2 & H3). apply Hsplit in H1 as (gs' & g & -> & H1 & (css & Hcss & Hg)).
      pose proof (cells_lines_length Hcss) as Hlen. rewrite firstn_length in Hlen. specialize (Hlen ltac:(lia)).
      pose proof (@wrap_cells_iff u k (firstn (length ws) cells) [] [] [] ws (map first_of css ++ repeat fc_new (length ws - length css), map (@tl _) css) eq_refl eq_refl) as Hw. rewrite firstn_length in Hw.
      cbn [app length] in Hw. destruct Hw as [_ Hw]; [lia|]. rewrite Hw; [|exists css; split; [exact Hcss|]; rewrite Hlen; reflexivity]. clear Hw.
      rewrite bind_ret, set_nth_mid, max_len_fold. cbn [Nat.max]. rewrite insert_rows_spec.
      * rewrite bind_ret.
        match goal with |- wrap_rows _ _ _ _ _ _ (_ ++ ?x :: ?y ++ post) _ = _ => change (x :: y ++ post) with ((x :: y) ++ post) end.
        apply Hstep. exists gs'. split; [exact H1|].
        match goal with |- _ = (_ ++ concat (_ ++ [?g']) ++ _, _) /\ _ => assert (Hg' : g' = g) end.
        { rewrite Hg. unfold group_of. f_equal. rewrite !map_map. apply map_ext. intros i. rewrite map_map. reflexivity. }
        rewrite Hg'. assert (Hgs : length t <= length (concat gs')).
        { clear - H1. induction H1 as [|l g t gs Hg _ IH]; [cbn; lia|]. cbn. rewrite app_length.
          assert (1 <= length g) by (destruct l; cbn in Hg; [subst; cbn; lia| |subst; cbn; lia|subst; cbn; lia]; destruct Hg as (css & _ & ->); cbn; lia). lia. }
        split; [|exact Hgs]. rewrite H2, concat_app, app_length. cbn [concat]. rewrite app_nil_r.
        assert (length g = S (fold_right Nat.max 0 (map (fun ls => length (tl ls)) css))) as -> by (rewrite Hg; unfold group_of; cbn [length]; rewrite map_length, seq_length; reflexivity).
        rewrite !map_map. f_equal. lia.
      * rewrite map_length. lia.
      * apply Forall_forall. intros c Hc. apply fold_max_in. apply in_map. exact Hc.
Qed.

(** ** phase C: alignments *)
Definition spaced (ws : list nat) (als : list Alignment) (cells : list FmtComposite) : list FmtComposite :=
  map (fun cwa => with_spacing (fst cwa) (Some (mkSpacing (fst (snd cwa)) (snd (snd cwa))))) (combine cells (combine ws als)) ++ skipn (length ws) cells.
Lemma space_cells_iff : forall wr ar wd ad done rest r, length wd = length done -> length ad = length done -> length ar = length wr ->
  (space_cells (wd ++ wr) (ad ++ ar) (done ++ rest) (seq (length done) (length wr)) = Ret r
   <-> length wr <= length rest /\ r = done ++ spaced wr ar rest).
Proof.
  unfold spaced. induction wr as [|w wr IH]; intros [|a ar] wd ad done rest r Hw Ha Hr; try discriminate; cbn [length seq space_cells combine skipn].
  - replace (combine rest []) with (@nil (FmtComposite * (nat * Alignment))) by (destruct rest; reflexivity). cbn [map app].
    split; [intros E; injection E as <-; split; [lia|reflexivity]|intros [_ ->]; reflexivity].
  - replace (length done) with (length wd) at 1 by exact Hw. rewrite idx_app_mid, bind_ret.
    replace (length done) with (length ad) at 1 by exact Ha. rewrite idx_app_mid, bind_ret.
    destruct rest as [|c rest].
    + rewrite app_nil_r. unfold idx. rewrite (proj2 (nth_error_None done (length done))) by lia. cbn. split; [discriminate|intros [H _]; lia].
    + rewrite idx_app_mid, bind_ret, set_nth_mid. cbn [combine map skipn app fst snd length].
      set (c' := with_spacing _ _).
      replace (wd ++ w :: wr) with ((wd ++ [w]) ++ wr) by (rewrite <- app_assoc; reflexivity).
      replace (ad ++ a :: ar) with ((ad ++ [a]) ++ ar) by (rewrite <- app_assoc; reflexivity).
      replace (done ++ c' :: rest) with ((done ++ [c']) ++ rest) by (rewrite <- app_assoc; reflexivity).
      replace (S (length done)) with (length (done ++ [c'])) by (rewrite app_length; cbn; lia).
      rewrite IH; [|rewrite ?app_length; cbn in *; lia..]. rewrite <- app_assoc. cbn [app].
      split; intros [H1 H2]; (split; [lia|exact H2]).
Qed.
Definition rule_cols (removed : bool) (n : nat) (r : FmtTableRule) : FmtTableRule := if removed then set_nbcols r n else r.
Inductive aligned (removed : bool) (ws : list nat) : bool -> list Alignment -> list FmtLine -> list FmtLine -> Prop :=
| al_nil (f : bool) als : aligned removed ws f als [] []
| al_row (f : bool) als cells r r' : length ws <= length cells -> aligned removed ws false als r r' ->
    aligned removed ws f als (TableRow cells :: r) (TableRow (spaced ws als cells) :: r')
| al_rule (f : bool) als rule r r' pos : length ws <= length (widths (rule_cols removed (length ws) rule)) ->
    length ws <= length (aligns (rule_cols removed (length ws) rule)) ->
    pos = (if f then Top else match r with [] => Bottom | _ => position rule end) ->
    aligned removed ws false (firstn (length ws) (aligns (rule_cols removed (length ws) rule))) r r' ->
    aligned removed ws f als (TableRule rule :: r)
      (TableRule (mkRule pos (ws ++ skipn (length ws) (widths (rule_cols removed (length ws) rule))) (aligns (rule_cols removed (length ws) rule))) :: r').

Lemma rule_cols_position removed n r : position (rule_cols removed n r) = position r.
Proof. unfold rule_cols. destruct removed; [rewrite set_nbcols_spec|]; reflexivity. Qed.
Lemma align_lines_iff removed ws pre post : forall rest als done out, length als = length ws ->
  (align_lines removed ws (length ws) (length pre) (length done + length rest) als (seq (length pre + length done) (length rest)) (pre ++ done ++ rest ++ post) = Ret out
   <-> exists rest', aligned removed ws (match done with [] => true | _ => false end) als rest rest' /\ out = pre ++ done ++ rest' ++ post).
Proof.
  induction rest as [|l rest IH]; intros als done out Hals; cbn [length seq align_lines].
  - split; [intros E; injection E as <-; exists []; split; [constructor|reflexivity]|]. intros (r & H & ->). inversion H; subst. reflexivity.
  - replace (pre ++ done ++ (l :: rest) ++ post) with ((pre ++ done) ++ l :: rest ++ post) by (rewrite <- app_assoc; reflexivity).
    replace (length pre + length done) with (length (pre ++ done)) by apply app_length. rewrite idx_app_mid, bind_ret.
    assert (Hstep : forall l' als', length als' = length ws ->
      (align_lines removed ws (length ws) (length pre) (length done + S (length rest)) als' (seq (S (length (pre ++ done))) (length rest))
         (set_nth (length (pre ++ done)) l' ((pre ++ done) ++ l :: rest ++ post)) = Ret out
       <-> exists rest', aligned removed ws false als' rest rest' /\ out = pre ++ done ++ (l' :: rest') ++ post)).
    { intros l' als' Hals'. rewrite set_nth_mid. specialize (IH als' (done ++ [l']) out Hals').
      replace (length (done ++ [l']) + length rest) with (length done + S (length rest)) in IH by (rewrite app_length; cbn; lia).
      replace (length pre + length (done ++ [l'])) with (S (length (pre ++ done))) in IH by (rewrite !app_length; cbn; lia).
      replace ((pre ++ done) ++ l' :: rest ++ post) with (pre ++ (done ++ [l']) ++ rest ++ post) by (rewrite <- !app_assoc; reflexivity).
      rewrite IH. replace (match done ++ [l'] with [] => true | _ => false end) with false by (destruct done; reflexivity).
      split; intros (r & H1 & H2); exists r; (split; [exact H1|]); rewrite H2, <- !app_assoc; reflexivity. }
    destruct l as [fc|cells|rule|].
    + split; [discriminate|]. intros (r & H & _). inversion H.
    + pose proof (@space_cells_iff ws als [] [] [] cells) as Hs. cbn [app length] in Hs. split.
      * intros E. apply bind_Ret_inv in E as (cells' & E1 & E). apply Hs in E1 as [H1 ->]; [|reflexivity|reflexivity|assumption].
        apply Hstep in E as (r & H2 & ->); [|assumption]. eexists. split; [|reflexivity]. constructor; assumption.
      * intros (r & H & ->). inversion H; subst. rewrite (proj2 (Hs (spaced ws als cells) eq_refl eq_refl Hals)); [|split; [assumption|reflexivity]].
        rewrite bind_ret. apply Hstep; [assumption|]. eexists. split; [eassumption|reflexivity].
    + cbv zeta. rewrite csub_ret, bind_ret by lia. fold (rule_cols removed (length ws) rule). rewrite rule_cols_position.
      set (rc := rule_cols removed (length ws) rule).
      assert (Hpos : (if length (pre ++ done) =? length pre then Top
                      else if length (pre ++ done) =? length pre + (length done + S (length rest)) - 1 then Bottom else position rule)
                     = (if match done with [] => true | _ => false end then Top else match rest with [] => Bottom | _ => position rule end)).
      { rewrite app_length. destruct done as [|d done]; cbn [length].
        - rewrite Nat.add_0_r, Nat.eqb_refl. reflexivity.
        - destruct (Nat.eqb_spec (length pre + S (length done)) (length pre)); [lia|].
          destruct (Nat.eqb_spec (length pre + S (length done)) (length pre + (S (length done) + S (length rest)) - 1)) as [E|E];
            destruct rest as [|? rest]; cbn [length] in E; try lia; reflexivity. }
      rewrite Hpos. clear Hpos. unfold copy_slice.
      split.
      * intros E. apply bind_Ret_inv in E as (rws & E1 & E). apply bind_Ret_inv in E as (als' & E2 & E).
        destruct (Nat.leb_spec (length ws) (length (widths rc))); [|discriminate]. rewrite Nat.leb_refl in E1. cbn [andb] in E1. injection E1 as <-.
        rewrite Hals, Nat.leb_refl in E2. destruct (Nat.leb_spec (length ws) (length (aligns rc))); [|discriminate]. cbn [andb] in E2. injection E2 as <-.
        rewrite (skipn_all2 als) in E by lia. rewrite app_nil_r in E. rewrite firstn_all in E.
        apply Hstep in E as (r & H2 & ->); [|rewrite firstn_length; lia]. eexists. split; [|reflexivity]. eapply al_rule; try assumption. reflexivity.
      * intros (r & H & ->). inversion H as [| |? ? ? ? r' pos Hw Ha Hpos Hrest]; subst. fold rc in Hw, Ha, Hrest |- *.
        destruct (Nat.leb_spec (length ws) (length (widths rc))); [|lia]. rewrite Nat.leb_refl. cbn [andb]. rewrite bind_ret.
        rewrite Hals, Nat.leb_refl. destruct (Nat.leb_spec (length ws) (length (aligns rc))); [|lia]. cbn [andb]. rewrite bind_ret.
        rewrite (skipn_all2 als) by lia. rewrite app_nil_r, firstn_all. apply Hstep; [rewrite firstn_length; lia|]. eexists. split; [exact Hrest|reflexivity].
    + split; [discriminate|]. intros (r & H & _). inversion H.
Qed.

(** ** one table *)
Inductive laid_out (u : unicode) (k : MadSkin) (width : nat) (t t' : list FmtLine) : Prop :=
| lo_same : table_cols t = 0 \/ width = 0 -> t' = t -> laid_out u k width t t'
| lo_all ws gs : 0 < table_cols t -> 4 * table_cols t + 1 <= width -> length ws = table_cols t ->
    (exists tf r, tf_new (table_cols t) width = Ret (Some tf) /\ tf_fit (see_cells tf (flat_map seen_of t)) = Ret r /\ ws = col_widths r) ->
    Forall2 (row_group u k ws) (map (pad (table_cols t)) t) gs ->
    aligned false ws true (repeat Center (table_cols t)) (concat gs) t' -> laid_out u k width t t'
| lo_cut ws gs : 0 < width < 4 * table_cols t + 1 -> ws = repeat 3 ((width - 1) / 4) ->
    Forall2 (row_group u k ws) t gs ->
    aligned true ws true (repeat Center (length ws)) (concat gs) t' -> laid_out u k width t t'.

Lemma sized_table l : sized table_size l = is_table l.
Proof. destruct l; reflexivity. Qed.
Lemma max_size_table t : max_size table_size t = table_cols t.
Proof. unfold max_size, table_cols. f_equal. apply map_ext. intros []; reflexivity. Qed.
Lemma cols_asked_le t : Forall (fun l => cols_asked l <= table_cols t) t.
Proof. apply Forall_forall. intros l H. apply fold_max_in. apply in_map. exact H. Qed.

Lemma row_group_len u k ws t gs : Forall2 (row_group u k ws) t gs -> length t <= length (concat gs).
Proof.
  induction 1 as [|l g t gs Hg _ IH]; [cbn; lia|]. cbn. rewrite app_length.
  assert (1 <= length g) by (destruct l; cbn in Hg; [subst; cbn; lia| |subst; cbn; lia|subst; cbn; lia]; destruct Hg as (css & _ & ->); cbn; lia). lia.
Qed.
Lemma fix_end u k removed ws pre t post out :
  ('(lines, height) <- wrap_rows u k ws (length ws) (length pre) (length t) (pre ++ t ++ post) (length t) ;;
   align_lines removed ws (length ws) (length pre) height (repeat Center (length ws)) (seq (length pre) height) lines) = Ret out
  <-> exists gs t', Forall2 (row_group u k ws) t gs /\ aligned removed ws true (repeat Center (length ws)) (concat gs) t' /\ out = pre ++ t' ++ post.
Proof.
  assert (Ha : forall gs, align_lines removed ws (length ws) (length pre) (length (concat gs)) (repeat Center (length ws)) (seq (length pre) (length (concat gs))) (pre ++ concat gs ++ post) = Ret out
     <-> exists t', aligned removed ws true (repeat Center (length ws)) (concat gs) t' /\ out = pre ++ t' ++ post).
  { intros gs. pose proof (@align_lines_iff removed ws pre post (concat gs) (repeat Center (length ws)) [] out ltac:(apply repeat_length)) as H.
    cbn [app length plus] in H. rewrite Nat.add_0_r in H. exact H. }
  split.
  - intros E. apply bind_Ret_inv in E as ([lines height] & E1 & E). apply wrap_rows_iff in E1 as (gs & HF & E1 & HL). injection E1 as -> ->.
    replace (length t + (length (concat gs) - length t)) with (length (concat gs)) in E by lia. apply Ha in E as (t' & H1 & ->). eauto 6.
  - intros (gs & t' & HF & H1 & ->). pose proof (row_group_len HF) as HL.
    rewrite (proj2 (@wrap_rows_iff u k ws pre t post (length t) (pre ++ concat gs ++ post, length (concat gs)))).
    + rewrite bind_ret. apply Ha. eauto.
    + exists gs. split; [exact HF|]. split; [f_equal; lia|exact HL].
Qed.

Lemma fix_columns_iff u k width pre t post out : t <> [] -> Forall (fun l => is_table l = true) t ->
  (fix_columns u k (mkTable (length pre) (length t) (table_cols t)) (pre ++ t ++ post) width = Ret out
   <-> exists t', laid_out u k width t t' /\ out = pre ++ t' ++ post).
Proof.
  intros Hn Ht. unfold fix_columns. cbn [tb_start tb_height tb_nbcols].
  destruct ((table_cols t =? 0) || (width =? 0)) eqn:E0.
  - assert (H0 : table_cols t = 0 \/ width = 0) by (apply orb_true_iff in E0 as [E|E]; apply Nat.eqb_eq in E; auto). split.
    + intros E. injection E as <-. exists t. split; [apply lo_same; auto|reflexivity].
    + intros (t' & H & ->). inversion H; subst; try reflexivity; lia.
  - apply orb_false_iff in E0 as [E0 E1]. apply Nat.eqb_neq in E0, E1.
    destruct (Nat.le_gt_cases (4 * table_cols t + 1) width) as [L|L].
    + destruct (C21_fit (table_cols t) width (flat_map seen_of t) L) as (tf & r & Etf & Er & Hlen & H3 & _). rewrite Etf, bind_ret.
      rewrite (skipn_app_exact pre) by reflexivity. rewrite (firstn_app_exact t) by reflexivity. rewrite see_lines_spec; [|exact Ht|apply cols_asked_le].
      rewrite bind_ret, Er, bind_ret, bind_ret. rewrite (firstn_app_exact pre) by reflexivity. rewrite (skipn_app_exact t) by reflexivity.
      pose proof (fix_end u k false (col_widths r) pre (map (pad (table_cols t)) t) post out) as Hfe. rewrite map_length, Hlen in Hfe. rewrite Hfe. split.
      * intros (gs & t' & HF & Ha & ->). exists t'. split; [|reflexivity]. eapply lo_all; [lia|exact L|exact Hlen|exists tf, r; repeat split; assumption|exact HF|exact Ha].
      * intros (t' & H & ->). destruct H as [|ws gs Hc _ Hw (tf' & r' & Etf' & Er' & ->) HF Ha|]; [lia| |lia].
        assert (tf' = tf) by congruence. subst tf'. assert (r' = r) by congruence. subst r'. exists gs, t'. split; [exact HF|]. split; [exact Ha|reflexivity].
    + rewrite (proj2 (C21_error _ _) L), bind_ret. rewrite csub_ret, bind_ret by lia. rewrite bind_ret.
      set (ws := repeat 3 ((width - 1) / 4)). assert (Hws : length ws = (width - 1) / 4) by apply repeat_length.
      rewrite <- Hws. rewrite fix_end. split.
      * intros (gs & t' & HF & Ha & ->). exists t'. split; [|reflexivity]. eapply lo_cut; [lia|reflexivity|exact HF|exact Ha].
      * intros (t' & H & ->). destruct H as [|ws' gs Hc Hc' Hw _ HF Ha|ws' gs Hc -> HF Ha]; [lia|lia|]. exists gs, t'. split; [exact HF|]. split; [exact Ha|reflexivity].
Qed.

Lemma fix_all_iff u k width lines out :
  fix_all_tables u k lines width = Ret out <-> by_runs is_table (laid_out u k width) lines out.
Proof.
  unfold fix_all_tables, find_tables.
  pose proof (@fold_runs_rev _ table_size (fun t l => fix_columns u k t l width) (laid_out u k width)) as H.
  assert (Hs : forall a b (R : list FmtLine -> list FmtLine -> Prop), by_runs (sized table_size) R a b <-> by_runs is_table R a b).
  { assert (E : forall (p q : FmtLine -> bool) R, (forall x, p x = q x) -> forall a b, by_runs p R a b -> by_runs q R a b).
    { intros p q R Hpq a b. induction 1 as [|l a b H1 H2|t t' a b H1 H2 H3 H4 H5 IH]; constructor; auto; try congruence.
      - eapply Forall_impl; [|exact H2]. cbn. intros. rewrite <- Hpq. assumption.
      - destruct a; cbn in *; [exact I|]. rewrite <- Hpq. assumption. }
    intros a b R. split; apply E; intros; rewrite sized_table; reflexivity. }
  specialize (H) with (l := lines) (pre := []) (out := out). cbn [app length] in H. rewrite H; clear H.
  - split; [intros (l' & H & ->); apply Hs; exact H|]. intros H. exists out. split; [apply Hs; exact H|reflexivity].
  - intros pre t post o Hn Ht. rewrite max_size_table. apply fix_columns_iff; [exact Hn|]. eapply Forall_impl; [|exact Ht]. cbn. intros. rewrite <- sized_table. assumption.
Qed.
