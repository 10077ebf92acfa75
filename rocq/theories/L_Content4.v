(** * Compound results on the content of an input field *)
From Verif Require Import Base L_Base M_Content S_Content L_Content L_Content2 L_Content3.
Set Implicit Arguments.

(** Boolean test of [valid], for the examples *)
Definition valid_posb (ls : list Line) (p : Pos) : bool :=
  match nth_error ls (py p) with Some l => px p <=? length l | None => false end.
Definition validb (c : content) : bool :=
  match clines c with [] => false | _ => true end
  && valid_posb (clines c) (cpos c)
  && match ctail c with Some t => valid_posb (clines c) t | None => true end
  && forallb (forallb (fun ch => negb (N.eqb ch c_nl) && negb (N.eqb ch c_cr) && negb (N.eqb ch c_bs))) (clines c).

Lemma valid_posb_ok ls p : valid_posb ls p = true -> valid_pos ls p.
Proof.
  unfold valid_posb, valid_pos. destruct (nth_error ls (py p)) as [l|]; [|discriminate].
  intros H. exists l. split; [reflexivity|lia].
Qed.

Lemma validb_ok c : validb c = true -> valid c.
Proof.
  unfold validb. rewrite !andb_true_iff. intros (((A & B) & C) & D).
  split; [destruct (clines c); discriminate|]. split; [now apply valid_posb_ok|]. split.
  - intros t E. rewrite E in C. now apply valid_posb_ok.
  - intros l ch Hl Hch. rewrite forallb_forall in D. specialize (D l Hl). rewrite forallb_forall in D.
    specialize (D ch Hch). unfold clean_char. lia.
Qed.

Lemma type_then_delete c ch c1 : valid c -> ch <> c_cr -> ch <> c_bs -> insert_char c ch = Ret c1 ->
  exists c2, del_char_left c1 = Ret (c2, true) /\ text c2 = text c /\ cursor c2 = cursor c.
Proof.
  intros V N1 N2 E. destruct (insert_char_spec ch V) as (c1' & E1 & V1 & (I1 & I2) & _).
  assert (c1' = c1) by congruence. subst c1'.
  assert (T : typed [ch] = [ch]).
  { unfold typed; simpl. apply N.eqb_neq in N1, N2. now rewrite N1, N2. }
  rewrite T in *. simpl in I2. pose proof (cursor_le V) as L.
  destruct (del_char_left_spec V1) as [_ B]. destruct B as (c2 & E2 & V2 & _ & R & C2); [lia|].
  exists c2. split; [assumption|]. split; [|lia].
  unfold removed in R. rewrite R, I1, I2.
  assert (LF : length (firstn (cursor c) (text c)) = cursor c) by (rewrite firstn_length; lia).
  replace (cursor c + 1 - 1) with (cursor c) by lia.
  rewrite firstn_app_exact by lia.
  replace (cursor c + 1) with (S (cursor c)) by lia.
  cbn [app]. rewrite skipn_cons_exact by lia. apply firstn_skipn.
Qed.

Lemma nth_error_ext {A} (a b : list A) : (forall i, nth_error a i = nth_error b i) -> a = b.
Proof.
  revert b. induction a as [|x a IH]; intros [|y b] H; auto.
  - specialize (H 0). discriminate.
  - specialize (H 0). discriminate.
  - pose proof (H 0) as H0. simpl in H0. inversion H0; subst y. f_equal. apply IH. intros i. apply (H (S i)).
Qed.

Lemma swap_twice a b ls ls1 ls2 : lines_swapped a b ls ls1 -> lines_swapped a b ls1 ls2 -> ls2 = ls.
Proof.
  intros (_ & A1 & B1 & C1) (_ & A2 & B2 & C2). apply nth_error_ext. intros i.
  destruct (Nat.eq_dec i a) as [->|Na]; [congruence|].
  destruct (Nat.eq_dec i b) as [->|Nb]; [congruence|].
  rewrite C2, C1 by assumption. reflexivity.
Qed.

Lemma line_up_down c c1 : valid c -> move_current_line_up c = Ret (c1, true) ->
  exists c2, move_current_line_down c1 = Ret (c2, true) /\ clines c2 = clines c /\ py (cpos c2) = py (cpos c)
  /\ (forall l, nth_error (clines c) (py (cpos c) - 1) = Some l -> px (cpos c) <= length l -> cpos c2 = cpos c).
Proof.
  intros V E. destruct (move_current_line_up_spec V) as [A B].
  destruct (py (cpos c)) as [|y'] eqn:Y; [rewrite A in E by reflexivity; discriminate|].
  destruct (B y' eq_refl) as (c1' & l0 & E1 & V1 & S1 & P1 & N1 & X1 & _).
  assert (c1' = c1) by congruence. subst c1'.
  assert (L : S y' < length (clines c)).
  { destruct V as (_ & (l & Hl & _) & _). rewrite Y in Hl. apply nth_error_Some. congruence. }
  destruct (move_current_line_down_spec V1) as [_ D].
  destruct D as (c2 & l1 & E2 & V2 & S2 & P2 & N2 & X2 & _); [rewrite P1; destruct S1; lia|].
  rewrite P1 in *. replace (y' + 1) with (S y') in * by lia.
  assert (EL : clines c2 = clines c) by (eapply swap_twice; eauto).
  exists c2. split; [assumption|]. split; [assumption|]. split; [assumption|].
  intros l Hl Hx. replace (S y' - 1) with y' in Hl by lia.
  assert (l0 = l) by congruence. subst l0.
  assert (l1 = l). { destruct S1 as (_ & _ & SB & _). congruence. } subst l1.
  destruct (cpos c2) as [y2 x2], (cpos c) as [yc xc]. simpl in *. subst. f_equal. lia.
Qed.

Lemma is_empty_spec c : valid c -> is_empty c = Ret (match text c with [] => true | _ => false end).
Proof.
  intros (N & _). unfold is_empty, text. destruct (clines c) as [|l [|l' r]]; [congruence| |].
  - simpl. rewrite app_nil_r. destruct l; reflexivity.
  - simpl. destruct l; reflexivity.
Qed.

Lemma has_wide_selection_spec c : valid c ->
  has_wide_selection c = true <-> rmin (selection c) <> rmax (selection c).
Proof.
  intros _. unfold has_wide_selection. pose proof (selection_is c) as S. destruct (ctail c) as [t|] eqn:T.
  - assert (P : negb (pos_eqb t (cpos c)) = true <-> t <> cpos c).
    { rewrite negb_true_iff. split; intros H.
      - intros ->. assert (pos_eqb (cpos c) (cpos c) = true) by now apply pos_eqb_spec. congruence.
      - destruct (pos_eqb t (cpos c)) eqn:B; [|reflexivity]. apply pos_eqb_spec in B. congruence. }
    rewrite P. destruct S as [[_ ->]|[_ ->]]; simpl; split; congruence.
  - rewrite S. simpl. split; congruence.
Qed.

Lemma to_string_spec c : to_string c = text c.
Proof. apply display_lines_flat. Qed.

(** With a fixed text, a valid position is determined by its offset: what the selection functions
    compare is the reading order of the text *)
Lemma pos_le_offset c p q : valid_pos (clines c) p -> valid_pos (clines c) q ->
  (pos_le p q <-> offset c p <= offset c q).
Proof.
  intros Hp Hq. split.
  - intros H. destruct (Nat.le_gt_cases (offset c p) (offset c q)) as [|G]; [assumption|exfalso].
    apply (offset_lt Hq Hp) in G. apply pos_ltb_spec in G. unfold pos_le in H. lia.
  - intros H. destruct (Nat.eq_dec (offset c p) (offset c q)) as [E|NE].
    + apply (offset_inj Hp Hq) in E. subst. unfold pos_le. lia.
    + assert (L : offset c p < offset c q) by lia.
      apply (offset_lt Hp Hq) in L. apply pos_ltb_spec in L. unfold pos_le. lia.
Qed.
