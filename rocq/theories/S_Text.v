(** * Vocabulary for texts *)
From Verif Require Import Base M_Style M_Fit M_Wrap S_Wrap M_Text.
Set Implicit Arguments.

(** The margins around a line displayed in a width *)
Definition margins_of (k : MadSkin) (kind : CompositeKind) (width : nat) (lm rm : nat) : Prop :=
  exists ls, line_style k kind = Ret ls /\ margins_in ls (Some width) = (lm, rm).
(** Header levels are at least 1 *)
Definition good_kind (kind : CompositeKind) : Prop := kind <> KHeader 0.
Definition good_line (l : FmtLine) : Prop := match l with Normal fc => good_kind (fc_kind fc) | _ => True end.

(** ** Runs: the maximal sequences of lines satisfying [p] *)
Definition starts_out {A} (p : A -> bool) (l : list A) : Prop := match l with [] => True | x :: _ => p x = false end.
(** [b] is [a] with each run changed as told by [R], the other lines being unchanged *)
Inductive by_runs {A} (p : A -> bool) (R : list A -> list A -> Prop) : list A -> list A -> Prop :=
| br_nil : by_runs p R [] []
| br_out l a b : p l = false -> by_runs p R a b -> by_runs p R (l :: a) (l :: b)
| br_run t t' a b : t <> [] -> Forall (fun l => p l = true) t -> starts_out p a -> R t t' -> by_runs p R a b ->
    by_runs p R (t ++ a) (t' ++ b).
(** every run satisfies [P] *)
Inductive all_runs {A} (p : A -> bool) (P : list A -> Prop) : list A -> Prop :=
| ar_nil : all_runs p P []
| ar_out l a : p l = false -> all_runs p P a -> all_runs p P (l :: a)
| ar_run t a : t <> [] -> Forall (fun l => p l = true) t -> starts_out p a -> P t -> all_runs p P a -> all_runs p P (t ++ a).

Definition is_table (l : FmtLine) : bool := match l with TableRow _ | TableRule _ => true | _ => false end.
Definition is_code (l : FmtLine) : bool := match l with Normal fc => match fc_kind fc with KCode => true | _ => false end | _ => false end.

(** The number of columns asked by a line of a table *)
Definition cols_asked (l : FmtLine) : nat :=
  match l with TableRow cells => length cells | TableRule r => length (aligns r) | _ => 0 end.
Definition table_cols (t : list FmtLine) : nat := fold_right Nat.max 0 (map cols_asked t).
(** The number of columns which can be shown in a width, each one taking at least 4 columns of the terminal *)
Definition shown_cols (t : list FmtLine) (width : nat) : nat :=
  if 4 * table_cols t + 1 <=? width then table_cols t else (width - 1) / 4.
(** The cells of the column [i] in some rows *)
Definition column (i : nat) (rows : list FmtLine) : list FmtComposite :=
  flat_map (fun l => match l with TableRow cells => match nth_error cells i with Some c => [c] | None => [] end | _ => [] end) rows.

(** A line of a table whose columns have the widths [ws] *)
Definition has_columns (ws : list nat) (l : FmtLine) : Prop :=
  match l with
  | TableRow cells => Forall2 (fun c w => exists a, fc_spacing c = Some (mkSpacing w a)) cells ws
  | TableRule r => widths r = ws /\ length (aligns r) = length ws
  | _ => False
  end.

(** The first [n] alignments of a rule, the missing ones being unspecified *)
Definition rule_aligns (n : nat) (r : FmtTableRule) : list Alignment := firstn n (aligns r ++ repeat Unspecified n).
(** The cells of each row are aligned as told by the last rule before it, [als] being the initial alignments *)
Fixpoint follows_rules (als : list Alignment) (t : list FmtLine) : Prop :=
  match t with
  | [] => True
  | TableRow cells :: r => map (fun c => option_map sp_align (fc_spacing c)) cells = map Some als /\ follows_rules als r
  | TableRule rule :: r => follows_rules (aligns rule) r
  | _ :: r => False
  end.
(** The lines of a cell in a column of width [w]: only one if it fits *)
Definition in_column (u : unicode) (k : MadSkin) (w : nat) (c : FmtComposite) (ls : list FmtComposite) : Prop :=
  visible_length c <= w /\ ls = [c] \/ w < visible_length c /\ hard_wrap_composite u k c w = Ret (Some ls).

(** How the lines [g] replace the line [l] of a table *)
Definition replaces (u : unicode) (k : MadSkin) (ws : list nat) (l : FmtLine) (g : list FmtLine) : Prop :=
  match l with
  | TableRow cells => exists css,
      Forall2 (fun cw ls => in_column u k (snd cw) (fst cw) ls) (combine cells ws) css
      /\ length g = Nat.max 1 (fold_right Nat.max 0 (map (@length _) css))
      /\ Forall (fun l => exists cells, l = TableRow cells) g
      /\ (forall i ls, nth_error css i = Some ls ->
           map fc_compounds (column i g) = map fc_compounds ls ++ repeat [] (length g - length ls)
           /\ map fc_kind (column i g) = map fc_kind ls ++ repeat KParagraph (length g - length ls)
           /\ map visible_length (column i g) = map visible_length ls ++ repeat 0 (length g - length ls))
      /\ (forall i, length cells <= i -> Forall (fun c => fc_compounds c = [] /\ fc_kind c = KParagraph /\ visible_length c = 0) (column i g))
  | TableRule r => exists r', g = [TableRule r'] /\ aligns r' = rule_aligns (length ws) r
  | _ => False
  end.

(** A table which can be laid out without panic *)
Definition table_safe (k : MadSkin) (width : nat) (t : list FmtLine) : Prop :=
  Forall (fun l => match l with
    | TableRow cells => Forall (fun c => lead k (fc_kind c) <= 3) cells
        /\ (4 * table_cols t + 1 <= width \/ (width - 1) / 4 <= length cells \/ Forall (fun c => visible_length c <= 3) cells)
    | _ => True
    end) t.

(** The styled chars of the lines out of tables *)
Definition prose_of (lines : list FmtLine) : list (char * (bool * bool * bool * bool)) :=
  flat_map (fun l => match l with Normal fc => styled (fc_compounds fc) | _ => [] end) lines.
