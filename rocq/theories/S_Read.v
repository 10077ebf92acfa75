(** * Vocabulary for the reading of a terminal *)
From Verif Require Import Base M_Style M_Fit M_Wrap S_Wrap M_Text M_View S_View M_Render S_Paint.
Set Implicit Arguments.
Open Scope nat_scope.

(** What is read in a cell: a char is read in its first column *)
Definition read_cell (s : seen) : str := match s with Part c 0 _ => [c] | Part _ _ _ => [] | Nothing _ => [32%N] end.
Definition read_row (t : term) (x y w : nat) : str := flat_map (fun i => read_cell (t_cell t i y)) (seq x w).
(** The rows of an area, from the top one *)
Definition read_area (t : term) (a : Area) : list str :=
  map (fun j => read_row t (N.to_nat (a_left a)) j (N.to_nat (a_width a))) (seq (N.to_nat (a_top a)) (N.to_nat (a_height a))).
(** The chars of a text which can be seen *)
Definition visible (u : unicode) (s : str) : str := filter (fun c => negb (is_white u c) && (0 <? chw u c)) s.
(** The lines which are read just as they are written in the source: paragraphs, headers, list items with their bullet, rules of [w] columns *)
Definition readable_line (l : MLine) : Prop :=
  match l with
  | MNormal c => match kind_of (mc_style c) with KQuote | KCode => False | _ => True end
  | MHorizontalRule | MCodeFence => True
  | _ => False
  end.
Definition to_read (u : unicode) (k : MadSkin) (w : nat) (l : MLine) : str :=
  match l with
  | MNormal c => visible u (match kind_of (mc_style c) with KListItem _ => [snd (sc_cache (bullet k))] | _ => [] end ++ text_of (mc_compounds c))
  | _ => visible u (repeat (sc_char (horizontal_rule k)) w)
  end.
(** What can be seen of a formatted line drawn on [w] columns, out of tables *)
Definition line_seen (u : unicode) (k : MadSkin) (w : nat) (l : FmtLine) : str :=
  match l with
  | Normal fc => visible u (match fc_kind fc with KListItem _ => [snd (sc_cache (bullet k))] | KQuote => [snd (sc_cache (quote_mark k))] | _ => [] end ++ text_of (fc_compounds fc))
  | HorizontalRule => visible u (repeat (sc_char (horizontal_rule k)) w)
  | _ => []
  end.
Definition not_table (l : FmtLine) : Prop := match l with TableRow _ | TableRule _ => False | _ => True end.
(** The chars of a text which take some place *)
Definition placed_chars (u : unicode) (s : str) : str := filter (fun c => 0 <? chw u c) s.
