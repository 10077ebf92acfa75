(** * Vocabulary for the reading of a scrolled markdown view *)
From Verif Require Import Base M_Style M_Fit M_Wrap M_TblFit M_Text M_View S_View M_Render S_Paint S_Read.
Set Implicit Arguments.
Open Scope nat_scope.

(** The view of a source: its lines are the ones formatted for the asked width *)
Definition source_view (u : unicode) (k : MadSkin) (usize_max : nat) (text : list MLine) (a : Area) : MadView FmtLine :=
  mv_from (fun w => match from_text u k usize_max text (Some (N.to_nat w)) with Ret t => txt_lines t | _ => [] end) a k.
(** What's asked to the view, as a number of lines, in an area of [h] rows *)
Definition asked (h : Z) (o : mv_op) : Z :=
  (match o with
  | MvLines n => n
  | MvPages n => n * h
  | MvKey (mkKey 0%N [KUp]) => -1
  | MvKey (mkKey 0%N [KDown]) => 1
  | MvKey (mkKey 0%N [KPageUp]) => - h
  | MvKey (mkKey 0%N [KPageDown]) => h
  | _ => 0
  end)%Z.
(** The first displayed line, among [n], in an area of [h] rows: never before the first one, never leaving a row empty without need *)
Definition place (n h : N) (ops : list mv_op) : N := fold_left (fun s o => clamp n h (Z.of_N s + asked (Z.of_N h) o)) ops 0%N.
Definition page_down : mv_op := MvKey (mkKey 0 [KPageDown]).
(** A reader of a text of [n] lines in an area of [h] rows reads all the rows of the first screen then, after each page down, the rows which weren't
    on the previous one *)
Definition fresh_rows (n h : N) (i : nat) : list nat :=
  match i with
  | 0 => seq 0 (N.to_nat h)
  | S i' => let d := N.to_nat (place n h (repeat page_down (S i'))) - N.to_nat (place n h (repeat page_down i')) in seq (N.to_nat h - d) d
  end.
(** What is read of a screen, on [w] columns from the left of the area, on some of its rows *)
Definition read_rows (u : unicode) (t : term) (a : Area) (w : nat) (rows : list nat) : str :=
  flat_map (fun j => visible u (read_row t (N.to_nat (a_left a)) (N.to_nat (a_top a) + j) w)) rows.
