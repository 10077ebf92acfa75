(** * Vocabulary for a question and its answers on the terminal *)
From Verif Require Import Base M_Style M_Fit M_Wrap S_Wrap M_Text M_View S_View M_Render S_Render S_Pen S_Origin S_Paint S_Read S_Whole S_Paper.
Set Implicit Arguments.
Open Scope nat_scope.

(** The chars of [d] are seen one after the other from the cell [(x, y)], with all their columns and their style *)
Definition shown_at (u : unicode) (t : term) (x y : nat) (d : list (char * CStyle)) : Prop :=
  forall a c cs b i, d = a ++ (c, cs) :: b -> i < chw u c -> t_cell t (x + sumw (chw u) (map fst a) + i) y = Part c i (worn (Some cs)).

(** The columns before a paragraph of [n] columns, in [w] columns, and those it needs with its margins *)
Definition paragraph_margin (k : MadSkin) (w m : nat) : nat := if w <? left_margin (paragraph k) + right_margin (paragraph k) + 3 then 0 else m.
Definition paragraph_needs (k : MadSkin) (w n : nat) : nat :=
  n + paragraph_margin k w (left_margin (paragraph k)) + paragraph_margin k w (right_margin (paragraph k)).
Definition paragraph_left (k : MadSkin) (w n : nat) : nat :=
  match ls_align (paragraph k) with Center => (w - paragraph_needs k w n) / 2 | ARight => w - paragraph_needs k w n | _ => 0 end
  + paragraph_margin k w (left_margin (paragraph k)).

(** The style of a key: the bold one for the default answer *)
Definition key_style (k : MadSkin) (default : bool) (key : str) : CStyle :=
  if list_eq_dec N.eq_dec key [8230%N] then ellipsis k
  else if default then overwrite_with (ls_cs (paragraph k)) (bold k) else ls_cs (paragraph k).
(** A row for an answer: its key between brackets, then its text, which is a paragraph *)
Definition answer_row (u : unicode) (k : MadSkin) (w : nat) (default : bool) (key : str) (cs : list Compound) : list (char * CStyle) :=
  let p := ls_cs (paragraph k) in
  repeat (32%N, p) (left_margin (paragraph k)) ++ (91%N, p) :: map (fun c => (c, key_style k default key)) key ++ [(93%N, p); (32%N, p)]
  ++ repeat (32%N, p) (paragraph_left k w (sumw (chw u) (text_of cs))) ++ flat_map (fun c => map (fun ch => (ch, compound_style k (paragraph k) c)) (src c)) cs.
(** There's enough place for the row, and the text has no newline in it *)
Definition answer_fits (u : unicode) (k : MadSkin) (w : nat) (key : str) (cs : list Compound) : Prop :=
  sumw (chw u) (map fst (answer_row u k w false key cs)) <= w /\ paragraph_needs k w (sumw (chw u) (text_of cs)) <= w
  /\ ~ In 10%N key /\ ~ In 10%N (text_of cs).
