(** * Vocabulary for the events and histories of input fields *)
From Verif Require Import Base M_Style M_View S_View M_Content S_Content M_Input S_Input.
Set Implicit Arguments.
Open Scope nat_scope.

(** The operation on the content done by an operation on the field which ends with fixing the scroll *)
Definition content_op (f : InputField) (o : if_op) : option cop :=
  match o with
  | IfSetStr s => Some (OpSetStr s) | IfInsertStr s => Some (OpInsertStr s) | IfNewLine => Some OpInsertNewLine | IfPut c => Some (OpInsertChar c) | IfClear => Some OpClear
  | IfUp => Some (OpLinesUp 1) | IfDown => Some (OpLinesDown 1) | IfLeft => Some OpLeft | IfRight => Some OpRight
  | IfToStart => Some OpToStart | IfToEnd => Some OpToEnd | IfToLineStart => Some OpToLineStart | IfToLineEnd => Some OpToLineEnd
  | IfWordLeft => Some OpWordLeft | IfWordRight => Some OpWordRight
  | IfDelBelow => Some OpDelBelow | IfDelSelection => Some OpDelSelection | IfDelLeft => Some OpDelLeft
  | IfDelWordLeft => Some OpDelWordLeft | IfDelWordRight => Some OpDelWordRight
  | IfLineUp => Some OpLineUp | IfLineDown => Some OpLineDown | IfSelectWord => Some OpSelectWord
  | IfPageUp => Some (OpLinesUp (height f)) | IfPageDown => Some (OpLinesDown (height f))
  | _ => None
  end.
(** [op] was done on the content of [f], which then became [f'] with its scroll fixed, unless nothing was to be done *)
Definition done (u : unicode) (f : InputField) (op : cop) (f' : InputField) (b : bool) : Prop :=
  exists c, capply u op (if_content f) = Ret (c, b)
  /\ (b = true -> fix_scroll u (with_content f c) = Ret f') /\ (b = false -> f' = with_content f c).

(** The keys moving the cursor *)
Definition key_move (f : InputField) (k : KeyCode) : option cop :=
  match k with
  | KHome => Some OpToLineStart | KEnd => Some OpToLineEnd | KUp => Some (OpLinesUp 1) | KDown => Some (OpLinesDown 1)
  | KLeft => Some OpLeft | KRight => Some OpRight | KPageUp => Some (OpLinesUp (height f)) | KPageDown => Some (OpLinesDown (height f))
  | _ => None
  end.
(** The keys which aren't handled *)
Definition key_ignored (k : KeyCode) : Prop := k = KEnter \/ k = KTab \/ k = KBackTab \/ k = KEsc \/ exists n, k = KOther n.
(** The shift key selects, moving without it unselects *)
Definition key_selection (shift : bool) (c : content) : content :=
  mkContent (cpos c) (if shift then match ctail c with Some t => Some t | None => Some (cpos c) end else None) (clines c).

(** The area given to a field of height [h] is fine *)
Definition op_ok (h : N) (o : if_op) : Prop :=
  match o with IfChangeArea x y w => area_ok (mkArea x y w h) | IfSetArea a => area_ok a | _ => True end.
Definition height_after (h : N) (o : if_op) : N := match o with IfSetArea a => a_height a | _ => h end.
Fixpoint history_ok (h : N) (ops : list if_op) : Prop :=
  match ops with [] => True | o :: r => op_ok h o /\ history_ok (height_after h o) r end.
(** An operation of the user, which can't add a line in a single line field *)
Definition user_op (o : if_op) : Prop :=
  match o with
  | IfKeycode k _ => k <> KChar c_nl
  | IfKey k => kcodes k <> [KChar c_nl]
  | IfClick _ _ => True
  | IfEvent (EKey k _) _ => k <> KChar c_nl
  | IfEvent _ _ => True
  | _ => False
  end.
(** The settings of the field are kept (the focus isn't one) *)
Definition same_settings (f f' : InputField) : Prop :=
  if_area f' = if_area f /\ focused_style f' = focused_style f /\ unfocused_style f' = unfocused_style f /\ cursor_style f' = cursor_style f
  /\ password_mode f' = password_mode f /\ new_line_keys f' = new_line_keys f.
(** The setters *)
Definition setter (o : if_op) : Prop :=
  match o with IfMono | IfNewLineOn _ | IfChangeArea _ _ _ | IfSetArea _ | IfSetFocus _ | IfPassword _ | IfNormalStyle _ | IfUnfocusedStyle _ => True | _ => False end.
