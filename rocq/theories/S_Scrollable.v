(** * Vocabulary for C124: the application of the example [scrollable] *)
From Verif Require Import Base M_Style M_View M_Area M_Content M_Input M_Event S_Paint M_Scrollable.
Set Implicit Arguments.
Open Scope N_scope.

(** A column of 120 chars at most in the middle of the terminal *)
Definition column (size : option (N * N)) : Area :=
  let (w, h) := terminal_size size in mkArea ((w - N.min w 120) / 2) 0 (N.min w 120) h.
(** The key for which the application ends *)
Definition leaves (r : read_event) : bool :=
  match fst r with Some (TKey key) => match k_code key with KUp | KDown | KPageUp | KPageDown => false | _ => true end | _ => false end.
(** What is asked from the view *)
Definition asks (r : read_event) : list mv_op :=
  match fst r with
  | Some (TKey key) => match k_code key with KUp => [MvLines (-1)] | KDown => [MvLines 1] | KPageUp => [MvPages (-1)] | KPageDown => [MvPages 1] | _ => [] end
  | Some (TResize _ _) => [MvResize (column (snd r))]
  | _ => []
  end.
(** The sizes the terminal has *)
Definition sizes (size : option (N * N)) (reads : list read_event) : list (option (N * N)) :=
  size :: flat_map (fun r => match fst r with Some (TResize _ _) => [snd r] | _ => [] end) reads.
(** A screen with nothing on it, as when the alternate screen is entered *)
Definition empty_screen (tm : term) : Prop := forall x y, t_cell tm x y = Nothing Reset.
(** The size is made of two [u16] *)
Definition u16_size (size : option (N * N)) : Prop := fst (terminal_size size) < 65536 /\ snd (terminal_size size) < 65536.
