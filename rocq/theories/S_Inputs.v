(** * Vocabulary for C125: the application of the example [inputs] *)
From Verif Require Import Base M_Style M_View S_View M_Content M_Input S_Input M_Inputs.
Set Implicit Arguments.
Open Scope N_scope.

Section View.
Context {A : Type}.
Implicit Types (v : View A).
(** What has no cell in common *)
Definition no_common_cell (a b : Area) : Prop := forall x y, ~ (cell_in a x y /\ cell_in b x y).
(** The widgets, from the top to the bottom and from left to right *)
Definition widget_areas v : list Area :=
  [mv_area (introduction v); login_label v; if_area (login v); password_label v; if_area (password v); comments_label v; if_area (comments v)].
(** The terminal is large enough *)
Definition large (a : Area) : Prop := 20 <= a_width a /\ 15 <= a_height a.
(** The label of the comments is left out *)
Definition but_the_label v : list Area := [mv_area (introduction v); login_label v; if_area (login v); password_label v; if_area (password v); if_area (comments v)].
Definition arranged v : Prop :=
  ForallOrdPairs no_common_cell (widget_areas v)
  /\ Forall (fun b => forall x y, cell_in b x y -> cell_in (vw_area v) x y) (but_the_label v)
  /\ 4 <= a_height (mv_area (introduction v)) /\ 17 <= a_width (mv_area (introduction v))
  /\ Forall (fun f => 8 <= a_width (if_area f)) [login v; password v; comments v] /\ 3 <= a_height (if_area (comments v))
  /\ a_top (login_label v) = a_top (if_area (login v)) /\ a_top (password_label v) = a_top (if_area (password v)) /\ a_top (comments_label v) = a_top (if_area (comments v)).
(** The field with the focus is the one the view tells, and there's no other one *)
Definition one_focus v : Prop :=
  focused (login v) = focus_eqb (vw_focus v) FLogin /\ focused (password v) = focus_eqb (vw_focus v) FPassword /\ focused (comments v) = focus_eqb (vw_focus v) FComments.
(** The password is never shown, and only the comments can have several lines *)
Definition kinds v : Prop :=
  password_mode (password v) = true /\ password_mode (login v) = false /\ password_mode (comments v) = false
  /\ new_line_keys (login v) = [] /\ new_line_keys (password v) = [] /\ new_line_keys (comments v) = [mkKey 0 [KEnter]].
(** What is always true *)
Definition sound v : Prop :=
  field_ok (login v) /\ field_ok (password v) /\ field_ok (comments v) /\ a_height (if_area (login v)) = 1 /\ a_height (if_area (password v)) = 1
  /\ 1 <= a_width (mv_area (introduction v)) /\ kinds v /\ one_focus v /\ (drawable v = true <-> large (vw_area v)) /\ (drawable v = true -> arranged v).
(** The field in a cell; the introduction has all the other ones *)
Definition in_cell (a : Area) (x y : N) : bool := (a_left a <=? x) && (x <? a_left a + a_width a) && (a_top a <=? y) && (y <? a_top a + a_height a).
Definition pointed v (x y : N) : Focus :=
  if in_cell (if_area (login v)) x y then FLogin else if in_cell (if_area (password v)) x y then FPassword else if in_cell (if_area (comments v)) x y then FComments else FIntro.
(** Where the focus goes *)
Definition next_focus v (e : view_event) : Focus :=
  match e with
  | VKey (mkKey 0 [KEsc]) _ => FIntro
  | VKey (mkKey 0 [KTab]) _ => match vw_focus v with FIntro => FLogin | FLogin => FPassword | FPassword => FComments | FComments => FIntro end
  | VMouse e _ => pointed v (m_column e) (m_row e)
  | _ => vw_focus v
  end.
Definition field_of v (f : Focus) : option InputField :=
  match f with FIntro => None | FLogin => Some (login v) | FPassword => Some (password v) | FComments => Some (comments v) end.
(** Sizes are made of [u16] *)
Definition u16_event (e : view_event) : Prop := match e with VResize w h => w < 65536 /\ h < 65536 | _ => True end.
End View.
