(** * Model of the functions drawing or printing a whole text: MadSkin::area_text, write_in_area_on, term_text, print_text (src/skin.rs),
    MadView::write_on (src/views/mad_view.rs), and the size of the terminal (src/area.rs)

    The markdown is already parsed by minimad, in a list of [MLine]. [usize_max] stands for [usize::MAX]. *)
From Verif Require Import Base M_Style M_Fit M_Wrap M_TblFit M_Text M_Fitter M_View M_Render.
Set Implicit Arguments.
Open Scope nat_scope.

(** src/skin.rs:365-367; the subtraction overflows for a null width *)
Definition area_text (u : unicode) (k : MadSkin) (usize_max : nat) (text : list MLine) (a : Area) : outcome FmtText :=
  w <- subN (a_width a) 1 ;; from_text u k usize_max text (Some (N.to_nat w)).
(** src/skin.rs:377-382; [write_in_area] (src/skin.rs:369-374) does it on stdout *)
Definition write_in_area_on (u : unicode) (special : Special) (k : MadSkin) (usize_max : nat) (text : list MLine) (a : Area) : outcome (list cmd) :=
  t <- area_text u k usize_max text a ;;
  tv_write_on (render_line special k) (mkTV a (txt_lines t) k 0%N false).
(** src/views/mad_view.rs:39-45, [scroll] being the one of the view *)
Definition mad_write_on (u : unicode) (special : Special) (k : MadSkin) (usize_max : nat) (text : list MLine) (a : Area) (scroll : N) : outcome (list cmd) :=
  t <- area_text u k usize_max text a ;;
  tv_write_on (render_line special k) (mkTV a (txt_lines t) k scroll true).

(** src/area.rs:10, 13 *)
Definition DEFAULT_TERMINAL_WIDTH : N := 50.
Definition DEFAULT_TERMINAL_HEIGHT : N := 20.
(** src/area.rs:159-162; [size] is what crossterm tells, [None] being an error *)
Definition terminal_size (size : option (N * N)) : N * N :=
  match size with Some s => s | None => (DEFAULT_TERMINAL_WIDTH, DEFAULT_TERMINAL_HEIGHT) end.
(** src/area.rs:43-50 *)
Definition area_new (left top width height : N) : Area := mkArea left top width height.
(** src/area.rs:53-61 *)
Definition full_screen (size : option (N * N)) : Area := let (w, h) := terminal_size size in mkArea 0 0 w h.
(** src/skin.rs:356-359 *)
Definition term_text (u : unicode) (k : MadSkin) (usize_max : nat) (text : list MLine) (size : option (N * N)) : outcome FmtText :=
  let (width, _) := terminal_size size in from_text u k usize_max text (Some (N.to_nat width)).
(** [print_text], [write_text_on], [print_expander], [print_owning_expander] and [print_owning_expander_md]:
    src/skin.rs:394-396, 399-404, 407-430, 489-491. They differ by what's parsed. *)
Definition print_text (u : unicode) (special : Special) (k : MadSkin) (usize_max : nat) (text : list MLine) (size : option (N * N)) : outcome (list cmd) :=
  t <- term_text u k usize_max text size ;; display_text special k t.
