(** * Specification vocabulary for areas and scrolling views, independent of the model's functions *)
From Verif Require Import Base M_Style M_View.
Open Scope N_scope.

(** the cells of an area *)
Definition cell_in (a : Area) (x y : N) : Prop :=
  a_left a <= x < a_left a + a_width a /\ a_top a <= y < a_top a + a_height a.
Definition inside (a b : Area) : Prop := forall x y, cell_in a x y -> cell_in b x y.
(** the area doesn't reach the last [u16] *)
Definition on_screen (a : Area) : Prop := a_left a + a_width a < 65536 /\ a_top a + a_height a < 65536.

(** the greatest scroll at which no row is lost *)
Definition max_scroll (content h : N) : N := content - h.
Definition scroll_ok (content h s : N) : Prop := s <= max_scroll content h.

(** a line of the content is displayed *)
Definition line_visible (h s line : N) : Prop := s <= line < s + h.

Definition tv_height {A} (v : TextView A) : N := a_height (tv_area v).
Definition tv_len {A} (v : TextView A) : N := N.of_nat (length (tv_lines v)).
Definition tv_ok {A} (v : TextView A) : Prop := scroll_ok (tv_len v) (tv_height v) (scroll v).
(** same view but for the scroll *)
Definition same_but_scroll {A} (v w : TextView A) : Prop :=
  tv_area v = tv_area w /\ tv_lines v = tv_lines w /\ tv_skin v = tv_skin w /\ show_scrollbar v = show_scrollbar w.

(** [s] bounded to the allowed scrolls *)
Definition clamp (content h : N) (s : Z) : N :=
  Z.to_N (Z.max 0 (Z.min s (Z.of_N (max_scroll content h)))).

Fixpoint iter {A} (f : A -> A) (n : nat) (x : A) : A :=
  match n with O => x | S n' => iter f n' (f x) end.
