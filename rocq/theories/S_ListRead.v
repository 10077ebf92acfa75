(** * Vocabulary for the reading of a list on a terminal *)
From Verif Require Import Base M_Style M_View S_View M_Render S_Render M_List S_List S_Pen S_Paint S_Read.
Set Implicit Arguments.
Open Scope nat_scope.

(** A text put in [w] columns: its beginning, or the whole of it between spaces *)
Definition put_in (align : Alignment) (w : nat) (s t : str) : Prop :=
  (w <= length s -> t = firstn w s)
  /\ (length s < w -> exists lp rp, shared align (length s) w lp rp /\ t = repeat 32%N lp ++ s ++ repeat 32%N rp).
(** Every char takes one column *)
Definition thin (u : unicode) (s : str) : Prop := Forall (fun c => chw u c = 1) s.
(** All what is written in a list *)
Definition thin_list {T} (u : unicode) (v : ListView T) : Prop :=
  thin u [32; c_vbar; c_tee; c_cross; c_hbar]%N
  /\ thin u [snd (sc_cache (thumb (scrollbar (lv_skin v)))); snd (sc_cache (track (scrollbar (lv_skin v))))]
  /\ forall c, In c (columns v) -> thin u (lc_title c) /\ forall r, In r (rows v) -> thin u (con (extract c (data r))).
(** What is read in a column of a list, at its line [j] under the title and the separator *)
Definition read_cell_of {T} (t : term) (v : ListView T) (p j : nat) : str :=
  let ws := widths_of (columns v) in
  read_row t (N.to_nat (a_left (lv_area v)) + col_start ws p) (N.to_nat (a_top (lv_area v)) + 2 + j) (nth p ws 0).
(** The data displayed, in order *)
Definition shown_data {T} (v : ListView T) : list T := map (@data T) (List.filter (@displayed T) (rows v)).
(** The ones from the scroll *)
Definition shown_from {T} (v : ListView T) : list T := map (@data T) (List.filter (@displayed T) (skipn (lv_scroll v) (rows v))).
(** What is asked from a list and its terminal to be drawn whole *)
Definition drawable {T} (u : unicode) (v : ListView T) : Prop :=
  headers (lv_skin v) <> [] /\ cells_ok v /\ thin_list u v
  /\ (a_left (lv_area v) + a_width (lv_area v) < U16)%N /\ (a_top (lv_area v) + 1 < U16)%N /\ (a_top (lv_area v) + a_height (lv_area v) <= U16)%N
  /\ line_len (widths_of (columns v)) <= N.to_nat (a_width (lv_area v)).
