(** * Model of src/area.rs, src/views/text_view.rs and src/views/mad_view.rs

    [u16] values are in [N], with panics on overflows (build with overflow checks). [usize] values are in [N]
    without upper bound. *)
From Verif Require Import Base M_Style M_Fit M_F64.
Set Implicit Arguments.
Open Scope N_scope.

Definition U16 : N := 65536.
(** [a + b], [a - b] and [a * b] on [u16] *)
Definition add16 (a b : N) : outcome N := if a + b <? U16 then Ret (a + b) else Panic.
Definition sub16 (a b : N) : outcome N := if b <=? a then Ret (a - b) else Panic.
Definition mul16 (a b : N) : outcome N := if a * b <? U16 then Ret (a * b) else Panic.
(** [a - b] on [usize] *)
Definition subN (a b : N) : outcome N := if b <=? a then Ret (a - b) else Panic.

(** ** src/area.rs *)

(** src/area.rs:17-22 *)
Record Area := mkArea { a_left : N; a_top : N; a_width : N; a_height : N }.

(** src/area.rs:33-40 *)
Definition area_uninitialized : Area := mkArea 0 0 5 1.

(** src/area.rs:63-65 *)
Definition right (a : Area) : outcome N := add16 (a_left a) (a_width a).
(** src/area.rs:67-69 *)
Definition bottom (a : Area) : outcome N := add16 (a_top a) (a_height a).

(** src/area.rs:72-74, [&&] being lazy *)
Definition contains (a : Area) (x y : N) : outcome bool :=
  if negb (a_left a <=? x) then Ret false else
  r <- add16 (a_left a) (a_width a) ;;
  if negb (x <? r) then Ret false else
  if negb (a_top a <=? y) then Ret false else
  b <- add16 (a_top a) (a_height a) ;;
  Ret (y <? b).

(** src/area.rs:77-83 *)
Definition pad (a : Area) (dx dy : N) : outcome Area :=
  l <- add16 (a_left a) dx ;;
  t <- add16 (a_top a) dy ;;
  dx2 <- mul16 2 dx ;;
  w <- sub16 (a_width a) dx2 ;;
  dy2 <- mul16 2 dy ;;
  h <- sub16 (a_height a) dy2 ;;
  Ret (mkArea l t w h).

(** src/area.rs:86-93 *)
Definition pad_for_max_width (a : Area) (max_width : N) : outcome Area :=
  if a_width a <=? max_width then Ret a else
  pw <- sub16 (a_width a) max_width ;;
  l <- add16 (a_left a) (pw / 2) ;;
  w <- sub16 (a_width a) pw ;;
  Ret (mkArea l (a_top a) w (a_height a)).

(** src/area.rs:117-154. [lim] is the number of values of the drawing type U2 (65536 for u16): the last conversions
    panic for greater values. *)
Definition compute_scrollbar (lim scroll content_height available_height top : N) : outcome (option (N * N)) :=
  if content_height <=? available_height then Ret None else
  let track_before := scroll * available_height / content_height in
  let track_before := if (track_before =? 0) && (0 <? scroll) then 1 else track_before in
  let thumb_height := available_height * available_height / content_height in
  let scrollbar_top := top + track_before in
  let scrollbar_bottom := scrollbar_top + thumb_height in
  scrollbar_bottom <-
    (if (scroll + available_height <? content_height) && (3 <? available_height) then
       m <- subN (top + available_height) 2 ;;
       Ret (N.max (N.min scrollbar_bottom m) scrollbar_top)
     else Ret scrollbar_bottom) ;;
  if (scrollbar_top <? lim) && (scrollbar_bottom <? lim) then Ret (Some (scrollbar_top, scrollbar_bottom))
  else Panic.

(** src/area.rs:99-108 *)
Definition area_scrollbar (a : Area) (scroll content_height : N) : outcome (option (N * N)) :=
  compute_scrollbar U16 scroll content_height (a_height a) (a_top a).

(** ** Keys (crossterm's [KeyCode], crokey's [KeyCombination]) *)

Inductive KeyCode :=
| KChar (c : char) | KUp | KDown | KLeft | KRight | KPageUp | KPageDown | KHome | KEnd | KDelete | KBackspace
| KEnter | KTab | KBackTab | KEsc | KOther (n : N).
(** modifiers are a bit set, 0 being [KeyModifiers::NONE]; there are one to three codes *)
Record KeyComb := mkKey { kmods : N; kcodes : list KeyCode }.

(** ** src/views/text_view.rs *)

(** src/views/text_view.rs:58-63. The text is the list of its lines and the skin. *)
Record TextView (A : Type) := mkTV {
  tv_area : Area; tv_lines : list A; tv_skin : MadSkin; scroll : N; show_scrollbar : bool
}.
(** src/views/text_view.rs:67-74 *)
Definition tv_from {A} (a : Area) (lines : list A) (k : MadSkin) : TextView A := mkTV a lines k 0 true.
(** [self.scroll = s] *)
Definition tv_with {A} (v : TextView A) (s : N) : TextView A :=
  mkTV (tv_area v) (tv_lines v) (tv_skin v) s (show_scrollbar v).

(** src/views/text_view.rs:76-78 *)
Definition content_height {A} (v : TextView A) : N := N.of_nat (length (tv_lines v)).

(** src/views/text_view.rs:84-91; [as u16] truncates *)
Definition tv_scrollbar {A} (v : TextView A) : outcome (option (N * N)) :=
  if show_scrollbar v then area_scrollbar (tv_area v) (scroll v mod U16) (content_height v mod U16)
  else Ret None.

(** src/views/text_view.rs:102-127. [render line width] stands for the display of a [DisplayableLine] *)
Fixpoint tv_write_rows {A} (render : A -> nat -> outcome (list cmd)) (v : TextView A) (width : nat)
    (sb : option (N * N)) (lines : list A) (j : N) (rows : nat) : outcome (list cmd) :=
  match rows with
  | O => Ret []
  | S rows' =>
      y <- add16 (a_top (tv_area v)) j ;;
      '(content, rest) <-
        match lines with
        | l :: rest => c <- render l width ;; Ret (c, rest)
        | [] => c <- filling_queue_styled SPACE_FILLING (ls_cs (paragraph (tv_skin v))) width ;; Ret (c, [])
        end ;;
      let bar := match sb with
                 | Some (sctop, scbottom) =>
                     if (sctop <=? y) && (y <=? scbottom) then sc_queue (thumb (scrollbar (tv_skin v)))
                     else sc_queue (track (scrollbar (tv_skin v)))
                 | None => []
                 end in
      others <- tv_write_rows render v width sb rest (j + 1) rows' ;;
      Ret (MoveTo (a_left (tv_area v)) y :: content ++ bar ++ others)
  end.
Definition tv_write_on {A} (render : A -> nat -> outcome (list cmd)) (v : TextView A) : outcome (list cmd) :=
  sb <- tv_scrollbar v ;;
  width <- (if match sb with Some _ => true | None => false end then subN (a_width (tv_area v)) 1
            else Ret (a_width (tv_area v))) ;;
  tv_write_rows render v (N.to_nat width) sb (skipn (N.to_nat (scroll v)) (tv_lines v)) 0 (N.to_nat (a_height (tv_area v))).

(** src/views/text_view.rs:131-139 *)
Definition set_scroll {A} (v : TextView A) (s : N) : TextView A * N :=
  let h := a_height (tv_area v) in
  let s' := if h <? content_height v then N.min s (content_height v - h) else 0 in
  (tv_with v s', s').

Definition I32_MIN : Z := (-2147483648)%Z.
Definition I32_MAX : Z := 2147483647%Z.

(** src/views/text_view.rs:144-155; the negation overflows for [i32::MIN] *)
Definition tv_try_scroll_lines {A} (v : TextView A) (lines_count : Z) : outcome (TextView A) :=
  if (lines_count <? 0)%Z then
    if (lines_count =? I32_MIN)%Z then Panic else
    let n := Z.to_N (- lines_count) in
    Ret (tv_with v (if scroll v <=? n then 0 else scroll v - n))
  else Ret (fst (set_scroll v (scroll v + Z.to_N lines_count))).

(** src/views/text_view.rs:159-168 *)
Definition pages_to_lines (pages_count : F64) (h : N) : Z :=
  let lines := f64_mul_u16 pages_count h in
  let lines := if f64_lt_0 lines then f64_floor lines else f64_ceil lines in
  f64_as_i32 lines.
(** src/views/text_view.rs:159-168 *)
Definition tv_try_scroll_pages {A} (v : TextView A) (pages : F64) : outcome (TextView A) :=
  tv_try_scroll_lines v (pages_to_lines pages (a_height (tv_area v))).

(** src/views/text_view.rs:170-177 *)
Definition tv_line_up {A} (v : TextView A) : TextView A * bool :=
  if 0 <? scroll v then (tv_with v (scroll v - 1), true) else (v, false).
(** src/views/text_view.rs:179-188 *)
Definition tv_line_down {A} (v : TextView A) : TextView A * bool :=
  if scroll v + a_height (tv_area v) <? content_height v then (tv_with v (scroll v + 1), true) else (v, false).
(** src/views/text_view.rs:190-201 *)
Definition tv_page_up {A} (v : TextView A) : TextView A * bool :=
  let h := a_height (tv_area v) in
  if h <? scroll v then (tv_with v (scroll v - h), true)
  else if 0 <? scroll v then (tv_with v 0, true)
  else (v, false).
(** src/views/text_view.rs:203-215 *)
Definition tv_page_down {A} (v : TextView A) : TextView A * bool :=
  let h := a_height (tv_area v) in
  if scroll v + 2 * h <? content_height v then (tv_with v (scroll v + h), true)
  else if scroll v + h <? content_height v then (tv_with v (content_height v - h), true)
  else (v, false).
(** src/views/text_view.rs:221-241 *)
Definition tv_apply_key {A} (v : TextView A) (k : KeyComb) : TextView A * bool :=
  if negb (kmods k =? 0) then (v, false) else
  match kcodes k with
  | [KUp] => tv_line_up v
  | [KDown] => tv_line_down v
  | [KPageUp] => tv_page_up v
  | [KPageDown] => tv_page_down v
  | _ => (v, false)
  end.

(** A call on a text view; the boolean is the returned one, if any *)
Inductive tv_op :=
| TvSetScroll (n : N) | TvLines (n : Z) | TvPages (q : F64)
| TvLineUp | TvLineDown | TvPageUp | TvPageDown | TvKey (k : KeyComb).
Definition tv_apply {A} (v : TextView A) (o : tv_op) : outcome (TextView A * option bool) :=
  let some (p : TextView A * bool) := Ret (fst p, Some (snd p)) in
  match o with
  | TvSetScroll n => Ret (fst (set_scroll v n), None)
  | TvLines n => v' <- tv_try_scroll_lines v n ;; Ret (v', None)
  | TvPages q => v' <- tv_try_scroll_pages v q ;; Ret (v', None)
  | TvLineUp => some (tv_line_up v)
  | TvLineDown => some (tv_line_down v)
  | TvPageUp => some (tv_page_up v)
  | TvPageDown => some (tv_page_down v)
  | TvKey k => some (tv_apply_key v k)
  end.
Fixpoint tv_run {A} (v : TextView A) (ops : list tv_op) : outcome (TextView A) :=
  match ops with [] => Ret v | o :: r => '(v', _) <- tv_apply v o ;; tv_run v' r end.

(** ** src/views/mad_view.rs *)

(** src/views/mad_view.rs:17-22. [text w] are the lines of the markdown formatted for a width of [w] columns: the formatting isn't
    modelled here. *)
Record MadView (A : Type) := mkMV { mv_text : N -> list A; mv_area : Area; mv_skin : MadSkin; mv_scroll : N }.
(** src/views/mad_view.rs:26-33 *)
Definition mv_from {A} (text : N -> list A) (a : Area) (k : MadSkin) : MadView A := mkMV text a k 0.
Definition mv_with {A} (v : MadView A) (s : N) : MadView A := mkMV (mv_text v) (mv_area v) (mv_skin v) s.

(** [area_text] (src/skin.rs:365-367) then [TextView::from] and the copy of the scroll *)
Definition mv_text_view {A} (v : MadView A) : outcome (TextView A) :=
  w <- subN (a_width (mv_area v)) 1 ;;
  Ret (mkTV (mv_area v) (mv_text v w) (mv_skin v) (mv_scroll v) true).

(** src/views/mad_view.rs:39-45 *)
Definition mv_write_on {A} (render : A -> nat -> outcome (list cmd)) (v : MadView A) : outcome (list cmd) :=
  tv <- mv_text_view v ;; tv_write_on render tv.

Definition area_eqb (a b : Area) : bool :=
  (a_left a =? a_left b) && (a_top a =? a_top b) && (a_width a =? a_width b) && (a_height a =? a_height b).
(** src/views/mad_view.rs:48-59 *)
Definition mv_resize {A} (v : MadView A) (a : Area) : MadView A :=
  if area_eqb a (mv_area v) then v else
  let s := if negb (a_width a =? a_width (mv_area v)) then 0 else mv_scroll v in
  mkMV (mv_text v) a (mv_skin v) s.
(** src/views/mad_view.rs:62-68 *)
Definition mv_try_scroll_lines {A} (v : MadView A) (lines_count : Z) : outcome (MadView A) :=
  tv <- mv_text_view v ;;
  tv' <- tv_try_scroll_lines tv lines_count ;;
  Ret (mv_with v (scroll tv')).
(** src/views/mad_view.rs:71-73; the product can overflow *)
Definition mv_try_scroll_pages {A} (v : MadView A) (pages_count : Z) : outcome (MadView A) :=
  let n := (pages_count * Z.of_N (a_height (mv_area v)))%Z in
  if ((I32_MIN <=? n) && (n <=? I32_MAX))%Z then mv_try_scroll_lines v n else Panic.
(** src/views/mad_view.rs:81-92, 100-102 *)
Definition mv_apply_key {A} (v : MadView A) (k : KeyComb) : outcome (MadView A * bool) :=
  tv <- mv_text_view v ;;
  let (tv', b) := tv_apply_key tv k in
  Ret (if b then (mv_with v (scroll tv'), true) else (v, false)).

Inductive mv_op := MvLines (n : Z) | MvPages (n : Z) | MvKey (k : KeyComb) | MvResize (a : Area).
Definition mv_apply {A} (v : MadView A) (o : mv_op) : outcome (MadView A) :=
  match o with
  | MvLines n => mv_try_scroll_lines v n
  | MvPages n => mv_try_scroll_pages v n
  | MvKey k => '(v', _) <- mv_apply_key v k ;; Ret v'
  | MvResize a => Ret (mv_resize v a)
  end.
Fixpoint mv_run {A} (v : MadView A) (ops : list mv_op) : outcome (MadView A) :=
  match ops with [] => Ret v | o :: r => v' <- mv_apply v o ;; mv_run v' r end.
