(** * Model of src/views/progress.rs

    A non negative finite [f32] is a multiple of 2^-149, with at most 24 significant bits: it's given by the [N] of which it's the multiple.
    The operations are those of IEEE 754 (binary32), rounding to the nearest, ties to even. The overflow isn't modelled: it would need
    numbers greater than 2^127, and they're at most 2^64 there. *)
From Verif Require Import Base.
Set Implicit Arguments.
Open Scope N_scope.

(** the value of 1.0 *)
Definition ONE : N := 2 ^ 149.
(** n / 2^k rounded to the nearest integer, ties to even *)
Definition rne (n k : N) : N :=
  let q := n / 2 ^ k in
  match (2 * (n mod 2 ^ k) ?= 2 ^ k) with
  | Lt => q
  | Gt => q + 1
  | Eq => if N.even q then q else q + 1
  end.
(** n / 2^k rounded to the nearest [f32]: the integers less than 2^24 are all [f32]; for greater numbers the 24 first bits are kept *)
Definition rnd (n k : N) : N :=
  let q := n / 2 ^ k in
  if q <? 2 ^ 24 then rne n k
  else let d := N.log2 q - 23 in rne n (k + d) * 2 ^ d.

(** [as f32] from an integer *)
Definition f32_of (n : N) : N := rnd (n * ONE) 0.
(** [a * b] *)
Definition fmul (a b : N) : N := rnd (a * b) 149.
(** [a - b], for b <= a *)
Definition fsub (a b : N) : N := rnd (a - b) 0.
(** [f32::trunc]: exact *)
Definition ftrunc (a : N) : N := a / ONE * ONE.
(** [f32::fract]: [self - self.trunc()] *)
Definition ffract (a : N) : N := fsub a (ftrunc a).
(** [f32::round]: to the nearest integer, ties away from zero *)
Definition fround (a : N) : N := (a + ONE / 2) / ONE * ONE.
(** [as usize], with 64 bits: truncates, and saturates *)
Definition f32_as_usize (a : N) : N := N.min (a / ONE) (2 ^ 64 - 1).

(** src/views/progress.rs:4 *)
Definition CHARS : list char := [9615; 9614; 9613; 9612; 9611; 9610; 9609; 9608].

(** src/views/progress.rs:7-10 *)
Record ProgressBar := mkProgress { part : N; chars_len : N }.
(** src/views/progress.rs:13-18 *)
Definition progress_new (part chars_len : N) : ProgressBar := mkProgress part chars_len.

(** src/views/progress.rs:24-32: the number of full chars, and the chars after them *)
Definition progress_parts (p : ProgressBar) : outcome (N * str) :=
  let mp := fmul (f32_of (chars_len p)) (part p) in
  let full := f32_as_usize mp in
  let remain := f32_as_usize (fround (fmul (ffract mp) (8 * ONE))) in
  if 0 <? remain then
    c <- idx CHARS (N.to_nat (remain - 1)) ;;
    Ret (full, [c])
  else Ret (full, []).
(** The string given to [pad]: src/views/progress.rs:23-33 *)
Definition progress_fmt (p : ProgressBar) : outcome str :=
  c7 <- idx CHARS 7 ;;
  '(full, last) <- progress_parts p ;;
  Ret (repeat c7 (N.to_nat full) ++ last).

(** What is between the braces of a format: [core::fmt]'s fill, alignment, width and precision *)
Inductive fmt_align := FLeft | FCenter | FRight.
Record fmt_spec := mkFmtSpec { f_fill : char; f_align : option fmt_align; f_width : option nat; f_precision : option nat }.
(** [core::fmt::Formatter::pad]: the string is cut to the precision, then padded to the width, on the right when no alignment is given *)
Definition pad (f : fmt_spec) (s : str) : str :=
  let s := match f_precision f with Some max => firstn max s | None => s end in
  match f_width f with
  | None => s
  | Some width =>
    let padding := (width - length s)%nat in
    let left := match f_align f with Some FRight => padding | Some FCenter => (padding / 2)%nat | _ => 0%nat end in
    repeat (f_fill f) left ++ s ++ repeat (f_fill f) (padding - left)
  end.
(** [{}] *)
Definition plain : fmt_spec := mkFmtSpec 32 None None None.
(** src/views/progress.rs:21-35 *)
Definition progress_display (f : fmt_spec) (p : ProgressBar) : outcome str := s <- progress_fmt p ;; Ret (pad f s).
