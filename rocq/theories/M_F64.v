(** * The operations of [f64] used by the views

    A finite [f64] is a multiple of 2^-1074, with at most 53 significant bits: it's given by its sign and the [N] of which its absolute value
    is the multiple. The operations are those of IEEE 754 (binary64), rounding to the nearest, ties to even. *)
From Verif Require Import Base.
From Verif Require M_Progress.
Set Implicit Arguments.
Open Scope N_scope.

Inductive F64 := FNan | FInf (neg : bool) | FFin (neg : bool) (a : N).
(** the value of 1.0 *)
Definition F64_ONE : N := 2 ^ 1074.
(** the nearest multiple having 53 significant bits *)
Definition rnd53 (n : N) : N :=
  if n <? 2 ^ 53 then n
  else let d := N.log2 n - 52 in M_Progress.rne n d * 2 ^ d.
(** A finite result, or an infinity when it's out of the range: 2^1024 is the first number which isn't a [f64] *)
Definition f64_finite (neg : bool) (a : N) : F64 := if a <? 2 ^ 1024 * F64_ONE then FFin neg a else FInf neg.
(** the product with a [u16] converted by [f64::from], which is exact *)
Definition f64_mul_u16 (x : F64) (h : N) : F64 :=
  match x with
  | FNan => FNan
  | FInf neg => if h =? 0 then FNan else FInf neg
  | FFin neg a => f64_finite neg (rnd53 (a * h))
  end.
(** [x < 0.0] *)
Definition f64_lt_0 (x : F64) : bool :=
  match x with FNan => false | FInf neg => neg | FFin neg a => neg && (0 <? a) end.
(** [f64::floor] and [f64::ceil]: exact, as the integers between two [f64] which aren't integers are [f64] *)
Definition trunc_up (a : N) : N := (a + (F64_ONE - 1)) / F64_ONE * F64_ONE.
Definition trunc_down (a : N) : N := a / F64_ONE * F64_ONE.
Definition f64_floor (x : F64) : F64 :=
  match x with FFin neg a => FFin neg (if neg then trunc_up a else trunc_down a) | _ => x end.
Definition f64_ceil (x : F64) : F64 :=
  match x with FFin neg a => FFin neg (if neg then trunc_down a else trunc_up a) | _ => x end.
(** [x as i32]: truncates, and saturates *)
Definition f64_as_i32 (x : F64) : Z :=
  match x with
  | FNan => 0
  | FInf neg => if neg then -2147483648 else 2147483647
  | FFin neg a =>
      let n := Z.of_N (a / F64_ONE) in
      if neg then Z.max (-2147483648) (- n) else Z.min 2147483647 n
  end%Z.
