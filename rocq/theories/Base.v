(** * Base definitions shared by the whole model

    Characters, the Unicode oracle, the outcome monad (panics) and the
    [Vec] primitives of the Rust standard library used by termimad. *)
From Coq Require Export List Arith NArith ZArith Lia Bool.
From Coq Require Export ZifyBool ZifyNat ZifyN.
Export ListNotations.
Set Implicit Arguments.

(** A Rust [char] is a Unicode scalar value. A [String] or [&str] is a list of them. *)
Notation char := N (only parsing).
Notation str := (list N) (only parsing).

Definition c_nl   : char := 10%N.   (* '\n' *)
Definition c_cr   : char := 13%N.   (* '\r' *)
Definition c_bs   : char := 8%N.    (* '\x08' *)
Definition c_tab  : char := 9%N.    (* '\t' *)
Definition c_space: char := 32%N.   (* ' ' *)
Definition c_ellipsis : char := 8230%N. (* '…' , src/fit/mod.rs:25 *)

(** The functions of other crates (and of std) on chars. They are not modelled: theorems
    are quantified over this record.
    - [chw c] is [UnicodeWidthChar::width(c).unwrap_or(0)]
    - [strw s] is [UnicodeWidthStr::width(s)]
    - [is_white c] is [char::is_whitespace]
    - [is_alnum c] is [char::is_alphanumeric] *)
Record unicode := {
  chw : char -> nat;
  strw : str -> nat;
  is_white : char -> bool;
  is_alnum : char -> bool;
}.

Fixpoint sum (l : list nat) : nat :=
  match l with [] => 0 | x :: r => x + sum r end.

(** Width of a string as the sum of the widths of its chars. *)
Definition sumw (w : char -> nat) (s : str) : nat := sum (map w s).

(** A string's width is the sum of its chars' widths: true of unicode-width up to 0.1.12. *)
Definition additive (u : unicode) : Prop := forall s, strw u s = sumw (chw u) s.

(** [char::len_utf8] *)
Definition len_utf8 (c : char) : nat :=
  if N.ltb c 128 then 1 else if N.ltb c 2048 then 2 else if N.ltb c 65536 then 3 else 4.

(** Number of bytes of a string: [str::len] *)
Definition blen (s : str) : nat := sum (map len_utf8 s).

(** Outcome of a computation which may panic. [OutOfFuel] is only for loops modelled with fuel. *)
Inductive outcome (A : Type) : Type :=
| Ret (a : A)
| Panic
| OutOfFuel.
Arguments Ret {A} a.
Arguments Panic {A}.
Arguments OutOfFuel {A}.

Definition bind {A B} (m : outcome A) (f : A -> outcome B) : outcome B :=
  match m with Ret a => f a | Panic => Panic | OutOfFuel => OutOfFuel end.

Notation "x <- m ;; k" := (bind m (fun x => k))
  (at level 61, m at next level, right associativity).
Notation "' p <- m ;; k" := (bind m (fun x => match x with p => k end))
  (at level 61, p pattern, m at next level, right associativity).

(** Checked subtraction: in a build with overflow checks [a - b] panics when [a < b]. *)
Definition csub (a b : nat) : outcome nat := if b <=? a then Ret (a - b) else Panic.

(** [v[i]] *)
Definition idx {A} (l : list A) (i : nat) : outcome A :=
  match nth_error l i with Some a => Ret a | None => Panic end.

(** [v[i] = a] once [v[i]] is known to exist *)
Fixpoint set_nth {A} (i : nat) (a : A) (l : list A) : list A :=
  match l, i with
  | [], _ => []
  | _ :: r, 0 => a :: r
  | x :: r, S i' => x :: set_nth i' a r
  end.

(** [Vec::insert]: panics if [i > len] *)
Definition vec_insert {A} (i : nat) (a : A) (l : list A) : outcome (list A) :=
  if i <=? length l then Ret (firstn i l ++ a :: skipn i l) else Panic.

(** [Vec::remove]: panics if [i >= len] *)
Definition vec_remove {A} (i : nat) (l : list A) : outcome (A * list A) :=
  match nth_error l i with
  | Some a => Ret (a, firstn i l ++ skipn (S i) l)
  | None => Panic
  end.

(** [Vec::split_off]: panics if [i > len]; gives what stays and what is returned *)
Definition vec_split_off {A} (i : nat) (l : list A) : outcome (list A * list A) :=
  if i <=? length l then Ret (firstn i l, skipn i l) else Panic.

(** [Vec::drain(a..b)]: panics if [a > b] or [b > len]; gives what stays *)
Definition vec_drain {A} (a b : nat) (l : list A) : outcome (list A) :=
  if (a <=? b) && (b <=? length l) then Ret (firstn a l ++ skipn b l) else Panic.

(** [Vec::swap]: panics when an index is out of bounds *)
Definition vec_swap {A} (a b : nat) (l : list A) : outcome (list A) :=
  xa <- idx l a ;; xb <- idx l b ;; Ret (set_nth b xa (set_nth a xb l)).

Arguments csub : simpl never.
Arguments idx : simpl never.
Arguments vec_insert : simpl never.
Arguments vec_remove : simpl never.
Arguments vec_split_off : simpl never.
Arguments vec_drain : simpl never.
Arguments vec_swap : simpl never.
