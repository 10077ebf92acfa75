(** * Model of src/fit/str_fit.rs, src/fit/crop_writer.rs, src/fit/filling.rs, src/spacing.rs

    What is written on the wrapped writer is a list of commands. IO errors aren't modelled. *)
From Verif Require Import Base M_Style.
Set Implicit Arguments.

(** ** StrFit *)

(** src/fit/str_fit.rs:19-23 *)
Record StrFit := mkFit { bytes_count : nat; cols_count : nat; has_tab : bool }.

(** [TAB_REPLACEMENT] (src/fit/str_fit.rs:6) and [DEFAULT_TAB_REPLACEMENT] (src/fit/mod.rs:32) *)
Definition TAB_REPLACEMENT : str := [32; 32]%N.
Definition DEFAULT_TAB_REPLACEMENT : str := [32; 32]%N.

(** The [match] of src/fit/str_fit.rs:31-42. An [i32] is a [Z] here: overflows would need strings of 2^31 columns. *)
Definition fit_char_width (u : unicode) (c : char) : Z :=
  if N.eqb c c_tab then Z.of_nat (blen TAB_REPLACEMENT)
  else if N.eqb c c_bs then (-1)%Z
  else Z.of_nat (chw u c).

(** The loop of src/fit/str_fit.rs:30-49; [i] is the byte index of the first char of [s] *)
Fixpoint strfit_loop (u : unicode) (cols_max : nat) (s : str) (i : nat) (bytes : nat) (cols : Z) (tab : bool)
  : nat * Z * bool :=
  match s with
  | [] => (bytes, cols, tab)
  | c :: r =>
      let tab := if N.eqb c c_tab then true else tab in
      let next := (cols + fit_char_width u c)%Z in
      if ((0 <? next)%Z && (Z.of_nat cols_max <? next)%Z)%bool then (bytes, cols, tab)
      else strfit_loop u cols_max r (i + len_utf8 c) (i + len_utf8 c) next tab
  end.

(** src/fit/str_fit.rs:26-55 *)
Definition strfit_from (u : unicode) (s : str) (cols_max : nat) : StrFit :=
  let '(bytes, cols, tab) := strfit_loop u cols_max s 0 0 0%Z false in
  mkFit bytes (Z.to_nat (Z.max cols 0)) tab.

(** src/fit/str_fit.rs:59-62 *)
Definition count_fitting (u : unicode) (s : str) (cols_max : nat) : nat * nat :=
  let f := strfit_from u s cols_max in (bytes_count f, cols_count f).

(** [&s[0..n]]: panics when [n] isn't on a char boundary *)
Fixpoint byte_prefix (s : str) (n : nat) : outcome str :=
  match n with
  | 0 => Ret []
  | _ => match s with
         | [] => Panic
         | c :: r => if len_utf8 c <=? n then p <- byte_prefix r (n - len_utf8 c) ;; Ret (c :: p) else Panic
         end
  end.

(** [s.replace('\t', TAB_REPLACEMENT)] *)
Definition replace_tabs (s : str) : str :=
  flat_map (fun c => if N.eqb c c_tab then TAB_REPLACEMENT else [c]) s.

(** src/fit/str_fit.rs:69-77, and [make_cow] 85-94, which differs only by borrowing when there's no tab *)
Definition make_string (u : unicode) (s : str) (cols_max : nat) : outcome (str * nat) :=
  let f := strfit_from u s cols_max in
  p <- byte_prefix s (bytes_count f) ;;
  if has_tab f then Ret (replace_tabs p, cols_count f) else Ret (p, cols_count f).

(** ** Filling *)

(** src/fit/filling.rs:12 *)
Definition FILLING_LEN := 1000.

(** src/fit/filling.rs:15-18 *)
Record Filling := mkFilling { filling_string : str; char_size : nat }.

(** src/fit/filling.rs:21-31 *)
Definition filling_from_char (c : char) : Filling := mkFilling (repeat c FILLING_LEN) (blen [c]).

(** The loop of src/fit/filling.rs:32-39 and 40-52, [pr] being the way a piece is printed *)
Fixpoint filling_loop (pr : str -> cmd) (f : Filling) (fuel len : nat) : outcome (list cmd) :=
  match len with
  | 0 => Ret []
  | _ =>
    match fuel with
    | 0 => OutOfFuel
    | S fuel =>
        let sl := Nat.min len FILLING_LEN in
        p <- byte_prefix (filling_string f) (sl * char_size f) ;;
        len' <- csub len sl ;;
        r <- filling_loop pr f fuel len' ;;
        Ret (pr p :: r)
    end
  end.
(** src/fit/filling.rs:32-39 *)
Definition filling_queue_unstyled (f : Filling) (len : nat) : outcome (list cmd) := filling_loop Print f len len.
(** src/fit/filling.rs:40-52 *)
Definition filling_queue_styled (f : Filling) (cs : CStyle) (len : nat) : outcome (list cmd) :=
  filling_loop (Styled cs) f len len.

(** src/fit/mod.rs:34 *)
Definition SPACE_FILLING : Filling := filling_from_char c_space.

(** src/fit/mod.rs:36-43 *)
Definition fill_bg (len : nat) (c : Color) : outcome (list cmd) :=
  r <- filling_queue_unstyled SPACE_FILLING len ;; Ret (SetBg c :: r).

(** ** CropWriter *)

(** src/fit/crop_writer.rs:15-26; [written] is what has been queued on [w] *)
Record CropWriter := mkCW { written : list cmd; allowed : nat; tab_replacement : str }.

(** src/fit/crop_writer.rs:32-38 *)
Definition cw_new (limit : nat) : CropWriter := mkCW [] limit DEFAULT_TAB_REPLACEMENT.
(** src/fit/crop_writer.rs:39-41 *)
Definition is_full (w : CropWriter) : bool := allowed w =? 0.
(** src/fit/crop_writer.rs:44-46 *)
Definition cropped_str (u : unicode) (w : CropWriter) (s : str) : outcome (str * nat) :=
  make_string u s (allowed w).
(** [self.allowed = a] and commands queued *)
Definition cw_emit (w : CropWriter) (a : nat) (cmds : list cmd) : CropWriter :=
  mkCW (written w ++ cmds) a (tab_replacement w).

(** src/fit/crop_writer.rs:47-55 *)
Definition cw_queue_unstyled_str (u : unicode) (w : CropWriter) (s : str) : outcome CropWriter :=
  if is_full w then Ret w else
  '(string, len) <- cropped_str u w s ;;
  a <- csub (allowed w) len ;;
  Ret (cw_emit w a [Print string]).
(** src/fit/crop_writer.rs:56-63 *)
Definition cw_queue_str (u : unicode) (w : CropWriter) (cs : CStyle) (s : str) : outcome CropWriter :=
  if is_full w then Ret w else
  '(string, len) <- cropped_str u w s ;;
  a <- csub (allowed w) len ;;
  Ret (cw_emit w a (cs_queue cs string)).
(** src/fit/crop_writer.rs:64-71 *)
Definition cw_queue_char (u : unicode) (w : CropWriter) (cs : CStyle) (c : char) : outcome CropWriter :=
  let width := chw u c in
  if width <? allowed w then
    a <- csub (allowed w) width ;; Ret (cw_emit w a (cs_queue cs [c]))
  else Ret w.
(** src/fit/crop_writer.rs:72-82 *)
Definition cw_queue_unstyled_char (u : unicode) (w : CropWriter) (c : char) : outcome CropWriter :=
  if N.eqb c c_tab then cw_queue_unstyled_str u w (tab_replacement w) else
  let width := chw u c in
  if width <? allowed w then
    a <- csub (allowed w) width ;; Ret (cw_emit w a [Print [c]])
  else Ret w.

(** The loop of src/fit/crop_writer.rs:89-98 and 109-117 followed by the end of the function: gives the string to print and the
    new value of [allowed]. [truncate(idx)] keeps the chars before the current one. *)
Fixpoint g_string_loop (allowed : nat) (pre rest : str) (len : nat) : outcome (str * nat) :=
  match rest with
  | [] => a <- csub allowed len ;; Ret (pre, a)
  | c :: r =>
      let len := len + 1 in
      if allowed <? len then Ret (pre, 0) else g_string_loop allowed (pre ++ [c]) r len
  end.
(** src/fit/crop_writer.rs:85-102 *)
Definition cw_queue_unstyled_g_string (w : CropWriter) (s : str) : outcome CropWriter :=
  if is_full w then Ret w else
  '(p, a) <- g_string_loop (allowed w) [] s 0 ;; Ret (cw_emit w a [Print p]).
(** src/fit/crop_writer.rs:105-120 *)
Definition cw_queue_g_string (w : CropWriter) (cs : CStyle) (s : str) : outcome CropWriter :=
  if is_full w then Ret w else
  '(p, a) <- g_string_loop (allowed w) [] s 0 ;; Ret (cw_emit w a (cs_queue cs p)).
(** src/fit/crop_writer.rs:121-126 *)
Definition cw_queue_fg (w : CropWriter) (cs : CStyle) : outcome CropWriter :=
  Ret (cw_emit w (allowed w) (cs_queue_fg cs)).
Definition cw_queue_bg (w : CropWriter) (cs : CStyle) : outcome CropWriter :=
  Ret (cw_emit w (allowed w) (cs_queue_bg cs)).
(** src/fit/crop_writer.rs:136-145 *)
Definition cw_repeat (w : CropWriter) (cs : CStyle) (f : Filling) (len : nat) : outcome CropWriter :=
  let len := Nat.min len (allowed w) in
  a <- csub (allowed w) len ;;
  cmds <- filling_queue_styled f cs len ;;
  Ret (cw_emit w a cmds).
(** src/fit/crop_writer.rs:146-154 *)
Definition cw_repeat_unstyled (w : CropWriter) (f : Filling) (len : nat) : outcome CropWriter :=
  let len := Nat.min len (allowed w) in
  a <- csub (allowed w) len ;;
  cmds <- filling_queue_unstyled f len ;;
  Ret (cw_emit w a cmds).
(** src/fit/crop_writer.rs:127-129 *)
Definition cw_fill (w : CropWriter) (cs : CStyle) (f : Filling) : outcome CropWriter := cw_repeat w cs f (allowed w).
(** src/fit/crop_writer.rs:130-132 *)
Definition cw_fill_unstyled (w : CropWriter) (f : Filling) : outcome CropWriter := cw_repeat_unstyled w f (allowed w).
(** src/fit/crop_writer.rs:133-135 *)
Definition cw_fill_with_space (w : CropWriter) (cs : CStyle) : outcome CropWriter :=
  cw_repeat w cs SPACE_FILLING (allowed w).

(** A call on a crop writer. Fillings are built with [Filling::from_char], the only constructor. *)
Inductive cw_op :=
| CwUnstyledStr (s : str) | CwStr (cs : CStyle) (s : str)
| CwChar (cs : CStyle) (c : char) | CwUnstyledChar (c : char)
| CwUnstyledG (s : str) | CwG (cs : CStyle) (s : str)
| CwFg (cs : CStyle) | CwBg (cs : CStyle)
| CwFill (cs : CStyle) (c : char) | CwFillUnstyled (c : char) | CwFillSpace (cs : CStyle)
| CwRepeat (cs : CStyle) (c : char) (n : nat) | CwRepeatUnstyled (c : char) (n : nat).

Definition cw_apply (u : unicode) (w : CropWriter) (o : cw_op) : outcome CropWriter :=
  match o with
  | CwUnstyledStr s => cw_queue_unstyled_str u w s
  | CwStr cs s => cw_queue_str u w cs s
  | CwChar cs c => cw_queue_char u w cs c
  | CwUnstyledChar c => cw_queue_unstyled_char u w c
  | CwUnstyledG s => cw_queue_unstyled_g_string w s
  | CwG cs s => cw_queue_g_string w cs s
  | CwFg cs => cw_queue_fg w cs
  | CwBg cs => cw_queue_bg w cs
  | CwFill cs c => cw_fill w cs (filling_from_char c)
  | CwFillUnstyled c => cw_fill_unstyled w (filling_from_char c)
  | CwFillSpace cs => cw_fill_with_space w cs
  | CwRepeat cs c n => cw_repeat w cs (filling_from_char c) n
  | CwRepeatUnstyled c n => cw_repeat_unstyled w (filling_from_char c) n
  end.

Fixpoint cw_run (u : unicode) (w : CropWriter) (ops : list cw_op) : outcome CropWriter :=
  match ops with [] => Ret w | o :: r => w' <- cw_apply u w o ;; cw_run u w' r end.

(** ** Spacing *)

(** src/spacing.rs:10-13 *)
Record Spacing := mkSpacing { sp_width : nat; sp_align : Alignment }.

(** src/spacing.rs:15-20 *)
Definition truncate (s : str) (max_chars : nat) : str :=
  match nth_error s max_chars with None => s | Some _ => firstn max_chars s end.

(** src/spacing.rs:26-42 (the subtractions are guarded by the first test) *)
Definition completions (align : Alignment) (inner_width outer_width : nat) : nat * nat :=
  if outer_width <=? inner_width then (0, 0) else
  match align with
  | ALeft | Unspecified => (0, outer_width - inner_width)
  | Center => let lp := (outer_width - inner_width) / 2 in (lp, outer_width - inner_width - lp)
  | ARight => (outer_width - inner_width, 0)
  end.
(** src/spacing.rs:44-53 *)
Definition optional_completions (align : Alignment) (inner_width : nat) (outer_width : option nat) : nat * nat :=
  match outer_width with Some w => completions align inner_width w | None => (0, 0) end.
(** src/spacing.rs:55-57 *)
Definition completions_for (sp : Spacing) (inner_width : nat) : nat * nat :=
  completions (sp_align sp) inner_width (sp_width sp).

(** src/spacing.rs:58-87 *)
Definition write_counted_str (sp : Spacing) (s : str) (str_width : nat) (style : CStyle) : list cmd :=
  if sp_width sp <=? str_width then cs_queue style (truncate s (sp_width sp))
  else
    let '(lp, rp) := completions_for sp str_width in
    cs_queue style (repeat c_space lp ++ s ++ repeat c_space rp).
(** src/spacing.rs:90-95 *)
Definition write_str (sp : Spacing) (s : str) (style : CStyle) : list cmd :=
  write_counted_str sp s (length s) style.
