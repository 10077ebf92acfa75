(** * Model of src/fit/tbl_fit.rs *)
From Verif Require Import Base.
Set Implicit Arguments.

(** [slice::sort_by_key] and other sorts of std: the stable sort for the order [le] *)
Fixpoint sort_insert {A} (le : A -> A -> bool) (x : A) (l : list A) : list A :=
  match l with [] => [x] | y :: r => if le x y then x :: l else y :: sort_insert le x r end.
Definition stable_sort {A} (le : A -> A -> bool) (l : list A) : list A := fold_right (sort_insert le) [] l.

(** src/fit/tbl_fit.rs:15-19 *)
Record ColData := mkCol { sum_widths : nat; col_width : nat; col_count : nat }.
(** src/fit/tbl_fit.rs:21-29 *)
Definition col_default : ColData := mkCol 0 3 0.

(** src/fit/tbl_fit.rs:180-187; there's a panic when dividing by zero *)
Definition div_ceil (q r : nat) : outcome nat :=
  if r =? 0 then Panic else Ret (if negb (q mod r =? 0) then q / r + 1 else q / r).

(** src/fit/tbl_fit.rs:32-38 *)
Definition avg_width (c : ColData) : outcome nat :=
  if col_count c =? 0 then Ret 0 else div_ceil (sum_widths c) (col_count c).
(** src/fit/tbl_fit.rs:39-43 *)
Definition col_see (c : ColData) (w : nat) : ColData := mkCol (sum_widths c + w) (Nat.max (col_width c) w) (col_count c + 1).

(** src/fit/tbl_fit.rs:8-11 *)
Record TblFit := mkTF { cols : list ColData; available_sum_width : nat }.
(** src/fit/tbl_fit.rs:47-54 *)
Record TblFitResult := mkTFR { reduced : bool; col_widths : list nat }.

(** src/fit/tbl_fit.rs:61-71; [None] is the [InsufficientWidthError] *)
Definition tf_new (cols_count available_width : nat) : outcome (option TblFit) :=
  if available_width <? cols_count * 4 + 1 then Ret None else
  a <- csub available_width 1 ;;
  a <- csub a cols_count ;;
  Ret (Some (mkTF (repeat col_default cols_count) a)).

(** src/fit/tbl_fit.rs:72-76 *)
Definition see_cell (t : TblFit) (i w : nat) : TblFit :=
  match nth_error (cols t) i with
  | Some c => mkTF (set_nth i (col_see c w) (cols t)) (available_sum_width t)
  | None => t
  end.

(** src/fit/tbl_fit.rs:99-104 *)
Record ColFit := mkCF { cf_idx : nat; std_width : nat; cf_avg : nat; cf_width : nat }.
Definition cf_with (c : ColFit) (w : nat) : ColFit := mkCF (cf_idx c) (std_width c) (cf_avg c) w.

(** src/fit/tbl_fit.rs:105-115 *)
Fixpoint make_fits (i : nat) (l : list ColData) : outcome (list ColFit) :=
  match l with
  | [] => Ret []
  | c :: r => a <- avg_width c ;; rest <- make_fits (S i) r ;; Ret (mkCF i (col_width c) a (col_width c) :: rest)
  end.

(** src/fit/tbl_fit.rs:130-134 *)
Fixpoint potential_1 (l : list ColFit) : outcome nat :=
  match l with
  | [] => Ret 0
  | c :: r =>
      if (4 <? cf_width c) && (cf_avg c + 1 <? cf_width c) then
        d <- csub (cf_width c) (cf_avg c) ;;
        s <- potential_1 r ;; Ret (Nat.min d 4 + s)
      else potential_1 r
  end.

(** the loop of src/fit/tbl_fit.rs:137-150, returning the columns and the remaining excess *)
Fixpoint step_1 (cut uncut : nat) (excess : nat) (l : list ColFit) : outcome (list ColFit * nat) :=
  match l with
  | [] => Ret ([], excess)
  | c :: r =>
      if (4 <? std_width c) && (cf_avg c <? std_width c) then
        d <- csub (cf_width c) (cf_avg c) ;;
        gain <- div_ceil (d * cut) uncut ;;
        m <- csub (cf_width c) 4 ;;
        let gain := Nat.min (Nat.min gain excess) m in
        w <- csub (cf_width c) gain ;;
        excess' <- csub excess gain ;;
        if excess' =? 0 then Ret (cf_with c w :: r, 0)
        else '(r', e) <- step_1 cut uncut excess' r ;; Ret (cf_with c w :: r', e)
      else '(r', e) <- step_1 cut uncut excess r ;; Ret (c :: r', e)
  end.

(** src/fit/tbl_fit.rs:156-157 *)
Fixpoint sum_over_3 (l : list ColFit) : outcome nat :=
  match l with
  | [] => Ret 0
  | c :: r => d <- csub (cf_width c) 3 ;; s <- sum_over_3 r ;; Ret (d + s)
  end.

(** the loop of src/fit/tbl_fit.rs:159-167 *)
Fixpoint step_2 (excess_before total : nat) (excess : nat) (l : list ColFit) : outcome (list ColFit * nat) :=
  match l with
  | [] => Ret ([], excess)
  | c :: r =>
      d <- csub (cf_width c) 3 ;;
      gain <- div_ceil (d * excess_before) total ;;
      let gain := Nat.min (Nat.min gain excess) d in
      w <- csub (cf_width c) gain ;;
      excess' <- csub excess gain ;;
      if excess' =? 0 then Ret (cf_with c w :: r, 0)
      else '(r', e) <- step_2 excess_before total excess' r ;; Ret (cf_with c w :: r', e)
  end.

(** src/fit/tbl_fit.rs:78-177 *)
Definition tf_fit (t : TblFit) : outcome TblFitResult :=
  let sum_w := sum (map col_width (cols t)) in
  if sum_w <=? available_sum_width t then Ret (mkTFR false (map col_width (cols t))) else
  if length (cols t) =? 0 then Ret (mkTFR false []) else
  if length (cols t) =? 1 then Ret (mkTFR false [available_sum_width t]) else
  fits <- make_fits 0 (cols t) ;;
  if sum_w <=? available_sum_width t then Ret (mkTFR false (map col_width (cols t))) else
  excess <- csub sum_w (available_sum_width t) ;;
  let fits := stable_sort (fun a b => cf_width b <=? cf_width a) fits in
  uncut <- potential_1 fits ;;
  let cut := Nat.min uncut excess in
  '(fits, excess) <- (if 0 <? cut then step_1 cut uncut excess fits else Ret (fits, excess)) ;;
  '(fits, excess) <-
    (if 0 <? excess then
       s <- sum_over_3 fits ;;
       step_2 excess (Nat.min s excess) excess fits
     else Ret (fits, excess)) ;;
  let fits := stable_sort (fun a b => cf_idx a <=? cf_idx b) fits in
  Ret (mkTFR true (map cf_width fits)).

(** A table whose cells are seen one after the other *)
Fixpoint see_cells (t : TblFit) (cells : list (nat * nat)) : TblFit :=
  match cells with [] => t | (i, w) :: r => see_cells (see_cell t i w) r end.
