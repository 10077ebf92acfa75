(** * Model of src/fit/composite_fit.rs and of the fitting functions of src/composite.rs *)
From Verif Require Import Base M_Style M_Fit M_Wrap.
Set Implicit Arguments.

(** src/fit/composite_fit.rs:10 *)
Definition ELLIPSIS : str := [8230%N].
(** [Compound::raw_str] of minimad *)
Definition raw_str (s : str) : Compound := mkCompound s false false false false.

(** src/fit/composite_fit.rs:16-25 *)
Record Fitter := mkFitter { mid_token_ellision : bool; mid_compound_ellision : bool; ft_align : Alignment }.
(** src/fit/composite_fit.rs:27-35 *)
Definition fitter_default : Fitter := mkFitter true true Unspecified.
(** src/fit/composite_fit.rs:191-198 *)
Definition for_align (a : Alignment) : Fitter :=
  let internal := match a with Unspecified => true | _ => false end in mkFitter internal internal a.

(** src/fit/composite_fit.rs:37-49: the byte index and the width of the chars, [i] being the byte index of the first one *)
Fixpoint char_infos (u : unicode) (i : nat) (s : str) : list (nat * nat) :=
  match s with [] => [] | c :: r => (i, chw u c) :: char_infos u (i + len_utf8 c) r end.
Definition str_char_infos (u : unicode) (s : str) : list (nat * nat) := char_infos u 0 s.

(** src/fit/composite_fit.rs:51-57 *)
Record Zone := mkZone { compound_idx : nat; byte_start_idx : nat; z_infos : list (nat * nat); removable_width : nat }.

(** src/fit/composite_fit.rs:69-84 and 89-104: the zone of the token between two byte indices, if it's big enough *)
Definition token_zone (u : unicode) (min ci : nat) (s : str) (a b : nat) : outcome (list Zone) :=
  d <- csub b a ;;
  if min + 2 <=? d then
    zs <- byte_slice s a b ;;
    if min <=? strw u zs then Ret [mkZone ci a (str_char_infos u zs) (strw u zs)] else Ret []
  else Ret [].
(** the loop of src/fit/composite_fit.rs:67-104; [rest] are the chars from the byte index [i], [start] is [byte_start] *)
Fixpoint token_loop (u : unicode) (min ci : nat) (s rest : str) (i : nat) (start : option nat) : outcome (list Zone) :=
  match rest with
  | [] => match start with Some a => token_zone u min ci s a i | None => Ret [] end
  | ch :: r =>
      if is_white u ch then
        match start with
        | Some a => z <- token_zone u min ci s a i ;; zs <- token_loop u min ci s r (i + len_utf8 ch) None ;; Ret (z ++ zs)
        | None => token_loop u min ci s r (i + len_utf8 ch) None
        end
      else token_loop u min ci s r (i + len_utf8 ch) (match start with Some a => Some a | None => Some i end)
  end.
(** src/fit/composite_fit.rs:59-107 *)
Fixpoint token_zones (u : unicode) (min ci : nat) (cs : list Compound) : outcome (list Zone) :=
  match cs with
  | [] => Ret []
  | c :: r =>
      z <- (if blen (src c) <? min + 2 then Ret [] else token_loop u min ci (src c) (src c) 0 None) ;;
      zs <- token_zones u min (S ci) r ;; Ret (z ++ zs)
  end.
(** [max_by_key(|z| z.removable_width)]: the last one of the biggest ones *)
Definition max_zone (zs : list Zone) : option Zone :=
  fold_left (fun m z => match m with
    | None => Some z
    | Some b => if removable_width b <=? removable_width z then Some z else Some b
    end) zs None.
(** src/fit/composite_fit.rs:108-112 *)
Definition biggest_token (u : unicode) (cs : list Compound) (min : nat) : outcome (option Zone) :=
  zs <- token_zones u min 0 cs ;; Ret (max_zone zs).
(** src/fit/composite_fit.rs:114-138 *)
Fixpoint compound_zones (u : unicode) (min ci : nat) (cs : list Compound) : outcome (list Zone) :=
  match cs with
  | [] => Ret []
  | c :: r =>
      let infos := str_char_infos u (src c) in
      z <- (if length infos <? 2 + min then Ret [] else
              a <- idx infos 1 ;;
              b <- idx infos (length infos - 1) ;;
              removable <- byte_slice (src c) (fst a) (fst b) ;;
              if strw u removable <? min then Ret [] else Ret [mkZone ci 0 infos (strw u removable)]) ;;
      zs <- compound_zones u min (S ci) r ;; Ret (z ++ zs)
  end.
(** src/fit/composite_fit.rs:139-143 *)
Definition biggest_compound (u : unicode) (cs : list Compound) (min : nat) : outcome (option Zone) :=
  zs <- compound_zones u min 0 cs ;; Ret (max_zone zs).

(** the loop of src/fit/composite_fit.rs:154-173, giving the char indices and the removed width *)
Fixpoint cut_loop (u : unicode) (s : str) (z : Zone) (to_remove : nat) (fuel : nat) (start_char_idx end_char_idx removed_width : nat)
    : outcome (nat * nat * nat) :=
  match fuel with
  | 0 => OutOfFuel
  | S fuel =>
      let len := length (z_infos z) in
      d <- csub end_char_idx start_char_idx ;;
      let even := d mod 2 =? 0 in
      if (if even then len <=? end_char_idx + 1 else start_char_idx <=? 1) then Ret (start_char_idx, end_char_idx, removed_width) else
      let end_char_idx := if even then end_char_idx + 1 else end_char_idx in
      start_char_idx <- (if even then Ret start_char_idx else csub start_char_idx 1) ;;
      a <- idx (z_infos z) start_char_idx ;;
      b <- idx (z_infos z) end_char_idx ;;
      cut <- byte_slice s (byte_start_idx z + fst a) (byte_start_idx z + fst b) ;;
      let removed_width := strw u cut in
      if to_remove <=? removed_width then Ret (start_char_idx, end_char_idx, removed_width)
      else cut_loop u s z to_remove fuel start_char_idx end_char_idx removed_width
  end.
(** src/fit/composite_fit.rs:145-183, giving the compounds and the gain *)
Definition cut (u : unicode) (z : Zone) (cs : list Compound) (to_remove : nat) : outcome (list Compound * nat) :=
  if removable_width z <? 2 then Ret (cs, 0) else
  c <- idx cs (compound_idx z) ;;
  let len := length (z_infos z) in
  '(start_char_idx, end_char_idx, removed_width) <- cut_loop u (src c) z to_remove (S len) (len / 2) (len / 2) 0 ;;
  a <- idx (z_infos z) start_char_idx ;;
  b <- idx (z_infos z) end_char_idx ;;
  head <- byte_slice (src c) 0 (byte_start_idx z + fst a) ;;
  tail <- byte_suffix (src c) (byte_start_idx z + fst b) ;;
  let cs := set_nth (compound_idx z) (set_str c head) cs in
  cs <- vec_insert (compound_idx z + 1) (raw_str ELLIPSIS) cs ;;
  cs <- vec_insert (compound_idx z + 2) (set_str c tail) cs ;;
  gain <- csub removed_width 1 ;;
  Ret (cs, gain).

(** the loops of src/fit/composite_fit.rs:224-233 and 238-249; the excess decreases at each turn *)
Fixpoint ellision_loop (u : unicode) (biggest : list Compound -> outcome (option Zone)) (fuel : nat) (cs : list Compound) (excess : nat)
    : outcome (list Compound * nat) :=
  if excess =? 0 then Ret (cs, 0) else
  match fuel with
  | 0 => OutOfFuel
  | S fuel =>
      o <- biggest cs ;;
      '(cs, gain) <- match o with Some z => cut u z cs (excess + 1) | None => Ret (cs, 0) end ;;
      if gain =? 0 then Ret (cs, excess) else
      ellision_loop u biggest fuel cs (excess - Nat.min gain excess)
  end.

(** the loop of src/fit/composite_fit.rs:281-288, giving the index of the last removed char and the removed width *)
Fixpoint remove_left (infos : list (nat * nat)) (excess_left : nat) (fuel last_removed removed_width : nat) : outcome (nat * nat) :=
  match fuel with
  | 0 => OutOfFuel
  | S fuel =>
      ci <- idx infos last_removed ;;
      let removed_width := removed_width + snd ci in
      if (excess_left <=? removed_width) || (last_removed + 1 =? length infos) then Ret (last_removed, removed_width)
      else remove_left infos excess_left fuel (last_removed + 1) removed_width
  end.
(** the loop of src/fit/composite_fit.rs:276-299 *)
Fixpoint truncate_left (u : unicode) (cs : list Compound) (excess_left : nat) : outcome (list Compound) :=
  if excess_left =? 0 then Ret cs else
  match cs with
  | [] => Ret []
  | c :: r =>
      let infos := str_char_infos u (src c) in
      '(last_removed, removed_width) <- remove_left infos excess_left (S (length infos)) 0 0 ;;
      if last_removed + 1 =? length infos then truncate_left u r (excess_left - Nat.min removed_width excess_left)
      else
        ci <- idx infos (last_removed + 1) ;;
        s <- byte_suffix (src c) (fst ci) ;;
        Ret (set_str c s :: r)
  end.
(** the loop of src/fit/composite_fit.rs:310-316, on the reversed char infos *)
Fixpoint remove_right (rinfos : list (nat * nat)) (excess_right : nat) (end_byte_idx removed_width : nat) : nat * nat :=
  match rinfos with
  | [] => (end_byte_idx, removed_width)
  | ci :: r =>
      let removed_width := removed_width + snd ci in
      if excess_right <=? removed_width then (fst ci, removed_width)
      else remove_right r excess_right (fst ci) removed_width
  end.
(** the loop of src/fit/composite_fit.rs:304-327, on the reversed compounds *)
Fixpoint truncate_right_rev (u : unicode) (rcs : list Compound) (excess_right : nat) : outcome (list Compound) :=
  if excess_right =? 0 then Ret rcs else
  match rcs with
  | [] => Ret []
  | c :: r =>
      let '(end_byte_idx, removed_width) := remove_right (rev (str_char_infos u (src c))) excess_right (blen (src c)) 0 in
      if end_byte_idx =? 0 then truncate_right_rev u r (excess_right - Nat.min removed_width excess_right)
      else
        s <- byte_prefix (src c) end_byte_idx ;;
        Ret (set_str c s :: r)
  end.
Definition truncate_right (u : unicode) (cs : list Compound) (excess_right : nat) : outcome (list Compound) :=
  r <- truncate_right_rev u (rev cs) excess_right ;; Ret (rev r).

Definition with_compounds (fc : FmtComposite) (cs : list Compound) (vl : nat) : FmtComposite := mkFC (fc_kind fc) cs vl (fc_spacing fc).
(** src/fit/composite_fit.rs:260-272 *)
Definition excesses (a : Alignment) (excess : nat) : nat * nat :=
  match a with
  | ARight => (excess + 1, 0)
  | ALeft | Unspecified => (0, excess + 1)
  | Center =>
      let left := excess / 2 in
      let right := excess - left in
      if 0 <? left then (left + 1, right + 1) else (0, right + 1)
  end.
(** src/fit/composite_fit.rs:202-331 *)
Definition fit (u : unicode) (f : Fitter) (fc : FmtComposite) (max_width : nat) (k : MadSkin) : outcome FmtComposite :=
  if visible_length fc <=? max_width then Ret fc else
  if max_width =? 0 then Ret (with_compounds fc [] 0) else
  if max_width =? 1 then Ret (with_compounds fc [raw_str ELLIPSIS] 1) else
  let excess := visible_length fc - max_width in
  '(cs, excess) <- (if mid_token_ellision f then ellision_loop u (fun cs => biggest_token u cs 3) excess (fc_compounds fc) excess
                    else Ret (fc_compounds fc, excess)) ;;
  '(cs, excess) <- (if mid_compound_ellision f then ellision_loop u (fun cs => biggest_compound u cs 2) excess cs excess
                    else Ret (cs, excess)) ;;
  if excess =? 0 then Ret (recompute_width u k (with_compounds fc cs (visible_length fc))) else
  let '(excess_left, excess_right) := excesses (ft_align f) excess in
  cs <- (if 0 <? excess_left then cs <- truncate_left u cs excess_left ;; Ret (raw_str ELLIPSIS :: cs) else Ret cs) ;;
  cs <- (if 0 <? excess_right then cs <- truncate_right u cs excess_right ;; Ret (cs ++ [raw_str ELLIPSIS]) else Ret cs) ;;
  Ret (recompute_width u k (with_compounds fc cs (visible_length fc))).

(** src/composite.rs:78-80 *)
Definition fit_width (u : unicode) (fc : FmtComposite) (width : nat) (a : Alignment) (k : MadSkin) : outcome FmtComposite :=
  fit u (for_align a) fc width k.
(** src/composite.rs:97-100 *)
Definition fill_width (u : unicode) (fc : FmtComposite) (width : nat) (a : Alignment) (k : MadSkin) : outcome FmtComposite :=
  fc <- fit_width u fc width a k ;; Ret (extend_width fc width a).
