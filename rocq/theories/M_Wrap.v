(** * Model of src/composite.rs, src/tokens.rs and src/fit/wrap.rs *)
From Verif Require Import Base M_Style M_Fit.
Set Implicit Arguments.

(** ** src/composite.rs *)

(** src/composite.rs:13-22 *)
Record FmtComposite := mkFC {
  fc_kind : CompositeKind; fc_compounds : list Compound; visible_length : nat; fc_spacing : option Spacing
}.

(** src/composite.rs:25-32 *)
Definition fc_new : FmtComposite := mkFC KParagraph [] 0 None.

(** src/skin.rs:274-289; depths are u8 in the code *)
Definition visible_composite_length (u : unicode) (k : MadSkin) (kind : CompositeKind) (cs : list Compound) : nat :=
  let compounds_width := sum (map (fun c => strw u (src c)) cs) in
  match kind with
  | KListItem depth => 2 + depth
  | KListItemFollowUp depth => match indent_mode k with FirstLineOnly => 0 | Block => 2 + depth end
  | KQuote => 2
  | _ => 0
  end + compounds_width.

(** minimad's [CompositeStyle] and [Composite] *)
Inductive MStyle := MParagraph | MHeader (level : nat) | MListItem (depth : nat) | MCode | MQuote.
Record MComposite := mkMC { mc_style : MStyle; mc_compounds : list Compound }.
(** src/composite_kind.rs:17-27 *)
Definition kind_of (s : MStyle) : CompositeKind :=
  match s with
  | MParagraph => KParagraph | MHeader l => KHeader l | MListItem d => KListItem d | MCode => KCode | MQuote => KQuote
  end.

(** src/composite.rs:33-41 *)
Definition fc_from (u : unicode) (k : MadSkin) (c : MComposite) : FmtComposite :=
  let kind := kind_of (mc_style c) in
  mkFC kind (mc_compounds c) (visible_composite_length u k kind (mc_compounds c)) None.

(** src/composite.rs:58-61 *)
Definition add_compound (u : unicode) (fc : FmtComposite) (c : Compound) : FmtComposite :=
  mkFC (fc_kind fc) (fc_compounds fc ++ [c]) (visible_length fc + strw u (src c)) (fc_spacing fc).
(** src/composite.rs:42-46 *)
Definition fc_from_compound (u : unicode) (c : Compound) : FmtComposite := add_compound u fc_new c.
(** src/composite.rs:50-55 *)
Definition fc_completions (fc : FmtComposite) : nat * nat :=
  match fc_spacing fc with Some sp => completions_for sp (visible_length fc) | None => (0, 0) end.
(** src/composite.rs:67-69 *)
Definition recompute_width (u : unicode) (k : MadSkin) (fc : FmtComposite) : FmtComposite :=
  mkFC (fc_kind fc) (fc_compounds fc) (visible_composite_length u k (fc_kind fc) (fc_compounds fc)) (fc_spacing fc).
(** src/composite.rs:83-92 *)
Definition extend_width (fc : FmtComposite) (width : nat) (align : Alignment) : FmtComposite :=
  match fc_spacing fc with
  | Some sp => mkFC (fc_kind fc) (fc_compounds fc) (visible_length fc)
                 (Some (mkSpacing (if sp_width sp <? width then width else sp_width sp) align))
  | None => if visible_length fc <? width
            then mkFC (fc_kind fc) (fc_compounds fc) (visible_length fc) (Some (mkSpacing width align))
            else fc
  end.

(** ** src/tokens.rs *)

(** src/tokens.rs:8-14 *)
Record Token := mkTok { t_compound : Compound; blank : bool; t_width : nat; t_start : nat; t_end : nat }.

(** [&s[a..b]]: panics out of char boundaries and when [b < a] *)
Fixpoint byte_suffix (s : str) (n : nat) : outcome str :=
  match n with
  | 0 => Ret s
  | _ => match s with
         | [] => Panic
         | c :: r => if len_utf8 c <=? n then byte_suffix r (n - len_utf8 c) else Panic
         end
  end.
Definition byte_slice (s : str) (a b : nat) : outcome str :=
  len <- csub b a ;;
  r <- byte_suffix s a ;;
  byte_prefix r len.
(** [Compound::set_str] of minimad *)
Definition set_str (c : Compound) (s : str) : Compound := mkCompound s (c_bold c) (c_italic c) (c_code c) (c_strikeout c).
(** src/tokens.rs:17-21 *)
Definition to_compound (t : Token) : outcome Compound :=
  s <- byte_slice (src (t_compound t)) (t_start t) (t_end t) ;;
  Ret (set_str (t_compound t) s).

(** the loop of src/tokens.rs:32-56: [s] are the remaining chars, [i] the byte index of the first one *)
Fixpoint tokenize_loop (u : unicode) (c : Compound) (max_token_width : nat) (s : str) (i : nat) (cur : option Token)
    : list Token :=
  match s with
  | [] => match cur with Some t => [t] | None => [] end
  | ch :: r =>
      let b := is_white u ch && negb (c_code c) in
      let w := chw u ch in
      let new := mkTok c b w i (i + len_utf8 ch) in
      match cur with
      | Some t =>
          if Bool.eqb (blank t) b && (t_width t + w <=? max_token_width) then
            tokenize_loop u c max_token_width r (i + len_utf8 ch)
              (Some (mkTok (t_compound t) (blank t) (t_width t + w) (t_start t) (t_end t + len_utf8 ch)))
          else t :: tokenize_loop u c max_token_width r (i + len_utf8 ch) (Some new)
      | None => tokenize_loop u c max_token_width r (i + len_utf8 ch) (Some new)
      end
  end.
(** src/tokens.rs:26-59 *)
Definition tokenize (u : unicode) (compounds : list Compound) (max_token_width : nat) : list Token :=
  flat_map (fun c => tokenize_loop u c max_token_width (src c) 0 None) compounds.

(** ** src/fit/wrap.rs *)

(** src/fit/wrap.rs:11-31 *)
Definition follow_up_composite (k : MadSkin) (fc : FmtComposite) : FmtComposite :=
  let kind := match fc_kind fc with KListItem l => KListItemFollowUp l | x => x end in
  let vl := match kind with
            | KListItemFollowUp l => match indent_mode k with Block => 2 + l | FirstLineOnly => 0 end
            | KQuote => 2
            | _ => 0
            end in
  mkFC kind [] vl (fc_spacing fc).

(** src/fit/wrap.rs:35-56 *)
Definition composite_kind_widths (k : MadSkin) (kind : CompositeKind) : nat * nat :=
  match kind with
  | KParagraph => (0, 0)
  | KHeader _ => (0, 0)
  | KListItem depth => match indent_mode k with FirstLineOnly => (2 + depth, 0) | Block => (2 + depth, 2 + depth) end
  | KListItemFollowUp depth => match indent_mode k with FirstLineOnly => (0, 0) | Block => (2 + depth, 2 + depth) end
  | KCode => (0, 0)
  | KQuote => (2, 2)
  end.

(** the loop of src/fit/wrap.rs:108-121 *)
Fixpoint wrap_tokens (u : unicode) (k : MadSkin) (width : nat) (tokens : list Token) (dst : FmtComposite)
    : outcome (list FmtComposite) :=
  match tokens with
  | [] => Ret [dst]
  | t :: r =>
      if width <? visible_length dst + t_width t then
        if negb (blank t) then
          c <- to_compound t ;;
          rest <- wrap_tokens u k width r (add_compound u (follow_up_composite k dst) c) ;;
          Ret (dst :: rest)
        else wrap_tokens u k width r dst
      else
        c <- to_compound t ;;
        wrap_tokens u k width r (add_compound u dst c)
  end.

(** src/fit/wrap.rs:85-103: the clean cuts *)
Definition clean_cut (u : unicode) (first_width other_widths width : nat) (cs : list Compound) : option (Compound * Compound) :=
  match cs with
  | [a; b] =>
      if (strw u (src a) + first_width <=? width) && (strw u (src b) + other_widths <=? width) then Some (a, b) else None
  | [a; m; b] =>
      if (strw u (src a) + first_width <=? width) && (strw u (src b) + other_widths <=? width)
         && forallb (is_white u) (src m) then Some (a, b) else None
  | _ => None
  end.

(** src/fit/wrap.rs:61-124; [None] is the [InsufficientWidthError]. The [debug_assert!] panics, as in the dev profile. *)
Definition hard_wrap_composite (u : unicode) (k : MadSkin) (fc : FmtComposite) (width : nat) : outcome (option (list FmtComposite)) :=
  if width <? 3 then Ret None else
  if visible_length fc <=? width then Panic else
  let '(first_width, other_widths) := composite_kind_widths k (fc_kind fc) in
  let dst := mkFC (fc_kind fc) [] first_width (fc_spacing fc) in
  match clean_cut u first_width other_widths width (fc_compounds fc) with
  | Some (a, b) =>
      let dst := add_compound u dst a in
      let new_dst := follow_up_composite k dst in
      Ret (Some [dst; add_compound u new_dst b])
  | None =>
      m <- csub width first_width ;;
      lines <- wrap_tokens u k width (tokenize u (fc_compounds fc) m) dst ;;
      Ret (Some lines)
  end.
