(** * Properties C16 to C20: StrFit, CropWriter, Filling, Spacing *)
From Verif Require Import Base L_Base Demo M_Style M_Fit S_Fit L_Fit.

(** ** C16 *)

(** Counting and making give the same prefix; all of its own prefixes fit; the next char doesn't. *)
Theorem C16_fitting_prefix : forall u s n, exists pre post,
  s = pre ++ post
  /\ count_fitting u s n = (blen pre, Z.to_nat (move u pre))
  /\ make_string u s n = Ret (expand pre, Z.to_nat (move u pre))
  /\ (forall a, prefix_of a pre -> (move u a <= Z.of_nat n)%Z)
  /\ (forall c r, post = c :: r -> (Z.of_nat n < move u (pre ++ [c]))%Z).
Proof. exact make_string_spec. Qed.
Print Assumptions C16_fitting_prefix.

(** Without backspaces, what is taken is the longest prefix which fits. *)
Theorem C16_longest : forall u s n, no_backspace s -> exists pre,
  prefix_of pre s /\ make_string u s n = Ret (expand pre, Z.to_nat (move u pre))
  /\ forall p, prefix_of p s -> (move u p <= Z.of_nat n)%Z <-> prefix_of p pre.
Proof.
  intros u s n NB. destruct (make_string_spec u s n) as (pre & post & Hs & _ & Hm & Hle & Hgt).
  exists pre. split; [exists post; exact Hs|]. split; [exact Hm|]. intros p Hp. split.
  - apply (@fit_longest u s n pre post Hs Hgt NB p Hp).
  - apply Hle.
Qed.
Print Assumptions C16_longest.

(** The made string has exactly the counted columns. *)
Theorem C16_made_columns : forall u s n, chw u 32%N = 1 -> no_backspace s -> exists p cols,
  make_string u s n = Ret (p, cols) /\ cols = sumw (chw u) p /\ cols <= n.
Proof. exact made_width. Qed.
Print Assumptions C16_made_columns.

Example C16_example :
  no_backspace [97; 9; 27010; 35201; 98]%N /\ chw demo 32%N = 1 /\
  count_fitting demo [97; 9; 27010; 35201; 98]%N 6 = (5, 5) /\
  make_string demo [97; 9; 27010; 35201; 98]%N 6 = Ret ([97; 32; 32; 27010]%N, 5) /\
  make_string demo [97; 98; 8; 99; 100]%N 2 = Ret ([97; 98; 8; 99]%N, 2).
Proof.
  split; [intros H; repeat (destruct H as [H|H]; [discriminate|]); exact H|]. vm_compute. repeat split; reflexivity.
Qed.

(** ** C17 *)

(** With gentle strings and fillings, and no styled tab: nothing panics, the text written never moves the cursor past
    the limit, at any time, and contains no tab. *)
Theorem C17_never_more_partial : forall u limit tr ops,
  chw u 32%N = 1 -> (forall o, In o ops -> op_gentle u o) ->
  exists w, cw_run u (mkCW [] limit tr) ops = Ret w
  /\ (forall p, prefix_of p (out_text (written w)) -> (move u p <= Z.of_nat limit)%Z)
  /\ (move u (out_text (written w)) + Z.of_nat (allowed w) <= Z.of_nat limit)%Z
  /\ no_tab (out_text (written w)).
Proof.
  intros u limit tr ops H1 HG.
  destruct (@cw_run_spec u false H1 ops (mkCW [] limit tr) HG) as (w & R & l & L & _ & P & M & N & _); [discriminate|].
  cbn [written allowed app] in *. rewrite <- L in *. exists w. repeat split; assumption.
Qed.
Print Assumptions C17_never_more_partial.

(** Without backspaces, what remains is exactly the limit minus the columns written. *)
Theorem C17_remaining_partial : forall u limit ops,
  chw u 32%N = 1 -> (forall o, In o ops -> op_gentle u o /\ op_no_backspace o) ->
  exists w, cw_run u (cw_new limit) ops = Ret w
  /\ (Z.of_nat (allowed w) = Z.of_nat limit - move u (out_text (written w)))%Z.
Proof.
  intros u limit ops H1 HG.
  destruct (@cw_run_spec u true H1 ops (cw_new limit)) as (w & R & l & L & _ & _ & _ & _ & E).
  - intros o H. apply HG, H.
  - intros _. split; [intros o H; apply HG, H|]. intros [X|[X|[]]]; discriminate.
  - cbn [cw_new written allowed app] in *. rewrite <- L in *. exists w. specialize (E eq_refl). split; [exact R|lia].
Qed.
Print Assumptions C17_remaining_partial.

Definition c17_ops : list cw_op :=
  [CwStr cs_default [97; 9; 98]%N; CwUnstyledChar 9%N; CwChar (with_fg Red) 27010%N; CwG cs_default [120; 121]%N;
   CwFg (with_fg Blue); CwRepeatUnstyled 45%N 2; CwFillSpace cs_default; CwStr cs_default [122]%N].
Example C17_example :
  (forall o, In o c17_ops -> op_gentle demo o /\ op_no_backspace o) /\
  exists w, cw_run demo (cw_new 14) c17_ops = Ret w /\ allowed w = 0 /\
    out_text (written w) = [97; 32; 32; 98; 32; 32; 27010; 120; 121; 45; 45; 32; 32]%N.
Proof.
  split.
  - intros o H. repeat (destruct H as [<-|H]); try destruct H; cbn; unfold no_backspace, gentle_char; cbn;
      repeat split; try discriminate; intuition (try discriminate; subst; try discriminate; reflexivity).
  - eexists. vm_compute. repeat split; reflexivity.
Qed.

(** [queue_char] sends a styled tab as is, counting no column. *)
Theorem C17_styled_tab_refuted : exists u limit ops w,
  chw u 32%N = 1 /\ cw_run u (cw_new limit) ops = Ret w /\ (Z.of_nat limit < move u (out_text (written w)))%Z.
Proof.
  exists demo, 5, [CwChar cs_default 9%N; CwFillSpace cs_default]. eexists. vm_compute. repeat split; reflexivity.
Qed.
Print Assumptions C17_styled_tab_refuted.

(** A backspace going left of the start of its own string isn't given back. *)
Theorem C17_remaining_refuted : exists u limit ops w,
  cw_run u (cw_new limit) ops = Ret w /\ (forall o, In o ops -> op_gentle u o)
  /\ (Z.of_nat (allowed w) <> Z.of_nat limit - move u (out_text (written w)))%Z.
Proof.
  exists demo, 5, [CwStr cs_default [97]%N; CwStr cs_default [8]%N]. eexists.
  split; [vm_compute; reflexivity|]. split; [|vm_compute; discriminate].
  intros o H. repeat (destruct H as [<-|H]); try destruct H; exact I.
Qed.
Print Assumptions C17_remaining_refuted.

(** ** C18 *)

Theorem C18_fitting_string_is_written : forall u w cs s,
  0 < allowed w -> no_backspace s -> (move u s <= Z.of_nat (allowed w))%Z ->
  cw_queue_str u w cs s
    = Ret (mkCW (written w ++ [Styled cs (expand s)]) (allowed w - Z.to_nat (move u s)) (tab_replacement w))
  /\ cw_queue_unstyled_str u w s
    = Ret (mkCW (written w ++ [Print (expand s)]) (allowed w - Z.to_nat (move u s)) (tab_replacement w)).
Proof. exact queue_str_fits. Qed.
Print Assumptions C18_fitting_string_is_written.

(** A string which doesn't fit is cut as late as possible. *)
Theorem C18_long_string_is_cut : forall u w cs s, 0 < allowed w -> exists pre post,
  s = pre ++ post
  /\ cw_queue_str u w cs s
    = Ret (mkCW (written w ++ [Styled cs (expand pre)]) (allowed w - Z.to_nat (move u pre)) (tab_replacement w))
  /\ cw_queue_unstyled_str u w s
    = Ret (mkCW (written w ++ [Print (expand pre)]) (allowed w - Z.to_nat (move u pre)) (tab_replacement w))
  /\ (forall a, prefix_of a pre -> (move u a <= Z.of_nat (allowed w))%Z)
  /\ (forall c r, post = c :: r -> (Z.of_nat (allowed w) < move u (pre ++ [c]))%Z).
Proof. exact queue_str_spec. Qed.
Print Assumptions C18_long_string_is_cut.

(** Gentle strings: as many chars as allowed columns. *)
Theorem C18_g_string : forall w cs s, 0 < allowed w ->
  cw_queue_g_string w cs s
    = Ret (mkCW (written w ++ [Styled cs (firstn (allowed w) s)]) (allowed w - length s) (tab_replacement w))
  /\ cw_queue_unstyled_g_string w s
    = Ret (mkCW (written w ++ [Print (firstn (allowed w) s)]) (allowed w - length s) (tab_replacement w)).
Proof. exact queue_g_spec. Qed.
Print Assumptions C18_g_string.

(** A char is written when its width is strictly less than the remaining columns. *)
Theorem C18_char_partial : forall u w cs c, chw u c < allowed w ->
  cw_queue_char u w cs c
    = Ret (mkCW (written w ++ [Styled cs [c]]) (allowed w - chw u c) (tab_replacement w))
  /\ (c <> 9%N -> cw_queue_unstyled_char u w c
    = Ret (mkCW (written w ++ [Print [c]]) (allowed w - chw u c) (tab_replacement w)))
  /\ cw_queue_unstyled_char u w 9%N = cw_queue_unstyled_str u w (tab_replacement w).
Proof.
  intros u w cs c H. rewrite queue_char_spec. destruct (Nat.ltb_spec (chw u c) (allowed w)); [|lia].
  split; [reflexivity|]. split; [|reflexivity].
  intros H9. rewrite queue_unstyled_char_spec by assumption. destruct (Nat.ltb_spec (chw u c) (allowed w)); [reflexivity|lia].
Qed.
Print Assumptions C18_char_partial.

(** Otherwise nothing is written. *)
Theorem C18_wide_char_is_dropped : forall u w cs c, allowed w <= chw u c ->
  cw_queue_char u w cs c = Ret w /\ (c <> 9%N -> cw_queue_unstyled_char u w c = Ret w).
Proof.
  intros u w cs c H. rewrite queue_char_spec. destruct (Nat.ltb_spec (chw u c) (allowed w)); [lia|].
  split; [reflexivity|].
  intros H9. rewrite queue_unstyled_char_spec by assumption. destruct (Nat.ltb_spec (chw u c) (allowed w)); [lia|reflexivity].
Qed.
Print Assumptions C18_wide_char_is_dropped.

(** A repetition writes as many copies as asked and allowed. *)
Theorem C18_repeat : forall w cs c n,
  (exists l, cw_repeat w cs (filling_from_char c) n = Ret (mkCW (written w ++ l) (allowed w - n) (tab_replacement w))
    /\ out_text l = repeat c (Nat.min n (allowed w)) /\ forall x, In x l -> exists s, x = Styled cs s)
  /\ (exists l, cw_repeat_unstyled w (filling_from_char c) n
      = Ret (mkCW (written w ++ l) (allowed w - n) (tab_replacement w))
    /\ out_text l = repeat c (Nat.min n (allowed w)) /\ forall x, In x l -> exists s, x = Print s).
Proof. intros. split; [apply cw_repeat_spec|apply repeat_unstyled_spec]. Qed.
Print Assumptions C18_repeat.

(** A fill writes a copy for each of the remaining columns. *)
Theorem C18_fill : forall w cs c,
  (exists l, cw_fill w cs (filling_from_char c) = Ret (mkCW (written w ++ l) 0 (tab_replacement w))
    /\ out_text l = repeat c (allowed w) /\ forall x, In x l -> exists s, x = Styled cs s)
  /\ (exists l, cw_fill_unstyled w (filling_from_char c) = Ret (mkCW (written w ++ l) 0 (tab_replacement w))
    /\ out_text l = repeat c (allowed w) /\ forall x, In x l -> exists s, x = Print s)
  /\ (exists l, cw_fill_with_space w cs = Ret (mkCW (written w ++ l) 0 (tab_replacement w))
    /\ out_text l = repeat 32%N (allowed w) /\ forall x, In x l -> exists s, x = Styled cs s).
Proof.
  intros. unfold cw_fill, cw_fill_unstyled, cw_fill_with_space, SPACE_FILLING.
  destruct (cw_repeat_spec w cs c (allowed w)) as (l1 & R1 & T1 & A1).
  destruct (repeat_unstyled_spec w c (allowed w)) as (l2 & R2 & T2 & A2).
  destruct (cw_repeat_spec w cs 32%N (allowed w)) as (l3 & R3 & T3 & A3).
  rewrite Nat.sub_diag, Nat.min_id in *.
  split; [exists l1; auto|]. split; [exists l2; auto|exists l3; auto].
Qed.
Print Assumptions C18_fill.

(** The full property is false for a char filling exactly the remaining columns, *)
Theorem C18_char_refuted : exists u w cs c,
  chw u c <= allowed w /\ 0 < allowed w /\ cw_queue_char u w cs c = Ret w /\ cw_queue_unstyled_char u w c = Ret w.
Proof. exists demo, (cw_new 1), cs_default, 97%N. vm_compute. repeat split; auto. Qed.
Print Assumptions C18_char_refuted.

(** and for a string of null width (here a combining accent would be one) when there's no more room. *)
Theorem C18_null_width_refuted : exists u w cs s,
  s <> [] /\ (move u s <= Z.of_nat (allowed w))%Z /\ cw_queue_str u w cs s = Ret w.
Proof. exists demo, (cw_new 0), cs_default, [2]%N. vm_compute. repeat split; discriminate. Qed.
Print Assumptions C18_null_width_refuted.

Example C18_example :
  no_backspace [97; 9; 27010]%N /\ (move demo [97; 9; 27010]%N <= 5)%Z /\
  cw_queue_str demo (cw_new 5) (with_fg Red) [97; 9; 27010]%N
   = Ret (mkCW [Styled (with_fg Red) [97; 32; 32; 27010]%N] 0 [32; 32]%N)
  /\ cw_queue_char demo (cw_new 3) cs_default 27010%N = Ret (mkCW [Styled cs_default [27010]%N] 1 [32; 32]%N).
Proof.
  split; [intros H; repeat (destruct H as [H|H]; [discriminate|]); exact H|]. vm_compute. repeat split; try reflexivity. discriminate.
Qed.

(** ** C19 *)

Theorem C19_filling : forall c n,
  (exists l, filling_queue_unstyled (filling_from_char c) n = Ret l
    /\ out_text l = repeat c n /\ forall x, In x l -> exists s, x = Print s)
  /\ (forall cs, exists l, filling_queue_styled (filling_from_char c) cs n = Ret l
    /\ out_text l = repeat c n /\ forall x, In x l -> exists s, x = Styled cs s).
Proof. intros. split; [apply filling_unstyled_spec|intros; apply filling_styled_spec]. Qed.
Print Assumptions C19_filling.

(** Filling with a background: the color then the spaces *)
Theorem C19_fill_bg : forall n col, exists l, fill_bg n col = Ret (SetBg col :: l)
  /\ out_text l = repeat 32%N n /\ forall x, In x l -> exists s, x = Print s.
Proof.
  intros. unfold fill_bg, SPACE_FILLING. destruct (filling_unstyled_spec 32%N n) as (l & Hl & Ht).
  unfold c_space. rewrite Hl. exists l. split; [reflexivity|exact Ht].
Qed.
Print Assumptions C19_fill_bg.

Example C19_example : exists a b, length a = 1000 /\ length b = 500 /\
  filling_queue_unstyled (filling_from_char 8212%N) 1500 = Ret [Print a; Print b].
Proof. exists (repeat 8212%N 1000), (repeat 8212%N 500). vm_compute. repeat split; reflexivity. Qed.

(** ** C20 *)

Theorem C20_completions : forall align inner outer,
  let '(lp, rp) := completions align inner outer in
  lp + rp = outer - inner
  /\ (align = ALeft \/ align = Unspecified -> lp = 0)
  /\ (align = ARight -> rp = 0)
  /\ (align = Center -> lp <= rp <= lp + 1).
Proof.
  intros. destruct (completions align inner outer) as [lp rp] eqn:E. now apply completions_spec in E.
Qed.
Print Assumptions C20_completions.

Theorem C20_optional : forall align inner sp,
  optional_completions align inner None = (0, 0)
  /\ (forall outer, optional_completions align inner (Some outer) = completions align inner outer)
  /\ completions_for sp inner = completions (sp_align sp) inner (sp_width sp).
Proof. intros. repeat split; reflexivity. Qed.
Print Assumptions C20_optional.

(** Written in one styled piece having exactly the width of the spacing in chars, ... *)
Theorem C20_write_str : forall sp s style, exists t,
  write_str sp s style = [Styled style t] /\ length t = sp_width sp.
Proof. exact write_str_length. Qed.
Print Assumptions C20_write_str.

(** ... with the content of the string, truncated or surrounded by spaces. *)
Theorem C20_write_counted_str : forall sp s w style, exists t, write_counted_str sp s w style = [Styled style t]
  /\ (sp_width sp <= w -> t = firstn (sp_width sp) s)
  /\ (w < sp_width sp -> exists lp rp, completions_for sp w = (lp, rp)
        /\ t = repeat 32%N lp ++ s ++ repeat 32%N rp).
Proof. exact write_counted_str_spec. Qed.
Print Assumptions C20_write_counted_str.

(** When the true width of the string is given and it's smaller than the spacing, exactly its columns are covered. *)
Theorem C20_columns : forall u sp s style, chw u 32%N = 1 -> no_backspace s ->
  (move u s < Z.of_nat (sp_width sp))%Z ->
  exists t, write_counted_str sp s (Z.to_nat (move u s)) style = [Styled style t]
  /\ move u t = Z.of_nat (sp_width sp).
Proof.
  intros u sp s style H1 NB HW. pose proof (move_nonneg u NB) as P.
  destruct (write_counted_str_spec sp s (Z.to_nat (move u s)) style) as (t & E & _ & H).
  exists t. split; [exact E|]. destruct H as (lp & rp & C & ->); [lia|].
  apply completions_spec in C. rewrite !move_app, !(@repeat_move u) by exact H1. lia.
Qed.
Print Assumptions C20_columns.

Example C20_example :
  completions Center 4 9 = (2, 3) /\ completions ARight 4 9 = (5, 0) /\ completions ALeft 9 4 = (0, 0) /\
  write_str (mkSpacing 5 Center) [97; 98]%N (with_fg Red) = [Styled (with_fg Red) [32; 97; 98; 32; 32]%N] /\
  write_str (mkSpacing 2 Center) [97; 98; 99]%N (with_fg Red) = [Styled (with_fg Red) [97; 98]%N] /\
  (move demo [27010; 97]%N < Z.of_nat 5)%Z /\
  write_counted_str (mkSpacing 5 ARight) [27010; 97]%N (Z.to_nat (move demo [27010; 97]%N)) cs_default
   = [Styled cs_default [32; 32; 27010; 97]%N].
Proof. vm_compute. repeat split; reflexivity. Qed.
