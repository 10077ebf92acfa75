(** * Properties C36 to C38, C64, C65: styles *)
From Verif Require Import Base L_Base Demo M_Style M_Fit S_Fit.

(** ** C36 *)

(** The colors are the last defined ones of the layers, and the attributes are all those of the layers. *)
Theorem C36_composition : forall k l c, is_ellipsis c = false ->
  fg (compound_style k l c) = last_some (map fg (style_layers k l c))
  /\ bg (compound_style k l c) = last_some (map bg (style_layers k l c))
  /\ forall a, cs_has_attr (compound_style k l c) a = existsb (fun s => cs_has_attr s a) (style_layers k l c).
Proof.
  intros k l c H. unfold compound_style. rewrite H. unfold style_layers, when.
  assert (A : forall s t a, cs_has_attr (overwrite_with s t) a = cs_has_attr s a || cs_has_attr t a).
  { intros. unfold cs_has_attr, overwrite_with, attrs_has, attrs_extend. cbn [attrs]. apply N.lor_spec. }
  assert (D : forall a, cs_has_attr cs_default a = false) by (intros; apply N.bits_0).
  split; [|split].
  - destruct (c_italic c), (c_strikeout c), (c_bold c), (c_code c); cbn [map last_some fg cs_default overwrite_with];
      destruct (fg (italic k)), (fg (strikeout k)), (fg (bold k)), (fg (inline_code k)), (fg (ls_cs l)); reflexivity.
  - destruct (c_italic c), (c_strikeout c), (c_bold c), (c_code c); cbn [map last_some bg cs_default overwrite_with];
      destruct (bg (italic k)), (bg (strikeout k)), (bg (bold k)), (bg (inline_code k)), (bg (ls_cs l)); reflexivity.
  - intros a. cbn [existsb].
    destruct (c_italic c), (c_strikeout c), (c_bold c), (c_code c); rewrite ?A, ?D, ?orb_false_l, ?orb_false_r, ?orb_assoc; reflexivity.
Qed.
Print Assumptions C36_composition.

Theorem C36_ellipsis : forall k l c, src c = [8230%N] -> compound_style k l c = ellipsis k.
Proof. intros k l c H. unfold compound_style, is_ellipsis. rewrite H. reflexivity. Qed.
Print Assumptions C36_ellipsis.
Theorem C36_ellipsis_only : forall c, is_ellipsis c = true <-> src c = [8230%N].
Proof.
  intros c. unfold is_ellipsis, c_ellipsis. destruct (src c) as [|x [|y r]]; [split; discriminate| |split; discriminate].
  rewrite N.eqb_eq. split; congruence.
Qed.
Print Assumptions C36_ellipsis_only.

Theorem C36_overwrite : forall s t,
  fg (overwrite_with s t) = last_some [fg s; fg t] /\ bg (overwrite_with s t) = last_some [bg s; bg t]
  /\ forall a, cs_has_attr (overwrite_with s t) a = cs_has_attr s a || cs_has_attr t a.
Proof.
  intros s t. split; [|split].
  - cbn. destruct (fg t), (fg s); reflexivity.
  - cbn. destruct (bg t), (bg s); reflexivity.
  - intros a. unfold cs_has_attr, overwrite_with, attrs_has, attrs_extend. cbn [attrs]. apply N.lor_spec.
Qed.
Print Assumptions C36_overwrite.

Theorem C36_associative : forall a b c, overwrite_with (overwrite_with a b) c = overwrite_with a (overwrite_with b c).
Proof.
  intros [f1 b1 u1 a1] [f2 b2 u2 a2] [f3 b3 u3 a3]. unfold overwrite_with, attrs_extend. cbn. f_equal.
  - destruct f3; reflexivity.
  - destruct b3; reflexivity.
  - symmetry. apply N.lor_assoc.
Qed.
Print Assumptions C36_associative.

(** The empty style is a right unit, and a left unit for the styles without underline color
    (the ones built by termimad). *)
Theorem C36_unit_partial : forall s,
  overwrite_with s cs_default = s /\ (underline s = None -> overwrite_with cs_default s = s).
Proof.
  intros [f b u a]. unfold overwrite_with, attrs_extend. cbn. split.
  - now rewrite N.lor_0_r.
  - intros ->. destruct f, b; reflexivity.
Qed.
Print Assumptions C36_unit_partial.

(** An underline color (which a style made from a crossterm style can have) is lost. *)
Theorem C36_left_unit_refuted : exists s, overwrite_with cs_default s <> s.
Proof. exists (mkCS None None (Some Red) 0). discriminate. Qed.
Print Assumptions C36_left_unit_refuted.

(** The only bits are those of the attributes added and not removed. *)
Theorem C36_attributes : forall s a b,
  cs_has_attr (cs_add_attr s a) b = (if N.eqb (attr_bit a) (attr_bit b) then true else cs_has_attr s b)
  /\ cs_has_attr (cs_remove_attr s a) b = (if N.eqb (attr_bit a) (attr_bit b) then false else cs_has_attr s b)
  /\ (attr_bit a = attr_bit b -> a = b).
Proof.
  intros s a b. unfold cs_has_attr, cs_add_attr, cs_remove_attr, attrs_has, attrs_set, attrs_unset. cbn [attrs].
  split; [|split].
  - rewrite N.setbit_eqb. destruct (N.eqb (attr_bit a) (attr_bit b)); reflexivity.
  - rewrite N.clearbit_eqb. destruct (N.eqb (attr_bit a) (attr_bit b)); [apply andb_false_r|apply andb_true_r].
  - destruct a, b; intros H; try reflexivity; discriminate H.
Qed.
Print Assumptions C36_attributes.

(** Each setter changes what it's made for, and nothing else *)
Theorem C36_setters : forall s a f b,
  (fg (cs_add_attr s a), bg (cs_add_attr s a), underline (cs_add_attr s a)) = (fg s, bg s, underline s)
  /\ (fg (cs_remove_attr s a), bg (cs_remove_attr s a), underline (cs_remove_attr s a)) = (fg s, bg s, underline s)
  /\ (cs_has_attr s a = true -> cs_add_attr s a = s /\ cs_add_attr (cs_remove_attr s a) a = s)
  /\ (cs_has_attr s a = false -> cs_remove_attr s a = s /\ cs_remove_attr (cs_add_attr s a) a = s)
  /\ cs_set_fg s f = overwrite_with s (with_fg f) /\ cs_set_bg s b = overwrite_with s (with_bg b)
  /\ cs_set_fgbg s f b = overwrite_with s (with_fgbg f b) /\ cs_set_fgbg s f b = cs_set_bg (cs_set_fg s f) b
  /\ cs_add_attr s a = overwrite_with s (with_attr a).
Proof.
  intros [f0 b0 u0 n] a f b. cbn [fg bg underline cs_add_attr cs_remove_attr]. split; [reflexivity|]. split; [reflexivity|].
  unfold cs_has_attr, cs_add_attr, cs_remove_attr, attrs_has, attrs_set, attrs_unset, cs_set_fg, cs_set_bg, cs_set_fgbg, overwrite_with, with_fg, with_bg, with_fgbg, with_attr, cs_new, attrs_extend.
  cbn [fg bg underline attrs opt_or]. assert (X : forall m, (forall i, N.testbit m i = N.testbit n i) -> mkCS f0 b0 u0 m = mkCS f0 b0 u0 n) by (intros m H; f_equal; apply N.bits_inj; exact H).
  split; [|split].
  - intros H. split; apply X; intros i; rewrite ?N.setbit_eqb, ?N.clearbit_eqb; destruct (N.eqb_spec (attr_bit a) i) as [<-|]; cbn; rewrite ?H, ?andb_true_r; reflexivity.
  - intros H. split; apply X; intros i; rewrite ?N.clearbit_eqb, ?N.setbit_eqb; destruct (N.eqb_spec (attr_bit a) i) as [<-|]; cbn; rewrite ?H, ?andb_true_r, ?andb_false_r; reflexivity.
  - rewrite N.lor_0_r. repeat split; reflexivity.
Qed.
Print Assumptions C36_setters.
Example C36_setters_example : cs_remove_attr (cs_add_attr (with_fgbg Red Blue) Bold) Bold = with_fgbg Red Blue
  /\ cs_add_attr (cs_remove_attr (cs_add_attr (with_attr Italic) Bold) Italic) Bold = with_attr Bold.
Proof. vm_compute. split; reflexivity. Qed.

Example C36_example :
  let c := mkCompound [97]%N true true true false in
  is_ellipsis c = false /\
  compound_style skin_default (code_block skin_default) c
  = cs_add_attr (cs_add_attr (with_fgbg (gray 17) (gray 3)) Bold) Italic.
Proof. vm_compute. split; reflexivity. Qed.

(** ** C37 *)

(** What blending should be *)
Definition blended (mix : Color -> Color) (s : CStyle) : CStyle :=
  mkCS (option_map mix (fg s)) (option_map mix (bg s)) (underline s) (attrs s).

(** [blend_with] is not the blend of both colors *)
Theorem C37_blend_refuted : exists mix s, cs_blend_with mix s <> blended mix s.
Proof.
  exists (fun c => match c with AnsiValue n => AnsiValue (n / 2) | _ => c end), (with_fgbg (AnsiValue 8) (AnsiValue 8)).
  vm_compute. discriminate.
Qed.
Print Assumptions C37_blend_refuted.

(** What it is: the foreground is blended twice, the background isn't. *)
Theorem C37_blend_actual_partial : forall mix s,
  cs_blend_with mix s = mkCS (option_map (fun c => mix (mix c)) (fg s)) (bg s) (underline s) (attrs s).
Proof. intros mix [[f|] b u a]; reflexivity. Qed.
Print Assumptions C37_blend_actual_partial.

(** As documented, a weight of 0 ([mix] being the identity) changes nothing in the whole skin;
    and no attribute, alignment, margin or char is ever changed. *)
Theorem C37_identity : forall mix k, (forall c, mix c = c) -> skin_blend_with mix k = k.
Proof.
  intros mix k H.
  assert (A : forall s, cs_blend_with mix s = s).
  { intros [[f|] b u a]; cbn; rewrite ?H; reflexivity. }
  assert (B : forall l, ls_blend_with mix l = l).
  { intros [cs al lm rm]. unfold ls_blend_with, ls_with. cbn. now rewrite A. }
  assert (C : forall s, sc_blend_with mix s = s).
  { intros [cs ch ca]. unfold sc_blend_with. cbn. now rewrite A. }
  unfold skin_blend_with. rewrite !A, !B, !C.
  replace (map (ls_blend_with mix) (headers k)) with (headers k).
  - destruct k; reflexivity.
  - symmetry. rewrite <- (map_id (headers k)) at 2. apply map_ext. exact B.
Qed.
Print Assumptions C37_identity.

(** The skin's blend applies to every style but the scrollbar's. *)
Theorem C37_skin : forall mix k, skin_ok k ->
  let k' := skin_blend_with mix k in
  skin_ok k' /\ scrollbar k' = scrollbar k /\ table_border_chars k' = table_border_chars k /\ indent_mode k' = indent_mode k
  /\ map (fun f => f k') [bold; italic; strikeout; inline_code; ellipsis]
     = map (fun f => cs_blend_with mix (f k)) [bold; italic; strikeout; inline_code; ellipsis]
  /\ map (fun f => ls_cs (f k')) [paragraph; code_block; table]
     = map (fun f => cs_blend_with mix (ls_cs (f k))) [paragraph; code_block; table]
  /\ map (fun f => sc_style (f k')) [bullet; quote_mark; horizontal_rule]
     = map (fun f => cs_blend_with mix (sc_style (f k))) [bullet; quote_mark; horizontal_rule]
  /\ map ls_cs (headers k') = map (fun h => cs_blend_with mix (ls_cs h)) (headers k)
  /\ map (fun f => sc_char (f k')) [bullet; quote_mark; horizontal_rule]
     = map (fun f => sc_char (f k)) [bullet; quote_mark; horizontal_rule]
  /\ map (fun h => (ls_align h, left_margin h, right_margin h)) (paragraph k' :: code_block k' :: table k' :: headers k')
     = map (fun h => (ls_align h, left_margin h, right_margin h)) (paragraph k :: code_block k :: table k :: headers k).
Proof.
  intros mix k OK k'. split.
  { unfold skin_ok, k'. cbn. now rewrite map_length. }
  repeat (split; [reflexivity|]). split; [unfold k'; cbn [skin_blend_with headers]; rewrite map_map; reflexivity|].
  split; [reflexivity|]. unfold k'. cbn [skin_blend_with headers paragraph code_block table map].
  rewrite map_map. reflexivity.
Qed.
Print Assumptions C37_skin.

Example C37_example : skin_ok skin_default /\
  ls_cs (code_block (skin_blend_with (fun c => match c with AnsiValue n => AnsiValue (n / 2) | _ => c end) skin_default))
  = with_fgbg (AnsiValue 62) (AnsiValue 235).
Proof. vm_compute. split; reflexivity. Qed.

(** ** C38 *)

Theorem C38_drawn_partial : forall s ops, sc_coherent s -> (forall m, ~ In (ScBlend m) ops) ->
  sc_coherent (sc_run s ops).
Proof.
  intros s ops. unfold sc_run. revert s. induction ops as [|o ops IH]; intros s H N; [exact H|].
  cbn [fold_left]. apply IH.
  - destruct o; try reflexivity. exfalso. exact (N mix (or_introl eq_refl)).
  - intros m X. exact (N m (or_intror X)).
Qed.
Print Assumptions C38_drawn_partial.

(** The constructors give coherent chars, and the setters do what their names say. *)
Theorem C38_setters : forall cs ch s c f,
  sc_coherent (sc_new cs ch) /\ sc_style (sc_new cs ch) = cs /\ sc_char (sc_new cs ch) = ch
  /\ sc_nude ch = sc_new cs_default ch /\ sc_from_fg_char f ch = sc_new (with_fg f) ch
  /\ sc_style (sc_set_char s c) = sc_style s /\ sc_char (sc_set_char s c) = c
  /\ sc_style (sc_set_fg s f) = mkCS (Some f) (bg (sc_style s)) (underline (sc_style s)) (attrs (sc_style s))
  /\ sc_char (sc_set_fg s f) = sc_char s
  /\ sc_style (sc_set_bg s f) = mkCS (fg (sc_style s)) (Some f) (underline (sc_style s)) (attrs (sc_style s))
  /\ sc_char (sc_set_bg s f) = sc_char s
  /\ sc_style (sc_set_compound_style s cs) = cs /\ sc_char (sc_set_compound_style s cs) = sc_char s
  /\ forall n, sc_repeated s n = [Styled (sc_style s) (repeat (sc_char s) n)].
Proof. intros. repeat split; reflexivity. Qed.
Print Assumptions C38_setters.

(** After [blend_with], the char is drawn with its old style *)
Theorem C38_drawn_refuted : exists s ops, sc_coherent s /\ ~ sc_coherent (sc_run s ops).
Proof.
  exists (sc_from_fg_char Red 97%N), [ScBlend (fun _ => Blue)]. split; [reflexivity|]. vm_compute. discriminate.
Qed.
Print Assumptions C38_drawn_refuted.

Example C38_example :
  let ops := [ScSetFg Red; ScSetChar 98%N; ScSetBg Blue; ScSetStyle (with_bg Green); ScSetFg White] in
  (forall m, ~ In (ScBlend m) ops) /\ sc_coherent (sc_nude 97%N) /\
  sc_queue (sc_run (sc_nude 97%N) ops) = [Styled (with_fgbg White Green) [98%N]].
Proof.
  split; [intros m H; repeat (destruct H as [H|H]; [discriminate|]); exact H|]. split; reflexivity.
Qed.

(** The gray levels are the ones of the terminal, and a styled char gives a scrollbar having its char, the track being of its
    background color and the thumb of its foreground color, gray by default *)
Theorem C38_scrollbar : forall sc, exists ct cf,
  sb_from_sc sc = mkSB (sc_new (with_fg ct) (sc_char sc)) (sc_new (with_fg cf) (sc_char sc))
  /\ (forall c, bg (sc_style sc) = Some c -> ct = c) /\ (bg (sc_style sc) = None -> ct = AnsiValue 237)
  /\ (forall c, fg (sc_style sc) = Some c -> cf = c) /\ (fg (sc_style sc) = None -> cf = AnsiValue 253).
Proof.
  intros sc. unfold sb_from_sc. eexists. eexists. split; [reflexivity|]. destruct (bg (sc_style sc)), (fg (sc_style sc)); repeat split; intros; try congruence; reflexivity.
Qed.
Print Assumptions C38_scrollbar.
Theorem C38_gray : forall level, exists n, gray level = AnsiValue n /\ (232 <= n <= 255)%N /\ (level <= 23 -> n = 232 + level)%N /\ (23 <= level -> n = 255)%N.
Proof. intros level. exists (232 + N.min level 23)%N. split; [reflexivity|]. lia. Qed.
Print Assumptions C38_gray.

(** ** C64: skin-wide color setters *)

(** After [set_fg], any compound without code flag of a line other than code is drawn with this foreground,
    its background and attributes being the ones it had. *)
Theorem C64_set_fg : forall k col kind l l' c,
  kind <> KCode -> c_code c = false ->
  line_style k kind = Ret l -> line_style (skin_set_fg k col) kind = Ret l' ->
  fg (compound_style (skin_set_fg k col) l' c) = Some col
  /\ bg (compound_style (skin_set_fg k col) l' c) = bg (compound_style k l c)
  /\ attrs (compound_style (skin_set_fg k col) l' c) = attrs (compound_style k l c).
Proof.
  intros k col kind l l' c NK NC H H'.
  assert (L : l' = ls_set_fg l col).
  { unfold line_style in *. destruct kind; try congruence; try (inversion H; inversion H'; reflexivity).
    destruct (level <=? MAX_HEADER_DEPTH); [|inversion H; inversion H'; reflexivity].
    apply bind_Ret_inv in H. destruct H as (i & I & H). rewrite I, bind_ret in H'.
    apply idx_inv in H. apply idx_inv in H'. cbn [skin_set_fg headers] in H'.
    rewrite nth_error_map, H in H'. inversion H'. reflexivity. }
  subst l'. unfold compound_style. destruct (is_ellipsis c); [cbn; auto|]. rewrite NC.
  destruct (c_italic c), (c_strikeout c), (c_bold c); cbn; auto.
Qed.
Print Assumptions C64_set_fg.

Theorem C64_set_bg : forall k col kind l l' c,
  kind <> KCode -> c_code c = false ->
  line_style k kind = Ret l -> line_style (skin_set_bg k col) kind = Ret l' ->
  bg (compound_style (skin_set_bg k col) l' c) = Some col
  /\ fg (compound_style (skin_set_bg k col) l' c) = fg (compound_style k l c)
  /\ attrs (compound_style (skin_set_bg k col) l' c) = attrs (compound_style k l c).
Proof.
  intros k col kind l l' c NK NC H H'.
  assert (L : l' = ls_set_bg l col).
  { unfold line_style in *. destruct kind; try congruence; try (inversion H; inversion H'; reflexivity).
    destruct (level <=? MAX_HEADER_DEPTH); [|inversion H; inversion H'; reflexivity].
    apply bind_Ret_inv in H. destruct H as (i & I & H). rewrite I, bind_ret in H'.
    apply idx_inv in H. apply idx_inv in H'. cbn [skin_set_bg headers] in H'.
    rewrite nth_error_map, H in H'. inversion H'. reflexivity. }
  subst l'. unfold compound_style. destruct (is_ellipsis c); [cbn; auto|]. rewrite NC.
  destruct (c_italic c), (c_strikeout c), (c_bold c); cbn; auto.
Qed.
Print Assumptions C64_set_bg.

(** The code styles, the border chars and the indentation mode are kept; table and scrollbar keep their foreground;
    the special chars are drawn with the new color. *)
Theorem C64_others : forall k col,
  map (fun f => ls_cs (code_block (f k col))) [skin_set_fg; skin_set_bg; skin_set_global_bg]
     = [ls_cs (code_block k); ls_cs (code_block k); ls_cs (code_block k)]
  /\ map (fun f => inline_code (f k col)) [skin_set_fg; skin_set_bg; skin_set_global_bg]
     = [inline_code k; inline_code k; inline_code k]
  /\ table (skin_set_fg k col) = table k
  /\ table (skin_set_bg k col) = ls_set_bg (table k) col
  /\ scrollbar (skin_set_fg k col) = scrollbar k
  /\ (forall f, In f [bullet; quote_mark; horizontal_rule] ->
        sc_queue (f (skin_set_fg k col)) = [Styled (cs_set_fg (sc_style (f k)) col) [sc_char (f k)]]
        /\ sc_queue (f (skin_set_bg k col)) = [Styled (cs_set_bg (sc_style (f k)) col) [sc_char (f k)]])
  /\ (forall f, In f [track; thumb] ->
        sc_queue (f (scrollbar (skin_set_bg k col)))
        = [Styled (cs_set_bg (sc_style (f (scrollbar k))) col) [sc_char (f (scrollbar k))]])
  /\ (forall f, In f [skin_set_fg; skin_set_bg; skin_set_global_bg] ->
        table_border_chars (f k col) = table_border_chars k /\ indent_mode (f k col) = indent_mode k
        /\ length (headers (f k col)) = length (headers k)).
Proof.
  intros. repeat (split; [reflexivity|]). split; [|split].
  - intros f H. repeat (destruct H as [<-|H]); try destruct H; split; reflexivity.
  - intros f H. repeat (destruct H as [<-|H]); try destruct H; reflexivity.
  - intros f H. repeat (destruct H as [<-|H]); try destruct H; cbn; rewrite map_length; auto.
Qed.
Print Assumptions C64_others.

(** [set_global_bg]: paragraphs, headers and rules *)
Theorem C64_global_bg : forall k col,
  paragraph (skin_set_global_bg k col) = ls_set_bg (paragraph k) col
  /\ headers (skin_set_global_bg k col) = map (fun h => ls_set_bg h col) (headers k)
  /\ horizontal_rule (skin_set_global_bg k col) = sc_set_bg (horizontal_rule k) col
  /\ bold (skin_set_global_bg k col) = bold k /\ italic (skin_set_global_bg k col) = italic k
  /\ strikeout (skin_set_global_bg k col) = strikeout k /\ ellipsis (skin_set_global_bg k col) = ellipsis k
  /\ table (skin_set_global_bg k col) = table k /\ scrollbar (skin_set_global_bg k col) = scrollbar k
  /\ bullet (skin_set_global_bg k col) = bullet k /\ quote_mark (skin_set_global_bg k col) = quote_mark k.
Proof. intros. repeat split; reflexivity. Qed.
Print Assumptions C64_global_bg.

(** After [limit_to_ascii] all the chars which the skin itself writes, but the scrollbar's, are ASCII; styles are kept. *)
Theorem C64_ascii : forall k,
  let k' := skin_limit_to_ascii k in
  (forall ch, In ch (map (fun f => sc_char (f k')) [bullet; quote_mark; horizontal_rule]
                     ++ map (fun f => snd (sc_cache (f k'))) [bullet; quote_mark; horizontal_rule]
                     ++ map (fun f => f (table_border_chars k'))
                          [horizontal; vertical; top_left_corner; top_right_corner; bottom_right_corner;
                           bottom_left_corner; top_junction; right_junction; bottom_junction; left_junction; cross])
     -> (32 < ch < 127)%N)
  /\ map (fun f => sc_style (f k')) [bullet; quote_mark; horizontal_rule]
     = map (fun f => sc_style (f k)) [bullet; quote_mark; horizontal_rule]
  /\ paragraph k' = paragraph k /\ headers k' = headers k /\ table k' = table k /\ code_block k' = code_block k
  /\ (bold k', italic k', strikeout k', inline_code k', ellipsis k')
     = (bold k, italic k, strikeout k, inline_code k, ellipsis k)
  /\ scrollbar k' = scrollbar k /\ indent_mode k' = indent_mode k.
Proof.
  intros k k'. split; [|repeat split; reflexivity].
  intros ch H. unfold k' in H. cbn in H. repeat (destruct H as [<-|H]); lia.
Qed.
Print Assumptions C64_ascii.

(** The shipped skins have a style for all the headers, and the [no_style] one draws no style except for the scrollbar. *)
Theorem C64_defaults :
  skin_ok skin_default /\ skin_ok skin_no_style
  /\ (forall kind l c, line_style skin_no_style kind = Ret l -> compound_style skin_no_style l c = cs_default)
  /\ (forall f, In f [bullet; quote_mark; horizontal_rule] ->
       sc_coherent (f skin_default) /\ sc_coherent (f skin_no_style) /\ sc_style (f skin_no_style) = cs_default).
Proof.
  split; [reflexivity|]. split; [reflexivity|]. split.
  - intros kind l c H. assert (L : ls_cs l = cs_default).
    { unfold line_style in H. destruct kind; try (inversion H; reflexivity).
      destruct (level <=? MAX_HEADER_DEPTH); [|inversion H; reflexivity].
      apply bind_Ret_inv in H. destruct H as (i & _ & H). apply idx_inv in H.
      apply nth_error_In in H. apply repeat_spec in H. subst. reflexivity. }
    unfold compound_style. rewrite L. destruct (is_ellipsis c), (c_italic c), (c_strikeout c), (c_bold c), (c_code c); reflexivity.
  - intros f H. repeat (destruct H as [<-|H]); try destruct H; repeat split; reflexivity.
Qed.
Print Assumptions C64_defaults.

(** Every header level which minimad gives (1 to 8) has its own style. *)
Theorem C64_line_style : forall k kind, skin_ok k -> kind <> KHeader 0 ->
  exists l, line_style k kind = Ret l
  /\ (kind = KCode -> l = code_block k)
  /\ (forall n, kind = KHeader n -> n <= 8 -> nth_error (headers k) (n - 1) = Some l)
  /\ ((forall n, kind = KHeader n -> 8 < n) -> kind <> KCode -> l = paragraph k).
Proof.
  intros k kind OK N0. unfold skin_ok, MAX_HEADER_DEPTH in OK.
  destruct kind; cbn [line_style]; try (eexists; split; [reflexivity|]; split; [congruence|]; split; [intros; discriminate|congruence]).
  destruct (Nat.leb_spec level MAX_HEADER_DEPTH) as [L|L]; unfold MAX_HEADER_DEPTH in L.
  - assert (level <> 0) by congruence. rewrite csub_ret by lia. rewrite bind_ret.
    destruct (idx_lt (headers k) (i := level - 1)) as (l & Hl); [lia|]. exists l. split; [exact Hl|].
    apply idx_inv in Hl. split; [discriminate|]. split.
    + intros n E _. inversion E; subst. exact Hl.
    + intros H2. specialize (H2 level eq_refl). lia.
  - eexists. split; [reflexivity|]. split; [discriminate|]. split; [intros n E ?; inversion E; lia|reflexivity].
Qed.
Print Assumptions C64_line_style.

Example C64_example :
  let c := mkCompound [97]%N true false false false in
  exists l l', line_style skin_default (KHeader 2) = Ret l /\ line_style (skin_set_fg skin_default Red) (KHeader 2) = Ret l' /\
   compound_style (skin_set_fg skin_default Red) l' c = cs_add_attr (cs_add_attr (with_fg Red) Underlined) Bold.
Proof. eexists. eexists. vm_compute. repeat split; reflexivity. Qed.

(** ** C65: margins *)

Theorem C65_margins : forall l w,
  let '(lm, rm) := margins_in l w in
  (forall n, w = Some n -> (lm, rm) <> (0, 0) -> lm + rm + 3 <= n)
  /\ ((lm, rm) = (0, 0) \/ (lm, rm) = (left_margin l, right_margin l))
  /\ (forall n, w = Some n -> left_margin l + right_margin l + 3 <= n -> (lm, rm) = (left_margin l, right_margin l))
  /\ (w = None -> (lm, rm) = (left_margin l, right_margin l)).
Proof.
  intros l [n|]; cbn [margins_in].
  - destruct (Nat.ltb_spec n (left_margin l + right_margin l + 3)).
    + split; [congruence|]. split; [now left|]. split; [|discriminate].
      intros m E. inversion E; subst. lia.
    + split; [intros m E; inversion E; subst; lia|]. split; [now right|]. split; [reflexivity|discriminate].
  - split; [discriminate|]. split; [now right|]. split; [discriminate|reflexivity].
Qed.
Print Assumptions C65_margins.

Example C65_example : margins_in (mkLS cs_default Unspecified 3 4) (Some 10) = (3, 4)
  /\ margins_in (mkLS cs_default Unspecified 3 4) (Some 9) = (0, 0).
Proof. split; reflexivity. Qed.
