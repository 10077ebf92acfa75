(** * C51, C52, C53: the printed colors, compound styles, line styles and styled chars, once parsed

    The theorems hold for all Unicode classes with the right ASCII part. *)
From Coq Require Import Ascii String.
From Verif Require Import Base L_Base M_Style M_Parse S_Parse L_Parse.
Set Implicit Arguments.
Open Scope list_scope.

(** Classes for the examples *)
Definition demo_classes : classes :=
  let digit c := (48 <=? c)%N && (c <=? 57)%N in
  mkClasses (fun c => ((9 <=? c)%N && (c <=? 13)%N) || (c =? 32)%N || (c =? 160)%N)
    (fun c => ((97 <=? c)%N && (c <=? 122)%N) || ((65 <=? c)%N && (c <=? 90)%N) || digit c || (c =? 95)%N || (192 <=? c)%N)
    digit.
Lemma demo_ascii : ascii_classes demo_classes.
Proof.
  split; intros c H; cbn [demo_classes rx_space rx_digit rx_word]; unfold ascii_space, ascii_digit, ascii_letter; lia.
Qed.

(** ** C51: colors *)

Lemma reread_faithful c : reread_color c = Some c <-> ~ In c lost_colors.
Proof.
  destruct c; cbn [reread_color lost_colors In]; (split; [intros E|intros N]);
    solve [ discriminate E | intros N; intuition discriminate | reflexivity | exfalso; apply N; tauto ].
Qed.

(** Every color which can be printed is read, and as which one *)
Theorem C51_exact k c : ascii_classes k -> valid_color c ->
  parse_color k (write_color c) = match reread_color c with Some c' => Ok c' | None => Err Unrecognized end.
Proof. exact (fun K => @parse_color_printed k K c). Qed.

(** The statement, for the colors which aren't [lost_colors], and only them *)
Theorem C51_read_back_partial k c : ascii_classes k -> valid_color c ->
  parse_color k (write_color c) = Ok c <-> ~ In c lost_colors.
Proof.
  intros K V. rewrite C51_exact by assumption. rewrite <- reread_faithful.
  destruct (reread_color c) as [c'|]; split; intros E; try discriminate E; injection E as ->; reflexivity.
Qed.

(** Seven colors are lost; in particular dark ones are read as bright *)
Theorem C51_read_back_refuted : exists k c, ascii_classes k /\ valid_color c /\ parse_color k (write_color c) <> Ok c
  /\ parse_color k (write_color c) = Ok Blue.
Proof.
  exists demo_classes, DarkBlue. split; [exact demo_ascii|]. split; [exact I|].
  split; [vm_compute; discriminate | vm_compute; reflexivity].
Qed.
Example C51_lost : map (fun c => parse_color demo_classes (write_color c)) lost_colors
  = [Err Unrecognized; Ok (AnsiValue 16); Ok Grey; Ok Yellow; Ok Blue; Ok Cyan; Ok (AnsiValue 231)].
Proof. vm_compute. reflexivity. Qed.

(** Another color with the same text as a color which is read back is read as it *)
Theorem C51_texts_distinct k c d : ascii_classes k -> valid_color c -> valid_color d ->
  ~ In c lost_colors -> write_color c = write_color d -> reread_color d = Some c.
Proof.
  intros K C D N E. pose proof (@C51_exact k d K D) as X. rewrite <- E in X.
  destruct (@C51_read_back_partial k c K C) as (_ & B). rewrite (B N) in X.
  destruct (reread_color d); [injection X as ->; reflexivity | discriminate].
Qed.

(** No two colors have the same text *)
Theorem C51_injective : forall c d, valid_color c -> valid_color d -> write_color c = write_color d -> c = d.
Proof.
  intros c d C D E. assert (S : forall x y, valid_color x -> valid_color y -> (exists r g b, x = Rgb r g b) \/ (exists n, x = AnsiValue n) -> write_color x = write_color y -> x = y).
  { intros x y X Y K Exy. assert (R : reread_color y = Some x).
    { apply (@C51_texts_distinct demo_classes x y demo_ascii X Y); [|exact Exy]. destruct K as [(r & g & b & ->)|(n & ->)]; cbn; intuition discriminate. }
    destruct K as [(r & g & b & ->)|(n & ->)]; destruct y; try discriminate R; try discriminate Exy; injection R as -> ; try reflexivity; subst; reflexivity. }
  destruct c; try (apply S; eauto; fail); destruct d; try reflexivity; try discriminate E; symmetry; apply S; eauto.
Qed.
Print Assumptions C51_injective.

Example C51_example :
  write_color (Rgb 255 7 30) = lit "rgb(255, 7, 30)"
  /\ parse_color demo_classes (lit "rgb(255, 7, 30)") = Ok (Rgb 255 7 30)
  /\ write_color (gray 15) = lit "ansi(247)" /\ parse_color demo_classes (lit "ansi(247)") = Ok (gray 15)
  /\ parse_color demo_classes (write_color DarkRed) = Ok DarkRed.
Proof. vm_compute. repeat split. Qed.

(** The tests of src/parse/parse_color.rs:102-119 *)
Example C51_repo_tests :
  parse_color demo_classes (lit "rgb(255, 35, 45)") = Ok (Rgb 255 35 45)
  /\ parse_color demo_classes (lit "rgb(255, 260, 45)") = Err Unrecognized
  /\ parse_color demo_classes (lit "gray(25)") = Err (InvalidGreyLevel 25)
  /\ parse_color demo_classes (lit "gray(11)") = parse_color demo_classes (lit "GREY(11)")
  /\ parse_color demo_classes (lit "Green") = Ok Green
  /\ parse_color demo_classes (lit "ansi(11)") = Ok (AnsiValue 11).
Proof. vm_compute. repeat split. Qed.

(** ** C52: compound styles *)

(** The printed tokens are read in order; those which print nothing aren't *)
Theorem C52_tokens k ts : ascii_classes k -> Forall (ok_token k) ts ->
  parse_style_tokens k (style_tokens_to_string ts) = Ok (somes (map reread_token ts)).
Proof. exact (fun K => @parse_printed k K ts). Qed.

(** The attributes *)
Theorem C52_attributes k a : 
  parse_attribute (write_attribute a) = reread_attribute a
  /\ parse_style_token k (write_attribute a)
     = match reread_attribute a with Some b => Ok (TAttribute b) | None => Err UnrecognizedToken end.
Proof. destruct a; split; reflexivity. Qed.

(** No two attributes have the same text, except those which have none: the reset and the fancy underlines *)
Theorem C52_attribute_texts : forall a b, write_attribute a = write_attribute b ->
  a = b \/ In a [AReset; DoubleUnderlined; Undercurled; Underdotted; Underdashed] /\ In b [AReset; DoubleUnderlined; Undercurled; Underdotted; Underdashed].
Proof. intros a b E. destruct a, b; try discriminate E; try (left; reflexivity); right; cbn; tauto. Qed.
Print Assumptions C52_attribute_texts.

(** What any printed style is read as *)
Theorem C52_exact k cs : ascii_classes k -> valid_cs cs -> parse_compound_style k (cs_string cs) = Ok (reread_cs cs).
Proof.
  intros K V. unfold parse_compound_style, cs_string. rewrite C52_tokens by (try exact K; apply ok_cs_tokens; exact V).
  cbn [rmap]. rewrite cs_of_printed. reflexivity.
Qed.

Lemma reread_cs_faithful cs : reread_cs cs = cs <-> faithful_cs cs.
Proof.
  unfold reread_cs. destruct cs as [f b u a]. cbn [fg bg attrs]. split.
  - intros E.
    assert (X : (forall c, f = Some c -> ~ In c lost_colors) /\ (forall c, b = Some c -> ~ In c lost_colors)
                /\ u = None /\ N.land a printed_bits = a).
    { assert (NR : reread_ocolor b <> Some Reset) by (destruct b as [[]|]; discriminate).
      assert (Y : f <> Some Reset).
      { intros ->. injection E as E _ _ _. contradiction. }
      assert (E' : mkCS (reread_ocolor f) (reread_ocolor b) None (N.land a printed_bits) = mkCS f b u a).
      { destruct f as [[]|]; try exact E. exfalso; apply Y; reflexivity. }
      injection E' as E1 E2 E3 E4. repeat split; try assumption; try (symmetry; assumption).
      - intros c ->. apply reread_faithful. exact E1.
      - intros c ->. apply reread_faithful. exact E2. }
    destruct X as (A & B & C & D). split; cbn [fg bg underline attrs]; try assumption.
    intros i T. rewrite <- D, N.land_spec in T. apply printed_bits_In. apply andb_prop in T. apply T.
  - intros [A B C D]. cbn [fg bg underline attrs] in *.
    assert (L : N.land a printed_bits = a).
    { apply N.bits_inj. intros i. rewrite N.land_spec. destruct (N.testbit a i) eqn:T; [|reflexivity].
      apply D in T. apply printed_bits_In in T. rewrite T. reflexivity. }
    assert (R : forall o, (forall c, o = Some c -> ~ In c lost_colors) -> reread_ocolor o = o).
    { intros [c|] H; [|reflexivity]. apply reread_faithful. apply H. reflexivity. }
    rewrite L, (R b B), (R f A), C. destruct f as [[]|]; try reflexivity.
    exfalso. apply (A Reset eq_refl). left. reflexivity.
Qed.

(** The statement, for the styles with neither a lost color nor an underline color nor another attribute than the
    eight printed ones, and only them *)
Theorem C52_read_back_partial k cs : ascii_classes k -> valid_cs cs ->
  parse_compound_style k (cs_string cs) = Ok cs <-> faithful_cs cs.
Proof.
  intros K V. rewrite C52_exact by assumption. rewrite <- reread_cs_faithful. split; intros E.
  - injection E as E. exact E.
  - rewrite E. reflexivity.
Qed.

(** Reading always succeeds, and what's read is read back *)
Theorem C52_stable k cs : ascii_classes k -> valid_cs cs ->
  exists cs', parse_compound_style k (cs_string cs) = Ok cs' /\ valid_cs cs' /\ faithful_cs cs'
    /\ parse_compound_style k (cs_string cs') = Ok cs'
    /\ forall a, cs_has_attr cs' a = cs_has_attr cs a && existsb (fun b => (attr_bit a =? attr_bit b)%N) printed_attributes.
Proof.
  intros K V. exists (reread_cs cs). split; [apply C52_exact; assumption|].
  assert (F : faithful_cs (reread_cs cs)).
  { assert (L : forall o c, reread_ocolor o = Some c -> ~ In c lost_colors).
    { intros [[]|] c H; cbn in H; try discriminate H; injection H as <-; cbn [lost_colors In]; intuition discriminate. }
    assert (A : forall i, N.testbit (N.land (attrs cs) printed_bits) i = true -> In i (map attr_bit printed_attributes)).
    { intros i T. rewrite N.land_spec in T. apply andb_prop in T. apply printed_bits_In. apply T. }
    unfold reread_cs. destruct (fg cs) as [[]|] eqn:E;
      (split; cbn [fg bg underline attrs]; [ | |reflexivity|exact A]; try exact (L _); try (intros; discriminate)).
    all: try (intros c H; apply (L (Some c)); cbn in H |- *; injection H as <-; reflexivity).
    all: try (intros c H; apply (L _ _ H)). }
  assert (W : valid_cs (reread_cs cs)).
  { destruct V as (VF & VB).
    assert (R : forall o, valid_ocolor o -> valid_ocolor (reread_ocolor o)).
    { intros [[]|] H; cbn in *; try exact I; try exact H; discriminate. }
    unfold reread_cs. destruct (fg cs) as [[]|] eqn:E; split; cbn [fg bg]; try exact I; try (apply R; assumption);
      try discriminate; try exact VF. }
  split; [exact W|]. split; [exact F|]. split.
  - apply C52_read_back_partial; assumption.
  - intros a. unfold cs_has_attr, attrs_has, reread_cs.
    replace (attrs (match fg cs with
      | Some Reset => mkCS (reread_ocolor (bg cs)) None None (N.land (attrs cs) printed_bits)
      | _ => mkCS (reread_ocolor (fg cs)) (reread_ocolor (bg cs)) None (N.land (attrs cs) printed_bits)
      end)) with (N.land (attrs cs) printed_bits) by (destruct (fg cs) as [[]|]; reflexivity).
    rewrite N.land_spec, printed_bits_testbit. f_equal.
    induction printed_attributes as [|b l IH]; [reflexivity|]. cbn [existsb]. rewrite IH, N.eqb_sym. reflexivity.
Qed.

(** A style with a [Reset] foreground gets its background as foreground *)
Theorem C52_reset_refuted : exists k cs, ascii_classes k /\ valid_cs cs
  /\ parse_compound_style k (cs_string cs) = Ok (mkCS (Some Red) None None 0) /\ cs = mkCS (Some Reset) (Some Red) None 0.
Proof.
  exists demo_classes, (mkCS (Some Reset) (Some Red) None 0). split; [exact demo_ascii|].
  split; [split; exact I|]. split; [vm_compute; reflexivity | reflexivity].
Qed.
(** Attributes which can be parsed are lost, as they aren't printed *)
Theorem C52_blink_refuted : exists k cs, ascii_classes k /\ valid_cs cs
  /\ parse_style_token k (write_attribute SlowBlink) = Ok (TAttribute SlowBlink)
  /\ cs_has_attr cs SlowBlink = true /\ parse_compound_style k (cs_string cs) = Ok cs_default.
Proof.
  exists demo_classes, (with_attr SlowBlink). split; [exact demo_ascii|].
  split; [split; exact I|]. repeat split.
Qed.
(** [write_style_tokens] glues its tokens after the first one *)
Theorem C52_write_style_tokens_refuted : exists k ts, ascii_classes k /\ Forall (ok_token k) ts
  /\ parse_style_tokens k (style_tokens_to_string ts) = Ok ts
  /\ parse_style_tokens k (write_style_tokens ts) = Ok [TColor Red].
Proof.
  exists demo_classes, [TColor Red; TColor Yellow; TAttribute Bold]. split; [exact demo_ascii|].
  split; [repeat constructor|]. split; vm_compute; reflexivity.
Qed.

Example C52_example :
  let cs := mkCS (Some (Rgb 1 20 255)) (Some (gray 3)) None (attrs_set (attrs_set 0 OverLined) Bold) in
  cs_string cs = lit "rgb(1, 20, 255) ansi(235) Bold OverLined"
  /\ parse_compound_style demo_classes (cs_string cs) = Ok cs /\ faithful_cs cs
  /\ cs_string (mkCS None (Some Red) None (attrs_set 0 Dim)) = lit "none Red Dim"
  /\ parse_compound_style demo_classes (lit "none Red Dim") = Ok (mkCS None (Some Red) None (attrs_set 0 Dim)).
Proof.
  cbv zeta. split; [vm_compute; reflexivity|]. split; [vm_compute; reflexivity|]. split.
  - apply (@C52_read_back_partial demo_classes _ demo_ascii); [split; cbn; lia | vm_compute; reflexivity].
  - vm_compute. repeat split.
Qed.

(** The tests of src/parse/mod.rs:153-197 *)
Example C52_repo_tests :
  parse_style_tokens demo_classes (lit "red bold left") = Ok [TColor Red; TAttribute Bold; TAlign ALeft]
  /\ parse_style_tokens demo_classes (lit "red pissenlit") = Err UnrecognizedToken
  /\ parse_style_tokens demo_classes (lit "Center grey(15) RGB(51, 47, 58) bold")
     = Ok [TAlign Center; TColor (gray 15); TColor (rgb 51 47 58); TAttribute Bold]
  /\ parse_style_tokens demo_classes (lit " Yellow Italic ") = Ok [TColor Yellow; TAttribute Italic]
  /\ parse_style_tokens demo_classes (lit "| Yellow red") = Ok [TChar 124; TColor Yellow; TColor Red]
  /\ parse_style_tokens demo_classes (lit "rgb(255,0,100) #fb0") = Ok [TColor (rgb 255 0 100); TColor (rgb 255 187 0)]
  /\ parse_style_tokens demo_classes (lit " red gray(40) ") = Err (InvalidColor (InvalidGreyLevel 40)).
Proof. vm_compute. repeat split. Qed.

(** ** C53: line styles *)

Lemma ok_ls_tokens k ls : valid_cs (ls_cs ls) -> Forall (ok_token k) (ls_tokens ls).
Proof.
  intros V. unfold ls_tokens. rewrite !Forall_app. split; [apply ok_cs_tokens; exact V|]. split.
  - constructor; [exact I|constructor].
  - destruct ((0 <? left_margin ls) || (0 <? right_margin ls)); [|constructor].
    constructor; [apply margin_u16_small|]. constructor; [apply margin_u16_small|constructor].
Qed.

Lemma ls_of_tokens_cs cs al l r rest :
  ls_of_tokens al l r (somes (map reread_token (cs_tokens cs)) ++ rest) = ls_of_tokens al l r rest.
Proof.
  unfold cs_tokens. rewrite !map_app, !somes_app, <- !app_assoc.
  assert (C : forall o rest, ls_of_tokens al l r (somes (map reread_token (match o with Some c => [TColor c] | None => [] end)) ++ rest)
                             = ls_of_tokens al l r rest).
  { intros [c|] q; [|reflexivity]. cbn [map reread_token]. destruct (reread_color c); reflexivity. }
  destruct (fg cs) as [f|].
  - rewrite (C (Some f)), C. generalize (filter (cs_has_attr cs) ATTRIBUTES) as as_. induction as_ as [|a as_ IH]; [reflexivity|].
    exact IH.
  - replace (ls_of_tokens al l r (somes (map reread_token (if is_some (bg cs) then [TNone] else []))
      ++ somes (map reread_token match bg cs with Some b => [TColor b] | None => [] end)
      ++ somes (map reread_token (map TAttribute (filter (cs_has_attr cs) ATTRIBUTES))) ++ rest))
      with (ls_of_tokens al l r (somes (map reread_token match bg cs with Some b => [TColor b] | None => [] end)
      ++ somes (map reread_token (map TAttribute (filter (cs_has_attr cs) ATTRIBUTES))) ++ rest))
      by (destruct (bg cs); reflexivity).
    rewrite C. generalize (filter (cs_has_attr cs) ATTRIBUTES) as as_. induction as_ as [|a as_ IH]; [reflexivity|].
    exact IH.
Qed.

(** What any printed line style is read as *)
Theorem C53_line_exact k ls : ascii_classes k -> valid_cs (ls_cs ls) ->
  parse_line_style k (ls_string ls) = Ok (reread_ls ls).
Proof.
  intros K V. unfold parse_line_style, ls_string. rewrite C52_tokens by (try exact K; apply ok_ls_tokens; exact V).
  cbn [rmap]. f_equal. unfold ls_from_tokens, ls_tokens. rewrite map_app, somes_app, ls_of_tokens_cs.
  unfold cs_from_tokens. rewrite cs_of_tokens_app.
  2: { intros t I. destruct (ls_align ls); destruct ((0 <? left_margin ls) || (0 <? right_margin ls)); cbn in I;
       repeat (destruct I as [<-|I]; [exact Logic.I|]); destruct I. }
  change (cs_of_tokens false cs_default (somes (map reread_token (cs_tokens (ls_cs ls)))))
    with (cs_from_tokens (somes (map reread_token (cs_tokens (ls_cs ls))))).
  rewrite cs_of_printed.
  destruct (margin_u16_small (left_margin ls)) as (_ & L). destruct (margin_u16_small (right_margin ls)) as (_ & R).
  assert (Z : forall m, (0 <? m) = false -> reread_margin m = 0).
  { intros m H. unfold reread_margin. destruct (N.of_nat m <? 65536)%N; lia. }
  unfold reread_ls.
  destruct ((0 <? left_margin ls) || (0 <? right_margin ls)) eqn:M.
  - destruct (ls_align ls); cbn [app map reread_token somes ls_of_tokens is_some unwrap_or]; rewrite L, R; reflexivity.
  - apply orb_false_elim in M. destruct M as (M1 & M2). rewrite (Z _ M1), (Z _ M2).
    destruct (ls_align ls); reflexivity.
Qed.

(** The statement, when the margins are less than 65536 and the compound style is faithful, and only then *)
Theorem C53_line_read_back_partial k ls : ascii_classes k -> valid_cs (ls_cs ls) ->
  parse_line_style k (ls_string ls) = Ok ls <-> faithful_ls ls.
Proof.
  intros K V. rewrite C53_line_exact by assumption.
  assert (M : forall m, reread_margin m = m <-> (N.of_nat m < 65536)%N).
  { intros m. unfold reread_margin. destruct (N.of_nat m <? 65536)%N eqn:E; lia. }
  unfold faithful_ls. rewrite <- !M, <- reread_cs_faithful. unfold reread_ls. destruct ls as [cs al l r].
  cbn [ls_cs ls_align left_margin right_margin]. split.
  - intros E. injection E as A B C. auto.
  - intros (A & B & C). rewrite A, B, C. reflexivity.
Qed.

(** A margin over 65535 is not read back *)
Theorem C53_margin_refuted : exists k ls, ascii_classes k /\ valid_cs (ls_cs ls) /\ faithful_cs (ls_cs ls)
  /\ left_margin ls > 0 /\ parse_line_style k (ls_string ls) = Ok ls_default.
Proof.
  exists demo_classes, (mkLS cs_default Unspecified (N.to_nat 65536) 0).
  split; [exact demo_ascii|]. split; [split; exact I|]. split.
  - split; cbn; try discriminate. reflexivity.
  - split; [cbn [left_margin]; rewrite <- Nat2N.id with (n := 0); lia|].
    assert (E : ls_string (mkLS cs_default Unspecified (N.to_nat 65536) 0) = lit "0 0").
    { unfold ls_string, ls_tokens, margin_u16. cbn [left_margin right_margin ls_cs ls_align].
      replace (0 <? N.to_nat 65536) with true by (symmetry; apply Nat.ltb_lt; lia).
      rewrite N2Nat.id. vm_compute. reflexivity. }
    rewrite E. vm_compute. reflexivity.
Qed.

Example C53_line_example :
  let ls := mkLS (mkCS (Some Yellow) None None (attrs_set 0 Italic)) Center 3 0 in
  ls_string ls = lit "Yellow Italic center 3 0" /\ parse_line_style demo_classes (ls_string ls) = Ok ls /\ faithful_ls ls
  /\ ls_string (mkLS cs_default Unspecified 0 2) = lit "0 2" /\ ls_string (mkLS (with_fg Red) Unspecified 0 0) = lit "Red ".
Proof.
  cbv zeta. split; [vm_compute; reflexivity|]. split; [vm_compute; reflexivity|]. split.
  - apply (@C53_line_read_back_partial demo_classes _ demo_ascii); [split; exact I | vm_compute; reflexivity].
  - vm_compute. split; reflexivity.
Qed.

(** ** C53: styled chars *)

Lemma first_char_cs cs : first_char (somes (map reread_token (cs_tokens cs))) = None.
Proof.
  unfold cs_tokens. rewrite !map_app, !somes_app.
  assert (F : forall a b, first_char a = None -> first_char (a ++ b) = first_char b).
  { induction a as [|t a IH]; intros b H; [reflexivity|]. destruct t; try discriminate H; cbn [first_char app] in *; auto. }
  assert (C : forall o, first_char (somes (map reread_token (match o with Some c => [TColor c] | None => [] end))) = None).
  { intros [c|]; [|reflexivity]. cbn [map reread_token]. destruct (reread_color c); reflexivity. }
  rewrite F, F.
  - generalize (filter (cs_has_attr cs) ATTRIBUTES) as as_. induction as_ as [|a as_ IH]; [reflexivity|]. exact IH.
  - apply C.
  - destruct (fg cs) as [f|]; [apply (C (Some f))|]. destruct (bg cs); reflexivity.
Qed.

(** What any printed styled char is read as *)
Theorem C53_char_exact k d sc : ascii_classes k -> valid_cs (sc_style sc) ->
  parse_styled_char k (sc_string sc) d = Ok (reread_sc k d sc).
Proof.
  intros K V. unfold parse_styled_char, sc_string, sc_tokens, reread_sc, reread_char.
  pose proof (@ok_cs_tokens k _ V) as O.
  assert (D : (48 <=? sc_char sc)%N && (sc_char sc <=? 57)%N = is_ascii_digit (sc_char sc)) by reflexivity.
  rewrite D.
  destruct (rx_space k (sc_char sc) || (sc_char sc =? 40)%N || (sc_char sc =? 41)%N) eqn:P.
  - rewrite (@parse_printed_skip k K (sc_char sc)) by (try exact O; unfold rx_plain; rewrite P; reflexivity).
    cbn [rmap orb]. rewrite first_char_cs, cs_of_printed. reflexivity.
  - cbn [orb]. destruct (is_ascii_digit (sc_char sc)) eqn:A.
    + apply is_ascii_digit_iff in A. rewrite (@parse_printed_digit k K (sc_char sc)) by assumption.
      cbn [rmap first_char]. rewrite first_char_cs.
      change (cs_from_tokens (TDimension (sc_char sc - 48) :: somes (map reread_token (cs_tokens (sc_style sc)))))
        with (cs_from_tokens (somes (map reread_token (cs_tokens (sc_style sc))))).
      rewrite cs_of_printed. reflexivity.
    + rewrite C52_tokens; [|exact K|].
      * cbn [rmap map reread_token somes first_char unwrap_or].
        change (cs_from_tokens (TChar (sc_char sc) :: somes (map reread_token (cs_tokens (sc_style sc)))))
          with (cs_from_tokens (somes (map reread_token (cs_tokens (sc_style sc))))).
        rewrite cs_of_printed. reflexivity.
      * constructor; [|exact O]. apply plain_printable. split; [unfold rx_plain; rewrite P; reflexivity|].
        intros H. apply is_ascii_digit_iff in H. congruence.
Qed.

(** The statement, for the chars which are neither spaces nor parentheses nor digits (or are the default one), and only them *)
Theorem C53_char_read_back_partial k d sc : ascii_classes k -> valid_cs (sc_style sc) ->
  parse_styled_char k (sc_string sc) d = Ok sc
  <-> faithful_cs (sc_style sc) /\ (printable k (sc_char sc) \/ sc_char sc = d) /\ fresh_cache sc.
Proof.
  intros K V. rewrite C53_char_exact by assumption.
  assert (M : reread_char k d (sc_char sc) = sc_char sc <-> printable k (sc_char sc) \/ sc_char sc = d).
  { unfold reread_char, printable, ascii_digit. destruct (rx_space k (sc_char sc)); cbn [orb].
    - split; [intros E; right; congruence|]. intros [(X & _)|E]; [discriminate|congruence].
    - destruct ((sc_char sc =? 40)%N || (sc_char sc =? 41)%N || (48 <=? sc_char sc)%N && (sc_char sc <=? 57)%N) eqn:E; split; intros H.
      + right; congruence.
      + destruct H as [H|H]; [lia|congruence].
      + left. lia.
      + reflexivity. }
  rewrite <- M, <- reread_cs_faithful. unfold reread_sc, fresh_cache. destruct sc as [cs c ca].
  cbn [sc_style sc_char sc_cache]. split.
  - intros E. injection E as A B C. rewrite A, B in C. auto.
  - intros (A & B & C). rewrite A, B, C. reflexivity.
Qed.

(** Reading a printed styled char always succeeds, and gives a char which is read back *)
Theorem C53_char_stable k d sc : ascii_classes k -> valid_cs (sc_style sc) -> printable k d ->
  exists sc', parse_styled_char k (sc_string sc) d = Ok sc' /\ printable k (sc_char sc')
    /\ parse_styled_char k (sc_string sc') d = Ok sc'.
Proof.
  intros K V D. exists (reread_sc k d sc). split; [apply C53_char_exact; assumption|].
  assert (P : printable k (reread_char k d (sc_char sc))).
  { unfold reread_char.
    destruct (rx_space k (sc_char sc) || (sc_char sc =? 40)%N || (sc_char sc =? 41)%N || (48 <=? sc_char sc)%N && (sc_char sc <=? 57)%N) eqn:E;
      [exact D|]. unfold printable, ascii_digit. destruct (rx_space k (sc_char sc)); [discriminate|]. lia. }
  split; [exact P|].
  destruct (@C52_stable k _ K V) as (cs' & E & W & F & _). rewrite C52_exact in E by assumption. injection E as <-.
  apply (@C53_char_read_back_partial k d (reread_sc k d sc) K W). split; [exact F|]. split; [left; exact P|reflexivity].
Qed.

(** A char which is a digit is not read back *)
Theorem C53_char_refuted : exists k sc, ascii_classes k /\ valid_cs (sc_style sc) /\ faithful_cs (sc_style sc) /\ fresh_cache sc
  /\ sc_string sc = lit "7 Red" /\ parse_styled_char k (sc_string sc) 42 = Ok (sc_from_fg_char Red 42).
Proof.
  exists demo_classes, (sc_from_fg_char Red 55). split; [exact demo_ascii|]. split; [split; exact I|]. split.
  - apply (@C52_read_back_partial demo_classes _ demo_ascii); [split; exact I | vm_compute; reflexivity].
  - repeat split.
Qed.

Example C53_char_example :
  let sc := sc_new (mkCS (Some (gray 12)) None None (attrs_set 0 Bold)) 9616 in
  sc_string sc = 9616%N :: lit " ansi(244) Bold" /\ parse_styled_char demo_classes (sc_string sc) 42 = Ok sc
  /\ printable demo_classes (sc_char sc) /\ fresh_cache sc
  /\ parse_styled_char demo_classes (sc_string (sc_nude 32)) 42 = Ok (sc_nude 42)
  /\ parse_styled_char demo_classes (sc_string (sc_nude 41)) 42 = Ok (sc_nude 42)
  /\ parse_styled_char demo_classes (sc_string (sc_nude 43)) 42 = Ok (sc_nude 43).
Proof.
  cbv zeta. split; [vm_compute; reflexivity|]. split; [vm_compute; reflexivity|]. split.
  - repeat split; cbn; try discriminate. unfold ascii_digit. lia.
  - vm_compute. repeat split.
Qed.

Print Assumptions C51_exact.
Print Assumptions C51_read_back_partial.
Print Assumptions C51_read_back_refuted.
Print Assumptions C51_texts_distinct.
Print Assumptions C52_tokens.
Print Assumptions C52_attributes.
Print Assumptions C52_exact.
Print Assumptions C52_read_back_partial.
Print Assumptions C52_stable.
Print Assumptions C52_reset_refuted.
Print Assumptions C52_blink_refuted.
Print Assumptions C52_write_style_tokens_refuted.
Print Assumptions C53_line_exact.
Print Assumptions C53_line_read_back_partial.
Print Assumptions C53_margin_refuted.
Print Assumptions C53_char_exact.
Print Assumptions C53_char_read_back_partial.
Print Assumptions C53_char_stable.
Print Assumptions C53_char_refuted.
