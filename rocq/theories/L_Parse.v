(** * Lemmas on the texts of styles *)
From Coq Require Import Ascii String.
From Verif Require Import Base L_Base M_Style M_Parse S_Parse.
Set Implicit Arguments.
Open Scope list_scope.

(** ** Numbers *)

Lemma is_ascii_digit_iff c : is_ascii_digit c = true <-> ascii_digit c.
Proof. unfold is_ascii_digit, ascii_digit. lia. Qed.

Lemma dec_aux_digits f : forall n acc, Forall ascii_digit acc -> Forall ascii_digit (dec_aux f n acc).
Proof.
  induction f as [|f IH]; intros n acc H; [exact H|]. cbn [dec_aux].
  destruct (n <? 10)%N eqn:E.
  - constructor; [unfold ascii_digit; lia | exact H].
  - apply IH. constructor; [|exact H]. unfold ascii_digit.
    pose proof (N.mod_upper_bound n 10). lia.
Qed.

Lemma dec_aux_value f : forall n acc, (n < 2 ^ N.of_nat f)%N -> 0 < f ->
  dec_value 0 (dec_aux f n acc) = dec_value n acc.
Proof.
  induction f as [|f IH]; intros n acc H F; [lia|]. cbn [dec_aux].
  destruct (n <? 10)%N eqn:E.
  - cbn [dec_value]. replace (is_ascii_digit (48 + n)) with true by (unfold is_ascii_digit; lia).
    f_equal. lia.
  - assert (Q : (n = 10 * (n / 10) + n mod 10)%N) by (apply N.div_mod'; lia).
    assert (R : (n mod 10 < 10)%N) by (apply N.mod_upper_bound; lia).
    rewrite Nat2N.inj_succ, N.pow_succ_r' in H.
    rewrite IH.
    + cbn [dec_value]. replace (is_ascii_digit (48 + n mod 10)) with true by (unfold is_ascii_digit; lia).
      f_equal. lia.
    + lia.
    + destruct f; [cbn in H; lia | lia].
Qed.

Lemma dec_digits n : Forall ascii_digit (dec n).
Proof. apply dec_aux_digits. constructor. Qed.

Lemma dec_value_dec n : dec_value 0 (dec n) = Some n.
Proof.
  unfold dec. rewrite dec_aux_value; [reflexivity | | lia].
  rewrite Nat2N.inj_succ, N2Nat.id. destruct (N.eq_dec n 0) as [->|Z]; [reflexivity|].
  apply N.log2_spec. lia.
Qed.

Lemma dec_cons n : exists c r, dec n = c :: r /\ ascii_digit c.
Proof.
  pose proof (dec_digits n) as D. pose proof (dec_value_dec n) as V.
  destruct (dec n) as [|c r] eqn:E.
  - exfalso. unfold dec in E. cbn [dec_aux] in E. destruct (n <? 10)%N; [discriminate|].
    revert E. generalize (N.to_nat (N.log2 n)) as f, (n / 10)%N as m. intros f.
    assert (G : forall f m acc, acc <> [] -> dec_aux f m acc <> []).
    { clear. induction f as [|f IH]; intros m acc A; [exact A|]. cbn [dec_aux].
      destruct (m <? 10)%N; [discriminate | apply IH; discriminate]. }
    intros m. apply G. discriminate.
  - inversion D; subst. exists c, r. auto.
Qed.

Lemma parse_uint_dec max n : (n <= max)%N -> parse_uint max (dec n) = Some n.
Proof.
  intros H. destruct (dec_cons n) as (c & r & E & D). unfold parse_uint. rewrite E.
  replace (c =? 43)%N with false by (unfold ascii_digit in D; lia). cbn [andb].
  rewrite <- E, dec_value_dec. cbn [at_most obind].
  replace (n <=? max)%N with true by lia. reflexivity.
Qed.

Lemma dec_value_none s : forall a, (exists c, In c s /\ ~ ascii_digit c) -> dec_value a s = None.
Proof.
  induction s as [|d r IH]; intros a (c & I & N); [destruct I|]. cbn [dec_value].
  destruct (is_ascii_digit d) eqn:E; [|reflexivity].
  apply IH. exists c. split; [|exact N]. destruct I as [->|I]; [|exact I].
  apply is_ascii_digit_iff in E. contradiction.
Qed.

(** ** Matching *)

Lemma ci_prefix_length p : forall s r, ci_prefix p s = Some r -> length s = length p + length r.
Proof.
  induction p as [|a p IH]; intros s r H; cbn [ci_prefix] in H.
  - injection H as ->. reflexivity.
  - destruct s as [|c s]; [discriminate|]. destruct (ci a c); [|discriminate].
    cbn [length]. rewrite (IH _ _ H). reflexivity.
Qed.

Lemma ci_prefix_short p s : length s < length p -> ci_prefix p s = None.
Proof.
  intros H. destruct (ci_prefix p s) eqn:E; [|reflexivity].
  apply ci_prefix_length in E. lia.
Qed.

Lemma ci_contains_short p : forall s, length s < length p -> ci_contains p s = false.
Proof.
  induction s as [|c s IH]; intros H; cbn [ci_contains]; rewrite ci_prefix_short by exact H; cbn [is_some orb].
  - reflexivity.
  - apply IH. cbn [length] in H. lia.
Qed.

(** No char of the text matches the first one of the pattern *)
Lemma ci_contains_no a p : forall s, Forall (fun c => ci a c = false) s -> ci_contains (a :: p) s = false.
Proof.
  induction s as [|c s IH]; intros H; [reflexivity|]. inversion H; subst.
  cbn [ci_contains ci_prefix]. rewrite H2. cbn [is_some orb]. apply IH. exact H3.
Qed.

Lemma ci_contains_cons a p c s : ci a c = false -> ci_contains (a :: p) (c :: s) = ci_contains (a :: p) s.
Proof. intros H. cbn [ci_contains ci_prefix]. rewrite H. reflexivity. Qed.

Lemma span_app (f : char -> bool) a : forall c r, Forall (fun x => f x = true) a -> f c = false ->
  span f (a ++ c :: r) = (a, c :: r).
Proof.
  induction a as [|x a IH]; intros c r H C; cbn [span app].
  - rewrite C. reflexivity.
  - inversion H; subst. rewrite H2, IH by assumption. reflexivity.
Qed.

Lemma span_all (f : char -> bool) a : Forall (fun x => f x = true) a -> span f a = (a, []).
Proof.
  induction a as [|x a IH]; intros H; [reflexivity|]. cbn [span].
  inversion H; subst. rewrite H2, IH by assumption. reflexivity.
Qed.

Lemma span_length f s : length (fst (span f s)) + length (snd (span f s)) = length s.
Proof.
  induction s as [|c s IH]; [reflexivity|]. cbn [span]. destruct (f c); [|reflexivity].
  destruct (span f s) as [a b]. cbn [fst snd length] in *. lia.
Qed.

Lemma plus_app (f : char -> bool) a c r : a <> [] -> Forall (fun x => f x = true) a -> f c = false ->
  plus f (a ++ c :: r) = Some (a, c :: r).
Proof.
  intros A H C. unfold plus. rewrite span_app by assumption. destruct a; [congruence|]. reflexivity.
Qed.

Lemma plus_all (f : char -> bool) a : a <> [] -> Forall (fun x => f x = true) a -> plus f a = Some (a, []).
Proof.
  intros A H. unfold plus. rewrite span_all by assumption. destruct a; [congruence|]. reflexivity.
Qed.

Lemma plus_length f s t r : plus f s = Some (t, r) -> length r < length s.
Proof.
  unfold plus. pose proof (span_length f s) as L. destruct (span f s) as [a b]. cbn [fst snd] in L.
  destruct a as [|x a]; cbn [is_nil]; intros H; [discriminate|].
  injection H as <- <-. cbn [length] in L. lia.
Qed.

Lemma rx_group_length k s g r : rx_group k s = Some (g, r) -> length r < length s.
Proof.
  unfold rx_group. destruct s as [|d s]; cbn [one obind]; [discriminate|].
  destruct (40 =? d)%N; cbn [obind]; [|discriminate].
  destruct (plus (rx_inner k) s) as [[a b]|] eqn:P; cbn [obind fst snd]; [|discriminate].
  apply plus_length in P. destruct b as [|e b]; cbn [one obind]; [discriminate|].
  destruct (41 =? e)%N; cbn [obind]; [|discriminate]. intros H. injection H as <- <-.
  cbn [length] in *. lia.
Qed.

(** ** Splitting in tokens *)

Lemma find_iter_fuel k f : forall f' s, length s <= f -> length s <= f' -> find_iter k f s = find_iter k f' s.
Proof.
  induction f as [|f IH]; intros f' s H H'.
  - destruct s; [|cbn in H; lia]. destruct f'; reflexivity.
  - destruct f' as [|f'].
    + destruct s; [|cbn in H'; lia]. reflexivity.
    + cbn [find_iter]. destruct (plus (rx_plain k) s) as [[t r]|] eqn:P.
      * apply plus_length in P. destruct (rx_group k r) as [[g r']|] eqn:G.
        -- apply rx_group_length in G. f_equal. apply IH; lia.
        -- f_equal. apply IH; lia.
      * destruct s as [|c s]; [reflexivity|]. cbn [length] in *. apply IH; lia.
Qed.

Lemma find_tokens_step k s :
  find_tokens k s =
  match plus (rx_plain k) s with
  | Some (t, r) => match rx_group k r with
                   | Some (g, r') => (t ++ g) :: find_tokens k r'
                   | None => t :: find_tokens k r
                   end
  | None => match s with [] => [] | _ :: r => find_tokens k r end
  end.
Proof.
  unfold find_tokens at 1. rewrite (@find_iter_fuel k _ (S (length s)) s) by lia. cbn [find_iter].
  destruct (plus (rx_plain k) s) as [[t r]|] eqn:P.
  - apply plus_length in P. destruct (rx_group k r) as [[g r']|] eqn:G.
    + apply rx_group_length in G. f_equal. apply find_iter_fuel; lia.
    + f_equal. apply find_iter_fuel; lia.
  - destruct s as [|c s]; [reflexivity|]. cbn [length] in *. apply find_iter_fuel; lia.
Qed.

(** What can follow a token *)
Definition sep (r : str) : Prop := r = [] \/ exists r', r = c_space :: r'.

Section classes.
  Context {k : classes} (K : ascii_classes k).

  Lemma space_space : rx_space k c_space = true.
  Proof. apply (ascii_space_class K); [reflexivity|]. right. reflexivity. Qed.
  Lemma not_space c : (33 <= c < 128)%N -> rx_space k c = false.
  Proof.
    intros H. destruct (rx_space k c) eqn:E; [|reflexivity].
    apply (ascii_space_class K) in E; [|lia]. unfold ascii_space in E. lia.
  Qed.
  Lemma digit_true c : ascii_digit c -> rx_digit k c = true.
  Proof. intros H. apply (ascii_digit_class K); [unfold ascii_digit in H; lia | exact H]. Qed.
  Lemma digit_false c : (c < 128)%N -> ~ ascii_digit c -> rx_digit k c = false.
  Proof.
    intros H N. destruct (rx_digit k c) eqn:E; [|reflexivity].
    apply (ascii_digit_class K) in E; [contradiction|lia].
  Qed.
  Lemma digits_true s : Forall ascii_digit s -> Forall (fun x => rx_digit k x = true) s.
  Proof. intros H. eapply Forall_impl; [|exact H]. intros c. apply digit_true. Qed.

  Lemma plain_space : rx_plain k c_space = false.
  Proof. unfold rx_plain. rewrite space_space. reflexivity. Qed.
  Lemma plain_open : rx_plain k 40%N = false.
  Proof. unfold rx_plain. rewrite orb_true_r. reflexivity. Qed.
  Lemma plain_close : rx_plain k 41%N = false.
  Proof. unfold rx_plain. rewrite orb_true_r. reflexivity. Qed.
  Lemma plain_ascii c : (33 <= c < 128)%N -> c <> 40%N -> c <> 41%N -> rx_plain k c = true.
  Proof. intros H A B. unfold rx_plain. rewrite not_space by exact H. lia. Qed.
  Lemma inner_close : rx_inner k 41%N = false.
  Proof.
    unfold rx_inner. rewrite not_space by lia.
    destruct (rx_word k 41) eqn:E; [|reflexivity].
    apply (ascii_word_class K) in E; [|lia]. unfold ascii_letter, ascii_digit in E. lia.
  Qed.
  Lemma inner_space : rx_inner k c_space = true.
  Proof. unfold rx_inner. rewrite space_space. apply orb_true_r. Qed.
  Lemma inner_comma : rx_inner k 44%N = true.
  Proof. unfold rx_inner. rewrite orb_true_r. reflexivity. Qed.
  Lemma inner_digit c : ascii_digit c -> rx_inner k c = true.
  Proof.
    intros H. unfold rx_inner. replace (rx_word k c) with true; [reflexivity|].
    symmetry. apply (ascii_word_class K); [unfold ascii_digit in H; lia|]. right; left; exact H.
  Qed.

  (** A token made of plain chars, and one with a group *)
  Definition word_token (t : str) : Prop := t <> [] /\ Forall (fun c => rx_plain k c = true) t.
  Definition call_token (t : str) : Prop :=
    exists w i, t = w ++ 40%N :: i ++ [41%N] /\ word_token w /\ i <> [] /\ Forall (fun c => rx_inner k c = true) i.

  Lemma find_skip c r : rx_plain k c = false -> find_tokens k (c :: r) = find_tokens k r.
  Proof.
    intros H. rewrite find_tokens_step. unfold plus. cbn [span]. rewrite H. reflexivity.
  Qed.
  Lemma find_nil : find_tokens k [] = [].
  Proof. reflexivity. Qed.

  Lemma group_sep r : sep r -> rx_group k r = None.
  Proof. intros [->|(r' & ->)]; reflexivity. Qed.

  Lemma find_word t r : word_token t -> sep r -> find_tokens k (t ++ r) = t :: find_tokens k r.
  Proof.
    intros (A & P) R. rewrite find_tokens_step.
    assert (E : plus (rx_plain k) (t ++ r) = Some (t, r)).
    { destruct R as [->|(r' & ->)].
      - rewrite app_nil_r. apply plus_all; assumption.
      - apply plus_app; [exact A|exact P|exact plain_space]. }
    rewrite E, group_sep by exact R. reflexivity.
  Qed.

  Lemma find_call t r : call_token t -> find_tokens k (t ++ r) = t :: find_tokens k r.
  Proof.
    intros (w & i & -> & (A & P) & I & F). rewrite find_tokens_step.
    rewrite <- app_assoc. cbn [app].
    rewrite plus_app; [|exact A|exact P|exact plain_open].
    assert (G : rx_group k (40%N :: (i ++ [41%N]) ++ r) = Some (40%N :: i ++ [41%N], r)).
    { unfold rx_group. cbn [one obind]. change (40 =? 40)%N with true. cbn [obind].
      rewrite <- app_assoc. cbn [app]. rewrite plus_app; [|exact I|exact F|exact inner_close].
      cbn [obind fst snd one]. change (41 =? 41)%N with true. reflexivity. }
    rewrite G. reflexivity.
  Qed.

  (** ** The printed tokens *)

  Definition good (t : str) : Prop := t = [] \/ word_token t \/ call_token t.
  Definition spaced (ts : list str) : str := flat_map (fun t => c_space :: t) ts.

  Lemma spaced_sep ts : sep (spaced ts).
  Proof. destruct ts; [left; reflexivity | right; eexists; reflexivity]. Qed.

  Lemma find_good t ts : good t ->
    find_tokens k (t ++ spaced ts) = filter (fun t => negb (is_nil t)) [t] ++ find_tokens k (spaced ts).
  Proof.
    intros [->|[W|C]].
    - reflexivity.
    - rewrite find_word by (try exact W; apply spaced_sep).
      destruct W as (A & _). destruct t; [congruence|reflexivity].
    - rewrite find_call by exact C.
      destruct C as (w & i & -> & _). destruct w; reflexivity.
  Qed.

  Lemma find_spaced ts : Forall good ts -> find_tokens k (spaced ts) = filter (fun t => negb (is_nil t)) ts.
  Proof.
    induction ts as [|t ts IH]; intros H; [reflexivity|]. inversion H; subst.
    change (spaced (t :: ts)) with (c_space :: t ++ spaced ts).
    rewrite find_skip by exact plain_space. rewrite find_good by assumption. rewrite IH by assumption.
    cbn [filter]. destruct (negb (is_nil t)); reflexivity.
  Qed.

  Lemma tokens_string_acc ts : forall acc, acc <> [] ->
    tokens_string acc ts = acc ++ spaced (map write_token ts).
  Proof.
    induction ts as [|t ts IH]; intros acc A; cbn [tokens_string map].
    - cbn. rewrite app_nil_r. reflexivity.
    - replace (is_nil acc) with false by (destruct acc; [congruence|reflexivity]).
      rewrite IH by (destruct acc; [congruence|discriminate]).
      cbn [spaced flat_map app]. rewrite <- app_assoc. reflexivity.
  Qed.

  (** Splitting a printed list of tokens gives the non empty ones *)
  Lemma find_printed ts : Forall (fun t => good (write_token t)) ts ->
    find_tokens k (style_tokens_to_string ts) = filter (fun t => negb (is_nil t)) (map write_token ts).
  Proof.
    unfold style_tokens_to_string. induction ts as [|t ts IH]; intros H; [reflexivity|].
    inversion H; subst. cbn [tokens_string is_nil app map].
    destruct (write_token t) as [|c w] eqn:E.
    - cbn [filter is_nil negb]. apply IH. assumption.
    - rewrite tokens_string_acc by discriminate. rewrite find_good by exact H2.
      rewrite find_spaced; [reflexivity|]. apply Forall_map. assumption.
  Qed.

  (** ** The printed colors *)

  Lemma dec_not_nil n : dec n <> [].
  Proof. destruct (dec_cons n) as (c & r & -> & _). discriminate. Qed.

  Lemma plus_dec n c r : (c < 128)%N -> ~ ascii_digit c ->
    plus (rx_digit k) (dec n ++ c :: r) = Some (dec n, c :: r).
  Proof.
    intros C N. apply plus_app; [apply dec_not_nil | apply digits_true, dec_digits | apply digit_false; assumption].
  Qed.

  Lemma rx_ansi_dec n : rx_ansi k (lit "ansi(" ++ dec n ++ lit ")") = Some (dec n).
  Proof.
    unfold rx_ansi, rx_call. change (ci_prefix (lit "ansi(") (lit "ansi(" ++ dec n ++ lit ")")) with (Some (dec n ++ [41%N])).
    cbn [obind]. rewrite plus_dec by (unfold ascii_digit; lia). reflexivity.
  Qed.

  Lemma rx_next_dec n c r : (c < 128)%N -> ~ ascii_digit c ->
    rx_next k (44%N :: c_space :: dec n ++ c :: r) = Some (dec n, c :: r).
  Proof.
    intros C N. unfold rx_next. cbn [one obind]. change (44 =? 44)%N with true. cbn [obind].
    assert (S : span (rx_space k) (c_space :: dec n ++ c :: r) = ([c_space], dec n ++ c :: r)).
    { destruct (dec_cons n) as (d & q & E & D). rewrite E. cbn [app].
      apply (@span_app (rx_space k) [c_space] d (q ++ c :: r)).
      - constructor; [exact space_space|constructor].
      - apply not_space. unfold ascii_digit in D. lia. }
    rewrite S. cbn [snd]. apply plus_dec; assumption.
  Qed.

  Lemma rx_rgb_dec r g b :
    rx_rgb k (lit "rgb(" ++ dec r ++ lit ", " ++ dec g ++ lit ", " ++ dec b ++ lit ")") = Some (dec r, dec g, dec b).
  Proof.
    unfold rx_rgb.
    change (ci_prefix (lit "rgb(") (lit "rgb(" ++ dec r ++ lit ", " ++ dec g ++ lit ", " ++ dec b ++ lit ")"))
      with (Some (dec r ++ 44%N :: c_space :: dec g ++ 44%N :: c_space :: dec b ++ 41%N :: [])).
    cbn [obind]. rewrite plus_dec by (unfold ascii_digit; lia). cbn [obind fst snd].
    rewrite rx_next_dec by (unfold ascii_digit; lia). cbn [obind fst snd].
    rewrite rx_next_dec by (unfold ascii_digit; lia). reflexivity.
  Qed.

  Lemma parse_color_rgb r g b : (r <= 255)%N -> (g <= 255)%N -> (b <= 255)%N ->
    parse_color k (write_color (Rgb r g b)) = Ok (Rgb r g b).
  Proof.
    intros R G B. unfold parse_color. cbn [write_color].
    change (rx_ansi k (lit "rgb(" ++ dec r ++ lit ", " ++ dec g ++ lit ", " ++ dec b ++ lit ")")) with (@None str).
    change (rx_grey k (lit "rgb(" ++ dec r ++ lit ", " ++ dec g ++ lit ", " ++ dec b ++ lit ")")) with (@None str).
    rewrite rx_rgb_dec. unfold parse_u8. rewrite !parse_uint_dec by assumption. reflexivity.
  Qed.

  Lemma parse_color_ansi n : (n <= 255)%N -> parse_color k (write_color (AnsiValue n)) = Ok (AnsiValue n).
  Proof.
    intros H. unfold parse_color. cbn [write_color]. rewrite rx_ansi_dec.
    unfold parse_u8. rewrite parse_uint_dec by exact H. reflexivity.
  Qed.

  Lemma parse_color_printed c : valid_color c ->
    parse_color k (write_color c) = match reread_color c with Some c' => Ok c' | None => Err Unrecognized end.
  Proof.
    destruct c; intros V; try reflexivity.
    - destruct V as (R & G & B). rewrite parse_color_rgb by assumption. reflexivity.
    - rewrite parse_color_ansi by exact V. reflexivity.
  Qed.

  (** ** The printed tokens *)

  Lemma no_n_digits s : Forall ascii_digit s -> Forall (fun c => ci 110 c = false) s.
  Proof.
    intros H. eapply Forall_impl; [|exact H]. intros c D. unfold ascii_digit in D. unfold ci, is_lower. lia.
  Qed.

  Lemma token_color c c' : valid_color c -> reread_color c = Some c' ->
    parse_style_token k (write_color c) = Ok (TColor c').
  Proof.
    intros V R.
    assert (N : ci_contains (lit "none") (write_color c) = false).
    { destruct c; try reflexivity; cbn [write_color].
      - apply ci_contains_no. rewrite !Forall_app. repeat split; try (apply no_n_digits, dec_digits);
          repeat constructor.
      - change (ci_contains (lit "none") (dec n ++ lit ")") = false).
        apply ci_contains_no. apply Forall_app. split; [apply no_n_digits, dec_digits|repeat constructor]. }
    unfold parse_style_token. rewrite N.
    assert (P : parse_u16 (write_color c) = None).
    { destruct c; try reflexivity; cbn [write_color]. }
    rewrite P, parse_color_printed by exact V. rewrite R. reflexivity.
  Qed.

  Lemma token_dimension n : (n <= 65535)%N -> parse_style_token k (dec n) = Ok (TDimension n).
  Proof.
    intros H. unfold parse_style_token.
    replace (ci_contains (lit "none") (dec n)) with false
      by (symmetry; apply ci_contains_no, no_n_digits, dec_digits).
    unfold parse_u16. rewrite parse_uint_dec by exact H. reflexivity.
  Qed.

  Lemma first_contained_short A (l : list (str * A)) s :
    Forall (fun p => length s < length (fst p)) l -> first_contained l s = None.
  Proof.
    induction l as [|[p a] l IH]; intros H; [reflexivity|]. inversion H; subst. cbn [first_contained fst] in *.
    rewrite ci_contains_short by assumption. apply IH. assumption.
  Qed.

  Lemma token_char c : ~ ascii_digit c -> parse_style_token k [c] = Ok (TChar c).
  Proof.
    intros H. unfold parse_style_token.
    rewrite ci_contains_short by (apply Nat.ltb_lt; reflexivity).
    assert (P : parse_u16 [c] = None).
    { unfold parse_u16, parse_uint. cbn [is_nil negb]. rewrite andb_false_r.
      rewrite dec_value_none; [reflexivity|]. exists c. split; [left; reflexivity|exact H]. }
    rewrite P.
    assert (C : parse_color k [c] = Err Unrecognized).
    { unfold parse_color, rx_ansi, rx_grey, rx_call, rx_rgb.
      rewrite !ci_prefix_short by (apply Nat.ltb_lt; reflexivity). cbn [obind or_else].
      assert (X : rx_hex k [c] = None) by (unfold rx_hex, one; destruct (35 =? c)%N; reflexivity).
      rewrite X, first_contained_short; [reflexivity|]. repeat constructor; apply Nat.ltb_lt; reflexivity. }
    rewrite C. unfold parse_attribute, parse_align.
    rewrite first_contained_short by (repeat constructor; apply Nat.ltb_lt; reflexivity).
    rewrite first_contained_short by (repeat constructor; apply Nat.ltb_lt; reflexivity).
    reflexivity.
  Qed.

  Lemma word_lit t : t <> [] -> forallb (fun c => (33 <=? c) && (c <? 128) && negb (c =? 40) && negb (c =? 41))%N t = true ->
    word_token t.
  Proof.
    intros A H. split; [exact A|]. apply Forall_forall. intros c I.
    rewrite forallb_forall in H. specialize (H c I). apply plain_ascii; lia.
  Qed.

  Lemma word_dec n : word_token (dec n).
  Proof.
    split; [apply dec_not_nil|]. eapply Forall_impl; [|apply dec_digits].
    intros c D. unfold ascii_digit in D. apply plain_ascii; lia.
  Qed.

  Lemma good_color c : good (write_color c).
  Proof.
    destruct c; try (left; reflexivity); try (right; left; apply word_lit; [discriminate|reflexivity]); right; right.
    - exists (lit "rgb"), (dec r ++ lit ", " ++ dec g ++ lit ", " ++ dec b). split; [|split; [|split]].
      + cbn [write_color]. rewrite <- !app_assoc. reflexivity.
      + apply word_lit; [discriminate|reflexivity].
      + destruct (dec_cons r) as (c & q & -> & _). discriminate.
      + assert (D : forall n, Forall (fun c => rx_inner k c = true) (dec n)).
        { intros n. eapply Forall_impl; [|apply dec_digits]. exact inner_digit. }
        assert (S : Forall (fun c => rx_inner k c = true) (lit ", ")).
        { constructor; [exact inner_comma|constructor; [exact inner_space|constructor]]. }
        rewrite !Forall_app. auto.
    - exists (lit "ansi"), (dec n). split; [|split; [|split]].
      + reflexivity.
      + apply word_lit; [discriminate|reflexivity].
      + apply dec_not_nil.
      + eapply Forall_impl; [|apply dec_digits]. exact inner_digit.
  Qed.

  (** The char of a token, if it's one, is a plain one *)
  Definition plain_token (t : StyleToken) : Prop := match t with TChar c => rx_plain k c = true | _ => True end.

  Lemma good_token t : plain_token t -> good (write_token t).
  Proof.
    destruct t as [c|c|a|a|n|]; intros P; cbn [write_token].
    - right; left. split; [discriminate|]. constructor; [exact P|constructor].
    - apply good_color.
    - destruct a; try (left; reflexivity); right; left; (apply word_lit; [discriminate|reflexivity]).
    - destruct a; try (left; reflexivity); right; left; (apply word_lit; [discriminate|reflexivity]).
    - right; left. apply word_dec.
    - right; left. apply word_lit; [discriminate|reflexivity].
  Qed.

  Lemma plain_printable c : rx_plain k c = true /\ ~ ascii_digit c <-> printable k c.
  Proof.
    unfold rx_plain, printable, ascii_digit. destruct (rx_space k c); cbn [orb negb].
    - split; intros (A & B); discriminate.
    - lia.
  Qed.
  Lemma ok_plain t : ok_token k t -> plain_token t.
  Proof. destruct t; try (intros; exact I). intros H. apply plain_printable. exact H. Qed.

  Lemma token_printed t : ok_token k t ->
    match reread_token t with
    | Some t' => write_token t <> [] /\ parse_style_token k (write_token t) = Ok t'
    | None => write_token t = []
    end.
  Proof.
    destruct t as [c|c|a|a|n|]; intros H; cbn [reread_token write_token].
    - split; [discriminate|]. apply token_char. apply plain_printable. exact H.
    - cbn [ok_token] in H. destruct (reread_color c) as [c'|] eqn:R; cbn [option_map].
      + split; [|apply token_color; assumption].
        destruct c; try discriminate R; discriminate.
      + destruct c; try discriminate R. reflexivity.
    - cbn [ok_token printed_attributes In] in H.
      repeat (destruct H as [<-|H]; [split; [discriminate|reflexivity]|]). destruct H.
    - destruct a; try reflexivity; split; solve [discriminate | reflexivity].
    - split; [apply dec_not_nil|]. apply token_dimension. exact H.
    - split; [discriminate|reflexivity].
  Qed.

  Lemma somes_app A (a b : list (option A)) : somes (a ++ b) = somes a ++ somes b.
  Proof. induction a as [|[x|] a IH]; cbn [somes app]; [reflexivity| |]; rewrite IH; reflexivity. Qed.

  Lemma parse_printed ts : Forall (ok_token k) ts ->
    parse_style_tokens k (style_tokens_to_string ts) = Ok (somes (map reread_token ts)).
  Proof.
    intros H. unfold parse_style_tokens. rewrite find_printed.
    2: { eapply Forall_impl; [|exact H]. intros t O. apply good_token. apply ok_plain. exact O. }
    induction H as [|t ts O F IH]; [reflexivity|]. cbn [map filter].
    pose proof (token_printed t O) as T. destruct (reread_token t) as [t'|] eqn:R; cbn [somes].
    - destruct T as (N & P). replace (is_nil (write_token t)) with false by (destruct (write_token t); [congruence|reflexivity]).
      cbn [negb all_ok]. rewrite P, IH. reflexivity.
    - rewrite T. exact IH.
  Qed.

  (** A char which isn't plain isn't read *)
  Lemma parse_printed_skip c ts : rx_plain k c = false -> Forall (ok_token k) ts ->
    parse_style_tokens k (style_tokens_to_string (TChar c :: ts)) = Ok (somes (map reread_token ts)).
  Proof.
    intros C H. unfold style_tokens_to_string. cbn [tokens_string is_nil app write_token].
    rewrite tokens_string_acc by discriminate. cbn [app].
    unfold parse_style_tokens. rewrite find_skip by exact C.
    rewrite <- (@parse_printed ts H). unfold parse_style_tokens. f_equal.
    rewrite find_printed, find_spaced; [reflexivity| |].
    - apply Forall_map. eapply Forall_impl; [|exact H]. intros t O. apply good_token. apply ok_plain. exact O.
    - eapply Forall_impl; [|exact H]. intros t O. apply good_token. apply ok_plain. exact O.
  Qed.

  (** A digit is read as a dimension *)
  Lemma parse_printed_digit c ts : ascii_digit c -> Forall (ok_token k) ts ->
    parse_style_tokens k (style_tokens_to_string (TChar c :: ts))
    = Ok (TDimension (c - 48) :: somes (map reread_token ts)).
  Proof.
    intros D H.
    assert (E : style_tokens_to_string (TChar c :: ts) = style_tokens_to_string (TDimension (c - 48) :: ts)).
    { unfold style_tokens_to_string. cbn [tokens_string is_nil app write_token]. f_equal.
      unfold ascii_digit in D. unfold dec.
      assert (X : exists f, S (N.to_nat (N.log2 (c - 48))) = S f) by (eexists; reflexivity).
      destruct X as (f & ->). cbn [dec_aux]. replace (c - 48 <? 10)%N with true by lia.
      f_equal. lia. }
    rewrite E, parse_printed; [reflexivity|]. constructor; [|exact H].
    cbn [ok_token]. unfold ascii_digit in D. lia.
  Qed.
End classes.

(** ** Styles from tokens *)

Lemma cs_of_tokens_app a : forall f st b, (forall t, In t b -> match t with TAlign _ | TDimension _ | TChar _ => True | _ => False end) ->
  cs_of_tokens f st (a ++ b) = cs_of_tokens f st a.
Proof.
  induction a as [|t a IH]; intros f st b B; cbn [app].
  - induction b as [|t b IH]; [reflexivity|].
    assert (B' := B t (or_introl eq_refl)).
    destruct t; try contradiction; cbn [cs_of_tokens]; apply IH; intros t' I; apply B; right; exact I.
  - destruct t; cbn [cs_of_tokens]; try (apply IH; exact B). destruct f; apply IH; exact B.
Qed.

Lemma cs_of_tokens_attrs l : forall f st,
  cs_of_tokens f st (map TAttribute l)
  = mkCS (fg st) (bg st) (underline st) (fold_left attrs_set l (attrs st)).
Proof.
  induction l as [|a l IH]; intros f st; cbn [map cs_of_tokens fold_left].
  - destruct st; reflexivity.
  - rewrite IH. reflexivity.
Qed.

Lemma attrs_fold_testbit l : forall s i,
  N.testbit (fold_left attrs_set l s) i = N.testbit s i || existsb (fun a => (attr_bit a =? i)%N) l.
Proof.
  induction l as [|a l IH]; intros s i; cbn [fold_left existsb].
  - rewrite orb_false_r. reflexivity.
  - rewrite IH. unfold attrs_set. rewrite N.setbit_eqb.
    destruct (attr_bit a =? i)%N, (N.testbit s i), (existsb (fun a => (attr_bit a =? i)%N) l); reflexivity.
Qed.

Lemma printed_bits_testbit i :
  N.testbit printed_bits i = existsb (fun a => (attr_bit a =? i)%N) printed_attributes.
Proof.
  change printed_bits with (fold_left attrs_set printed_attributes 0%N).
  rewrite attrs_fold_testbit, N.bits_0. reflexivity.
Qed.

Lemma printed_bits_In i : N.testbit printed_bits i = true <-> In i (map attr_bit printed_attributes).
Proof.
  rewrite printed_bits_testbit, existsb_exists, in_map_iff. split; intros (a & A & B); exists a; split; try assumption.
  - apply N.eqb_eq. exact B.
  - apply N.eqb_eq. exact A.
Qed.

Lemma attrs_printed cs :
  fold_left attrs_set (filter (cs_has_attr cs) ATTRIBUTES) 0%N = N.land (attrs cs) printed_bits.
Proof.
  apply N.bits_inj. intros i. rewrite attrs_fold_testbit, N.bits_0, N.land_spec, printed_bits_testbit.
  cbn [orb]. unfold printed_attributes, ATTRIBUTES.
  generalize [Bold; Dim; Italic; Underlined; Reverse; CrossedOut; Encircled; OverLined] as l.
  induction l as [|a l IH]; cbn [filter existsb]; [rewrite andb_false_r; reflexivity|].
  unfold cs_has_attr at 1, attrs_has.
  destruct (N.eqb_spec (attr_bit a) i) as [<-|D].
  - destruct (N.testbit (attrs cs) (attr_bit a)) eqn:T; cbn [existsb].
    + rewrite N.eqb_refl. reflexivity.
    + rewrite IH. reflexivity.
  - destruct (N.testbit (attrs cs) (attr_bit a)) eqn:T; cbn [existsb orb].
    + rewrite IH. replace (attr_bit a =? i)%N with false by lia. reflexivity.
    + rewrite IH. reflexivity.
Qed.

Lemma cs_of_printed cs : cs_from_tokens (somes (map reread_token (cs_tokens cs))) = reread_cs cs.
Proof.
  unfold cs_tokens, cs_from_tokens. rewrite !map_app, !somes_app.
  assert (A : somes (map reread_token (map TAttribute (filter (cs_has_attr cs) ATTRIBUTES)))
              = map TAttribute (filter (cs_has_attr cs) ATTRIBUTES)).
  { generalize (filter (cs_has_attr cs) ATTRIBUTES). induction l as [|a l IH]; [reflexivity|].
    cbn [map reread_token somes]. rewrite IH. reflexivity. }
  rewrite A. clear A. unfold reread_cs. rewrite <- attrs_printed.
  set (l := filter _ _). clearbody l.
  destruct cs as [f b u a]. cbn [fg bg].
  destruct f as [f|].
  - destruct b as [b|]; cbn [map somes reread_token app].
    + destruct f, b; cbn [reread_color option_map somes app cs_of_tokens reread_ocolor]; rewrite cs_of_tokens_attrs; reflexivity.
    + destruct f; cbn [reread_color option_map somes app cs_of_tokens reread_ocolor]; rewrite cs_of_tokens_attrs; reflexivity.
  - destruct b as [b|]; cbn [is_some map somes reread_token app].
    + destruct b; cbn [reread_color option_map somes app cs_of_tokens reread_ocolor]; rewrite cs_of_tokens_attrs; reflexivity.
    + rewrite cs_of_tokens_attrs. reflexivity.
Qed.

Lemma ok_cs_tokens k cs : valid_cs cs -> Forall (ok_token k) (cs_tokens cs).
Proof.
  intros (F & B). unfold cs_tokens. rewrite !Forall_app. repeat split.
  - destruct (fg cs) as [c|]; [constructor; [exact F|constructor]|].
    destruct (is_some (bg cs)); [constructor; [exact I|constructor]|constructor].
  - destruct (bg cs) as [c|]; [constructor; [exact B|constructor]|constructor].
  - apply Forall_map, Forall_forall. intros a A. apply filter_In in A. apply A.
Qed.

Lemma margin_u16_small m : (margin_u16 m <= 65535)%N /\ N.to_nat (margin_u16 m) = reread_margin m.
Proof.
  unfold margin_u16, reread_margin. destruct (N.of_nat m <? 65536)%N eqn:E.
  - rewrite N.min_l by lia. rewrite N.mod_small by lia. lia.
  - rewrite N.min_r by lia. split; [discriminate|reflexivity].
Qed.
