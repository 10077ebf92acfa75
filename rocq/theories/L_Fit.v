(** * Lemmas on StrFit, CropWriter, Filling, Spacing and styles *)
From Verif Require Import Base L_Base M_Style M_Fit S_Fit.
Set Implicit Arguments.

Lemma move_app u a b : move u (a ++ b) = (move u a + move u b)%Z.
Proof. induction a; cbn [move app]; lia. Qed.

Lemma fit_char_width_move u c : fit_char_width u c = char_move u c.
Proof.
  unfold fit_char_width, char_move, c_tab, c_bs. 
  destruct (N.eqb_spec c 9); destruct (N.eqb_spec c 8); subst; try lia; reflexivity.
Qed.

(** the loop, with [pre] already accepted *)
Lemma strfit_loop_spec u n : forall s pre tab, 
  exists p q, s = p ++ q
  /\ (exists tab', strfit_loop u n s (blen pre) (blen pre) (move u pre) tab = (blen (pre ++ p), move u (pre ++ p), tab')
      /\ (tab' = false -> tab = false /\ no_tab p))
  /\ (forall a b, p = a ++ b -> a <> [] -> (move u (pre ++ a) <= Z.of_nat n)%Z)
  /\ (forall c r, q = c :: r -> (Z.of_nat n < move u (pre ++ p ++ [c]))%Z).
Proof.
  induction s as [|c r IH]; intros pre tab.
  - exists [], []. split; [reflexivity|]. cbn [strfit_loop]. rewrite app_nil_r. split; [|split].
    + exists tab. split; [reflexivity|]. intros ->. split; [reflexivity|intros []].
    + intros a b H. symmetry in H. apply app_eq_nil in H. destruct H; subst. congruence.
    + intros; discriminate.
  - cbn [strfit_loop]. rewrite fit_char_width_move.
    destruct (((0 <? move u pre + char_move u c) && (Z.of_nat n <? move u pre + char_move u c))%Z)%bool eqn:E.
    + exists [], (c :: r). split; [reflexivity|]. rewrite app_nil_r. split; [|split].
      * eexists. split; [reflexivity|]. intros H. split; [|intros []].
        destruct (N.eqb c c_tab); [discriminate|exact H].
      * intros a b H. symmetry in H. apply app_eq_nil in H. destruct H; subst. congruence.
      * intros c' r' H. inversion H; subst. cbn [app]. rewrite move_app. cbn [move]. lia.
    + replace (blen pre + len_utf8 c) with (blen (pre ++ [c])) by (rewrite blen_app; unfold blen; simpl; lia).
      replace (move u pre + char_move u c)%Z with (move u (pre ++ [c])) by (rewrite move_app; cbn [move]; lia).
      destruct (IH (pre ++ [c]) (if N.eqb c c_tab then true else tab)) as (p & q & Hs & (tab' & Hl & Ht) & Hle & Hgt).
      exists (c :: p), q. split; [now rewrite Hs|].
      replace (pre ++ c :: p) with ((pre ++ [c]) ++ p) by now rewrite <- app_assoc.
      split; [|split].
      * exists tab'. split; [exact Hl|]. intros H. apply Ht in H. destruct H as [H1 H2].
        unfold c_tab in H1. destruct (N.eqb_spec c 9); [discriminate|]. split; [exact H1|]. intros [H|H]; [congruence|exact (H2 H)].
      * intros a b H Ha. destruct a as [|a0 a]; [congruence|]. inversion H; subst a0.
        destruct a as [|a1 a].
        -- rewrite move_app. cbn [move]. lia.
        -- replace (pre ++ c :: a1 :: a) with ((pre ++ [c]) ++ a1 :: a) by now rewrite <- app_assoc.
           apply Hle with (b := b); [assumption|discriminate].
      * intros c' r' H. specialize (Hgt c' r' H). rewrite <- !app_assoc in Hgt. cbn [app] in *. exact Hgt.
Qed.

Lemma strfit_from_spec u s n : exists pre post,
  s = pre ++ post
  /\ bytes_count (strfit_from u s n) = blen pre
  /\ cols_count (strfit_from u s n) = Z.to_nat (move u pre)
  /\ (has_tab (strfit_from u s n) = false -> no_tab pre)
  /\ (forall a, prefix_of a pre -> (move u a <= Z.of_nat n)%Z)
  /\ (forall c r, post = c :: r -> (Z.of_nat n < move u (pre ++ [c]))%Z).
Proof.
  destruct (strfit_loop_spec u n s [] false) as (p & q & Hs & (tab & Hl & Ht) & Hle & Hgt).
  exists p, q. cbn [app] in *. unfold strfit_from. unfold blen at 1 2 in Hl. cbn [map sum move] in Hl. rewrite Hl.
  cbn [bytes_count cols_count has_tab].
  split; [exact Hs|]. split; [reflexivity|]. split; [lia|]. split; [intros H; apply Ht in H; tauto|].
  split; [|exact Hgt].
  intros a (b & Hb). destruct a; [cbn [move]; lia|]. apply Hle with (b := b); [exact Hb|discriminate].
Qed.

Lemma blen_cons c s : blen (c :: s) = len_utf8 c + blen s.
Proof. reflexivity. Qed.

Lemma byte_prefix_app a b : byte_prefix (a ++ b) (blen a) = Ret a.
Proof.
  induction a as [|c a IH]; [destruct b; reflexivity|].
  rewrite blen_cons. pose proof (len_utf8_pos c).
  cbn [byte_prefix app]. destruct (len_utf8 c + blen a) eqn:E; [lia|]. rewrite <- E.
  destruct (len_utf8 c <=? len_utf8 c + blen a) eqn:E2; [|lia].
  replace (len_utf8 c + blen a - len_utf8 c) with (blen a) by lia. rewrite IH. reflexivity.
Qed.

Lemma replace_tabs_expand s : replace_tabs s = expand s.
Proof.
  unfold replace_tabs, c_tab, TAB_REPLACEMENT. induction s; cbn [flat_map expand]; [reflexivity|].
  rewrite IHs. destruct (N.eqb a 9); reflexivity.
Qed.

Lemma expand_id s : no_tab s -> expand s = s.
Proof.
  unfold no_tab. induction s; cbn [expand In]; intros H; [reflexivity|].
  destruct (N.eqb_spec a 9); [exfalso; apply H; auto|]. rewrite IHs; tauto.
Qed.

Lemma make_string_spec u s n : exists pre post,
  s = pre ++ post
  /\ count_fitting u s n = (blen pre, Z.to_nat (move u pre))
  /\ make_string u s n = Ret (expand pre, Z.to_nat (move u pre))
  /\ (forall a, prefix_of a pre -> (move u a <= Z.of_nat n)%Z)
  /\ (forall c r, post = c :: r -> (Z.of_nat n < move u (pre ++ [c]))%Z).
Proof.
  destruct (strfit_from_spec u s n) as (pre & post & Hs & Hb & Hc & Ht & Hle & Hgt).
  exists pre, post. split; [exact Hs|]. split; [unfold count_fitting; now rewrite Hb, Hc|].
  split; [|split; assumption].
  unfold make_string. rewrite Hb. rewrite Hs at 1. rewrite byte_prefix_app, bind_ret, Hc.
  destruct (has_tab (strfit_from u s n)); [now rewrite replace_tabs_expand|].
  rewrite expand_id by auto. reflexivity.
Qed.

Lemma move_nonneg u s : no_backspace s -> (0 <= move u s)%Z.
Proof.
  unfold no_backspace. induction s; cbn [move In]; intros H; [lia|].
  assert (0 <= char_move u a)%Z; [|assert (0 <= move u s)%Z by tauto; lia].
  unfold char_move. destruct (N.eqb_spec a 8); [exfalso; auto|]. destruct (N.eqb a 9); lia.
Qed.

Lemma no_backspace_app a b : no_backspace (a ++ b) <-> no_backspace a /\ no_backspace b.
Proof. unfold no_backspace. rewrite in_app_iff. tauto. Qed.
Lemma no_tab_app a b : no_tab (a ++ b) <-> no_tab a /\ no_tab b.
Proof. unfold no_tab. rewrite in_app_iff. tauto. Qed.

Lemma app_compare {A} (a b c d : list A) : a ++ b = c ++ d ->
  (exists e, c = a ++ e) \/ (exists x e, a = c ++ x :: e).
Proof.
  revert c. induction a as [|x a IH]; intros c H.
  - left. exists c. reflexivity.
  - destruct c as [|y c].
    + right. exists x, a. reflexivity.
    + cbn [app] in H. inversion H; subst. apply IH in H2. destruct H2 as [(e & ->)|(z & e & ->)].
      * left. now exists e.
      * right. now exists z, e.
Qed.

(** without backspace, no longer prefix fits *)
Lemma fit_longest u s n pre post : s = pre ++ post ->
  (forall c r, post = c :: r -> (Z.of_nat n < move u (pre ++ [c]))%Z) ->
  no_backspace s -> forall p, prefix_of p s -> (move u p <= Z.of_nat n)%Z -> prefix_of p pre.
Proof.
  intros Hs Hgt NB p (q & Hp) Hm.
  assert (H : p ++ q = pre ++ post) by congruence. apply app_compare in H.
  destruct H as [(e & ->)|(x & e & ->)]; [now exists e|]. exfalso.
  rewrite Hp in Hs. rewrite <- app_assoc in Hs. apply app_inv_head in Hs. 
  subst post. specialize (Hgt x (e ++ q) eq_refl).
  subst s. rewrite !no_backspace_app in NB. destruct NB as ((N1 & N2) & N3).
  replace (pre ++ x :: e) with ((pre ++ [x]) ++ e) in * by now rewrite <- app_assoc.
  rewrite move_app in Hm. change (x :: e) with ([x] ++ e) in N2. rewrite no_backspace_app in N2.
  pose proof (move_nonneg u (proj2 N2)). lia.
Qed.

Lemma expand_no_tab s : no_tab (expand s).
Proof.
  unfold no_tab. induction s; cbn [expand In]; [tauto|].
  destruct (N.eqb_spec a 9); cbn [In]; intuition congruence.
Qed.
Lemma expand_no_bs s : no_backspace s -> no_backspace (expand s).
Proof.
  unfold no_backspace. induction s; cbn [expand In]; intros H; [tauto|].
  destruct (N.eqb_spec a 9); cbn [In]; intuition congruence.
Qed.

Lemma move_expand u s : chw u 32%N = 1 -> move u (expand s) = move u s.
Proof.
  intros H1. induction s as [|c s IH]; cbn [expand move]; [reflexivity|].
  destruct (N.eqb_spec c 9) as [->|E]; cbn [move]; [|lia].
  unfold char_move. cbn [N.eqb Pos.eqb]. lia.
Qed.

(** without tab nor backspace the move is the width *)
Lemma move_sumw u s : no_tab s -> no_backspace s -> move u s = Z.of_nat (sumw (chw u) s).
Proof.
  unfold no_tab, no_backspace. induction s; cbn [move In]; intros H1 H2; [reflexivity|].
  rewrite sumw_cons, IHs by tauto. unfold char_move.
  destruct (N.eqb_spec a 8); [exfalso; auto|]. destruct (N.eqb_spec a 9); [exfalso; auto|]. lia.
Qed.

Lemma made_width u s n : chw u 32%N = 1 -> no_backspace s -> exists p cols,
  make_string u s n = Ret (p, cols) /\ cols = sumw (chw u) p /\ cols <= n.
Proof.
  intros H1 NB. destruct (make_string_spec u s n) as (pre & post & Hs & _ & Hm & Hle & _).
  exists (expand pre), (Z.to_nat (move u pre)). split; [exact Hm|].
  rewrite Hs in NB. apply no_backspace_app in NB. destruct NB as [NB _].
  assert (Hp : prefix_of pre pre) by (exists []; now rewrite app_nil_r).
  specialize (Hle pre Hp). split; [|lia].
  rewrite <- (move_expand u pre H1), move_sumw; [lia|apply expand_no_tab|now apply expand_no_bs].
Qed.

(** ** Filling *)

Lemma blen_repeat c n : blen (repeat c n) = n * len_utf8 c.
Proof. induction n; [reflexivity|]. cbn [repeat]. rewrite blen_cons, IHn. lia. Qed.

Lemma byte_prefix_repeat c n m : n <= m -> byte_prefix (repeat c m) (n * len_utf8 c) = Ret (repeat c n).
Proof.
  intros H. replace m with (n + (m - n)) by lia. rewrite repeat_app, <- blen_repeat. apply byte_prefix_app.
Qed.

Lemma blen_single c : blen [c] = len_utf8 c.
Proof. unfold blen. simpl. lia. Qed.

Lemma filling_loop_spec pr c : (forall s, cmd_text (pr s) = s) -> forall fuel n, n <= fuel ->
  exists l, filling_loop pr (filling_from_char c) fuel n = Ret l /\ out_text l = repeat c n
     /\ (forall x, In x l -> exists s, x = pr s).
Proof.
  intros Hpr. induction fuel as [|fuel IH]; intros n Hn.
  - exists []. assert (n = 0) by lia. subst. split; [reflexivity|]. split; [reflexivity|intros x []].
  - destruct (Nat.eq_dec n 0) as [->|N0].
    { exists []. split; [reflexivity|]. split; [reflexivity|intros x []]. }
    assert (U : filling_loop pr (filling_from_char c) (S fuel) n =
      (p <- byte_prefix (filling_string (filling_from_char c))
              (Nat.min n FILLING_LEN * char_size (filling_from_char c)) ;;
       len' <- csub n (Nat.min n FILLING_LEN) ;;
       r <- filling_loop pr (filling_from_char c) fuel len' ;;
       Ret (pr p :: r))).
    { destruct n; [lia|]. reflexivity. }
    rewrite U. clear U. unfold filling_from_char at 1 2. cbn [filling_string char_size].
    rewrite blen_single. rewrite byte_prefix_repeat by lia. rewrite bind_ret, csub_ret by lia. rewrite bind_ret.
    assert (L : 1 <= FILLING_LEN) by (unfold FILLING_LEN; lia).
    destruct (IH (n - Nat.min n FILLING_LEN) ltac:(lia)) as (l & Hl & Ht & Hall).
    rewrite Hl, bind_ret. eexists. split; [reflexivity|]. split.
    + unfold out_text in *. cbn [flat_map]. rewrite Ht, Hpr, <- repeat_app. f_equal. lia.
    + intros x [<-|H]; eauto.
Qed.

Lemma filling_unstyled_spec c n : exists l, filling_queue_unstyled (filling_from_char c) n = Ret l
  /\ out_text l = repeat c n /\ (forall x, In x l -> exists s, x = Print s).
Proof. apply (@filling_loop_spec Print c (fun s => eq_refl) n n (le_n n)). Qed.
Lemma filling_styled_spec c cs n : exists l, filling_queue_styled (filling_from_char c) cs n = Ret l
  /\ out_text l = repeat c n /\ (forall x, In x l -> exists s, x = Styled cs s).
Proof. apply (@filling_loop_spec (Styled cs) c (fun s => eq_refl) n n (le_n n)). Qed.

(** ** CropWriter *)

Lemma out_text_app a b : out_text (a ++ b) = out_text a ++ out_text b.
Proof. apply flat_map_app. Qed.

(** what a call writes: exact description *)
Lemma queue_str_spec u w cs s : 0 < allowed w -> exists pre post,
  s = pre ++ post
  /\ cw_queue_str u w cs s = Ret (mkCW (written w ++ [Styled cs (expand pre)]) (allowed w - Z.to_nat (move u pre)) (tab_replacement w))
  /\ cw_queue_unstyled_str u w s = Ret (mkCW (written w ++ [Print (expand pre)]) (allowed w - Z.to_nat (move u pre)) (tab_replacement w))
  /\ (forall a, prefix_of a pre -> (move u a <= Z.of_nat (allowed w))%Z)
  /\ (forall c r, post = c :: r -> (Z.of_nat (allowed w) < move u (pre ++ [c]))%Z).
Proof.
  intros H. destruct (make_string_spec u s (allowed w)) as (pre & post & Hs & _ & Hm & Hle & Hgt).
  exists pre, post. split; [exact Hs|].
  unfold cw_queue_str, cw_queue_unstyled_str, is_full, cropped_str.
  destruct (Nat.eqb_spec (allowed w) 0); [lia|]. rewrite Hm, !bind_ret.
  assert (Hp : prefix_of pre pre) by (exists []; now rewrite app_nil_r).
  pose proof (Hle pre Hp). rewrite csub_ret by lia. rewrite !bind_ret.
  split; [reflexivity|]. split; [reflexivity|]. split; assumption.
Qed.

Lemma queue_str_full u w cs s : allowed w = 0 -> cw_queue_str u w cs s = Ret w /\ cw_queue_unstyled_str u w s = Ret w.
Proof. intros H. unfold cw_queue_str, cw_queue_unstyled_str, is_full. rewrite H. split; reflexivity. Qed.

Lemma queue_str_fits u w cs s : 0 < allowed w -> no_backspace s -> (move u s <= Z.of_nat (allowed w))%Z ->
  cw_queue_str u w cs s = Ret (mkCW (written w ++ [Styled cs (expand s)]) (allowed w - Z.to_nat (move u s)) (tab_replacement w))
  /\ cw_queue_unstyled_str u w s = Ret (mkCW (written w ++ [Print (expand s)]) (allowed w - Z.to_nat (move u s)) (tab_replacement w)).
Proof.
  intros H NB Hm. destruct (queue_str_spec u w cs s H) as (pre & post & Hs & H1 & H2 & Hle & Hgt).
  assert (P : prefix_of s pre).
  { eapply (@fit_longest u s (allowed w) pre post Hs); [exact Hgt|exact NB|exists []; now rewrite app_nil_r|exact Hm]. }
  destruct P as (q & Hq). assert (post = []) as ->.
  { assert (L : length s = length (pre ++ post)) by now rewrite <- Hs.
    assert (L2 : length pre = length (s ++ q)) by now rewrite <- Hq. rewrite app_length in L, L2.
    destruct post; [reflexivity|simpl in L; lia]. }
  rewrite app_nil_r in Hs. subst pre. split; assumption.
Qed.

Lemma g_string_loop_spec n : forall rest pre, length pre <= n ->
  g_string_loop n pre rest (length pre) = Ret (firstn n (pre ++ rest), n - length (pre ++ rest)).
Proof.
  induction rest as [|c r IH]; intros pre H; cbn [g_string_loop].
  - rewrite csub_ret by lia. rewrite bind_ret, app_nil_r, firstn_all2 by lia. reflexivity.
  - destruct (Nat.ltb_spec n (length pre + 1)).
    + assert (n = length pre) by lia. subst n. rewrite firstn_app_exact by reflexivity.
      rewrite app_length. simpl. repeat f_equal. lia.
    + replace (length pre + 1) with (length (pre ++ [c])) by (rewrite app_length; simpl; lia).
      rewrite IH by (rewrite app_length; simpl; lia). rewrite <- app_assoc. reflexivity.
Qed.

Lemma queue_g_spec w cs s : 0 < allowed w ->
  cw_queue_g_string w cs s = Ret (mkCW (written w ++ [Styled cs (firstn (allowed w) s)]) (allowed w - length s) (tab_replacement w))
  /\ cw_queue_unstyled_g_string w s = Ret (mkCW (written w ++ [Print (firstn (allowed w) s)]) (allowed w - length s) (tab_replacement w)).
Proof.
  intros H. unfold cw_queue_g_string, cw_queue_unstyled_g_string, is_full.
  destruct (Nat.eqb_spec (allowed w) 0); [lia|].
  pose proof (@g_string_loop_spec (allowed w) s [] ltac:(simpl; lia)) as G. cbn [length app] in G. rewrite G.
  split; reflexivity.
Qed.
Lemma queue_g_full w cs s : allowed w = 0 -> cw_queue_g_string w cs s = Ret w /\ cw_queue_unstyled_g_string w s = Ret w.
Proof. intros H. unfold cw_queue_g_string, cw_queue_unstyled_g_string, is_full. rewrite H. split; reflexivity. Qed.

Lemma queue_char_spec u w cs c :
  cw_queue_char u w cs c = Ret (if chw u c <? allowed w
     then mkCW (written w ++ [Styled cs [c]]) (allowed w - chw u c) (tab_replacement w) else w).
Proof.
  unfold cw_queue_char. destruct (chw u c <? allowed w) eqn:E; [|reflexivity].
  rewrite csub_ret by lia. reflexivity.
Qed.
Lemma queue_unstyled_char_spec u w c : c <> 9%N ->
  cw_queue_unstyled_char u w c = Ret (if chw u c <? allowed w
     then mkCW (written w ++ [Print [c]]) (allowed w - chw u c) (tab_replacement w) else w).
Proof.
  intros H. unfold cw_queue_unstyled_char, c_tab. destruct (N.eqb_spec c 9); [congruence|].
  destruct (chw u c <? allowed w) eqn:E; [|reflexivity].
  rewrite csub_ret by lia. reflexivity.
Qed.

Lemma cw_repeat_spec w cs c n : exists l, cw_repeat w cs (filling_from_char c) n
    = Ret (mkCW (written w ++ l) (allowed w - n) (tab_replacement w))
  /\ out_text l = repeat c (Nat.min n (allowed w)) /\ (forall x, In x l -> exists s, x = Styled cs s).
Proof.
  unfold cw_repeat. rewrite csub_ret by lia. rewrite bind_ret.
  destruct (filling_styled_spec c cs (Nat.min n (allowed w))) as (l & Hl & Ht & Ha). rewrite Hl, bind_ret.
  exists l. split; [|split; assumption]. unfold cw_emit. do 2 f_equal. lia.
Qed.
Lemma repeat_unstyled_spec w c n : exists l, cw_repeat_unstyled w (filling_from_char c) n
    = Ret (mkCW (written w ++ l) (allowed w - n) (tab_replacement w))
  /\ out_text l = repeat c (Nat.min n (allowed w)) /\ (forall x, In x l -> exists s, x = Print s).
Proof.
  unfold cw_repeat_unstyled. rewrite csub_ret by lia. rewrite bind_ret.
  destruct (filling_unstyled_spec c (Nat.min n (allowed w))) as (l & Hl & Ht & Ha). rewrite Hl, bind_ret.
  exists l. split; [|split; assumption]. unfold cw_emit. do 2 f_equal. lia.
Qed.

(** one step: what is written stays within the allowed columns at any time *)
Definition step_ok (u : unicode) (w w' : CropWriter) (exact : bool) : Prop :=
  exists l, written w' = written w ++ l /\ tab_replacement w' = tab_replacement w
  /\ (forall p, prefix_of p (out_text l) -> (move u p <= Z.of_nat (allowed w))%Z)
  /\ (move u (out_text l) + Z.of_nat (allowed w') <= Z.of_nat (allowed w))%Z
  /\ no_tab (out_text l)
  /\ (exact = true -> (move u (out_text l) + Z.of_nat (allowed w') = Z.of_nat (allowed w))%Z).

Lemma step_refl u w b : step_ok u w w b.
Proof.
  exists []. rewrite app_nil_r. split; [reflexivity|]. split; [reflexivity|]. split; [|split; [|split]].
  - intros p (q & H). cbn in H. symmetry in H. apply app_eq_nil in H. destruct H; subst. simpl. lia.
  - simpl. lia.
  - intros [].
  - simpl. lia.
Qed.

Lemma prefix_expand s p : prefix_of p (expand s) ->
  exists a, prefix_of a s /\ (p = expand a \/ (p = expand a ++ [32%N] /\ prefix_of (a ++ [9%N]) s)).
Proof.
  revert p. induction s as [|c s IH]; intros p (q & H); cbn [expand] in H.
  - symmetry in H. apply app_eq_nil in H. destruct H; subst. exists []. split; [exists []; reflexivity|]. left. reflexivity.
  - destruct p as [|x p].
    { exists []. split; [exists (c :: s); reflexivity|]. left. reflexivity. }
    destruct (N.eqb_spec c 9) as [->|E].
    + cbn [app] in H. inversion H; subst x. destruct p as [|y p].
      { exists []. split; [exists (9%N :: s); reflexivity|]. right. split; [reflexivity|]. exists s. reflexivity. }
      cbn [app] in H2. inversion H2; subst y.
      destruct (IH p (ex_intro _ q H3)) as (a & (b & Ha) & Hp). exists (9%N :: a). split; [exists b; now rewrite Ha|].
      cbn [expand N.eqb Pos.eqb]. destruct Hp as [->|[-> (d & Hd)]]; [left; reflexivity|right].
      split; [reflexivity|]. exists d. now rewrite Hd.
    + cbn [app] in H. inversion H; subst x.
      destruct (IH p (ex_intro _ q H2)) as (a & (b & Ha) & Hp). exists (c :: a). split; [exists b; now rewrite Ha|].
      cbn [expand]. destruct (N.eqb_spec c 9); [congruence|].
      destruct Hp as [->|[-> (d & Hd)]]; [left; reflexivity|right].
      split; [reflexivity|]. exists d. now rewrite Hd.
Qed.

Lemma str_step u w cs s (exact : bool) : chw u 32%N = 1 -> (exact = true -> no_backspace s) ->
  (exists w', cw_queue_str u w cs s = Ret w' /\ step_ok u w w' exact)
  /\ (exists w', cw_queue_unstyled_str u w s = Ret w' /\ step_ok u w w' exact).
Proof.
  intros H1 NB. destruct (Nat.eq_dec (allowed w) 0) as [E|E].
  { destruct (queue_str_full u w cs s E) as [-> ->]. split; exists w; (split; [reflexivity|apply step_refl]). }
  destruct (@queue_str_spec u w cs s ltac:(lia)) as (pre & post & Hs & -> & -> & Hle & Hgt).
  assert (Hp : prefix_of pre pre) by (exists []; now rewrite app_nil_r).
  pose proof (Hle pre Hp) as Hpre.
  assert (K : forall x, cmd_text x = expand pre ->
     step_ok u w (mkCW (written w ++ [x]) (allowed w - Z.to_nat (move u pre)) (tab_replacement w)) exact).
  { intros x Hx. exists [x]. cbn [written tab_replacement allowed].
    assert (T : out_text [x] = expand pre) by (unfold out_text; cbn [flat_map]; now rewrite app_nil_r).
    rewrite T, (move_expand u pre H1).
    split; [reflexivity|]. split; [reflexivity|]. split; [|split; [|split]].
    - intros p P. apply prefix_expand in P. destruct P as (a & Ha & [->|[-> Ht]]).
      + rewrite (move_expand u a H1). apply Hle, Ha.
      + apply Hle in Ht. rewrite move_app in *. rewrite (move_expand u a H1).
        cbn [move] in *. unfold char_move in *. cbn [N.eqb Pos.eqb] in *. lia.
    - lia.
    - apply expand_no_tab.
    - intros He. apply NB in He. rewrite Hs in He. apply no_backspace_app in He. destruct He as [He _].
      pose proof (move_nonneg u He). lia. }
  split; eexists; (split; [reflexivity|apply K; reflexivity]).
Qed.

Lemma gentle_move u s : (forall c, In c s -> gentle_char u c) -> move u s = Z.of_nat (length s) /\ no_tab s.
Proof.
  unfold no_tab. induction s as [|c s IH]; intros H; [split; [reflexivity|intros []]|].
  destruct IH as [IH1 IH2]; [intros; apply H; now right|].
  destruct (H c (or_introl eq_refl)) as (Hw & H8 & H9). split.
  - cbn [move length]. rewrite IH1. unfold char_move.
    destruct (N.eqb_spec c 8); [congruence|]. destruct (N.eqb_spec c 9); [congruence|]. lia.
  - intros [X|X]; [congruence|tauto].
Qed.

Lemma gentle_step u w l t a (exact : bool) : out_text l = t -> (forall c, In c t -> gentle_char u c) ->
  length t + a = allowed w ->
  step_ok u w (mkCW (written w ++ l) a (tab_replacement w)) exact.
Proof.
  intros Ho Hg HL. exists l. cbn [written tab_replacement allowed]. rewrite Ho.
  destruct (@gentle_move u t Hg) as [Hm Ht].
  split; [reflexivity|]. split; [reflexivity|]. split; [|split; [|split]].
  - intros p (q & Hq). destruct (@gentle_move u p) as [Hmp _].
    { intros c Hc. apply Hg. rewrite Hq. apply in_or_app. now left. }
    rewrite Hmp. rewrite Hq, app_length in HL. lia.
  - lia.
  - exact Ht.
  - lia.
Qed.

Lemma char_step u w c x (exact : bool) : c <> 9%N -> (exact = true -> c <> 8%N) -> cmd_text x = [c] -> chw u c < allowed w ->
  step_ok u w (mkCW (written w ++ [x]) (allowed w - chw u c) (tab_replacement w)) exact.
Proof.
  intros H9 H8 Hx Hw. exists [x]. cbn [written tab_replacement allowed].
  assert (T : out_text [x] = [c]) by (unfold out_text; cbn [flat_map]; now rewrite app_nil_r).
  rewrite T. 
  assert (M : (move u [c] <= Z.of_nat (chw u c))%Z /\ (exact = true -> move u [c] = Z.of_nat (chw u c))).
  { cbn [move]. unfold char_move. destruct (N.eqb_spec c 8).
    - split; [lia|]. intros E. exfalso. exact (H8 E e).
    - destruct (N.eqb_spec c 9); [congruence|]. lia. }
  split; [reflexivity|]. split; [reflexivity|]. split; [|split; [|split]].
  - intros p (q & Hq). destruct p as [|y p]; [simpl; lia|]. inversion Hq; subst.
    symmetry in H1. apply app_eq_nil in H1. destruct H1; subst. lia.
  - lia.
  - intros [X|[]]. congruence.
  - intros E. apply M in E. lia.
Qed.

Lemma in_firstn' {A} n (l : list A) x : In x (firstn n l) -> In x l.
Proof. intros H. rewrite <- (firstn_skipn n l). apply in_or_app. now left. Qed.

Lemma cw_apply_spec u w o (exact : bool) : chw u 32%N = 1 -> op_gentle u o ->
  (exact = true -> op_no_backspace o /\ no_backspace (tab_replacement w)) ->
  exists w', cw_apply u w o = Ret w' /\ step_ok u w w' exact.
Proof.
  intros H1 HG NB.
  assert (SP : gentle_char u 32%N) by (split; [exact H1|split; discriminate]).
  assert (REP : forall cs c n, gentle_char u c ->
     (exists w', cw_repeat w cs (filling_from_char c) n = Ret w' /\ step_ok u w w' exact)
     /\ (exists w', cw_repeat_unstyled w (filling_from_char c) n = Ret w' /\ step_ok u w w' exact)).
  { intros cs c n Hc.
    destruct (cw_repeat_spec w cs c n) as (l & -> & Ht & _). destruct (repeat_unstyled_spec w c n) as (l' & -> & Ht' & _).
    assert (forall y, In y (repeat c (Nat.min n (allowed w))) -> gentle_char u y)
      by (intros y Hy; apply repeat_spec in Hy; now subst).
    split; eexists; (split; [reflexivity|eapply gentle_step; [eassumption|eassumption|rewrite repeat_length; lia]]). }
  assert (G : forall cs s, (forall c, In c s -> gentle_char u c) ->
     (exists w', cw_queue_g_string w cs s = Ret w' /\ step_ok u w w' exact)
     /\ (exists w', cw_queue_unstyled_g_string w s = Ret w' /\ step_ok u w w' exact)).
  { intros cs s Hc. destruct (Nat.eq_dec (allowed w) 0) as [E|E].
    { destruct (queue_g_full w cs s E) as [-> ->]. split; exists w; (split; [reflexivity|apply step_refl]). }
    destruct (@queue_g_spec w cs s ltac:(lia)) as [-> ->].
    assert (forall y, In y (firstn (allowed w) s) -> gentle_char u y) by (intros y Hy; apply in_firstn' in Hy; auto).
    split; eexists; (split; [reflexivity|eapply gentle_step;
      [unfold out_text; cbn [flat_map cmd_text]; apply app_nil_r|assumption|rewrite firstn_length; lia]]). }
  destruct o; cbn [cw_apply op_gentle op_no_backspace] in *.
  - destruct (@str_step u w cs_default s exact H1) as [_ A]; [tauto|exact A].
  - destruct (@str_step u w cs s exact H1) as [A _]; [tauto|exact A].
  - rewrite queue_char_spec. eexists. split; [reflexivity|].
    destruct (chw u c <? allowed w) eqn:E; [|apply step_refl]. apply char_step; [assumption|tauto|reflexivity|lia].
  - destruct (N.eq_dec c 9) as [->|E9].
    + unfold cw_queue_unstyled_char, c_tab. cbn [N.eqb Pos.eqb].
      destruct (@str_step u w cs_default (tab_replacement w) exact H1) as [_ A]; [tauto|exact A].
    + rewrite queue_unstyled_char_spec by assumption. eexists. split; [reflexivity|].
      destruct (chw u c <? allowed w) eqn:E; [|apply step_refl]. apply char_step; [assumption|tauto|reflexivity|lia].
  - exact (proj2 (G cs_default _ HG)).
  - exact (proj1 (G cs _ HG)).
  - eexists. split; [reflexivity|]. unfold cs_queue_fg. 
    destruct (fg cs); (eapply gentle_step; [reflexivity|intros ? []|simpl; lia]).
  - eexists. split; [reflexivity|]. unfold cs_queue_bg. 
    destruct (bg cs); (eapply gentle_step; [reflexivity|intros ? []|simpl; lia]).
  - exact (proj1 (REP cs c _ HG)).
  - exact (proj2 (REP cs_default c _ HG)).
  - exact (proj1 (REP cs _ _ SP)).
  - exact (proj1 (REP cs c _ HG)).
  - exact (proj2 (REP cs_default c _ HG)).
Qed.

Lemma cw_run_spec u (exact : bool) : chw u 32%N = 1 -> forall ops w,
  (forall o, In o ops -> op_gentle u o) ->
  (exact = true -> (forall o, In o ops -> op_no_backspace o) /\ no_backspace (tab_replacement w)) ->
  exists w', cw_run u w ops = Ret w' /\ step_ok u w w' exact.
Proof.
  intros H1. induction ops as [|o ops IH]; intros w HG NB; cbn [cw_run].
  { exists w. split; [reflexivity|apply step_refl]. }
  destruct (@cw_apply_spec u w o exact H1) as (w1 & -> & l1 & L1 & T1 & P1 & M1 & N1 & E1).
  { apply HG. now left. }
  { intros E. destruct (NB E) as [A B]. split; [apply A; now left|exact B]. }
  rewrite bind_ret.
  destruct (IH w1) as (w2 & -> & l2 & L2 & T2 & P2 & M2 & N2 & E2).
  { intros; apply HG; now right. }
  { intros E. destruct (NB E) as [A B]. split; [intros; apply A; now right|now rewrite T1]. }
  exists w2. split; [reflexivity|]. exists (l1 ++ l2). rewrite out_text_app, move_app.
  split; [rewrite L2, L1; now rewrite app_assoc|]. split; [congruence|]. split; [|split; [|split]].
  - intros p (q & Hq). symmetry in Hq. apply app_compare in Hq as Hq'. destruct Hq' as [(e & He)|(x & e & He)].
    + apply P1. now exists e.
    + subst p. rewrite move_app. rewrite <- app_assoc in Hq. apply app_inv_head in Hq.
      assert (prefix_of (x :: e) (out_text l2)) as P by (exists q; symmetry; exact Hq).
      apply P2 in P. lia.
  - lia.
  - apply no_tab_app. split; assumption.
  - intros E. specialize (E1 E). specialize (E2 E). lia.
Qed.

(** ** Spacing *)

Lemma completions_spec align i o lp rp : completions align i o = (lp, rp) ->
  lp + rp = o - i
  /\ (align = ALeft \/ align = Unspecified -> lp = 0)
  /\ (align = ARight -> rp = 0)
  /\ (align = Center -> lp <= rp <= lp + 1).
Proof.
  unfold completions. destruct (Nat.leb_spec o i) as [H|H].
  - intros E. inversion E; subst. lia.
  - pose proof (Nat.div_mod (o - i) 2 ltac:(lia)) as D. pose proof (Nat.mod_upper_bound (o - i) 2 ltac:(lia)) as M.
    set (d := (o - i) / 2) in *. clearbody d.
    destruct align; intros E; injection E as <- <-; (split; [|split; [|split]]); intros;
      try discriminate; try lia; try (destruct H0; discriminate).
Qed.

Lemma truncate_spec s n : truncate s n = firstn n s.
Proof.
  unfold truncate. destruct (nth_error s n) eqn:E; [reflexivity|].
  apply nth_error_None in E. symmetry. now apply firstn_all2.
Qed.

Lemma write_counted_str_spec sp s w style : exists t, write_counted_str sp s w style = [Styled style t]
  /\ (sp_width sp <= w -> t = firstn (sp_width sp) s)
  /\ (w < sp_width sp -> exists lp rp, completions_for sp w = (lp, rp)
        /\ t = repeat 32%N lp ++ s ++ repeat 32%N rp).
Proof.
  unfold write_counted_str. destruct (Nat.leb_spec (sp_width sp) w) as [H|H].
  - eexists. split; [reflexivity|]. rewrite truncate_spec. split; [reflexivity|lia].
  - destruct (completions_for sp w) as [lp rp] eqn:E. eexists. split; [reflexivity|]. split; [lia|].
    intros _. exists lp, rp. split; reflexivity.
Qed.

Lemma write_str_length sp s style : exists t, write_str sp s style = [Styled style t] /\ length t = sp_width sp.
Proof.
  unfold write_str. destruct (write_counted_str_spec sp s (length s) style) as (t & -> & H1 & H2).
  exists t. split; [reflexivity|]. destruct (Nat.le_gt_cases (sp_width sp) (length s)) as [L|L].
  - rewrite H1 by assumption. rewrite firstn_length. lia.
  - destruct (H2 L) as (lp & rp & C & ->). apply completions_spec in C.
    rewrite !app_length, !repeat_length. lia.
Qed.

Lemma repeat_move u n : chw u 32%N = 1 -> move u (repeat 32%N n) = Z.of_nat n.
Proof.
  intros H. destruct (@gentle_move u (repeat 32%N n)) as [M _].
  - intros c Hc. apply repeat_spec in Hc. subst. split; [exact H|split; discriminate].
  - now rewrite repeat_length in M.
Qed.
