(** * Lemmas on the fitter *)
From Coq Require Import Sorted.
From Verif Require Import Base L_Base M_Style M_Fit L_Fit M_Wrap S_Wrap L_Wrap M_Fitter S_Fitter.
Set Implicit Arguments.
Local Ltac Zify.zify_post_hook ::= Z.div_mod_to_equations.

(** ** char infos *)
Lemma infos_length u s : forall i, length (char_infos u i s) = length s.
Proof. induction s; intros i; cbn; [reflexivity|]. rewrite IHs. reflexivity. Qed.
Lemma sinfos_length u s : length (str_char_infos u s) = length s.
Proof. apply infos_length. Qed.
Lemma infos_app u a b : forall i, char_infos u i (a ++ b) = char_infos u i a ++ char_infos u (i + blen a) b.
Proof.
  induction a as [|c a IH]; intros i; cbn [app char_infos]; [rewrite Nat.add_0_r; reflexivity|].
  rewrite IH. change (blen (c :: a)) with (len_utf8 c + blen a). rewrite Nat.add_assoc. reflexivity.
Qed.
Lemma infos_nth u i a c b : nth_error (char_infos u i (a ++ c :: b)) (length a) = Some (i + blen a, chw u c).
Proof. rewrite infos_app. replace (length a) with (length (char_infos u i a)) at 1 by apply infos_length. apply nth_error_mid. Qed.
Lemma infos_idx u i a b : b <> [] -> exists w, idx (char_infos u i (a ++ b)) (length a) = Ret (i + blen a, w).
Proof. intros H. destruct b as [|c b]; [congruence|]. exists (chw u c). apply idx_ret. apply infos_nth. Qed.

(** ** elision *)
Lemma elided_refl s : elided s s.
Proof. induction s; constructor; auto. Qed.
Lemma elided_app a b a' b' : elided a a' -> elided b b' -> elided (a ++ b) (a' ++ b').
Proof. induction 1; intros H'; cbn [app]; [assumption|constructor; auto|]. rewrite <- app_assoc. constructor; auto. Qed.
Lemma elided_inv_app d1 : forall s d2, elided s (d1 ++ d2) -> exists s1 s2, s = s1 ++ s2 /\ elided s1 d1 /\ elided s2 d2.
Proof.
  induction d1 as [|c d1 IH]; intros s d2 H; cbn [app] in H.
  - exists [], s. split; [reflexivity|]. split; [constructor|exact H].
  - inversion H as [|? ? ? H'|gap s' ? H']; subst; destruct (IH _ _ H') as (s1 & s2 & -> & E1 & E2).
    + exists (c :: s1), s2. split; [reflexivity|]. split; [constructor|]; assumption.
    + exists (gap ++ s1), s2. split; [apply app_assoc|]. split; [constructor|]; assumption.
Qed.
Lemma elided_trans a b c : elided a b -> elided b c -> elided a c.
Proof.
  intros H1 H2. revert a H1. induction H2 as [|x s d _ IH|gap s d _ IH]; intros a H1.
  - exact H1.
  - inversion H1 as [|? ? ? H'|g s' ? H']; subst; constructor; auto.
  - apply elided_inv_app in H1 as (s1 & s2 & -> & _ & H'). constructor. auto.
Qed.
Lemma columns_app u a b : columns u (a ++ b) = columns u a + columns u b.
Proof. unfold columns. rewrite map_app, sumw_app. reflexivity. Qed.
Lemma columns_styled u cs : columns u (styled cs) = sumw (chw u) (text_of cs).
Proof. unfold columns. rewrite text_styled. reflexivity. Qed.
Definition sty (c : Compound) (s : str) : list (char * (bool * bool * bool * bool)) := map (fun ch => (ch, flags c)) s.
Lemma styled_cons c cs : styled (c :: cs) = sty c (src c) ++ styled cs.
Proof. reflexivity. Qed.
Lemma columns_sty u c s : columns u (sty c s) = sumw (chw u) s.
Proof. unfold columns, sty. rewrite map_map. cbn. rewrite map_id. reflexivity. Qed.
Lemma styled_set_str c s : styled [set_str c s] = sty c s.
Proof. unfold styled. cbn. rewrite app_nil_r. reflexivity. Qed.

(** ** cutting *)
Definition zone_at (u : unicode) (cs1 : list Compound) (c : Compound) (pre zs post : str) (z : Zone) : Prop :=
  compound_idx z = length cs1 /\ src c = pre ++ zs ++ post /\ byte_start_idx z = blen pre /\ z_infos z = str_char_infos u zs.

Lemma cut_loop_spec u c pre zs post z tr : additive u -> zone_at u [] c pre zs post (mkZone 0 (byte_start_idx z) (z_infos z) (removable_width z)) ->
  1 <= tr -> forall fuel h m t, zs = h ++ m ++ t -> length zs < fuel + length m -> 1 <= length h -> 1 <= length t -> sumw (chw u) m < tr ->
  (length m mod 2 = 0 -> length t = length h \/ length t = S (length h)) ->
  (length m mod 2 = 1 -> length h = length t \/ length h = S (length t)) ->
  exists h' m' t', cut_loop u (src c) z tr fuel (length h) (length h + length m) (sumw (chw u) m) = Ret (length h', length h' + length m', sumw (chw u) m')
    /\ zs = h' ++ m' ++ t' /\ h' <> [] /\ t' <> []
    /\ (length m' mod 2 = 0 -> length t' = length h' \/ length t' = S (length h'))
    /\ (length m' mod 2 = 1 -> length h' = length t' \/ length h' = S (length t'))
    /\ (tr <= sumw (chw u) m' /\ (exists x m0, (m' = x :: m0 \/ m' = m0 ++ [x]) /\ sumw (chw u) m0 < tr)
        \/ sumw (chw u) m' < tr /\ length h' = 1 /\ length t' = 1).
Proof.
  intros Hu (_ & Es & Eb & Ei) H1. cbn [byte_start_idx z_infos] in Eb, Ei.
  induction fuel as [|fuel IH]; intros h m t Ez Hf Hh Ht Hm Hev Hod.
  { assert (length zs = length h + length m + length t) by (rewrite Ez, !app_length; lia). lia. }
  cbn [cut_loop]. rewrite csub_ret, bind_ret by lia. replace (length h + length m - length h) with (length m) by lia.
  assert (Hlen : length (z_infos z) = length zs) by (rewrite Ei; apply infos_length). rewrite Hlen.
  assert (Hz : length zs = length h + length m + length t) by (rewrite Ez, !app_length; lia).
  destruct (Nat.eqb_spec (length m mod 2) 0) as [E|E].
  - destruct (Nat.leb_spec (length zs) (length h + length m + 1)) as [L|L].
    + exists h, m, t. split; [reflexivity|]. split; [exact Ez|]. split; [destruct h; [cbn in Hh; lia|discriminate]|]. split; [destruct t; [cbn in Ht; lia|discriminate]|].
      split; [exact Hev|]. split; [exact Hod|]. right. split; [exact Hm|]. specialize (Hev E). lia.
    + rewrite bind_ret. destruct t as [|x t]; [cbn in *; lia|].
      destruct (@infos_idx u 0 h (m ++ x :: t)) as (w1 & E1); [destruct m; discriminate|].
      destruct (@infos_idx u 0 (h ++ m ++ [x]) t) as (w2 & E2). { intros ->. cbn in *. lia. }
      rewrite Ei. unfold str_char_infos. replace (length h + length m + 1) with (length (h ++ m ++ [x])) by (rewrite !app_length; cbn; lia).
      rewrite <- Ez in E1. replace ((h ++ m ++ [x]) ++ t) with zs in E2 by (rewrite Ez, <- !app_assoc; reflexivity).
      rewrite E1, bind_ret, E2, bind_ret. cbn [fst]. rewrite Eb.
      replace (byte_slice (src c) _ _) with (Ret (m ++ [x]) : outcome str).
      2:{ rewrite Es, Ez. replace (pre ++ (h ++ m ++ x :: t) ++ post) with ((pre ++ h) ++ (m ++ [x]) ++ (t ++ post)) by (rewrite <- !app_assoc; reflexivity).
          rewrite !blen_app. cbn [Nat.add]. symmetry. replace (blen pre + (blen h + (blen m + blen [x]))) with (blen (pre ++ h) + blen (m ++ [x])) by (rewrite !blen_app; lia).
          rewrite <- blen_app. apply byte_slice_mid. }
      rewrite bind_ret. rewrite (Hu (m ++ [x])).
      replace (length (h ++ m ++ [x])) with (length h + length (m ++ [x])) by (rewrite !app_length; reflexivity).
      destruct (Nat.leb_spec tr (sumw (chw u) (m ++ [x]))) as [L'|L'].
      * exists h, (m ++ [x]), t. split; [reflexivity|]. split; [rewrite Ez, <- !app_assoc; reflexivity|]. split; [destruct h; [cbn in Hh; lia|discriminate]|]. split; [intros ->; cbn in *; lia|].
        split; [rewrite app_length; cbn [length]; lia|]. split; [rewrite app_length; cbn [length] in *; specialize (Hev E); lia|].
        left. split; [exact L'|]. exists x, m. auto.
      * destruct (IH h (m ++ [x]) t) as (h' & m' & t' & E' & R); [rewrite Ez, <- !app_assoc; reflexivity|rewrite app_length; cbn; lia|lia| |exact L'|..].
        { cbn [length] in *. lia. }
        { rewrite app_length. cbn [length]. intros Em. exfalso. lia. }
        { cbn [length] in *. intros _. specialize (Hev E). lia. }
        exists h', m', t'. split; [exact E'|exact R].
  - assert (E1 : length m mod 2 = 1) by lia. specialize (Hod E1). destruct (Nat.leb_spec (length h) 1) as [L|L].
    + exists h, m, t. split; [reflexivity|]. split; [exact Ez|]. split; [destruct h; [cbn in Hh; lia|discriminate]|]. split; [destruct t; [cbn in Ht; lia|discriminate]|].
      split; [exact Hev|]. split; [auto|]. right. split; [exact Hm|]. lia.
    + rewrite csub_ret, bind_ret by lia. destruct (exists_last (l := h)) as (h0 & x & ->); [intros ->; cbn in *; lia|]. rewrite app_length in *. cbn [length] in *.
      replace (length h0 + 1 - 1) with (length h0) by lia.
      destruct (@infos_idx u 0 h0 (x :: m ++ t)) as (w1 & Ea); [discriminate|].
      destruct (@infos_idx u 0 (h0 ++ x :: m) t) as (w2 & Eb'). { intros ->. cbn in *. lia. }
      rewrite Ei. unfold str_char_infos. replace (length h0 + 1 + length m) with (length (h0 ++ x :: m)) by (rewrite !app_length; cbn; lia).
      replace (h0 ++ x :: m ++ t) with zs in Ea by (rewrite Ez, <- !app_assoc; reflexivity). replace ((h0 ++ x :: m) ++ t) with zs in Eb' by (rewrite Ez, <- !app_assoc; reflexivity).
      rewrite Ea, bind_ret, Eb', bind_ret. cbn [fst]. rewrite Eb.
      replace (byte_slice (src c) _ _) with (Ret (x :: m) : outcome str).
      2:{ rewrite Es, Ez. replace (pre ++ ((h0 ++ [x]) ++ m ++ t) ++ post) with ((pre ++ h0) ++ (x :: m) ++ (t ++ post)) by (rewrite <- !app_assoc; reflexivity).
          rewrite !blen_app. cbn [Nat.add]. symmetry. replace (blen pre + (blen h0 + blen (x :: m))) with (blen (pre ++ h0) + blen (x :: m)) by (rewrite !blen_app; lia).
          rewrite <- blen_app. apply byte_slice_mid. }
      rewrite bind_ret. rewrite (Hu (x :: m)).
      replace (length (h0 ++ x :: m)) with (length h0 + length (x :: m)) by (rewrite !app_length; reflexivity).
      destruct (Nat.leb_spec tr (sumw (chw u) (x :: m))) as [L'|L'].
      * exists h0, (x :: m), t. split; [reflexivity|]. split; [rewrite Ez, <- !app_assoc; reflexivity|]. split; [intros ->; cbn in *; lia|]. split; [intros ->; cbn in *; lia|].
        split; [cbn [length]; lia|]. split; [cbn [length] in *; lia|].
        left. split; [exact L'|]. exists x, m. auto.
      * destruct (IH h0 (x :: m) t) as (h' & m' & t' & E' & R); [rewrite Ez, <- !app_assoc; reflexivity|cbn; lia|lia|lia|exact L'|..].
        { intros _. lia. }
        { cbn [length]. intros Em. exfalso. lia. }
        exists h', m', t'. split; [exact E'|exact R].
Qed.

Lemma cut_spec u cs1 c cs2 pre zs post z tr : additive u -> zone_at u cs1 c pre zs post z -> 2 <= length zs -> 2 <= removable_width z -> 1 <= tr ->
  exists h m t, zs = h ++ m ++ t /\ h <> [] /\ t <> []
  /\ (length m mod 2 = 0 -> length t = length h \/ length t = S (length h))
  /\ (length m mod 2 = 1 -> length h = length t \/ length h = S (length t))
  /\ (tr <= sumw (chw u) m /\ (exists x m0, (m = x :: m0 \/ m = m0 ++ [x]) /\ sumw (chw u) m0 < tr)
        \/ sumw (chw u) m < tr /\ length h = 1 /\ length t = 1)
  /\ cut u z (cs1 ++ c :: cs2) tr =
     if sumw (chw u) m =? 0 then Panic
     else Ret (cs1 ++ [set_str c (pre ++ h); raw_str ELLIPSIS; set_str c (t ++ post)] ++ cs2, sumw (chw u) m - 1).
Proof.
  intros Hu Hz H2 Hr Htr. unfold cut. destruct (Nat.ltb_spec (removable_width z) 2); [lia|].
  destruct Hz as (Ec & Es & Eb & Ei). rewrite Ec, idx_app_mid, bind_ret.
  assert (Hlen : length (z_infos z) = length zs) by (rewrite Ei; apply infos_length). rewrite Hlen.
  destruct (@split_at _ zs (length zs / 2)) as (h0 & t0 & E0 & L0); [lia|].
  assert (Hlt : length zs = length h0 + length t0) by (rewrite E0, app_length; reflexivity).
  destruct (@cut_loop_spec u c pre zs post z tr Hu) with (fuel := S (length zs)) (h := h0) (m := @nil char) (t := t0) as (h & m & t & E & Ez & Hh & Ht & Hv & Hw & Hd).
  - repeat split; assumption.
  - exact Htr.
  - exact E0.
  - cbn; lia.
  - lia.
  - lia.
  - cbn. lia.
  - intros _. lia.
  - cbn. intros X. discriminate.
  - cbn [length] in E. rewrite Nat.add_0_r in E. change (sumw (chw u) []) with 0 in E. rewrite <- L0. rewrite E, bind_ret.
    exists h, m, t. split; [exact Ez|]. split; [exact Hh|]. split; [exact Ht|]. split; [exact Hv|]. split; [exact Hw|]. split; [exact Hd|].
    destruct (@infos_idx u 0 h (m ++ t)) as (w1 & E1). { destruct m; [exact Ht|discriminate]. }
    destruct (@infos_idx u 0 (h ++ m) t Ht) as (w2 & E2). rewrite Ei. unfold str_char_infos. replace (length h + length m) with (length (h ++ m)) by apply app_length.
    rewrite <- app_assoc, <- Ez in E2. rewrite <- Ez in E1. rewrite E1, bind_ret, E2, bind_ret. cbn [fst Nat.add]. rewrite Eb, Es, Ez.
    replace (byte_slice _ 0 _) with (Ret (pre ++ h) : outcome str).
    2:{ symmetry. rewrite <- blen_app. replace (pre ++ (h ++ m ++ t) ++ post) with ([] ++ (pre ++ h) ++ (m ++ t ++ post)) by (cbn; rewrite <- !app_assoc; reflexivity). apply byte_slice_mid. }
    rewrite bind_ret. replace (byte_suffix _ _) with (Ret (t ++ post) : outcome str).
    2:{ symmetry. rewrite <- blen_app. replace (pre ++ (h ++ m ++ t) ++ post) with ((pre ++ h ++ m) ++ (t ++ post)) by (rewrite <- !app_assoc; reflexivity). apply byte_suffix_app. }
    rewrite bind_ret. rewrite set_nth_mid.
    replace (cs1 ++ set_str c (pre ++ h) :: cs2) with ((cs1 ++ [set_str c (pre ++ h)]) ++ cs2) by (rewrite <- app_assoc; reflexivity).
    rewrite vec_insert_mid, bind_ret by (rewrite app_length; cbn; lia).
    replace ((cs1 ++ [set_str c (pre ++ h)]) ++ raw_str ELLIPSIS :: cs2) with ((cs1 ++ [set_str c (pre ++ h); raw_str ELLIPSIS]) ++ cs2) by (rewrite <- !app_assoc; reflexivity).
    rewrite vec_insert_mid, bind_ret by (rewrite app_length; cbn; lia).
    destruct (Nat.eqb_spec (sumw (chw u) m) 0) as [E0'|E0'].
    { unfold csub. rewrite E0'. reflexivity. }
    rewrite csub_ret, bind_ret by lia. do 2 f_equal. rewrite <- app_assoc. reflexivity.
Qed.

(** ** tokens *)
Lemma run_unique u r : forall r' b b', r ++ b = r' ++ b' ->
  Forall (fun c => is_white u c = false) r -> Forall (fun c => is_white u c = false) r' ->
  match b with [] => True | c :: _ => is_white u c = true end -> match b' with [] => True | c :: _ => is_white u c = true end ->
  r = r' /\ b = b'.
Proof.
  induction r as [|x r IH]; intros r' b b' E H1 H2 H3 H4.
  - destruct r' as [|y r']; [auto|]. cbn in E. subst b. inversion H2; subst. congruence.
  - inversion H1; subst. destruct r' as [|y r'].
    + cbn in E. subst b'. congruence.
    + cbn in E. injection E as <- E. inversion H2; subst. destruct (IH _ _ _ E) as (<- & <-); auto.
Qed.
Lemma app_inv_prefix {A} (p : list A) : forall q x y, p ++ x = q ++ y -> length p <= length q -> exists d, q = p ++ d.
Proof.
  induction p as [|c p IH]; intros q x y E L; [exists q; reflexivity|].
  destruct q as [|c' q]; [cbn in L; lia|]. cbn in E, L. injection E as <- E. destruct (IH _ _ _ E) as (d & ->); [lia|]. exists d. reflexivity.
Qed.
Lemma token_after u s p r rest a' r' b' : s = p ++ r ++ rest -> Forall (fun c => is_white u c = false) r -> is_token u s a' r' b' -> length p <= length a' ->
  a' = p \/ length (p ++ r) < length a'.
Proof.
  intros Es Hr (Es' & Hn & Hr' & Ha & Hb) L. destruct (Nat.ltb_spec (length (p ++ r)) (length a')) as [L'|L']; [right; exact L'|left].
  rewrite Es in Es'. destruct (app_inv_prefix _ _ _ _ Es' L) as (d & ->). rewrite <- app_assoc in Es'. apply app_inv_head in Es'.
  destruct d as [|x d]; [apply app_nil_r|exfalso]. destruct (exists_last (l := x :: d)) as (d0 & w & E); [discriminate|]. rewrite E in *. clear x d E.
  rewrite app_assoc, rev_app_distr in Ha. cbn in Ha. rewrite !app_length in L'. cbn in L'.
  assert (D : exists d', r = (d0 ++ [w]) ++ d').
  { apply (@app_inv_prefix _ (d0 ++ [w]) r (r' ++ b') rest); [symmetry; exact Es'|]. rewrite app_length. cbn. lia. }
  destruct D as (d' & ->). rewrite Forall_app, Forall_app in Hr. destruct Hr as ((_ & Hw) & _). inversion Hw; subst. congruence.
Qed.

Definition big_zone (u : unicode) (min ci : nat) (s : str) (from : nat) (z : Zone) : Prop :=
  exists a r b, is_token u s a r b /\ from <= length a /\ min + 2 <= blen r /\ min <= strw u r
    /\ z = mkZone ci (blen a) (str_char_infos u r) (strw u r).
Definition before (z z' : Zone) : Prop :=
  compound_idx z < compound_idx z' \/ compound_idx z = compound_idx z' /\ byte_start_idx z < byte_start_idx z'.

Lemma token_zone_spec u min ci p r b : token_zone u min ci (p ++ r ++ b) (blen p) (blen p + blen r) =
  Ret (if (min + 2 <=? blen r) && (min <=? strw u r) then [mkZone ci (blen p) (str_char_infos u r) (strw u r)] else []).
Proof.
  unfold token_zone. rewrite csub_ret, bind_ret by lia. replace (blen p + blen r - blen p) with (blen r) by lia.
  destruct (min + 2 <=? blen r); [|reflexivity]. rewrite byte_slice_mid, bind_ret. cbn [andb]. destruct (min <=? strw u r); reflexivity.
Qed.
Lemma blen_lt (p q x y : str) : p ++ x = q ++ y -> length p < length q -> blen p < blen q.
Proof.
  intros E L. destruct (app_inv_prefix _ _ _ _ E) as (d & ->); [lia|]. rewrite app_length in L. rewrite blen_app.
  destruct d as [|c d]; [cbn in L; lia|]. pose proof (len_utf8_pos c). change (blen (c :: d)) with (len_utf8 c + blen d). lia.
Qed.

Lemma token_loop_spec u min ci s rest : forall p r start,
  s = p ++ r ++ rest -> match rev p with [] => True | c :: _ => is_white u c = true end ->
  Forall (fun c => is_white u c = false) r -> (r = [] /\ start = None \/ r <> [] /\ start = Some (blen p)) ->
  exists zs, token_loop u min ci s rest (blen (p ++ r)) start = Ret zs
    /\ (forall z, In z zs <-> big_zone u min ci s (length p) z) /\ StronglySorted before zs.
Proof.
  induction rest as [|ch rest IH]; intros p r start Es Hp Hr Hs; cbn [token_loop].
  - destruct Hs as [(-> & ->)|(Hr0 & ->)].
    + exists []. split; [reflexivity|]. split; [|constructor]. intros z. split; [intros []|]. intros (a & r' & b & (E & Hn & _) & L & _).
      exfalso. rewrite Es in E. rewrite !app_nil_r in E. apply (f_equal (@length _)) in E. rewrite !app_length in E. destruct r'; [congruence|cbn in E; lia].
    + rewrite Es, blen_app, token_zone_spec.
      eexists. split; [reflexivity|]. split.
      * intros z. split.
        { destruct (Nat.leb_spec (min + 2) (blen r)), (Nat.leb_spec min (strw u r)); cbn [andb In]; try tauto. intros [<-|[]].
          exists p, r, []. repeat split; auto. }
        { intros (a & r' & b & Ht & L & H1 & H2 & ->). destruct (@token_after u _ p r [] a r' b eq_refl Hr Ht L) as [->|L'].
          - destruct Ht as (E & _ & Hr' & _ & Hb). apply app_inv_head in E. destruct (@run_unique u r r' [] b) as (<- & <-); auto.
            apply Nat.leb_le in H1, H2. rewrite H1, H2. cbn. auto.
          - exfalso. destruct Ht as (E & Hn & _). rewrite app_nil_r in E. apply (f_equal (@length _)) in E. rewrite !app_length in E. rewrite app_length in L'. lia. }
      * destruct ((min + 2 <=? blen r) && (min <=? strw u r)); repeat constructor.
  - destruct (is_white u ch) eqn:Ew.
    + destruct (IH (p ++ r ++ [ch]) [] None) as (zs & E & Hz & So).
      { rewrite Es, <- !app_assoc. reflexivity. } { rewrite app_assoc, rev_app_distr. cbn. exact Ew. } { constructor. } { auto. }
      replace (blen (p ++ r) + len_utf8 ch) with (blen ((p ++ r ++ [ch]) ++ [])) by (rewrite !blen_app; cbn; lia).
      destruct Hs as [(-> & ->)|(Hr0 & ->)].
      * exists zs. split; [exact E|]. split; [|exact So]. intros z. rewrite Hz. cbn [app] in *. split; intros (a & r' & b & Ht & L & R); exists a, r', b; (split; [exact Ht|]; split; [|exact R]).
        { rewrite app_length in L. cbn in L. lia. }
        { destruct (Nat.eq_dec (length a) (length p)) as [El|El]; [exfalso|rewrite app_length; cbn; lia]. destruct Ht as (E' & Hn & Hr' & _).
          rewrite Es in E'. destruct (app_inv_prefix _ _ _ _ E') as (d & ->); [lia|]. rewrite app_length in El. destruct d; [|cbn in El; lia].
          rewrite app_nil_r in E'. apply app_inv_head in E'. destruct r' as [|c' r']; [congruence|]. injection E' as <- _. inversion Hr'; subst. congruence. }
      * rewrite E. pose proof (token_zone_spec u min ci p r (ch :: rest)) as Tz. rewrite <- Es, <- blen_app in Tz. rewrite Tz, !bind_ret. eexists. split; [reflexivity|]. split.
        { intros z. rewrite in_app_iff, Hz. split.
          - intros [H|(a & r' & b & Ht & L & R)].
            + destruct (Nat.leb_spec (min + 2) (blen r)), (Nat.leb_spec min (strw u r)); cbn [andb In] in H; try tauto. destruct H as [<-|[]].
              exists p, r, (ch :: rest). rewrite Es. repeat split; auto.
            + exists a, r', b. split; [exact Ht|]. split; [|exact R]. rewrite app_length in L. lia.
          - intros (a & r' & b & Ht & L & H1 & H2 & ->). destruct (@token_after u _ p r (ch :: rest) a r' b Es Hr Ht L) as [->|L'].
            + left. destruct Ht as (E' & _ & Hr' & _ & Hb). rewrite Es in E'. apply app_inv_head in E'. destruct (@run_unique u r r' (ch :: rest) b) as (<- & <-); auto.
              apply Nat.leb_le in H1, H2. rewrite H1, H2. cbn. auto.
            + right. exists a, r', b. repeat (split; [assumption || (rewrite !app_length in *; cbn; lia)|]). reflexivity. }
        { destruct ((min + 2 <=? blen r) && (min <=? strw u r)); cbn [app]; [|exact So]. constructor; [exact So|]. apply Forall_forall. intros z Iz. apply Hz in Iz.
          destruct Iz as (a & r' & b & (E' & _) & L & _ & _ & ->). right. cbn [compound_idx byte_start_idx]. split; [reflexivity|].
          apply (@blen_lt p a (r ++ ch :: rest) (r' ++ b)); [congruence|]. rewrite !app_length in L. cbn in L. lia. }
    + replace (blen (p ++ r) + len_utf8 ch) with (blen (p ++ r ++ [ch])) by (rewrite !blen_app; cbn; lia).
      apply IH.
      { rewrite Es, <- !app_assoc. reflexivity. } { exact Hp. } { apply Forall_app. split; [exact Hr|]. repeat constructor. exact Ew. }
      right. split; [destruct r; discriminate|]. destruct Hs as [(-> & ->)|(_ & ->)]; [rewrite app_nil_r|]; reflexivity.
Qed.

Definition zone_in (u : unicode) (min ci : nat) (cs : list Compound) (z : Zone) : Prop :=
  exists cs1 c cs2, cs = cs1 ++ c :: cs2 /\ big_zone u min (ci + length cs1) (src c) 0 z.
Lemma sorted_app {A} (R : A -> A -> Prop) l1 l2 : StronglySorted R l1 -> StronglySorted R l2 -> (forall x y, In x l1 -> In y l2 -> R x y) -> StronglySorted R (l1 ++ l2).
Proof.
  induction 1 as [|x l1 S1 IH F]; intros S2 H; [exact S2|]. cbn. constructor.
  - apply IH; [exact S2|]. intros a b Ia Ib. apply H; [right; exact Ia|exact Ib].
  - apply Forall_app. split; [exact F|]. apply Forall_forall. intros y Iy. apply H; [left; reflexivity|exact Iy].
Qed.
Lemma token_zones_spec u min cs : forall ci, exists zs, token_zones u min ci cs = Ret zs /\ (forall z, In z zs <-> zone_in u min ci cs z) /\ StronglySorted before zs.
Proof.
  induction cs as [|c cs IH]; intros ci; cbn [token_zones].
  - exists []. split; [reflexivity|]. split; [|constructor]. intros z. split; [intros []|]. intros (cs1 & c & cs2 & E & _). destruct cs1; discriminate.
  - assert (H : exists zs, (if blen (src c) <? min + 2 then Ret [] else token_loop u min ci (src c) (src c) 0 None) = Ret zs
                 /\ (forall z, In z zs <-> big_zone u min ci (src c) 0 z) /\ StronglySorted before zs).
    { destruct (Nat.ltb_spec (blen (src c)) (min + 2)) as [L|L].
      - exists []. split; [reflexivity|]. split; [|constructor]. intros z. split; [intros []|]. intros (a & r & b & (E & _) & _ & H & _).
        rewrite E, !blen_app in L. lia.
      - apply (@token_loop_spec u min ci (src c) (src c) [] [] None); auto. exact I. }
    destruct H as (z1 & E1 & H1 & S1). destruct (IH (S ci)) as (z2 & E2 & H2 & S2). rewrite E1, bind_ret, E2, bind_ret.
    exists (z1 ++ z2). split; [reflexivity|]. split.
    + intros z. rewrite in_app_iff, H1, H2. split.
      * intros [H|(cs1 & c' & cs2 & -> & H)].
        { exists [], c, cs. split; [reflexivity|]. rewrite Nat.add_0_r. exact H. }
        { exists (c :: cs1), c', cs2. split; [reflexivity|]. cbn [length]. rewrite <- Nat.add_succ_comm. exact H. }
      * intros (cs1 & c' & cs2 & E & H). destruct cs1 as [|c1 cs1]; injection E as <- ->.
        { left. rewrite Nat.add_0_r in H. exact H. }
        { right. exists cs1, c', cs2. split; [reflexivity|]. cbn [length] in H. rewrite <- Nat.add_succ_comm in H. exact H. }
    + apply sorted_app; auto. intros x y Hx Hy. apply H1 in Hx. apply H2 in Hy. destruct Hx as (? & ? & ? & _ & _ & _ & _ & ->), Hy as (? & ? & ? & _ & ? & ? & ? & _ & _ & _ & _ & ->).
      left. cbn [compound_idx]. lia.
Qed.

(** [z] is the last one of the widest ones *)
Definition widest (P : Zone -> Prop) (z : Zone) : Prop :=
  P z /\ forall z', P z' -> removable_width z' < removable_width z \/ removable_width z' = removable_width z /\ (z' = z \/ before z' z).
Lemma max_zone_loop zs : forall m, StronglySorted before (m :: zs) ->
  exists z, fold_left (fun m z => match m with None => Some z | Some b => if removable_width b <=? removable_width z then Some z else Some b end) zs (Some m) = Some z
    /\ widest (fun z => In z (m :: zs)) z.
Proof.
  induction zs as [|z zs IH]; intros m S.
  - exists m. split; [reflexivity|]. split; [left; reflexivity|]. intros z' [<-|[]]. right. auto.
  - cbn [fold_left]. inversion S as [|? ? S' F]; subst. inversion F as [|? ? Bz F']; subst. inversion S' as [|? ? S'' F'']; subst.
    destruct (Nat.leb_spec (removable_width m) (removable_width z)) as [L|L].
    + destruct (IH z S') as (z0 & E & I0 & H0). exists z0. split; [exact E|]. split; [right; exact I0|].
      intros z' [<-|I']; [|apply H0; exact I']. destruct (H0 z (or_introl eq_refl)) as [H|(H & H')]; [left; lia|].
      destruct (Nat.eq_dec (removable_width m) (removable_width z0)); [right|left; lia]. split; [assumption|]. right. 
      assert (T : forall z1, In z1 (z :: zs) -> before m z1) by (apply Forall_forall; exact F). apply T. exact I0.
    + destruct (IH m) as (z0 & E & I0 & H0); [constructor; assumption|]. exists z0. split; [exact E|]. split; [destruct I0; [left|right; right]; assumption|].
      intros z' [<-|[<-|I']]; [apply H0; left; reflexivity| |apply H0; right; exact I'].
      left. destruct (H0 m (or_introl eq_refl)) as [?|(? & _)]; lia.
Qed.
Lemma max_zone_spec zs P : StronglySorted before zs -> (forall z, In z zs <-> P z) ->
  match max_zone zs with Some z => widest P z | None => forall z, ~ P z end.
Proof.
  intros S H. destruct zs as [|z zs]; cbn [max_zone fold_left].
  - intros z Hz. apply H in Hz. destruct Hz.
  - destruct (max_zone_loop S) as (z0 & E & H0). unfold max_zone. cbn [fold_left]. rewrite E. destruct H0 as (I0 & H0). split; [apply H; exact I0|]. intros z' Hz'. apply H0, H, Hz'.
Qed.
Lemma biggest_token_spec u cs min : exists o, biggest_token u cs min = Ret o
  /\ match o with Some z => widest (zone_in u min 0 cs) z | None => forall z, ~ zone_in u min 0 cs z end.
Proof.
  unfold biggest_token. destruct (token_zones_spec u min cs 0) as (zs & E & H & S). rewrite E, bind_ret. eexists. split; [reflexivity|]. apply max_zone_spec; assumption.
Qed.

(** ** compounds *)
Definition compound_zone (u : unicode) (min ci : nat) (cs : list Compound) (z : Zone) : Prop :=
  exists cs1 c cs2, cs = cs1 ++ c :: cs2 /\ 2 + min <= length (src c) /\ min <= strw u (interior (src c))
    /\ z = mkZone (ci + length cs1) 0 (str_char_infos u (src c)) (strw u (interior (src c))).
Lemma two_ends {A} (l : list A) : 2 <= length l -> exists a m b, l = a :: m ++ [b].
Proof.
  intros L. destruct l as [|a l]; [cbn in L; lia|]. destruct l as [|x l]; [cbn in L; lia|].
  destruct (exists_last (l := x :: l)) as (m & b & E); [discriminate|]. exists a, m, b. rewrite E. reflexivity.
Qed.
Lemma interior_mid a m b : interior (a :: m ++ [b]) = m.
Proof. unfold interior. cbn [tl]. apply removelast_last. Qed.
Lemma compound_zones_spec u min cs : forall ci, exists zs, compound_zones u min ci cs = Ret zs /\ (forall z, In z zs <-> compound_zone u min ci cs z) /\ StronglySorted before zs.
Proof.
  induction cs as [|c cs IH]; intros ci; cbn [compound_zones].
  - exists []. split; [reflexivity|]. split; [|constructor]. intros z. split; [intros []|]. intros (cs1 & c & cs2 & E & _). destruct cs1; discriminate.
  - destruct (IH (S ci)) as (z2 & E2 & H2 & S2). unfold str_char_infos at 1 2 3 4 5. rewrite infos_length.
    assert (H : exists b, (if length (src c) <? 2 + min then Ret [] else
              a <- idx (char_infos u 0 (src c)) 1 ;;
              b <- idx (char_infos u 0 (src c)) (length (src c) - 1) ;;
              removable <- byte_slice (src c) (fst a) (fst b) ;;
              if strw u removable <? min then Ret [] else Ret [mkZone ci 0 (str_char_infos u (src c)) (strw u removable)])
            = Ret (if b : bool then [mkZone ci 0 (str_char_infos u (src c)) (strw u (interior (src c)))] else [])
            /\ (b = true <-> 2 + min <= length (src c) /\ min <= strw u (interior (src c)))).
    { destruct (Nat.ltb_spec (length (src c)) (2 + min)) as [L|L]; [exists false; split; [reflexivity|]; split; [discriminate|lia]|].
      destruct (@two_ends _ (src c)) as (x & m & y & E); [lia|]. rewrite E in *.
      destruct (@infos_idx u 0 [x] (m ++ [y])) as (w1 & E1); [destruct m; discriminate|]. destruct (@infos_idx u 0 (x :: m) [y]) as (w3 & E3); [discriminate|].
      cbn [length] in E1. change ([x] ++ m ++ [y]) with (x :: m ++ [y]) in E1. rewrite E1, bind_ret.
      replace (length (x :: m ++ [y]) - 1) with (length (x :: m)) by (cbn; rewrite app_length; cbn; lia). change ((x :: m) ++ [y]) with (x :: m ++ [y]) in E3. rewrite E3, bind_ret.
      cbn [fst Nat.add]. replace (blen (x :: m)) with (blen [x] + blen m) by (rewrite <- blen_app; reflexivity). pose proof (byte_slice_mid [x] m [y]) as Bs. cbn [app] in Bs. rewrite Bs, bind_ret, interior_mid. exists (negb (strw u m <? min)). split; [destruct (strw u m <? min); reflexivity|].
      destruct (Nat.ltb_spec (strw u m) min); cbn [negb]; split; intros; try discriminate; lia. }
    destruct H as (b & E1 & Hb). unfold str_char_infos in *. rewrite E1, bind_ret, E2, bind_ret. eexists. split; [reflexivity|]. split.
    + intros z. rewrite in_app_iff, H2. split.
      * intros [H|(cs1 & c' & cs2 & -> & H)].
        { destruct b; [|destruct H]. destruct H as [<-|[]]. exists [], c, cs. destruct Hb as (Hb & _). specialize (Hb eq_refl). split; [reflexivity|]. split; [apply Hb|]. split; [apply Hb|].
          rewrite Nat.add_0_r. reflexivity. }
        { exists (c :: cs1), c', cs2. split; [reflexivity|]. cbn [length]. rewrite <- Nat.add_succ_comm. exact H. }
      * intros (cs1 & c' & cs2 & E & H). destruct cs1 as [|c1 cs1]; injection E as <- ->.
        { left. destruct H as (Ha & Hc & ->). rewrite (proj2 Hb) by auto. left. cbn [length]. rewrite Nat.add_0_r. reflexivity. }
        { right. exists cs1, c', cs2. split; [reflexivity|]. cbn [length] in H. rewrite <- Nat.add_succ_comm in H. exact H. }
    + apply sorted_app; auto; [destruct b; repeat constructor|]. intros x y Hx Hy. apply H2 in Hy. destruct b; [|destruct Hx]. destruct Hx as [<-|[]]. destruct Hy as (? & ? & ? & _ & _ & _ & ->).
      left. cbn [compound_idx]. lia.
Qed.
Lemma biggest_compound_spec u cs min : exists o, biggest_compound u cs min = Ret o
  /\ match o with Some z => widest (compound_zone u min 0 cs) z | None => forall z, ~ compound_zone u min 0 cs z end.
Proof.
  unfold biggest_compound. destruct (compound_zones_spec u min cs 0) as (zs & E & H & S). rewrite E, bind_ret. eexists. split; [reflexivity|]. apply max_zone_spec; assumption.
Qed.

(** ** ellisions *)
Definition spared (u : unicode) (cs cs' : list Compound) (ex ex' : nat) : Prop :=
  elided (styled cs) (styled cs')
  /\ sumw (chw u) (text_of cs') + ex <= sumw (chw u) (text_of cs) + ex'
  /\ (0 < ex' -> sumw (chw u) (text_of cs') + ex = sumw (chw u) (text_of cs) + ex')
  /\ ex' <= ex /\ (Forall (fun c => src c <> []) cs -> Forall (fun c => src c <> []) cs').
Definition zone_of (u : unicode) (cs : list Compound) (z : Zone) : Prop :=
  exists cs1 c cs2 pre zs post, cs = cs1 ++ c :: cs2 /\ zone_at u cs1 c pre zs post z /\ 2 <= length zs /\ 2 <= removable_width z.
Lemma text_cons c cs : text_of (c :: cs) = src c ++ text_of cs.
Proof. reflexivity. Qed.
Lemma cut_spared u cs z tr cs' gain : additive u -> chw u 8230%N = 1 -> zone_of u cs z -> cut u z cs (tr + 1) = Ret (cs', gain) -> 1 <= tr ->
  spared u cs cs' tr (tr - Nat.min gain tr).
Proof.
  intros Hu Hd (cs1 & c & cs2 & pre & zs & post & -> & Hz & L & R) E Ht.
  destruct (@cut_spec u cs1 c cs2 pre zs post z (tr + 1) Hu Hz L R) as (h & m & t & Ez & Hh & Htl & _ & _ & Hc & E'); [lia|].
  rewrite E' in E. destruct (Nat.eqb_spec (sumw (chw u) m) 0) as [E0|E0]; [discriminate|]. injection E as <- <-.
  destruct Hz as (_ & Es & _). unfold spared. split; [|split; [|split; [|split]]].
  - rewrite !styled_app. apply elided_app; [apply elided_refl|]. cbn [app]. rewrite !styled_cons.
    rewrite Es, Ez. unfold sty. rewrite !map_app. cbn [src set_str]. unfold sty. cbn [app map flags c_bold c_italic c_code c_strikeout src raw_str ELLIPSIS]. rewrite !map_app.
    rewrite <- !app_assoc. apply elided_app; [apply elided_refl|]. apply elided_app; [apply elided_refl|]. apply el_cut. apply elided_refl.
  - rewrite !text_app. cbn [app]. rewrite !text_cons. cbn [src set_str raw_str]. rewrite Es, Ez, !sumw_app. unfold ELLIPSIS. rewrite sumw_cons, Hd. cbn [sumw sum map]. change (sumw (chw u) []) with 0. lia.
  - intros H. rewrite !text_app. cbn [app]. rewrite !text_cons. cbn [src set_str raw_str]. rewrite Es, Ez, !sumw_app. unfold ELLIPSIS. rewrite sumw_cons, Hd. change (sumw (chw u) []) with 0. lia.
  - lia.
  - rewrite !Forall_app. intros (F1 & F2). inversion F2; subst. split; [exact F1|]. apply Forall_cons; [cbn|apply Forall_cons; [cbn|apply Forall_cons; [cbn|assumption]]].
    + intros X. apply app_eq_nil in X as (_ & X). congruence.
    + discriminate.
    + intros X. apply app_eq_nil in X as (X & _). congruence.
Qed.
Lemma spared_refl u cs ex : spared u cs cs ex ex.
Proof. unfold spared. repeat split; auto. apply elided_refl. Qed.
Lemma spared_trans u a b c ex1 ex2 ex3 : spared u a b ex1 ex2 -> spared u b c ex2 ex3 -> spared u a c ex1 ex3.
Proof.
  intros (A1 & A2 & A3 & A4 & A5) (B1 & B2 & B3 & B4 & B5). unfold spared. split; [eapply elided_trans; eassumption|]. repeat split; auto; lia.
Qed.
Lemma loop_spared u big : additive u -> chw u 8230%N = 1 -> (forall cs z, big cs = Ret (Some z) -> zone_of u cs z) ->
  forall fuel cs ex cs' ex', ellision_loop u big fuel cs ex = Ret (cs', ex') -> spared u cs cs' ex ex'.
Proof.
  intros Hu Hd Hb. induction fuel as [|fuel IH]; intros cs ex cs' ex' E; cbn [ellision_loop] in E; destruct (Nat.eqb_spec ex 0) as [->|H0]; try discriminate; try (injection E as <- <-; apply spared_refl).
  apply bind_Ret_inv in E as (o & Eo & E). apply bind_Ret_inv in E as ((cs1 & gain) & Ec & E).
  destruct o as [z|].
  - apply cut_spared in Ec; auto; [|lia]. destruct (Nat.eqb_spec gain 0) as [->|G].
    + injection E as <- <-. cbn [Nat.min] in Ec. rewrite Nat.sub_0_r in Ec. exact Ec.
    + apply IH in E. eapply spared_trans; eassumption.
  - injection Ec as <- <-. cbn in E. injection E as <- <-. apply spared_refl.
Qed.

(** *** termination *)
Lemma loop_ret u big (P : list Compound -> Prop) : additive u ->
  (forall cs, exists o, big cs = Ret o) ->
  (forall cs z ex, P cs -> 1 <= ex -> big cs = Ret (Some z) -> exists cs' gain, cut u z cs (ex + 1) = Ret (cs', gain) /\ (0 < gain -> gain < ex -> P cs')) ->
  forall fuel cs ex, P cs -> ex <= fuel -> exists r, ellision_loop u big fuel cs ex = Ret r.
Proof.
  intros Hu Hb Hc. induction fuel as [|fuel IH]; intros cs ex HP L; cbn [ellision_loop]; destruct (Nat.eqb_spec ex 0) as [->|H0]; try (eexists; reflexivity); [lia|].
  destruct (Hb cs) as (o & Eo). rewrite Eo, bind_ret. destruct o as [z|]; [|rewrite bind_ret; eexists; reflexivity].
  destruct (Hc cs z ex) as (cs' & gain & Ec & HP'); auto; [lia|]. rewrite Ec, bind_ret. destruct (Nat.eqb_spec gain 0) as [->|G]; [eexists; reflexivity|].
  destruct (Nat.ltb_spec gain ex) as [Lg|Lg].
  - apply IH; [apply HP'; lia|lia].
  - replace (ex - Nat.min gain ex) with 0 by lia. destruct fuel; cbn; eexists; reflexivity.
Qed.
Lemma token_zone_of u cs z : additive u -> zone_in u 3 0 cs z -> zone_of u cs z.
Proof.
  intros Hu (cs1 & c & cs2 & -> & a & r & b & (Es & _) & _ & H1 & H2 & ->). exists cs1, c, cs2, a, r, b. split; [reflexivity|]. split; [repeat split; assumption|]. split; [|cbn [removable_width]; lia].
  destruct r as [|x [|y r]]; cbn [length]; try lia; exfalso; [cbn in H1; lia|]. cbn in H1. unfold len_utf8 in H1. destruct (x <? 128)%N, (x <? 2048)%N, (x <? 65536)%N; lia.
Qed.
Lemma biggest_token_zone u cs z : additive u -> biggest_token u cs 3 = Ret (Some z) -> zone_of u cs z.
Proof. intros Hu E. destruct (biggest_token_spec u cs 3) as (o & E' & H). rewrite E in E'. injection E' as <-. apply token_zone_of; auto. apply H. Qed.
Lemma compound_zone_of u cs z : compound_zone u 2 0 cs z -> zone_of u cs z.
Proof.
  intros (cs1 & c & cs2 & -> & H1 & H2 & ->). exists cs1, c, cs2, [], (src c), []. split; [reflexivity|]. split; [|cbn [removable_width]; lia].
  repeat split. cbn. rewrite app_nil_r. reflexivity.
Qed.
Lemma biggest_compound_zone u cs z : biggest_compound u cs 2 = Ret (Some z) -> zone_of u cs z.
Proof. intros E. destruct (biggest_compound_spec u cs 2) as (o & E' & H). rewrite E in E'. injection E' as <-. apply compound_zone_of; auto. apply H. Qed.

Lemma compound_loop_ret u cs ex fuel : additive u -> ex <= fuel -> exists r, ellision_loop u (fun cs => biggest_compound u cs 2) fuel cs ex = Ret r.
Proof.
  intros Hu L. apply (@loop_ret u _ (fun _ => True)); auto.
  - intros cs0. destruct (biggest_compound_spec u cs0 2) as (o & E & _). eauto.
  - intros cs0 z ex0 _ He E. destruct (biggest_compound_spec u cs0 2) as (o & E' & H). rewrite E in E'. injection E' as <-. destruct H as (Hz & _).
    destruct Hz as (cs1 & c & cs2 & -> & Hl & Hi & ->).
    match goal with |- context [cut u ?zz] => set (z := zz) end.
    assert (Hz : zone_at u cs1 c [] (src c) [] z) by (repeat split; cbn; rewrite app_nil_r; reflexivity).
    destruct (@cut_spec u cs1 c cs2 [] (src c) [] z (ex0 + 1) Hu Hz) as (h & m & t & Ez & Hh & Ht & _ & _ & Hc & E'); [lia|exact Hi|lia|].
    rewrite E'. destruct (Nat.eqb_spec (sumw (chw u) m) 0) as [E0|E0]; [exfalso|eauto].
    destruct Hc as [(? & _)|(_ & Lh & Lt)]; [lia|]. destruct h as [|x [|? ?]]; try discriminate. destruct t as [|y [|? ?]]; try discriminate.
    cbn [app] in Ez. rewrite Ez, interior_mid, Hu in Hi. lia.
Qed.

(** the tokens of a cut compound *)
Lemma token_in_head u a x rest a' r' b' : is_white u x = false -> match rev a with [] => True | c :: _ => is_white u c = true end ->
  is_token u (a ++ [x]) a' r' b' -> r' = [x] \/ exists b0, is_token u (a ++ rest) a' r' (b0 ++ rest).
Proof.
  intros Hx Ha (E & Hn & Hr & Ha' & Hb). destruct b' as [|w b'].
  - left. rewrite app_nil_r in E. destruct (exists_last Hn) as (r0 & x' & ->). rewrite app_assoc in E. apply app_inj_tail in E as (-> & <-).
    destruct r0 as [|y r0]; [reflexivity|exfalso]. destruct (exists_last (l := y :: r0)) as (r1 & z & Ez); [discriminate|]. rewrite Ez in *.
    rewrite app_assoc, rev_app_distr in Ha. cbn in Ha. apply Forall_app in Hr as (Hr & _). apply Forall_app in Hr as (_ & Hr). inversion Hr; subst. congruence.
  - right. destruct (exists_last (l := w :: b')) as (b0 & x' & Eb); [discriminate|]. rewrite Eb, !app_assoc in E. apply app_inj_tail in E as (E & <-).
    exists b0. unfold is_token. rewrite E, <- !app_assoc. split; [reflexivity|]. split; [exact Hn|]. split; [exact Hr|]. split; [exact Ha'|].
    destruct b0 as [|w0 b0]; cbn in Eb; injection Eb as -> _; [congruence|]. cbn. exact Hb.
Qed.
Lemma token_in_tail u y b pre a' r' b' : is_white u y = false -> match b with [] => True | c :: _ => is_white u c = true end ->
  is_token u (y :: b) a' r' b' -> r' = [y] \/ exists a0, is_token u (pre ++ b) (pre ++ a0) r' b'.
Proof.
  intros Hy Hb (E & Hn & Hr & Ha' & Hb'). destruct a' as [|w a'].
  - left. cbn [app] in E. destruct (@run_unique u [y] r' b b') as (<- & _); auto.
  - right. injection E as <- ->. exists a'. unfold is_token. rewrite <- !app_assoc. split; [reflexivity|]. split; [exact Hn|]. split; [exact Hr|]. split; [|exact Hb'].
    cbn [rev] in Ha'. rewrite rev_app_distr. destruct (rev a') as [|w' a0]; cbn [app] in Ha'; [congruence|]. exact Ha'.
Qed.
Lemma one_char_small u x : ~ big_token u [x].
Proof. intros (H & _). cbn in H. unfold len_utf8 in H. destruct (x <? 128)%N, (x <? 2048)%N, (x <? 65536)%N; lia. Qed.
Lemma token_loop_ret u cs ex fuel : additive u -> chw u 8230%N = 1 -> tokens_ok u cs -> ex <= fuel ->
  exists r, ellision_loop u (fun cs => biggest_token u cs 3) fuel cs ex = Ret r.
Proof.
  intros Hu Hd Hok L. apply (@loop_ret u _ (tokens_ok u)); auto.
  - intros cs0. destruct (biggest_token_spec u cs0 3) as (o & E & _). eauto.
  - intros cs0 z ex0 Hok0 He E. destruct (biggest_token_spec u cs0 3) as (o & E' & H). rewrite E in E'. injection E' as <-. destruct H as (Hz & _).
    destruct Hz as (cs1 & c & cs2 & -> & a & r & b & Ht & _ & H1 & H2 & ->).
    match goal with |- context [cut u ?zz] => set (z := zz) end.
    destruct Ht as (Es & Ht). pose proof (conj Es Ht : is_token u (src c) a r b) as Htk.
    assert (Hz : zone_at u cs1 c a r b z) by (repeat split; exact Es).
    assert (L2 : 2 <= length r).
    { destruct r as [|x [|y r]]; cbn [length]; try lia; exfalso; [cbn in H1; lia|]. cbn in H1. unfold len_utf8 in H1. destruct (x <? 128)%N, (x <? 2048)%N, (x <? 65536)%N; lia. }
    assert (L3 : 1 <= strw u (interior r)). { apply (Hok0 c a r b); [apply in_or_app; right; left; reflexivity|exact Htk|]. split; cbn in *; lia. }
    destruct (@cut_spec u cs1 c cs2 a r b z (ex0 + 1) Hu Hz L2) as (h & m & t & Ez & Hh & Htl & _ & _ & Hc & E'); [cbn [removable_width z]; lia|lia|].
    rewrite E'. destruct (Nat.eqb_spec (sumw (chw u) m) 0) as [E0|E0]; [exfalso|].
    + destruct Hc as [(? & _)|(_ & Lh & Lt)]; [lia|]. destruct h as [|x [|? ?]]; try discriminate. destruct t as [|y [|? ?]]; try discriminate.
      cbn [app] in Ez. rewrite Ez, interior_mid, Hu in L3. lia.
    + eexists. eexists. split; [reflexivity|]. intros _ Hg. destruct Hc as [(? & _)|(_ & Lh & Lt)]; [lia|].
      destruct h as [|x [|? ?]]; try discriminate. destruct t as [|y [|? ?]]; try discriminate.
      intros c' a' r' b' I' T' B'. apply in_app_iff in I' as [I'|I']; [apply (Hok0 c' a' r' b'); auto; apply in_or_app; auto|].
      cbn [app In] in I'. destruct I' as [<-|[<-|[<-|I']]]; [| | |apply (Hok0 c' a' r' b'); auto; apply in_or_app; right; right; exact I'].
      * cbn [src set_str] in T'. destruct Ht as (_ & Hr & Ha & Hb). rewrite Ez in Hr. inversion Hr as [|? ? Hx Hr']; subst.
        destruct (@token_in_head u a x (x :: (m ++ [y]) ++ b) a' r' b' Hx Ha T') as [->|(b0 & T0)]; [destruct (one_char_small B')|].
        apply (Hok0 c a' r' (b0 ++ x :: (m ++ [y]) ++ b)); auto; [apply in_or_app; right; left; reflexivity|]. rewrite Es. exact T0.
      * cbn [src raw_str] in T'. exfalso. destruct T' as (E1 & _). destruct B' as (B' & _). apply (f_equal blen) in E1. rewrite !blen_app in E1. cbn in E1. lia.
      * cbn [src set_str] in T'. destruct Ht as (_ & Hr & Ha & Hb). rewrite Ez in Hr. apply Forall_app in Hr as (_ & Hr). apply Forall_app in Hr as (_ & Hr). inversion Hr as [|? ? Hy _]; subst.
        destruct (@token_in_tail u y b (a ++ [x] ++ m ++ [y]) a' r' b' Hy Hb T') as [->|(a0 & T0)]; [destruct (one_char_small B')|].
        assert (Es' : src c = (a ++ [x] ++ m ++ [y]) ++ b) by (rewrite Es; rewrite <- !app_assoc; reflexivity). rewrite <- Es' in T0.
        apply (Hok0 c _ r' b') with (2 := T0); [apply in_or_app; right; left; reflexivity|exact B'].
Qed.

(** ** truncations *)
Lemma remove_left_spec u s ex : forall y x fuel, s = x ++ y -> y <> [] -> length y <= fuel -> (x = [] \/ sumw (chw u) x < ex) ->
  exists x' c y', s = x' ++ c :: y' /\ remove_left (str_char_infos u s) ex fuel (length x) (sumw (chw u) x) = Ret (length x', sumw (chw u) (x' ++ [c]))
    /\ (x' = [] \/ sumw (chw u) x' < ex) /\ (ex <= sumw (chw u) (x' ++ [c]) \/ y' = []).
Proof.
  induction y as [|c y IH]; intros x fuel Es Hn Hf Hx; [congruence|]. destruct fuel as [|fuel]; [cbn in Hf; lia|]. cbn [remove_left].
  unfold str_char_infos. pose proof (infos_nth u 0 x c y) as En. rewrite <- Es in En. rewrite (@idx_ret _ _ _ _ En). rewrite bind_ret, infos_length. cbn [snd].
  replace (sumw (chw u) x + chw u c) with (sumw (chw u) (x ++ [c])) by (rewrite sumw_app; cbn; lia).
  destruct (Nat.leb_spec ex (sumw (chw u) (x ++ [c]))) as [L|L]; cbn [orb]; [exists x, c, y; auto|].
  destruct (Nat.eqb_spec (length x + 1) (length s)) as [E|E].
  - exists x, c, y. split; [exact Es|]. split; [reflexivity|]. split; [exact Hx|]. right. rewrite Es, app_length in E. cbn in E. destruct y; [reflexivity|cbn in E; lia].
  - replace (length x + 1) with (length (x ++ [c])) by (rewrite app_length; reflexivity). apply IH.
    + rewrite Es, <- app_assoc. reflexivity.
    + intros ->. rewrite Es, app_length in E. cbn in E. lia.
    + cbn in Hf. lia.
    + right. exact L.
Qed.
(** what is removed at the left: enough, or all, and not a char more *)
Definition left_cut (u : unicode) (ex : nat) (cs cs' : list Compound) (q : list (char * (bool * bool * bool * bool))) : Prop :=
  styled cs = q ++ styled cs' /\ (ex <= columns u q \/ cs' = []) /\ (q = [] \/ exists q' c, q = q' ++ [c] /\ (q' = [] \/ columns u q' < ex))
  /\ (Forall (fun c => src c <> []) cs -> Forall (fun c => src c <> []) cs').
Lemma truncate_left_spec u cs : forall ex, 
  (Forall (fun c => src c <> []) cs -> exists cs', truncate_left u cs ex = Ret cs')
  /\ forall cs', truncate_left u cs ex = Ret cs' -> exists q, left_cut u ex cs cs' q /\ (ex = 0 -> q = []).
Proof.
  induction cs as [|c cs IH]; intros ex; cbn [truncate_left]; destruct (Nat.eqb_spec ex 0) as [->|H0].
  1,2: split; [eauto|]; intros cs' E; injection E as <-; exists []; (split; [|reflexivity]); split; [reflexivity|]; split; [auto with arith|]; auto.
  - split; [eauto|]. intros cs' E. injection E as <-. exists []. split; [|reflexivity]. split; [reflexivity|]. auto with arith.
  - destruct (list_eq_dec N.eq_dec (src c) []) as [E0|E0].
    { rewrite E0. cbn [str_char_infos char_infos length remove_left]. split; [intros F; inversion F; congruence|]. intros cs' E. discriminate. }
    cbn zeta. rewrite !sinfos_length.
    destruct (@remove_left_spec u (src c) ex (src c) [] (S (length (src c)))) as (x & ch & y & Es & E & Hx & Hy); auto.
    cbn [length] in E. change (sumw (chw u) []) with 0 in E. rewrite E, bind_ret.
    destruct (Nat.eqb_spec (length x + 1) (length (src c))) as [El|El].
    + assert (y = []) as ->. { rewrite Es, app_length in El. cbn in El. destruct y; [reflexivity|cbn in El; lia]. }
      assert (Es' : src c = x ++ [ch]) by exact Es. clear Hy.
      destruct (IH (ex - Nat.min (sumw (chw u) (x ++ [ch])) ex)) as (IH1 & IH2). split; [intros F; inversion F; auto|].
      intros cs' E'. destruct (IH2 _ E') as (q & (Q1 & Q2 & Q3 & Q4) & Q0). exists (sty c (src c) ++ q). split; [|lia].
      split; [rewrite styled_cons, Q1; apply app_assoc|]. rewrite columns_app, columns_sty, Es'. split; [|split].
      * destruct Q2 as [Q2|Q2]; [left; lia|right; exact Q2].
      * right. destruct Q3 as [->|(q' & c' & -> & Hq)].
        { exists (sty c x), (ch, flags c). rewrite app_nil_r. unfold sty. rewrite map_app. split; [reflexivity|]. destruct Hx as [->|Hx]; [left; reflexivity|right].
          fold (sty c x). rewrite columns_sty. exact Hx. }
        { exists (sty c (x ++ [ch]) ++ q'), c'. rewrite app_assoc. split; [reflexivity|]. right. rewrite columns_app, columns_sty. 
          destruct (Nat.ltb_spec (sumw (chw u) (x ++ [ch])) ex) as [Lx|Lx].
          - destruct Hq as [->|Hq]; [change (columns u []) with 0; lia|lia].
          - exfalso. assert (X : q' ++ [c'] = []) by (apply Q0; lia). destruct q'; discriminate. }
      * intros F. inversion F; subst. auto.
    + destruct y as [|ch' y]. { rewrite Es, app_length in El. cbn in El. lia. }
      assert (En : nth_error (str_char_infos u (src c)) (length x + 1) = Some (blen (x ++ [ch]), chw u ch')).
      { rewrite Es. replace (x ++ ch :: ch' :: y) with ((x ++ [ch]) ++ ch' :: y) by (rewrite <- app_assoc; reflexivity).
        replace (length x + 1) with (length (x ++ [ch])) by (rewrite app_length; reflexivity). apply infos_nth. }
      rewrite (@idx_ret _ _ _ _ En), bind_ret. cbn [fst]. rewrite Es. replace (x ++ ch :: ch' :: y) with ((x ++ [ch]) ++ ch' :: y) by (rewrite <- app_assoc; reflexivity).
      rewrite byte_suffix_app, bind_ret. split; [eauto|]. intros cs' E'. injection E' as <-. exists (sty c (x ++ [ch])). split; [|lia].
      split; [|split; [|split]].
      * rewrite !styled_cons, app_assoc. f_equal. rewrite Es. unfold sty. cbn [src set_str]. rewrite !map_app. rewrite <- app_assoc. reflexivity.
      * left. rewrite columns_sty. destruct Hy as [Hy|Hy]; [exact Hy|discriminate].
      * right. exists (sty c x), (ch, flags c). unfold sty. rewrite map_app. split; [reflexivity|]. destruct Hx as [->|Hx]; [left; reflexivity|right]. fold (sty c x). rewrite columns_sty. exact Hx.
      * intros F. inversion F; subst. constructor; [discriminate|assumption].
Qed.

Lemma remove_right_spec u ex : 1 <= ex -> forall x y s, s = x ++ y -> sumw (chw u) y < ex ->
  exists x' y', s = x' ++ y' /\ remove_right (rev (str_char_infos u x)) ex (blen x) (sumw (chw u) y) = (blen x', sumw (chw u) y')
    /\ (ex <= sumw (chw u) y' /\ (exists c y0, y' = c :: y0 /\ sumw (chw u) y0 < ex) \/ x' = [] /\ sumw (chw u) y' < ex).
Proof.
  intros He. induction x as [|c x IH] using rev_ind; intros y s Es Hy.
  - cbn. exists [], y. split; [exact Es|]. split; [reflexivity|]. right. auto.
  - unfold str_char_infos. rewrite infos_app. cbn [char_infos]. rewrite rev_app_distr. cbn [rev app remove_right fst snd Nat.add].
    replace (sumw (chw u) y + chw u c) with (sumw (chw u) (c :: y)) by (rewrite sumw_cons; lia).
    destruct (Nat.leb_spec ex (sumw (chw u) (c :: y))) as [L|L].
    + exists x, (c :: y). split; [rewrite Es, <- app_assoc; reflexivity|]. split; [reflexivity|]. left. eauto.
    + apply IH; [rewrite Es, <- app_assoc; reflexivity|exact L].
Qed.
Definition right_cut (u : unicode) (ex : nat) (cs cs' : list Compound) (q : list (char * (bool * bool * bool * bool))) : Prop :=
  styled cs = styled cs' ++ q /\ (ex <= columns u q \/ cs' = []) /\ (q = [] \/ exists q' c, q = c :: q' /\ columns u q' < ex)
  /\ (Forall (fun c => src c <> []) cs -> Forall (fun c => src c <> []) cs').
Lemma blen_0 s : blen s = 0 -> s = [].
Proof. destruct s as [|c s]; [reflexivity|]. pose proof (len_utf8_pos c). change (blen (c :: s)) with (len_utf8 c + blen s). lia. Qed.
Lemma truncate_right_rev_spec u rcs : forall ex, exists rcs' q, truncate_right_rev u rcs ex = Ret rcs' /\ right_cut u ex (rev rcs) (rev rcs') q /\ (ex = 0 -> q = []).
Proof.
  induction rcs as [|c rcs IH]; intros ex; cbn [truncate_right_rev]; destruct (Nat.eqb_spec ex 0) as [->|H0].
  - exists [], []. split; [reflexivity|]. split; [|reflexivity]. split; [reflexivity|]. auto with arith.
  - exists [], []. split; [reflexivity|]. split; [|reflexivity]. split; [reflexivity|]. auto with arith.
  - exists (c :: rcs), []. split; [reflexivity|]. split; [|reflexivity]. split; [rewrite app_nil_r; reflexivity|]. auto with arith.
  - destruct (@remove_right_spec u ex ltac:(lia) (src c) [] (src c)) as (x & y & Es & E & Hc); [rewrite app_nil_r; reflexivity|cbn; lia|].
    change (sumw (chw u) []) with 0 in E. rewrite E.
    destruct (Nat.eqb_spec (blen x) 0) as [Eb|Eb].
    + apply blen_0 in Eb. subst x. cbn [app] in Es. subst y.
      destruct (IH (ex - Nat.min (sumw (chw u) (src c)) ex)) as (rcs' & q & E' & (Q1 & Q2 & Q3 & Q4) & Q0).
      exists rcs', (q ++ sty c (src c)). split; [exact E'|]. split; [|lia]. cbn [rev]. split; [|split; [|split]].
      * rewrite styled_app, Q1, styled_cons. cbn. rewrite app_nil_r, <- app_assoc. reflexivity.
      * rewrite columns_app, columns_sty. destruct Q2 as [Q2|Q2]; [left; lia|right; exact Q2].
      * destruct Q3 as [->|(q' & c' & -> & Hq)].
        { cbn [app]. destruct Hc as [(_ & c0 & y0 & Ey & Hy)|(_ & Hy)].
          - right. rewrite Ey. exists (sty c y0), (c0, flags c). split; [reflexivity|]. rewrite columns_sty. exact Hy.
          - destruct (src c) as [|c0 y0] eqn:Ec; [left; reflexivity|right]. exists (sty c y0), (c0, flags c). split; [reflexivity|]. rewrite columns_sty. rewrite sumw_cons in Hy. lia. }
        { right. exists (q' ++ sty c (src c)), c'. split; [reflexivity|]. rewrite columns_app, columns_sty.
          destruct (Nat.ltb_spec (sumw (chw u) (src c)) ex) as [Lx|Lx]; [lia|]. exfalso. assert (X : c' :: q' = []) by (apply Q0; lia). discriminate. }
      * intros F. apply Forall_app in F as (F & _). auto.
    + pose proof (byte_prefix_app x y) as Bp. rewrite <- Es in Bp. rewrite Bp, bind_ret. exists (set_str c x :: rcs), (sty c y). split; [reflexivity|]. split; [|lia]. cbn [rev].
      destruct Hc as [(Hy & c0 & y0 & -> & Hy0)|(-> & _)]; [|cbn in Eb; lia]. split; [|split; [|split]].
      * rewrite !styled_app, !styled_cons. cbn [styled flat_map]. rewrite !app_nil_r, <- app_assoc. f_equal. rewrite Es. unfold sty. rewrite map_app. reflexivity.
      * left. rewrite columns_sty. exact Hy.
      * right. exists (sty c y0), (c0, flags c). split; [reflexivity|]. rewrite columns_sty. exact Hy0.
      * intros F. apply Forall_app in F as (F & _). apply Forall_app. split; [exact F|]. repeat constructor. cbn. intros ->. cbn in Eb. lia.
Qed.
Lemma truncate_right_spec u cs ex : exists cs' q, truncate_right u cs ex = Ret cs' /\ right_cut u ex cs cs' q.
Proof.
  unfold truncate_right. destruct (truncate_right_rev_spec u (rev cs) ex) as (rcs & q & E & Q & _). rewrite E, bind_ret. rewrite rev_involutive in Q. eauto.
Qed.

(** ** fit *)
Definition ell : Compound := raw_str ELLIPSIS.
Definition truncated (u : unicode) (l r : nat) (cs cs' : list Compound) : Prop :=
  exists cs1, (if 0 <? l then exists cs0 q, left_cut u l cs cs0 q /\ cs1 = ell :: cs0 else cs1 = cs)
    /\ (if 0 <? r then exists cs2 q, right_cut u r cs1 cs2 q /\ cs' = cs2 ++ [ell] else cs' = cs1).
Definition fit_shape (u : unicode) (f : Fitter) (k : MadSkin) (fc : FmtComposite) (max : nat) (fc' : FmtComposite) : Prop :=
  exists cs ex cs', spared u (fc_compounds fc) cs (visible_length fc - max) ex
    /\ (mid_token_ellision f = false -> mid_compound_ellision f = false -> cs = fc_compounds fc /\ ex = visible_length fc - max)
    /\ (if ex =? 0 then cs' = cs else truncated u (fst (excesses (ft_align f) ex)) (snd (excesses (ft_align f) ex)) cs cs')
    /\ fc' = mkFC (fc_kind fc) cs' (visible_composite_length u k (fc_kind fc) cs') (fc_spacing fc).
Lemma fit_spec u f fc max k fc' : additive u -> chw u 8230%N = 1 -> max < visible_length fc -> 2 <= max -> fit u f fc max k = Ret fc' ->
  fit_shape u f k fc max fc'.
Proof.
  intros Hu Hd Hl Hm E. unfold fit in E. rewrite (proj2 (Nat.leb_gt _ _) Hl) in E. destruct (Nat.eqb_spec max 0); [lia|]. destruct (Nat.eqb_spec max 1); [lia|].
  apply bind_Ret_inv in E as ((cs1 & ex1) & E1 & E). apply bind_Ret_inv in E as ((cs2 & ex2) & E2 & E).
  assert (S1 : spared u (fc_compounds fc) cs1 (visible_length fc - max) ex1).
  { destruct (mid_token_ellision f); [|injection E1 as <- <-; apply spared_refl]. apply loop_spared in E1; auto. intros. apply biggest_token_zone; assumption. }
  assert (S2 : spared u cs1 cs2 ex1 ex2).
  { destruct (mid_compound_ellision f); [|injection E2 as <- <-; apply spared_refl]. apply loop_spared in E2; auto. intros. apply biggest_compound_zone; assumption. }
  assert (S3 : mid_token_ellision f = false -> mid_compound_ellision f = false -> cs2 = fc_compounds fc /\ ex2 = visible_length fc - max).
  { intros F1 F2. rewrite F1 in E1. rewrite F2 in E2. injection E1 as <- <-. injection E2 as <- <-. auto. }
  pose proof (spared_trans S1 S2) as S. unfold fit_shape.
  destruct (Nat.eqb_spec ex2 0) as [H0|H0].
  - injection E as <-. exists cs2, ex2, cs2. split; [exact S|]. split; [exact S3|]. destruct (Nat.eqb_spec ex2 0); [|lia]. split; reflexivity.
  - destruct (excesses (ft_align f) ex2) as (l, r) eqn:Ee. apply bind_Ret_inv in E as (cs3 & E3 & E). apply bind_Ret_inv in E as (cs4 & E4 & E). injection E as <-.
    exists cs2, ex2, cs4. split; [exact S|]. split; [exact S3|]. destruct (Nat.eqb_spec ex2 0); [lia|]. rewrite Ee. cbn [fst snd]. split; [|reflexivity].
    exists cs3. split.
    + destruct (0 <? l); [|congruence]. apply bind_Ret_inv in E3 as (cs0 & E3 & E). injection E as <-. apply truncate_left_spec in E3 as (q & Hq & _). eauto.
    + destruct (0 <? r); [|congruence]. apply bind_Ret_inv in E4 as (cs0 & E4 & E). injection E as <-. destruct (truncate_right_spec u cs3 r) as (cs5 & q & E5 & Hq). rewrite E4 in E5. injection E5 as <-. eauto.
Qed.
Lemma elided_app_inv_nil gap s : elided (gap ++ s) (dots :: s).
Proof. constructor. apply elided_refl. Qed.
Lemma styled_ell cs : styled (ell :: cs) = dots :: styled cs.
Proof. reflexivity. Qed.
Lemma styled_ell_r cs : styled (cs ++ [ell]) = styled cs ++ [dots].
Proof. rewrite styled_app. reflexivity. Qed.
Lemma elided_all s : elided s [dots].
Proof. replace s with (s ++ []) by apply app_nil_r. constructor. constructor. Qed.
Lemma right_elided u r cs cs2 q : right_cut u r cs cs2 q -> elided (styled cs) (styled cs2 ++ [dots]).
Proof. intros (-> & _). apply elided_app; [apply elided_refl|apply elided_all]. Qed.
Lemma truncated_elided u l r cs cs' : truncated u l r cs cs' -> elided (styled cs) (styled cs').
Proof.
  intros (cs1 & H1 & H2). assert (E1 : elided (styled cs) (styled cs1)).
  { destruct (0 <? l); [|subst; apply elided_refl]. destruct H1 as (cs0 & q & (-> & _) & ->). rewrite styled_ell. apply elided_app_inv_nil. }
  eapply elided_trans; [exact E1|]. destruct (0 <? r); [|subst; apply elided_refl]. destruct H2 as (cs2 & q & H & ->). rewrite styled_ell_r. eapply right_elided. exact H.
Qed.
Definition wt (u : unicode) (cs : list Compound) : nat := sumw (chw u) (text_of cs).
Lemma left_wt u l cs cs' q : left_cut u l cs cs' q -> wt u cs = columns u q + wt u cs'.
Proof. intros (E & _). unfold wt. rewrite <- !columns_styled, E, columns_app. reflexivity. Qed.
Lemma right_wt u l cs cs' q : right_cut u l cs cs' q -> wt u cs = columns u q + wt u cs'.
Proof. intros (E & _). unfold wt. rewrite <- !columns_styled, E, columns_app. lia. Qed.
Lemma wt_ell u cs : chw u 8230%N = 1 -> wt u (ell :: cs) = 1 + wt u cs.
Proof. intros H. unfold wt, ell. cbn [text_of flat_map src raw_str ELLIPSIS app]. rewrite sumw_cons, H. reflexivity. Qed.
Lemma wt_ell_r u cs : chw u 8230%N = 1 -> wt u (cs ++ [ell]) = 1 + wt u cs.
Proof. intros H. unfold wt, ell. rewrite text_app. cbn [text_of flat_map src raw_str ELLIPSIS app]. rewrite sumw_app, sumw_cons, H. change (sumw (chw u) []) with 0. lia. Qed.
Lemma excesses_cases a ex l r : 1 <= ex -> excesses a ex = (l, r) -> (l = 0 /\ r = ex + 1) \/ (r = 0 /\ l = ex + 1) \/ (l >= 2 /\ r >= 2 /\ l + r = ex + 2).
Proof.
  intros He E. unfold excesses in E; destruct a; try (injection E as <- <-; lia).
  assert (H2 : ex / 2 <= ex) by lia. assert (H3 : 0 < ex / 2 -> 0 < ex - ex / 2) by lia. remember (ex / 2) as h.
  destruct (Nat.ltb_spec 0 h); injection E as <- <-; lia.
Qed.
Lemma truncated_wt u a ex cs cs' : chw u 8230%N = 1 -> 1 <= ex -> truncated u (fst (excesses a ex)) (snd (excesses a ex)) cs cs' -> wt u cs' + ex <= wt u cs \/ wt u cs' = 1.
Proof.
  intros Hd He (cs1 & H1 & H2). destruct (excesses a ex) as (l, r) eqn:E. cbn [fst snd] in *.
  assert (A1 : l = 0 /\ cs1 = cs \/ l >= 2 /\ (wt u cs1 + l <= 1 + wt u cs \/ wt u cs1 = 1)).
  { assert (Ll : l = 0 \/ l >= 2). { destruct (@excesses_cases a ex l r He E); lia. }
    destruct (Nat.ltb_spec 0 l); [|left; split; [lia|assumption]]. right. split; [lia|]. destruct H1 as (cs0 & q & Hc & ->). rewrite wt_ell by assumption. pose proof (left_wt Hc).
    destruct Hc as (_ & [Hc| ->] & _); [left; lia|right; reflexivity]. }
  assert (A2 : r = 0 /\ cs' = cs1 \/ r >= 2 /\ (wt u cs' + r <= 1 + wt u cs1 /\ 1 <= wt u cs' \/ wt u cs' = 1)).
  { assert (Ll : r = 0 \/ r >= 2). { destruct (@excesses_cases a ex l r He E); lia. }
    destruct (Nat.ltb_spec 0 r); [|left; split; [lia|assumption]]. right. split; [lia|]. destruct H2 as (cs0 & q & Hc & ->). rewrite wt_ell_r by assumption. pose proof (right_wt Hc).
    destruct Hc as (_ & [Hc| ->] & _); [left; lia|right; reflexivity]. }
  assert (Hs : (l = 0 /\ r = ex + 1) \/ (r = 0 /\ l = ex + 1) \/ (l >= 2 /\ r >= 2 /\ l + r = ex + 2)).
  { destruct (@excesses_cases a ex l r He E); lia. }
  destruct A1 as [(? & ->)|(? & [?|?])], A2 as [(? & ->)|(? & [?|?])]; lia.
Qed.
Lemma truncate_right_ret u cs ex : exists cs', truncate_right u cs ex = Ret cs'.
Proof. destruct (truncate_right_spec u cs ex) as (cs' & _ & E & _). eauto. Qed.
Lemma fit_ret u f fc max k : additive u -> chw u 8230%N = 1 ->
  (mid_token_ellision f = true -> tokens_ok u (fc_compounds fc)) ->
  ((ft_align f = ALeft \/ ft_align f = Unspecified) \/ Forall (fun c => src c <> []) (fc_compounds fc)) ->
  exists fc', fit u f fc max k = Ret fc'.
Proof.
  intros Hu Hd Ht Ha. unfold fit. destruct (visible_length fc <=? max); [eauto|]. destruct (max =? 0); [eauto|]. destruct (max =? 1); [eauto|].
  set (e := visible_length fc - max).
  assert (E1 : exists cs1 ex1, (if mid_token_ellision f then ellision_loop u (fun cs => biggest_token u cs 3) e (fc_compounds fc) e else Ret (fc_compounds fc, e)) = Ret (cs1, ex1)
            /\ (Forall (fun c => src c <> []) (fc_compounds fc) -> Forall (fun c => src c <> []) cs1)).
  { destruct (mid_token_ellision f); [|eauto]. destruct (@token_loop_ret u (fc_compounds fc) e e) as ((cs1 & ex1) & E); auto. exists cs1, ex1. split; [exact E|].
    apply loop_spared in E; auto; [apply E|]. intros. apply biggest_token_zone; assumption. }
  destruct E1 as (cs1 & ex1 & E1 & N1). rewrite E1, bind_ret.
  assert (E2 : exists cs2 ex2, (if mid_compound_ellision f then ellision_loop u (fun cs => biggest_compound u cs 2) ex1 cs1 ex1 else Ret (cs1, ex1)) = Ret (cs2, ex2)
            /\ (Forall (fun c => src c <> []) cs1 -> Forall (fun c => src c <> []) cs2)).
  { destruct (mid_compound_ellision f); [|eauto]. destruct (@compound_loop_ret u cs1 ex1 ex1) as ((cs2 & ex2) & E); auto. exists cs2, ex2. split; [exact E|].
    apply loop_spared in E; auto; [apply E|]. intros. apply biggest_compound_zone; assumption. }
  destruct E2 as (cs2 & ex2 & E2 & N2).
  assert (F : forall e', ex1 = e' -> exists fc', (x <- (if mid_compound_ellision f then ellision_loop u (fun cs => biggest_compound u cs 2) e' cs1 ex1 else Ret (cs1, ex1)) ;;
     (let (cs, excess) := x in if excess =? 0 then Ret (recompute_width u k (with_compounds fc cs (visible_length fc))) else
        let (excess_left, excess_right) := excesses (ft_align f) excess in
        cs <- (if 0 <? excess_left then cs <- truncate_left u cs excess_left ;; Ret (raw_str ELLIPSIS :: cs) else Ret cs) ;;
        cs <- (if 0 <? excess_right then cs <- truncate_right u cs excess_right ;; Ret (cs ++ [raw_str ELLIPSIS]) else Ret cs) ;;
        Ret (recompute_width u k (with_compounds fc cs (visible_length fc))))) = Ret fc').
  { intros e' <-. rewrite E2, bind_ret. destruct (ex2 =? 0); [eauto|]. destruct (excesses (ft_align f) ex2) as (l, r) eqn:Ee.
    assert (E3 : exists cs3, (if 0 <? l then cs <- truncate_left u cs2 l ;; Ret (raw_str ELLIPSIS :: cs) else Ret cs2) = Ret cs3).
    { destruct (Nat.ltb_spec 0 l) as [Hl|Hl]; [|eauto]. destruct Ha as [[Ha|Ha]|Ha]; [rewrite Ha in Ee; injection Ee as <- <-; lia..|].
      destruct (truncate_left_spec u cs2 l) as (H & _). destruct (H (N2 (N1 Ha))) as (cs3 & E3). rewrite E3, bind_ret. eauto. }
    destruct E3 as (cs3 & E3). rewrite E3, bind_ret. destruct (0 <? r); [|rewrite bind_ret; eauto]. destruct (truncate_right_ret u cs3 r) as (cs4 & E4). rewrite E4, !bind_ret. eauto. }
  apply F. reflexivity.
Qed.
Lemma narrow_tokens u cs : additive u -> Forall (fun ch => chw u ch <= 1) (text_of cs) -> tokens_ok u cs.
Proof.
  intros Hu F c a r b Ic (Es & _) (Hb & Hw).
  assert (Fr : Forall (fun ch => chw u ch <= 1) r).
  { apply Forall_forall. intros x Ix. rewrite Forall_forall in F. apply F. unfold text_of. apply in_flat_map. exists c. split; [exact Ic|]. rewrite Es. rewrite !in_app_iff. auto. }
  destruct (@two_ends _ r) as (x & m & y & ->).
  { destruct r as [|x [|y r]]; cbn [length]; try lia; exfalso; [cbn in Hb; lia|]. apply (@one_char_small u x). split; assumption. }
  rewrite interior_mid, Hu. rewrite Hu, sumw_cons, sumw_app, sumw_cons in Hw. change (sumw (chw u) []) with 0 in Hw. inversion Fr as [|? ? Hx Fr']; subst. apply Forall_app in Fr' as (_ & Fy). inversion Fy; subst. lia.
Qed.
