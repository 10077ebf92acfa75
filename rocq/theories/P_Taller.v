(** * A wider area never makes a paragraph taller (C84) *)
From Verif Require Import Base L_Base M_Style M_Fit M_Wrap S_Wrap L_Wrap P_Wrap M_Text S_Text L_Text P_Text S_Taller Demo.
Set Implicit Arguments.
Open Scope nat_scope.

(** ** Counting the lines *)

(** the state is the number of ended lines and the column *)
Definition place (w : nat) (st : nat * nat) (t : bool * nat) : nat * nat :=
  if w <? snd st + snd t then if fst t then st else (S (fst st), snd t) else (fst st, snd st + snd t).
Definition widths_of (ts : list Token) : list (bool * nat) := map (fun t => (blank t, t_width t)) ts.

Lemma wrap_count u k d width : additive u -> d <= width -> forall ts cs dst lines n c, Forall2 (tok_basic u) ts cs ->
  visible_length dst = d + c -> lead k (next_kind (fc_kind dst)) = d -> wrap_tokens u k width ts dst = Ret lines ->
  n + length lines = S (fst (fold_left (place (width - d)) (widths_of ts) (n, c))).
Proof.
  intros Hu Hd. induction ts as [|t ts IH]; intros cs dst lines n c HF; inversion HF as [|? x ? cs' Ht HF']; subst; intros Hv Hk; cbn [wrap_tokens widths_of map fold_left].
  - intros E. injection E as <-. cbn. lia.
  - fold (widths_of ts). unfold place at 2. cbn [fst snd]. destruct Ht as (T1 & _ & T2 & _). rewrite Hv. rewrite T1.
    destruct (Nat.ltb_spec width (d + c + t_width t)); [rewrite (proj2 (Nat.ltb_lt _ _)) by lia|rewrite (proj2 (Nat.ltb_ge _ _)) by lia].
    + destruct (blank t) eqn:B; cbn [negb]; [apply IH with (1 := HF'); auto|]. rewrite bind_ret. intros E. apply bind_Ret_inv in E as (rest & E1 & E2). injection E2 as <-. cbn [length].
      replace (n + S (length rest)) with (S n + length rest) by lia. eapply IH; [exact HF'| | |exact E1].
      * rewrite follow_up_eq. cbn [add_compound visible_length]. rewrite Hk, Hu, T2. reflexivity.
      * rewrite follow_up_eq. cbn [add_compound fc_kind]. rewrite next_next. exact Hk.
    + rewrite bind_ret. intros E. eapply IH; [exact HF'| | |exact E]; [|exact Hk]. cbn [add_compound visible_length]. rewrite Hv, Hu, T2. lia.
Qed.

(** ** Words instead of tokens *)

(** a blank, or a word of some length *)
Definition absorb (x : bool * nat) (p : list (bool * nat)) : list (bool * nat) :=
  match x, p with (false, a), (false, n) :: p => (false, a + n) :: p | _, _ => x :: p end.
Fixpoint pieces (l : list bool) : list (bool * nat) := match l with [] => [] | b :: r => absorb (b, 1) (pieces r) end.
Definition put (w : nat) (st : nat * nat) (p : bool * nat) : nat * nat :=
  let '(n, c) := st in let '(b, l) := p in
  if b then (if w <? c + 1 then st else (n, c + 1))
  else if c + l <=? w then (n, c + l) else (n + (if c =? 0 then 0 else 1) + (l - 1) / w, (l - 1) mod w + 1).

Lemma put_place w n c t : 1 <= w -> 1 <= t <= w -> c <= w -> put w (n, c) (false, t) = place w (n, c) (false, t).
Proof.
  intros Hw Ht Hc. unfold put, place. cbn [fst snd]. destruct (Nat.leb_spec (c + t) w); [rewrite (proj2 (Nat.ltb_ge _ _)) by lia; reflexivity|].
  rewrite (proj2 (Nat.ltb_lt _ _)) by lia. rewrite (proj2 (Nat.eqb_neq _ _)) by lia. rewrite Nat.div_small, Nat.mod_small by lia. f_equal; lia.
Qed.
Lemma put_more w n c l : 1 <= w -> c <= w -> 1 <= l -> put w (put w (n, c) (false, w)) (false, l) = put w (n, c) (false, w + l).
Proof.
  intros Hw Hc Hl. unfold put at 2 3. rewrite (proj2 (Nat.leb_gt (c + (w + l)) w)) by lia.
  assert (E : (if c + w <=? w then (n, c + w) else (n + (if c =? 0 then 0 else 1) + (w - 1) / w, (w - 1) mod w + 1)) = (n + (if c =? 0 then 0 else 1), w)).
  { destruct (Nat.eqb_spec c 0) as [->|]; [rewrite (proj2 (Nat.leb_le _ _)) by lia; f_equal; lia|]. rewrite (proj2 (Nat.leb_gt _ _)) by lia. rewrite Nat.div_small, Nat.mod_small by lia. f_equal; lia. }
  rewrite E. unfold put. rewrite (proj2 (Nat.leb_gt _ _)) by lia. rewrite (proj2 (Nat.eqb_neq w 0)) by lia.
  replace (w + l - 1) with ((l - 1) + 1 * w) by lia. rewrite Nat.div_add, Nat.mod_add by lia. f_equal. lia.
Qed.
Lemma put_col w st p : 1 <= w -> snd st <= w -> snd (put w st p) <= w.
Proof.
  intros Hw. destruct st as (n, c), p as (b, l). cbn [snd put]. intros Hc. destruct b.
  - destruct (Nat.ltb_spec w (c + 1)); cbn [snd]; lia.
  - destruct (Nat.leb_spec (c + l) w); cbn [snd]; [lia|]. pose proof (Nat.mod_upper_bound (l - 1) w). lia.
Qed.
Lemma fold_col w ps : 1 <= w -> forall st, snd st <= w -> snd (fold_left (put w) ps st) <= w.
Proof. intros Hw. induction ps as [|p ps IH]; intros st H; [exact H|]. apply IH, put_col; assumption. Qed.
Lemma absorb_more w t l ps st : 1 <= w -> 1 <= l -> snd st <= w -> t = w ->
  fold_left (put w) (absorb (false, l) ps) (put w st (false, t)) = fold_left (put w) (absorb (false, t) (absorb (false, l) ps)) st.
Proof.
  intros Hw Hl Hs ->. destruct st as (n, c). cbn [snd] in Hs. destruct ps as [|([|] & m) ps]; cbn [absorb fold_left]; rewrite put_more by lia; reflexivity.
Qed.

Section Words.
Context (u : unicode) (w : nat) (Hw : 1 <= w).
Lemma loop_words c : forall s i t n col, col <= w -> 1 <= t_width t <= w -> (blank t = true -> t_width t = 1) -> Forall (fun ch => chw u ch = 1) s ->
  spaced (blank t :: map (is_blank u (c_code c)) s) ->
  fold_left (place w) (widths_of (tokenize_loop u c w s i (Some t))) (n, col) = fold_left (put w) (absorb (blank t, t_width t) (pieces (map (is_blank u (c_code c)) s))) (n, col).
Proof.
  induction s as [|ch s IH]; intros i t n col Hc Ht Hb Hs Hsp.
  - cbn [tokenize_loop widths_of map fold_left pieces]. destruct (blank t) eqn:B; cbn [absorb fold_left].
    + rewrite Hb by reflexivity. unfold put, place. cbn [fst snd]. reflexivity.
    + rewrite put_place by lia. reflexivity.
  - inversion Hs as [|? ? W Hs']; subst. cbn [tokenize_loop]. cbv zeta. change (is_white u ch && negb (c_code c))%bool with (is_blank u (c_code c) ch). rewrite W.
    destruct Hsp as (Hn & Hsp). cbn [map] in Hn, Hsp. set (b := is_blank u (c_code c) ch) in *. cbn [map pieces]. fold b. set (ps := pieces (map (is_blank u (c_code c)) s)) in *.
    destruct (Bool.eqb (blank t) b) eqn:B; cbn [andb].
    + apply Bool.eqb_prop in B. assert (Eb : b = false) by (destruct b; [|reflexivity]; exfalso; apply Hn; auto). rewrite Eb in B. clear Hb Hn.
      destruct (Nat.leb_spec (t_width t + 1) w).
      * rewrite IH; cbn [blank t_width]; rewrite ?B; auto; try lia; [|rewrite Eb in Hsp; exact Hsp]. rewrite Eb. destruct ps as [|([|] & m) ps']; cbn [absorb]; try reflexivity. do 3 f_equal. lia.
      * cbn [widths_of map fold_left]. fold (widths_of (tokenize_loop u c w s (i + len_utf8 ch) (Some (mkTok c b 1 i (i + len_utf8 ch))))). rewrite B, Eb. rewrite <- put_place by lia.
        assert (Hcol : snd (put w (n, col) (false, t_width t)) <= w) by (apply put_col; cbn; lia). destruct (put w (n, col) (false, t_width t)) as (n1, c1) eqn:E1. cbn [snd] in Hcol.
        rewrite IH; cbn [blank t_width]; auto; try lia; [|rewrite Eb in Hsp; exact Hsp]. rewrite <- E1. apply absorb_more; cbn; lia.
    + cbn [widths_of map fold_left]. fold (widths_of (tokenize_loop u c w s (i + len_utf8 ch) (Some (mkTok c b 1 i (i + len_utf8 ch))))).
      assert (E0 : place w (n, col) (blank t, t_width t) = put w (n, col) (blank t, t_width t)).
      { destruct (blank t) eqn:Bt; [rewrite Hb by reflexivity; unfold put, place; cbn [fst snd]; reflexivity|]. symmetry. apply put_place; lia. }
      rewrite E0. assert (Hcol : snd (put w (n, col) (blank t, t_width t)) <= w) by (apply put_col; cbn; lia). destruct (put w (n, col) (blank t, t_width t)) as (n1, c1) eqn:E1. cbn [snd] in Hcol.
      rewrite IH; cbn [blank t_width]; auto; try lia. rewrite <- E1.
      assert (Ea : absorb (blank t, t_width t) (absorb (b, 1) ps) = (blank t, t_width t) :: absorb (b, 1) ps) by (destruct (blank t), b; cbn in B; try discriminate; reflexivity).
      rewrite Ea. reflexivity.
Qed.
Lemma loop_none c n col : col <= w -> Forall (fun ch => chw u ch = 1) (src c) -> spaced (map (is_blank u (c_code c)) (src c)) ->
  fold_left (place w) (widths_of (tokenize_loop u c w (src c) 0 None)) (n, col) = fold_left (put w) (pieces (map (is_blank u (c_code c)) (src c))) (n, col).
Proof.
  intros Hc Hs Hsp. destruct (src c) as [|ch s]; [reflexivity|]. inversion Hs as [|? ? W Hs']; subst. cbn [tokenize_loop]. cbv zeta. rewrite W.
  change (is_white u ch && negb (c_code c))%bool with (is_blank u (c_code c) ch). rewrite loop_words; cbn [blank t_width]; auto; lia.
Qed.
Definition words (cs : list Compound) : list (bool * nat) := flat_map (fun c => pieces (map (is_blank u (c_code c)) (src c))) cs.
Lemma spaced_app a b : spaced (a ++ b) -> spaced a /\ spaced b.
Proof.
  induction a as [|x a IH]; [cbn; auto|]. cbn [app spaced]. intros (H1 & H2). destruct (IH H2) as (I1 & I2). split; [|exact I2]. split; [|exact I1]. destruct a; [exact I|exact H1].
Qed.
Lemma tokens_words : forall cs st, snd st <= w -> Forall (fun ch => chw u ch = 1) (text_of cs) -> spaced (blanks u cs) ->
  fold_left (place w) (widths_of (tokenize u cs w)) st = fold_left (put w) (words cs) st.
Proof.
  induction cs as [|c cs IH]; intros (n, col) Hc Hs Hsp; [reflexivity|]. cbn [tokenize words flat_map blanks text_of] in *. apply Forall_app in Hs as (Hs1 & Hs2). apply spaced_app in Hsp as (Hsp1 & Hsp2).
  unfold widths_of. rewrite map_app, !fold_left_app. fold (widths_of (tokenize_loop u c w (src c) 0 None)). rewrite loop_none by assumption. apply IH; auto. apply fold_col; auto.
Qed.
End Words.

(** ** Comparing two widths *)

(** words aren't empty, and there aren't two successive blanks *)
Fixpoint alternate (prev : bool) (ps : list (bool * nat)) : Prop :=
  match ps with [] => True | (b, l) :: r => 1 <= l /\ ~ (prev = true /\ b = true) /\ alternate b r end.

(** the state of the larger one is before the state of the narrower one, but for the blank which is at the end of a full line *)
Definition ahead (w : nat) (prev : bool) (st st' : nat * nat) : Prop :=
  fst st' < fst st \/ fst st' = fst st /\ (snd st' <= snd st \/ prev = true /\ snd st = w /\ snd st' <= w + 1).

Lemma div_lex l w w' : 1 <= w -> w <= w' -> l / w' < l / w \/ l / w' = l / w /\ l mod w' <= l mod w.
Proof.
  intros H1 H2. assert (l / w' <= l / w) by (apply Nat.div_le_compat_l; lia). pose proof (Nat.div_mod_eq l w). pose proof (Nat.div_mod_eq l w').
  destruct (Nat.eq_dec (l / w') (l / w)) as [E|]; [|lia]. right. split; [exact E|]. rewrite E in H3. assert (w * (l / w) <= w' * (l / w)) by (apply Nat.mul_le_mono_r; exact H2). set (x := w * (l / w)) in *. set (y := w' * (l / w)) in *. clearbody x y. lia.
Qed.

Lemma put_ahead w w' prev p st st' : 1 <= w -> w <= w' -> snd st <= w -> 1 <= snd p -> ~ (prev = true /\ fst p = true) ->
  ahead w prev st st' -> ahead w (fst p) (put w st p) (put w' st' p).
Proof.
  intros Hw Hww Hc Hl Hp. destruct st as (n, c), st' as (n', c'), p as (b, l). unfold ahead. cbn [fst snd] in *. intros H. destruct b.
  - unfold put. destruct (Nat.ltb_spec w (c + 1)), (Nat.ltb_spec w' (c' + 1)); cbn [fst snd]; destruct H as [H|(-> & [H|(-> & H & H')])]; try (left; lia); try (exfalso; apply Hp; auto; fail); right; (split; [reflexivity|]); try (left; lia); right; repeat split; lia.
  - clear Hp. unfold put. pose proof (div_lex (l - 1) Hw Hww) as D. pose proof (Nat.mod_upper_bound (l - 1) w) as M. pose proof (Nat.div_small (l - 1) w') as Z. pose proof (Nat.mod_small (l - 1) w') as Z'. pose proof (Nat.div_small (l - 1) w) as Y. pose proof (Nat.mod_small (l - 1) w) as Y'. pose proof (Nat.mod_le (l - 1) w') as ML.
    destruct (Nat.leb_spec (c + l) w), (Nat.leb_spec (c' + l) w'); cbn [fst snd].
    + destruct H as [H|(-> & [H|(_ & -> & H')])]; lia.
    + rewrite Z, Z' by lia. destruct (Nat.eqb_spec c' 0); destruct H as [H|(-> & [H|(_ & -> & H')])]; lia.
    + destruct (Nat.eqb_spec c 0); destruct H as [H|(-> & [H|(_ & -> & H')])]; try lia.
    + clear Z Z' Y Y'. destruct (Nat.eqb_spec c 0), (Nat.eqb_spec c' 0); destruct H as [H|(-> & [H|(_ & -> & H')])]; try lia.
Qed.
Lemma fold_ahead w w' : 1 <= w -> w <= w' -> forall ps prev st st', snd st <= w -> alternate prev ps -> ahead w prev st st' -> fst (fold_left (put w') ps st') <= fst (fold_left (put w) ps st).
Proof.
  intros Hw Hww. induction ps as [|(b, l) ps IH]; intros prev st st' Hc Ha H; cbn [fold_left].
  - unfold ahead in H. lia.
  - destruct Ha as (Hl & Hn & Ha). eapply IH; [apply put_col; assumption|exact Ha|]. change b with (fst (b, l)). eapply put_ahead; eauto.
Qed.

Lemma absorb_alt prev b l ps : 1 <= l -> ~ (prev = true /\ b = true) -> alternate b ps -> alternate prev (absorb (b, l) ps).
Proof.
  intros Hl Hp Ha. destruct b; [cbn; auto|]. destruct ps as [|([|] & m) ps]; cbn [absorb alternate] in *; auto. destruct Ha as (H1 & _ & H2). repeat split; auto; lia.
Qed.
Lemma pieces_alt l : forall prev, spaced (prev :: l) -> alternate prev (pieces l).
Proof.
  induction l as [|b l IH]; intros prev H; [exact I|]. cbn [pieces]. destruct H as (H1 & H2). apply absorb_alt; auto.
Qed.
(** the last one of a list, or [prev] *)
Lemma alternate_app ps : forall prev qs, alternate prev ps -> alternate (fold_left (fun _ p => fst p) ps prev) qs -> alternate prev (ps ++ qs).
Proof. induction ps as [|(b, l) ps IH]; intros prev qs H1 H2; [exact H2|]. cbn [app alternate fold_left fst] in *. destruct H1 as (A & B & C). auto. Qed.
Lemma absorb_last x ps prev : fold_left (fun _ p => fst p) (absorb x ps) prev = fold_left (fun (_ : bool) (p : bool * nat) => fst p) ps (fst x).
Proof. destruct x as ([|] & a); [reflexivity|]. destruct ps as [|([|] & m) ps]; reflexivity. Qed.
Lemma last_cons {A} (l : list A) : forall b prev, last (b :: l) prev = last l b.
Proof. induction l as [|x l IH]; intros b prev; [reflexivity|]. change (last (x :: l) prev = last (x :: l) b). rewrite !IH. reflexivity. Qed.
Lemma pieces_last l : forall prev, fold_left (fun (_ : bool) (p : bool * nat) => fst p) (pieces l) prev = last l prev.
Proof. induction l as [|b l IH]; intros prev; [reflexivity|]. cbn [pieces]. rewrite absorb_last, IH, last_cons. reflexivity. Qed.
Lemma spaced_last l r : forall prev, spaced (prev :: l ++ r) -> spaced (last l prev :: r).
Proof.
  induction l as [|b l IH]; intros prev H; [exact H|]. cbn [app] in H. destruct H as (_ & H). apply IH in H. rewrite last_cons. exact H.
Qed.
Lemma words_alt u cs : forall prev, spaced (prev :: blanks u cs) -> alternate prev (words u cs).
Proof.
  induction cs as [|c cs IH]; intros prev H; [exact I|]. cbn [words flat_map blanks] in *. apply alternate_app.
  - apply pieces_alt. apply (spaced_app (prev :: map (is_blank u (c_code c)) (src c))) in H. apply H.
  - rewrite pieces_last. apply IH. exact (spaced_last _ _ H).
Qed.

(** ** With one line, at most a blank is dropped *)
Definition total (ps : list (bool * nat)) : nat := sum (map snd ps).
Lemma put_grows w st p : fst st <= fst (put w st p).
Proof. destruct st as (n, c), p as ([|] & l); cbn [put fst]; [destruct (w <? c + 1); cbn [fst]; lia|]. destruct (c + l <=? w); cbn [fst]; [lia|]. rewrite <- Nat.add_assoc. apply Nat.le_add_r. Qed.
Lemma fold_grows w ps : forall st, fst st <= fst (fold_left (put w) ps st).
Proof. induction ps as [|p ps IH]; intros st; cbn; [lia|]. etransitivity; [apply put_grows|apply IH]. Qed.
Lemma one_line w : 1 <= w -> forall ps prev c, (forall p, In p ps -> fst p = true -> snd p = 1) -> alternate prev ps -> c <= w -> fst (fold_left (put w) ps (0, c)) = 0 ->
  c + total ps <= w + 1 /\ (prev = true -> c = w -> ps = []).
Proof.
  intros Hw. induction ps as [|(b, l) ps IH]; intros prev c H1 Ha Hc H; [unfold total; cbn; split; [lia|reflexivity]|].
  cbn [fold_left] in H. destruct Ha as (Hl & Hn & Ha). assert (H0 : fst (put w (0, c) (b, l)) = 0) by (pose proof (fold_grows w ps (put w (0, c) (b, l))); lia).
  assert (Ht : total ((b, l) :: ps) = l + total ps) by reflexivity. rewrite Ht. destruct b.
  - pose proof (H1 (true, l) (or_introl eq_refl) eq_refl) as El. cbn in El. subst l. cbn [put] in H, H0. destruct (Nat.ltb_spec w (c + 1)).
    + destruct (IH true c) as (A & B); auto; [intros; apply H1; auto; right; assumption|]. rewrite B by (auto; lia). split; [unfold total; cbn; lia|]. intros X. exfalso. apply Hn. auto.
    + destruct (IH true (c + 1)) as (A & B); auto; [intros; apply H1; auto; right; assumption|]. split; [lia|]. intros X. exfalso. apply Hn. auto.
  - cbn [put] in H, H0. destruct (Nat.leb_spec (c + l) w).
    + destruct (IH false (c + l)) as (A & B); auto; [intros; apply H1; auto; right; assumption|]. split; [lia|]. lia.
    + exfalso. cbn [fst] in H0. destruct (Nat.eqb_spec c 0) as [->|]; [|lia]. assert (1 <= (l - 1) / w) by (apply Nat.div_le_lower_bound; lia). lia.
Qed.
Lemma absorb_ones x ps : (fst x = true -> snd x = 1) -> (forall p, In p ps -> fst p = true -> snd p = 1) -> forall p, In p (absorb x ps) -> fst p = true -> snd p = 1.
Proof.
  destruct x as ([|] & a); cbn [fst snd]; intros Hx H p.
  - cbn. intros [<-|I] E; [auto|]. apply H; assumption.
  - destruct ps as [|([|] & m) ps]; cbn [absorb]; intros [<-|I] E; try discriminate E; apply H; auto; right; assumption.
Qed.
Lemma words_ones u cs p : In p (words u cs) -> fst p = true -> snd p = 1.
Proof.
  unfold words. intros I. apply in_flat_map in I as (c & _ & I). revert I. generalize (map (is_blank u (c_code c)) (src c)) as l. intros l. revert p. induction l as [|b l IH]; intros p I; [destruct I|].
  cbn [pieces] in I. eapply absorb_ones; [|exact IH|exact I]. reflexivity.
Qed.
Lemma absorb_total x ps : total (absorb x ps) = snd x + total ps.
Proof. destruct x as ([|] & a); [reflexivity|]. destruct ps as [|([|] & m) ps]; unfold total; cbn; lia. Qed.
Lemma words_total u cs : total (words u cs) = length (text_of cs).
Proof.
  induction cs as [|c cs IH]; [reflexivity|]. 
  change (words u (c :: cs)) with (pieces (map (is_blank u (c_code c)) (src c)) ++ words u cs). change (text_of (c :: cs)) with (src c ++ text_of cs).
  assert (E : forall a b, total (a ++ b) = total a + total b) by (intros; unfold total; rewrite map_app, sum_app; reflexivity). rewrite E, app_length, IH. f_equal.
  generalize (src c) as s. induction s as [|ch s IHs]; [reflexivity|]. cbn [map pieces length]. rewrite absorb_total, IHs. reflexivity.
Qed.

(** ** The theorem *)

Lemma wrap_length u k fc w lines : additive u -> simple u k fc -> lead k (fc_kind fc) < w -> 3 <= w -> w < visible_length fc -> hard_wrap_composite u k fc w = Ret (Some lines) ->
  (exists a b, clean_cut u (lead k (fc_kind fc)) (lead k (fc_kind fc)) w (fc_compounds fc) = Some (a, b)) /\ length lines = 2
  \/ clean_cut u (lead k (fc_kind fc)) (lead k (fc_kind fc)) w (fc_compounds fc) = None
     /\ length lines = S (fst (fold_left (put (w - lead k (fc_kind fc))) (words u (fc_compounds fc)) (0, 0))).
Proof.
  intros Hu (Hok & Hn & Hsp & Hl) Hw H3 Hv. unfold hard_wrap_composite. rewrite kind_widths. rewrite (proj2 (Nat.ltb_ge _ _)) by lia. rewrite (proj2 (Nat.leb_gt _ _)) by lia. cbv zeta. rewrite Hl.
  destruct (clean_cut _ _ _ _ _) as [(a, b)|] eqn:E; [intros F; injection F as <-; left; split; [eauto|reflexivity]|]. right. split; [reflexivity|]. revert H. rewrite csub_ret, bind_ret by lia. intros F. apply bind_Ret_inv in F as (ls & F & F'). injection F' as <-.
  destruct (tokens_basic u (w - lead k (fc_kind fc)) (fc_compounds fc)) as (cs & HF & _). rewrite <- tokens_words by (auto; cbn; lia).
  change (length ls) with (0 + length ls). eapply (@wrap_count u k (lead k (fc_kind fc)) w Hu); [lia|exact HF| | |exact F]; [cbn; lia|exact Hl].
Qed.
Lemma clean_mono u d w w' cs x : w <= w' -> clean_cut u d d w cs = Some x -> clean_cut u d d w' cs = Some x.
Proof.
  intros H. unfold clean_cut. destruct cs as [|a [|b [|c [|]]]]; try discriminate; intros E.
  - destruct (Nat.leb_spec (strw u (src a) + d) w); [|discriminate]. destruct (Nat.leb_spec (strw u (src b) + d) w); [|discriminate]. rewrite !(proj2 (Nat.leb_le _ _)) by lia. exact E.
  - destruct (Nat.leb_spec (strw u (src a) + d) w); [|discriminate]. destruct (Nat.leb_spec (strw u (src c) + d) w); [|discriminate]. rewrite !(proj2 (Nat.leb_le _ _)) by lia. exact E.
Qed.
Lemma sumw_ones u s : Forall (fun c => chw u c = 1) s -> sumw (chw u) s = length s.
Proof. induction 1 as [|c s H _ IH]; [reflexivity|]. rewrite sumw_cons, H, IH. reflexivity. Qed.

(** With chars of one column and single blanks, the number of lines doesn't grow when the width does *)
Theorem C84_not_taller_partial : forall u k fc w w' n n', additive u -> simple u k fc -> 3 <= w -> lead k (fc_kind fc) < w -> w <= w' ->
  tall u k fc w n -> tall u k fc w' n' -> n' <= n.
Proof.
  intros u k fc w w' n n' Hu Hs H3 Hl Hww Hn Hn'. destruct (Nat.eq_dec w w') as [<-|Nw].
  { destruct Hn as [(H & ->)|(H & ls & E & ->)], Hn' as [(H' & ->)|(H' & ls' & E' & ->)]; try lia. rewrite E in E'. injection E' as <-. lia. }
  destruct Hn' as [(H' & ->)|(H' & ls' & E' & ->)].
  - destruct Hn as [(H & ->)|(H & ls & E & ->)]; [lia|]. destruct (wrap_length Hu Hs Hl H3 H E) as [(_ & ->)|(_ & ->)]; lia.
  - destruct Hn as [(H & ->)|(H & ls & E & ->)]; [lia|]. destruct (wrap_length Hu Hs (w := w') (lines := ls')) as [((a & b & C') & ->)|(C' & ->)]; try lia; auto;
    destruct (wrap_length Hu Hs Hl H3 H E) as [((x & y & C) & ->)|(C & ->)]; try lia.
    + destruct Hs as (Hok & Hone & Hsp & Hnk). pose proof (words_alt (prev := false) u (fc_compounds fc)) as A. assert (Sp : spaced (false :: blanks u (fc_compounds fc))) by (split; [destruct (blanks u (fc_compounds fc)); [exact I|intros (X & _); discriminate]|exact Hsp]). specialize (A Sp).
      destruct (fst (fold_left (put (w - lead k (fc_kind fc))) (words u (fc_compounds fc)) (0, 0))) as [|m] eqn:Z; [exfalso|lia].
      apply (one_line (w := w - lead k (fc_kind fc))) with (prev := false) in Z as (Z & _); auto; try lia; [|apply words_ones]. rewrite words_total in Z. unfold length_ok, shown in Hok. rewrite sumw_ones in Hok by exact Hone. lia.
    + apply clean_mono with (w' := w') in C; [congruence|lia].
    + apply le_n_S. destruct Hs as (Hok & Hone & Hsp & Hnk). apply fold_ahead with (prev := false); try lia; [cbn; lia| |right; cbn; auto].
      apply words_alt. split; [destruct (blanks u (fc_compounds fc)); [exact I|intros (X & _); discriminate]|exact Hsp].
Qed.
Print Assumptions C84_not_taller_partial.
Definition of_strings (kind : CompositeKind) (l : list str) : FmtComposite :=
  let cs := map (fun s => mkCompound s false false false false) l in mkFC kind cs (visible_composite_length demo skin_default kind cs) None.
Lemma one_col u l : forallb (fun c => chw u c =? 1) l = true -> Forall (fun c => chw u c = 1) l.
Proof. intros H. apply Forall_forall. intros c I. rewrite forallb_forall in H. apply Nat.eqb_eq, H, I. Qed.
Fixpoint spacedb (l : list bool) : bool :=
  match l with a :: r => negb (a && match r with b :: _ => b | [] => false end) && spacedb r | [] => true end.
Lemma spacedb_spaced l : spacedb l = true -> spaced l.
Proof.
  induction l as [|a [|b r] IH]; cbn [spacedb spaced]; intros H; [exact I|tauto|].
  apply andb_prop in H. destruct H as (A & B). split; [|apply IH; exact B]. intros (-> & ->). discriminate A.
Qed.

(** Three words in a quote: 3, 2 and 1 lines *)
Example C84_example : let fc := of_strings KQuote [letters 5 ++ [32%N]; letters 4 ++ [32%N] ++ letters 3] in
  simple demo skin_default fc /\ Forall2 (fun w n => tall demo skin_default fc w n) [7; 8; 12; 15; 16; 40] [3; 3; 2; 2; 1; 1].
Proof.
  cbv zeta. split.
  - refine (conj _ (conj _ (conj _ _))); [reflexivity|apply one_col; vm_compute; reflexivity| |reflexivity]. apply spacedb_spaced. vm_compute. reflexivity.
  - do 6 (apply Forall2_cons; [vm_compute; first [left; split; [lia|reflexivity] | right; split; [lia|eexists; split; reflexivity]]|]). constructor.
Qed.

(** Several blanks which don't fit are dropped and the next word is glued, while a wider area has place for the blanks *)
Theorem C84_blanks_refuted : exists fc w, length_ok demo skin_default fc /\ fc_kind fc = KParagraph /\ Forall (fun c => chw demo c = 1) (text_of (fc_compounds fc))
  /\ tall demo skin_default fc w 1 /\ tall demo skin_default fc (w + 1) 2.
Proof.
  exists (of_strings KParagraph [letters 4 ++ [32; 32; 32]%N ++ letters 1]), 6. refine (conj _ (conj _ (conj _ (conj _ _)))); [reflexivity|reflexivity|apply one_col; vm_compute; reflexivity|..];
  right; (split; [vm_compute; lia|]); eexists; split; vm_compute; reflexivity.
Qed.
(** Wide chars: a longer piece doesn't fit any more beside the previous compound *)
Theorem C84_wide_refuted : exists fc w, length_ok demo skin_default fc /\ fc_kind fc = KParagraph /\ spaced (blanks demo (fc_compounds fc))
  /\ tall demo skin_default fc w 2 /\ tall demo skin_default fc (w + 1) 3.
Proof.
  exists (of_strings KParagraph [letters 1; [27010; 27010; 27010; 27010]%N]), 5. refine (conj _ (conj _ (conj _ (conj _ _)))); [reflexivity|reflexivity|..].
  - apply spacedb_spaced. vm_compute. reflexivity.
  - right. split; [vm_compute; lia|]. eexists. split; vm_compute; reflexivity.
  - right. split; [vm_compute; lia|]. eexists. split; vm_compute; reflexivity.
Qed.
(** The default skin, with only the first line of the items being indented *)
Definition skin_first_line : MadSkin := let k := skin_default in
  mkSkin (paragraph k) (bold k) (italic k) (strikeout k) (inline_code k) (code_block k) (headers k) (scrollbar k)
    (table k) (bullet k) (quote_mark k) (horizontal_rule k) (ellipsis k) (table_border_chars k) FirstLineOnly.
(** An item, only its first line being indented: the pieces are cut for the first line, the other ones having more place *)
Theorem C84_item_refuted : exists fc w, length_ok demo skin_first_line fc /\ Forall (fun c => chw demo c = 1) (text_of (fc_compounds fc)) /\ spaced (blanks demo (fc_compounds fc))
  /\ lead skin_first_line (fc_kind fc) < w /\ tall demo skin_first_line fc w 4 /\ tall demo skin_first_line fc (w + 1) 5.
Proof.
  exists (of_strings (KListItem 0) [32%N :: letters 12]), 4. refine (conj _ (conj _ (conj _ (conj _ (conj _ _))))); [reflexivity|apply one_col; vm_compute; reflexivity|..].
  - apply spacedb_spaced. vm_compute. reflexivity.
  - vm_compute. lia.
  - right. split; [vm_compute; lia|]. eexists. split; vm_compute; reflexivity.
  - right. split; [vm_compute; lia|]. eexists. split; vm_compute; reflexivity.
Qed.

(** ** Whole texts *)

(** A line which isn't in a table, simple and without margin *)
Definition simple_line (u : unicode) (k : MadSkin) (w : nat) (l : FmtLine) : Prop :=
  match l with
  | Normal fc => simple u k fc /\ lead k (fc_kind fc) < w /\ exists ls, line_style k (fc_kind fc) = Ret ls /\ left_margin ls = 0 /\ right_margin ls = 0
  | HorizontalRule => True
  | _ => False
  end.
Lemma lines_not_taller u k w w' : additive u -> 3 <= w -> w <= w' -> forall lines, Forall (simple_line u k w) lines ->
  forall l l', hard_wrap_lines u k lines w = Ret (Some l) -> hard_wrap_lines u k lines w' = Ret (Some l') -> length l' <= length l.
Proof.
  intros Hu H3 Hww. induction 1 as [|x lines Hx _ IH]; intros l l'; [cbn; intros E E'; injection E as <-; injection E' as <-; lia|].
  destruct x as [fc| | |]; try contradiction; cbn [hard_wrap_lines].
  - destruct Hx as (Hs & Hl & ls & Els & M1 & M2). rewrite Els, !bind_ret. assert (Em : forall v, margins_in ls (Some v) = (0, 0)).
    { intros v. cbn [margins_in]. rewrite M1, M2. destruct (v <? _); reflexivity. }
    rewrite !Em, !Nat.add_0_r.
    assert (A : forall v (r : list FmtLine), 3 <= v -> (if visible_length fc <=? v then o <- hard_wrap_lines u k lines v;; Ret (option_map (cons (Normal fc)) o) else
         w0 <- csub v 0;; w1 <- csub w0 0;; o <- hard_wrap_composite u k fc w1;;
         match o with Some fcs => o0 <- hard_wrap_lines u k lines v;; Ret (option_map (app (map Normal fcs)) o0) | None => Ret None end) = Ret (Some r) ->
         exists n r1, tall u k fc v n /\ hard_wrap_lines u k lines v = Ret (Some r1) /\ length r = n + length r1).
    { intros v r Hv. destruct (Nat.leb_spec (visible_length fc) v) as [L|L].
      - intros E. apply bind_Ret_inv in E as ([o|] & E & F); [|discriminate]. injection F as <-. exists 1, o. repeat split; auto. left. auto.
      - rewrite csub_ret, bind_ret by lia. rewrite csub_ret, bind_ret by lia. rewrite !Nat.sub_0_r. intros E. apply bind_Ret_inv in E as ([fcs|] & E & F); [|discriminate].
        apply bind_Ret_inv in F as ([o|] & F & G); [|discriminate]. injection G as <-. exists (length fcs), o. split; [right; split; [exact L|eauto]|]. split; [exact F|]. rewrite app_length, map_length. reflexivity. }
    intros E E'. apply A in E as (n & r & T & F & ->); [|lia]. apply A in E' as (n' & r' & T' & F' & ->); [|lia].
    pose proof (C84_not_taller_partial Hu Hs H3 Hl Hww T T'). pose proof (IH _ _ F F'). lia.
  - intros E E'. apply bind_Ret_inv in E as ([o|] & E & F); [|discriminate]. injection F as <-. apply bind_Ret_inv in E' as ([o'|] & E' & F'); [|discriminate]. injection F' as <-. cbn. apply le_n_S. eauto.
Qed.

Lemma by_runs_none {A} (p : A -> bool) R a b : by_runs p R a b -> Forall (fun x => p x = false) a -> b = a.
Proof.
  induction 1 as [|x a b Hx _ IH|t t' a b Hn Ht _ _ _ _]; intros F; [reflexivity|..].
  - inversion F; subst. rewrite IH by assumption. reflexivity.
  - exfalso. destruct t; [congruence|]. inversion F; subst. inversion Ht; subst. congruence.
Qed.

(** A text without table, whose lines are simple and without margins, isn't taller in a wider area *)
Theorem C84_text_partial : forall u k usize_max text w w' t t', additive u -> 3 <= w -> w <= w' -> Forall (simple_line u k w) (map (line_from u k) text) ->
  from_text u k usize_max text (Some w) = Ret t -> from_text u k usize_max text (Some w') = Ret t' -> length (txt_lines t') <= length (txt_lines t).
Proof.
  intros u k um text w w' t t' Hu H3 Hww Hs. unfold from_text. set (lines := map (line_from u k) text) in *. clearbody lines.
  assert (Hf : forall v out, fix_all_tables u k lines v = Ret out -> out = lines).
  { intros v out E. apply fix_all_iff in E. eapply by_runs_none; [exact E|]. eapply Forall_impl; [|exact Hs]. intros []; cbn; tauto. }
  assert (Hj : Forall (simple_line u k w) (justify_blocks lines)).
  { eapply by_runs_Forall with (P := simple_line u k w); [| |apply C34_justified|exact Hs]; [|auto]. cbv beta. intros a b _ HP (x & _ & _ & HF). clear - HP HF. induction HF as [|l l' t t' (fc & -> & ->) _ IH]; [constructor|]. inversion HP; subst. constructor; [assumption|auto]. }
  intros E E'. apply bind_Ret_inv in E as (l1 & E1 & E). apply bind_Ret_inv in E' as (l1' & E1' & E'). apply Hf in E1 as ->. apply Hf in E1' as ->.
  rewrite (proj2 (Nat.leb_le _ _)) in E by lia. rewrite (proj2 (Nat.leb_le _ _)) in E' by lia.
  apply bind_Ret_inv in E as ([o|] & E & F); [|discriminate]. injection F as <-. apply bind_Ret_inv in E' as ([o'|] & E' & F'); [|discriminate]. injection F' as <-.
  cbn [txt_lines]. eapply lines_not_taller; eassumption.
Qed.
Print Assumptions C84_text_partial.
Example C84_text_example : let text := [MNormal (mkMC MParagraph [mkCompound (letters 5 ++ [32%N] ++ letters 9) false false false false]); MHorizontalRule; MNormal (mkMC MQuote [mkCompound (letters 20) true false false false])] in
  Forall (simple_line demo skin_default 5) (map (line_from demo skin_default) text)
  /\ map (fun w => match from_text demo skin_default 1000 text (Some w) with Ret t => length (txt_lines t) | _ => 0 end) [5; 6; 7; 10; 15; 22] = [11; 9; 8; 6; 4; 3].
Proof.
  cbv zeta. split; [|vm_compute; reflexivity]. apply Forall_cons; [|apply Forall_cons; [exact I|apply Forall_cons; [|constructor]]].
  - split; [|split; [vm_compute; lia|eexists; split; [reflexivity|split; reflexivity]]]. refine (conj _ (conj _ (conj _ _))); [reflexivity|apply one_col; vm_compute; reflexivity| |reflexivity]. apply spacedb_spaced. vm_compute. reflexivity.
  - split; [|split; [vm_compute; lia|eexists; split; [reflexivity|split; reflexivity]]]. refine (conj _ (conj _ (conj _ _))); [reflexivity|apply one_col; vm_compute; reflexivity| |reflexivity]. apply spacedb_spaced. vm_compute. reflexivity.
Qed.
(** The margins of a style are forgotten when the area is too narrow for them: with margins of 4 and 4, a text is taller in 11 columns than in 10 *)
Theorem C84_margins_refuted : exists k w t t', let text := [MNormal (mkMC MParagraph [mkCompound (letters 9) false false false false])] in
  from_text demo k 1000 text (Some w) = Ret t /\ from_text demo k 1000 text (Some (w + 1)) = Ret t' /\ length (txt_lines t) < length (txt_lines t').
Proof.
  pose (k := skin_default).
  exists (mkSkin (mkLS (ls_cs (paragraph k)) Unspecified 4 4) (bold k) (italic k) (strikeout k) (inline_code k) (code_block k) (headers k) (scrollbar k)
    (table k) (bullet k) (quote_mark k) (horizontal_rule k) (ellipsis k) (table_border_chars k) (indent_mode k)), 10.
  eexists _, _. split; [vm_compute; reflexivity|]. split; [vm_compute; reflexivity|]. vm_compute. lia.
Qed.
