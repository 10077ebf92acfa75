(** * Facts on the regular expressions *)
From Coq Require Import Ascii String.
From Verif Require Import Base L_Base M_Style M_Parse S_Parse M_Regex S_Regex.
Set Implicit Arguments.
Open Scope list_scope.
Open Scope nat_scope.

(** ** Sequences *)
Fixpoint go (k : classes) (i : bool) (rs : list regex) (s : st) : list st :=
  match rs with [] => [s] | r :: rs' => flat_map (go k i rs') (run k i r s) end.
Fixpoint flatten (r : regex) : list regex :=
  match r with RxSeq a b => flatten a ++ flatten b | RxEmpty => [] | x => [x] end.
Lemma flat_map_flat_map A B C (f : A -> list B) (g : B -> list C) l : flat_map g (flat_map f l) = flat_map (fun x => flat_map g (f x)) l.
Proof. induction l as [|x l IH]; [reflexivity|]. cbn. rewrite flat_map_app, IH. reflexivity. Qed.
Lemma flat_map_ext_in' A B (f g : A -> list B) l : (forall x, f x = g x) -> flat_map f l = flat_map g l.
Proof. intros H. induction l as [|x l IH]; [reflexivity|]. cbn. rewrite H, IH. reflexivity. Qed.
Lemma flat_map_map A B C (f : A -> B) (g : B -> list C) l : flat_map g (map f l) = flat_map (fun x => g (f x)) l.
Proof. induction l as [|x l IH]; [reflexivity|]. cbn. rewrite IH. reflexivity. Qed.
Lemma go_app k i a b s : go k i (a ++ b) s = flat_map (go k i b) (go k i a s).
Proof.
  revert s. induction a as [|r a IH]; intros s; cbn [app go]; [cbn; rewrite app_nil_r; reflexivity|].
  rewrite flat_map_flat_map. apply flat_map_ext_in'. exact IH.
Qed.
Lemma flat_map_one A (l : list A) : flat_map (fun x => [x]) l = l.
Proof. induction l as [|x l IH]; [reflexivity|]. cbn. rewrite IH. reflexivity. Qed.
Lemma run_go k i r s : run k i r s = go k i (flatten r) s.
Proof.
  revert s. induction r; intros s; cbn [flatten go]; try (rewrite flat_map_one; reflexivity); try reflexivity.
  rewrite go_app, <- IHr1. cbn [run]. apply flat_map_ext_in'. exact IHr2.
Qed.

(** ** Sets *)
Lemma variants_eq p c : ~ (65 <= p <= 90)%N -> existsb (in_set (mkClasses (fun _ => false) (fun _ => false) (fun _ => false)) (CChar p)) (variants c) = ci p c.
Proof.
  intros Hp. unfold variants, ci. rewrite !existsb_app. cbn [existsb in_set].
  destruct (N.eqb_spec p c), (N.eqb_spec c p); try lia; cbn [orb andb]; try reflexivity.
  destruct (N.leb_spec 65 c), (N.leb_spec c 90), (N.eqb_spec c 8490), (N.eqb_spec c 383); cbn [andb existsb]; try lia;
    unfold is_lower; destruct (N.leb_spec 97 c), (N.leb_spec c 122), (N.leb_spec 97 p), (N.leb_spec p 122); cbn [andb existsb orb]; try lia.
Qed.
Lemma set_char k p c : ~ (65 <= p <= 90)%N -> in_set_i k true (CChar p) c = ci p c.
Proof. intros H. rewrite <- variants_eq by exact H. reflexivity. Qed.
Definition letter (c : char) : Prop := (65 <= c <= 90)%N \/ (97 <= c <= 122)%N.
Lemma variants_class (g : char -> bool) c : (forall x, letter x -> g x = false) -> existsb g (variants c) = g c.
Proof.
  intros H. unfold variants. rewrite !existsb_app. cbn [existsb]. rewrite orb_false_r. destruct (g c) eqn:E; [reflexivity|]. cbn [orb].
  assert (A : existsb g (if (65 <=? c)%N && (c <=? 90)%N then [(c + 32)%N] else []) = false).
  { destruct (N.leb_spec 65 c), (N.leb_spec c 90); try reflexivity. cbn [andb existsb]. rewrite H; [reflexivity|]. right. lia. }
  assert (B : existsb g (if is_lower c then [(c - 32)%N] else []) = false).
  { unfold is_lower. destruct (N.leb_spec 97 c), (N.leb_spec c 122); try reflexivity. cbn [andb existsb]. rewrite H; [reflexivity|]. left. lia. }
  rewrite A, B. cbn [orb]. assert (D : existsb g (if (c =? 8490)%N then [75%N; 107%N] else []) = false).
  { destruct (c =? 8490)%N; [|reflexivity]. cbn. rewrite !H; [reflexivity|right; lia|left; lia]. }
  rewrite D. destruct (c =? 383)%N; [|reflexivity]. cbn. rewrite !H; [reflexivity|right; lia|left; lia].
Qed.
Lemma digit_letter k : ascii_classes k -> forall x, letter x -> rx_digit k x = false.
Proof.
  intros K x L. destruct (rx_digit k x) eqn:E; [|reflexivity]. apply (ascii_digit_class K) in E; [|unfold letter in L; lia]. unfold ascii_digit, letter in *. lia.
Qed.
Lemma space_letter k : ascii_classes k -> forall x, letter x -> rx_space k x = false.
Proof.
  intros K x L. destruct (rx_space k x) eqn:E; [|reflexivity]. apply (ascii_space_class K) in E; [|unfold letter in L; lia]. unfold ascii_space, letter in *. lia.
Qed.
Lemma set_digit k c : ascii_classes k -> in_set_i k true CDigit c = rx_digit k c.
Proof. intros K. apply variants_class, digit_letter, K. Qed.
Lemma set_space k c : ascii_classes k -> in_set_i k true CSpace c = rx_space k c.
Proof. intros K. apply variants_class, space_letter, K. Qed.
Lemma existsb_orb A (f g : A -> bool) l : existsb (fun x => f x || g x) l = existsb f l || existsb g l.
Proof. induction l as [|x l IH]; [reflexivity|]. cbn. rewrite IH. destruct (f x), (g x), (existsb f l); reflexivity. Qed.
Lemma set_union k a b c : in_set_i k true (CUnion a b) c = in_set_i k true a c || in_set_i k true b c.
Proof. apply existsb_orb. Qed.
Lemma set_none k c : in_set_i k true CNone c = false.
Proof. unfold in_set_i. induction (variants c); [reflexivity|exact IHl]. Qed.
Lemma set_af k c : in_set_i k true (CRange 97 102) c = ((97 <=? c)%N && (c <=? 102)%N) || ((65 <=? c)%N && (c <=? 70)%N).
Proof.
  unfold in_set_i, variants. rewrite !existsb_app. cbn [existsb in_set].
  destruct (N.leb_spec 65 c), (N.leb_spec c 90), (N.eqb_spec c 8490), (N.eqb_spec c 383); cbn [andb existsb]; try lia;
    unfold is_lower; destruct (N.leb_spec 97 c), (N.leb_spec c 122); cbn [andb existsb orb]; lia.
Qed.
Lemma set_hex k c : ascii_classes k -> in_set_i k true (CUnion (CUnion CNone CDigit) (CRange 97 102)) c = rx_hexdigit k c.
Proof. intros K. rewrite !set_union, set_none, set_af, (set_digit _ K). unfold rx_hexdigit. cbn [orb]. rewrite <- orb_assoc. reflexivity. Qed.

(** ** Literals *)
Definition lits (p : str) : list regex := map (fun c => RxSet (CChar c)) p.
Definition no_upper (p : str) : Prop := Forall (fun c => ~ (65 <= c <= 90)%N) p.
Lemma go_lits k p rs : no_upper p -> forall b s cs,
  go k true (lits p ++ rs) (mkSt b s cs) = match ci_prefix p s with Some t => go k true rs (mkSt (b && is_nil p) t cs) | None => [] end.
Proof.
  induction p as [|x p IH]; intros H b s cs; cbn [lits map app go ci_prefix is_nil].
  - rewrite andb_true_r. reflexivity.
  - inversion H as [|? ? H1 H2]; subst. cbn [run after caps]. destruct s as [|c s]; [reflexivity|]. rewrite set_char by exact H1. destruct (ci x c); [|reflexivity].
    cbn [flat_map]. rewrite app_nil_r. change (map (fun c0 => RxSet (CChar c0)) p) with (lits p). rewrite IH by exact H2. cbn [andb]. rewrite andb_false_r. reflexivity.
Qed.
Lemma ci_prefix_app p q s : ci_prefix (p ++ q) s = obind (ci_prefix p s) (ci_prefix q).
Proof.
  revert s. induction p as [|x p IH]; intros s; [reflexivity|]. destruct s as [|c s]; [reflexivity|]. cbn. destruct (ci x c); [apply IH|reflexivity].
Qed.

(** ** Greedy repetitions of a set *)
Lemma repeats_set_0 k i f fuel b s cs : List.length s < fuel ->
  repeats (run k i (RxSet f)) fuel 0 None (mkSt b s cs)
  = (match s with c :: t => if in_set_i k i f c then repeats (run k i (RxSet f)) (pred fuel) 0 None (mkSt false t cs) else [] | [] => [] end) ++ [mkSt b s cs].
Proof.
  destruct fuel as [|fuel]; [lia|]. intros H. cbn [repeats run after caps Nat.eqb pred]. destruct s as [|c t]; [reflexivity|].
  destruct (in_set_i k i f c); [|reflexivity]. cbn [flat_map after]. rewrite app_nil_r. destruct (Nat.ltb_spec (List.length t) (List.length (c :: t))) as [L|L]; [reflexivity|cbn in L; lia].
Qed.
Lemma repeats_set_1 k i f fuel b s cs : List.length s < fuel ->
  repeats (run k i (RxSet f)) fuel 1 None (mkSt b s cs)
  = match s with c :: t => if in_set_i k i f c then repeats (run k i (RxSet f)) (pred fuel) 0 None (mkSt false t cs) else [] | [] => [] end.
Proof.
  destruct fuel as [|fuel]; [lia|]. intros H. cbn [repeats run after caps Nat.eqb pred]. rewrite app_nil_r. destruct s as [|c t]; [reflexivity|].
  destruct (in_set_i k i f c); [|reflexivity]. cbn [flat_map after]. rewrite app_nil_r. destruct (Nat.ltb_spec (List.length t) (List.length (c :: t))) as [L|L]; [reflexivity|cbn in L; lia].
Qed.
(** what follows fails inside of the set: only the longest repetition remains *)
Lemma star_fail k i f (K : st -> list st) cs : (forall b c t, in_set_i k i f c = true -> K (mkSt b (c :: t) cs) = []) ->
  forall s fuel b, List.length s < fuel ->
  flat_map K (repeats (run k i (RxSet f)) fuel 0 None (mkSt b s cs)) = K (mkSt (b && is_nil (fst (span (in_set_i k i f) s))) (snd (span (in_set_i k i f) s)) cs).
Proof.
  intros HK. induction s as [|c s IH]; intros fuel b Hf; rewrite repeats_set_0 by exact Hf.
  - cbn. rewrite app_nil_r, andb_true_r. reflexivity.
  - cbn [span]. destruct (in_set_i k i f c) eqn:E.
    + rewrite flat_map_app. cbn in Hf. rewrite IH by lia. cbn [flat_map]. rewrite HK by exact E. cbn [app]. rewrite app_nil_r.
      destruct (span (in_set_i k i f) s) as [x y]. cbn [fst snd is_nil andb]. rewrite andb_false_r. reflexivity.
    + cbn. rewrite app_nil_r, andb_true_r. reflexivity.
Qed.
Lemma span_ext f g s : (forall c, f c = g c) -> span f s = span g s.
Proof. intros H. induction s as [|c s IH]; [reflexivity|]. cbn. rewrite H, IH. reflexivity. Qed.
Lemma plus_fail k i f g (K : st -> list st) cs : (forall c, in_set_i k i f c = g c) -> (forall b c t, g c = true -> K (mkSt b (c :: t) cs) = []) -> forall s b,
  flat_map K (run k i (RxRepeat 1 None (RxSet f)) (mkSt b s cs)) = match plus g s with Some (_, y) => K (mkSt false y cs) | None => [] end.
Proof.
  intros Hg HK s b. change (run k i (RxRepeat 1 None (RxSet f)) (mkSt b s cs)) with (repeats (run k i (RxSet f)) (S (List.length s)) 1 None (mkSt b s cs)).
  rewrite repeats_set_1 by lia. unfold plus. destruct s as [|c s]; [reflexivity|]. cbn [span]. rewrite Hg. destruct (g c) eqn:E; [|reflexivity].
  rewrite star_fail; [|intros; apply HK; rewrite <- Hg; assumption|cbn; lia]. rewrite (span_ext _ _ _ Hg). destruct (span g s) as [x y]. reflexivity.
Qed.
Lemma star_fail' k i f g (K : st -> list st) cs : (forall c, in_set_i k i f c = g c) -> (forall b c t, g c = true -> K (mkSt b (c :: t) cs) = []) -> forall s,
  flat_map K (run k i (RxRepeat 0 None (RxSet f)) (mkSt false s cs)) = K (mkSt false (snd (span g s)) cs).
Proof.
  intros Hg HK s. change (run k i (RxRepeat 0 None (RxSet f)) (mkSt false s cs)) with (repeats (run k i (RxSet f)) (S (List.length s)) 0 None (mkSt false s cs)).
  rewrite star_fail; [|intros; apply HK; rewrite <- Hg; assumption|lia]. rewrite (span_ext _ _ _ Hg). reflexivity.
Qed.
Lemma span_app' f s : fst (span f s) ++ snd (span f s) = s.
Proof. induction s as [|c s IH]; [reflexivity|]. cbn. destruct (f c); [|reflexivity]. destruct (span f s). cbn in *. rewrite IH. reflexivity. Qed.
(** the text which is matched *)
Lemma firstn_before (a b : str) : firstn (List.length (a ++ b) - List.length b) (a ++ b) = a.
Proof. rewrite app_length. replace (List.length a + List.length b - List.length b) with (List.length a) by lia. rewrite firstn_app, Nat.sub_diag, firstn_all. cbn. apply app_nil_r. Qed.
(** a captured [class+] *)
Definition captured (name v : str) (s : st) : st := mkSt (at_start s) (after s) (caps s ++ [(name, v)]).
Lemma group_plus k i name f g (K : st -> list st) cs : (forall c, in_set_i k i f c = g c) ->
  (forall b c t v, g c = true -> K (mkSt b (c :: t) (cs ++ [(name, v)])) = []) -> forall s b,
  flat_map K (run k i (RxGroup name (RxSeq RxEmpty (RxRepeat 1 None (RxSet f)))) (mkSt b s cs))
  = match plus g s with Some (x, y) => K (mkSt false y (cs ++ [(name, x)])) | None => [] end.
Proof.
  intros Hg HK s b. cbn [run]. change (flat_map (fun s0 => repeats (fun s1 => match after s1 with [] => [] | c :: t => if in_set_i k i f c then [mkSt false t (caps s1)] else [] end)
    (S (List.length (after s0))) 1 None s0) [mkSt b s cs]) with (run k i (RxRepeat 1 None (RxSet f)) (mkSt b s cs) ++ []).
  rewrite app_nil_r, flat_map_map. cbn [after]. rewrite (@plus_fail k i f g); [|exact Hg|intros; cbn [at_start after caps]; apply HK; assumption].
  unfold plus. pose proof (span_app' g s) as E. destruct (span g s) as [x y]. cbn [fst snd] in E. destruct (is_nil x); [reflexivity|]. cbn [at_start after caps].
  rewrite <- E, firstn_before. reflexivity.
Qed.

(** ** Finding *)
Lemma find_anchored k r rs s : flatten r = RxStart :: rs -> rx_captures k true r s = option_map caps (hd_error (go k true rs (mkSt true s []))).
Proof.
  intros E. unfold rx_captures, rx_find.
  assert (N : forall s before, find_at k true r false before s = None).
  { induction s0 as [|c t IH]; intros before; cbn [find_at]; rewrite run_go, E; cbn; [reflexivity|apply IH]. }
  assert (R : run k true r (mkSt true s []) = go k true rs (mkSt true s [])).
  { rewrite run_go, E. cbn [go run at_start flat_map]. apply app_nil_r. }
  destruct s as [|c t]; cbn [find_at]; rewrite R; destruct (go k true rs _) as [|m l]; try reflexivity. rewrite N. reflexivity.
Qed.
Fixpoint any_suffix (g : str -> bool) (s : str) : bool := g s || match s with [] => false | _ :: r => any_suffix g r end.
Lemma contains_suffix p s : ci_contains p s = any_suffix (fun t => is_some (ci_prefix p t)) s.
Proof. induction s as [|c s IH]; cbn; [reflexivity|]. rewrite IH. reflexivity. Qed.
Lemma any_suffix_or f g s : any_suffix (fun t => f t || g t) s = any_suffix f s || any_suffix g s.
Proof. induction s as [|c s IH]; cbn; [destruct (f []), (g []); reflexivity|]. rewrite IH. destruct (f (c :: s)), (g (c :: s)), (any_suffix f s); reflexivity. Qed.
Lemma any_suffix_ext f g s : (forall t, f t = g t) -> any_suffix f s = any_suffix g s.
Proof. intros H. induction s as [|c s IH]; cbn; rewrite H; [reflexivity|]. rewrite IH. reflexivity. Qed.
Lemma is_match_suffix k r g : (forall b s, is_nil (run k true r (mkSt b s [])) = negb (g s)) -> forall s, rx_is_match k true r s = any_suffix g s.
Proof.
  intros H s. unfold rx_is_match, rx_find. generalize true at 2 as b. generalize (@nil char) as before. induction s as [|c s IH]; intros before b; cbn [find_at any_suffix].
  - specialize (H b []). destruct (run k true r _) as [|m l]; cbn in *; destruct (g []); (reflexivity || discriminate).
  - specialize (H b (c :: s)). destruct (run k true r (mkSt b (c :: s) [])) as [|m l]; cbn [is_nil] in H; destruct (g (c :: s)); try discriminate; cbn [orb]; [apply IH|reflexivity].
Qed.
Lemma is_match_lits k r p : flatten r = lits p -> no_upper p -> forall s, rx_is_match k true r s = ci_contains p s.
Proof.
  intros E H s. rewrite contains_suffix. apply is_match_suffix. intros b t. rewrite run_go, E, <- (app_nil_r (lits p)), go_lits by exact H.
  destruct (ci_prefix p t); reflexivity.
Qed.
(** [p[_-]?q] *)
Definition sep : regex := RxRepeat 0 (Some 1) (RxSet (CUnion (CUnion CNone (CChar 95)) (CChar 45))).
Lemma is_match_sep k r p q : flatten r = lits p ++ sep :: lits q -> no_upper p -> no_upper q -> forall s,
  rx_is_match k true r s = ci_contains (p ++ q) s || (ci_contains (p ++ 95%N :: q) s || ci_contains (p ++ 45%N :: q) s).
Proof.
  intros E Hp Hq s. rewrite !contains_suffix, <- !any_suffix_or. apply is_match_suffix. intros b t. rewrite run_go, E, go_lits by exact Hp.
  rewrite !ci_prefix_app. destruct (ci_prefix p t) as [t1|]; [|reflexivity]. cbn [obind go sep run repeats after option_map pred Nat.sub Nat.eqb].
  assert (L : forall b s cs, go k true (lits q) (mkSt b s cs) = match ci_prefix q s with Some t => [mkSt (b && is_nil q) t cs] | None => [] end).
  { intros. rewrite <- (app_nil_r (lits q)), go_lits by exact Hq. reflexivity. }
  rewrite flat_map_app. cbn [flat_map caps after]. rewrite L, !app_nil_r. cbn [ci_prefix].
  destruct t1 as [|c t2]; [destruct (ci_prefix q []); reflexivity|].
  rewrite !set_union, set_none, !set_char by lia. cbn [orb].
  assert (C95 : ci 95 c = (c =? 95)%N) by (unfold ci; cbn; rewrite !orb_false_r; reflexivity).
  assert (C45 : ci 45 c = (c =? 45)%N) by (unfold ci; cbn; rewrite !orb_false_r; reflexivity).
  rewrite C95, C45. destruct (ci_prefix q (c :: t2)) as [t3|].
  - cbn [is_some orb negb]. match goal with |- is_nil (?x ++ [_]) = _ => destruct x; reflexivity end.
  - rewrite app_nil_r. destruct (N.eqb_spec c 95), (N.eqb_spec c 45); cbn [orb flat_map after repeats Nat.eqb pred option_map];
      try lia; try (destruct (Nat.ltb_spec (List.length t2) (List.length (c :: t2))) as [_|X]; [|cbn in X; lia]); cbn; rewrite ?L, ?app_nil_r; destruct (ci_prefix q t2); reflexivity.
Qed.

(** ** Calls *)
Lemma ci_other p c : is_lower p = false -> ci p c = (p =? c)%N.
Proof.
  intros H. unfold ci. rewrite H. unfold is_lower in H. cbn [andb]. destruct (N.eqb_spec p 107); [subst; discriminate|]. destruct (N.eqb_spec p 115); [subst; discriminate|].
  cbn [andb]. rewrite !orb_false_r. apply N.eqb_sym.
Qed.
Lemma go_one k p rs b s cs : is_lower p = false -> ~ (65 <= p <= 90)%N ->
  go k true (RxSet (CChar p) :: rs) (mkSt b s cs) = match one p s with Some t => go k true rs (mkSt false t cs) | None => [] end.
Proof.
  intros H1 H2. cbn [go run after caps]. destruct s as [|c t]; [reflexivity|]. cbn [one]. rewrite set_char, ci_other by assumption. destruct (p =? c)%N; [|reflexivity]. cbn. apply app_nil_r.
Qed.
Definition close : list regex := [RxSet (CChar 41); RxEnd].
Lemma go_close k b s cs : go k true close (mkSt b s cs) = match closed s tt with Some _ => [mkSt false [] cs] | None => [] end.
Proof.
  unfold close. rewrite go_one by (reflexivity || lia). unfold closed. destruct (one 41 s) as [t|]; [|reflexivity]. cbn. destruct t; reflexivity.
Qed.
Lemma closed_map A (v : A) s : closed s v = option_map (fun _ => v) (closed s tt).
Proof. unfold closed. destruct (one 41 s) as [t|]; [|reflexivity]. cbn. destruct (is_nil t); reflexivity. Qed.
Lemma digit_not k p : ascii_classes k -> (p < 128)%N -> ~ ascii_digit p -> forall c, rx_digit k c = true -> (p =? c)%N = false.
Proof. intros K Hp H c E. destruct (N.eqb_spec p c); [|reflexivity]. subst. exfalso. apply H, (ascii_digit_class K); assumption. Qed.
Lemma space_not k p : ascii_classes k -> (p < 128)%N -> ~ ascii_space p -> forall c, rx_space k c = true -> (p =? c)%N = false.
Proof. intros K Hp H c E. destruct (N.eqb_spec p c); [|reflexivity]. subst. exfalso. apply H, (ascii_space_class K); assumption. Qed.
Definition digits (name : str) : regex := RxGroup name (RxSeq RxEmpty (RxRepeat 1 None (RxSet CDigit))).
Lemma go_digits k name rs b s cs : ascii_classes k ->
  (forall b c t v, rx_digit k c = true -> go k true rs (mkSt b (c :: t) (cs ++ [(name, v)])) = []) ->
  go k true (digits name :: rs) (mkSt b s cs) = match plus (rx_digit k) s with Some (x, y) => go k true rs (mkSt false y (cs ++ [(name, x)])) | None => [] end.
Proof. intros K H. apply group_plus; [intros; apply set_digit, K|exact H]. Qed.
Lemma go_digits_close k name b s cs : ascii_classes k ->
  go k true (digits name :: close) (mkSt b s cs)
  = match obind (plus (rx_digit k) s) (fun p => closed (snd p) (fst p)) with Some x => [mkSt false [] (cs ++ [(name, x)])] | None => [] end.
Proof.
  intros K. rewrite go_digits; [|exact K|].
  - destruct (plus (rx_digit k) s) as [[x y]|]; [|reflexivity]. cbn [obind fst snd]. rewrite go_close, (closed_map x). destruct (closed y tt); reflexivity.
  - intros b' c t v E. rewrite go_close. unfold closed. cbn [one]. rewrite (@digit_not k 41 K); [reflexivity|lia|unfold ascii_digit; lia|exact E].
Qed.
Lemma captures_call k r p name s : ascii_classes k -> no_upper p -> flatten r = RxStart :: lits p ++ digits name :: close ->
  rx_captures k true r s = option_map (fun v => [(name, v)]) (rx_call k p s).
Proof.
  intros K H E. rewrite (find_anchored _ _ _ E), go_lits by exact H. unfold rx_call. destruct (ci_prefix p s) as [t|]; [|reflexivity]. cbn [obind]. rewrite (go_digits_close _ _ _ _ K).
  destruct (obind _ _); reflexivity.
Qed.
Lemma rx_call_app k p q s : rx_call k (p ++ q) s = obind (ci_prefix p s) (rx_call k q).
Proof. unfold rx_call. rewrite ci_prefix_app. destruct (ci_prefix p s); reflexivity. Qed.
Lemma rx_call_cons k x q s : rx_call k (x :: q) s = match s with c :: t => if ci x c then rx_call k q t else None | [] => None end.
Proof. unfold rx_call. cbn [ci_prefix]. destruct s as [|c t]; [reflexivity|]. destruct (ci x c); reflexivity. Qed.

(** [gr[ae]y(?:scale)?\(] *)
Definition optional (p : list regex) : regex := RxRepeat 0 (Some 1) (fold_left RxSeq p RxEmpty).
Lemma flatten_fold p r : Forall (fun x => exists f, x = RxSet f) p -> flatten (fold_left RxSeq p r) = flatten r ++ p.
Proof.
  revert r. induction p as [|x p IH]; intros r H; cbn [fold_left]; [rewrite app_nil_r; reflexivity|]. inversion H as [|? ? [f E] H2]; subst. rewrite IH by exact H2. cbn [flatten]. rewrite <- app_assoc. reflexivity.
Qed.
Lemma go_optional k p rs b s cs : no_upper p ->
  go k true (optional (lits p) :: rs) (mkSt b s cs) = go k true (lits p ++ rs) (mkSt b s cs) ++ go k true rs (mkSt b s cs).
Proof.
  intros H. unfold optional. cbn [go run after]. unfold repeats at 1. cbn [Nat.eqb Nat.sub option_map pred].
  rewrite flat_map_app. cbn [flat_map]. rewrite app_nil_r. f_equal. rewrite go_lits by exact H.
  rewrite run_go, flatten_fold by (clear; induction p; constructor; eauto). cbn [flatten app]. rewrite <- (app_nil_r (lits p)), go_lits by exact H.
  destruct (ci_prefix p s) as [t|]; [|reflexivity]. cbn [go flat_map]. rewrite !app_nil_r.
  assert (E : forall m f (s1 : st), repeats m f 0 (Some 0) s1 = [s1]) by (intros m [|f] s1; reflexivity).
  match goal with |- flat_map _ (if ?b then _ else _) = _ => destruct b end; [rewrite ?E|]; cbn; rewrite ?app_nil_r; reflexivity.
Qed.
Definition GREY : list regex :=
  RxStart :: lits (lit "gr") ++ RxSet (CUnion (CUnion CNone (CChar 97)) (CChar 101)) :: lits (lit "y") ++ optional (lits (lit "scale")) :: lits (lit "(") ++ digits (lit "level") :: close.
Lemma no_upper_b p : forallb (fun c => negb ((65 <=? c)%N && (c <=? 90)%N)) p = true -> no_upper p.
Proof. intros H. apply Forall_forall. intros c Hc. rewrite forallb_forall in H. specialize (H c Hc). lia. Qed.
Ltac nu := apply no_upper_b; reflexivity.
Lemma captures_grey k r s : ascii_classes k -> flatten r = GREY -> rx_captures k true r s = option_map (fun v => [(lit "level", v)]) (rx_grey k s).
Proof.
  intros K E. rewrite (find_anchored _ _ _ E), go_lits by nu. unfold rx_grey.
  change (lit "gray(") with (lit "gr" ++ 97%N :: 121%N :: lit "("). change (lit "grey(") with (lit "gr" ++ 101%N :: 121%N :: lit "(").
  change (lit "grayscale(") with (lit "gr" ++ 97%N :: 121%N :: lit "scale(").
  change (lit "greyscale(") with (lit "gr" ++ 101%N :: 121%N :: lit "scale("). rewrite !rx_call_app.
  destruct (ci_prefix (lit "gr") s) as [t|]; [|reflexivity]. cbn [obind]. rewrite !rx_call_cons.
  generalize (true && is_nil (lit "gr")) as b. intros b. destruct t as [|c t]; [reflexivity|]. cbn [go run after caps].
  rewrite !set_union, set_none, !set_char by lia. cbn [orb].
  assert (Y : forall bb, go k true (lits (lit "y") ++ optional (lits (lit "scale")) :: lits (lit "(") ++ digits (lit "level") :: close) (mkSt bb t [])
    = match or_else (rx_call k (121%N :: lit "(") t) (rx_call k (121%N :: lit "scale(") t) with Some v => [mkSt false [] [(lit "level", v)]] | None => [] end).
  { intros bb. rewrite go_lits by nu. rewrite !rx_call_cons. destruct t as [|y t]; [reflexivity|]. change (ci_prefix (lit "y") (y :: t)) with (if ci 121 y then Some t else None).
    destruct (ci 121 y); [|reflexivity]. rewrite go_optional by nu.
    assert (P : forall b s, go k true (lits (lit "(") ++ digits (lit "level") :: close) (mkSt b s []) = match rx_call k (lit "(") s with Some v => [mkSt false [] [(lit "level", v)]] | None => [] end).
    { intros b0 s0. rewrite go_lits by nu. unfold rx_call. destruct (ci_prefix (lit "(") s0); [|reflexivity]. cbn [obind]. rewrite (go_digits_close _ _ _ _ K). destruct (obind _ _); reflexivity. }
    rewrite go_lits by nu. rewrite P. change (lit "scale(") with (lit "scale" ++ lit "("). rewrite rx_call_app.
    destruct (ci_prefix (lit "scale") t) as [u|] eqn:Q.
    - cbn [obind]. rewrite P. assert (X : rx_call k (lit "(") t = None).
      { change (lit "(") with [40%N]. rewrite rx_call_cons. destruct t as [|z t]; [reflexivity|]. rewrite ci_other by reflexivity. cbn in Q. destruct (N.eqb_spec 40 z) as [Z|Z]; [|reflexivity]. subst z. discriminate. }
      rewrite X. cbn [or_else]. rewrite app_nil_r. reflexivity.
    - cbn [obind app]. destruct (rx_call k (lit "(") t); reflexivity. }
  destruct (ci 97 c) eqn:C1.
  - cbn [orb flat_map app]. rewrite app_nil_r. assert (C2 : ci 101 c = false) by (clear - C1; unfold ci, is_lower in *; cbn in *; lia). rewrite C2, Y.
    destruct (rx_call k (121%N :: lit "(") t); [reflexivity|]. cbn [or_else]. destruct (rx_call k (121%N :: lit "scale(") t); reflexivity.
  - cbn [orb]. destruct (ci 101 c); [|reflexivity]. cbn [flat_map app]. rewrite app_nil_r, Y. cbn [or_else].
    destruct (rx_call k (121%N :: lit "(") t); [reflexivity|]. cbn [or_else]. destruct (rx_call k (121%N :: lit "scale(") t); reflexivity.
Qed.

(** [rgb] *)
Definition comma (name : str) (rs : list regex) : list regex := RxSet (CChar 44) :: RxRepeat 0 None (RxSet CSpace) :: digits name :: rs.
Lemma go_comma k name rs b s cs : ascii_classes k -> disjoint_classes k ->
  (forall b c t v, rx_digit k c = true -> go k true rs (mkSt b (c :: t) (cs ++ [(name, v)])) = []) ->
  go k true (comma name rs) (mkSt b s cs) = match rx_next k s with Some (x, y) => go k true rs (mkSt false y (cs ++ [(name, x)])) | None => [] end.
Proof.
  intros K D H. unfold comma, rx_next. rewrite go_one by (reflexivity || lia). destruct (one 44 s) as [t|]; [|reflexivity]. cbn [obind].
  change (go k true (RxRepeat 0 None (RxSet CSpace) :: digits name :: rs) (mkSt false t cs))
    with (flat_map (go k true (digits name :: rs)) (run k true (RxRepeat 0 None (RxSet CSpace)) (mkSt false t cs))).
  rewrite (@star_fail' k true CSpace (rx_space k)); [apply go_digits; assumption|intros; apply set_space, K|].
  intros b' c u Sp. rewrite go_digits by assumption. unfold plus. cbn [span]. rewrite (D _ Sp). reflexivity.
Qed.
Lemma comma_digit k name rs b c t cs : ascii_classes k -> rx_digit k c = true -> go k true (comma name rs) (mkSt b (c :: t) cs) = [].
Proof.
  intros K H. unfold comma. rewrite go_one by (reflexivity || lia). cbn [one]. rewrite (@digit_not k 44 K); [reflexivity|lia|unfold ascii_digit; lia|exact H].
Qed.
Definition RGB : list regex := RxStart :: lits (lit "rgb(") ++ digits (lit "r") :: comma (lit "g") (comma (lit "b") close).
Lemma captures_rgb k r s : ascii_classes k -> disjoint_classes k -> flatten r = RGB ->
  rx_captures k true r s = option_map (fun v => [(lit "r", fst (fst v)); (lit "g", snd (fst v)); (lit "b", snd v)]) (rx_rgb k s).
Proof.
  intros K D E. rewrite (find_anchored _ _ _ E), go_lits by nu. unfold rx_rgb. destruct (ci_prefix (lit "rgb(") s) as [t|]; [|reflexivity]. cbn [obind].
  rewrite go_digits; [|exact K|intros; apply comma_digit; assumption]. destruct (plus (rx_digit k) t) as [[x1 t1]|]; [|reflexivity]. cbn [obind fst snd].
  rewrite go_comma by (assumption || (intros; apply comma_digit; assumption)). destruct (rx_next k t1) as [[x2 t2]|]; [|reflexivity]. cbn [obind fst snd].
  rewrite go_comma; [|exact K|exact D|].
  - destruct (rx_next k t2) as [[x3 t3]|]; [|reflexivity]. cbn [obind fst snd]. rewrite go_close, (closed_map (x1, x2, x3)). destruct (closed t3 tt); reflexivity.
  - intros b' c u v Hd. rewrite go_close. unfold closed. cbn [one]. rewrite (@digit_not k 41 K); [reflexivity|lia|unfold ascii_digit; lia|exact Hd].
Qed.

(** [#] *)
Definition hexes (name : str) : regex := RxGroup name (RxSeq RxEmpty (RxRepeat 1 (Some 2) (RxSet (CUnion (CUnion CNone CDigit) (CRange 97 102))))).
Lemma go_hexes k name rs b s cs : ascii_classes k ->
  go k true (hexes name :: rs) (mkSt b s cs)
  = match s with
    | c :: t => if rx_hexdigit k c
                then (match t with c' :: t' => if rx_hexdigit k c' then go k true rs (mkSt false t' (cs ++ [(name, [c; c'])])) else [] | [] => [] end)
                     ++ go k true rs (mkSt false t (cs ++ [(name, [c])]))
                else []
    | [] => []
    end.
Proof.
  intros K. unfold hexes. cbn [go run flat_map after caps]. rewrite app_nil_r, flat_map_map. cbn [at_start after caps].
  destruct s as [|c t]; [reflexivity|]. cbn [repeats after caps]. rewrite (set_hex _ K). destruct (rx_hexdigit k c); [|reflexivity].
  cbn [flat_map after Nat.sub Nat.eqb option_map pred]. destruct (Nat.ltb_spec (List.length t) (List.length (c :: t))) as [_|X]; [|cbn in X; lia]. rewrite !app_nil_r.
  destruct t as [|c' t'].
  - cbn. apply app_nil_r.
  - match goal with |- flat_map ?F _ = _ => set (KK := F) end.
    assert (K1 : KK (mkSt false (c' :: t') cs) = go k true rs (mkSt false (c' :: t') (cs ++ [(name, [c])]))).
    { unfold KK. cbn [at_start after caps List.length]. replace (S (S (List.length t')) - S (List.length t')) with 1 by lia. reflexivity. }
    assert (K2 : KK (mkSt false t' cs) = go k true rs (mkSt false t' (cs ++ [(name, [c; c'])]))).
    { unfold KK. cbn [at_start after caps List.length]. replace (S (S (List.length t')) - List.length t') with 2 by lia. reflexivity. }
    clearbody KK. cbn [List.length repeats after caps]. rewrite (set_hex _ K). destruct (rx_hexdigit k c').
    + cbn [flat_map after Nat.sub Nat.eqb option_map pred]. rewrite <- K1, <- K2. destruct (_ <? _); cbn; rewrite ?app_nil_r; reflexivity.
    + cbn. rewrite app_nil_r. exact K1.
Qed.
Definition HEX : list regex := RxStart :: lits (lit "#") ++ hexes (lit "r") :: hexes (lit "g") :: hexes (lit "b") :: [RxEnd].
Lemma captures_hex k r s : ascii_classes k -> flatten r = HEX ->
  rx_captures k true r s = option_map (fun v => [(lit "r", fst (fst v)); (lit "g", snd (fst v)); (lit "b", snd v)]) (rx_hex k s).
Proof.
  intros K E. rewrite (find_anchored _ _ _ E), go_lits by nu. unfold rx_hex.
  replace (ci_prefix (lit "#") s) with (one 35 s) by (destruct s as [|c s]; [reflexivity|]; cbn [one]; change (lit "#") with [35%N]; cbn [ci_prefix]; rewrite ci_other by reflexivity; reflexivity).
  destruct (one 35 s) as [t|]; [|reflexivity]. cbn [obind]. generalize (true && is_nil (lit "#")) as b. intros b.
  assert (R : forall b s cs, go k true [RxEnd] (mkSt b s cs) = match s with [] => [mkSt b s cs] | _ => [] end) by (intros b0 [|? ?] cs0; reflexivity).
  destruct t as [|c1 [|c2 [|c3 [|c4 [|c5 [|c6 [|c7 t]]]]]]]; rewrite ?(go_hexes _ _ _ _ _ K), ?R; cbn [forallb];
    repeat (match goal with |- context [rx_hexdigit k ?c] => destruct (rx_hexdigit k c); cbn [andb app option_map hd_error]; try reflexivity end; rewrite ?(go_hexes _ _ _ _ _ K), ?R; cbn [app]); try reflexivity.
  destruct (forallb (rx_hexdigit k) t); reflexivity.
Qed.

(** ** Tokens *)
Lemma hd_app A (a b : list A) : a <> [] -> hd_error (a ++ b) = hd_error a.
Proof. destruct a; [congruence|reflexivity]. Qed.
Lemma star_hd k i f (K : st -> list st) cs : (forall b s, K (mkSt b s cs) <> []) -> forall s fuel, List.length s < fuel ->
  hd_error (flat_map K (repeats (run k i (RxSet f)) fuel 0 None (mkSt false s cs))) = hd_error (K (mkSt false (snd (span (in_set_i k i f) s)) cs)).
Proof.
  intros HK. induction s as [|c s IH]; intros fuel Hf; rewrite repeats_set_0 by exact Hf.
  - cbn. rewrite app_nil_r. reflexivity.
  - cbn [span]. cbn in Hf. destruct (in_set_i k i f c) eqn:E.
    + rewrite flat_map_app. specialize (IH (pred fuel) ltac:(lia)). rewrite hd_app.
      * rewrite IH. destruct (span (in_set_i k i f) s). reflexivity.
      * intros X. rewrite X in IH. specialize (HK false (snd (span (in_set_i k i f) s))). destruct (K _); [apply HK; reflexivity|discriminate IH].
    + cbn. rewrite app_nil_r. reflexivity.
Qed.
Lemma plus_hd k i f (K : st -> list st) cs : (forall b s, K (mkSt b s cs) <> []) -> forall s b,
  hd_error (flat_map K (run k i (RxRepeat 1 None (RxSet f)) (mkSt b s cs)))
  = match plus (in_set_i k i f) s with Some (_, y) => hd_error (K (mkSt false y cs)) | None => None end.
Proof.
  intros HK s b. change (run k i (RxRepeat 1 None (RxSet f)) (mkSt b s cs)) with (repeats (run k i (RxSet f)) (S (List.length s)) 1 None (mkSt b s cs)).
  rewrite repeats_set_1 by lia. unfold plus. destruct s as [|c s]; [reflexivity|]. cbn [span]. destruct (in_set_i k i f c) eqn:E; [|reflexivity].
  rewrite (@star_hd k i f K cs HK) by (cbn; lia). destruct (span (in_set_i k i f) s) as [x y]. reflexivity.
Qed.
Definition PLAIN : cset := CNot (CUnion (CUnion (CUnion CNone CSpace) (CChar 40)) (CChar 41)).
Definition INNER : cset := CUnion (CUnion (CUnion CNone CWord) (CChar 44)) CSpace.
Definition GROUP : regex := RxGroup [] (RxSeq (RxSeq (RxSeq RxEmpty (RxSet (CChar 40))) (RxRepeat 1 None (RxSet INNER))) (RxSet (CChar 41))).
Definition TOKEN : list regex := [RxRepeat 1 None (RxSet PLAIN); RxRepeat 0 (Some 1) GROUP].
Lemma in_plain k c : in_set_i k false PLAIN c = rx_plain k c.
Proof. unfold PLAIN, rx_plain. cbn [in_set_i in_set orb]. rewrite (N.eqb_sym 40), (N.eqb_sym 41). reflexivity. Qed.
Lemma in_inner k c : in_set_i k false INNER c = rx_inner k c.
Proof. unfold INNER, rx_inner. cbn [in_set_i in_set orb]. rewrite (N.eqb_sym 44). reflexivity. Qed.
Lemma inner_not_close k c : ascii_classes k -> rx_inner k c = true -> (41 =? c)%N = false.
Proof.
  intros K H. destruct (N.eqb_spec 41 c); [|reflexivity]. subst c. exfalso. unfold rx_inner in H.
  destruct (rx_word k 41) eqn:W; [apply (ascii_word_class K) in W; [|lia]; unfold ascii_letter, ascii_digit in W; lia|].
  destruct (rx_space k 41) eqn:S1; [apply (ascii_space_class K) in S1; [|lia]; unfold ascii_space in S1; lia|]. discriminate.
Qed.
Lemma one_app c s t : one c s = Some t -> s = c :: t.
Proof. destruct s as [|d s]; [discriminate|]. cbn. destruct (N.eqb_spec c d); [|discriminate]. intros E. injection E as <-. subst. reflexivity. Qed.
Lemma plus_app f s x y : plus f s = Some (x, y) -> s = x ++ y /\ x <> [].
Proof. unfold plus. pose proof (span_app' f s) as E. destruct (span f s) as [a b]. cbn in E. destruct a; [discriminate|]. cbn. intros H. injection H as <- <-. split; [symmetry; exact E|discriminate]. Qed.
Lemma rx_group_app k s g r : rx_group k s = Some (g, r) -> s = g ++ r.
Proof.
  unfold rx_group. destruct (one 40 s) as [t|] eqn:A; [|discriminate]. cbn [obind]. destruct (plus (rx_inner k) t) as [[x y]|] eqn:B; [|discriminate]. cbn [obind fst snd].
  destruct (one 41 y) as [z|] eqn:D; [|discriminate]. cbn [obind]. intros E. injection E as <- <-. apply one_app in A, D. apply plus_app in B. destruct B as [B _]. subst.
  cbn. rewrite <- app_assoc. reflexivity.
Qed.
Lemma run_group k b s cs : ascii_classes k -> run k false GROUP (mkSt b s cs) = match rx_group k s with Some (g, r) => [mkSt false r (cs ++ [([], g)])] | None => [] end.
Proof.
  intros K. unfold GROUP. cbn [run flat_map after caps app]. unfold rx_group at 1. destruct s as [|c t]; [reflexivity|]. cbn [one in_set_i in_set].
  destruct (N.eqb_spec 40 c) as [<-|]; [|reflexivity]. cbn [obind].
  match goal with |- context [flat_map ?F ([mkSt false t cs] ++ [])] => change (flat_map F ([mkSt false t cs] ++ [])) with (run k false (RxRepeat 1 None (RxSet INNER)) (mkSt false t cs) ++ []) end.
  rewrite app_nil_r.
  rewrite (@plus_fail k false INNER (rx_inner k)); [|intros; apply in_inner|intros b' c u H; cbn [after]; rewrite (inner_not_close _ K H); reflexivity].
  destruct (plus (rx_inner k) t) as [[x y]|] eqn:B; [|reflexivity]. cbn [obind snd fst after caps]. destruct y as [|d y]; [reflexivity|]. cbn [one].
  destruct (N.eqb_spec 41 d) as [<-|]; [|reflexivity]. cbn [map obind at_start after caps]. apply plus_app in B. destruct B as [-> _].
  replace (40%N :: x ++ 41%N :: y) with ((40%N :: x ++ [41%N]) ++ y) by (cbn; rewrite <- app_assoc; reflexivity). rewrite firstn_before. reflexivity.
Qed.
Lemma go_token k b s : ascii_classes k ->
  hd_error (go k false TOKEN (mkSt b s [])) = match plus (rx_plain k) s with
                                           | Some (t, r) => match rx_group k r with Some (g, r') => Some (mkSt false r' [([], g)]) | None => Some (mkSt false r []) end
                                           | None => None
                                           end.
Proof.
  intros K. assert (O : forall b s, go k false [RxRepeat 0 (Some 1) GROUP] (mkSt b s []) = match rx_group k s with Some (g, r) => [mkSt false r [([], g)]] | None => [] end ++ [mkSt b s []]).
  { intros b0 s0. cbn [go]. rewrite flat_map_one. change (run k false (RxRepeat 0 (Some 1) GROUP) (mkSt b0 s0 [])) with (repeats (run k false GROUP) (S (List.length s0)) 0 (Some 1) (mkSt b0 s0 [])).
    unfold repeats at 1. rewrite (run_group _ _ _ K). destruct (rx_group k s0) as [[g r]|]; [|reflexivity]. cbn [Nat.sub Nat.eqb option_map pred flat_map].
    assert (E : forall m f (s1 : st), repeats m f 0 (Some 0) s1 = [s1]) by (intros m [|f] s1; reflexivity).
    match goal with |- ((if ?b then _ else _) ++ _) ++ _ = _ => destruct b end; [|reflexivity]. destruct (List.length s0); reflexivity. }
  unfold TOKEN. change (go k false [RxRepeat 1 None (RxSet PLAIN); RxRepeat 0 (Some 1) GROUP] (mkSt b s []))
    with (flat_map (go k false [RxRepeat 0 (Some 1) GROUP]) (run k false (RxRepeat 1 None (RxSet PLAIN)) (mkSt b s []))).
  rewrite plus_hd by (intros b0 s0; rewrite O; destruct (rx_group k s0) as [[g r]|]; discriminate).
  unfold plus. rewrite (span_ext _ _ s (in_plain k)). destruct (span (rx_plain k) s) as [x y]. destruct (is_nil x); [reflexivity|]. rewrite O. destruct (rx_group k y) as [[g r]|]; reflexivity.
Qed.
Lemma find_before k i r s : forall b before before', option_map (fun x => (snd (fst (fst x)), snd (fst x), snd x)) (find_at k i r b before s)
  = option_map (fun x => (snd (fst (fst x)), snd (fst x), snd x)) (find_at k i r b before' s).
Proof. induction s as [|c s IH]; intros b x y; cbn [find_at]; destruct (run k i r _); try reflexivity. apply IH. Qed.
Lemma tokens_found k r : ascii_classes k -> flatten r = TOKEN -> forall n s, List.length s <= n -> forall f f' b, List.length s <= f -> List.length s <= f' ->
  rx_find_iter k false r f b s = find_iter k f' s.
Proof.
  intros K E. assert (H : forall b s, hd_error (run k false r (mkSt b s [])) = match plus (rx_plain k) s with
      | Some (t, r) => match rx_group k r with Some (g, r') => Some (mkSt false r' [([], g)]) | None => Some (mkSt false r []) end | None => None end).
  { intros b s. rewrite run_go, E. apply go_token, K. }
  induction n as [|n IH]; intros s Hn f f' b Hf Hf'.
  - destruct s; [|cbn in Hn; lia]. specialize (H b []). destruct f as [|f], f' as [|f']; cbn in *; try reflexivity; destruct (run k false r _); try discriminate; reflexivity.
  - destruct s as [|c s].
    { specialize (H b []). destruct f as [|f], f' as [|f']; cbn in *; try reflexivity; destruct (run k false r _); try discriminate; reflexivity. }
    cbn [List.length] in *. destruct f as [|f]; [lia|]. destruct f' as [|f']; [lia|]. cbn [find_iter].
    pose proof (H b (c :: s)) as H0. destruct (plus (rx_plain k) (c :: s)) as [[t rest]|] eqn:P.
    + cbn [rx_find_iter find_at]. apply plus_app in P. destruct P as [P Nt].
      assert (L : List.length rest <= List.length s). { apply (f_equal (@List.length _)) in P. rewrite app_length in P. cbn in P. destruct t; [congruence|cbn in P; lia]. }
      destruct (run k false r (mkSt b (c :: s) [])) as [|m ms]; [cbn in H0; destruct (rx_group k rest) as [[g r']|]; discriminate|].
      destruct (rx_group k rest) as [[g r']|] eqn:G; cbn in H0; injection H0 as ->; cbn [after].
      * apply rx_group_app in G. subst rest. rewrite P, app_assoc, firstn_before. f_equal. rewrite app_length in L. apply IH; lia.
      * rewrite P, firstn_before. f_equal. apply IH; lia.
    + cbn [rx_find_iter find_at]. destruct (run k false r (mkSt b (c :: s) [])) as [|m ms]; [|discriminate].
      rewrite <- (IH s ltac:(lia) (S f) f' false) by lia. cbn [rx_find_iter]. pose proof (find_before k false r s false [c] []) as Q.
      destruct (find_at k false r false [c] s) as [[[[b1 m1] r1] c1]|], (find_at k false r false [] s) as [[[[b2 m2] r2] c2]|]; cbn in Q; try discriminate; [|reflexivity].
      injection Q as -> -> _. reflexivity.
Qed.

(** ** The matches of the semantics are those of the declarative definition *)
Section Lang.
Context (k : classes) (i : bool).
Lemma suffix_len r b s b1 s1 : matches k i r b s b1 s1 -> List.length s1 <= List.length s.
Proof. induction 1; cbn in *; lia. Qed.
Lemma eats_len r b s b1 s1 : matches k i r b s b1 s1 -> eats r = true -> List.length s1 < List.length s.
Proof.
  induction 1; cbn [eats]; intros E; try discriminate; try (cbn; lia); try (apply IHmatches; lia).
  - apply suffix_len in H. pose proof (suffix_len H0). destruct (eats a); [specialize (IHmatches1 eq_refl); apply suffix_len in H0; lia|]. specialize (IHmatches2 E). lia.
  - specialize (IHmatches1 ltac:(lia)). apply suffix_len in H1. lia.
Qed.
Lemma matches_suffix r b s b1 s1 : matches k i r b s b1 s1 -> exists u, s = u ++ s1.
Proof.
  induction 1; try (exists []; reflexivity); try assumption.
  - exists [c]. reflexivity.
  - destruct IHmatches1 as (u & ->), IHmatches2 as (v & ->). exists (u ++ v). rewrite <- app_assoc. reflexivity.
  - destruct IHmatches1 as (u & ->), IHmatches2 as (v & ->). exists (u ++ v). rewrite <- app_assoc. reflexivity.
Qed.
Lemma repeats_more m x : forall fuel min max s, List.length (after s) < fuel -> In x (repeats m fuel min max s) -> forall fuel', List.length (after s) < fuel' -> In x (repeats m fuel' min max s).
Proof.
  induction fuel as [|fuel IH]; intros min max s Hl Hx fuel' Hl'; [lia|]. destruct fuel' as [|fuel']; [lia|]. cbn [repeats] in Hx |- *.
  apply in_app_or in Hx. apply in_or_app. destruct Hx as [Hx|Hx]; [left|right; exact Hx].
  assert (X : max <> Some 0 -> In x (flat_map (fun s' => if List.length (after s') <? List.length (after s) then repeats m fuel (min - 1) (option_map pred max) s' else [s']) (m s))
    -> In x (flat_map (fun s' => if List.length (after s') <? List.length (after s) then repeats m fuel' (min - 1) (option_map pred max) s' else [s']) (m s))).
  { intros _ Y. apply in_flat_map in Y. destruct Y as (y & Y1 & Y2). apply in_flat_map. exists y. split; [exact Y1|].
    destruct (Nat.ltb_spec (List.length (after y)) (List.length (after s))); [|exact Y2]. apply IH; [lia|exact Y2|lia]. }
  destruct max as [[|?]|]; [destruct Hx|apply X; [discriminate|exact Hx]|apply X; [discriminate|exact Hx]].
Qed.
Lemma run_sound r : proper r = true -> forall s m, In m (run k i r s) -> matches k i r (at_start s) (after s) (at_start m) (after m).
Proof.
  induction r as [|f|a IHa b IHb|a IHa b IHb|min max a IHa|name a IHa| |]; intros Pr s m H; cbn [run] in H; cbn [proper] in Pr.
  - destruct H as [<-|[]]. constructor.
  - destruct s as [b0 [|c t] cs]; cbn in H |- *; [destruct H|]. destruct (in_set_i k i f c) eqn:E; [|destruct H]. destruct H as [<-|[]]. constructor. exact E.
  - apply in_flat_map in H. destruct H as (x & H1 & H2). econstructor; [apply IHa, H1; lia|apply IHb, H2; lia].
  - apply in_app_or in H. destruct H as [H|H]; [apply m_left, IHa, H; lia|apply m_right, IHb, H; lia].
  - revert H. generalize (S (List.length (after s))) as fuel. intros fuel. revert min max s. induction fuel as [|fuel IH]; intros min max s H.
    + cbn [repeats] in H. assert (X : In m (if min =? 0 then [s] else [])) by (destruct max as [[|?]|]; exact H). destruct (Nat.eqb_spec min 0); [|destruct X]. subst. destruct X as [<-|[]]. constructor.
    + cbn [repeats] in H. apply in_app_or in H. destruct H as [H|H].
      * destruct (match max with Some 0 => true | _ => false end) eqn:M; [destruct max as [[|?]|]; try discriminate; destruct H|].
        assert (X : In m (flat_map (fun s' => if List.length (after s') <? List.length (after s) then repeats (run k i a) fuel (min - 1) (option_map pred max) s' else [s']) (run k i a s)))
          by (destruct max as [[|?]|]; try discriminate; exact H).
        apply in_flat_map in X. destruct X as (x & X1 & X2). pose proof (IHa ltac:(lia) _ _ X1) as X3. assert (Hm : max <> Some 0) by (destruct max as [[|?]|]; congruence).
        destruct (Nat.ltb_spec (List.length (after x)) (List.length (after s))).
        -- econstructor; [exact Hm|exact X3|]. apply IH. exact X2.
        -- exfalso. apply eats_len in X3; lia.
      * destruct (Nat.eqb_spec min 0); [|destruct H]. subst. destruct H as [<-|[]]. constructor.
  - apply in_map_iff in H. destruct H as (x & <- & H). cbn. constructor. apply IHa, H. exact Pr.
  - destruct (at_start s) eqn:E; [|destruct H]. destruct H as [<-|[]]. rewrite E. constructor.
  - destruct (after s) eqn:E; cbn in H; [|destruct H]. destruct H as [<-|[]]. rewrite E. constructor.
Qed.
Lemma run_complete r b s b1 s1 : matches k i r b s b1 s1 -> proper r = true -> forall cs, exists cs1, In (mkSt b1 s1 cs1) (run k i r (mkSt b s cs)).
Proof.
  induction 1 as [| |a r b s b1 s1 b2 s2 H1 IH1 H2 IH2|a r b s b1 s1 H IH|a r b s b1 s1 H IH|max a b s|min max a b s b1 s1 b2 s2 Hm H1 IH1 H2 IH2|name a b s b1 s1 H IH| |]; intros Pr cs; cbn [proper] in Pr.
  - exists cs. left. reflexivity.
  - exists cs. cbn. rewrite H. left. reflexivity.
  - destruct (IH1 ltac:(lia) cs) as (c1 & I1). destruct (IH2 ltac:(lia) c1) as (c2 & I2). exists c2. cbn. apply in_flat_map. eauto.
  - destruct (IH ltac:(lia) cs) as (c1 & I1). exists c1. cbn. apply in_or_app. auto.
  - destruct (IH ltac:(lia) cs) as (c1 & I1). exists c1. cbn. apply in_or_app. auto.
  - exists cs. cbn [run]. destruct max as [[|?]|]; cbn [repeats]; apply in_or_app; right; left; reflexivity.
  - destruct (IH1 ltac:(lia) cs) as (c1 & I1). destruct (IH2 Pr c1) as (c2 & I2). exists c2. cbn [run after] in I2 |- *.
    pose proof (eats_len H1 ltac:(lia)) as L. cbn [repeats after]. apply in_or_app. left.
    assert (X : In (mkSt b2 s2 c2) (flat_map (fun s' => if List.length (after s') <? List.length s then repeats (run k i a) (List.length s) (min - 1) (option_map pred max) s' else [s']) (run k i a (mkSt b s cs)))).
    { apply in_flat_map. exists (mkSt b1 s1 c1). split; [exact I1|]. cbn [after]. destruct (Nat.ltb_spec (List.length s1) (List.length s)) as [_|]; [|lia].
      apply repeats_more with (fuel := S (List.length s1)); [cbn; lia|exact I2|exact L]. }
    destruct max as [[|?]|]; [congruence|exact X|exact X].
  - destruct (IH Pr cs) as (c1 & I1). eexists. cbn. apply in_map_iff. eexists. split; [|exact I1]. reflexivity.
  - exists cs. left. reflexivity.
  - exists cs. left. reflexivity.
Qed.
Lemma find_leftmost r : proper r = true -> forall s start before,
  match find_at k i r start before s with
  | Some (a, m, rest, _) => exists skipped, a = rev before ++ skipped /\ s = skipped ++ m ++ rest
      /\ (exists b', matches k i r (start && is_nil skipped) (m ++ rest) b' rest)
      /\ (forall x y, s = x ++ y -> List.length x < List.length skipped -> forall b' t, ~ matches k i r (start && is_nil x) y b' t)
  | None => forall x y, s = x ++ y -> forall b' t, ~ matches k i r (start && is_nil x) y b' t
  end.
Proof.
  intros Pr. induction s as [|c s IH]; intros start before; cbn [find_at].
  - destruct (run k i r (mkSt start [] [])) as [|m l] eqn:R.
    + intros x y E b' t M. symmetry in E. apply app_eq_nil in E. destruct E as [-> ->]. cbn in M. rewrite andb_true_r in M. apply run_complete with (cs := []) in M; [|exact Pr].
      destruct M as (c1 & M). rewrite R in M. destruct M.
    + assert (I : In m (run k i r (mkSt start [] []))) by (rewrite R; left; reflexivity). apply run_sound in I; [|exact Pr]. cbn in I. exists [].
      pose proof (suffix_len I) as L. destruct (after m) eqn:Am; [|cbn in L; lia]. rewrite app_nil_r, andb_true_r. split; [reflexivity|]. split; [reflexivity|]. split; [exists (at_start m); exact I|].
      intros x y _ Lx. cbn in Lx. lia.
  - destruct (run k i r (mkSt start (c :: s) [])) as [|m l] eqn:R.
    + assert (No : forall b' t, ~ matches k i r start (c :: s) b' t).
      { intros b' t M. apply run_complete with (cs := []) in M; [|exact Pr]. destruct M as (c1 & M). rewrite R in M. destruct M. }
      specialize (IH false (c :: before)). destruct (find_at k i r false (c :: before) s) as [[[[a m] rest] cs]|].
      * destruct IH as (sk & E1 & E2 & E3 & E4). exists (c :: sk). cbn [rev] in E1. rewrite <- app_assoc in E1. split; [exact E1|]. split; [cbn; rewrite E2; reflexivity|].
        cbn [is_nil]. rewrite andb_false_r. split; [exact E3|]. intros x y Ex Lx. destruct x as [|c0 x]; [cbn in Ex; subst y; cbn; rewrite andb_true_r; exact No|].
        cbn in Ex. injection Ex as <- Ex. cbn [is_nil]. rewrite andb_false_r. cbn in Lx. apply (E4 x y Ex). lia.
      * intros x y Ex. destruct x as [|c0 x]; [cbn in Ex; subst y; cbn; rewrite andb_true_r; exact No|]. cbn in Ex. injection Ex as <- Ex. cbn [is_nil]. rewrite andb_false_r. apply (IH x y Ex).
    + assert (I : In m (run k i r (mkSt start (c :: s) []))) by (rewrite R; left; reflexivity). apply run_sound in I; [|exact Pr]. cbn [at_start after] in I. exists [].
      destruct (matches_suffix I) as (u & Eu). rewrite Eu, firstn_before, app_nil_r, andb_true_r. split; [reflexivity|]. split; [reflexivity|]. split; [rewrite <- Eu; eauto|].
      intros x y _ Lx. cbn in Lx. lia.
Qed.

End Lang.
