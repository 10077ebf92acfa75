(** * A form is seen as it is (C122) *)
From Verif Require Import Base L_Base Demo M_Content S_Content L_Content L_Content3 S_Count M_View M_Input S_Input S_Input2 L_Input3 P_Input P_Input2 S_Editor.
From Verif Require Import M_Event S_Event P_Event S_Typing P_Typing.
From Verif Require Import M_Style S_View S_Area S_Pen S_Paint S_Look S_Point S_Drawn P_Paint S_App P_App S_Keyboard P_Keyboard S_Widgets P_Widgets S_Form P_Form S_FormDrawn.
Set Implicit Arguments.
Open Scope nat_scope.

Lemma its_drawings fs j : j < length fs -> forall ts, its j (drawings fs ts) = map AskField (map (fun t => calls fs t j) ts).
Proof.
  intros Hj. unfold its, drawings. induction ts as [|t ts IH]; [reflexivity|]. cbn [flat_map map]. rewrite filter_app, map_app, IH. cut (map snd (List.filter (fun q : nat * request unit => fst q =? j) (map (fun j0 => (j0, AskField (calls fs t j0))) (seq 0 (length fs)))) = [AskField (calls fs t j)]); [intros ->; reflexivity|].
  assert (G : forall n s, s <= j < s + n -> map snd (List.filter (fun q : nat * request unit => fst q =? j) (map (fun j0 => (j0, AskField (calls fs t j0))) (seq s n))) = [AskField (calls fs t j)]).
  { induction n as [|n IHn]; intros s H; [lia|]. cbn [seq map List.filter fst]. destruct (Nat.eqb_spec s j) as [->|N]; [|apply IHn; lia]. cbn [map snd]. f_equal.
    assert (Z : forall n s, j < s -> List.filter (fun q : nat * request unit => fst q =? j) (map (fun j0 => (j0, AskField (calls fs t j0))) (seq s n)) = []).
    { clear. induction n as [|n IHn]; intros s H; [reflexivity|]. cbn [seq map List.filter fst]. rewrite (proj2 (Nat.eqb_neq s j)) by lia. apply IHn. lia. }
    rewrite Z by lia. reflexivity. }
  apply G. lia.
Qed.
(** The fields of the form are the ones of the calls *)
Lemma form_calls u : forall ts fs, Forall field_ok fs -> exists fs', form u fs ts = Ret fs' /\ length fs' = length fs
  /\ forall j f, nth_error fs j = Some f -> exists f', nth_error fs' j = Some f' /\ if_run u f (concat (map (fun t => calls fs t j) ts)) = Ret f' /\ if_area f' = if_area f.
Proof.
  induction ts as [|t ts IH]; intros fs OK; [exists fs; split; [reflexivity|]; split; [reflexivity|]; intros j f Hj; exists f; auto|].
  destruct (@give_each u t fs OK) as (fs1 & E1 & L1 & H1).
  assert (OKn : forall j f, nth_error fs j = Some f -> field_ok f) by (intros j f Hj; apply nth_error_In in Hj; rewrite Forall_forall in OK; apply OK, Hj).
  assert (Back : forall l : list InputField, length l = length fs -> forall j f', nth_error l j = Some f' -> exists f, nth_error fs j = Some f).
  { intros l L j f' Hj. destruct (nth_error fs j) as [f|] eqn:Ef; [exists f; reflexivity|]. apply nth_error_None in Ef. assert (j < length l) by (apply nth_error_Some; congruence). lia. }
  assert (One : forall j f, nth_error fs j = Some f -> exists f1, nth_error fs1 j = Some f1 /\ if_run u f (S_Typing.given [t]) = Ret f1 /\ field_ok f1 /\ if_area f1 = if_area f).
  { intros j f Hj. destruct (H1 j f Hj) as (f1 & b & Ej & A). exists f1. split; [exact Ej|]. destruct (@field_event u f t (OKn j f Hj)) as (g & b2 & E3 & Ok3 & Ar & _). rewrite A in E3. injection E3 as -> _. split; [|auto]. cbn [S_Typing.given map if_run if_apply]. unfold apply_timed_event in A. rewrite A. reflexivity. }
  assert (OK1 : Forall field_ok fs1).
  { apply Forall_forall. intros f1 I. apply In_nth_error in I as (j & Hj). destruct (Back fs1 L1 j f1 Hj) as (f & Ef). destruct (One j f Ef) as (g & Eg & _ & Ok & _). congruence. }
  assert (St : exists fs2, match target fs t with Some i => unfocus u i 0 fs1 | None => Ret fs1 end = Ret fs2 /\ length fs2 = length fs
     /\ forall j f, nth_error fs j = Some f -> exists f2, nth_error fs2 j = Some f2 /\ if_run u f (calls fs t j) = Ret f2 /\ field_ok f2 /\ if_area f2 = if_area f).
  { unfold calls. destruct (target fs t) as [i|].
    - destruct (@unfocus_each u i fs1 0 OK1) as (fs2 & E2 & L2 & H2). exists fs2. split; [exact E2|]. split; [congruence|]. intros j f Hj. destruct (One j f Hj) as (f1 & Ej & R1 & Ok1 & A1). destruct (H2 j f1 Ej) as (f2 & Ej2 & B). cbn [Nat.add] in B. exists f2. split; [exact Ej2|].
      rewrite if_run_app, R1, bind_ret. destruct (j =? i); [subst f2; auto|]. cbn [if_run if_apply]. unfold no_bool. rewrite B. cbn [bind if_run]. split; [reflexivity|].
      destruct (@C72_focus u f1 false Ok1) as (FA & FB & _). destruct (focused f1); [rewrite (FB eq_refl eq_refl) in B|rewrite (FA eq_refl) in B]; injection B as <-; split; assumption.
    - exists fs1. split; [reflexivity|]. split; [exact L1|]. intros j f Hj. destruct (One j f Hj) as (f1 & Ej & R1 & Ok1 & A1). exists f1. rewrite app_nil_r. auto. }
  destruct St as (fs2 & E2 & L2 & H2).
  assert (OK2 : Forall field_ok fs2).
  { apply Forall_forall. intros f1 I. apply In_nth_error in I as (j & Hj). destruct (Back fs2 L2 j f1 Hj) as (f & Ef). destruct (H2 j f Ef) as (g & Eg & _ & Ok & _). congruence. }
  assert (Ar : map if_area fs2 = map if_area fs).
  { assert (G : forall (l l2 : list InputField), length l2 = length l -> (forall j f, nth_error l j = Some f -> exists f2, nth_error l2 j = Some f2 /\ if_area f2 = if_area f) -> map if_area l2 = map if_area l).
    { clear. induction l as [|f l IH]; intros [|f2 l2] L H; try discriminate; [reflexivity|]. cbn [map]. destruct (H 0 f eq_refl) as (g & Eg & A). injection Eg as <-. f_equal; [exact A|]. apply IH; [cbn in L; lia|]. intros j g Hj. apply (H (S j) g Hj). }
    apply G; [exact L2|]. intros j f Hj. destruct (H2 j f Hj) as (g & Eg & _ & _ & A). exists g. auto. }
  destruct (IH fs2 OK2) as (fs' & E3 & L3 & H3). exists fs'. split; [cbn [form]; rewrite E1, bind_ret, E2, bind_ret; exact E3|]. split; [congruence|].
  intros j f Hj. destruct (H2 j f Hj) as (f2 & Ej2 & R2 & _ & A2). destruct (H3 j f2 Ej2) as (f' & Ej3 & R3 & A3). exists f'. split; [exact Ej3|]. split; [|congruence]. cbn [map concat]. rewrite if_run_app, R2, bind_ret.
  rewrite <- R3. f_equal. f_equal. apply map_ext. intros t'. unfold calls. rewrite (target_areas t' fs fs2 Ar). reflexivity.
Qed.
Lemma calls_area fs t j a : fold_left next_area (calls fs t j) a = a.
Proof. unfold calls. rewrite fold_left_app, given_area. destruct (target fs t) as [i|]; [destruct (j =? i)|]; reflexivity. Qed.
Lemma calls_fine u n f fs j ts : ready u n f (map te_event ts) -> fine u n f (concat (map (fun t => calls fs t j) ts)).
Proof.
  intros (OK & Na & Ro & Sc & Hn & Nl). split; [exact OK|]. split; [exact Na|]. split; [exact Ro|]. split; [|split; [|split; [|exact Sc]]].
  - clear - Ro. generalize dependent (if_area f). intros a Ro. induction ts as [|t ts IH]; [exact I|]. cbn [map concat].
    assert (G : forall l r, (forall o, In o l -> next_area a o = a) -> areas_roomy n a r -> areas_roomy n a (l ++ r)).
    { clear - Ro. induction l as [|o l IH]; intros r H R; [exact R|]. cbn [app areas_roomy]. rewrite (H o (or_introl eq_refl)). split; [exact Ro|]. apply IH; [intros o' I; apply H; right; exact I|exact R]. }
    apply G; [|exact IH]. intros o I. unfold calls in I. destruct I as [<-|I]; [reflexivity|]. destruct (target fs t) as [i|]; [|destruct I]. destruct (j =? i); [destruct I|]. destruct I as [<-|[]]. reflexivity.
  - apply Forall_forall. intros o Io. apply in_concat in Io as (l & Il & Io). apply in_map_iff in Il as (t & <- & It). intros ch Hc. unfold calls in Io. destruct Io as [<-|Io].
    + apply (Hn (te_event t)); [apply in_map, It|exact Hc].
    + destruct (target fs t) as [i|]; [|destruct Io]. destruct (j =? i); [destruct Io|]. destruct Io as [<-|[]]. destruct Hc.
  - replace (flat_map given_by (concat (map (fun t => calls fs t j) ts))) with (flat_map typed_event (map te_event ts)); [exact Nl|]. clear. induction ts as [|t ts IH]; [reflexivity|]. cbn [map concat flat_map]. rewrite flat_map_app, <- IH. f_equal.
    unfold calls. rewrite flat_map_app. cbn [S_Typing.given map flat_map given_by]. unfold typed_event. rewrite app_nil_r. destruct (target fs t) as [i|]; [destruct (j =? i)|]; cbn; rewrite app_nil_r; reflexivity.
Qed.
(** The fields receive the events, all of them being drawn after each: each one is seen as it is, in its area, and nothing else of the terminal is changed *)
Theorem C122_screen : forall u, usual_widths u -> forall n fs ts tm, Forall (fun f => ready u n f (map te_event ts)) fs -> disjoint fs -> t_pen tm = pen0 ->
  exists fs' tm', form u fs ts = Ret fs' /\ together u (as_widgets fs) tm (drawings fs ts) = Ret (as_widgets fs', tm') /\ t_pen tm' = pen0 /\ length fs' = length fs
  /\ (forall j f, nth_error fs j = Some f -> exists f', nth_error fs' j = Some f' /\ if_area f' = if_area f
      /\ (ts <> [] -> forall c r, c < text_width f' -> r < height f' -> t_cell tm' (N.to_nat (a_left (if_area f)) + c) (N.to_nat (a_top (if_area f)) + r) = field_cell f' c r))
  /\ (forall x y, (forall f, In f fs -> ~ inside (if_area f) x y) -> t_cell tm' x y = t_cell tm x y).
Proof.
  intros u HU n fs ts tm Re D TP. rewrite Forall_forall in Re.
  assert (OK : Forall field_ok fs) by (apply Forall_forall; intros f I; apply (Re f I)). destruct (@form_calls u ts fs OK) as (fs' & Ef & Lf & Hf).
  assert (Wn : forall i w, nth_error (as_widgets fs) i = Some w -> exists f, nth_error fs i = Some f /\ w = WField f).
  { intros i w E. unfold as_widgets in E. rewrite nth_error_map in E. destruct (nth_error fs i) as [f|]; [|discriminate]. cbn in E. injection E as <-. exists f. auto. }
  assert (Its : forall i f, nth_error fs i = Some f -> its i (drawings fs ts) = map AskField (map (fun t => calls fs t i) ts)) by (intros i f E; apply its_drawings; apply nth_error_Some; congruence).
  assert (Pl : forall i f P, nth_error fs i = Some f -> In P (drawn_in (WField f : widget unit) (its i (drawings fs ts))) -> P = inside (if_area f)).
  { intros i f P E I. rewrite (Its i f E) in I. cbn [drawn_in] in I. apply in_map_iff in I as (a & <- & Ia). f_equal. clear - Ia.
    replace (flat_map (fun q : request unit => match q with AskField ops => [ops] | _ => [] end) (map AskField (map (fun t => calls fs t i) ts))) with (map (fun t => calls fs t i) ts) in Ia by (clear; induction ts as [|t ts IH]; [reflexivity|]; cbn [map flat_map app]; f_equal; exact IH).
    induction ts as [|t ts IH]; [destruct Ia|]. cbn [map field_areas] in Ia. rewrite calls_area in Ia. destruct Ia as [<-|Ia]; [reflexivity|apply IH, Ia]. }
  assert (Fst : Forall (fun q : nat * request unit => fst q < length (as_widgets fs)) (drawings fs ts)).
  { apply Forall_forall. intros q I. unfold drawings in I. apply in_flat_map in I as (t & _ & I). apply in_map_iff in I as (j & <- & I). apply in_seq in I. unfold as_widgets. rewrite map_length. cbn. lia. }
  assert (Us : forall i w, nth_error (as_widgets fs) i = Some w -> well_used u w (its i (drawings fs ts))).
  { intros i w E. destruct (Wn i w E) as (f & Ei & ->). cbn [well_used]. exists n, (map (fun t => calls fs t i) ts). split; [apply (Its i f Ei)|]. split; [exact HU|]. apply calls_fine, Re. eapply nth_error_In, Ei. }
  assert (Own : own_cells (as_widgets fs) (drawings fs ts)).
  { intros i j w w' P Q N Ei Ej IP IQ. destruct (Wn i w Ei) as (f & Hi & ->). destruct (Wn j w' Ej) as (g & Hj & ->). rewrite (Pl i f P Hi IP), (Pl j g Q Hj IQ). intros x y (I1 & I2). exact (D i j f g _ _ N Hi Hj I1 I2). }
  destruct (@C117_screen unit u (as_widgets fs) tm (drawings fs ts) TP Fst Us Own) as (ws' & tm' & E & TP' & Lw & Sh & Out).
  assert (Each : forall j f, nth_error fs j = Some f -> exists f', nth_error fs' j = Some f' /\ nth_error ws' j = Some (WField f') /\ if_area f' = if_area f
     /\ (ts <> [] -> forall c r, c < text_width f' -> r < height f' -> t_cell tm' (N.to_nat (a_left (if_area f)) + c) (N.to_nat (a_top (if_area f)) + r) = field_cell f' c r)).
  { intros j f Hj. destruct (Hf j f Hj) as (f' & Ej & R & A). exists f'. split; [exact Ej|]. destruct (Sh j (WField f)) as (w' & Ew & S0 & S1); [unfold as_widgets; rewrite nth_error_map, Hj; reflexivity|]. rewrite (Its j f Hj) in S0, S1.
    destruct ts as [|t ts2] eqn:Et.
    - cbn [map concat if_run] in R. injection R as <-. rewrite (S0 eq_refl) in Ew. split; [exact Ew|]. split; [exact A|congruence].
    - specialize (S1 ltac:(discriminate)). cbn [shows] in S1. destruct (S1 _ eq_refl) as (f2 & R2 & -> & Cells). assert (f2 = f') as -> by congruence. split; [exact Ew|]. split; [exact A|]. intros _ c r Hc Hr. rewrite <- A. apply Cells; assumption. }
  exists fs', tm'. split; [exact Ef|]. split; [|split; [exact TP'|split; [exact Lf|split]]].
  - rewrite E. f_equal. f_equal. unfold as_widgets in *. rewrite map_length in Lw. clear - Each Lw Lf.
    assert (G : forall (l : list (widget unit)) (l2 : list InputField), length l = length l2 -> (forall j f, nth_error l2 j = Some f -> nth_error l j = Some (WField f)) -> l = map (fun f => WField f) l2).
    { clear. induction l as [|w l IH]; intros [|f l2] L H; try discriminate; [reflexivity|]. cbn [map]. pose proof (H 0 f eq_refl) as H0. cbn in H0. injection H0 as ->. f_equal. apply IH; [cbn in L; lia|]. intros j g Hj. apply (H (S j) g Hj). }
    apply G; [lia|]. intros j f' Hj. destruct (nth_error fs j) as [f|] eqn:Ej; [|apply nth_error_None in Ej; assert (j < length fs') by (apply nth_error_Some; congruence); lia].
    destruct (Each j f Ej) as (g & Eg & Ew & _). congruence.
  - intros j f Hj. destruct (Each j f Hj) as (f' & E1 & _ & A & C). exists f'. auto.
  - intros x y N. apply Out. intros i w P Ei IP. destruct (Wn i w Ei) as (f & Hi & ->). rewrite (Pl i f P Hi IP). apply N. eapply nth_error_In, Hi.
Qed.

(** The events are the ones received from the event source: at any moment of any execution of its thread *)
Theorem C122_source : forall CS (transform : CS -> KeyEvent -> CS * option KeyComb) options u, usual_widths u -> forall c0 ls s os n fs tm, run transform options (source_init c0) ls = Some (s, os) ->
  Forall (fun f => ready u n f (reads_of os)) fs -> disjoint fs -> t_pen tm = pen0 ->
  exists fs' tm', form u fs (got_of os) = Ret fs' /\ together u (as_widgets fs) tm (drawings fs (got_of os)) = Ret (as_widgets fs', tm') /\ t_pen tm' = pen0 /\ length fs' = length fs
  /\ (forall j f, nth_error fs j = Some f -> exists f', nth_error fs' j = Some f' /\ if_area f' = if_area f
      /\ (got_of os <> [] -> forall c r, c < text_width f' -> r < height f' -> t_cell tm' (N.to_nat (a_left (if_area f)) + c) (N.to_nat (a_top (if_area f)) + r) = field_cell f' c r))
  /\ (forall x y, (forall f, In f fs -> ~ inside (if_area f) x y) -> t_cell tm' x y = t_cell tm x y).
Proof.
  intros CS transform options u HU c0 ls s os n fs tm R Re D TP. pose proof (@C119_received CS transform options c0 ls s os R) as Sub. apply (@C122_screen u HU n); try assumption.
  rewrite Forall_forall in *. intros f I. destruct (Re f I) as (OK & Na & Ro & Sc & Hn & Nl). split; [exact OK|]. split; [exact Na|]. split; [exact Ro|]. split; [exact Sc|]. split; [intros e ch Ie; apply Hn; eapply sub_in; eassumption|].
  pose proof (sub_times typed_event c_nl Sub). lia.
Qed.
Print Assumptions C122_screen. Print Assumptions C122_source.

(** The form of C121 on a terminal which had been filled *)
Definition demo_events : list TimedEvent := [press_at 5 6; type_key 97; type_key 98; press_at 40 40; press_at 3 4; type_key 99].
Lemma demo_ready : Forall (fun f => ready demo 1 f (map te_event demo_events)) demo_form.
Proof.
  destruct C121_example as (OK & _). unfold demo_form in *. inversion OK as [|? ? O1 OK2]; subst. inversion OK2 as [|? ? O2 _]; subst.
  assert (G : forall f, field_ok f -> if_content f = if_content (if_new (mkArea 3 4 10 1)) -> roomy 1 (if_area f) -> py (if_scroll f) <= 1 -> ready demo 1 f (map te_event demo_events)).
  { intros f O C Ro Sc. split; [exact O|]. split; [|split; [exact Ro|split; [exact Sc|split]]].
    - unfold narrow_text. rewrite C. vm_compute. intros; repeat match goal with H : _ \/ _ |- _ => destruct H | H : False |- _ => destruct H end; subst; try contradiction; repeat constructor.
    - intros e ch Ie Hc. cbn in Ie. repeat (destruct Ie as [<-|Ie]; [cbv in Hc; repeat (destruct Hc as [<-|Hc]; [right; vm_compute; reflexivity|]); destruct Hc|]). destruct Ie.
    - unfold nb_lines. rewrite C. vm_compute. lia. }
  repeat (apply Forall_cons; [apply G; [assumption|reflexivity|unfold roomy, on_screen; cbn; lia|cbn; lia]|]). apply Forall_nil.
Qed.
Unset Implicit Arguments.
Example C122_example : usual_widths demo /\ Forall (fun f => ready demo 1 f (map te_event demo_events)) demo_form /\ disjoint demo_form /\ t_pen full_term = pen0
  /\ match together demo (as_widgets demo_form) full_term (drawings demo_form demo_events) with Ret (_, tm) => map (fun y => S_Read.read_row tm 2 y 12) [4; 5; 6] | _ => [] end
     = [[120; 99] ++ repeat 32 9%nat ++ [120]; repeat 120 12%nat; [120; 97; 98] ++ repeat 32 8%nat ++ [120]]%N.
Proof.
  split; [repeat split|]. split; [exact demo_ready|]. split; [apply C121_example|]. split; [reflexivity|]. vm_compute. reflexivity.
Qed.
