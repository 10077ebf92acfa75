(** * In a form, the events are for the field in which the button was pressed last (C121) *)
From Verif Require Import Base L_Base M_View S_View M_Content S_Content M_Input S_Input L_Input S_Input2 L_Input3 M_Event S_Event S_Editor S_Typing S_Form Demo.
From Verif Require Import P_Input P_Input2 P_Typing.
Set Implicit Arguments.
Open Scope nat_scope.

Notation event_of t := (IfEvent (seen_event (te_event t)) (double_click t)).
Lemma pressed_cell t a : pressed_in t a = true <-> exists e, te_event t = TMouse e /\ m_kind e = MDown BLeft /\ cell_in a (m_column e) (m_row e).
Proof.
  unfold pressed_in, cell_in. split.
  - destruct (te_event t) as [k|e|w h|b|s]; try discriminate. destruct (m_kind e) as [[]|[]|[]| | | | |] eqn:K; try discriminate. intros H. apply andb_prop in H as (H & H4). apply andb_prop in H as (H & H3). apply andb_prop in H as (H1 & H2).
    exists e. split; [reflexivity|]. split; [exact K|]. apply N.leb_le in H1, H3. apply N.ltb_lt in H2, H4. auto.
  - intros (e & -> & -> & (H1 & H2) & (H3 & H4)). rewrite (proj2 (N.leb_le _ _) H1), (proj2 (N.ltb_lt _ _) H2), (proj2 (N.leb_le _ _) H3), (proj2 (N.ltb_lt _ _) H4). reflexivity.
Qed.
(** ** One field, one event *)
Lemma field_event u f t : field_ok f -> exists f' b, apply_timed_event u f (seen_event (te_event t)) (double_click t) = Ret (f', b) /\ field_ok f' /\ if_area f' = if_area f /\ focused f' = focused f || pressed_in t (if_area f)
  /\ (focused f = false -> pressed_in t (if_area f) = false -> f' = f).
Proof.
  intros OK. destruct (@event_ok u f (seen_event (te_event t)) (double_click t) OK) as (f' & b & E & OK' & (A & _)). exists f', b. unfold apply_timed_event. cbn [if_apply] in E. split; [exact E|]. split; [exact OK'|]. split; [exact A|].
  pose proof OK as [_ [_ HS]].
  destruct (te_event t) as [k|e|w h|g|s] eqn:Et; cbn [seen_event] in E; unfold apply_event in E.
  2: { destruct (focused f) eqn:F.
       - split; [|discriminate]. cbn [orb]. destruct (contains (if_area f) (m_column e) (m_row e)) as [[]| |] eqn:C; unfold apply_mouse_event in E; rewrite C in E; cbn [bind] in E; try discriminate; [|injection E as <- _; exact F].
         rewrite F in E. destruct (cell_pos u f (m_column e) (m_row e)) as [p| |]; try discriminate. cbn [bind] in E.
         destruct (m_kind e) as [[]|[]|[]| | | | |]; try (injection E as <- _; exact F).
         + destruct (set_cursor_pos _ p) as [c| |]; try discriminate. cbn [bind] in E. injection E as <- _. exact F.
         + destruct (double_click t); [|injection E as <- _; exact F]. destruct (set_cursor_pos _ p) as [c| |]; try discriminate. cbn [bind] in E. destruct (select_word_around u c) as [(c2 & b2)| |]; try discriminate. cbn [bind] in E. injection E as <- _. exact F.
         + destruct (set_cursor_pos _ p) as [c| |]; try discriminate. cbn [bind] in E. injection E as <- _. exact F.
         + injection E as <- _. unfold scroll_down. repeat match goal with |- context [if ?x then _ else _] => destruct x end; exact F.
         + injection E as <- _. unfold scroll_up. repeat match goal with |- context [if ?x then _ else _] => destruct x end; exact F.
       - cbn [orb]. assert (D : cell_in (if_area f) (m_column e) (m_row e) \/ ~ cell_in (if_area f) (m_column e) (m_row e)) by (unfold cell_in; lia). destruct D as [D|D].
         + destruct (@C14_mouse_unfocused u f e (double_click t) HS D F) as (M1 & M2). destruct (pressed_in t (if_area f)) eqn:P.
           * apply pressed_cell in P as (e2 & E2 & K & _). rewrite Et in E2. injection E2 as <-. rewrite (M1 K) in E. injection E as <- _. split; [reflexivity|discriminate].
           * rewrite M2 in E; [injection E as <- _; auto|]. intros K. assert (pressed_in t (if_area f) = true); [|congruence]. apply pressed_cell. exists e. auto.
         + destruct (@C14_mouse_outside u f e (double_click t) HS D) as (M1 & _). rewrite M1 in E. injection E as <- _. split; [|auto]. rewrite F. destruct (pressed_in t (if_area f)) eqn:P; [|reflexivity]. apply pressed_cell in P as (e2 & E2 & _ & K). rewrite Et in E2. injection E2 as <-. contradiction. }
  all: assert (P : pressed_in t (if_area f) = false) by (unfold pressed_in; rewrite Et; reflexivity); rewrite P, orb_false_r.
  2-4: injection E as <- _; auto.
  destruct (focused f) eqn:F; [|injection E as <- _; auto]. split; [|discriminate].
  assert (Kc : forall b0 s, apply_keycode_event u f (k_code k) s = Ret (f', b0) -> focused f' = true).
  { intros b0 s Ek. destruct (@keycode_ok u f (k_code k) s OK) as (f2 & b2 & E2 & _ & (c & s2 & ->)). rewrite E2 in Ek. injection Ek as <- _. exact F. }
  destruct (N.eqb (k_mods k) 0); [exact (Kc _ _ E)|]. destruct (N.eqb (k_mods k) SHIFT); [exact (Kc _ _ E)|]. injection E as <- _. exact F.
Qed.
(** A press out of the area of a field doesn't change it *)
Lemma pressed_elsewhere u f t a : field_ok f -> pressed_in t a = true -> (forall x y, cell_in a x y -> ~ cell_in (if_area f) x y) -> apply_timed_event u f (seen_event (te_event t)) (double_click t) = Ret (f, false).
Proof.
  intros OK P D. apply pressed_cell in P as (e & Et & _ & C). rewrite Et. cbn [seen_event]. pose proof OK as [_ [_ HS]]. exact (proj2 (@C14_mouse_outside u f e (double_click t) HS (D _ _ C))).
Qed.

(** ** All the fields *)
Lemma target_some : forall fs t i, target fs t = Some i -> exists f, nth_error fs i = Some f /\ pressed_in t (if_area f) = true.
Proof.
  induction fs as [|f fs IH]; intros t i E; [discriminate|]. cbn [target] in E. destruct (pressed_in t (if_area f)) eqn:P; [injection E as <-; exists f; auto|].
  destruct (target fs t) as [i'|] eqn:T; [|discriminate]. injection E as <-. apply IH, T.
Qed.
Lemma target_none : forall fs t, target fs t = None -> forall j f, nth_error fs j = Some f -> pressed_in t (if_area f) = false.
Proof.
  induction fs as [|g fs IH]; intros t E [|j] f H; try discriminate; cbn [target nth_error] in *; destruct (pressed_in t (if_area g)) eqn:P; try discriminate; destruct (target fs t) eqn:T; try discriminate; [congruence|].
  eapply IH; eassumption.
Qed.
Lemma target_areas t : forall fs fs', map if_area fs' = map if_area fs -> target fs' t = target fs t.
Proof. induction fs as [|f fs IH]; intros [|f' fs'] E; try discriminate; [reflexivity|]. cbn [map] in E. injection E as E1 E2. cbn [target]. rewrite E1, (IH _ E2). reflexivity. Qed.
Lemma give_each u t : forall fs, Forall field_ok fs -> exists fs', give u fs t = Ret fs' /\ length fs' = length fs
  /\ forall j f, nth_error fs j = Some f -> exists f' b, nth_error fs' j = Some f' /\ apply_timed_event u f (seen_event (te_event t)) (double_click t) = Ret (f', b).
Proof.
  induction 1 as [|f fs OK _ (fs' & E & L & H)]; [exists []; split; [reflexivity|]; split; [reflexivity|]; intros [|j]; discriminate|].
  destruct (@field_event u f t OK) as (f' & b & Ef & _). exists (f' :: fs'). cbn [give]. rewrite Ef, bind_ret, E. split; [reflexivity|]. split; [cbn; congruence|].
  intros [|j] f0 Hj; [injection Hj as <-; exists f', b; auto|apply H, Hj].
Qed.
Lemma unfocus_each u i : forall fs j0, Forall field_ok fs -> exists fs', unfocus u i j0 fs = Ret fs' /\ length fs' = length fs
  /\ forall j f, nth_error fs j = Some f -> exists f', nth_error fs' j = Some f' /\ (if j0 + j =? i then f' = f else set_focus u f false = Ret f').
Proof.
  induction fs as [|f fs IH]; intros j0 F; [exists []; split; [reflexivity|]; split; [reflexivity|]; intros [|j]; discriminate|]. inversion F as [|? ? OK F']; subst. destruct (IH (S j0) F') as (fs' & E & L & H).
  assert (S0 : exists f', (if j0 =? i then Ret f else set_focus u f false) = Ret f' /\ (if j0 =? i then f' = f else set_focus u f false = Ret f')).
  { destruct (j0 =? i); [exists f; auto|]. destruct (@C72_focus u f false OK) as (A & B & _). destruct (focused f); eexists; split; try (apply B; reflexivity); apply A; reflexivity. }
  destruct S0 as (f' & E0 & H0). exists (f' :: fs'). cbn [unfocus]. rewrite E0, bind_ret, E. split; [reflexivity|]. split; [cbn; congruence|].
  intros [|j] g Hj; cbn [nth_error] in Hj; [injection Hj as <-; exists f'; rewrite Nat.add_0_r; auto|]. destruct (H j g Hj) as (g' & E1 & H1). exists g'. split; [exact E1|]. replace (j0 + S j) with (S j0 + j) by lia. exact H1.
Qed.

(** What the application does for one event *)
Definition handled (u : unicode) (fs : list InputField) (t : TimedEvent) : outcome (list InputField) :=
  fs1 <- give u fs t ;; match target fs t with Some i => unfocus u i 0 fs1 | None => Ret fs1 end.
Definition its_part (fs : list InputField) (j : nat) (o : option nat) (t : TimedEvent) : list if_op :=
  if is_owner (next_owner fs o t) j then S_Typing.given [t] else if is_owner o j then [IfSetFocus false] else [].
Lemma same_index i j : is_owner (Some i) j = true -> i = j.
Proof. apply Nat.eqb_eq. Qed.
Lemma handled_step u fs o t : Forall field_ok fs -> disjoint fs -> focus_is fs o -> exists fs', handled u fs t = Ret fs' /\ Forall field_ok fs' /\ map if_area fs' = map if_area fs /\ focus_is fs' (next_owner fs o t)
  /\ forall j f, nth_error fs j = Some f -> exists f', nth_error fs' j = Some f' /\ if_run u f (its_part fs j o t) = Ret f'.
Proof.
  intros OK D Fo. destruct (@give_each u t fs OK) as (fs1 & E1 & L1 & H1). unfold handled. rewrite E1, bind_ret.
  assert (OKn : forall j f, nth_error fs j = Some f -> field_ok f) by (intros j f Hj; apply nth_error_In in Hj; rewrite Forall_forall in OK; apply OK, Hj).
  assert (Back : forall l : list InputField, length l = length fs -> forall j f', nth_error l j = Some f' -> exists f, nth_error fs j = Some f).
  { intros l L j f' Hj. destruct (nth_error fs j) as [f|] eqn:Ef; [exists f; reflexivity|]. apply nth_error_None in Ef. assert (j < length l) by (apply nth_error_Some; congruence). lia. }
  (* what is known of each field is enough *)
  assert (Enough : forall fs2, length fs2 = length fs ->
    (forall j f, nth_error fs j = Some f -> exists f2, nth_error fs2 j = Some f2 /\ if_run u f (its_part fs j o t) = Ret f2 /\ field_ok f2 /\ if_area f2 = if_area f /\ focused f2 = is_owner (next_owner fs o t) j) ->
    Forall field_ok fs2 /\ map if_area fs2 = map if_area fs /\ focus_is fs2 (next_owner fs o t) /\ forall j f, nth_error fs j = Some f -> exists f', nth_error fs2 j = Some f' /\ if_run u f (its_part fs j o t) = Ret f').
  { intros fs2 L2 H. split; [|split; [|split]].
    - apply Forall_forall. intros f2 I. apply In_nth_error in I as (j & Hj). destruct (Back fs2 L2 j f2 Hj) as (f & Ef). destruct (H j f Ef) as (g & Eg & _ & Ok & _). congruence.
    - assert (G : forall (fs fs2 : list InputField), length fs2 = length fs -> (forall j f, nth_error fs j = Some f -> exists f2, nth_error fs2 j = Some f2 /\ if_area f2 = if_area f) -> map if_area fs2 = map if_area fs).
      { clear. induction fs as [|f fs IH]; intros [|f2 fs2] L H; try discriminate; [reflexivity|]. cbn [map]. destruct (H 0 f eq_refl) as (g & Eg & A). injection Eg as <-. f_equal; [exact A|]. apply IH; [cbn in L; lia|]. intros j g Hj. apply (H (S j) g Hj). }
      apply G; [exact L2|]. intros j f Hj. destruct (H j f Hj) as (f2 & E2 & _ & _ & A & _). exists f2. auto.
    - intros j f2 Hj. destruct (Back fs2 L2 j f2 Hj) as (f & Ef). destruct (H j f Ef) as (g & Eg & _ & _ & _ & Fg). congruence.
    - intros j f Hj. destruct (H j f Hj) as (f2 & E2 & R & _). exists f2. auto. }
  assert (One : forall f f' b, apply_timed_event u f (seen_event (te_event t)) (double_click t) = Ret (f', b) -> if_run u f (S_Typing.given [t]) = Ret f') by (intros f f' b E; cbn [S_Typing.given map if_run if_apply]; unfold apply_timed_event in E; rewrite E; reflexivity).
  destruct (target fs t) as [i|] eqn:T.
  - destruct (target_some _ _ T) as (fi & Ei & Pi).
    assert (OK1 : Forall field_ok fs1).
    { apply Forall_forall. intros f1 I. apply In_nth_error in I as (j & Hj). destruct (Back fs1 L1 j f1 Hj) as (f & Ef). destruct (H1 j f Ef) as (g & b & Eg & Ag). destruct (@field_event u f t (OKn j f Ef)) as (g2 & b2 & E2 & Ok2 & _). congruence. }
    destruct (@unfocus_each u i fs1 0 OK1) as (fs2 & E2 & L2 & H2). exists fs2. split; [exact E2|]. apply Enough; [congruence|]. intros j f Hj. pose proof (OKn j f Hj) as Okf.
    destruct (H1 j f Hj) as (f1 & b & E1j & A1). destruct (H2 j f1 E1j) as (f2 & E2j & B). cbn [Nat.add] in B. exists f2. split; [exact E2j|]. unfold its_part, next_owner. rewrite T. cbn [is_owner]. rewrite (Nat.eqb_sym i j).
    destruct (Nat.eqb_spec j i) as [->|N].
    + subst f2. rewrite Ei in Hj. injection Hj as <-. destruct (@field_event u fi t Okf) as (g & b2 & E3 & Ok3 & Ar & Fg & _). rewrite A1 in E3. injection E3 as -> _. split; [apply (One _ _ _ A1)|]. split; [exact Ok3|]. split; [exact Ar|]. rewrite Fg, Pi. apply orb_true_r.
    + rewrite (@pressed_elsewhere u f t (if_area fi) Okf Pi) in A1 by (intros x y C1 C2; exact (D i j fi f x y (not_eq_sym N) Ei Hj C1 C2)). injection A1 as <- _.
      destruct (@C72_focus u f false Okf) as (FA & FB & _). destruct (focused f) eqn:Ff.
      * rewrite (FB eq_refl eq_refl) in B. injection B as <-. rewrite <- (Fo j f Hj), Ff. cbn [if_run if_apply]. unfold no_bool. rewrite (FB eq_refl eq_refl). split; [reflexivity|]. split; [exact Okf|]. split; reflexivity.
      * rewrite (FA eq_refl) in B. injection B as <-. rewrite <- (Fo j f Hj), Ff. split; [reflexivity|]. split; [exact Okf|]. split; [reflexivity|first [exact Ff|reflexivity]].
  - exists fs1. split; [reflexivity|]. apply Enough; [exact L1|]. intros j f Hj. pose proof (OKn j f Hj) as Okf. destruct (H1 j f Hj) as (f1 & b & E1j & A1). exists f1. split; [exact E1j|]. unfold its_part, next_owner. rewrite T.
    destruct (@field_event u f t Okf) as (g & b2 & E3 & Ok3 & Ar & Fg & Sa). rewrite A1 in E3. injection E3 as -> _. pose proof (target_none _ _ T j Hj) as Np. rewrite Np, orb_false_r in Fg. rewrite <- (Fo j f Hj).
    destruct (focused f) eqn:Ff; [split; [apply (One _ _ _ A1)|auto]|]. rewrite (Sa eq_refl Np). split; [reflexivity|]. split; [exact Okf|]. split; [reflexivity|first [exact Ff|reflexivity]].
Qed.
Lemma disjoint_areas fs fs' : map if_area fs' = map if_area fs -> disjoint fs -> disjoint fs'.
Proof.
  intros E D i j f g x y N Hi Hj. assert (G : forall k h, nth_error fs' k = Some h -> exists h0, nth_error fs k = Some h0 /\ if_area h0 = if_area h).
  { intros k h Hk. assert (M : nth_error (map if_area fs) k = Some (if_area h)) by (rewrite <- E; apply map_nth_error, Hk). rewrite nth_error_map in M. destruct (nth_error fs k) as [h0|]; [|discriminate]. cbn in M. injection M as M. exists h0. auto. }
  destruct (G i f Hi) as (f0 & Hf & <-). destruct (G j g Hj) as (g0 & Hg & <-). eapply D; eassumption.
Qed.
Lemma share_areas fs fs' j : map if_area fs' = map if_area fs -> forall ts o, share fs' j o ts = share fs j o ts.
Proof. intros E. induction ts as [|t ts IH]; intros o; [reflexivity|]. cbn [share]. unfold next_owner. rewrite (target_areas t _ _ E). f_equal. apply IH. Qed.
Lemma owner_areas fs fs' : map if_area fs' = map if_area fs -> forall ts o, owner fs' o ts = owner fs o ts.
Proof. intros E. unfold owner. induction ts as [|t ts IH]; intros o; [reflexivity|]. cbn [fold_left]. unfold next_owner at 2 4. rewrite (target_areas t _ _ E). apply IH. Qed.
(** Each field becomes what its share of the events makes of it: the events from a press in its area to a press in another one. It has the focus if it's the last one pressed. *)
Theorem C121_form : forall u ts fs o, Forall field_ok fs -> disjoint fs -> focus_is fs o ->
  exists fs', form u fs ts = Ret fs' /\ length fs' = length fs /\ focus_is fs' (owner fs o ts)
  /\ forall j f, nth_error fs j = Some f -> exists f', nth_error fs' j = Some f' /\ if_run u f (share fs j o ts) = Ret f' /\ field_ok f' /\ if_area f' = if_area f.
Proof.
  intros u. induction ts as [|t ts IH]; intros fs o OK D Fo.
  - exists fs. split; [reflexivity|]. split; [reflexivity|]. split; [exact Fo|]. intros j f Hj. exists f. split; [exact Hj|]. split; [reflexivity|]. split; [|reflexivity]. rewrite Forall_forall in OK. apply OK. eapply nth_error_In, Hj.
  - destruct (@handled_step u fs o t OK D Fo) as (fs1 & E1 & OK1 & A1 & F1 & H1). destruct (IH fs1 (next_owner fs o t) OK1 (@disjoint_areas fs fs1 A1 D) F1) as (fs' & E2 & L2 & F2 & H2). exists fs'.
    split; [|split; [|split]].
    + cbn [form]. unfold handled in E1. destruct (give u fs t) as [g| |]; try discriminate. cbn [bind] in *. rewrite E1. exact E2.
    + rewrite L2. rewrite <- (map_length if_area fs1), A1. apply map_length.
    + rewrite (@owner_areas fs fs1 A1) in F2. exact F2.
    + intros j f Hj. destruct (H1 j f Hj) as (f1 & Ej & R1). destruct (H2 j f1 Ej) as (f2 & Ej2 & R2 & Ok2 & Ar2). exists f2. split; [exact Ej2|]. rewrite (@share_areas fs fs1 j A1) in R2. split; [|split; [exact Ok2|]].
      * cbn [share]. change (if_run u f (its_part fs j o t ++ share fs j (next_owner fs o t) ts) = Ret f2). rewrite if_run_app, R1. exact R2.
      * rewrite Ar2. assert (M : nth_error (map if_area fs) j = Some (if_area f1)) by (rewrite <- A1; apply map_nth_error, Ej). rewrite (map_nth_error _ _ _ Hj) in M. congruence.
Qed.
(** As long as the button isn't pressed in it, a field which doesn't have the focus isn't changed by anything *)
Lemma no_share fs j : forall ts o, is_owner o j = false -> (forall t, In t ts -> target fs t <> Some j) -> share fs j o ts = [].
Proof.
  induction ts as [|t ts IH]; intros o No H; [reflexivity|]. cbn [share]. assert (N' : is_owner (next_owner fs o t) j = false).
  { unfold next_owner. destruct (target fs t) as [i|] eqn:T; [|exact No]. cbn [is_owner]. apply Nat.eqb_neq. intros ->. apply (H t (or_introl eq_refl)), T. }
  rewrite N', No. apply IH; [exact N'|]. intros t' I. apply H. right. exact I.
Qed.
Theorem C121_untouched : forall u ts fs o j f, Forall field_ok fs -> disjoint fs -> focus_is fs o -> nth_error fs j = Some f -> focused f = false -> (forall t, In t ts -> pressed_in t (if_area f) = false) ->
  exists fs', form u fs ts = Ret fs' /\ nth_error fs' j = Some f.
Proof.
  intros u ts fs o j f OK D Fo Hj Ff H. destruct (@C121_form u ts fs o OK D Fo) as (fs' & E & _ & _ & G). exists fs'. split; [exact E|]. destruct (G j f Hj) as (f' & Ej & R & _). rewrite no_share in R.
  - cbn [if_run] in R. congruence.
  - rewrite <- (Fo j f Hj). exact Ff.
  - intros t I T. destruct (target_some _ _ T) as (g & Eg & P). rewrite Hj in Eg. injection Eg as <-. rewrite (H t I) in P. discriminate.
Qed.
(** The button is pressed in a field, then keys are used, and nothing else which is for this field: the text it had is edited by these keys only, and the other fields keep their text *)
Theorem C121_typed : forall u fs o i f t ts, Forall field_ok fs -> disjoint fs -> focus_is fs o -> nth_error fs i = Some f -> focused f = false -> unselected (if_content f) ->
  pressed_in t (if_area f) = true -> Forall no_selecting (map te_event ts) ->
  exists fs' f', form u fs (t :: ts) = Ret fs' /\ nth_error fs' i = Some f' /\ focus_is fs' (Some i)
  /\ view (if_content f') = e_run u (flat_map (pressed (height f)) (flat_map keys_of (map te_event ts))) (view (if_content f))
  /\ forall j g, j <> i -> nth_error fs j = Some g -> exists g', nth_error fs' j = Some g' /\ if_content g' = if_content g.
Proof.
  intros u fs o i f t ts OK D Fo Hi Ff Un P NS. destruct (@C121_form u (t :: ts) fs o OK D Fo) as (fs' & E & _ & F & G). destruct (G i f Hi) as (f' & Ei & R & _ & _). exists fs', f'. split; [exact E|]. split; [exact Ei|].
  assert (OKn : forall j f, nth_error fs j = Some f -> field_ok f) by (intros j g Hj; apply nth_error_In in Hj; rewrite Forall_forall in OK; apply OK, Hj).
  assert (T : target fs t = Some i).
  { destruct (target fs t) as [i'|] eqn:T; [|rewrite (target_none _ _ T i Hi) in P; discriminate]. destruct (target_some _ _ T) as (g & Eg & Pg). destruct (Nat.eq_dec i' i) as [->|N]; [reflexivity|]. exfalso.
    apply pressed_cell in P as (e & Ee & _ & C). apply pressed_cell in Pg as (e2 & Ee2 & _ & C2). rewrite Ee in Ee2. injection Ee2 as <-. exact (D i' i g f _ _ N Eg Hi C2 C). }
  assert (Ts : forall t', In t' ts -> target fs t' = None).
  { intros t' I. destruct (target fs t') as [i'|] eqn:T'; [|reflexivity]. exfalso. destruct (target_some _ _ T') as (g & _ & Pg). apply pressed_cell in Pg as (e & Ee & _). rewrite Forall_forall in NS. specialize (NS (te_event t') (in_map te_event _ _ I)). rewrite Ee in NS. exact NS. }
  assert (Ow : forall l, (forall t', In t' l -> target fs t' = None) -> owner fs (Some i) l = Some i) by (clear; unfold owner; induction l as [|t l IH]; intros H; [reflexivity|]; cbn [fold_left]; unfold next_owner at 2; rewrite (H t (or_introl eq_refl)); apply IH; intros t' I; apply H; right; exact I).
  assert (Sh : forall l, (forall t', In t' l -> target fs t' = None) -> share fs i (Some i) l = S_Typing.given l).
  { clear. induction l as [|t l IH]; intros H; [reflexivity|]. cbn [share]. unfold next_owner. rewrite (H t (or_introl eq_refl)). cbn [is_owner]. rewrite Nat.eqb_refl. cbn [S_Typing.given map app]. f_equal. apply IH. intros t' I. apply H. right. exact I. }
  split; [|split].
  - unfold owner in F. cbn [fold_left] in F. unfold next_owner at 2 in F. rewrite T in F. fold (owner fs (Some i) ts) in F. rewrite (Ow ts Ts) in F. exact F.
  - cbn [share] in R. unfold next_owner in R. rewrite T in R. cbn [is_owner] in R. rewrite Nat.eqb_refl, (Sh ts Ts), if_run_app in R.
    assert (W : if_run u f (S_Typing.given [t]) = Ret (with_focus f true)).
    { pose proof (OKn i f Hi) as [_ [_ HS]]. apply pressed_cell in P as (e & Ee & K & C). cbn [S_Typing.given map if_run if_apply]. rewrite Ee. cbn [seen_event]. unfold apply_event. rewrite (proj1 (@C14_mouse_unfocused u f e (double_click t) HS C Ff) K). reflexivity. }
    rewrite W, bind_ret in R. destruct (@C96_given u ts (with_focus f true) (OKn i f Hi) eq_refl Un NS) as (f2 & E2 & _ & _ & _ & V). rewrite R in E2. injection E2 as <-. exact V.
  - intros j g N Hj. destruct (G j g Hj) as (g' & Ej & Rg & _). exists g'. split; [exact Ej|]. cbn [share] in Rg. unfold next_owner in Rg. rewrite T in Rg. cbn [is_owner] in Rg. rewrite (proj2 (Nat.eqb_neq i j) (not_eq_sym N)), no_share, app_nil_r in Rg.
    + destruct (is_owner o j); [|cbn [if_run] in Rg; congruence]. cbn [if_run if_apply] in Rg. unfold no_bool in Rg. destruct (@C72_focus u g false (OKn j g Hj)) as (FA & FB & _). destruct (focused g).
      * rewrite (FB eq_refl eq_refl) in Rg. cbn [bind] in Rg. injection Rg as <-. reflexivity.
      * rewrite (FA eq_refl) in Rg. cbn [bind] in Rg. congruence.
    + cbn [is_owner]. apply Nat.eqb_neq. congruence.
    + intros t' I. rewrite (Ts t' I). discriminate.
Qed.

(** ** Until one takes it *)
Lemma taken_once u fs o t : Forall field_ok fs -> disjoint fs -> focus_is fs o -> forall i j f g f', i <> j -> nth_error fs i = Some f -> nth_error fs j = Some g ->
  apply_timed_event u f (seen_event (te_event t)) (double_click t) = Ret (f', true) -> apply_timed_event u g (seen_event (te_event t)) (double_click t) = Ret (g, false).
Proof.
  intros OK D Fo i j f g f' N Hi Hj E.
  assert (OKn : forall j f, nth_error fs j = Some f -> field_ok f) by (intros j0 f0 H; apply nth_error_In in H; rewrite Forall_forall in OK; apply OK, H).
  unfold apply_timed_event in *. pose proof (OKn i f Hi) as [_ [_ Sf]]. pose proof (OKn j g Hj) as [_ [_ Sg]]. destruct (te_event t) as [k|e|w h|b|s]; cbn [seen_event] in *; try discriminate E.
  - assert (Gf : focused g = false).
    { unfold apply_event in E. rewrite (Fo i f Hi) in E. rewrite (Fo j g Hj). destruct o as [o|]; [|discriminate E]. cbn [is_owner] in *. destruct (Nat.eqb_spec o i) as [->|]; [|discriminate E]. apply Nat.eqb_neq, N. }
    unfold apply_event. rewrite Gf. reflexivity.
  - assert (C : cell_in (if_area f) (m_column e) (m_row e) \/ ~ cell_in (if_area f) (m_column e) (m_row e)) by (unfold cell_in; lia). destruct C as [C|C].
    + apply (proj2 (@C14_mouse_outside u g e (double_click t) Sg (D i j f g _ _ N Hi Hj C))).
    + rewrite (proj2 (@C14_mouse_outside u f e (double_click t) Sf C)) in E. discriminate E.
Qed.
Lemma first_same u t : forall fs, (forall f, In f fs -> exists f' b, apply_timed_event u f (seen_event (te_event t)) (double_click t) = Ret (f', b)) ->
  (forall i j f g f', i <> j -> nth_error fs i = Some f -> nth_error fs j = Some g -> apply_timed_event u f (seen_event (te_event t)) (double_click t) = Ret (f', true) -> apply_timed_event u g (seen_event (te_event t)) (double_click t) = Ret (g, false)) ->
  give_first u fs t = give u fs t.
Proof.
  induction fs as [|f fs IH]; intros H X; [reflexivity|]. cbn [give give_first]. destruct (H f (or_introl eq_refl)) as (f' & b & E). rewrite E, !bind_ret. destruct b.
  - assert (G : forall l, (forall g, In g l -> apply_timed_event u g (seen_event (te_event t)) (double_click t) = Ret (g, false)) -> give u l t = Ret l).
    { clear. induction l as [|g l IH]; intros H; [reflexivity|]. cbn [give]. rewrite (H g (or_introl eq_refl)), bind_ret, IH; [reflexivity|]. intros g' I. apply H. right. exact I. }
    rewrite G; [reflexivity|]. intros g I. apply In_nth_error in I as (j & Hj). exact (X 0 (S j) f g f' ltac:(discriminate) eq_refl Hj E).
  - rewrite IH; [reflexivity|intros g I; apply H; right; exact I|]. intros i j g g2 g' N Hi Hj. apply (X (S i) (S j) g g2 g'); [congruence|exact Hi|exact Hj].
Qed.
(** An application which stops at the first field which takes the event does the same *)
Theorem C121_first : forall u ts fs o, Forall field_ok fs -> disjoint fs -> focus_is fs o -> form_first u fs ts = form u fs ts.
Proof.
  intros u. induction ts as [|t ts IH]; intros fs o OK D Fo; [reflexivity|]. cbn [form form_first]. rewrite first_same.
  - destruct (@handled_step u fs o t OK D Fo) as (fs1 & E1 & OK1 & A1 & F1 & _). unfold handled in E1. destruct (give u fs t) as [g| |]; try discriminate. cbn [bind] in *. rewrite E1, !bind_ret. exact (IH fs1 _ OK1 (@disjoint_areas fs fs1 A1 D) F1).
  - intros f I. rewrite Forall_forall in OK. destruct (@field_event u f t (OK f I)) as (f' & b & E & _). exists f', b. exact E.
  - apply (@taken_once u fs o t OK D Fo).
Qed.
Print Assumptions C121_form. Print Assumptions C121_untouched. Print Assumptions C121_typed. Print Assumptions C121_first.

(** Two fields: "ab" is typed in the second one, then "c" in the first one *)
Definition demo_form : list InputField := [if_new (mkArea 3 4 10 1); with_focus (if_new (mkArea 3 6 10 1)) false].
Definition press_at (x y : N) : TimedEvent := te_new 0 (TMouse (mkMouse (MDown BLeft) x y 0)).
Definition type_key (c : char) : TimedEvent := te_new 0 (TKey (mkKE (KChar c) 0 Press)).
Definition texts (m : outcome (list InputField)) : list (str * bool) := match m with Ret fs => map (fun f => (get_content f, focused f)) fs | _ => [] end.
Example C121_example : Forall field_ok demo_form /\ disjoint demo_form /\ focus_is demo_form (Some 0)
  /\ texts (form demo demo_form [press_at 5 6; type_key 97; type_key 98; press_at 40 40; press_at 3 4; type_key 99]) = [([99%N], true); ([97; 98]%N, false)]
  /\ owner demo_form (Some 0) [press_at 5 6; type_key 97; press_at 40 40; press_at 3 4] = Some 0 /\ length (share demo_form 1 (Some 0) [press_at 5 6; type_key 97; type_key 98; press_at 40 40; press_at 3 4; type_key 99]) = 5.
Proof.
  assert (A : forall a, area_ok a -> field_ok (if_new a)) by (intros a Ha; pose proof (C72_new a) as H; cbv zeta in H; apply H, Ha).
  assert (A1 : area_ok (mkArea 3 4 10 1)) by (split; vm_compute; [discriminate|split; reflexivity]). assert (A2 : area_ok (mkArea 3 6 10 1)) by (split; vm_compute; [discriminate|split; reflexivity]).
  split; [unfold demo_form; apply Forall_cons; [exact (A _ A1)|]; apply Forall_cons; [exact (A _ A2)|apply Forall_nil]|]. split; [|split].
  - intros [|[|i]] [|[|j]] f g x y N Hi Hj; cbn in Hi, Hj; try congruence; try (destruct i; discriminate); try (destruct j; discriminate); injection Hi as <-; injection Hj as <-; unfold cell_in; cbn; lia.
  - intros [|[|j]] f Hj; cbn in Hj; [injection Hj as <-; reflexivity|injection Hj as <-; reflexivity|destruct j; discriminate].
  - split; [vm_compute; reflexivity|]. split; vm_compute; reflexivity.
Qed.
(** Fields gain the focus by themselves but don't lose it: without an application to tell the other ones, what is typed goes in both *)
Example C121_both_example : texts (fs <- give demo demo_form (press_at 5 6) ;; give demo fs (type_key 97)) = [([97%N], true); ([97%N], true)].
Proof. vm_compute. reflexivity. Qed.
