(** * C96: what is typed is what is in the field *)
From Verif Require Import Base L_Base Demo M_Content S_Content L_Content L_Content2 L_Content3 L_Content4 P_Content M_View M_Input S_Input S_Input2 L_Input3 P_Input2 S_Editor L_Editor P_Editor.
From Verif Require Import M_Event S_Event L_Event L_Event2 P_Event S_Typing.
From Verif Require Import S_View S_Area S_Paint S_Read L_Input L_Input2 P_Input P_ReadField.
From Verif Require P_Paint.
Set Implicit Arguments.
Open Scope nat_scope.

Lemma e_run_app u : forall l r e, e_run u (l ++ r) e = e_run u r (e_run u l e).
Proof. induction l as [|o l IH]; intros r e; [reflexivity|]. cbn [app e_run]. apply IH. Qed.
Lemma event_step u f e d : field_ok f -> focused f = true -> unselected (if_content f) -> no_selecting e ->
  exists f' b, if_apply u f (IfEvent (seen_event e) d) = Ret (f', b) /\ field_ok f' /\ only_content f f' /\ unselected (if_content f')
  /\ view (if_content f') = e_run u (flat_map (pressed (height f)) (keys_of e)) (view (if_content f)).
Proof.
  intros OK F U NS. assert (ID : exists f' b, Ret (f, false) = Ret (f', b) /\ field_ok f' /\ only_content f f' /\ unselected (if_content f') /\ view (if_content f') = view (if_content f)).
  { exists f, false. split; [reflexivity|]. split; [exact OK|]. split; [exists (if_content f), (if_scroll f); destruct f; reflexivity|]. auto. }
  destruct e as [k|m|w h|g|s]; cbn [if_apply seen_event keys_of flat_map e_run]; try contradiction NS; try exact ID.
  cbn [no_selecting] in NS. unfold apply_event. rewrite F.
  destruct (press_step u (k_code k) OK F U) as (f' & b & E & OK' & OC & U' & V). cbn [if_apply press] in E. unfold apply_event in E. rewrite F in E. cbn [N.eqb] in E.
  destruct (N.eqb_spec (k_mods k) 0) as [M|M].
  - rewrite M. cbn [N.leb N.compare flat_map]. rewrite app_nil_r. exists f', b. auto.
  - unfold SHIFT. destruct (N.eqb_spec (k_mods k) 1) as [M1|M1].
    + destruct (N.leb_spec (k_mods k) 1); [|lia]. cbn [flat_map]. rewrite app_nil_r. specialize (NS M1). exists f', b.
      split; [|auto]. rewrite <- E. destruct (k_code k); try contradiction NS; reflexivity.
    + destruct (N.leb_spec (k_mods k) 1); [lia|]. exact ID.
Qed.
(** The field receives any events but the ones which may select: its text and cursor are the ones of the plain editor where the keys are pressed *)
Theorem C96_given : forall u ts f, field_ok f -> focused f = true -> unselected (if_content f) -> Forall no_selecting (map te_event ts) ->
  exists f', if_run u f (given ts) = Ret f' /\ field_ok f' /\ only_content f f' /\ unselected (if_content f')
  /\ view (if_content f') = e_run u (flat_map (pressed (height f)) (flat_map keys_of (map te_event ts))) (view (if_content f)).
Proof.
  intros u ts. induction ts as [|t ts IH]; intros f OK F U H.
  - exists f. split; [reflexivity|]. split; [exact OK|]. split; [exists (if_content f), (if_scroll f); destruct f; reflexivity|]. auto.
  - cbn [map] in H. inversion H as [|? ? H1 H2]; subst. destruct (@event_step u f (te_event t) (double_click t) OK F U H1) as (f1 & b & E1 & OK1 & (c1 & s1 & Q) & U1 & V1).
    assert (F1 : focused f1 = true) by (rewrite Q; exact F). assert (Hh : height f1 = height f) by (rewrite Q; reflexivity).
    destruct (IH f1 OK1 F1 U1 H2) as (f' & E & OK' & (c2 & s2 & Q2) & U' & V'). exists f'. change (given (t :: ts)) with (IfEvent (seen_event (te_event t)) (double_click t) :: given ts). cbn [if_run]. rewrite E1. cbn [bind].
    split; [exact E|]. split; [exact OK'|]. split; [exists c2, s2; rewrite Q2, Q; reflexivity|]. split; [exact U'|]. rewrite V', V1, Hh. cbn [map flat_map]. rewrite flat_map_app, e_run_app. reflexivity.
Qed.

Lemma if_run_app u : forall a b f, if_run u f (a ++ b) = (f' <- if_run u f a ;; if_run u f' b).
Proof. induction a as [|o a IH]; intros b f; [reflexivity|]. cbn [app if_run]. destruct (if_apply u f o) as [(f1 & r)| |]; [apply IH|reflexivity|reflexivity]. Qed.
(** After a char is typed, a text which holds in the area is shown from its start *)
Lemma typed_scroll u ts f ch : field_ok f -> focused f = true -> unselected (if_content f) -> Forall no_selecting (map te_event ts) ->
  (exists ts' t k, ts = ts' ++ [t] /\ te_event t = TKey k /\ key_char ch k) ->
  forall f', if_run u f (given ts) = Ret f' -> nb_lines f' <= height f' -> Forall (fun l => columns u l < N.to_nat (a_width (if_area f'))) (clines (if_content f')) -> if_scroll f' = mkPos 0 0.
Proof.
  intros OK F U NS (ts' & t & k & -> & Et & Kc & Km) f' E NH FT. rewrite map_app in NS. apply Forall_app in NS as (NS & _).
  destruct (@C96_given u ts' f OK F U NS) as (f1 & E1 & OK1 & (c1 & s1 & Q1) & U1 & _). unfold given in E. rewrite map_app, if_run_app in E. fold (given ts') in E. rewrite E1 in E. cbn [bind map if_run] in E.
  rewrite Et in E. cbn [seen_event if_apply] in E. rewrite Kc in E. assert (F1 : focused f1 = true) by (rewrite Q1; exact F).
  assert (E2 : apply_event u f1 (EKey (KChar ch) (k_mods k)) (double_click t) = apply_keycode_event u f1 (KChar ch) false) by (unfold apply_event; rewrite F1; destruct Km as [-> | ->]; reflexivity).
  rewrite E2 in E. destruct (@C14_key_char u f1 false ch OK1) as (d1 & d2 & f2 & _ & _ & V1 & V2 & _ & E3 & (s2 & Q2) & g & (s3 & Q3) & Fx). rewrite E3 in E. cbn [bind] in E. injection E as <-.
  assert (OKg : field_ok g) by (rewrite Q3; exact (field_ok_content OK1 V2)). destruct (@C12_vertical_scroll u g f2 OKg Fx) as (A & _). 
  destruct (cursor_line_of g (proj1 OKg)) as (l & El & _). destruct (@C12_horizontal_scroll u g f2 l OKg Fx El) as (B & _).
  assert (X : nb_lines g = nb_lines f2 /\ height g = height f2 /\ a_width (if_area g) = a_width (if_area f2) /\ clines (if_content g) = clines (if_content f2)) by (rewrite Q2, Q3; auto). destruct X as (X1 & X2 & X3 & X4).
  assert (Y : py (if_scroll f2) = 0) by (apply A; lia).
  assert (Z : px (if_scroll f2) = 0).
  { apply B. unfold text_width. rewrite X1, X2, X3, (proj2 (Nat.ltb_ge _ _) NH), Nat.sub_0_r. rewrite X4 in El. rewrite Forall_forall in FT. exact (FT l (nth_error_In _ _ El)). }
  destruct (if_scroll f2) as [py0 px0]. cbn [py px] in Y, Z. subst. reflexivity.
Qed.
Lemma one_line c s : valid c -> text c = s -> ~ In c_nl s -> clines c = [s].
Proof.
  intros (N & _) T H. unfold text in T. destruct (clines c) as [|l [|l' ls]]; [contradiction|subst s; cbn [flat]; f_equal; cbn; try rewrite app_nil_r; reflexivity|].
  exfalso. apply H. rewrite <- T. cbn [flat]. apply in_or_app. right. left. reflexivity.
Qed.

Section Source.
Context {CS : Type} (transform : CS -> KeyEvent -> CS * option KeyComb) (options : EventSourceOptions).

Lemma kept_from : forall items c o, In o (kept transform options c items) -> forall e k, o = OutEvent e k -> In (ISingle e) items.
Proof.
  induction items as [|[q|e] r IH]; intros c o H e' k E; cbn [kept] in H; [destruct H| |].
  - destruct H as [<-|H]; [discriminate E|]. right. eapply IH; eassumption.
  - destruct e as [ke|m|w h|g|s].
    + destruct (transform c ke) as [c' [cb|]].
      * destruct H as [<-|H]; [injection E as <- _; left; reflexivity|]. right. eapply IH; eassumption.
      * destruct (discard_raw_key_events options); [right; eapply IH; eassumption|]. destruct H as [<-|H]; [injection E as <- _; left; reflexivity|]. right. eapply IH; eassumption.
    + destruct (kept_mouse options m); [|right; eapply IH; eassumption]. destruct H as [<-|H]; [injection E as <- _; left; reflexivity|]. right. eapply IH; eassumption.
    + destruct H as [<-|H]; [injection E as <- _; left; reflexivity|]. right. eapply IH; eassumption.
    + destruct H as [<-|H]; [injection E as <- _; left; reflexivity|]. right. eapply IH; eassumption.
    + destruct H as [<-|H]; [injection E as <- _; left; reflexivity|]. right. eapply IH; eassumption.
Qed.
Lemma outs_sent : forall os, (forall t, ~ In (OBroken t) os) -> flat_map out_keys (outs_of os) = flat_map keys_of (map te_event (sent_of os)).
Proof.
  induction os as [|o os IH]; intros N; [reflexivity|]. assert (N' : forall t, ~ In (OBroken t) os) by (intros t H; apply (N t); right; exact H). specialize (IH N').
  unfold outs_of, sent_of in *. cbn [flat_map]. rewrite flat_map_app, map_app, flat_map_app, IH. f_equal.
  destruct o; try reflexivity. exfalso. eapply N. left. reflexivity.
Qed.
Lemma sent_outs : forall os t, In t (sent_of os) -> In (OutEvent (te_event t) (key_combination t)) (outs_of os).
Proof.
  intros os t H. unfold sent_of, outs_of in *. apply in_flat_map in H as (o & I & H). apply in_flat_map. exists o. split; [exact I|]. destruct o; try contradiction H. destruct H as [<-|[]]. left. reflexivity.
Qed.
Lemma got_sent c0 ls s os : run transform options (source_init c0) ls = Some (s, os) -> forall t, In t (got_of os) -> exists e, In e (reads_of os) /\ te_event t = e.
Proof.
  intros R t H. destruct (C55_received _ _ _ _ R) as ((w & E & _) & _). assert (I : In t (sent_of os)) by (rewrite E; apply in_or_app; left; exact H).
  apply sent_outs in I. destruct (C55_exact _ _ _ _ R) as (items & p & rest & C & K & _). exists (te_event t). split; [|reflexivity].
  assert (J : In (ISingle (te_event t)) items) by (eapply kept_from; [rewrite K; apply in_or_app; left; exact I|reflexivity]).
  apply cut_events in C. rewrite C. apply in_or_app. left. apply in_flat_map. exists (ISingle (te_event t)). split; [exact J|left; reflexivity].
Qed.
(** At any time of any execution, whatever the combiner: the field has what the keys received up to now do, these keys being the first ones of what was read,
    in order and without double. The others are still in the source. *)
Theorem C96_any : forall u c0 ls s os f, run transform options (source_init c0) ls = Some (s, os) -> ~ In LDrop ls -> Forall no_selecting (reads_of os) ->
  field_ok f -> focused f = true -> unselected (if_content f) ->
  exists f' items p ks rest, cut (reads_of os) items p
  /\ flat_map out_keys (kept transform options c0 items) = ks ++ rest /\ (s_pc s = PRead -> events s = [] -> rest = [])
  /\ if_run u f (given (got_of os)) = Ret f' /\ field_ok f' /\ only_content f f' /\ unselected (if_content f')
  /\ view (if_content f') = e_run u (flat_map (pressed (height f)) ks) (view (if_content f)).
Proof.
  intros u c0 ls s os f R ND NS OK F U.
  assert (G : Forall no_selecting (map te_event (got_of os))).
  { apply Forall_forall. intros e H. apply in_map_iff in H as (t & <- & H). destruct (@got_sent c0 ls s os R t H) as (e & I & ->). rewrite Forall_forall in NS. apply NS, I. }
  destruct (@C96_given u (got_of os) f OK F U G) as (f' & E & OK' & OC & U' & V). destruct (C55_exact _ _ _ _ R) as (items & p & rest & C & K & B). destruct (C55_received _ _ _ _ R) as ((w & W & ->) & _).
  destruct (C55_losses _ _ _ _ R ND) as (L & _). exists f', items, p, (flat_map keys_of (map te_event (got_of os))), (flat_map keys_of (map te_event (events s)) ++ flat_map out_keys rest).
  split; [exact C|]. split; [rewrite K, flat_map_app, (@outs_sent os L), W, map_app, flat_map_app, <- app_assoc; reflexivity|].
  split; [intros P Q; rewrite (B P), Q; reflexivity|]. auto.
Qed.
Lemma kept_all take : forall items c, (forall k, In (TKey k) (flat_map item_events items) -> takes transform options take k) -> Forall no_selecting (flat_map item_events items) ->
  flat_map out_keys (kept transform options c items) = flat_map (item_keys take) items.
Proof.
  induction items as [|[q|e] r IH]; intros c H N; cbn [flat_map] in N; [reflexivity| |]; apply Forall_app in N as (N1 & N2);
    assert (H2 : forall k, In (TKey k) (flat_map item_events r) -> takes transform options take k) by (intros k I; apply H; cbn [flat_map]; apply in_or_app; right; exact I);
    cbn [kept flat_map item_keys].
  - cbn [flat_map out_keys]. exact (IH _ H2 N2).
  - destruct e as [ke|m|w h|g|s]; cbn [item_events] in N1; inversion N1 as [|? ? M _]; subst; try contradiction M; try (cbn [flat_map out_keys]; rewrite (IH _ H2 N2); reflexivity).
    specialize (H ke (or_introl eq_refl)). unfold takes in H. destruct (transform c ke) as [c' [cb|]] eqn:T.
    + assert (X : take ke = true) by (destruct (discard_raw_key_events options); [apply (H c); rewrite T; discriminate|exact H]). rewrite X. cbn [flat_map out_keys]. rewrite (IH _ H2 N2). reflexivity.
    + destruct (discard_raw_key_events options).
      * assert (X : take ke = false) by (destruct (take ke); [exfalso; apply (proj2 (H c) eq_refl); rewrite T; reflexivity|reflexivity]). rewrite X. apply (IH _ H2 N2).
      * rewrite H. cbn [flat_map out_keys]. rewrite (IH _ H2 N2). reflexivity.
Qed.
(** When the keys which complete a combination are known, the field has all of these which aren't in escape sequences *)
Theorem C96_keys : forall u take c0 ls s os f, run transform options (source_init c0) ls = Some (s, os) -> ~ In LDrop ls -> Forall no_selecting (reads_of os) ->
  (forall k, In (TKey k) (reads_of os) -> takes transform options take k) ->
  s_pc s = PRead -> events s = [] -> field_ok f -> focused f = true -> unselected (if_content f) ->
  exists f' items p, cut (reads_of os) items p
  /\ if_run u f (given (got_of os)) = Ret f' /\ field_ok f' /\ only_content f f' /\ unselected (if_content f')
  /\ view (if_content f') = e_run u (flat_map (pressed (height f)) (flat_map (item_keys take) items)) (view (if_content f)).
Proof.
  intros u take c0 ls s os f R ND NS H P Q OK F U. destruct (@C96_any u c0 ls s os f R ND NS OK F U) as (f' & items & p & ks & rest & C & K & B & E & OK' & OC & U' & V).
  exists f', items, p. split; [exact C|]. split; [exact E|]. split; [exact OK'|]. split; [exact OC|]. split; [exact U'|]. pose proof (cut_events C) as X. rewrite X in NS, H.
  rewrite V, <- (@kept_all take items c0), K, (B P Q), app_nil_r; [reflexivity| |apply Forall_app in NS; apply NS].
  intros k I. apply H. apply in_or_app. left. exact I.
Qed.
(** A text typed char by char is inserted at the cursor, whatever the interleaving of the thread and the application *)
Theorem C96_text : forall u take c0 ls s os f text ks, run transform options (source_init c0) ls = Some (s, os) -> ~ In LDrop ls ->
  reads_of os = map TKey ks -> Forall (takes transform options take) ks -> Forall (fun k => exists ch, key_char ch k) ks -> Forall2 key_char text (filter take ks) ->
  s_pc s = PRead -> events s = [] -> field_ok f -> focused f = true -> unselected (if_content f) ->
  exists f', if_run u f (given (got_of os)) = Ret f' /\ field_ok f' /\ only_content f f' /\ unselected (if_content f')
  /\ before (view (if_content f')) = before (view (if_content f)) ++ typed text /\ after (view (if_content f')) = after (view (if_content f)).
Proof.
  intros u take c0 ls s os f text ks R ND E H A T P Q OK F U.
  assert (NS : Forall no_selecting (reads_of os)).
  { rewrite E. clear - A. induction A as [|k ks (c & C & M) A IH]; cbn [map]; constructor; [|exact IH]. intros _. rewrite C. exact I. }
  assert (H' : forall k, In (TKey k) (reads_of os) -> takes transform options take k).
  { intros k I. rewrite E in I. apply in_map_iff in I as (k' & Q' & I). injection Q' as ->. rewrite Forall_forall in H. apply H, I. }
  destruct (@C96_keys u take c0 ls s os f R ND NS H' P Q OK F U) as (f' & items & p & C & Er & OK' & OC & U' & V). exists f'. split; [exact Er|]. split; [exact OK'|]. split; [exact OC|]. split; [exact U'|].
  assert (X : cut (reads_of os) (map ISingle (map TKey ks)) []).
  { rewrite E. clear - A. induction A as [|k ks (c & C & M) A IH]; cbn [map]; constructor; [|exact IH]. intros k' Q (_ & B). injection Q as <-. lia. }
  destruct (cut_unique C X) as (-> & ->). rewrite V. clear - T. generalize (view (if_content f)). intros e.
  assert (Y : flat_map (item_keys take) (map ISingle (map TKey ks)) = map KChar text).
  { revert text T. induction ks as [|k ks IH]; intros text T; cbn [filter] in T; [inversion T; reflexivity|]. cbn [map flat_map item_keys]. destruct (take k); [|apply IH, T].
    inversion T as [|c ? text' ? (C & M) T']; subst. cbn [keys_of]. destruct (N.leb_spec (k_mods k) 1); [|lia]. cbn [app map]. rewrite C. f_equal. apply IH, T'. }
  rewrite Y. clear. revert e. induction text as [|c text IH]; intros e; [cbn; rewrite app_nil_r; auto|].
  cbn [map flat_map pressed app e_run e_apply].
  destruct (IH (fst (e_type [c] e))) as (A & B). rewrite A, B. unfold typed. change (c :: text) with ([c] ++ text). rewrite filter_app. cbn. rewrite <- app_assoc. auto.
Qed.
(** Once drawn, the typed text is read on the terminal: here in a field which was empty, large enough for the text *)
Theorem C96_read : forall u take c0 ls s os f text ks, run transform options (source_init c0) ls = Some (s, os) -> ~ In LDrop ls ->
  reads_of os = map TKey ks -> Forall (takes transform options take) ks -> Forall (fun k => exists ch, key_char ch k) ks -> Forall2 key_char text (filter take ks) ->
  s_pc s = PRead -> events s = [] -> field_ok f -> focused f = true -> unselected (if_content f) -> get_content f = [] ->
  usual_widths u -> password_mode f = false -> 1 <= height f -> text <> [] -> typed text = text -> ~ In c_nl text -> ~ In c_tab text -> columns u text < N.to_nat (a_width (if_area f)) ->
  exists f' out p, if_run u f (given (got_of os)) = Ret f' /\ get_content f' = text /\ display_on u f' = Ret (out, p)
  /\ forall tm, read_row (term_run u tm out) (N.to_nat (a_left (if_area f))) (N.to_nat (a_top (if_area f))) (N.to_nat (a_width (if_area f)))
     = placed_chars u text ++ repeat 32%N (N.to_nat (a_width (if_area f)) - columns u text).
Proof.
  intros u take c0 ls s os f text ks R ND E H A T P Q OK F U GC HU PW HH NE TT NN NTb CW.
  destruct (@C96_text u take c0 ls s os f text ks R ND E H A T P Q OK F U) as (f' & Er & OK' & (c' & s' & Q') & U' & B1 & B2).
  assert (V0 : S_Content.text (if_content f) = []) by (rewrite <- C72_get_content; exact GC).
  assert (T' : S_Content.text (if_content f') = text).
  { rewrite text_view, B1, B2, TT. rewrite text_view in V0. apply app_eq_nil in V0 as (-> & ->). rewrite app_nil_r. reflexivity. }
  pose proof (one_line (proj1 U') T' NN) as CL.
  assert (G : forall t, In t (got_of os) -> exists k, te_event t = TKey k /\ exists ch, key_char ch k).
  { intros t I. destruct (@got_sent c0 ls s os R t I) as (e & Ie & ->). rewrite E in Ie. apply in_map_iff in Ie as (k & <- & Ik). exists k. split; [reflexivity|]. rewrite Forall_forall in A. apply A, Ik. }
  assert (NS : Forall no_selecting (map te_event (got_of os))).
  { apply Forall_forall. intros e I. apply in_map_iff in I as (t & <- & I). destruct (G t I) as (k & -> & ch & C & M). intros _. rewrite C. exact Logic.I. }
  assert (EA : if_area f' = if_area f /\ password_mode f' = false /\ height f' = height f) by (rewrite Q'; auto). destruct EA as (EA & PW' & EH).
  assert (SC : if_scroll f' = mkPos 0 0).
  { destruct (@exists_last _ (got_of os)) as (ts' & t & El).
    - intros X. rewrite X in Er. cbn in Er. injection Er as <-. rewrite V0 in T'. congruence.
    - destruct (G t) as (k & Et & ch & C); [rewrite El; apply in_or_app; right; left; reflexivity|].
      eapply (@typed_scroll u (got_of os) f ch OK F U NS); [exists ts', t, k; auto|exact Er|unfold nb_lines; rewrite CL, EH; exact HH|]. rewrite CL, EA. constructor; [exact CW|constructor]. }
  assert (Tw : text_width f' = N.to_nat (a_width (if_area f))) by (unfold text_width, nb_lines; rewrite CL, EH, EA; cbn [length]; destruct (Nat.ltb_spec (height f) 1); lia).
  assert (NL : (N.of_nat (nb_lines f') < 65536)%N) by (unfold nb_lines; rewrite CL; reflexivity).
  destruct (@C13_no_panic u f' HU OK') as (out & p & D); [lia|rewrite EA; unfold height in HH; lia|exact NL|rewrite SC; cbn; lia|].
  exists f', out, p. split; [exact Er|]. split; [rewrite C72_get_content; exact T'|]. split; [exact D|]. intros tm.
  assert (Mk : masked f' text = text) by (unfold masked; rewrite PW'; reflexivity).
  pose proof (@C95_field u f' out p HU) as RD. rewrite CL, EA in RD. specialize (RD ltac:(destruct OK as (_ & _ & S); exact S)).
  specialize (RD ltac:(right; intros l I; rewrite CL in I; destruct I as [<-|[]]; exact NTb) NL ltac:(unfold nb_lines; rewrite CL, EH; exact HH) SC).
  specialize (RD ltac:(constructor; [rewrite Mk; exact CW|constructor]) ltac:(unfold nb_lines; rewrite CL; cbn; lia) D tm 0 ltac:(lia)). rewrite Nat.add_0_r in RD. rewrite RD. cbn [nth_error]. rewrite Mk. reflexivity.
Qed.
End Source.
Print Assumptions C96_given.
Print Assumptions C96_any.
Print Assumptions C96_keys.
Print Assumptions C96_text.
Print Assumptions C96_read.

(** "a", an escape sequence, "B" with shift, its release which is discarded, in an empty field *)
Definition empty_field : InputField := demo_field 10 2.
Lemma empty_field_ok : field_ok empty_field.
Proof. split; [apply validb_ok; vm_compute; reflexivity|split; vm_compute; [discriminate|split; reflexivity]]. Qed.
Definition not_released (k : KeyEvent) : bool := match k_kind k with Release => false | _ => true end.
Lemma demo_takes k : takes demo_transform default_options not_released k.
Proof. unfold takes. cbn. intros c. unfold not_released. destruct (k_kind k); cbn; split; intros H; try discriminate; try reflexivity; try (exfalso; apply H; reflexivity). Qed.
Definition keyed : list label := LCloneSeq :: shot 5 (TKey (ke 97 0)) ++ reading [alt_u; ke 98 0; alt_b] ++ [LGo 6] ++ shot 8 (TKey (ke 66 1)) ++ [LRead (Some (TKey (mkKE (KChar 66) 1 Release))); LGo 9].
Example C96_example : exists s os f' out p, run demo_transform default_options (source_init tt) keyed = Some (s, os) /\ ~ In LDrop keyed /\ Forall no_selecting (reads_of os)
  /\ (forall k, In (TKey k) (reads_of os) -> takes demo_transform default_options not_released k) /\ s_pc s = PRead /\ events s = []
  /\ field_ok empty_field /\ focused empty_field = true /\ unselected (if_content empty_field) /\ get_content empty_field = []
  /\ if_run demo empty_field (given (got_of os)) = Ret f' /\ get_content f' = [97; 66]%N
  /\ display_on demo f' = Ret (out, p).
Proof.
  do 5 eexists. split; [vm_compute; reflexivity|]. split; [cbn; intuition discriminate|].
  split; [repeat (constructor; [cbn; first [exact (fun _ => I) | discriminate]|]); constructor|]. split; [intros k _; apply demo_takes|]. split; [reflexivity|]. split; [reflexivity|].
  split; [exact empty_field_ok|]. split; [reflexivity|]. split; [split; [apply empty_field_ok|reflexivity]|]. split; [reflexivity|].
  split; [vm_compute; reflexivity|]. split; [vm_compute; reflexivity|]. vm_compute. reflexivity.
Qed.
(** A text, its keys being released each one after the next one is pressed, and what is read on the terminal *)
Definition released (c m : N) : KeyEvent := mkKE (KChar c) m Release.
Definition word : list label := shot 5 (TKey (ke 97 0)) ++ shot 6 (TKey (ke 66 1)) ++ [LRead (Some (TKey (released 97 0))); LGo 7; LRead (Some (TKey (released 66 1))); LGo 8] ++ shot 9 (TKey (ke 20013 0)).
Definition word_keys : list KeyEvent := [ke 97 0; ke 66 1; released 97 0; released 66 1; ke 20013 0].
Example C96_read_example : exists s os f' out p, run demo_transform default_options (source_init tt) word = Some (s, os) /\ ~ In LDrop word /\ s_pc s = PRead /\ events s = []
  /\ reads_of os = map TKey word_keys /\ Forall (takes demo_transform default_options not_released) word_keys
  /\ Forall (fun k => exists ch, key_char ch k) word_keys /\ Forall2 key_char [97; 66; 20013]%N (filter not_released word_keys)
  /\ usual_widths demo /\ columns demo [97; 66; 20013]%N < 10
  /\ if_run demo empty_field (given (got_of os)) = Ret f' /\ get_content f' = [97; 66; 20013]%N /\ display_on demo f' = Ret (out, p)
  /\ read_row (term_run demo P_Paint.full_term out) 3 4 10 = [97; 66; 20013; 32; 32; 32; 32; 32; 32]%N.
Proof.
  do 5 eexists. split; [vm_compute; reflexivity|]. split; [cbn; intuition discriminate|]. split; [reflexivity|]. split; [reflexivity|]. split; [reflexivity|].
  split; [repeat (constructor; [apply demo_takes|]); constructor|].
  split; [repeat (constructor; [eexists; split; [reflexivity|cbn; auto]|]); constructor|]. split; [repeat (constructor; [split; [reflexivity|cbn; auto]|]); constructor|].
  split; [repeat split|]. split; [vm_compute; lia|]. split; [vm_compute; reflexivity|]. split; [vm_compute; reflexivity|]. split; vm_compute; reflexivity.
Qed.
