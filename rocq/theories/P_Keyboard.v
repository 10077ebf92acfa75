(** * From the terminal events to the screen (C119) *)
From Verif Require Import Base L_Base Demo M_Content S_Content L_Content L_Content3 L_Content4 S_Count P_Count M_View M_Input S_Input S_Input2 L_Input3 P_Input2 S_Editor L_Editor.
From Verif Require Import M_Event S_Event L_Event L_Event2 P_Event S_Typing P_Typing.
From Verif Require Import M_Style S_View S_Area S_Pen S_Paint S_Look S_Point S_Drawn P_Paint P_Input S_App P_App S_Keyboard.
Set Implicit Arguments.
Open Scope nat_scope.

Lemma sub_times {A} (g : A -> str) x : forall k s, subseq k s -> times x (flat_map g k) <= times x (flat_map g s).
Proof.
  unfold times. induction 1; cbn [flat_map]; [lia|rewrite !count_occ_app; lia|rewrite count_occ_app; lia].
Qed.
Lemma sub_in {A} (y : A) : forall k s, subseq k s -> In y k -> In y s.
Proof. induction 1; cbn [In]; intuition. Qed.
Lemma sub_prefix {A} (a b : list A) s : subseq (a ++ b) s -> subseq a s.
Proof.
  intros H. remember (a ++ b) as l eqn:E. revert a E. induction H; intros a E.
  - destruct a; [constructor|discriminate].
  - destruct a as [|y a]; [apply subseq_nil_l|]. injection E as <- E. constructor. apply IHsubseq, E.
  - constructor. apply IHsubseq, E.
Qed.
Definition out_event (o : out) : list TermEvent := match o with OutEvent e _ => [e] | OutSeq _ => [] end.

Section Keyboard.
Context {CS : Type} (transform : CS -> KeyEvent -> CS * option KeyComb) (options : EventSourceOptions).

Lemma kept_sub : forall items c, subseq (flat_map out_event (kept transform options c items)) (flat_map item_events items).
Proof.
  induction items as [|[q|e] r IH]; intros c; cbn [kept flat_map]; [constructor| |].
  - cbn [out_event app]. change (flat_map out_event (kept transform options c r)) with ([] ++ flat_map out_event (kept transform options c r)). apply subseq_app; [apply subseq_nil_l|apply IH].
  - cbn [item_events app]. destruct e as [ke|m|w h|g|s].
    + destruct (transform c ke) as [c' [cb|]]; [cbn [flat_map out_event app]; constructor; apply IH|]. destruct (discard_raw_key_events options); cbn [flat_map out_event app]; constructor; apply IH.
    + destruct (kept_mouse options m); cbn [flat_map out_event app]; constructor; apply IH.
    + cbn [flat_map out_event app]; constructor; apply IH.
    + cbn [flat_map out_event app]; constructor; apply IH.
    + cbn [flat_map out_event app]; constructor; apply IH.
Qed.
Lemma sent_sub : forall os, subseq (map te_event (sent_of os)) (flat_map out_event (outs_of os)).
Proof.
  induction os as [|o os IH]; [constructor|]. unfold sent_of, outs_of in *. cbn [flat_map]. rewrite map_app, flat_map_app. apply subseq_app; [|exact IH].
  destruct o; cbn; try constructor; apply subseq_nil_l.
Qed.
Lemma sub_trans {A} : forall b c : list A, subseq b c -> forall a, subseq a b -> subseq a c.
Proof.
  induction 1 as [|x k s H IH|x k s H IH]; intros a Ha; [exact Ha| |constructor; apply IH, Ha].
  inversion Ha; subst; [constructor; apply IH; assumption|constructor; apply IH; assumption].
Qed.
(** What the application receives is what was read on the terminal, in the same order and once, without what is discarded and without the escape sequences *)
Theorem C119_received c0 ls s os : run transform options (source_init c0) ls = Some (s, os) -> subseq (map te_event (got_of os)) (reads_of os).
Proof.
  intros R. destruct (C55_exact _ _ _ _ R) as (items & p & rest & C & K & _). destruct (C55_received _ _ _ _ R) as ((w & W & _) & _).
  apply cut_events in C. rewrite C. replace (map te_event (got_of os)) with (map te_event (got_of os) ++ []) by apply app_nil_r. apply subseq_app; [|apply subseq_nil_l].
  eapply sub_trans; [apply (kept_sub items c0)|]. rewrite K, flat_map_app. apply (@sub_prefix _ _ (map te_event w)).
  rewrite <- map_app, <- W. replace (map te_event (sent_of os)) with (map te_event (sent_of os) ++ []) by apply app_nil_r. apply subseq_app; [apply sent_sub|apply subseq_nil_l].
Qed.
Lemma given_typed : forall ts, flat_map given_by (S_Typing.given ts) = flat_map typed_event (map te_event ts).
Proof. induction ts as [|t ts IH]; [reflexivity|]. cbn [S_Typing.given map flat_map]. unfold S_Typing.given in IH. rewrite IH. reflexivity. Qed.
Lemma given_area : forall ts a, fold_left next_area (S_Typing.given ts) a = a.
Proof. induction ts as [|t ts IH]; intros a; [reflexivity|apply IH]. Qed.
Lemma given_fine u n f ts : (forall e ch, In e (map te_event ts) -> In ch (typed_event e) -> ch = c_nl \/ columns u [ch] = 1) ->
  field_ok f -> narrow_text u f -> roomy n (if_area f) -> py (if_scroll f) <= n -> nb_lines f + times c_nl (flat_map typed_event (map te_event ts)) <= n -> fine u n f (S_Typing.given ts).
Proof.
  intros Hn OK Na Ro Sc Nl. split; [exact OK|]. split; [exact Na|]. split; [exact Ro|]. split; [|split; [|split; [rewrite given_typed; exact Nl|exact Sc]]].
  - clear - Ro. induction ts as [|t ts IH]; [exact I|]. cbn [S_Typing.given map areas_roomy next_area]. split; [exact Ro|exact IH].
  - apply Forall_forall. intros o Io. apply in_map_iff in Io as (t & <- & It). intros ch Hc. apply (Hn (te_event t)); [apply in_map, It|exact Hc].
Qed.
Lemma given_ok : forall ts h, history_ok h (S_Typing.given ts).
Proof. induction ts as [|t ts IH]; intros h; [exact I|]. cbn [S_Typing.given map history_ok height_after]. split; [exact I|apply IH]. Qed.

(** At any moment of any execution of the thread of the source and of the application, which gives the field what it receives and draws it when it wants: the screen
    shows the field as it is, nothing changed out of its area, and what is in the field was read on the terminal or was there *)
Theorem C119_screen : forall u, usual_widths u -> forall c0 ls s os n f tm groups, run transform options (source_init c0) ls = Some (s, os) -> ready u n f (reads_of os) -> t_pen tm = pen0 ->
  concat groups = S_Typing.given (got_of os) ->
  exists f' tm', working u f tm groups = Ret (f', tm') /\ if_run u f (S_Typing.given (got_of os)) = Ret f' /\ field_ok f' /\ if_area f' = if_area f /\ t_pen tm' = pen0
  /\ (forall x y, ~ inside (if_area f) x y -> t_cell tm' x y = t_cell tm x y)
  /\ (groups <> [] -> forall c j, c < text_width f' -> j < height f' -> t_cell tm' (N.to_nat (a_left (if_area f)) + c) (N.to_nat (a_top (if_area f)) + j) = field_cell f' c j)
  /\ forall x, times x (text (if_content f')) <= times x (text (if_content f)) + times x (flat_map typed_event (reads_of os)).
Proof.
  intros u HU c0 ls s os n f tm groups R (OK & Na & Ro & Sc & Hn & Nl) TP Eg. pose proof (C119_received c0 ls R) as Sub.
  assert (Fi : fine u n f (concat groups)).
  { rewrite Eg. apply given_fine; try assumption; [intros e ch Ie; apply Hn; eapply sub_in; eassumption|]. pose proof (sub_times typed_event c_nl Sub). lia. }
  destruct (@C116_working u HU n groups f tm Fi TP) as (f' & tm' & W & Er & OK' & _ & _ & EA & TP' & Out & In'). rewrite Eg in Er, EA. rewrite given_area in EA. exists f', tm'.
  split; [exact W|]. split; [exact Er|]. split; [exact OK'|]. split; [exact EA|]. split; [exact TP'|]. split; [|split].
  - intros x y No. apply Out. intros a Ia. assert (E : a = if_area f); [|rewrite E; exact No].
    assert (G : forall gs ts a0, concat gs = S_Typing.given ts -> In a (field_areas a0 gs) -> a = a0).
    { clear. induction gs as [|g gs IH]; intros ts a0 E I; [destruct I|]. cbn [concat] in E. unfold S_Typing.given in E. symmetry in E. apply map_eq_app in E as (t1 & t2 & -> & E1 & E2).
      cbn [field_areas] in I. rewrite <- E1 in I. fold (S_Typing.given t1) in I. rewrite !given_area in I. destruct I as [<-|I]; [reflexivity|]. eapply IH; [symmetry; exact E2|exact I]. }
    eapply G; eassumption.
  - intros Ne c j Hc Hj. rewrite EA in In'. apply In'; assumption.
  - intros x. destruct (@C116_content u _ f f' OK (given_ok _ _) Er) as (cops & _ & T). specialize (T x). rewrite given_typed in T. pose proof (sub_times typed_event x Sub). lia.
Qed.
(** And when a text is typed char by char, it's seen inserted at the cursor *)
Theorem C119_typed : forall u, usual_widths u -> forall take c0 ls s os n f tm groups text ks, run transform options (source_init c0) ls = Some (s, os) -> ~ In LDrop ls -> ready u n f (reads_of os) -> t_pen tm = pen0 ->
  concat groups = S_Typing.given (got_of os) -> groups <> [] ->
  reads_of os = map TKey ks -> Forall (takes transform options take) ks -> Forall (fun k => exists ch, key_char ch k) ks -> Forall2 key_char text (filter take ks) ->
  s_pc s = PRead -> events s = [] -> focused f = true -> unselected (if_content f) ->
  exists f' tm', working u f tm groups = Ret (f', tm')
  /\ before (view (if_content f')) = before (view (if_content f)) ++ typed text /\ after (view (if_content f')) = after (view (if_content f)) /\ only_content f f'
  /\ (forall x y, ~ inside (if_area f) x y -> t_cell tm' x y = t_cell tm x y)
  /\ (forall c j, c < text_width f' -> j < height f' -> t_cell tm' (N.to_nat (a_left (if_area f)) + c) (N.to_nat (a_top (if_area f)) + j) = field_cell f' c j).
Proof.
  intros u HU take c0 ls s os n f tm groups text ks R ND Re TP Eg Ne E H A T P Q F U. pose proof Re as (OK & _).
  destruct (@C119_screen u HU c0 ls s os n f tm groups R Re TP Eg) as (f' & tm' & W & Er & _ & EA & _ & Out & Inn & _).
  destruct (@C96_text CS transform options u take c0 ls s os f text ks R ND E H A T P Q OK F U) as (f2 & Er2 & _ & OC & _ & B1 & B2). assert (f2 = f') as -> by congruence.
  exists f', tm'. split; [exact W|]. split; [exact B1|]. split; [exact B2|]. split; [exact OC|]. split; [exact Out|]. exact (Inn Ne).
Qed.
End Keyboard.
Print Assumptions C119_received.
Print Assumptions C119_screen.
Print Assumptions C119_typed.

(** "a" and "B" are typed, then "a" is typed again but the second release isn't read yet: all is in the field, drawn after the first event and after the last one *)
Definition hello : list label := LCloneSeq :: shot 5 (TKey (ke 97 0)) ++ reading [alt_u; ke 98 0; alt_b] ++ [LGo 6] ++ shot 8 (TKey (ke 66 1)) ++ [LRead (Some (TKey (released 66 1))); LGo 9] ++ shot 10 (TKey (ke 97 0)).
Definition hello_groups (os : list obs) : list (list if_op) := match S_Typing.given (got_of os) with o :: r => [[o]; r] | [] => [] end.
Example C119_example : exists s os f' tm', run demo_transform default_options (source_init tt) hello = Some (s, os) /\ ready demo 3 empty_field (reads_of os)
  /\ concat (hello_groups os) = S_Typing.given (got_of os) /\ working demo empty_field full_term (hello_groups os) = Ret (f', tm') /\ text (if_content f') = [97; 66; 97]%N
  /\ look_row tm' 3 4 4 = [(97%N, pen0); (66%N, pen0); (97%N, pen0); (32%N, mkPen Reset Reset 4096)].
Proof.
  do 4 eexists. split; [vm_compute; reflexivity|]. split; [|split; [reflexivity|split; [vm_compute; reflexivity|]]].
  - split; [exact empty_field_ok|]. split; [intros l [<-|[]] ch []|]. split; [unfold roomy, on_screen; cbn; lia|]. split; [vm_compute; lia|]. split; [|vm_compute; lia].
    intros e ch Ie Hc. cbn in Ie. repeat (destruct Ie as [<-|Ie]; [cbv in Hc; repeat (destruct Hc as [<-|Hc]; [vm_compute; auto; fail|]); destruct Hc|]). destruct Ie.
  - split; vm_compute; reflexivity.
Qed.
Definition two_keys : list label := shot 5 (TKey (ke 97 0)) ++ shot 6 (TKey (ke 66 1)) ++ [LRead (Some (TKey (released 66 1))); LGo 7].
Example C119_typed_example : exists s os f' tm', run demo_transform default_options (source_init tt) two_keys = Some (s, os) /\ ~ In LDrop two_keys /\ ready demo 3 empty_field (reads_of os)
  /\ reads_of os = map TKey [ke 97 0; ke 66 1; released 66 1] /\ Forall (takes demo_transform default_options not_released) [ke 97 0; ke 66 1; released 66 1]
  /\ Forall (fun k => exists ch, key_char ch k) [ke 97 0; ke 66 1; released 66 1] /\ Forall2 key_char [97; 66]%N (filter not_released [ke 97 0; ke 66 1; released 66 1])
  /\ s_pc s = PRead /\ events s = [] /\ focused empty_field = true /\ unselected (if_content empty_field)
  /\ working demo empty_field full_term [S_Typing.given (got_of os)] = Ret (f', tm') /\ before (view (if_content f')) = [97; 66]%N /\ after (view (if_content f')) = [].
Proof.
  do 4 eexists. split; [vm_compute; reflexivity|]. split; [cbn; intuition discriminate|]. split.
  { split; [exact empty_field_ok|]. split; [intros l [<-|[]] ch []|]. split; [unfold roomy, on_screen; cbn; lia|]. split; [vm_compute; lia|]. split; [|vm_compute; lia].
    intros e ch Ie Hc. cbn in Ie. repeat (destruct Ie as [<-|Ie]; [cbv in Hc; repeat (destruct Hc as [<-|Hc]; [vm_compute; auto; fail|]); destruct Hc|]). destruct Ie. }
  split; [reflexivity|]. split; [repeat (constructor; [apply demo_takes|]); constructor|]. split; [repeat (constructor; [eexists; split; [reflexivity|cbn; auto]|]); constructor|].
  split; [repeat (constructor; [split; [reflexivity|cbn; auto]|]); constructor|]. split; [reflexivity|]. split; [reflexivity|]. split; [reflexivity|]. split; [split; [apply empty_field_ok|reflexivity]|].
  split; [vm_compute; reflexivity|]. split; vm_compute; reflexivity.
Qed.
