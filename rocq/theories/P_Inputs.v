(** * C125: the application of the example [inputs] *)
From Verif Require Import Base L_Base Demo M_Style M_View S_View L_View M_Content S_Content L_Content M_Input S_Input S_Input2 L_Input L_Input2 L_Input3 P_Input P_Input2 M_Inputs S_Inputs.
Set Implicit Arguments.
Open Scope N_scope.

(** ** The fields *)
Definition same_kind (f f' : InputField) : Prop := password_mode f' = password_mode f /\ new_line_keys f' = new_line_keys f.
Lemma kind_refl f : same_kind f f.
Proof. split; reflexivity. Qed.
Lemma kind_trans f g h : same_kind f g -> same_kind g h -> same_kind f h.
Proof. intros [A B] [C D]. split; congruence. Qed.
#[local] Hint Resolve kind_refl : core.
Lemma fset_focus u f b : field_ok f -> exists f', set_focus u f b = Ret f' /\ field_ok f' /\ if_area f' = if_area f /\ focused f' = b /\ if_content f' = if_content f /\ same_kind f f'.
Proof.
  intros OK. destruct (C72_focus u b OK) as (A & B & C). destruct (focused f) eqn:F, b.
  - exists f. rewrite A by reflexivity. auto 8.
  - eexists. rewrite B by reflexivity. split; [reflexivity|]. split; [exact OK|]. repeat split.
  - destruct (C eq_refl eq_refl) as (s & E & _). eexists. split; [exact E|]. split; [exact OK|]. repeat split.
  - exists f. rewrite A by reflexivity. auto 8.
Qed.
Lemma fchange_area u f x y w : field_ok f -> area_ok (mkArea x y w (a_height (if_area f))) ->
  exists f', change_area u f x y w = Ret f' /\ field_ok f' /\ if_area f' = mkArea x y w (a_height (if_area f)) /\ focused f' = focused f /\ if_content f' = if_content f /\ same_kind f f'.
Proof.
  intros OK HA. destruct (C72_change_area u OK HA) as (A & B). unfold change_area in *.
  destruct (negb (N.eqb (a_left (if_area f)) x) || negb (N.eqb (a_top (if_area f)) y) || negb (N.eqb (a_width (if_area f)) w))%bool eqn:D.
  - destruct (@fix_scroll_ok u (with_area f (mkArea x y w (a_height (if_area f)))) (conj (proj1 OK) HA)) as (s & Es). eexists. split; [exact Es|]. split; [exact (conj (proj1 OK) HA)|]. repeat split.
  - exists f. split; [reflexivity|]. split; [exact OK|]. split; [|auto]. destruct (if_area f) as [x0 y0 w0 h0]. cbn in *. f_equal; lia.
Qed.
Lemma fset_area u f a : field_ok f -> area_ok a -> exists f', set_area u f a = Ret f' /\ field_ok f' /\ if_area f' = a /\ focused f' = focused f /\ if_content f' = if_content f /\ same_kind f f'.
Proof.
  intros OK HA. unfold set_area. destruct (area_eqb (if_area f) a) eqn:D.
  - exists f. split; [reflexivity|]. split; [exact OK|]. split; [|auto]. unfold area_eqb in D. destruct (if_area f), a. cbn in *. f_equal; lia.
  - destruct (@fix_scroll_ok u (with_area f a) (conj (proj1 OK) HA)) as (s & Es). eexists. split; [exact Es|]. split; [exact (conj (proj1 OK) HA)|]. repeat split.
Qed.
Lemma in_cell_spec a x y : in_cell a x y = true <-> cell_in a x y.
Proof. unfold in_cell, cell_in. rewrite !andb_true_iff, !N.leb_le, !N.ltb_lt. tauto. Qed.
Lemma fmouse u f e d : field_ok f -> exists f', apply_mouse_event u f e d = Ret (f', in_cell (if_area f) (m_column e) (m_row e))
  /\ field_ok f' /\ if_area f' = if_area f /\ same_kind f f' /\ clines (if_content f') = clines (if_content f) /\ (in_cell (if_area f) (m_column e) (m_row e) = false -> f' = f).
Proof.
  intros OK. destruct (mouse_ok u e d OK) as (f' & b & E & OK' & (EA & _ & _ & _ & EK) & EC). exists f'. pose proof OK as [_ [_ HS]].
  destruct (in_cell (if_area f) (m_column e) (m_row e)) eqn:I.
  - assert (b = true) as ->; [|split; [exact E|]; split; [exact OK'|]; split; [exact EA|]; split; [exact EK|]; split; [exact EC|discriminate]].
    apply in_cell_spec in I. unfold apply_mouse_event in E. rewrite contains_in in E by assumption. cbn [bind] in E. destruct (focused f).
    + apply bind_Ret_inv in E. destruct E as (p & _ & E). destruct (m_kind e) as [[]|[]|[]| | | | |]; try (injection E as _ <-; reflexivity).
      * apply bind_Ret_inv in E. destruct E as (c & _ & E). injection E as _ <-. reflexivity.
      * destruct d; [|injection E as _ <-; reflexivity]. apply bind_Ret_inv in E. destruct E as (c & _ & E). apply bind_Ret_inv in E. destruct E as ([c' b'] & _ & E). injection E as _ <-. reflexivity.
      * apply bind_Ret_inv in E. destruct E as (c & _ & E). injection E as _ <-. reflexivity.
    + destruct (m_kind e) as [[]|[]|[]| | | | |]; injection E as _ <-; reflexivity.
  - assert (N : ~ cell_in (if_area f) (m_column e) (m_row e)) by (rewrite <- in_cell_spec, I; discriminate).
    destruct (C14_mouse_outside u f e d HS N) as [E' _]. rewrite E' in E. injection E as <- <-. rewrite E'. auto 10.
Qed.
Lemma only_focus f f' : only_content f f' -> if_area f' = if_area f /\ focused f' = focused f /\ same_kind f f'.
Proof. intros (c & s & ->). repeat split. Qed.
Lemma fkey u cb f k : field_ok f -> exists f' b, input_key u cb f k = Ret (f', b) /\ field_ok f' /\ only_content f f'.
Proof.
  intros OK. unfold input_key. destruct (key_ok u k OK) as (f1 & b & E & OK1 & O1). rewrite E. cbn [bind]. destruct b; [eauto|].
  destruct (C72_cut u OK1) as (c & s & _ & Vc & ECopy & ECut & _).
  destruct (key_eqb k (mkKey CTRL [KChar 99])); [rewrite ECopy; cbn [bind]; eauto|].
  destruct (key_eqb k (mkKey CTRL [KChar 120])).
  { rewrite ECut. cbn [bind]. eexists _, _. split; [reflexivity|]. split; [split; [exact Vc|exact (proj2 OK1)]|]. destruct O1 as (c1 & s1 & ->). exists c, s. reflexivity. }
  destruct (key_eqb k (mkKey CTRL [KChar 118])); [|eauto]. destruct (clip_get cb) as [t|]; [|eauto].
  destruct (C72_replace u t OK1) as (c1 & c2 & s2 & _ & _ & V2 & _ & ER & _). rewrite ER. cbn [bind]. eexists _, _. split; [reflexivity|]. split; [split; [exact V2|exact (proj2 OK1)]|].
  destruct O1 as (c3 & s3 & ->). exists c2, s2. reflexivity.
Qed.

Section View.
Context {A : Type} (u : unicode).
Implicit Types (v : View A).

(** ** The focus *)
Lemma set_focus_ok v f : field_ok (login v) -> field_ok (password v) -> field_ok (comments v) -> exists l p c, vw_set_focus u v f = Ret (with_fields v l p c f)
  /\ (field_ok l /\ field_ok p /\ field_ok c) /\ (if_area l = if_area (login v) /\ if_area p = if_area (password v) /\ if_area c = if_area (comments v))
  /\ one_focus (with_fields v l p c f) /\ (same_kind (login v) l /\ same_kind (password v) p /\ same_kind (comments v) c) /\ if_content l = if_content (login v) /\ if_content p = if_content (password v) /\ if_content c = if_content (comments v).
Proof.
  intros OL OP OC. unfold vw_set_focus. destruct (fset_focus u (focus_eqb f FLogin) OL) as (l & -> & L1 & L2 & L3 & L4 & L5). destruct (fset_focus u (focus_eqb f FPassword) OP) as (p & -> & P1 & P2 & P3 & P4 & P5).
  destruct (fset_focus u (focus_eqb f FComments) OC) as (c & -> & C1 & C2 & C3 & C4 & C5). cbn [bind]. exists l, p, c. unfold one_focus. cbn. auto 20.
Qed.
(** The areas being kept, the view stays sound *)
Lemma sound_with v l p c f : sound v -> field_ok l -> field_ok p -> field_ok c -> if_area l = if_area (login v) -> if_area p = if_area (password v) -> if_area c = if_area (comments v) ->
  same_kind (login v) l -> same_kind (password v) p -> same_kind (comments v) c -> one_focus (with_fields v l p c f) -> sound (with_fields v l p c f).
Proof.
  intros (OL & OP & OC & HL & HP & HI & HK & _ & HD & HA) L P C EL EP EC [K1 K2] [K3 K4] [K5 K6] F. unfold sound. cbn [login password comments introduction drawable vw_area with_fields]. rewrite EL, EP.
  repeat (split; [first [assumption|unfold kinds in *; cbn; rewrite K1, K2, K3, K4, K5, K6; assumption]|]). intros D. specialize (HA D). unfold arranged, widget_areas, but_the_label in *. cbn [login password comments introduction login_label password_label comments_label vw_area with_fields]. rewrite EL, EP, EC.
  destruct HA as (? & ? & ? & ? & HW & ?). repeat (split; [assumption|]). split; [|assumption]. inversion HW as [|? ? W1 HW1]; subst. inversion HW1 as [|? ? W2 HW2]; subst. inversion HW2 as [|? ? W3 HW3]; subst.
  rewrite <- EL in W1. rewrite <- EP in W2. rewrite <- EC in W3. auto.
Qed.

Lemma mv_resize_area (i : MadView A) a : mv_area (mv_resize i a) = a.
Proof.
  unfold mv_resize. destruct (area_eqb a (mv_area i)) eqn:E; [|reflexivity]. unfold area_eqb in E. destruct (mv_area i) as [x1 y1 w1 h1], a as [x2 y2 w2 h2]. cbn [a_left a_top a_width a_height] in E. f_equal; lia.
Qed.
Lemma layout (W H : N) : 20 <= W < 65536 -> 15 <= H < 65536 -> let h := 4 + (H - 15) / 2 in let half := (W - 3) / 2 in
  8 <= half /\ 2 * half <= W - 3 /\ 4 <= h /\ h + 8 + 3 <= H.
Proof. intros HW HH h half. unfold h, half. lia. Qed.

Ltac num := match goal with L1 : 8 <= _, L2 : 2 * _ <= _, L3 : 4 <= _, L4 : _ + 8 + 3 <= _, GE1 : 20 <= _, GE2 : 15 <= _, HW : _ < 65536, HH : _ < 65536 |- _ => clear - L1 L2 L3 L4 GE1 GE2 HW HH; lia end.
Lemma resize_sound v w h : sound v -> w < 65536 -> h < 65536 -> exists v' b, vw_resize u v (mkArea 0 0 w h) = Ret (v', b) /\ sound v' /\ vw_area v' = mkArea 0 0 w h
  /\ vw_focus v' = vw_focus v /\ if_content (login v') = if_content (login v) /\ if_content (password v') = if_content (password v) /\ if_content (comments v') = if_content (comments v).
Proof.
  intros S HW HH. pose proof S as (OL & OP & OC & HL & HP & HI & HK & HF & HD & HA). unfold vw_resize. destruct (area_eqb (vw_area v) (mkArea 0 0 w h)) eqn:EQ.
  { exists v, false. split; [reflexivity|]. split; [exact S|]. split; [|auto]. unfold area_eqb in EQ. destruct (vw_area v) as [x1 y1 w1 h1]. cbn [a_left a_top a_width a_height] in EQ. f_equal; clear - EQ; lia. }
  cbn [a_width a_height]. destruct ((20 <=? w) && (15 <=? h))%bool eqn:LARGE.
  2:{ eexists _, _. split; [reflexivity|]. split; [|auto 6]. unfold sound. cbn [login password comments introduction drawable vw_area]. repeat (split; [first [assumption|exact HK|exact HF]|]). split; [|discriminate].
    split; [discriminate|]. unfold large. cbn. lia. }
  pose proof (@layout w h ltac:(lia) ltac:(lia)) as LAY. cbv zeta in LAY. set (hh := 4 + (h - 15) / 2) in *. set (half := (w - 3) / 2) in *. destruct LAY as (L1 & L2 & L3 & L4).
  rewrite sub16_ret, bind_ret by lia. rewrite add16_ret, bind_ret by lia. fold hh. rewrite sub16_ret, bind_ret by lia. fold half. assert (GE : 20 <= w /\ 15 <= h) by (clear - LARGE; lia). destruct GE as [GE1 GE2]. clearbody hh half. clear LARGE EQ HA HD. unfold bottom. cbn [a_top a_height]. rewrite add16_ret, bind_ret by num.
  rewrite add16_ret, bind_ret by num. rewrite add16_ret, bind_ret by num. cbv zeta.
  destruct (@fchange_area u (login v) (half + 2) (1 + hh + 2) half OL) as (l & -> & Ol & Al & Fl & Cl & [Kl Kl']); [rewrite HL; split; [|split]; cbn [a_left a_top a_width a_height]; num|]. cbn [bind]. rewrite add16_ret, bind_ret by num.
  destruct (@fchange_area u (password v) (half + 2) (1 + hh + 2 + 2) half OP) as (p & -> & Op & Ap & Fp & Cp & [Kp Kp']); [rewrite HP; split; [|split]; cbn [a_left a_top a_width a_height]; num|]. cbn [bind]. rewrite add16_ret, bind_ret by num.
  rewrite sub16_ret, bind_ret by num. rewrite sub16_ret, bind_ret by num. rewrite sub16_ret, bind_ret by num. rewrite sub16_ret, bind_ret by num.
  destruct (@fset_area u (comments v) (mkArea (half + 2) (1 + hh + 2 + 2 + 2) half (h - (1 + hh + 2 + 2 + 2) - 1)) OC) as (c & -> & Oc & Ac & Fc & Cc & [Kc Kc']); [split; [|split]; cbn [a_left a_top a_width a_height]; num|]. cbn [bind].
  eexists _, _. split; [reflexivity|]. split; [|cbn; auto 6]. rewrite HL in Al. rewrite HP in Ap.
  assert (EI : mv_area (mv_resize (introduction v) (mkArea 1 1 (w - 3) hh)) = mkArea 1 1 (w - 3) hh).
  { apply mv_resize_area. }
  unfold sound. cbn [login password comments introduction drawable vw_area]. rewrite EI, Al, Ap. cbn [a_height a_width]. repeat (split; [first [assumption|reflexivity|num]|]).
  split; [unfold kinds; cbn; rewrite Kl, Kl', Kp, Kp', Kc, Kc'; exact HK|].
  split; [unfold one_focus; cbn; rewrite Fl, Fp, Fc; exact HF|]. split; [unfold large; cbn [a_width a_height]; split; [intros _; split; assumption|reflexivity]|]. intros _.
  unfold arranged, widget_areas, but_the_label. cbn [login password comments introduction login_label password_label comments_label vw_area]. rewrite EI, Al, Ap, Ac.
  split; [|split; [|cbn [a_left a_top a_width a_height]; split; [num|]; split; [num|]; split; [apply Forall_cons; [rewrite Al; exact L1|]; apply Forall_cons; [rewrite Ap; exact L1|]; apply Forall_cons; [rewrite Ac; exact L1|apply Forall_nil]|]; split; [num|]; auto]].
  - repeat (first [apply FOP_nil|apply FOP_cons]); repeat (first [apply Forall_nil|apply Forall_cons]); unfold no_common_cell, cell_in; cbn [a_left a_top a_width a_height]; num.
  - repeat (first [apply Forall_nil|apply Forall_cons]); unfold cell_in; cbn [a_left a_top a_width a_height]; num.
Qed.

Lemma mv_key_ok (i : MadView A) k : 1 <= a_width (mv_area i) -> exists i' b, mv_apply_key i k = Ret (i', b) /\ mv_area i' = mv_area i /\ mv_text i' = mv_text i.
Proof.
  intros H. unfold mv_apply_key, mv_text_view. rewrite subN_ret by exact H. cbn [bind]. destruct (tv_apply_key _ k) as [tv b]. destruct b; eexists _, _; split; reflexivity || (split; reflexivity).
Qed.

Lemma tab_next v : match vw_focus v with FIntro => FLogin | FLogin => FPassword | FPassword => FComments | FComments => FIntro end = focus_after (vw_focus v).
Proof. destruct (vw_focus v); reflexivity. Qed.
Lemma next_key v k cb : k <> mkKey 0 [KEsc] -> k <> mkKey 0 [KTab] -> next_focus v (VKey k cb) = vw_focus v.
Proof. intros N1 N2. destruct k as [[|m] [|[] [|? ?]]]; cbn; congruence. Qed.

(** No event panics; the view stays sound, and the focus goes where it should *)
Theorem C125_event : forall v e, sound v -> u16_event e -> exists v' b, vw_event u v e = Ret (v', b) /\ sound v' /\ vw_focus v' = next_focus v e.
Proof.
  intros v e S HE. pose proof S as (OL & OP & OC & HL & HP & HI & HK & HF & HD & HA). destruct e as [k cb|e d|w h|].
  - cbn [vw_event]. unfold vw_key. destruct (key_eqb k (mkKey 0 [KEsc])) eqn:K1.
    { apply key_eqb_spec in K1. subst k. destruct (set_focus_ok v FIntro OL OP OC) as (l & p & c & -> & (O1 & O2 & O3) & (A1 & A2 & A3) & F & (Q1 & Q2 & Q3) & _). cbn [bind]. eexists _, _. split; [reflexivity|]. split; [apply sound_with; assumption|reflexivity]. }
    destruct (key_eqb k (mkKey 0 [KTab])) eqn:K2.
    { apply key_eqb_spec in K2. subst k. destruct (set_focus_ok v (focus_after (vw_focus v)) OL OP OC) as (l & p & c & -> & (O1 & O2 & O3) & (A1 & A2 & A3) & F & (Q1 & Q2 & Q3) & _). cbn [bind]. eexists _, _. split; [reflexivity|].
      split; [apply sound_with; assumption|]. symmetry. apply tab_next. }
    rewrite next_key by (intros ->; first [rewrite (proj2 (key_eqb_spec _ _) eq_refl) in K1; discriminate|rewrite (proj2 (key_eqb_spec _ _) eq_refl) in K2; discriminate]).
    destruct HF as (F1 & F2 & F3). destruct (vw_focus v) eqn:EF.
    + destruct (@mv_key_ok (introduction v) k HI) as (i & b & -> & Ai & _). cbn [bind]. eexists _, _. split; [reflexivity|]. split; [|exact EF].
      unfold sound, one_focus, arranged, widget_areas, but_the_label in *. cbn [login password comments introduction login_label password_label comments_label drawable vw_area vw_focus with_intro]. rewrite Ai, EF. auto 12.
    + destruct (fkey u cb k OL) as (f & b & -> & Of & O1). destruct (only_focus O1) as (A1 & G & Q). cbn [bind]. eexists _, _. split; [reflexivity|]. split; [|reflexivity]. apply sound_with; auto. unfold one_focus. cbn [login password comments vw_focus with_fields]. rewrite G. auto.
    + destruct (fkey u cb k OP) as (f & b & -> & Of & O1). destruct (only_focus O1) as (A1 & G & Q). cbn [bind]. eexists _, _. split; [reflexivity|]. split; [|reflexivity]. apply sound_with; auto. unfold one_focus. cbn [login password comments vw_focus with_fields]. rewrite G. auto.
    + destruct (fkey u cb k OC) as (f & b & -> & Of & O1). destruct (only_focus O1) as (A1 & G & Q). cbn [bind]. eexists _, _. split; [reflexivity|]. split; [|reflexivity]. apply sound_with; auto. unfold one_focus. cbn [login password comments vw_focus with_fields]. rewrite G. auto.
  - cbn [vw_event next_focus]. unfold vw_mouse, pointed. destruct (fmouse u e d OL) as (l & -> & Ol & Al & Ql & _). cbn [bind]. destruct (in_cell (if_area (login v)) (m_column e) (m_row e)).
    { destruct (@set_focus_ok (with_fields v l (password v) (comments v) (vw_focus v)) FLogin Ol OP OC) as (l' & p' & c' & -> & (O1 & O2 & O3) & (A1 & A2 & A3) & F & (Q1 & Q2 & Q3) & _). cbn in A1, A2, A3. cbn [bind]. eexists _, _. split; [reflexivity|]. split; [|reflexivity].
      change (sound (with_fields v l' p' c' FLogin)). apply sound_with; auto; solve [congruence|eapply kind_trans; eauto]. }
    destruct (fmouse u e d OP) as (p & -> & Op & Ap & Qp & _). cbn [bind]. destruct (in_cell (if_area (password v)) (m_column e) (m_row e)).
    { destruct (@set_focus_ok (with_fields v l p (comments v) (vw_focus v)) FPassword Ol Op OC) as (l' & p' & c' & -> & (O1 & O2 & O3) & (A1 & A2 & A3) & F & (Q1 & Q2 & Q3) & _). cbn in A1, A2, A3. cbn [bind]. eexists _, _. split; [reflexivity|]. split; [|reflexivity].
      change (sound (with_fields v l' p' c' FPassword)). apply sound_with; auto; solve [congruence|eapply kind_trans; eauto]. }
    destruct (fmouse u e d OC) as (c & -> & Oc & Ac & Qc & _). cbn [bind]. set (g := if in_cell (if_area (comments v)) (m_column e) (m_row e) then FComments else FIntro).
    destruct (@set_focus_ok (with_fields v l p c (vw_focus v)) g Ol Op Oc) as (l' & p' & c' & -> & (O1 & O2 & O3) & (A1 & A2 & A3) & F & (Q1 & Q2 & Q3) & _). cbn in A1, A2, A3. cbn [bind]. eexists _, _. split; [reflexivity|]. split; [|reflexivity].
    change (sound (with_fields v l' p' c' g)). apply sound_with; auto; solve [congruence|eapply kind_trans; eauto].
  - destruct HE as [Hw Hh]. destruct (resize_sound S Hw Hh) as (v' & b & E & S' & _ & F & _). exists v', b. auto.
  - exists v, false. auto.
Qed.

(** Made with any size of terminal, it goes through all the events *)
Theorem C125_run : forall text skin style value w h es, w < 65536 -> h < 65536 -> Forall u16_event es ->
  exists v0 v, vw_new (A:=A) u text skin style value (mkArea 0 0 w h) = Ret v0 /\ sound v0 /\ vw_focus v0 = FLogin /\ vw_area v0 = mkArea 0 0 w h
  /\ vw_run u v0 es = Ret v /\ sound v.
Proof.
  intros text skin style value w h es Hw Hh HE.
  assert (RUN : forall es v, Forall u16_event es -> sound v -> exists v', vw_run u v es = Ret v' /\ sound v').
  { clear. induction es as [|e es IH]; intros v HE S; [exists v; auto|]. inversion HE; subst. destruct (C125_event e S ltac:(assumption)) as (v1 & b & E & S1 & _). cbn [vw_run]. rewrite E. cbn [bind]. apply IH; assumption. }
  unfold vw_new, vw_default. set (field := set_normal_style if_default style). assert (OF : field_ok field) by exact (proj1 C72_default). assert (OP : field_ok (with_password field true)) by exact OF.
  match goal with |- context [vw_set_focus u ?v FLogin] => destruct (@set_focus_ok v FLogin OF OP OF) as (l & p & c & E & (O1 & O2 & O3) & (A1 & A2 & A3) & F & ([Q1 Q1'] & [Q2 Q2'] & [Q3 Q3']) & _) end.
  rewrite E. cbn [bind with_fields comments login password vw_focus].
  destruct (@C72_step u (new_line_on c ENTER) (IfSetStr value)) as (c' & b & EC & OC' & HC & SET); [exact O3|exact I|]. cbn [if_apply] in EC. unfold no_bool in EC. apply bind_Ret_inv in EC. destruct EC as (c1 & EC & Q). injection Q as -> <-. rewrite EC. cbn [bind].
  match goal with |- context [vw_resize u ?vv _] => set (v1 := vv) end.
  assert (FC : focused c' = focused c).
  { unfold if_set_str in EC. apply bind_Ret_inv in EC. destruct EC as (cc & _ & EC). unfold fix_scroll in EC. revert EC. clear. intros EC.
    repeat (apply bind_Ret_inv in EC; destruct EC as (? & _ & EC)). injection EC as <-. reflexivity. }
  assert (S1 : sound v1).
  { unfold sound. cbn [v1 login password comments introduction drawable vw_area mv_area mv_from with_fields]. rewrite A1, A2. repeat (split; [first [assumption|reflexivity|vm_compute; discriminate]|]).
    split; [destruct (SET ltac:(intros [])) as (_ & _ & _ & _ & K1 & K2); unfold kinds; cbn [v1 login password comments with_fields]; rewrite Q1, Q1', Q2, Q2', K1, K2; cbn; rewrite Q3, Q3'; auto 8|].
    split; [unfold one_focus in *; cbn in *; rewrite FC; exact F|]. split; [|discriminate]. split; [discriminate|]. unfold large. vm_compute. intros [X _]. exfalso. apply X. reflexivity. }
  destruct (resize_sound S1 Hw Hh) as (v2 & b2 & E2 & S2 & A2' & F2 & _). rewrite E2. cbn [bind]. destruct (RUN es v2 HE S2) as (v3 & E3 & S3). exists v2, v3. split; [reflexivity|]. split; [exact S2|]. split; [exact F2|]. split; [exact A2'|]. auto.
Qed.

(** A key which is neither escape nor tab changes nothing but what has the focus: the text, the cursor and the scroll of this field, or the scroll of the introduction *)
Theorem C125_keys : forall v k cb v' b, sound v -> k <> mkKey 0 [KEsc] -> k <> mkKey 0 [KTab] -> vw_event u v (VKey k cb) = Ret (v', b) ->
  (forall g, g <> vw_focus v -> field_of v' g = field_of v g)
  /\ (forall f, field_of v (vw_focus v) = Some f -> exists f', field_of v' (vw_focus v) = Some f' /\ only_content f f' /\ introduction v' = introduction v)
  /\ mv_text (introduction v') = mv_text (introduction v) /\ mv_area (introduction v') = mv_area (introduction v).
Proof.
  intros v k cb v' b (OL & OP & OC & HL & HP & HI & _) N1 N2 E. cbn [vw_event] in E. unfold vw_key in E.
  destruct (key_eqb k (mkKey 0 [KEsc])) eqn:K1; [apply key_eqb_spec in K1; contradiction|]. destruct (key_eqb k (mkKey 0 [KTab])) eqn:K2; [apply key_eqb_spec in K2; contradiction|].
  destruct (vw_focus v) eqn:EF.
  - destruct (@mv_key_ok (introduction v) k HI) as (i & b' & EI & Ai & Ti). rewrite EI in E. cbn [bind] in E. injection E as <- <-. split; [intros []; reflexivity|]. split; [discriminate|]. auto.
  - destruct (fkey u cb k OL) as (f & b' & EK & Of & O1). rewrite EK in E. cbn [bind] in E. injection E as <- <-. split; [intros [] Ng; try reflexivity; congruence|]. split; [|auto]. cbn. intros ? Q. injection Q as <-. eauto.
  - destruct (fkey u cb k OP) as (f & b' & EK & Of & O1). rewrite EK in E. cbn [bind] in E. injection E as <- <-. split; [intros [] Ng; try reflexivity; congruence|]. split; [|auto]. cbn. intros ? Q. injection Q as <-. eauto.
  - destruct (fkey u cb k OC) as (f & b' & EK & Of & O1). rewrite EK in E. cbn [bind] in E. injection E as <- <-. split; [intros [] Ng; try reflexivity; congruence|]. split; [|auto]. cbn. intros ? Q. injection Q as <-. eauto.
Qed.

(** The texts *)
Definition texts v : list (list (list char)) := map (fun f => clines (if_content f)) [login v; password v; comments v].
(** Neither the escape and tab keys, nor the mouse, nor the size of the terminal changes what was typed *)
Theorem C125_texts : forall v e v' b, sound v -> u16_event e -> match e with VKey k _ => In k [mkKey 0 [KEsc]; mkKey 0 [KTab]] | _ => True end -> vw_event u v e = Ret (v', b) -> texts v' = texts v.
Proof.
  intros v e v' b S HE HK E. pose proof S as (OL & OP & OC & HL & HP & HI & _). unfold texts. cbn [map].
  assert (X : forall w l p c f, field_ok (login w) -> field_ok (password w) -> field_ok (comments w) -> clines (if_content (login w)) = l -> clines (if_content (password w)) = p -> clines (if_content (comments w)) = c ->
    forall w', vw_set_focus (A:=A) u w f = Ret w' -> [clines (if_content (login w')); clines (if_content (password w')); clines (if_content (comments w'))] = [l; p; c]).
  { intros w l p c f O1 O2 O3 <- <- <- w' Ew. destruct (@set_focus_ok w f O1 O2 O3) as (l' & p' & c' & E' & _ & _ & _ & _ & E1 & E2 & E3). rewrite E' in Ew. injection Ew as <-. cbn. rewrite E1, E2, E3. reflexivity. }
  destruct e as [k cb|e d|w h|]; cbn [vw_event] in E.
  - assert (exists f, vw_set_focus u v f = Ret v') as (f & Ef); [|exact (X v _ _ _ f OL OP OC eq_refl eq_refl eq_refl v' Ef)].
    destruct HK as [<-|[<-|[]]]; unfold vw_key in E; cbn [key_eqb] in E; [exists FIntro|exists (focus_after (vw_focus v))]; apply bind_Ret_inv in E; destruct E as (w & Ew & Q); injection Q as <- _; exact Ew.
  - unfold vw_mouse in E. destruct (fmouse u e d OL) as (l & El & Ol & _ & _ & Tl & _). rewrite El in E. cbn [bind] in E. apply bind_Ret_inv in E. destruct E as (v1 & E & Q). injection Q as <- _.
    destruct (in_cell (if_area (login v)) (m_column e) (m_row e)); [refine (X _ _ _ _ _ _ _ _ _ _ _ _ E); cbn; auto|].
    destruct (fmouse u e d OP) as (p & Ep & Op & _ & _ & Tp & _). rewrite Ep in E. cbn [bind] in E.
    destruct (in_cell (if_area (password v)) (m_column e) (m_row e)); [refine (X _ _ _ _ _ _ _ _ _ _ _ _ E); cbn; auto|].
    destruct (fmouse u e d OC) as (c & Ec & Oc & _ & _ & Tc & _). rewrite Ec in E. cbn [bind] in E. refine (X _ _ _ _ _ _ _ _ _ _ _ _ E); cbn; auto.
  - destruct HE as [Hw Hh]. destruct (resize_sound S Hw Hh) as (v2 & b2 & E2 & _ & _ & _ & C1 & C2 & C3). rewrite E2 in E. injection E as <- _. rewrite C1, C2, C3. reflexivity.
  - injection E as <- _. reflexivity.
Qed.

(** The tab key goes round the four widgets *)
Theorem C125_tabs : forall v cb, sound v -> exists v1 v2 v3 v4, vw_run u v [VKey (mkKey 0 [KTab]) cb] = Ret v1 /\ vw_run u v1 [VKey (mkKey 0 [KTab]) cb] = Ret v2 /\ vw_run u v2 [VKey (mkKey 0 [KTab]) cb] = Ret v3
  /\ vw_run u v3 [VKey (mkKey 0 [KTab]) cb] = Ret v4 /\ vw_focus v4 = vw_focus v /\ NoDup [vw_focus v1; vw_focus v2; vw_focus v3; vw_focus v4].
Proof.
  intros v cb S. set (e := VKey (mkKey 0 [KTab]) cb).
  assert (T : forall w : View A, sound w -> exists w', vw_run u w [e] = Ret w' /\ sound w' /\ vw_focus w' = focus_after (vw_focus w)).
  { intros w Sw. destruct (C125_event e Sw I) as (w' & b & E & S' & F). exists w'. cbn [vw_run]. rewrite E. cbn [bind]. split; [reflexivity|]. split; [exact S'|]. rewrite F. apply tab_next. }
  destruct (T v S) as (v1 & E1 & S1 & F1). destruct (T v1 S1) as (v2 & E2 & S2 & F2). destruct (T v2 S2) as (v3 & E3 & S3 & F3). destruct (T v3 S3) as (v4 & E4 & _ & F4).
  exists v1, v2, v3, v4. repeat (split; [assumption|]). rewrite F4, F3, F2, F1. split; [destruct (vw_focus v); reflexivity|].
  destruct (vw_focus v); cbn; repeat constructor; cbn; intuition discriminate.
Qed.
End View.

(** ** Examples *)
Unset Implicit Arguments.
Definition demo_new (w h : N) : outcome (View nat) := vw_new demo (fun w => repeat 0%nat (N.to_nat w)) skin_no_style cs_default [97; c_nl; 98] (mkArea 0 0 w h).
Definition no_clip : Clipboard := mkClip None false.
(** In the smallest terminal, with what is typed, a tab, a click on the login, a paste, then a terminal which is too small *)
Example C125_example : match demo_new 20 15 with
  | Ret v => match vw_run demo v [VKey (mkKey 0 [KChar 122]) no_clip; VKey (mkKey 0 [KTab]) no_clip; VKey (mkKey 0 [KChar 121]) no_clip; VMouse (mkMouse (MDown BLeft) 12 7 0) false;
      VKey (mkKey 2 [KChar 118]) (mkClip (Some [120; 120]) true); VResize 10 10; VMouse (mkMouse MMoved 0 0 0) false] with
    | Ret v' => (widget_areas v, vw_focus v, texts v', vw_focus v', drawable v, drawable v')
    | _ => ([], FComments, [], FComments, false, true) end
  | _ => ([], FComments, [], FComments, false, true) end
  = ([mkArea 1 1 17 4; mkArea 1 7 8 1; mkArea 10 7 8 1; mkArea 1 9 8 1; mkArea 10 9 8 1; mkArea 1 11 8 10; mkArea 10 11 8 3], FLogin, [[[122; 120; 120]]; [[121]]; [[97]; [98]]], FIntro, true, false).
Proof. vm_compute. reflexivity. Qed.
(** The label of the comments is 6 rows lower than the bottom of the terminal: its height is computed from the one of the introduction, as if nothing was between both *)
Theorem C125_label_refuted : exists (v : View nat) x y, demo_new 80 25 = Ret v /\ drawable v = true /\ cell_in (comments_label v) x y /\ ~ cell_in (vw_area v) x y.
Proof. eexists _, 1, 30. split; [vm_compute; reflexivity|]. split; [reflexivity|]. unfold cell_in. cbn. lia. Qed.

Print Assumptions C125_event.
Print Assumptions C125_run.
Print Assumptions C125_keys.
Print Assumptions C125_texts.
Print Assumptions C125_tabs.
Print Assumptions C125_label_refuted.
