(** * A question and what is answered are read on the terminal (C120) *)
From Verif Require Import Base L_Base M_Style M_Fit M_Wrap M_TblFit S_Wrap M_Text S_Text L_Text L_Text2 M_Fitter M_View S_View M_Render S_Render L_Render M_Area S_Fit S_Input L_Input2 S_Pen S_Area S_Origin S_Paint S_Border S_Read S_Cells S_Local S_Whole S_Paper M_Ask M_Prompt S_Prompt S_Ask S_Dialog L_Clean L_View Demo.
From Verif Require Import P_Ask P_Wrap P_Text P_Render P_Local P_Area P_Pen P_Origin P_Paint P_Read P_Border P_Cells P_Whole P_Paper P_Prompt.
Set Implicit Arguments.
Open Scope nat_scope.

Lemma sum_app_rows a b : sum (a ++ b) = sum a + sum b.
Proof. unfold sum. induction a as [|x a IH]; cbn; [reflexivity|]. rewrite IH. lia. Qed.
(** A line which is typed, or printed as it is *)
Lemma plain_line u w s tm : ~ In 10%N s -> sumw (chw u) s <= w -> t_x tm = 0 -> t_pen tm = pen0 -> blank_from tm (t_y tm) ->
  let tm' := paper_run u w tm [Print (s ++ [10%N])] in
  t_x tm' = 0 /\ t_y tm' = t_y tm + 1 /\ t_pen tm' = pen0 /\ blank_from tm' (t_y tm') /\ (forall x y, y <> t_y tm -> t_cell tm' x y = t_cell tm x y) /\ row_reads u tm' w (t_y tm) s.
Proof.
  intros N L X P B. cbv zeta. unfold paper_run. cbn [fold_left paper_step].
  assert (A : forall a b t p, paper_str u w t p (a ++ b) = paper_str u w (paper_str u w t p a) p b) by (clear; induction a as [|c a IH]; intros b t p; [reflexivity|]; cbn [app paper_str]; apply IH).
  rewrite A, (@paper_str_type u w (t_pen tm) s tm) by first [exact N|rewrite X; exact L]. cbn [paper_str]. unfold paper_char. change (10 =? 10)%N with true. cbv iota. set (t1 := type_str u tm (t_pen tm) s).
  destruct (type_str_place u (t_pen tm) s tm) as (X1 & Y1). fold t1 in X1, Y1. cbn [go_to t_x t_y t_pen t_cell]. rewrite Y1.
  assert (Ab : forall x y, y <> t_y tm \/ sumw (chw u) s <= x -> t_cell t1 x y = t_cell tm x y) by (intros x y H; unfold t1; apply type_str_above; rewrite X; lia).
  split; [reflexivity|]. split; [reflexivity|]. split; [unfold t1; destruct (@type_str_cells u None (t_pen tm) s tm 0 0) as (_ & _ & _ & ->); exact P|].
  split; [intros x y H; cbn [go_to t_cell]; rewrite Ab by lia; apply B; lia|]. split; [intros x y H; apply Ab; lia|].
  assert (Sh : shown_at u t1 0 (t_y tm) (map (fun c => (c, cs_default)) s)) by (pose proof (@shown_str u cs_default s tm) as H; rewrite X in H; unfold t1; rewrite P; exact H).
  assert (Ms : map fst (map (fun c : char => (c, cs_default)) s) = s) by (rewrite map_map; apply map_id).
  assert (Q : row_reads u t1 w (t_y tm) s); [|exact Q]. unfold row_reads.
  replace w with (sumw (chw u) s + (w - sumw (chw u) s)) at 1 by lia. rewrite row_split, Nat.add_0_l. pose proof (shown_read Sh) as R. rewrite Ms in R. rewrite R. f_equal. apply nothing_read. intros x' H. rewrite Ab by lia. apply B. lia.
Qed.
Lemma row_reads_same u t t' w y s : (forall x, t_cell t' x y = t_cell t x y) -> row_reads u t w y s -> row_reads u t' w y s.
Proof. intros F H. unfold row_reads in *. rewrite <- H. unfold read_row. apply flat_map_ext. intros x. rewrite F. reflexivity. Qed.

Section Dialog.
Context (u : unicode) (k : MadSkin) (um : nat) (parse : str -> list MLine) (debug : str -> str) (size : option (N * N)) (w : nat).
Notation print := (print_item u no_special k um parse debug size).
Lemma speak_app a b : speak print (a ++ b) = (x <- speak print a ;; y <- speak print b ;; Ret (x ++ y)).
Proof.
  induction a as [|[p|l] a IH]; cbn [app speak]; [destruct (speak print b); reflexivity| |].
  - destruct (print p); cbn [bind]; [|reflexivity..]. rewrite IH. destruct (speak print a); cbn [bind]; [|reflexivity..]. destruct (speak print b); cbn [bind]; [rewrite app_assoc|..]; reflexivity.
  - rewrite IH. destruct (speak print a); cbn [bind]; [|reflexivity..]. destruct (speak print b); reflexivity.
Qed.
Lemma speak_said ps : speak print (map Said ps) = print_items u no_special k um parse debug size ps.
Proof. induction ps as [|p ps IH]; cbn [map speak print_items]; [reflexivity|]. rewrite IH. reflexivity. Qed.
Lemma dialog_prompt q out ls : dialog (prompt q ++ out) ls = map Said (prompt q) ++ dialog out ls.
Proof.
  assert (G : forall ps, Forall (fun p => match p with PNotUnderstood _ => False | _ => True end) ps -> dialog (ps ++ out) ls = map Said ps ++ dialog out ls).
  { induction 1 as [|p ps H _ IH]; [reflexivity|]. cbn [app map]. rewrite <- IH. destruct p; [reflexivity|reflexivity|destruct H]. }
  apply G. unfold prompt. apply Forall_app. split; [destruct (q_md q); repeat constructor|]. induction (q_answers q) as [|a l IH]; [constructor|]. cbn [flat_map app]. repeat constructor. exact IH.
Qed.
(** The lines which aren't understood *)
Lemma lines_spoken : forall ls bs xs l b, Forall2 (entered u w) ls bs -> entered u w l b -> Forall (fun x => ~ In 10%N (debug x) /\ sumw (chw u) (misunderstood (debug x)) <= w) xs -> length xs = length ls ->
  exists o, speak print (dialog (map PNotUnderstood xs) (ls ++ [l])) = Ret o
  /\ forall tm, t_x tm = 0 -> t_pen tm = pen0 -> blank_from tm (t_y tm) -> let tm' := paper_run u w tm o in
     t_x tm' = 0 /\ t_y tm' = t_y tm + 2 * length ls + 1 /\ t_pen tm' = pen0 /\ blank_from tm' (t_y tm') /\ (forall x y, y < t_y tm -> t_cell tm' x y = t_cell tm x y)
     /\ (forall i b' x, nth_error bs i = Some b' -> nth_error xs i = Some x -> row_reads u tm' w (t_y tm + 2 * i) b' /\ row_reads u tm' w (t_y tm + 2 * i + 1) (misunderstood (debug x)))
     /\ row_reads u tm' w (t_y tm + 2 * length ls) b.
Proof.
  intros ls bs xs l b H Hl. revert xs. induction H as [|l0 b0 ls bs (-> & N0 & L0) _ IH]; intros xs Hx Lx.
  - destruct xs; [|discriminate]. destruct Hl as (-> & Nb & Lb). exists [Print (b ++ [10%N])]. split; [reflexivity|]. intros tm X P B. cbn [length Nat.mul Nat.add]. rewrite !Nat.add_0_r.
    destruct (@plain_line u w b tm Nb Lb X P B) as (A1 & A2 & A3 & A4 & A5 & A6). cbv zeta in *. split; [exact A1|]. split; [exact A2|]. split; [exact A3|]. split; [exact A4|]. split; [intros x y H; apply A5; lia|]. split; [intros [|i]; discriminate|exact A6].
  - destruct xs as [|x xs]; [discriminate|]. inversion Hx as [|? ? (N1 & L1) Hx']; subst. destruct (IH xs Hx' ltac:(cbn in Lx; lia)) as (o & Eo & Ho).
    exists ([Print (b0 ++ [10%N])] ++ [Print (misunderstood (debug x) ++ [10%N])] ++ o). split.
    { cbn [map app dialog speak print_item bind]. rewrite Eo. cbn [bind]. unfold misunderstood. rewrite <- !app_assoc. reflexivity. }
    intros tm X P B. cbv zeta. rewrite !paper_app.
    destruct (@plain_line u w b0 tm N0 L0 X P B) as (A1 & A2 & A3 & A4 & A5 & A6). cbv zeta in *. set (t1 := paper_run u w tm [Print (b0 ++ [10%N])]) in *.
    assert (Nm : ~ In 10%N (misunderstood (debug x))).
    { unfold misunderstood. intros I. apply in_app_or in I as [I|I]; [cbn in I; repeat (destruct I as [I|I]; [discriminate I|]); destruct I|]. apply in_app_or in I as [I|I]; [exact (N1 I)|]. cbn in I; repeat (destruct I as [I|I]; [discriminate I|]); destruct I. }
    destruct (@plain_line u w (misunderstood (debug x)) t1 Nm L1 A1 A3 A4) as (B1 & B2 & B3 & B4 & B5 & B6). cbv zeta in *. set (t2 := paper_run u w t1 [Print (misunderstood (debug x) ++ [10%N])]) in *.
    destruct (Ho t2 B1 B3 B4) as (C1 & C2 & C3 & C4 & C5 & C6 & C7). cbv zeta in *. set (t3 := paper_run u w t2 o) in *. rewrite A2 in B2, B5, B6. rewrite B2 in C2, C5, C6, C7. cbn [length].
    split; [exact C1|]. split; [lia|]. split; [exact C3|]. split; [exact C4|]. split; [intros x0 y H; rewrite C5, B5, A5 by lia; reflexivity|]. split.
    + intros [|i] b' x' Eb Ex; cbn [nth_error] in Eb, Ex.
      * injection Eb as <-. injection Ex as <-. rewrite Nat.mul_0_r, !Nat.add_0_r. split; [eapply row_reads_same; [|exact A6]; intros x0; rewrite C5, B5 by lia; reflexivity|eapply row_reads_same; [|exact B6]; intros x0; apply C5; lia].
      * destruct (C6 i b' x' Eb Ex) as (D1 & D2). replace (t_y tm + 2 * S i) with (t_y tm + 1 + 1 + 2 * i) by lia. split; assumption.
    + replace (t_y tm + 2 * S (length ls)) with (t_y tm + 1 + 1 + 2 * length ls) by lia. exact C7.
Qed.
End Dialog.

(** The whole dialog of [ask]: after the question and its answers, each line which isn't understood is followed by the message which tells it, then comes the line of the returned answer *)
Theorem C120_dialog : forall u k um parse debug size q, usual u no_special k ->
  let w := N.to_nat (fst (terminal_size size)) in
  5 <= w -> is_white u 32%N = true ->
  let text := match q_md q with Some md => parse md | None => [] end in
  Forall (area_source u k w) text -> single_lines k text ->
  forall comps, Forall2 (fun a cs => parse (a_md a) = [MNormal (mkMC MParagraph cs)] /\ answer_fits u k w (a_key a) cs) (q_answers q) comps ->
  forall fuel s key out s', ask u fuel q s = Some (AOk key, out, s') ->
  exists ls xs l x s1, lines s ls s1 /\ Forall2 (S_Ask.typed u) ls xs /\ Forall (rejects q) xs /\ lines s1 [l] s' /\ S_Ask.typed u l x /\ accepts q x key
  /\ forall bs b, Forall2 (entered u w) ls bs -> entered u w l b -> Forall (fun x => ~ In 10%N (debug x) /\ sumw (chw u) (misunderstood (debug x)) <= w) xs ->
     exists o ps, speak (print_item u no_special k um parse debug size) (dialog out (ls ++ [l])) = Ret o
     /\ length ps = length text /\ Forall (fun p => 1 <= l_rows p) ps /\ aligned text ps
     /\ forall tm, t_x tm = 0 -> t_pen tm = pen0 -> blank_from tm (t_y tm) ->
        let tm' := paper_run u w tm o in let y0 := t_y tm + sum (map l_rows ps) in let y1 := y0 + length (q_answers q) in
        t_x tm' = 0 /\ t_y tm' = y1 + 2 * length ls + 1 /\ t_pen tm' = pen0 /\ blank_from tm' (t_y tm') /\ (forall x y, y < t_y tm -> t_cell tm' x y = t_cell tm x y)
        /\ (forall i l p, nth_error text i = Some l -> nth_error ps i = Some p -> reads_line u k tm' p l 0 (t_y tm + sum (map l_rows (firstn i ps))) w)
        /\ (forall i a cs, nth_error (q_answers q) i = Some a -> nth_error comps i = Some cs ->
            exists default, (default = true <-> q_default q = Some (a_key a)) /\ row_reads u tm' w (y0 + i) (map fst (answer_row u k w default (a_key a) cs)))
        /\ (forall i b' x', nth_error bs i = Some b' -> nth_error xs i = Some x' -> row_reads u tm' w (y1 + 2 * i) b' /\ row_reads u tm' w (y1 + 2 * i + 1) (misunderstood (debug x')))
        /\ row_reads u tm' w (y1 + 2 * length ls) b.
Proof.
  intros u k um parse debug size q U w Hw Wh text T SL comps HF fuel s key out s' Ea.
  destruct (proj1 (@C61_answer u q s key out s') (ex_intro _ fuel Ea)) as (ls & xs & l & x & s1 & H1 & H2 & H3 & H4 & H5 & H6 & ->). exists ls, xs, l, x, s1. do 6 (split; [assumption|]).
  intros bs b Hb Hl Hx. destruct (@C103_prompt u k um parse debug size q U Hw Wh T SL comps HF) as (o1 & ps & E1 & L1 & L2 & L3 & P1).
  assert (Lx : length xs = length ls) by (clear - H2; induction H2; cbn; congruence).
  destruct (@lines_spoken u k um parse debug size w ls bs xs l b Hb Hl Hx Lx) as (o2 & E2 & P2). exists (o1 ++ o2), ps.
  split; [rewrite dialog_prompt, speak_app, speak_said, E1; cbn [bind]; rewrite E2; reflexivity|]. do 3 (split; [assumption|]).
  intros tm X P B. cbv zeta. rewrite paper_app. destruct (P1 tm X P B) as (A1 & A2 & A3 & A4 & A5 & A6 & A7). cbv zeta in *. fold w in A1, A2, A3, A4, A5, A6, A7. set (t1 := paper_run u w tm o1) in *.
  destruct (P2 t1 A1 A3 A4) as (B1 & B2 & B3 & B4 & B5 & B6 & B7). cbv zeta in *. set (t2 := paper_run u w t1 o2) in *. rewrite A2 in B2, B5, B6, B7.
  split; [exact B1|]. split; [exact B2|]. split; [exact B3|]. split; [exact B4|]. split; [intros x0 y H; rewrite B5 by lia; apply A5, H|]. split; [|split; [|split; [exact B6|exact B7]]].
  - intros i l0 p Hi Hp. eapply reads_line_rows; [|exact (A6 i l0 p Hi Hp)]. intros x0 y L. apply B5.
    assert (sum (map l_rows (firstn i ps)) + l_rows p <= sum (map l_rows ps)); [|lia]. clear - Hp. revert i Hp. induction ps as [|p0 ps IH]; intros [|i] Hp; try discriminate; cbn [nth_error firstn map] in *.
    + injection Hp as ->. change (sum (l_rows p :: map l_rows ps)) with (l_rows p + sum (map l_rows ps)). unfold sum at 1. cbn. lia.
    + change (sum (l_rows p0 :: map l_rows ps)) with (l_rows p0 + sum (map l_rows ps)). change (sum (l_rows p0 :: map l_rows (firstn i ps))) with (l_rows p0 + sum (map l_rows (firstn i ps))). specialize (IH i Hp). lia.
  - intros i a cs Hi Hc. destruct (A7 i a cs Hi Hc) as (default & D1 & D2). exists default. split; [exact D1|]. destruct D2 as (_ & _ & D4). eapply row_reads_same; [|exact D4]. intros x0. apply B5.
    assert (i < length (q_answers q)) by (apply nth_error_Some; congruence). lia.
Qed.
Print Assumptions C120_dialog.

(** "m" isn't understood, then "y" is: on a terminal of 30 columns, the question takes rows which depend on its text, then come 2 answers and 3 rows *)
Definition demo_dialog : outcome (list cmd) :=
  match ask demo 5 demo_question (type [[109%N]; [121%N]]) with
  | Some (AOk _, out, _) => speak (print_item demo no_special skin_default 1000 demo_parse (fun s => s) (Some (30, 12)%N)) (dialog out [[109; 10]; [121; 10]]%N)
  | _ => Ret []
  end.
Unset Implicit Arguments.
Lemma demo_source : Forall (area_source demo skin_default 30) whole_text.
Proof.
  assert (HN : forall c, drawn_kind (kind_of (mc_style c)) -> lead skin_default (kind_of (mc_style c)) + 2 <= 30 ->
    (kind_of (mc_style c) = KCode -> sumw (chw demo) (text_of (mc_compounds c)) <= 30) -> area_source demo skin_default 30 (MNormal c)).
  { intros c H0 H1 H2. split; [exact H0|]. intros lm rm (ls & El & Em). destruct (default_margins _ El) as [E1 E2].
    unfold margins_in in Em. rewrite E1, E2 in Em. cbn in Em. injection Em as <- <-. split; [lia|]. intros H. specialize (H2 H). lia. }
  unfold whole_text. repeat (apply Forall_cons; [|]); try apply Forall_nil.
  all: first [exact I | apply HN; [split; [discriminate|cbn; try exact I; lia]|cbn; lia|first [discriminate|intros _; vm_compute; lia]] | split; [discriminate|cbn; lia] | split; [discriminate|split; [cbn; lia|repeat constructor]]].
Qed.
Example C120_example : usual demo no_special skin_default /\ Forall (area_source demo skin_default 30) (demo_parse [113%N]) /\ single_lines skin_default (demo_parse [113%N])
  /\ Forall2 (fun a cs => demo_parse (a_md a) = [MNormal (mkMC MParagraph cs)] /\ answer_fits demo skin_default 30 (a_key a) cs) (q_answers demo_question) [demo_comps [89%N]; demo_comps [78; 111]%N]
  /\ Forall2 (entered demo 30) [[109; 10]]%N [[109%N]] /\ entered demo 30 [121; 10]%N [121%N] /\ Forall (fun x => ~ In 10%N x /\ sumw (chw demo) (misunderstood x) <= 30) [[109%N]]
  /\ match demo_dialog with Ret o => let t := paper_run demo 30 empty_paper o in (t_x t, map (fun y => visible demo (read_row t 0 y 30)) (seq (t_y t - 5) 5)) | _ => (1, []) end
     = (0, [[91; 121; 93; 89; 101; 115]; [91; 110; 93; 78; 111]; [109]; [97; 110; 115; 119; 101; 114; 109; 110; 111; 116; 117; 110; 100; 101; 114; 115; 116; 111; 111; 100]; [121]]%N).
Proof.
  split; [exact demo_usual|]. split; [exact demo_source|]. split.
  { split; [vm_compute; intros H; repeat destruct H as [H|H]; discriminate || contradiction|]. intros mc c M C. vm_compute in M.
    repeat destruct M as [<-|M]; try contradiction; cbn in C; repeat destruct C as [<-|C]; try contradiction; vm_compute; intros H; repeat destruct H as [H|H]; discriminate || contradiction. }
  split.
  { assert (F : forall key cs, sumw (chw demo) (map fst (answer_row demo skin_default 30 false key cs)) <=? 30 = true -> paragraph_needs skin_default 30 (sumw (chw demo) (text_of cs)) <=? 30 = true -> existsb (N.eqb 10) (key ++ text_of cs) = false -> answer_fits demo skin_default 30 key cs).
    { intros key cs A B C. assert (D : ~ In 10%N (key ++ text_of cs)) by (intros I; assert (existsb (N.eqb 10) (key ++ text_of cs) = true) by (apply existsb_exists; exists 10%N; auto); congruence).
      split; [apply Nat.leb_le, A|]. split; [apply Nat.leb_le, B|]. split; intros I; apply D, in_or_app; auto. }
    repeat (constructor; [split; [reflexivity|apply F; vm_compute; reflexivity]|]). constructor. }
  assert (E : forall c, (c =? 10)%N = false -> ~ In 10%N [c]) by (intros c H [->|[]]; discriminate H).
  split; [constructor; [|constructor]; split; [reflexivity|split; [apply E; reflexivity|vm_compute; lia]]|].
  split; [split; [reflexivity|split; [apply E; reflexivity|vm_compute; lia]]|].
  split; [constructor; [|constructor]; split; [apply E; reflexivity|vm_compute; lia]|]. vm_compute. reflexivity.
Qed.
