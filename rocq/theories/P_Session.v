(** * Texts printed one after the other are all seen, in order (C109) *)
From Verif Require Import Base L_Base M_Style M_Fit M_Wrap M_TblFit S_Wrap M_Text S_Text L_Text L_Text2 M_Fitter M_View S_View M_Render S_Render L_Render M_Area S_Fit S_Input L_Input2 S_Pen S_Area S_Origin S_Paint S_Border S_Read S_Cells S_Local S_Whole S_Paper L_Clean L_View Demo.
From Verif Require Import P_Wrap P_Text P_Render P_Local P_Area P_Pen P_Origin P_Paint P_Read P_Border P_Cells P_Whole.
From Verif Require Import S_Look S_PaperLook P_Look P_Paper P_PaperLook S_Session.
From Verif Require P_Prompt.
Set Implicit Arguments.
Open Scope nat_scope.

(** What is told of a printing for the theorem *)
Definition printing_ok (u : unicode) (W : nat) (j : printing) : Prop :=
  usual u no_special (pr_skin j) /\ 5 <= pr_width j <= W /\ Forall (area_source u (pr_skin j) (pr_width j)) (pr_text j) /\ single_lines (pr_skin j) (pr_text j) /\ Forall no_ellipsis (pr_text j).

Lemma rows_before ps : forall i (p : Laid), nth_error ps i = Some p -> sum (map l_rows (firstn i ps)) + l_rows p <= sum (map l_rows ps).
Proof.
  induction ps as [|q ps IH]; intros [|i] p H; try discriminate; cbn [nth_error firstn map] in *.
  - injection H as ->. change (sum (l_rows p :: map l_rows ps)) with (l_rows p + sum (map l_rows ps)). unfold sum at 1. cbn. lia.
  - change (sum (l_rows q :: map l_rows ps)) with (l_rows q + sum (map l_rows ps)). change (sum (l_rows q :: map l_rows (firstn i ps))) with (l_rows q + sum (map l_rows (firstn i ps))). specialize (IH i p H). lia.
Qed.
(** What is seen of a text is in its rows *)
Lemma text_seen_rows u j s before before' seen seen' y : well_laid j s -> (forall x y', y <= y' < y + sh_rows s -> t_cell seen' x y' = t_cell seen x y' /\ t_cell before' x y' = t_cell before x y') ->
  text_seen u j s before seen y -> text_seen u j s before' seen' y.
Proof.
  intros (W1 & _ & _ & W4 & _) E (A & B & full & C & D). split; [|split].
  - intros i l p Hi Hp. eapply P_Prompt.reads_line_rows; [|exact (A i l p Hi Hp)]. intros x y' L. apply E. pose proof (rows_before _ _ Hp). lia.
  - intros x d L Ld. destruct (E x (y + d)) as (-> & ->); [lia|]. auto.
  - exists full. split; [|exact D]. intros d L. destruct (C d L) as (e & Le & C1 & C2). exists e. split; [exact Le|]. split.
    + intros x Lx. rewrite (proj1 (E x (y + d) ltac:(lia))). auto.
    + intros x Lx. destruct (E x (y + d)) as (-> & ->); [lia|]. auto.
Qed.
Lemma printing_seen u um W j : is_white u 32%N = true -> ellipsis_seen u -> printing_ok u W j ->
  exists out s, print_text u no_special (pr_skin j) um (pr_text j) (pr_size j) = Ret out /\ well_laid j s
  /\ forall tm, t_x tm = 0 -> t_pen tm = pen0 -> blank_from tm (t_y tm) -> let tm' := paper_run u W tm out in
     t_x tm' = 0 /\ t_y tm' = t_y tm + sh_rows s /\ t_pen tm' = pen0 /\ (forall x y, y < t_y tm \/ t_y tm' <= y \/ W <= x -> t_cell tm' x y = t_cell tm x y)
     /\ text_seen u j s tm tm' (t_y tm).
Proof.
  intros Wh El (U & (Hw & HW) & T & SL & NE).
  destruct (@printed_seen u (pr_skin j) um (pr_text j) (pr_size j) U Hw T Wh SL El NE) as (t & out & ps & bws & A1 & A2 & A3 & A4 & A5 & A6 & A7 & A8 & A9). fold (pr_width j) in *. cbv zeta in A9.
  exists out, (mkShown (length (txt_lines t)) ps bws). split; [exact A2|]. split; [unfold well_laid; cbn [sh_rows sh_laid sh_blocks]; auto 10|].
  intros tm X P B. destruct (A9 tm X P B) as (B1 & B2 & B3 & B4 & B5 & B6 & full & B7 & B8). cbv zeta. rewrite (B5 W HW). cbn [sh_rows]. split; [exact B1|]. split; [exact B2|]. split; [exact B3|].
  split; [intros x y L; apply B4; lia|]. unfold text_seen. cbn [sh_rows sh_laid sh_blocks]. split; [exact B6|]. split; [intros x d L _; apply B4; lia|]. exists full. auto.
Qed.

(** ** C109 *)

(** Texts printed one after the other, each one with its skin and for its width, which the terminal has, from the start of a row of a terminal having its default style and of which nothing is written below.
    Each one has its rows, in order, and is still seen there at the end. *)
Theorem C109_session : forall u um W jobs, is_white u 32%N = true -> ellipsis_seen u -> Forall (printing_ok u W) jobs ->
  exists outs shows, Forall2 (fun j out => print_text u no_special (pr_skin j) um (pr_text j) (pr_size j) = Ret out) jobs outs /\ Forall2 well_laid jobs shows
  /\ forall tm, t_x tm = 0 -> t_pen tm = pen0 -> blank_from tm (t_y tm) -> let tm' := paper_run u W tm (concat outs) in
     t_x tm' = 0 /\ t_y tm' = t_y tm + sum (map sh_rows shows) /\ t_pen tm' = pen0 /\ (forall x y, y < t_y tm \/ t_y tm' <= y \/ W <= x -> t_cell tm' x y = t_cell tm x y)
     /\ forall n j s, nth_error jobs n = Some j -> nth_error shows n = Some s -> text_seen u j s tm tm' (t_y tm + sum (map sh_rows (firstn n shows))).
Proof.
  intros u um W jobs Wh El H. induction H as [|j jobs H1 _ IH].
  { exists [], []. split; [constructor|]. split; [constructor|]. intros tm X P B. cbn. split; [exact X|]. split; [unfold sum; cbn; lia|]. split; [exact P|]. split; [reflexivity|]. intros [|n] j s E; discriminate. }
  destruct IH as (outs & shows & O1 & O2 & IH). destruct (@printing_seen u um W j Wh El H1) as (out & s & E1 & E2 & E3).
  exists (out :: outs), (s :: shows). split; [constructor; assumption|]. split; [constructor; assumption|]. intros tm X P B. cbn [concat]. rewrite (paper_app u W tm). cbv zeta.
  destruct (E3 tm X P B) as (F1 & F2 & F3 & F4 & F5). cbv zeta in *. set (t1 := paper_run u W tm out) in *.
  assert (B1 : blank_from t1 (t_y t1)) by (intros x y L; rewrite F4 by lia; apply B; lia). destruct (IH t1 F1 F3 B1) as (G1 & G2 & G3 & G4 & G5). set (t2 := paper_run u W t1 (concat outs)) in *.
  cbn [map]. change (sum (sh_rows s :: map sh_rows shows)) with (sh_rows s + sum (map sh_rows shows)). split; [exact G1|]. split; [rewrite G2, F2; lia|]. split; [exact G3|].
  split; [intros x y L; rewrite G4 by lia; apply F4; lia|]. intros [|n] j' s' Ej Es; cbn [nth_error] in Ej, Es.
  - injection Ej as <-. injection Es as <-. cbn [firstn map]. change (sum []) with 0. rewrite Nat.add_0_r. eapply text_seen_rows; [exact E2| |exact F5]. intros x y' L. split; [apply G4; lia|reflexivity].
  - cbn [firstn map]. change (sum (sh_rows s :: map sh_rows (firstn n shows))) with (sh_rows s + sum (map sh_rows (firstn n shows))). pose proof (G5 n j' s' Ej Es) as Q. rewrite F2, <- Nat.add_assoc in Q. eapply text_seen_rows; [exact (one_of _ O2 Ej Es)| |exact Q].
    intros x y' L. split; [reflexivity|]. symmetry. apply F4. lia.
Qed.
Print Assumptions C109_session.

Lemma printed_cmds u um W j out : is_white u 32%N = true -> printing_ok u W j -> print_text u no_special (pr_skin j) um (pr_text j) (pr_size j) = Ret out -> Forall text_cmd out.
Proof.
  intros Wh (U & (Hw & _) & T & SL & _) E. destruct (@printed_laid u (pr_skin j) um (pr_text j) (pr_size j) U Hw T Wh SL) as (t & outs & gq & _ & _ & Eo & _ & HN & _). cbv zeta in *. rewrite Eo in E. injection E as <-.
  clear - HN. induction HN as [|o os (N & _) _ IH]; [constructor|]. unfold printed_lines. cbn [flat_map]. apply Forall_app. split; [|exact IH]. apply Forall_app. split; [apply styled_text_cmd, N|]. constructor; [left; eauto|constructor].
Qed.
(** On a screen of [h] rows, which scrolls: at the end the row of the cursor is on the screen, the screen having scrolled by just what is needed, and each source line of each text whose rows are still on the screen is read there. *)
Theorem C109_screen : forall u um W h jobs, is_white u 32%N = true -> ellipsis_seen u -> Forall (printing_ok u W) jobs ->
  exists outs shows, Forall2 (fun j out => print_text u no_special (pr_skin j) um (pr_text j) (pr_size j) = Ret out) jobs outs /\ Forall2 well_laid jobs shows
  /\ forall r, let y := t_y (r_paper r) in let n := sum (map sh_rows shows) in t_x (r_paper r) = 0 -> t_pen (r_paper r) = pen0 -> blank_from (r_paper r) y -> r_top r <= y < r_top r + h ->
     let r' := roll_run u W h r (concat outs) in
     r_top r' = Nat.max (r_top r) (y + n + 1 - h) /\ t_x (screen_of r') = 0 /\ t_y (screen_of r') = y + n - r_top r' /\ t_y (screen_of r') < h
     /\ forall n j s i l p, nth_error jobs n = Some j -> nth_error shows n = Some s -> nth_error (pr_text j) i = Some l -> nth_error (sh_laid s) i = Some p ->
        let row := y + sum (map sh_rows (firstn n shows)) + sum (map l_rows (firstn i (sh_laid s))) in r_top r' <= row ->
        reads_line u (pr_skin j) (screen_of r') p l 0 (row - r_top r') (pr_width j).
Proof.
  intros u um W h jobs Wh El H. destruct (@C109_session u um W jobs Wh El H) as (outs & shows & A & B & C). exists outs, shows. split; [exact A|]. split; [exact B|]. intros r y n X P Bl L r'.
  destruct (C (r_paper r) X P Bl) as (C1 & C2 & _ & _ & C5). cbv zeta in *.
  assert (Tx : Forall text_cmd (concat outs)).
  { clear - A H Wh. induction A as [|j o js os E _ IH]; [constructor|]. inversion H as [|? ? H1 H2]; subst. cbn [concat]. apply Forall_app. split; [exact (printed_cmds um Wh H1 E)|exact (IH H2)]. }
  assert (Et : r_top r' = Nat.max (r_top r) (y + n + 1 - h)) by (unfold r'; rewrite roll_top; [rewrite C2; reflexivity|exact Tx|unfold y in L; lia]).
  assert (Er : r_paper r' = paper_run u W (r_paper r) (concat outs)) by apply roll_paper.
  split; [exact Et|]. unfold screen_of at 1 2 3. cbn [t_x t_y]. rewrite Er, C1, C2. split; [reflexivity|]. split; [reflexivity|]. split; [fold y n; lia|].
  intros n' j s i l p Hj Hs Hi Hp Lr. apply reads_line_screen. rewrite Er, Nat.add_comm, Nat.sub_add by exact Lr. destruct (C5 n' j s Hj Hs) as (Q & _). exact (Q i l p Hi Hp).
Qed.
Print Assumptions C109_screen.

(** ** Two texts, for different widths, printed on a terminal of 20 columns and 5 rows *)
Definition session_jobs : list printing := [mkPrinting skin_default look_text (Some (17, 12)%N); mkPrinting skin_default [MNormal (mkMC MQuote [mkCompound (letters 2) true false false false])] (Some (19, 5)%N)].
Definition session_seen : option (list (list (char * pen)) * nat * list str) :=
  match map (fun j => print_text demo no_special (pr_skin j) 1000 (pr_text j) (pr_size j)) session_jobs with
  | [Ret a; Ret b] => let r := roll_run demo 20 5 (mkRoll blue_term 0) (a ++ b) in
     Some (map (fun y => look_row (r_paper r) 0 y 20) [2; 3; 9; 10], r_top r, map (fun y => visible demo (read_row (screen_of r) 0 y 20)) (seq 0 5))
  | _ => None
  end.
Example C109_example : is_white demo 32%N = true /\ ellipsis_seen demo /\ Forall (printing_ok demo 20) session_jobs
  /\ t_x blue_term = 0 /\ t_pen blue_term = pen0 /\ blank_from blue_term 3
  /\ let bold := mkPen Reset Reset 4 in let blank := (32%N, pen0) in let kept := (32%N, mkPen Reset (AnsiValue 17) 0) in
     session_seen = Some ([repeat kept 20; repeat (97%N, pen0) 6 ++ [blank] ++ repeat (98%N, bold) 5 ++ [(32%N, bold)] ++ repeat kept 7;
                           [(9616%N, mkPen (AnsiValue 244) Reset 4); blank; (97%N, bold); (97%N, bold)] ++ repeat kept 16; repeat kept 20],
                          6, [[98; 98]%N; [99]%N; [9474; 97; 9474; 98; 98; 9474]%N; [9616; 97; 97]%N; []]).
Proof.
  destruct C108_example as (X1 & X2 & X3 & X4 & X5 & X6 & X7 & X8 & X9 & _).
  split; [exact X3|]. split; [exact X5|]. split.
  { constructor; [|constructor; [|constructor]]; (split; [exact X1|]); (split; [vm_compute; lia|]).
    - split; [exact X2|]. split; [exact X4|exact X6].
    - split; [|split].
      + change (pr_width _) with 19. constructor; [|constructor]. split; [split; [discriminate|exact I]|]. intros lm rm (ls & El & Em). destruct (default_margins _ El) as [E1 E2].
        unfold margins_in in Em. rewrite E1, E2 in Em. cbn in Em. injection Em as <- <-. split; [vm_compute; lia|discriminate].
      + split; [exact (proj1 X4)|]. intros mc c M C. cbn in M. destruct M as [<-|[]]. cbn in C. destruct C as [<-|[]]. cbn. intros [H|[H|[]]]; discriminate.
      + constructor; [|constructor]. cbn. intros [H|[H|[]]]; discriminate. }
  split; [exact X7|]. split; [exact X8|]. split; [exact X9|]. vm_compute. reflexivity.
Qed.
