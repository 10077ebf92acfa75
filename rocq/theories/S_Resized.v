(** * Vocabulary for C115: a text read in a view which is resized *)
From Verif Require Import Base M_Style M_Fit M_Wrap M_TblFit S_Wrap M_Text M_View S_View M_Render M_Area S_Input S_Pen S_Area S_Paint S_Read S_Whole S_Pages S_Look S_Reading P_Render P_View P_Text.
Set Implicit Arguments.
Open Scope nat_scope.

(** The number of lines of a text formatted for a view in an area *)
Definition lines_in (u : unicode) (k : MadSkin) (um : nat) (text : list MLine) (a : Area) : N :=
  match area_text u k um text a with Ret t => N.of_nat (length (txt_lines t)) | _ => 0%N end.
(** The first displayed line after an operation which isn't a resize, the text having [n] lines and the area [h] rows: upwards the view moves as asked, to the first line at most;
    downwards, to the last page at most. A key never makes it move to the other direction. *)
Definition goes (n h s : N) (o : mv_op) : N :=
  let z := asked (Z.of_N h) o in
  if (z <? 0)%Z then Z.to_N (Z.of_N s + z)
  else let s' := N.min (s + Z.to_N z) (max_scroll n h) in match o with MvKey _ => N.max s s' | _ => s' end.
(** The area and the first displayed line. A new width shows the beginning, another resize doesn't move. *)
Definition after (n : Area -> N) (st : Area * N) (o : mv_op) : Area * N :=
  let (a, s) := st in
  match o with
  | MvResize b => (b, if (a_width b =? a_width a)%N then s else 0%N)
  | _ => (a, goes (n a) (a_height a) s o)
  end.
Definition area_of (a : Area) (ops : list mv_op) : Area := fold_left (fun a o => match o with MvResize b => b | _ => a end) ops a.
(** The areas in which the view is drawn *)
Fixpoint drawn_areas (a : Area) (groups : list (list mv_op)) : list Area :=
  match groups with [] => [] | g :: r => area_of a g :: drawn_areas (area_of a g) r end.
(** The operations are possible in the areas they are applied in, and the areas are good ones *)
Fixpoint ops_good (good : Area -> Prop) (a : Area) (ops : list mv_op) : Prop :=
  match ops with
  | [] => True
  | MvResize b :: r => good b /\ ops_good good b r
  | o :: r => mv_op_ok (a_height a) o /\ ops_good good a r
  end.
(** No resize makes the area higher without changing its width *)
Fixpoint not_higher (a : Area) (ops : list mv_op) : Prop :=
  match ops with
  | [] => True
  | MvResize b :: r => (a_width b = a_width a -> (a_height b <= a_height a)%N) /\ not_higher b r
  | _ :: r => not_higher a r
  end.
(** The areas of C112, where the last row of the text would still have a number *)
Definition good_area (u : unicode) (k : MadSkin) (um : nat) (text : list MLine) (a : Area) : Prop :=
  (6 <= a_width a)%N /\ (1 <= a_height a)%N /\ on_screen a /\ margins_not_just k (N.to_nat (a_width a)) /\ Forall (area_source u k (N.to_nat (a_width a) - 1)) text
  /\ (a_top a + a_height a + lines_in u k um text a + 1 < 65536)%N.
(** The places of the lines of a text in a view, as in C112, and their number [n] *)
Definition laid_in (u : unicode) (k : MadSkin) (um : nat) (text : list MLine) (a : Area) (n : nat) (ps : list Laid) (bws : list nat) : Prop :=
  lines_in u k um text a = N.of_nat n /\ length ps = length text /\ length bws = length text /\ Forall (fun p => 1 <= l_rows p) ps /\ sum (map l_rows ps) = n /\ aligned text ps /\ same_blocks text bws.
(** From the line [s], all the lines which are wholly in the area are seen with their looks, beside the scrollbar if there's more to see *)
Definition seen_from (u : unicode) (k : MadSkin) (tm : term) (text : list MLine) (a : Area) (n : nat) (ps : list Laid) (bws : list nat) (s : nat) : Prop :=
  let h := N.to_nat (a_height a) in
  let w := if h <? n then N.to_nat (a_width a) - 1 else N.to_nat (a_width a) in
  (forall i l p bw, nth_error text i = Some l -> nth_error ps i = Some p -> nth_error bws i = Some bw ->
   let first := sum (map l_rows (firstn i ps)) in s <= first -> first + l_rows p <= s + h ->
   looks_line u k tm p bw l (N.to_nat (a_left a)) (N.to_nat (a_top a) + (first - s)) w)
  /\ (h < n -> exists from to, forall j, j < h ->
      look_row tm (N.to_nat (a_left a) + w) (N.to_nat (a_top a) + j) 1
      = [char_look (if (from <=? j) && (j <? to) then thumb (scrollbar k) else track (scrollbar k))]).
