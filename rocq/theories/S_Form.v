(** * Vocabulary for C121: several fields which receive the same events *)
From Verif Require Import Base M_View S_View M_Content M_Input M_Event S_Event S_Input S_Input2 S_Typing.
Set Implicit Arguments.
Open Scope nat_scope.

(** Each field receives the event *)
Fixpoint give (u : unicode) (fs : list InputField) (t : TimedEvent) : outcome (list InputField) :=
  match fs with
  | [] => Ret []
  | f :: r => '(f', _) <- apply_timed_event u f (seen_event (te_event t)) (double_click t) ;; r' <- give u r t ;; Ret (f' :: r')
  end.
(** The fields receive the event in turn, until one of them answers it's for it *)
Fixpoint give_first (u : unicode) (fs : list InputField) (t : TimedEvent) : outcome (list InputField) :=
  match fs with
  | [] => Ret []
  | f :: r =>
      '(f', b) <- apply_timed_event u f (seen_event (te_event t)) (double_click t) ;;
      if b then Ret (f' :: r) else r' <- give_first u r t ;; Ret (f' :: r')
  end.
(** The left button is pressed in the area *)
Definition pressed_in (t : TimedEvent) (a : Area) : bool :=
  match te_event t with
  | TMouse e => match m_kind e with
      | MDown BLeft => (a_left a <=? m_column e)%N && (m_column e <? a_left a + a_width a)%N && (a_top a <=? m_row e)%N && (m_row e <? a_top a + a_height a)%N
      | _ => false
      end
  | _ => false
  end.
(** The index of the field in which the button is pressed *)
Fixpoint target (fs : list InputField) (t : TimedEvent) : option nat :=
  match fs with
  | [] => None
  | f :: r => if pressed_in t (if_area f) then Some 0 else option_map S (target r t)
  end.
(** An application tells all the fields but the one of index [i] that they don't have the focus; [j] is the index of the first one *)
Fixpoint unfocus (u : unicode) (i j : nat) (fs : list InputField) : outcome (list InputField) :=
  match fs with
  | [] => Ret []
  | f :: r => f' <- (if j =? i then Ret f else set_focus u f false) ;; r' <- unfocus u i (S j) r ;; Ret (f' :: r')
  end.
(** The application of a form: all the fields receive all the events; when the button is pressed in a field, the other ones lose the focus *)
Fixpoint form (u : unicode) (fs : list InputField) (ts : list TimedEvent) : outcome (list InputField) :=
  match ts with
  | [] => Ret fs
  | t :: r =>
      fs1 <- give u fs t ;;
      fs2 <- match target fs t with Some i => unfocus u i 0 fs1 | None => Ret fs1 end ;;
      form u fs2 r
  end.
(** The same application, which gives the event to the fields until one of them takes it *)
Fixpoint form_first (u : unicode) (fs : list InputField) (ts : list TimedEvent) : outcome (list InputField) :=
  match ts with
  | [] => Ret fs
  | t :: r =>
      fs1 <- give_first u fs t ;;
      fs2 <- match target fs t with Some i => unfocus u i 0 fs1 | None => Ret fs1 end ;;
      form_first u fs2 r
  end.
(** The field which has the focus: the one in which the button was pressed last *)
Definition next_owner (fs : list InputField) (o : option nat) (t : TimedEvent) : option nat := match target fs t with Some i => Some i | None => o end.
Definition owner (fs : list InputField) (o : option nat) (ts : list TimedEvent) : option nat := fold_left (next_owner fs) ts o.
Definition is_owner (o : option nat) (j : nat) : bool := match o with Some i => i =? j | None => false end.
(** What is for the field of index [j]: the events from a press in it to a press in another one *)
Fixpoint share (fs : list InputField) (j : nat) (o : option nat) (ts : list TimedEvent) : list if_op :=
  match ts with
  | [] => []
  | t :: r =>
      let o' := next_owner fs o t in
      (if is_owner o' j then S_Typing.given [t] else if is_owner o j then [IfSetFocus false] else []) ++ share fs j o' r
  end.
(** No cell is in two fields *)
Definition disjoint (fs : list InputField) : Prop :=
  forall i j f g x y, i <> j -> nth_error fs i = Some f -> nth_error fs j = Some g -> cell_in (if_area f) x y -> ~ cell_in (if_area g) x y.
(** The field of index [o] has the focus, and only it *)
Definition focus_is (fs : list InputField) (o : option nat) : Prop := forall j f, nth_error fs j = Some f -> focused f = is_owner o j.
