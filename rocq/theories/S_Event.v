(** * Specification of the event source: what is delivered, from what is read *)
From Verif Require Import Base M_View M_Content M_Input M_Event.
Set Implicit Arguments.
Open Scope nat_scope.

(** ** The escape sequences of a stream *)

(** alt-_ and alt-\, the alternate modifier being the bit 2 *)
Definition alt_underscore (k : KeyEvent) : Prop := k_code k = KChar 95 /\ k_mods k = 4%N.
Definition alt_backslash (k : KeyEvent) : Prop := k_code k = KChar 92 /\ k_mods k = 4%N.
(** without control (bit 1) nor alt (bit 2) *)
Definition plain (k : KeyEvent) : Prop := N.testbit (k_mods k) 1 = false /\ N.testbit (k_mods k) 2 = false.
(** [e] can't continue nor end a sequence *)
Definition breaks (e : TermEvent) : Prop := forall k, e = TKey k -> ~ plain k /\ ~ alt_backslash k.

(** A run of keys which is an escape sequence *)
Definition is_sequence (keys : list KeyEvent) : Prop :=
  exists a inner z, keys = a :: inner ++ [z] /\ alt_underscore a /\ Forall plain inner /\ alt_backslash z.

(** The stream is cut in sequences and in single events; the last component is the start of a sequence
    whose end isn't yet known *)
Inductive item := ISeq (keys : list KeyEvent) | ISingle (e : TermEvent).
Definition item_events (i : item) : list TermEvent := match i with ISeq keys => map TKey keys | ISingle e => [e] end.
Inductive cut : list TermEvent -> list item -> list KeyEvent -> Prop :=
| cut_nil : cut [] [] []
| cut_open a inner : alt_underscore a -> Forall plain inner -> cut (map TKey (a :: inner)) [] (a :: inner)
| cut_seq keys rest items p : is_sequence keys -> cut rest items p -> cut (map TKey keys ++ rest) (ISeq keys :: items) p
| cut_broken a inner e rest items p : alt_underscore a -> Forall plain inner -> breaks e -> cut rest items p ->
    cut (map TKey (a :: inner) ++ e :: rest) (map (fun k => ISingle (TKey k)) (a :: inner) ++ ISingle e :: items) p
| cut_single e rest items p : (forall k, e = TKey k -> ~ alt_underscore k) -> cut rest items p -> cut (e :: rest) (ISingle e :: items) p.

(** ** What must be delivered *)

(** A sequence, or an event with the key combination it completes *)
Inductive out := OutSeq (keys : list KeyEvent) | OutEvent (e : TermEvent) (comb : option KeyComb).
Section Kept.
Context {CS : Type} (transform : CS -> KeyEvent -> CS * option KeyComb) (options : EventSourceOptions).
(** The mouse moves and drags may be discarded, so may be the keys which don't complete a combination *)
Definition kept_mouse (m : MouseEvent) : bool :=
  match m_kind m with MMoved => negb (discard_mouse_move options) | MDrag _ => negb (discard_mouse_drag options) | _ => true end.
Fixpoint kept (c : CS) (items : list item) : list out :=
  match items with
  | [] => []
  | ISeq keys :: r => OutSeq keys :: kept c r
  | ISingle (TKey k) :: r =>
    let (c', comb) := transform c k in
    match comb with
    | None => if discard_raw_key_events options then kept c' r else OutEvent (TKey k) None :: kept c' r
    | _ => OutEvent (TKey k) comb :: kept c' r
    end
  | ISingle (TMouse m) :: r => if kept_mouse m then OutEvent (TMouse m) None :: kept c r else kept c r
  | ISingle e :: r => OutEvent e None :: kept c r
  end.
End Kept.

(** ** What is observed *)

Definition reads_of (os : list obs) : list TermEvent := flat_map (fun o => match o with ORead e => [e] | _ => [] end) os.
(** the events put on the channel, and those received *)
Definition sent_of (os : list obs) : list TimedEvent := flat_map (fun o => match o with OSent t => [t] | _ => [] end) os.
Definition got_of (os : list obs) : list TimedEvent := flat_map (fun o => match o with OGot t => [t] | _ => [] end) os.
(** the sequences put on the channel, and those received *)
Definition seqs_of (os : list obs) : list (list KeyEvent) := flat_map (fun o => match o with OSeq q => [q] | _ => [] end) os.
Definition gotseqs_of (os : list obs) : list (list KeyEvent) := flat_map (fun o => match o with OGotSeq q => [q] | _ => [] end) os.
Definition unblocks_of (os : list obs) : list bool := flat_map (fun o => match o with OUnblock b => [b] | _ => [] end) os.
(** the deliveries, in order, those which failed included *)
Definition outs_of (os : list obs) : list out :=
  flat_map (fun o => match o with
    | OSent t | OBroken t => [OutEvent (te_event t) (key_combination t)]
    | OSeq q | OSeqLost q => [OutSeq q]
    | _ => [] end) os.
(** no delivery failed *)
Definition nothing_lost (os : list obs) : Prop := forall o, In o os -> match o with OBroken _ | OSeqLost _ => False | _ => True end.

(** ** Double clicks *)

Definition left_press (t : TimedEvent) (x y : N) : Prop :=
  exists mods, te_event t = TMouse (mkMouse (MDown BLeft) x y mods).
Definition left_release (t : TimedEvent) (x y : N) : Prop :=
  exists mods, te_event t = TMouse (mkMouse (MUp BLeft) x y mods).
(** [t] is the last left release of the list *)
Definition last_release (l : list TimedEvent) (t : TimedEvent) (x y : N) : Prop :=
  exists a b, l = a ++ t :: b /\ left_release t x y /\ forall t' x' y', In t' b -> ~ left_release t' x' y'.
(** [t], delivered after [before], is the second click of a double click *)
Definition second_click (before : list TimedEvent) (t : TimedEvent) : Prop :=
  exists x y t0, (left_press t x y \/ left_release t x y) /\ last_release before t0 x y /\ (te_time t < te_time t0 + 700000000)%N.

(** ** The protocol: [unblock] is called once for each received event *)
Definition answers (os : list obs) : Prop :=
  forall a b c, os = a ++ OUnblock b :: c -> length (unblocks_of a) < length (got_of a).
(** the deliveries which didn't fail *)
Definition delivered_of (os : list obs) : list out :=
  flat_map (fun o => match o with
    | OSent t => [OutEvent (te_event t) (key_combination t)]
    | OSeq q => [OutSeq q]
    | _ => [] end) os.
