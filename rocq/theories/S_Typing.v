(** * Vocabulary for C96: from the keyboard to the text of a field *)
From Verif Require Import Base M_View M_Content M_Input M_Event S_Event S_Content S_Editor.
Set Implicit Arguments.
Open Scope nat_scope.

(** The event, as the field sees it *)
Definition seen_event (e : TermEvent) : Event :=
  match e with TKey k => EKey (k_code k) (k_mods k) | TMouse m => EMouse m | TResize w h => EResize w h | TFocus b => EFocus b | TPaste s => EPaste s end.
(** An application which gives the field all the events it receives *)
Definition given (ts : list TimedEvent) : list if_op := map (fun t => IfEvent (seen_event (te_event t)) (double_click t)) ts.

(** The keys, out of the ones with other modifiers than shift. With shift, only the ones which don't select. No mouse. *)
Definition no_selecting (e : TermEvent) : Prop :=
  match e with
  | TMouse _ => False
  | TKey k => k_mods k = 1%N -> match k_code k with KChar _ | KBackspace | KDelete => True | _ => False end
  | _ => True
  end.
Definition keys_of (e : TermEvent) : list KeyCode :=
  match e with TKey k => if N.leb (k_mods k) 1 then [k_code k] else [] | _ => [] end.
Definition out_keys (o : out) : list KeyCode := match o with OutEvent e _ => keys_of e | OutSeq _ => [] end.
(** The keys of the stream which aren't in an escape sequence and are taken *)
Definition item_keys (take : KeyEvent -> bool) (i : item) : list KeyCode :=
  match i with ISingle (TKey k) => if take k then keys_of (TKey k) else [] | _ => [] end.
(** The keys which complete a combination are known, whatever the other ones: for example the ones which aren't released. Without discarding, all are taken. *)
Definition takes {CS} (transform : CS -> KeyEvent -> CS * option KeyComb) (options : EventSourceOptions) (take : KeyEvent -> bool) (k : KeyEvent) : Prop :=
  if discard_raw_key_events options then forall c, snd (transform c k) <> None <-> take k = true else take k = true.
(** A char typed on a keyboard *)
Definition key_char (ch : char) (k : KeyEvent) : Prop := k_code k = KChar ch /\ (k_mods k = 0 \/ k_mods k = 1)%N.
