(** * Model of src/events/event_source.rs, escape_sequence.rs and timed_event.rs

    The thread of the event source and the application are two processes which communicate by three channels and an atomic counter.
    An execution is a list of labels, each label being one step of one of the processes, in any interleaving:
    [step] gives the new state and what is observed, or [None] when the step can't be done in this state.
    - The events which are read and the times given by the clock are in the labels: they are arbitrary.
    - crokey's [Combiner] isn't modelled: it's a state and a transition function on which everything is quantified.
    - The raw mode of the terminal isn't modelled. *)
From Verif Require Import Base M_View M_Content M_Input.
Set Implicit Arguments.
Open Scope nat_scope.

(** ** crossterm's events *)

(** [KeyModifiers] is a bit set, [KeyEventState] isn't modelled *)
Definition CONTROL : N := 2.
Definition ALT : N := 4.
Inductive KeyEventKind := Press | Repeat | Release.
Record KeyEvent := mkKE { k_code : KeyCode; k_mods : N; k_kind : KeyEventKind }.
Inductive TermEvent := TKey (k : KeyEvent) | TMouse (m : MouseEvent) | TResize (w h : N) | TFocus (gained : bool) | TPaste (s : str).

(** src/events/event_source.rs:45 (the unit of time being the nanosecond) *)
Definition DOUBLE_CLICK_MAX_DURATION : N := 700000000.
(** src/events/event_source.rs:46 *)
Definition ESCAPE_SEQUENCE_CHANNEL_SIZE : nat := 10.

(** src/events/event_source.rs:48-52 *)
Record TimedClick := mkClick { c_time : N; c_x : N; c_y : N }.

(** src/events/event_source.rs:54-76; the two other options are for the combiner *)
Record EventSourceOptions := mkOptions { discard_raw_key_events : bool; discard_mouse_move : bool; discard_mouse_drag : bool }.
(** src/events/event_source.rs:98-108 *)
Definition default_options : EventSourceOptions := mkOptions true true false.

(** src/events/timed_event.rs:24-41 *)
Record TimedEvent := mkTE { te_time : N; te_event : TermEvent; double_click : bool; key_combination : option KeyComb }.
(** src/events/timed_event.rs:49-56 *)
Definition te_new (now : N) (e : TermEvent) : TimedEvent := mkTE now e false None.

(** src/events/timed_event.rs:60-70 *)
Definition as_click (t : TimedEvent) : option (N * N) :=
  match te_event t with
  | TMouse (mkMouse (MUp BLeft) column row 0) => if double_click t then None else Some (column, row)
  | _ => None
  end.
(** src/events/timed_event.rs:72-84, [into] being crokey's conversion *)
Definition te_is_key (into : KeyEvent -> KeyComb) (t : TimedEvent) (key : KeyComb) : bool :=
  if match key_combination t with Some k => key_eqb k key | None => false end then true
  else match te_event t with TKey k => key_eqb (into k) key | _ => false end.

(** src/events/event_source.rs:110-112 *)
Definition is_seq_start (k : KeyEvent) : bool := keycode_eqb (k_code k) (KChar 95) && N.eqb (k_mods k) ALT.
(** src/events/event_source.rs:113-115 *)
Definition is_seq_end (k : KeyEvent) : bool := keycode_eqb (k_code k) (KChar 92) && N.eqb (k_mods k) ALT.
(** bitflags' [intersects] *)
Definition intersects (a b : N) : bool := negb (N.eqb (N.land a b) 0).

(** src/events/escape_sequence.rs:24-38 *)
Fixpoint seq_string (keys : list KeyEvent) : str :=
  match keys with
  | [] => []
  | k :: r => match k_code k with KChar c => if N.eqb (k_mods k) 0 then c :: seq_string r else seq_string r | _ => seq_string r end
  end.

Section Source.
Context {CS : Type} (transform : CS -> KeyEvent -> CS * option KeyComb) (options : EventSourceOptions).

(** Where the thread is. What follows a delivery is either the rest of a broken sequence, or a new read. *)
Inductive next := NLoop | NFlush (keys : list KeyEvent) (e : TermEvent).
Inductive pc :=
| PRead                                            (* before [crossterm::event::read], line 171 *)
| PSeq (keys : list KeyEvent)                      (* before [try_send] of a sequence, line 184 *)
| PFlush (keys : list KeyEvent) (e : TermEvent)    (* in the loop of line 201 *)
| PEvent (e : TermEvent)                           (* line 219 *)
| PCount (t : TimedEvent) (n : next)               (* in [send_and_wait], before line 160 *)
| PSend (t : TimedEvent) (n : next)                (* before line 161 *)
| PWait (n : next)                                 (* before the [recv] of line 164 *)
| PDone.                                           (* the thread returned *)

(** Its variables, the channels, the counter, and what's alive on the other side *)
Record source := mkSource {
  s_pc : pc;
  last_up : option TimedClick;
  current_escape_sequence : option (list KeyEvent);
  combiner : CS;
  event_count : N;
  events : list TimedEvent;
  seqs : list (list KeyEvent);
  quits : list bool;
  alive : bool;        (* the [EventSource] isn't dropped *)
  rx_events : bool;    (* the application has a clone of the receiver of events *)
  rx_seqs : bool       (* the application has a clone of the receiver of sequences *)
}.
(** src/events/event_source.rs:141-157 *)
Definition source_init (c : CS) : source := mkSource PRead None None c 0 [] [] [] true false false.

Definition set_pc (s : source) (p : pc) : source :=
  mkSource p (last_up s) (current_escape_sequence s) (combiner s) (event_count s) (events s) (seqs s) (quits s) (alive s) (rx_events s) (rx_seqs s).
Definition set_last_up (s : source) (l : option TimedClick) : source :=
  mkSource (s_pc s) l (current_escape_sequence s) (combiner s) (event_count s) (events s) (seqs s) (quits s) (alive s) (rx_events s) (rx_seqs s).
Definition set_seq (s : source) (q : option (list KeyEvent)) : source :=
  mkSource (s_pc s) (last_up s) q (combiner s) (event_count s) (events s) (seqs s) (quits s) (alive s) (rx_events s) (rx_seqs s).
Definition set_combiner (s : source) (c : CS) : source :=
  mkSource (s_pc s) (last_up s) (current_escape_sequence s) c (event_count s) (events s) (seqs s) (quits s) (alive s) (rx_events s) (rx_seqs s).
Definition set_count (s : source) (n : N) : source :=
  mkSource (s_pc s) (last_up s) (current_escape_sequence s) (combiner s) n (events s) (seqs s) (quits s) (alive s) (rx_events s) (rx_seqs s).
Definition set_events (s : source) (l : list TimedEvent) : source :=
  mkSource (s_pc s) (last_up s) (current_escape_sequence s) (combiner s) (event_count s) l (seqs s) (quits s) (alive s) (rx_events s) (rx_seqs s).
Definition set_seqs (s : source) (l : list (list KeyEvent)) : source :=
  mkSource (s_pc s) (last_up s) (current_escape_sequence s) (combiner s) (event_count s) (events s) l (quits s) (alive s) (rx_events s) (rx_seqs s).
Definition set_quits (s : source) (l : list bool) : source :=
  mkSource (s_pc s) (last_up s) (current_escape_sequence s) (combiner s) (event_count s) (events s) (seqs s) l (alive s) (rx_events s) (rx_seqs s).
Definition set_alive (s : source) (a e q : bool) : source :=
  mkSource (s_pc s) (last_up s) (current_escape_sequence s) (combiner s) (event_count s) (events s) (seqs s) (quits s) a e q.

Inductive label :=
(* the thread *)
| LRead (r : option TermEvent)   (* [crossterm::event::read] returned an event, or an error *)
| LGo (now : N)                  (* the thread does its next step, the clock being at [now] *)
(* the application *)
| LRecv | LRecvSeq               (* receives from a channel *)
| LUnblock (quit : bool)
| LClone | LCloneSeq             (* [receiver], [escape_sequence_receiver] *)
| LDropRx | LDropRxSeq           (* drops its receivers *)
| LDrop.                         (* drops the source *)

Inductive obs :=
| ORead (e : TermEvent)          (* the thread read an event *)
| OSent (t : TimedEvent)         (* the event is put on the channel *)
| OBroken (t : TimedEvent)       (* the channel of events has no receiver any more *)
| OSeq (keys : list KeyEvent)    (* the sequence is put on its channel *)
| OSeqLost (keys : list KeyEvent) (* it's dropped, the channel being full or without receiver *)
| OUnblock (quit : bool)         (* the application called [unblock] *)
| OPanic                         (* and it panicked *)
| OGot (t : TimedEvent) | OGotSeq (keys : list KeyEvent) (* received by the application *)
| OEnd.                          (* the thread returns *)

(** What follows a delivery which isn't the last one *)
Definition goto (s : source) (n : next) : source :=
  match n with NLoop => set_pc s PRead | NFlush keys e => set_pc s (PFlush keys e) end.

(** src/events/event_source.rs:171-218, up to a communication or the end of the iteration *)
Definition on_read (s : source) (e : TermEvent) : source :=
  match current_escape_sequence s with
  | Some keys =>
    match e with
    | TKey key =>
      if is_seq_end key then set_pc (set_seq s None) (PSeq (keys ++ [key]))
      else if negb (intersects (k_mods key) (N.lor ALT CONTROL)) then set_seq s (Some (keys ++ [key]))
      else set_pc (set_seq s None) (PFlush keys e)
    | _ => set_pc (set_seq s None) (PFlush keys e)
    end
  | None =>
    match e with
    | TKey key => if is_seq_start key then set_seq s (Some [key]) else set_pc s (PEvent e)
    | _ => set_pc s (PEvent e)
    end
  end.

(** src/events/event_source.rs:201-210, one turn of the loop *)
Definition on_flush (s : source) (now : N) (keys : list KeyEvent) (e : TermEvent) : source :=
  match keys with
  | [] => set_pc s (PEvent e)
  | key :: keys =>
    let '(c, comb) := transform (combiner s) key in
    let s := set_combiner s c in
    let t := mkTE now (TKey key) false comb in
    if discard_raw_key_events options && match comb with None => true | Some _ => false end then set_pc s (PFlush keys e)
    else set_pc s (PCount t (NFlush keys e))
  end.

(** src/events/event_source.rs:219-228 *)
Definition discarded_mouse (e : TermEvent) : bool :=
  match e with
  | TMouse m =>
    (discard_mouse_move options && match m_kind m with MMoved => true | _ => false end)
    || (discard_mouse_drag options && match m_kind m with MDrag _ => true | _ => false end)
  | _ => false
  end.

(** src/events/event_source.rs:236-261 *)
Definition set_double_click (s : source) (t : TimedEvent) : source * TimedEvent :=
  match te_event t with
  | TMouse m =>
    if match m_kind m with MDown BLeft | MUp BLeft => true | _ => false end then
      let t' := match last_up s with
                | Some l => if N.eqb (m_column m) (c_x l) && N.eqb (m_row m) (c_y l)
                               && N.ltb (te_time t - c_time l) DOUBLE_CLICK_MAX_DURATION
                            then mkTE (te_time t) (te_event t) true (key_combination t) else t
                | None => t
                end in
      (match m_kind m with MUp BLeft => set_last_up s (Some (mkClick (te_time t) (m_column m) (m_row m))) | _ => s end, t')
    else (s, t)
  | _ => (s, t)
  end.

(** src/events/event_source.rs:219-265 *)
Definition on_event (s : source) (now : N) (e : TermEvent) : source :=
  if discarded_mouse e then set_pc s PRead
  else
    let t := te_new now e in
    match e with
    | TKey key =>
      let '(c, comb) := transform (combiner s) key in
      let s := set_combiner s c in
      if discard_raw_key_events options && match comb with None => true | Some _ => false end then set_pc s PRead
      else set_pc s (PCount (mkTE now e false comb) NLoop)
    | _ => let '(s, t) := set_double_click s t in set_pc s (PCount t NLoop)
    end.

(** The next step of the thread *)
Definition go (s : source) (now : N) : option (source * list obs) :=
  match s_pc s with
  | PRead => None
  | PSeq keys => (* lines 184-187: [try_send] *)
    if (length (seqs s) <? ESCAPE_SEQUENCE_CHANNEL_SIZE) && (alive s || rx_seqs s)
    then Some (set_pc (set_seqs s (seqs s ++ [keys])) PRead, [OSeq keys])
    else Some (set_pc s PRead, [OSeqLost keys])
  | PFlush keys e => Some (on_flush s now keys e, [])
  | PEvent e => Some (on_event s now e, [])
  | PCount t n => Some (set_pc (set_count s ((event_count s + 1) mod 2 ^ 64)%N) (PSend t n), [])
  | PSend t n => (* lines 161-162 *)
    if alive s || rx_events s then Some (set_pc (set_events s (events s ++ [t])) (PWait n), [OSent t])
    else Some (set_pc s PDone, [OBroken t; OEnd])
  | PWait n => (* lines 164-167 *)
    match quits s with
    | false :: q => Some (goto (set_quits s q) n, [])
    | true :: q => Some (set_pc (set_quits s q) PDone, [OEnd])
    | [] => if alive s then None else Some (set_pc s PDone, [OEnd])
    end
  | PDone => None
  end.

(** A step of one of the processes *)
Definition step (s : source) (l : label) : option (source * list obs) :=
  match l with
  | LRead r =>
    match s_pc s, r with
    | PRead, Some e => Some (on_read s e, [ORead e])
    | PRead, None => Some (s, [])
    | _, _ => None
    end
  | LGo now => go s now
  | LRecv =>
    if alive s || rx_events s then match events s with t :: r => Some (set_events s r, [OGot t]) | [] => None end else None
  | LRecvSeq =>
    if alive s || rx_seqs s then match seqs s with q :: r => Some (set_seqs s r, [OGotSeq q]) | [] => None end else None
  | LUnblock b => (* src/events/event_source.rs:280-282: fails when the thread has dropped its receiver *)
    if alive s then
      match s_pc s with
      | PDone => Some (s, [OPanic])
      | _ => Some (set_quits s (quits s ++ [b]), [OUnblock b])
      end
    else None
  | LClone => if alive s then Some (set_alive s true true (rx_seqs s), []) else None
  | LCloneSeq => if alive s then Some (set_alive s true (rx_events s) true, []) else None
  | LDropRx => Some (set_alive s (alive s) false (rx_seqs s), [])
  | LDropRxSeq => Some (set_alive s (alive s) (rx_events s) false, [])
  | LDrop => Some (set_alive s false (rx_events s) (rx_seqs s), [])
  end.

(** An execution and all which was observed *)
Fixpoint run (s : source) (ls : list label) : option (source * list obs) :=
  match ls with
  | [] => Some (s, [])
  | l :: ls =>
    match step s l with
    | Some (s', os) => match run s' ls with Some (s'', os') => Some (s'', os ++ os') | None => None end
    | None => None
    end
  end.
End Source.
