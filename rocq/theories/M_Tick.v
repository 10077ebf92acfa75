(** * Model of src/events/tick_beam.rs

    The ticker and the threads of its beams are processes which communicate by channels. As for the event source, an execution is
    a list of labels, each one a step of one process, in any interleaving; [step] is [None] when the step can't be done
    (the process is blocked, or isn't there). Time is a global clock, moved by its own label. *)
From Verif Require Import Base.
Set Implicit Arguments.
Open Scope nat_scope.

Section Ticker.
Context {P : Type}.

(** src/events/tick_beam.rs:20-24 *)
Record TickBeam := mkBeam { remaining_count : option nat; period : N; payload : P }.
(** src/events/tick_beam.rs:14-17; the sender is known by the thread which has the receiver *)
Record TickBeamHandle := mkHandle { h_id : nat; h_chan : nat }.

(** Where the thread of a beam is *)
Inductive bpc :=
| BLoop                    (* start of the loop, line 83 *)
| BWait (deadline : N)     (* in [recv_timeout], line 90 *)
| BSend                    (* before [send], line 94 *)
| BEnd.                    (* it returned *)
(** The thread, and its interrupt channel: the number of messages, and whether the sender is alive *)
Record thread := mkThread { t_mission : TickBeam; t_left : option nat; t_pc : bpc; t_msgs : nat; t_tx : bool }.

(** src/events/tick_beam.rs:34-39; [stopping] is what's left to do of a call of [stop_all_beams] *)
Record ticker := mkTicker {
  next_id : nat;
  beams : list TickBeamHandle;
  threads : list thread;
  ticks : list P;      (* the channel of ticks *)
  tick_rx : bool;      (* it has a receiver *)
  stopping : option (list TickBeamHandle);
  clock : N
}.
(** src/events/tick_beam.rs:48-56 *)
Definition ticker_new : ticker := mkTicker 0 [] [] [] true None 0.

Definition set_threads (k : ticker) (l : list thread) : ticker :=
  mkTicker (next_id k) (beams k) l (ticks k) (tick_rx k) (stopping k) (clock k).
Definition set_beams (k : ticker) (l : list TickBeamHandle) (st : option (list TickBeamHandle)) : ticker :=
  mkTicker (next_id k) l (threads k) (ticks k) (tick_rx k) st (clock k).
Definition set_ticks (k : ticker) (l : list P) (rx : bool) : ticker :=
  mkTicker (next_id k) (beams k) (threads k) l rx (stopping k) (clock k).

Inductive label :=
| LStart (m : TickBeam)      (* [start_beam] *)
| LStop (id : nat)           (* [stop_beam] *)
| LStopAll                   (* [stop_all_beams] starts *)
| LStopNext                  (* one turn of its loop, or its end *)
| LBeam (i : nat)            (* a step of the thread of a beam *)
| LTime (d : N)              (* the time passes *)
| LRecv                      (* a tick is received *)
| LDropRx.                   (* the receivers are dropped *)
Inductive obs :=
| OStarted (id : nat) (m : TickBeam) (now : N) | OStopped (id : nat) | OStoppedAll
| OTick (i : nat) (p : P) (now : N) (* the beam sends a tick *)
| OTickLost (i : nat) (p : P) (now : N) (* the same without receiver *)
| OGot (p : P).

(** [Vec::swap_remove] of an existing index *)
Definition swap_remove {A} (l : list A) (i : nat) : list A :=
  match rev l with
  | [] => []
  | last :: r => if i =? length r then rev r else set_nth i last (rev r)
  end.
(** [iter().position] *)
Fixpoint position {A} (f : A -> bool) (l : list A) : option nat :=
  match l with [] => None | x :: r => if f x then Some 0 else option_map S (position f r) end.

(** src/events/tick_beam.rs:42-44: the sender sends, then is dropped. The channel has one place: [None] is blocked.
    There's an error, ignored, when the thread returned. *)
Definition handle_stop (k : ticker) (h : TickBeamHandle) : option ticker :=
  match nth_error (threads k) (h_chan h) with
  | None => None
  | Some t =>
    match t_pc t with
    | BEnd => Some (set_threads k (set_nth (h_chan h) (mkThread (t_mission t) (t_left t) (t_pc t) (t_msgs t) false) (threads k)))
    | _ =>
      if t_msgs t <? 1 then Some (set_threads k (set_nth (h_chan h) (mkThread (t_mission t) (t_left t) (t_pc t) (S (t_msgs t)) false) (threads k)))
      else None
    end
  end.

(** src/events/tick_beam.rs:64-69 *)
Definition stop_beam (k : ticker) (id : nat) : option ticker :=
  match position (fun h => h_id h =? id) (beams k) with
  | Some i =>
    match nth_error (beams k) i with
    | Some h => handle_stop (set_beams k (swap_remove (beams k) i) (stopping k)) h
    | None => None
    end
  | None => Some k
  end.

(** src/events/tick_beam.rs:76-102 *)
Definition start_beam (k : ticker) (m : TickBeam) : ticker :=
  mkTicker (S (next_id k)) (beams k ++ [mkHandle (next_id k) (length (threads k))])
    (threads k ++ [mkThread m (remaining_count m) BLoop 0 true]) (ticks k) (tick_rx k) (stopping k) (clock k).

(** src/events/tick_beam.rs:83-95: a step of the loop *)
Definition beam_step (k : ticker) (i : nat) : option (ticker * list obs) :=
  match nth_error (threads k) i with
  | None => None
  | Some t =>
    let go left pc msgs := set_threads k (set_nth i (mkThread (t_mission t) left pc msgs (t_tx t)) (threads k)) in
    match t_pc t with
    | BLoop =>
      match t_left t with
      | Some 0 => Some (go (t_left t) BEnd (t_msgs t), [])
      | Some (S n) => Some (go (Some n) (BWait (clock k + period (t_mission t))%N) (t_msgs t), [])
      | None => Some (go None (BWait (clock k + period (t_mission t))%N) (t_msgs t), [])
      end
    | BWait deadline =>
      match t_msgs t with
      | S n => Some (go (t_left t) BEnd n, [])
      | 0 => if negb (t_tx t) || N.leb deadline (clock k) then Some (go (t_left t) BSend 0, []) else None
      end
    | BSend =>
      let k' := go (t_left t) BLoop (t_msgs t) in
      let p := payload (t_mission t) in
      if tick_rx k then Some (set_ticks k' (ticks k ++ [p]) true, [OTick i p (clock k)])
      else Some (k', [OTickLost i p (clock k)])
    | BEnd => None
    end
  end.

Definition step (k : ticker) (l : label) : option (ticker * list obs) :=
  match l with
  | LStart m => match stopping k with None => Some (start_beam k m, [OStarted (next_id k) m (clock k)]) | Some _ => None end
  | LStop id =>
    match stopping k with
    | None => option_map (fun k' => (k', [OStopped id])) (stop_beam k id)
    | Some _ => None
    end
  | LStopAll => (* src/events/tick_beam.rs:58-62 *)
    match stopping k with None => Some (set_beams k [] (Some (beams k)), []) | Some _ => None end
  | LStopNext =>
    match stopping k with
    | None => None
    | Some [] => Some (set_beams k (beams k) None, [OStoppedAll])
    | Some (h :: r) => option_map (fun k' => (k', [])) (handle_stop (set_beams k (beams k) (Some r)) h)
    end
  | LBeam i => beam_step k i
  | LTime d => Some (mkTicker (next_id k) (beams k) (threads k) (ticks k) (tick_rx k) (stopping k) (clock k + d)%N, [])
  | LRecv => if tick_rx k then match ticks k with p :: r => Some (set_ticks k r true, [OGot p]) | [] => None end else None
  | LDropRx => Some (set_ticks k (ticks k) false, [])
  end.

Fixpoint run (k : ticker) (ls : list label) : option (ticker * list obs) :=
  match ls with
  | [] => Some (k, [])
  | l :: ls =>
    match step k l with
    | Some (k', os) => match run k' ls with Some (k'', os') => Some (k'', os ++ os') | None => None end
    | None => None
    end
  end.

(** src/events/tick_beam.rs:104-110 *)
Definition tick_once (p : P) (after : N) : TickBeam := mkBeam (Some 1) after p.
(** src/events/tick_beam.rs:114-120 *)
Definition tick_several_times (p : P) (d : N) (count : nat) : TickBeam := mkBeam (Some count) d p.
(** src/events/tick_beam.rs:122-128 *)
Definition tick_infinitely (p : P) (d : N) : TickBeam := mkBeam None d p.
End Ticker.
Arguments TickBeam : clear implicits.
Arguments ticker : clear implicits.
Arguments label : clear implicits.
Arguments obs : clear implicits.
