(** * Specification of the ticks *)
From Verif Require Import Base M_Tick.
Set Implicit Arguments.
Open Scope nat_scope.

Section Spec.
Context {P : Type}.
(** The times at which a beam sent a tick, with or without receiver *)
Definition sent_by (i : nat) (os : list (obs P)) : list N :=
  flat_map (fun o => match o with OTick j _ t | OTickLost j _ t => if Nat.eqb i j then [t] else [] | _ => [] end) os.
(** The ticks put on the channel by a beam *)
Definition ticks_by (i : nat) (os : list (obs P)) : list P :=
  flat_map (fun o => match o with OTick j p _ => if Nat.eqb i j then [p] else [] | _ => [] end) os.
Definition all_ticks (os : list (obs P)) : list P := flat_map (fun o => match o with OTick _ p _ => [p] | _ => [] end) os.
Definition received (os : list (obs P)) : list P := flat_map (fun o => match o with OGot p => [p] | _ => [] end) os.
Definition started_ids (os : list (obs P)) : list nat := flat_map (fun o => match o with OStarted id _ _ => [id] | _ => [] end) os.
(** Nothing in these steps stops the beam *)
Definition not_stopped (i : nat) (ls : list (label P)) : Prop := ~ In (LStop i) ls /\ ~ In LStopAll ls.
(** Only the time and the thread of the beam *)
Definition only_beam (i : nat) (ls : list (label P)) : Prop := forall l, In l ls -> l = LBeam i \/ exists d, l = LTime d.
Definition ended (k : ticker P) (i : nat) : Prop := exists t, nth_error (threads k) i = Some t /\ t_pc t = BEnd.
Definition steps_of (i : nat) (ls : list (label P)) : nat :=
  length (flat_map (fun l => match l with LBeam j => if Nat.eqb i j then [tt] else [] | _ => [] end) ls).
End Spec.
