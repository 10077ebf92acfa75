(** * Vocabulary for C113: how many times a char is in a content *)
From Verif Require Import Base M_Content S_Content.
Set Implicit Arguments.
Open Scope nat_scope.

Definition times (x : char) (s : str) : nat := count_occ N.eq_dec s x.
(** What is typed by an operation *)
Definition supplied (o : cop) : str :=
  match o with
  | OpPushChar ch | OpInsertChar ch => typed [ch]
  | OpInsertNewLine => [c_nl]
  | OpInsertStr s | OpSetStr s => typed s
  | _ => []
  end.
(** Operations which only add what is typed *)
Definition adds (o : cop) : bool :=
  match o with OpPushChar _ | OpInsertChar _ | OpInsertNewLine | OpInsertStr _ => true | _ => false end.
(** Operations which may remove chars *)
Definition removes (o : cop) : bool :=
  match o with OpClear | OpSetStr _ | OpDelLeft | OpDelBelow | OpDelSelection | OpDelWordLeft | OpDelWordRight => true | _ => false end.
