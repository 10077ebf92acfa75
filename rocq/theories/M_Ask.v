(** * Model of the questions: src/ask.rs

    The standard input is what is still to be read from it: chars, and failures of the reading (an io error, or bytes which aren't
    UTF-8). When nothing remains, the end of the input is reached, and it's reached again at each following read.
    What is printed is kept as a trace: the texts given to [MadSkin::print_text], the keys given to the inline templates and the
    rejected inputs. How those texts are rendered isn't part of this model (see M_Render and M_Text). *)
From Verif Require Import Base.
Set Implicit Arguments.
Open Scope nat_scope.

(** src/ask.rs 18-21 *)
Record Answer := mkAnswer { a_key : str; a_md : str }.
(** src/ask.rs 11-15 *)
Record Question := mkQuestion { q_md : option str; q_answers : list Answer; q_default : option str }.

(** src/ask.rs 25-31 *)
Definition question_new (md : str) : Question := mkQuestion (Some md) [] None.
(** src/ask.rs 37-42; [K::to_string] is applied before *)
Definition add_answer (q : Question) (key md : str) : Question :=
  mkQuestion (q_md q) (q_answers q ++ [mkAnswer key md]) (q_default q).
(** src/ask.rs 48-50 *)
Definition set_default (q : Question) (d : str) : Question := mkQuestion (q_md q) (q_answers q) (Some d).

(** equality of String *)
Fixpoint str_eqb (a b : str) : bool :=
  match a, b with
  | [], [] => true
  | x :: a, y :: b => N.eqb x y && str_eqb a b
  | _, _ => false
  end.

(** src/ask.rs 53-64 *)
Definition has_exotic_default (q : Question) : bool :=
  match q_default q with
  | Some da =>
    (fix go (l : list Answer) : bool :=
       match l with
       | [] => true
       | a :: r => if str_eqb (a_key a) da then false else go r
       end) (q_answers q)
  | None => false
  end.

(** What remains of the standard input *)
Inductive input := IChar (c : char) | IFail.

(** std::io::Stdin::read_line: the chars up to the first line feed, included, or up to the end. None when the reading fails. *)
Fixpoint read_line (s : list input) : option str * list input :=
  match s with
  | [] => (Some [], [])
  | IFail :: r => (None, r)
  | IChar c :: r =>
    if N.eqb c 10 then (Some [c], r)
    else let (l, r') := read_line r in (match l with Some l => Some (c :: l) | None => None end, r')
  end.

(** str::trim_end, used with String::truncate src/ask.rs 86 *)
Fixpoint trim_end (u : unicode) (s : str) : str :=
  match s with
  | [] => []
  | c :: r => match trim_end u r with [] => if is_white u c then [] else [c] | t => c :: t end
  end.

(** What is printed *)
Inductive printed := PText (md : str) | PKey (bold : bool) (key : str) | PNotUnderstood (input : str).

(** src/ask.rs 72-82 *)
Definition prompt (q : Question) : list printed :=
  (match q_md q with Some md => [PText md] | None => [] end)
  ++ flat_map (fun a =>
       [PKey (match q_default q with Some d => str_eqb d (a_key a) | None => false end) (a_key a); PText (a_md a)]) (q_answers q).

(** io::Result<String> *)
Inductive answered := AOk (key : str) | AErr.

(** src/ask.rs 87-96: what is returned for an input, if something is *)
Definition attempt (q : Question) (input : str) : option str :=
  match input, q_default q with
  | [], Some da => Some da
  | _, _ =>
    (fix go (l : list Answer) : option str :=
       match l with
       | [] => None
       | a :: r => if str_eqb (a_key a) input then Some input else go r
       end) (q_answers q)
  end.

(** src/ask.rs 83-98, at most [fuel] turns of the loop: None when they aren't enough *)
Fixpoint ask_loop (u : unicode) (fuel : nat) (q : Question) (s : list input) : option (answered * list printed * list input) :=
  match fuel with
  | 0 => None
  | S fuel =>
    let (line, s') := read_line s in
    match line with
    | None => Some (AErr, [], s')
    | Some line =>
      let input := trim_end u line in
      match attempt q input with
      | Some key => Some (AOk key, [], s')
      | None =>
        match ask_loop u fuel q s' with
        | Some (r, out, s'') => Some (r, PNotUnderstood input :: out, s'')
        | None => None
        end
      end
    end
  end.

(** src/ask.rs 71-99 *)
Definition ask (u : unicode) (fuel : nat) (q : Question) (s : list input) : option (answered * list printed * list input) :=
  match ask_loop u fuel q s with
  | Some (r, out, s') => Some (r, prompt q ++ out, s')
  | None => None
  end.

(** The ask! macro, src/ask.rs 147-191: the block which is executed, by its index, or a panic. *)
Inductive chosen := CBlock (i : nat) | CExotic | CUnwrap | CUnreachable.
(** src/ask.rs 159-165 and 183-189: the arms compare the key with the next answer *)
Fixpoint arms (key : str) (answers : list Answer) (i : nat) : chosen :=
  match answers with
  | [] => CUnreachable
  | a :: r => if str_eqb (a_key a) key then CBlock i else arms key r (S i)
  end.
Definition ask_macro (u : unicode) (fuel : nat) (md : str) (default : option str) (answers : list Answer) (s : list input) : option (chosen * list input) :=
  let q := mkQuestion (Some md) answers default in
  if has_exotic_default q then Some (CExotic, s)
  else
    match ask u fuel q s with
    | None => None
    | Some (AErr, _, s') => Some (CUnwrap, s')
    | Some (AOk key, _, s') => Some (arms key answers 0, s')
    end.
