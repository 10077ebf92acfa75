(** * Vocabulary for C120: a question and what is answered, on the terminal *)
From Verif Require Import Base M_Style M_Text M_View S_View M_Render S_Render M_Area S_Pen S_Paint S_Read S_Paper M_Ask M_Prompt S_Ask.
Set Implicit Arguments.
Open Scope nat_scope.

(** What comes on the terminal: what the program prints, and the lines the user types, which the terminal shows as they're typed *)
Inductive spoken := Said (p : printed) | Typed (l : str).
(** The program reads the lines [ls] and prints [out]: a line comes before the message which tells it's not understood; after all the messages comes the next line *)
Fixpoint dialog (out : list printed) (ls : list str) : list spoken :=
  match out, ls with
  | PNotUnderstood x :: out, l :: ls => Typed l :: Said (PNotUnderstood x) :: dialog out ls
  | p :: out, ls => Said p :: dialog out ls
  | [], l :: _ => [Typed l]
  | [], [] => []
  end.
Fixpoint speak (print : printed -> outcome (list cmd)) (d : list spoken) : outcome (list cmd) :=
  match d with
  | [] => Ret []
  | Said p :: d => out <- print p ;; rest <- speak print d ;; Ret (out ++ rest)
  | Typed l :: d => rest <- speak print d ;; Ret (Print l :: rest)
  end.
(** A line which ends with the enter key, and is shorter than the terminal *)
Definition entered (u : unicode) (w : nat) (l b : str) : Prop := l = b ++ [10%N] /\ ~ In 10%N b /\ sumw (chw u) b <= w.
(** The message for an answer which isn't understood: "answer ... not understood" *)
Definition misunderstood (shown : str) : str :=
  ([97; 110; 115; 119; 101; 114; 32] ++ shown ++ [32; 110; 111; 116; 32; 117; 110; 100; 101; 114; 115; 116; 111; 111; 100])%N.
(** The row [y] has the text [s] from its first column, and nothing else *)
Definition row_reads (u : unicode) (t : term) (w y : nat) (s : str) : Prop := read_row t 0 y w = placed_chars u s ++ repeat 32%N (w - sumw (chw u) s).
