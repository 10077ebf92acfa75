(** * Model of what is printed by a question: src/ask.rs, with the rendering of M_Render and M_Area

    [parse] is the parsing of a markdown text by minimad. *)
From Verif Require Import Base M_Style M_Fit M_Wrap M_Text M_View M_Render M_Area M_Ask.
Set Implicit Arguments.
Open Scope nat_scope.

(** The templates of src/ask.rs 77 and 79, the argument having taken its place: the macro [mad_print_inline] of src/macros.rs 17-33. Making the template
    ("[$0] " or "[**$0**] ") and giving its place to the argument are done by minimad, not modelled: three compounds, the second one being the argument *)
Definition key_composite (bold : bool) (key : str) : MComposite :=
  mkMC MParagraph [mkCompound [91%N] false false false false; mkCompound key bold false false false; mkCompound [93%N; 32%N] false false false false].
(** What is printed for one of the [printed]: [print_text] (src/skin.rs 394-396), [print_composite] (src/skin.rs 432-440, the same as [write_composite]
    on stdout), [println!] with the debug form of the input (src/ask.rs 97), here [debug], which isn't modelled *)
Definition print_item (u : unicode) (special : Special) (k : MadSkin) (usize_max : nat) (parse : str -> list MLine) (debug : str -> str) (size : option (N * N)) (p : printed) : outcome (list cmd) :=
  match p with
  | PText md => print_text u special k usize_max (parse md) size
  | PKey b key => write_composite u special k (key_composite b key)
  | PNotUnderstood input => Ret [Print ([97; 110; 115; 119; 101; 114; 32] ++ debug input ++ [32; 110; 111; 116; 32; 117; 110; 100; 101; 114; 115; 116; 111; 111; 100; 10])%N]
  end.
Fixpoint print_items (u : unicode) (special : Special) (k : MadSkin) (usize_max : nat) (parse : str -> list MLine) (debug : str -> str) (size : option (N * N)) (ps : list printed) : outcome (list cmd) :=
  match ps with
  | [] => Ret []
  | p :: r =>
    out <- print_item u special k usize_max parse debug size p ;;
    rest <- print_items u special k usize_max parse debug size r ;;
    Ret (out ++ rest)
  end.
