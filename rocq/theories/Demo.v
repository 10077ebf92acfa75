(** * A concrete Unicode oracle, used only in the examples

    It's a simplification of the real functions: CJK chars have width 2, control chars 0, other chars 1. *)
From Verif Require Import Base.

Definition demo_w (c : char) : nat :=
  if N.ltb c 32 then 0 else if N.leb 11904 c && N.leb c 55203 then 2 else 1.

Definition demo : unicode := {|
  chw := demo_w;
  strw := sumw demo_w;
  is_white := fun c => N.eqb c 32 || (N.leb 9 c && N.leb c 13) || N.eqb c 160;
  is_alnum := fun c => (N.leb 48 c && N.leb c 57) || (N.leb 65 c && N.leb c 90)
                       || (N.leb 97 c && N.leb c 122) || N.leb 192 c;
|}.

Lemma demo_additive : additive demo.
Proof. intros s. reflexivity. Qed.
