(** * Vocabulary for skins which are saved and loaded several times *)
From Coq Require Import Permutation.
From Verif Require Import Base M_Style M_Parse M_Serde S_Serde.
Set Implicit Arguments.

(** The skin [b] is loaded from a file in which [a] was saved, whatever the order of the entries in this file *)
Definition reload (k : classes) (a b : FullSkin) : Prop :=
  exists entries l, ser_skin a = VMap entries /\ Permutation entries l /\ de_skin k (VMap l) = Some b.

(** Loading what's saved from it gives the same skin, always *)
Definition settled (k : classes) (a : FullSkin) : Prop := reload k a a /\ forall b, reload k a b -> b = a.
