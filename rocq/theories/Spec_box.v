(** Closed boxes and counting, independent of the model *)
From Coq Require Import Reals List.
Import ListNotations.
Open Scope R_scope.

(** p is in the closed box: every coordinate between its minimum and maximum *)
Definition in_box (box : list (R * R)) (p : list R) : Prop :=
  length p = length box /\ forall d, (d < length p)%nat ->
    fst (nth d box (0, 0)) <= nth d p 0 <= snd (nth d box (0, 0)).

(** [counts P l n]: exactly n elements of the list satisfy P *)
Inductive counts {A} (P : A -> Prop) : list A -> nat -> Prop :=
| counts_nil : counts P [] 0
| counts_yes x l n : P x -> counts P l n -> counts P (x :: l) (S n)
| counts_no x l n : ~ P x -> counts P l n -> counts P (x :: l) n.
