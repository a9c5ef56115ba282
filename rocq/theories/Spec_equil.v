(** Walkers whose density follows a given weight, independent of the model *)
From Coq Require Import Reals List.
From Verif Require Import Spec_grid Spec_bd.
Import ListNotations.
Open Scope R_scope.

(** kernel density estimate of the walkers at p *)
Definition kde (bw : list R) (positions : list (list R)) (p : list R) : R :=
  average (map (gauss_kernel bw p) positions).

(** the kernel density estimate is proportional to exp(-w_i) at every walker i *)
Definition distributed_as (w : nat -> R) (bw : list R) (positions : list (list R)) : Prop :=
  exists c, 0 < c /\
    forall i, (i < length positions)%nat -> kde bw positions (nth i positions []) = c * exp (- w i).
