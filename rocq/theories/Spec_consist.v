(** Specification of free energies from samples (C99) *)
From Coq Require Import Reals.
From Verif Require Import PyBase.
Open Scope R_scope.

(** Boltzmann weight of an energy *)
Definition weight (kt e : R) : R := exp (- e / kt).

(** The counts agree with the Boltzmann distribution of the energies up to the relative error d:
    |count - N p| <= d N p with N samples in total and the probability p of the bin. *)
Definition samples_within (d kt : R) (energies : list R) (counts : list nat) : Prop :=
  length counts = length energies /\
  exists N, 0 < N /\
  forall i, (i < length energies)%nat ->
    let p := weight kt (nth i energies 0) / fold_right Rplus 0 (map (weight kt) energies) in
    Rabs (INR (nth i counts 0%nat) - N * p) <= d * (N * p).

(** sum of the weights of the bins of a state *)
Fixpoint weight_in (kt : R) (energies : list R) (mask : list bool) : R :=
  match energies, mask with
  | e :: es, b :: bs => (if b then weight kt e else 0) + weight_in kt es bs
  | _, _ => 0
  end.

(** a state with at least one bin *)
Definition some_bin (n : nat) (mask : list bool) : Prop := length mask = n /\ In true mask.

(** largest error of a free energy *)
Definition error_bound (kt d : R) : R := kt * ln ((1 + d) / (1 - d)).
