(** What the potentials are, independent of the model *)
From Coq Require Import Reals List.
From Verif Require Import Spec_grid.
Import ListNotations.
Open Scope R_scope.

(** product of x_d ^ i_d *)
Fixpoint monomial (pos : list R) (idx : list nat) : R :=
  match pos, idx with
  | x :: pos', i :: idx' => x ^ i * monomial pos' idx'
  | _, _ => 1
  end.

(** value of the polynomial with the given coefficients (row-major array): the sum of
    c_ijk x^i y^j z^k over all indices *)
Definition polynomial (shape : list nat) (coeffs : list R) (pos : list R) : R :=
  nsum shape (fun idx => entry shape coeffs idx * monomial pos idx).

(** position with another d-th coordinate *)
Fixpoint moved (pos : list R) (d : nat) (t : R) : list R :=
  match pos, d with
  | [], _ => []
  | _ :: p, O => t :: p
  | x :: p, S d' => x :: moved p d' t
  end.

(** force.(d) is minus the partial derivative of energy in direction d at pos, for all d *)
Definition is_minus_gradient (energy : list R -> R) (pos force : list R) : Prop :=
  length force = length pos /\
  forall d, (d < length pos)%nat ->
    derivable_pt_lim (fun t => energy (moved pos d t)) (nth d pos 0) (- nth d force 0).

(** the four exponential terms of the Mueller-Brown potential *)
Definition mb_term1 x y := exp (- (x - 1) ^ 2 - 10 * y ^ 2).
Definition mb_term2 x y := exp (- x ^ 2 - 10 * (y - 1/2) ^ 2).
Definition mb_term3 x y := exp (- (13/2) * (x + 1/2) ^ 2 + 11 * (x + 1/2) * (y - 3/2) - 13/2 * (y - 3/2) ^ 2).
Definition mb_term4 x y := exp (7/10 * (x + 1) ^ 2 + 6/10 * (x + 1) * (y - 1) + 7/10 * (y - 1) ^ 2).
(** the sum in the documentation of the class *)
Definition mb_documented x y : R :=
  -200 * mb_term1 x y - 100 * mb_term2 x y - 170 * mb_term3 x y + 15 * mb_term4 x y.

(** a line of a coefficient file: orders, value, ignored columns *)
Definition file_line := (list nat * R * list R)%type.
Definition orders (l : file_line) : list nat := fst (fst l).
Definition value (l : file_line) : R := snd (fst l).
Definition line_numbers (l : file_line) : list R := map INR (orders l) ++ value l :: snd l.

(** the value listed last for an index *)
Fixpoint listed (lines : list file_line) (idx : list nat) : option R :=
  match lines with
  | [] => None
  | l :: ls => match listed ls idx with
               | Some v => Some v
               | None => if list_eq_dec Nat.eq_dec (orders l) idx then Some (value l) else None
               end
  end.
Definition highest (lines : list file_line) (d : nat) : nat :=
  fold_right Nat.max 0%nat (map (fun l => nth d (orders l) 0%nat) lines).
