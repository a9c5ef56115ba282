(** What grids are: independent of the model *)
From Coq Require Import Reals List ZArith.
Import ListNotations.
Open Scope R_scope.

(** valid multi-index *)
Definition in_shape (shape idx : list nat) : Prop := Forall2 (fun n i => (i < n)%nat) shape idx.

Fixpoint size (shape : list nat) : nat :=
  match shape with [] => 1%nat | n :: s => (n * size s)%nat end.

(** position in the flattened array in row-major order: the last index is fastest *)
Fixpoint flat_pos (shape idx : list nat) : nat :=
  match shape, idx with
  | n :: s, i :: is => (i * size s + flat_pos s is)%nat
  | _, _ => 0%nat
  end.

(** coordinate i of n evenly distributed points from lo to hi *)
Definition coordinate (r : R * R) (n i : nat) : R := fst r + INR i * ((snd r - fst r) / (INR n - 1)).

(** the grid point with the given index *)
Fixpoint grid_point (ranges : list (R * R)) (n_points idx : list nat) : list R :=
  match ranges, n_points, idx with
  | r :: rs, n :: ns, i :: is => coordinate r n i :: grid_point rs ns is
  | _, _, _ => []
  end.

(** grids with at least two points per dimension and increasing ranges *)
Definition usable_points (n_points : list nat) : Prop := Forall (fun n => (2 <= n)%nat) n_points.
Definition increasing (ranges : list (R * R)) : Prop := Forall (fun r => fst r < snd r) ranges.

(** the order in which points() lists the points of a d-dimensional grid: the dimensions
    from slowest to fastest are d-1, ..., 2, 0, 1 *)
Definition listing {A} (l : list A) : list A :=
  rev (match l with a :: b :: t => b :: a :: t | _ => l end).

(** volume element *)
Fixpoint volume (ranges : list (R * R)) (n_points : list nat) : R :=
  match ranges, n_points with
  | r :: rs, n :: ns => (snd r - fst r) / (INR n - 1) * volume rs ns
  | _, _ => 1
  end.

Definition total (l : list R) : R := fold_right Rplus 0 l.

(** entry of a row-major array *)
Definition entry (shape : list nat) (flat : list R) (idx : list nat) : R := nth (flat_pos shape idx) flat 0.

(** sum over all indices of an array *)
Fixpoint nsum (shape : list nat) (f : list nat -> R) : R :=
  match shape with
  | [] => f []
  | n :: s => total (map (fun i => nsum s (fun t => f (i :: t))) (seq 0 n))
  end.

(** i + (n - 1) - j per dimension: the partner of kernel entry j for output entry i *)
Fixpoint partner (i n j : list nat) : list nat :=
  match i, n, j with
  | a :: i', m :: n', b :: j' => (a + (m - 1) - b)%nat :: partner i' n' j'
  | _, _, _ => []
  end.

(** integral of a + b x from lo to hi *)
Definition affine_integral (a b lo hi : R) : R := a * (hi - lo) + b * (hi ^ 2 - lo ^ 2) / 2.

(** product over the dimensions of the affine functions a + b x; one (a, b, lo, dx) per dimension,
    evaluated at the points lo + i dx *)
Fixpoint affine_product (fs : list (R * R * R * R)) (idx : list nat) : R :=
  match fs, idx with
  | (a, b, lo, dx) :: fs', i :: is => (a + b * (lo + INR i * dx)) * affine_product fs' is
  | _, _ => 1
  end.
(** its integral over the box covered by n points per dimension *)
Fixpoint affine_product_integral (fs : list (R * R * R * R)) (ns : list nat) : R :=
  match fs, ns with
  | (a, b, lo, dx) :: fs', n :: ns' =>
      affine_integral a b lo (lo + INR (n - 1) * dx) * affine_product_integral fs' ns'
  | _, _ => 1
  end.

(** edge lengths of the box *)
Fixpoint box_volume (dx : list R) (ns : list nat) : R :=
  match dx, ns with d :: ds, n :: ns' => INR (n - 1) * d * box_volume ds ns' | _, _ => 1 end.

(** distance of neighbouring points per dimension *)
Fixpoint spacings (ranges : list (R * R)) (n_points : list nat) : list R :=
  match ranges, n_points with
  | r :: rs, n :: ns => (snd r - fst r) / (INR n - 1) :: spacings rs ns
  | _, _ => []
  end.

(** entry at a signed index, zero outside of the array *)
Fixpoint inside_index (shape : list nat) (idx : list Z) : bool :=
  match shape, idx with
  | n :: s, i :: is => ((0 <=? i)%Z && (i <? Z.of_nat n)%Z && inside_index s is)%bool
  | [], [] => true
  | _, _ => false
  end.
Definition padded_entry (shape : list nat) (flat : list R) (idx : list Z) : R :=
  if inside_index shape idx then entry shape flat (map Z.to_nat idx) else 0.

(** i + (n - 1) / 2 - j per dimension: kernel centered at entry i *)
Fixpoint centered_partner (i n j : list nat) : list Z :=
  match i, n, j with
  | a :: i', m :: n', b :: j' =>
      (Z.of_nat a + (Z.of_nat m - 1) / 2 - Z.of_nat b)%Z :: centered_partner i' n' j'
  | _, _, _ => []
  end.
