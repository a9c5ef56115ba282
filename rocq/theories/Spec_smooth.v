(** Smoothing of a density on a grid with a Gaussian kernel, independent of the model *)
From Coq Require Import Reals List.
From Verif Require Import Spec_grid Spec_bd.
Import ListNotations.
Open Scope R_scope.

(** -5 bw <= p - q <= hi in every dimension *)
Fixpoint within (bw hi p q : list R) : bool :=
  match bw, hi, p, q with
  | b :: bw', h :: hi', x :: p', y :: q' =>
      if Rle_dec (- (5 * b)) (x - y) then if Rle_dec (x - y) h then within bw' hi' p' q' else false else false
  | _, _, _, _ => true
  end.
Definition cut_kernel (bw hi p q : list R) : R := if within bw hi p q then gauss_kernel bw p q else 0.

Fixpoint displaced (shift p : list R) : list R :=
  match shift, p with s :: shift', x :: p' => x + s :: displaced shift' p' | _, _ => [] end.

(** sum over all grid points of value times kernel times volume element: the kernel is centered at
    the grid point with index idx, displaced by [shift] *)
Definition smoothed (ranges : list (R * R)) (ns : list nat) (v : list R) (bw hi shift : list R) (idx : list nat) : R :=
  nsum ns (fun k => entry ns v k * cut_kernel bw hi (displaced shift (grid_point ranges ns idx)) (grid_point ranges ns k))
  * volume ranges ns.
