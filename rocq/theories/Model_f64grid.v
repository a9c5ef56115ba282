(** The bins of the histogram and the grids with given step sizes on IEEE 754 binary64 numbers (see Model_f64.v; the versions with real
    numbers are in Model_hist.v and Model_grid.v) *)
From Verif Require Export Model_f64.
Open Scope Z_scope.

(** np.linspace(lo, hi, num) for num > 1: the products i * step (i / (num - 1) * (hi - lo) if the step is zero) are shifted by lo, the
    last element is set to hi *)
Definition f_linspace (lo hi : f64) (num : nat) : list f64 :=
  let div := f_of_Z (Z.of_nat num - 1) in
  let delta := fsub hi lo in
  let step := fdiv delta div in
  map (fun i =>
         if Nat.eqb (S i) num then hi
         else if feq step fzero then fadd (fmul (fdiv (f_of_Z (Z.of_nat i)) div) delta) lo
         else fadd (fmul (f_of_Z (Z.of_nat i)) step) lo) (seq 0 num).

(** bin edges of numpy.histogramdd for an integer number of bins and a range (histogram.py:44-48) *)
Definition f_bin_edges (n : nat) (r : f64 * f64) : res (list f64) :=
  let (lo, hi) := r in
  if flt hi lo then Err ValueError
  else if negb (is_finite lo && is_finite hi) then Err ValueError
  else if Nat.eqb n 0 then Err ValueError
  else if feq lo hi then Ok (f_linspace (fsub lo fhalf) (fadd hi fhalf) (S n))
  else Ok (f_linspace lo hi (S n)).

(** numpy.searchsorted(edges, x, side='right') for increasing edges; a nan is sorted to the end *)
Definition f_searchsorted_right (edges : list f64) (x : f64) : nat :=
  if is_nan x then length edges else length (filter (fun e => fle e x) edges).

(** bin number in one dimension, as in numpy.histogramdd *)
Definition f_bin_of (edges : list f64) (x : f64) : option nat :=
  let c := f_searchsorted_right edges x in
  let c := if feq x (last edges fzero) then (c - 1)%nat else c in
  if Nat.eqb c 0 then None
  else if Nat.leb (length edges) c then None
  else Some (c - 1)%nat.

(** row-major index of the cell *)
Fixpoint f_flat_index (acc : nat) (edges : list (list f64)) (pos : list f64) : option nat :=
  match edges, pos with
  | [], _ => Some acc
  | e :: es, x :: xs =>
      match f_bin_of e x with
      | Some i => f_flat_index (acc * (length e - 1) + i) es xs
      | None => None
      end
  | _ :: _, [] => None
  end.
Definition f_n_bins (edges : list (list f64)) : list nat := map (fun e => (length e - 1)%nat) edges.

(** numpy.bincount *)
Definition f_incr (d : list nat) (k : nat) : list nat := set_nth d k (S (nth k d 0%nat)).
Definition f_bincount (edges : list (list f64)) (samples : list (list f64)) (zero : list nat) : list nat :=
  fold_left (fun d s => match f_flat_index 0 edges s with Some k => f_incr d k | None => d end) samples zero.

(** "bins must be monotonically increasing": the check of numpy.histogramdd for given edges *)
Fixpoint f_increasing (edges : list f64) : bool :=
  match edges with
  | a :: ((b :: _) as t) => negb (flt b a) && f_increasing t
  | _ => true
  end.

(** numpy.histogramdd(samples, bins=edges) *)
Definition f_histogramdd (edges : list (list f64)) (samples : list (list f64)) : res (list f64) :=
  if negb (forallb (fun s => Nat.eqb (length s) (length edges)) samples) then Err ValueError
  else if negb (forallb f_increasing edges) then Err ValueError
  else Ok (map (fun c => f_of_Z (Z.of_nat c))
             (f_bincount edges samples (repeat 0%nat (fold_right Nat.mul 1%nat (f_n_bins edges))))).

(** histogram.py:53-60 add: the counts are float64 numbers *)
Definition f_hist_add (edges : list (list f64)) (data : list f64) (samples : list (list f64)) : res (list f64) :=
  do tmp <- f_histogramdd edges samples;
  Ok (fmap2 fadd data tmp).

(** histogram.py:66-77 bin_centers in one dimension *)
Fixpoint f_centers (e : list f64) : list f64 :=
  match e with
  | a :: ((b :: _) as t) => fdiv (fadd a b) (f_of_Z 2) :: f_centers t
  | _ => []
  end.

(** int(np.ceil(x)) *)
Definition f_int_ceil (x : f64) : res Z :=
  do c <- f_int x;
  Ok (if flt (f_of_Z c) x then c + 1 else c).

(** grid.py:312-315 from_stepsizes in one dimension: number of points, and first and last point.  A division of python floats
    by zero raises ZeroDivisionError. *)
Definition f_from_stepsize (r : f64 * f64) (stepsize : f64) (shrink : bool) : res (Z * (f64 * f64)) :=
  let (lo, hi) := r in
  if feq stepsize fzero then Err ZeroDivisionError
  else
    do q <- f_int_ceil (fdiv (fsub hi lo) stepsize);
    let n := q + 1 - (if shrink then 1 else 0) in                               (* 313 *)
    Ok (n, (lo, fadd lo (fmul stepsize (f_of_Z (n - 1))))).                     (* 314 *)
