(** Grids and bins in float64 arithmetic, C81 and C82 *)
From Verif Require Import PyBase Model_f64 Model_f64grid Spec_box Spec_hist Spec_f64 Spec_f64grid Proof_f64j Proof_f64i Proof_f64k Proof_f64l.
From Flocq Require Import Core.Core.
Open Scope R_scope.

(** ** C81 *)
(** Full statement: a grid with step s over the range (lo, hi) has ceil((hi - lo) / s) + 1 points and reaches hi (one point less if
    it may shrink).  The range (0.1, 0.4) with steps of 0.1 fits exactly, but has five points and ends at 0.5. *)
Theorem C81_refuted : exists lo hi s last, finite lo /\ finite hi /\ finite s /\ 0 < val s /\ val hi - val lo = 3 * val s /\
  f_from_stepsize (lo, hi) s false = Ok (5%Z, (lo, last)) /\ val hi + val s / 2 < val last.
Proof. exact extra_point. Qed.
Print Assumptions C81_refuted.

(** The range (0, 0.030000000000000002) with steps of 0.01 is not covered. *)
Theorem C81_covered_refuted : exists lo hi s last, finite lo /\ finite hi /\ finite s /\ 0 < val s /\
  f_from_stepsize (lo, hi) s false = Ok (4%Z, (lo, last)) /\ flt last hi = true.
Proof. exact not_covered. Qed.
Print Assumptions C81_covered_refuted.

(** The number of points is at most one off, the range is covered up to rounding and not by more than one step too far; the number
    is right unless the number of steps is an integer up to rounding. *)
Theorem C81_points_partial : forall lo hi s (shrink : bool), finite lo -> finite hi -> finite s ->
  val lo < val hi -> bpow radix2 (-900) <= val s -> Rabs (val lo) + Rabs (val hi) + val s <= bpow radix2 1000 ->
  / 2 ^ 50 <= (val hi - val lo) / val s <= 2 ^ 49 ->
  let k := if shrink then 1%Z else 0%Z in
  exists n last, f_from_stepsize (lo, hi) s shrink = Ok (n, (lo, last)) /\ finite last /\
  (forall c, is_ceil ((val hi - val lo) / val s) c -> (Z.abs (n - (c + 1 - k)) <= 1)%Z) /\
  val hi - IZR k * val s - (Rabs (val lo) + Rabs (val hi) + val s) * / 2 ^ 49 <= val last <
    val hi + (1 - IZR k) * val s + (Rabs (val lo) + Rabs (val hi) + val s) * / 2 ^ 49 /\
  (forall c, is_ceil ((val hi - val lo) / val s) c ->
     (forall i, (val hi - val lo) / val s * / 2 ^ 51 < Rabs ((val hi - val lo) / val s - IZR i)) -> n = (c + 1 - k)%Z).
Proof. exact from_stepsize_all. Qed.
Print Assumptions C81_points_partial.

Example C81_case : let lo := f_of_Z (-1) in let hi := f_of_Z 3 in let s := fmake 3 (-1) in
  finite lo /\ finite hi /\ finite s /\ val lo < val hi /\ bpow radix2 (-900) <= val s /\
  Rabs (val lo) + Rabs (val hi) + val s <= bpow radix2 1000 /\ / 2 ^ 50 <= (val hi - val lo) / val s <= 2 ^ 49 /\
  is_ceil ((val hi - val lo) / val s) 3 /\ (forall i, (val hi - val lo) / val s * / 2 ^ 51 < Rabs ((val hi - val lo) / val s - IZR i)) /\
  match f_from_stepsize (lo, hi) s false with Ok (n, (_, last)) => n = 4%Z /\ feq last (fmake 7 (-1)) = true | Err _ => False end.
Proof. exact stepsize_case. Qed.

(** ** C82 *)
(** The edges increase strictly from the minimum to the maximum and are those of n equal bins up to rounding, as long as a bin is wider
    than the resolution of the numbers. *)
Theorem C82_edges : forall lo hi n, finite lo -> finite hi -> (0 < n)%nat -> val lo < val hi ->
  bpow radix2 (-900) <= val hi - val lo -> Rabs (val lo) + Rabs (val hi) <= bpow radix2 1000 ->
  INR n * (Rabs (val lo) + Rabs (val hi)) <= 2 ^ 49 * (val hi - val lo) ->
  exists e, f_bin_edges n (lo, hi) = Ok e /\ f_edges_ok e /\ length e = S n /\
  val (nth 0 e fzero) = val lo /\ nth n e fzero = hi /\
  forall i, (i <= n)%nat -> Rabs (val (nth i e fzero) - (val lo + INR i * ((val hi - val lo) / INR n))) <= (Rabs (val lo) + Rabs (val hi)) * / 2 ^ 50.
Proof. exact bin_edges_all. Qed.
Print Assumptions C82_edges.

(** A number that is not within rounding errors of an inner edge is in the bin of the exact edges. *)
Theorem C82_same_bins : forall lo hi n, finite lo -> finite hi -> (0 < n)%nat -> val lo < val hi ->
  bpow radix2 (-900) <= val hi - val lo -> Rabs (val lo) + Rabs (val hi) <= bpow radix2 1000 ->
  INR n * (Rabs (val lo) + Rabs (val hi)) <= 2 ^ 49 * (val hi - val lo) ->
  forall e exact x k, f_bin_edges n (lo, hi) = Ok e -> uniform_edges n (val lo, val hi) exact -> finite x ->
  (forall i, (0 < i < n)%nat -> (Rabs (val lo) + Rabs (val hi)) * / 2 ^ 50 < Rabs (val x - (val lo + INR i * ((val hi - val lo) / INR n)))) ->
  in_bin (vals e) k (val x) <-> in_bin exact k (val x).
Proof. exact same_bins_all. Qed.
Print Assumptions C82_same_bins.

Example C82_case_bins : let lo := f_of_Z (-1) in let hi := f_of_Z 2 in
  finite lo /\ finite hi /\ val lo < val hi /\ bpow radix2 (-900) <= val hi - val lo /\ Rabs (val lo) + Rabs (val hi) <= bpow radix2 1000 /\
  INR 3 * (Rabs (val lo) + Rabs (val hi)) <= 2 ^ 49 * (val hi - val lo) /\
  uniform_edges 3 (val lo, val hi) [-1; 0; 1; 2] /\
  (forall i, (0 < i < 3)%nat -> (Rabs (val lo) + Rabs (val hi)) * / 2 ^ 50 < Rabs (val fhalf - (val lo + INR i * ((val hi - val lo) / INR 3)))) /\
  in_bin [-1; 0; 1; 2] 1 (val fhalf).
Proof. exact bins_case. Qed.

(** Every cell gains exactly the number of samples inside it, as long as there are at most 2^53; infinite coordinates and nan are in
    no cell. *)
Theorem C82_counts : forall edges data samples, Forall f_edges_ok edges -> Forall (fun s => length s = length edges) samples ->
  length data = n_cells (map vals edges) ->
  exists data', f_hist_add edges data samples = Ok data' /\ length data' = length data /\
    forall idx n, cell_ok (map vals edges) idx -> is_count (nth (cell_pos (map vals edges) idx) data fzero) n ->
      (Z.of_nat n + Z.of_nat (length samples) <= 2 ^ 53)%Z ->
      exists c, counts (f_in_cell edges idx) samples c /\ is_count (nth (cell_pos (map vals edges) idx) data' fzero) (n + c).
Proof. exact hist_add_exact. Qed.
Print Assumptions C82_counts.

Example C82_case_counts : Forall f_edges_ok demo_edges /\ Forall (fun s => length s = length demo_edges) demo_samples /\
  length [f_of_Z 5; f_of_Z 7] = n_cells (map vals demo_edges) /\ cell_ok (map vals demo_edges) [1%nat] /\
  is_count (nth (cell_pos (map vals demo_edges) [1%nat]) [f_of_Z 5; f_of_Z 7] fzero) 7 /\
  counts (f_in_cell demo_edges [1%nat]) demo_samples 2 /\
  match f_hist_add demo_edges [f_of_Z 5; f_of_Z 7] demo_samples with Ok [a; b] => (feq a (f_of_Z 5) && feq b (f_of_Z 9))%bool = true | _ => False end.
Proof. exact add_case. Qed.

(** With 2^53 counts the next one is lost. *)
Theorem C82_limit : exists data data', data = [f_of_Z (2 ^ 53); fzero] /\ f_hist_add demo_edges data [[f_of_Z (-1)]] = Ok data' /\
  counts (f_in_cell demo_edges [0%nat]) [[f_of_Z (-1)]] 1 /\ val (nth 0 data' fzero) = 2 ^ 53.
Proof. exact saturated. Qed.
Print Assumptions C82_limit.

(** The bin centers in the output files lie between the edges. *)
Theorem C82_centers : forall e i a b c, f_edges_ok e -> Forall (fun x => Rabs (val x) <= bpow radix2 999) e ->
  nth_error e i = Some a -> nth_error e (S i) = Some b -> nth_error (f_centers e) i = Some c -> finite c /\ val a <= val c <= val b.
Proof. exact centers_between. Qed.
Print Assumptions C82_centers.

Example C82_case_centers : f_edges_ok [f_of_Z (-1); fzero; f_of_Z 2] /\ Forall (fun x => Rabs (val x) <= bpow radix2 999) [f_of_Z (-1); fzero; f_of_Z 2] /\
  nth_error (f_centers [f_of_Z (-1); fzero; f_of_Z 2]) 1 <> None.
Proof. exact centers_case. Qed.
