(** Model of bdld/histogram.py (and numpy.histogramdd) *)
From Verif Require Export Model_dyn Model_grid.
Open Scope R_scope.

(** bin edges of numpy.histogramdd for an integer number of bins and a range:
    ValueError for max < min or no bins, an empty range is widened by 1/2 on both sides *)
Definition bin_edges (n : nat) (r : R * R) : res (list R) :=
  let (lo, hi) := r in
  if Rlt_dec hi lo then Err ValueError
  else if Nat.eqb n 0 then Err ValueError
  else if Req_EM_T lo hi then Ok (linspace (lo - 1/2) (hi + 1/2) (S n))
  else Ok (linspace lo hi (S n)).

(** numpy.searchsorted(edges, x, side='right') for increasing edges *)
Definition searchsorted_right (edges : list R) (x : R) : nat :=
  length (filter (fun e => if Rle_dec e x then true else false) edges).

(** bin number of x in one dimension as in numpy.histogramdd: searchsorted, values on the
    rightmost edge are shifted into the last bin, outliers (first and last slot) dropped *)
Definition bin_of (edges : list R) (x : R) : option nat :=
  let c := searchsorted_right edges x in
  let c := if Req_EM_T x (last edges 0) then (c - 1)%nat else c in
  if Nat.eqb c 0 then None
  else if Nat.leb (length edges) c then None
  else Some (c - 1)%nat.

(** row-major flat index (numpy.ravel_multi_index without the outlier slots) *)
Fixpoint flat_index (acc : nat) (edges : list (list R)) (pos : vec) : option nat :=
  match edges, pos with
  | [], _ => Some acc
  | e :: es, x :: xs =>
      match bin_of e x with
      | Some i => flat_index (acc * (length e - 1) + i) es xs
      | None => None
      end
  | _ :: _, [] => None
  end.

Definition n_bins_of (edges : list (list R)) : list nat := map (fun e => (length e - 1)%nat) edges.

(** numpy.bincount: add one to the cell of every sample *)
Definition incr (d : list nat) (k : nat) : list nat := set_nth d k (S (nth k d 0%nat)).
Definition bincount (edges : list (list R)) (samples : list vec) (zero : list nat) : list nat :=
  fold_left (fun d s => match flat_index 0 edges s with Some k => incr d k | None => d end)
            samples zero.

(** numpy.histogramdd(samples, bins=edges): counts, flattened in row-major order.
    ValueError if the dimensions do not match. *)
Definition histogramdd (edges : list (list R)) (samples : list vec) : res (list nat) :=
  if forallb (fun s => Nat.eqb (length s) (length edges)) samples
  then Ok (bincount edges samples (repeat 0%nat (prod_list (n_bins_of edges))))
  else Err ValueError.

(** histogram.py:8-51.  [h_data] are the counts (numpy floats that hold integers), row-major. *)
Record hist := mkH { h_edges : list (list R); h_data : list nat }.

(** histogram.py:27-51 __init__ (n_bins given as list).  Of the grid attributes only the data
    and bin edges are kept; the grid points are the bin centers (hist_axes, hist_points). *)
Definition hist_init (n_bins : list nat) (ranges : list (R * R)) : res hist :=
  do _ <- stepsizes_from_npoints ranges (map S n_bins);                 (* 40 *)
  if negb (Nat.eqb (length n_bins) (length ranges)) then Err ValueError
  else
    do edges <- mapM (fun nr => bin_edges (fst nr) (snd nr)) (combine n_bins ranges);
    do data <- histogramdd edges [repeat 0 (length n_bins)];            (* 44-48 *)
    Ok (mkH edges data).

(** histogram.py:53-60 add *)
Definition hist_add (h : hist) (samples : list vec) : res hist :=
  do tmp <- histogramdd (h_edges h) samples;
  Ok (mkH (h_edges h) (map (fun ab => (fst ab + snd ab)%nat) (combine (h_data h) tmp))).

(** histogram.py:62-64 clear *)
Definition hist_clear (h : hist) : hist := mkH (h_edges h) (map (fun _ => 0%nat) (h_data h)).

(** histogram.py:66-77 bin_centers, also axes (79-83) *)
Fixpoint centers (e : list R) : list R :=
  match e with
  | a :: ((b :: _) as t) => (a + b) / 2 :: centers t
  | _ => []
  end.
Definition hist_axes (h : hist) : list (list R) := map centers (h_edges h).

(** grid.py:146-150 points with the overridden axes of the histogram *)
Definition hist_points (h : hist) : list vec :=
  points_of (hist_axes h) (n_bins_of (h_edges h)) (length (h_edges h)).
