(** Histogram properties C05 - C09 *)
From Coq Require Import Permutation Lia Lra.
From Verif Require Import PyBase Model_dyn Model_traj Model_hist Model_histaction
  Spec_times Spec_box Spec_hist Spec_traj Spec_histact Proof_hist Proof_histact Proof_histprops Proof_examples.
Open Scope R_scope.

(** ** C08: bins count half-open intervals, adding is additive *)

(** every cell gains exactly the number of samples inside it; nothing else changes *)
Theorem C08_add_counts : forall h samples,
  hist_ok h -> Forall (fun s => length s = length (h_edges h)) samples ->
  exists h', hist_add h samples = Ok h' /\ hist_ok h' /\ h_edges h' = h_edges h /\
    forall idx, cell_ok (h_edges h) idx ->
      exists c, counts (in_cell (h_edges h) idx) samples c /\
        nth (cell_pos (h_edges h) idx) (h_data h') 0%nat
        = (nth (cell_pos (h_edges h) idx) (h_data h) 0 + c)%nat.
Proof. exact hist_add_spec. Qed.
Print Assumptions C08_add_counts.

(** all array entries are cells, and different cells are different entries *)
Theorem C08_cells_are_entries : forall edges, Forall edges_ok edges ->
  (forall k, (k < n_cells edges)%nat -> exists idx, cell_ok edges idx /\ cell_pos edges idx = k) /\
  (forall i1 i2, cell_ok edges i1 -> cell_ok edges i2 -> cell_pos edges i1 = cell_pos edges i2 -> i1 = i2) /\
  (forall idx, cell_ok edges idx -> (cell_pos edges idx < n_cells edges)%nat).
Proof. exact (fun edges H => conj (row_major_surj edges H) (conj (row_major_inj edges) (row_major_lt edges))). Qed.
Print Assumptions C08_cells_are_entries.

Theorem C08_batches : forall h s1 s2 h1,
  hist_ok h -> Forall (fun s => length s = length (h_edges h)) s1 ->
  Forall (fun s => length s = length (h_edges h)) s2 ->
  hist_add h s1 = Ok h1 -> hist_add h1 s2 = hist_add h (s1 ++ s2).
Proof. exact hist_add_app. Qed.
Print Assumptions C08_batches.

Theorem C08_order : forall h s1 s2,
  hist_ok h -> Forall (fun s => length s = length (h_edges h)) s1 ->
  Permutation s1 s2 -> hist_add h s1 = hist_add h s2.
Proof. exact hist_add_perm. Qed.
Print Assumptions C08_order.

Theorem C08_clear : forall h, hist_ok h ->
  hist_ok (hist_clear h) /\ h_edges (hist_clear h) = h_edges h /\
  length (h_data (hist_clear h)) = length (h_data h) /\
  forall k, nth k (h_data (hist_clear h)) 0%nat = 0%nat.
Proof. exact hist_clear_spec. Qed.
Print Assumptions C08_clear.

(** samples of another dimension are rejected *)
Theorem C08_wrong_dimension : forall h samples s,
  In s samples -> length s <> length (h_edges h) -> hist_add h samples = Err ValueError.
Proof. exact hist_add_dim. Qed.
Print Assumptions C08_wrong_dimension.

Example C08_case : hist_ok (mkH [[0; 1; 3]; [0; 2]] [4; 0]%nat) /\
  Forall (fun s => length s = length (h_edges (mkH [[0; 1; 3]; [0; 2]] [4; 0]%nat))) [[1; 2]; [3; 2]; [5; 1]] /\
  in_cell [[0; 1; 3]; [0; 2]] [1; 0]%nat [3; 2] /\ ~ in_cell [[0; 1; 3]; [0; 2]] [0; 0]%nat [1; 2].
Proof. exact hist_case. Qed.

(** ** C07: a new histogram is empty *)

(** Full statement: for all bins and ranges the new histogram has no counts.
    It is false: if the origin is inside the ranges, its cell starts with a count of 1. *)
Theorem C07_new_histogram_empty_refuted :
  exists n_bins ranges h k, length n_bins = length ranges /\
    Forall (fun n => (0 < n)%nat) n_bins /\ Forall (fun r => fst r < snd r) ranges /\
    hist_init n_bins ranges = Ok h /\ (k < length (h_data h))%nat /\ nth k (h_data h) 0%nat = 1%nat.
Proof. exact hist_init_refuted. Qed.
Print Assumptions C07_new_histogram_empty_refuted.

(** Missing in this part: ranges that contain the origin. *)
Theorem C07_new_histogram_empty_partial : forall n_bins ranges,
  length n_bins = length ranges ->
  Forall (fun n => (0 < n)%nat) n_bins -> Forall (fun r => fst r < snd r) ranges ->
  ~ in_box ranges (repeat 0 (length ranges)) ->
  exists h, hist_init n_bins ranges = Ok h /\ hist_ok h /\ bins_of n_bins ranges (h_edges h) /\
    forall k, nth k (h_data h) 0%nat = 0%nat.
Proof. exact hist_init_empty. Qed.
Print Assumptions C07_new_histogram_empty_partial.

(** exact behaviour in all cases *)
Theorem C07_new_histogram_exact : forall n_bins ranges,
  length n_bins = length ranges ->
  Forall (fun n => (0 < n)%nat) n_bins -> Forall (fun r => fst r < snd r) ranges ->
  exists h, hist_init n_bins ranges = Ok h /\ hist_ok h /\ bins_of n_bins ranges (h_edges h) /\
    (in_box ranges (repeat 0 (length ranges)) ->
     exists i0, cell_ok (h_edges h) i0 /\ in_cell (h_edges h) i0 (repeat 0 (length ranges)) /\
       nth (cell_pos (h_edges h) i0) (h_data h) 0%nat = 1%nat /\
       forall idx, cell_ok (h_edges h) idx -> idx <> i0 ->
         nth (cell_pos (h_edges h) idx) (h_data h) 0%nat = 0%nat) /\
    (~ in_box ranges (repeat 0 (length ranges)) ->
     forall k, nth k (h_data h) 0%nat = 0%nat).
Proof. exact hist_init_counts. Qed.
Print Assumptions C07_new_histogram_exact.

Example C07_case : length [3%nat; 2%nat] = length [(1, 2); (-1, 1)] /\
  Forall (fun n => (0 < n)%nat) [3%nat; 2%nat] /\ Forall (fun r => fst r < snd r) [(1, 2); (-1, 1)] /\
  ~ in_box [(1, 2); (-1, 1)] (repeat 0 2).
Proof. exact hist_init_case. Qed.

(** ** C05: the histogram during the run *)

(** Exact behaviour for all strides, resets, with and without trajectory file: after step n the
    histogram holds [content], and the files written so far hold the content of their steps. *)
Theorem C05_during_run_exact : forall dt hist fn np stride momentum wstride times0 pos0 mom0
    n_bins ranges hstride reset hfn hws,
  hist_accepted hist np stride wstride times0 pos0 mom0 n_bins ranges hstride hfn hws ->
  forall n, (0 <= n)%Z ->
  let W := option_or wstride 100 in
  let s := option_or hstride 1 in
  let resets := match reset with Some l => l | None => [] end in
  let origin := repeat 0 (length ranges) in
  exists st0 t ha,
    hist_start fn np stride momentum wstride times0 pos0 mom0 n_bins ranges hstride reset hfn hws = Ok st0 /\
    hist_loop dt hist n st0 = Ok (t, ha) /\
    bins_of n_bins ranges (h_edges (ha_hist ha)) /\
    data_holds (h_edges (ha_hist ha)) (content fn W s hist origin resets n n) (h_data (ha_hist ha)) /\
    written_ok fn W s hist origin resets hws (h_edges (ha_hist ha)) n (ha_written ha).
Proof. exact hist_during. Qed.
Print Assumptions C05_during_run_exact.

(** Full statement: for all strides and update steps the histogram holds the samples of all
    multiples of the stride up to the last update.  Proved here if the trajectory has a
    filename or the histogram stride divides the update stride, and the origin is outside of
    the ranges (see C07).  Otherwise false (see below and C05_during_run_exact). *)
Theorem C05_during_run_partial : forall dt hist fn np stride momentum wstride times0 pos0 mom0
    n_bins ranges hstride reset hfn hws,
  hist_accepted hist np stride wstride times0 pos0 mom0 n_bins ranges hstride hfn hws ->
  forall n, (0 <= n)%Z ->
  let W := option_or wstride 100 in
  let s := option_or hstride 1 in
  (fn = true \/ W mod s = 0)%Z ->
  match reset with Some l => l | None => [] end = [] ->
  ~ in_box ranges (repeat 0 (length ranges)) ->
  exists st0 t ha,
    hist_start fn np stride momentum wstride times0 pos0 mom0 n_bins ranges hstride reset hfn hws = Ok st0 /\
    hist_loop dt hist n st0 = Ok (t, ha) /\
    bins_of n_bins ranges (h_edges (ha_hist ha)) /\
    data_holds (h_edges (ha_hist ha)) (sampled hist (times 0 (W * (n / W)) s)) (h_data (ha_hist ha)).
Proof. exact hist_during_good. Qed.
Print Assumptions C05_during_run_partial.

(** one walker resting at 1, one bin (1/2, 2), update every 3 steps, stride 2, no trajectory file *)
Theorem C05_during_run_refuted :
  exists st0 t ha, rest_start false 3 2 None = Ok st0 /\ hist_loop 1 resting 6 st0 = Ok (t, ha) /\
    bins_of [1%nat] [(1/2, 2)] (h_edges (ha_hist ha)) /\ ~ in_box [(1/2, 2)] (repeat 0 1) /\
    ~ data_holds (h_edges (ha_hist ha)) (sampled resting (times 0 6 2)) (h_data (ha_hist ha)).
Proof. exact during_refuted. Qed.
Print Assumptions C05_during_run_refuted.

(** a walker at k at step k, two bins from 1/2 to 21/2 and to 41/2; update every 6 steps, stride 3 *)
Example C05_case : exists st0 t ha,
  hist_start false 1 None false (Some 6%Z) (repeat 0 6) (repeat [] 6) (repeat [] 6) [2%nat] [(1/2, 41/2)] (Some 3%Z) None false None = Ok st0 /\
  hist_loop 1 rising 20 st0 = Ok (t, ha) /\ h_data (ha_hist ha) = [3; 3]%nat.
Proof. exact rising_during. Qed.

(** ** C06: the final histogram *)

(** Exact behaviour: [final_batch] is added to the content of the last step; the file without
    step number is the last one written and has the final counts. *)
Theorem C06_final_exact : forall dt hist fn np stride momentum wstride times0 pos0 mom0
    n_bins ranges hstride reset hfn hws,
  hist_accepted hist np stride wstride times0 pos0 mom0 n_bins ranges hstride hfn hws ->
  forall n, (0 < n)%Z ->
  let W := option_or wstride 100 in
  let s := option_or hstride 1 in
  let resets := match reset with Some l => l | None => [] end in
  let origin := repeat 0 (length ranges) in
  exists st0 t ha,
    hist_start fn np stride momentum wstride times0 pos0 mom0 n_bins ranges hstride reset hfn hws = Ok st0 /\
    hist_simulation dt hist n st0 = Ok (t, ha) /\
    bins_of n_bins ranges (h_edges (ha_hist ha)) /\
    data_holds (h_edges (ha_hist ha))
      (content fn W s hist origin resets n n ++ sampled hist (final_batch fn W s n)) (h_data (ha_hist ha)) /\
    exists files, written_ok fn W s hist origin resets hws (h_edges (ha_hist ha)) n files /\
      ha_written ha = files ++ (if hfn then [(None, h_data (ha_hist ha))] else []).
Proof. exact hist_after. Qed.
Print Assumptions C06_final_exact.

(** Full statement: for all strides and n the final histogram holds the samples of all multiples
    of the stride in 1..n.  Proved here without trajectory file, n no multiple of the update
    stride W, stride dividing W (or n < W), origin outside of the ranges. *)
Theorem C06_final_partial : forall dt hist fn np stride momentum wstride times0 pos0 mom0
    n_bins ranges hstride reset hfn hws,
  hist_accepted hist np stride wstride times0 pos0 mom0 n_bins ranges hstride hfn hws ->
  forall n, (0 < n)%Z ->
  let W := option_or wstride 100 in
  let s := option_or hstride 1 in
  fn = false -> (n mod W <> 0)%Z -> (W mod s = 0 \/ n < W)%Z ->
  match reset with Some l => l | None => [] end = [] ->
  ~ in_box ranges (repeat 0 (length ranges)) ->
  exists st0 t ha,
    hist_start fn np stride momentum wstride times0 pos0 mom0 n_bins ranges hstride reset hfn hws = Ok st0 /\
    hist_simulation dt hist n st0 = Ok (t, ha) /\
    bins_of n_bins ranges (h_edges (ha_hist ha)) /\
    data_holds (h_edges (ha_hist ha)) (sampled hist (times 0 n s)) (h_data (ha_hist ha)).
Proof. exact hist_after_good. Qed.
Print Assumptions C06_final_partial.

(** With a trajectory file it fails for n a multiple of the update stride (here 2; last batch
    counted twice) and for other n (rest missing); without file for multiples. *)
Theorem C06_final_refuted : forall fn n expected,
  (fn = true /\ (n = 4 \/ n = 3)%Z \/ fn = false /\ n = 4%Z) -> expected = times 0 n 1 ->
  exists st0 t ha, rest_start fn 2 1 None = Ok st0 /\ hist_simulation 1 resting n st0 = Ok (t, ha) /\
    bins_of [1%nat] [(1/2, 2)] (h_edges (ha_hist ha)) /\ ~ in_box [(1/2, 2)] (repeat 0 1) /\
    ~ data_holds (h_edges (ha_hist ha)) (sampled resting expected) (h_data (ha_hist ha)).
Proof. exact after_refuted. Qed.
Print Assumptions C06_final_refuted.

(** the same walker, stride 2 *)
Example C06_case : exists st0 t ha,
  hist_start false 1 None false (Some 6%Z) (repeat 0 6) (repeat [] 6) (repeat [] 6) [2%nat] [(1/2, 41/2)] (Some 2%Z) None false None = Ok st0 /\
  hist_simulation 1 rising 20 st0 = Ok (t, ha) /\ h_data (ha_hist ha) = [5; 5]%nat.
Proof. exact rising_after. Qed.

(** ** C09: resets *)

(** Exact behaviour after the latest reset r <= n (trajectory file or stride dividing W): the
    histogram holds the samples of the steps after the last update before r. *)
Theorem C09_reset_exact : forall dt hist fn np stride momentum wstride times0 pos0 mom0
    n_bins ranges hstride reset hfn hws,
  hist_accepted hist np stride wstride times0 pos0 mom0 n_bins ranges hstride hfn hws ->
  forall n r,
  let W := option_or wstride 100 in
  let s := option_or hstride 1 in
  let resets := match reset with Some l => l | None => [] end in
  (0 < r <= n)%Z -> In r resets -> (forall r', In r' resets -> (r' <= r \/ n < r')%Z) ->
  (fn = true \/ W mod s = 0)%Z ->
  exists st0 t ha,
    hist_start fn np stride momentum wstride times0 pos0 mom0 n_bins ranges hstride reset hfn hws = Ok st0 /\
    hist_loop dt hist n st0 = Ok (t, ha) /\
    bins_of n_bins ranges (h_edges (ha_hist ha)) /\
    data_holds (h_edges (ha_hist ha)) (sampled hist (times (W * (r / W)) (W * (n / W)) s)) (h_data (ha_hist ha)).
Proof. exact hist_reset_good. Qed.
Print Assumptions C09_reset_exact.

(** Full statement: for every reset step r only samples after r are held.  Proved here for
    reset steps that are multiples of the update stride. *)
Theorem C09_reset_partial : forall dt hist fn np stride momentum wstride times0 pos0 mom0
    n_bins ranges hstride reset hfn hws,
  hist_accepted hist np stride wstride times0 pos0 mom0 n_bins ranges hstride hfn hws ->
  forall n r,
  let W := option_or wstride 100 in
  let s := option_or hstride 1 in
  let resets := match reset with Some l => l | None => [] end in
  (0 < r <= n)%Z -> In r resets -> (forall r', In r' resets -> (r' <= r \/ n < r')%Z) ->
  (fn = true \/ W mod s = 0)%Z -> (r mod W = 0)%Z ->
  exists st0 t ha,
    hist_start fn np stride momentum wstride times0 pos0 mom0 n_bins ranges hstride reset hfn hws = Ok st0 /\
    hist_loop dt hist n st0 = Ok (t, ha) /\
    bins_of n_bins ranges (h_edges (ha_hist ha)) /\
    data_holds (h_edges (ha_hist ha)) (sampled hist (times r (W * (n / W)) s)) (h_data (ha_hist ha)).
Proof. exact hist_reset_aligned. Qed.
Print Assumptions C09_reset_partial.

Theorem C09_reset_refuted :
  exists st0 t ha, rest_start true 2 1 (Some [1%Z]) = Ok st0 /\ hist_loop 1 resting 2 st0 = Ok (t, ha) /\
    bins_of [1%nat] [(1/2, 2)] (h_edges (ha_hist ha)) /\
    ~ data_holds (h_edges (ha_hist ha)) (sampled resting (times 1 2 1)) (h_data (ha_hist ha)).
Proof. exact reset_refuted. Qed.
Print Assumptions C09_reset_refuted.

(** the same walker, update every 4 steps: the reset at 12 separates the samples, the one at 14 acts like one at 12 *)
Example C09_case : exists st0 t ha,
  hist_start true 1 None false (Some 4%Z) (repeat 0 4) (repeat [] 4) (repeat [] 4) [2%nat] [(1/2, 41/2)] (Some 1%Z) (Some [3; 12]%Z) false None = Ok st0 /\
  hist_loop 1 rising 18 st0 = Ok (t, ha) /\ h_data (ha_hist ha) = [0; 4]%nat.
Proof. exact rising_reset. Qed.
Example C09_late_case : exists st0 t ha,
  hist_start true 1 None false (Some 4%Z) (repeat 0 4) (repeat [] 4) (repeat [] 4) [2%nat] [(1/2, 41/2)] (Some 1%Z) (Some [3; 14]%Z) false None = Ok st0 /\
  hist_loop 1 rising 18 st0 = Ok (t, ha) /\ h_data (ha_hist ha) = [0; 4]%nat.
Proof. exact rising_reset_late. Qed.
