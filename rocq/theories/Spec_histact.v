(** Specification of the sampled histograms (properties C05, C06, C09) *)
From Verif Require Import PyBase Model_dyn Model_traj Model_histaction Spec_times Spec_box Spec_hist.
Open Scope R_scope.

(** the array [d] holds exactly the counts of the samples [l] in all cells *)
Definition data_holds (edges : list (list R)) (l : list vec) (d : list nat) : Prop :=
  length d = n_cells edges /\
  forall idx, cell_ok edges idx -> counts (in_cell edges idx) l (nth (cell_pos edges idx) d 0%nat).

(** a histogram with increasing edges and one number per cell *)
Definition hist_ok (h : hist) : Prop :=
  Forall edges_ok (h_edges h) /\ length (h_data h) = n_cells (h_edges h).

(** positions of all walkers at the time steps [T]; [hist k] are the walkers recorded at step k *)
Definition sampled (hist : Z -> list particle) (T : list Z) : list vec :=
  flat_map (fun k => map p_pos (hist k)) T.

(** time steps that are taken by the histogram update at step k (a multiple of the trajectory
    write stride W).  [fn]: does the trajectory action have a filename? *)
Definition batch (fn : bool) (W s k : Z) : list Z :=
  if fn then times (k - W) k s else map (Z.add (k - W)) (times 0 W s).

(** reset steps up to k, latest first *)
Definition resets_upto (resets : list Z) (k : Z) : list Z :=
  rev (filter (fun t => existsb (Z.eqb t) resets) (zrange 1 (k + 1))).

(** What the histogram has received: the batches of the update steps in (r, j] where r is the
    latest reset step <= k; before any reset also one count for the origin. *)
Definition content (fn : bool) (W s : Z) (hist : Z -> list particle) (origin : vec)
    (resets : list Z) (k j : Z) : list vec :=
  match resets_upto resets k with
  | [] => origin :: sampled hist (flat_map (batch fn W s) (times 0 j W))
  | r :: _ => sampled hist (flat_map (batch fn W s) (times r j W))
  end.

(** One simulation step of trajectory and histogram action, and the complete run
    (main.py:113-121) *)
Definition hist_step (dt : R) (hist : Z -> list particle) (st : traj * histact) (k : Z)
    : res (traj * histact) :=
  do t <- traj_run dt (hist k) (fst st) k;
  do ha <- ha_run t (snd st) k;
  Ok (t, ha).

Definition hist_loop (dt : R) (hist : Z -> list particle) (n : Z) (st : traj * histact)
    : res (traj * histact) := foldM (hist_step dt hist) (zrange 1 (n + 1)) st.

Definition hist_simulation (dt : R) (hist : Z -> list particle) (n : Z) (st : traj * histact)
    : res (traj * histact) :=
  do st1 <- hist_loop dt hist n st;
  do t <- traj_final_run (fst st1) n;
  do ha <- ha_final_run t (snd st1) n;
  Ok (t, ha).

(** construction of both actions *)
Definition hist_start (fn : bool) (np : nat) (stride : option Z) (momentum : bool) (wstride : option Z)
    (times0 : list R) (pos0 mom0 : list (list vec))
    (n_bins : list nat) (ranges : list (R * R)) (hstride : option Z) (reset : option (list Z))
    (hfn : bool) (hws : option Z) : res (traj * histact) :=
  let t := traj_init np stride fn momentum wstride times0 pos0 mom0 in
  do ha <- ha_init t (length ranges) n_bins ranges hstride reset hfn hws;
  Ok (t, ha).

(** accepted parameters: positive strides and bin numbers, non-empty ranges, buffers of the
    allocated size, [np] walkers of the right dimension at all times *)
Record hist_accepted (hist : Z -> list particle) (np : nat) (stride wstride : option Z)
    (times0 : list R) (pos0 mom0 : list (list vec))
    (n_bins : list nat) (ranges : list (R * R)) (hstride : option Z)
    (hfn : bool) (hws : option Z) : Prop := {
  hy_np : (0 < np)%nat;
  hy_stride : forall z, stride = Some z -> (0 < z)%Z;
  hy_wstride : forall z, wstride = Some z -> (0 < z)%Z;
  hy_hstride : forall z, hstride = Some z -> (0 < z)%Z;
  hy_hws : forall z, hws = Some z -> (0 < z)%Z /\ hfn = true;
  hy_times : Z.of_nat (length times0) = (match wstride with Some z => z | None => 100 end)%Z;
  hy_pos : Z.of_nat (length pos0) = (match wstride with Some z => z | None => 100 end)%Z;
  hy_mom : Z.of_nat (length mom0) = (match wstride with Some z => z | None => 100 end)%Z;
  hy_bins : length n_bins = length ranges /\ Forall (fun n => (0 < n)%nat) n_bins;
  hy_ranges : Forall (fun r => fst r < snd r) ranges;
  hy_hist : forall k, length (hist k) = np /\ Forall (fun p => length (p_pos p) = length ranges) (hist k) }.

(** edges of the bins of all dimensions *)
Definition bins_of (n_bins : list nat) (ranges : list (R * R)) (edges : list (list R)) : Prop :=
  Forall2 (fun nr e => uniform_edges (fst nr) (snd nr) e) (combine n_bins ranges) edges.

(** time steps additionally taken by final_run(n) *)
Definition final_batch (fn : bool) (W s n : Z) : list Z :=
  if (n mod W =? 0)%Z then batch fn W s n
  else if fn then []
  else map (Z.add (W * (n / W))) (times 0 (n mod W) s).

(** histogram files written during the run: one for every multiple of the write stride, with
    the content before a reset in the same step *)
Definition written_ok (fn : bool) (W s : Z) (hist : Z -> list particle) (origin : vec)
    (resets : list Z) (hws : option Z) (edges : list (list R)) (n : Z)
    (files : list (option Z * list nat)) : Prop :=
  match hws with
  | Some w => Forall2 (fun j f => fst f = Some j /\
                 data_holds edges (content fn W s hist origin resets (j - 1) j) (snd f))
                (times 0 n w) files
  | None => files = []
  end.
