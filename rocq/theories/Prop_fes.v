(** Properties C03, C10 and C11 *)
From Coq Require Import Lia Lra.
From Verif Require Import PyBase Model_xr Model_rec Model_fes Model_deltaf Spec_times Spec_traj Spec_fes Proof_fes Proof_examples.
Open Scope R_scope.

(** C10: the FES of a histogram *)
Theorem C10_fes_from_histogram :
  forall data kt junk, data <> [] -> 0 < kt ->
  exists fes, (forall junk', calculate_fes data kt true junk' = Ok fes) /\
    calculate_fes data kt true junk = Ok fes /\ length fes = length data /\
    (forall i, (i < length data)%nat -> (nth i fes NaN = PInf <-> nth i data 0%nat = 0%nat)) /\
    (forall i, (i < length data)%nat -> nth i data 0%nat <> 0%nat ->
       exists f, nth i fes NaN = Fin f /\ 0 <= f) /\
    ((exists i, (i < length data)%nat /\ nth i data 0%nat <> 0%nat) ->
     exists i, (i < length data)%nat /\ nth i fes NaN = Fin 0) /\
    (forall i j f g, (i < length data)%nat -> (j < length data)%nat ->
       nth i fes NaN = Fin f -> nth j fes NaN = Fin g ->
       f - g = - kt * ln (INR (nth i data 0%nat) / INR (nth j data 0%nat))).
Proof. exact calculate_fes_spec. Qed.
Print Assumptions C10_fes_from_histogram.

Example C10_case : exists fes, calculate_fes [3; 0; 5]%nat 2 true (fun _ => NaN) = Ok fes /\
  nth 1 fes NaN = PInf /\ nth 0 fes NaN = Fin (2 * ln (5 / 3)) /\ nth 2 fes NaN = Fin 0.
Proof.
  unfold calculate_fes; cbn [masked_log where_zero Nat.eqb].
  unfold xlog. destruct (Rlt_dec 0 (INR 3)) as [_|n]; [|cbn in n; lra].
  destruct (Rlt_dec 0 (INR 5)) as [_|n]; [|cbn in n; lra].
  replace (INR 3) with 3 by (cbn; lra). replace (INR 5) with 5 by (cbn; lra).
  pose proof (ln_increasing 3 5 ltac:(lra) ltac:(lra)).
  unfold xmin; cbn [xscale fold_left]. unfold xmin2 at 2; cbn [xltb]. unfold xmin2, xltb.
  destruct (Rlt_dec (- (2) * ln 5) (- (2) * ln 3)) as [_|n]; [|lra].
  cbn [bind is_pinf negb map xsub xneg xadd]. eexists; split; [reflexivity|]. cbn [nth].
  split; [reflexivity|]. split; [|f_equal; lra]. f_equal. unfold Rdiv. rewrite ln_mult, ln_Rinv by lra. lra.
Qed.

(** C11: free energy differences are the logarithms of the count ratios (to the first state) *)
Theorem C11_delta_f :
  forall data kt junk fes masks, data <> [] -> 0 < kt ->
  Forall (fun m => length m = length data) masks ->
  calculate_fes data kt true junk = Ok fes ->
  calculate_delta_f fes kt masks
  = Ok (match masks with
        | [] => []
        | m1 :: ms => map (fun m => free_energy_difference kt (count_in data m) (count_in data m1)) ms
        end).
Proof. exact delta_f_value. Qed.
Print Assumptions C11_delta_f.

Example C11_case : exists fes,
  calculate_fes [3; 0; 5; 2]%nat 2 true (fun _ => NaN) = Ok fes /\
  calculate_delta_f fes 2 [[true; true; false; false]; [false; true; true; true]; [false; true; false; false]]
  = Ok [Fin (- (2) * ln (7 / 3)); PInf].
Proof.
  destruct (C10_fes_from_histogram [3; 0; 5; 2]%nat 2 (fun _ => NaN)) as (fes & _ & E & _); [discriminate|lra|].
  exists fes. split; [exact E|].
  rewrite (C11_delta_f [3; 0; 5; 2]%nat 2 (fun _ => NaN)); [|discriminate|lra|repeat constructor|exact E].
  cbn. repeat f_equal; lra.
Qed.

(** C03, proved part: if the number of steps ends on a write step or at least one stride after
    it, the file has exactly one row per multiple of the stride.  W is the write stride. *)
Theorem C03_delta_f_file_partial :
  forall fes kt dt masks L wstride junk single0 s W n,
  (forall k, length (fes k) = L) -> Forall (fun m => length m = L) masks ->
  (0 < s)%Z -> positive_option wstride -> W = option_or wstride (100 * s) ->
  (W mod s = 0)%Z -> (forall m, length (junk m) = m) -> (0 <= n)%Z ->
  (n mod W = 0 \/ s <= n mod W)%Z ->
  exists r0 r rows,
    (forall k, delta_f_line fes kt dt masks k (rows k)) /\
    delta_f_init (map (fun m => [length m]) masks) [L] (Some s) wstride true junk single0 = Ok r0 /\
    delta_f_simulation fes kt dt masks n r0 = Ok r /\
    rc_file r = Some (map rows (times 0 n s)).
Proof. exact delta_f_simulation_good. Qed.
Print Assumptions C03_delta_f_file_partial.

(** C03, refuted part: for all other n the file has W/s > 0 superfluous rows at the end *)
Theorem C03_delta_f_file_refuted :
  forall fes kt dt masks L wstride junk single0 s W n,
  (forall k, length (fes k) = L) -> Forall (fun m => length m = L) masks ->
  (0 < s)%Z -> positive_option wstride -> W = option_or wstride (100 * s) ->
  (W mod s = 0)%Z -> (forall m, length (junk m) = m) -> (0 <= n)%Z ->
  (0 < n mod W < s)%Z ->
  exists r0 r rows extra,
    (forall k, delta_f_line fes kt dt masks k (rows k)) /\
    delta_f_init (map (fun m => [length m]) masks) [L] (Some s) wstride true junk single0 = Ok r0 /\
    delta_f_simulation fes kt dt masks n r0 = Ok r /\
    rc_file r = Some (map rows (times 0 n s) ++ extra) /\
    Z.of_nat (length extra) = (W / s)%Z /\ (0 < W / s)%Z.
Proof. exact delta_f_simulation_stale. Qed.
Print Assumptions C03_delta_f_file_refuted.

(** C03, exact behaviour for all n: the superfluous rows are the uninitialised buffer before
    the first write and the rows of the last write afterwards *)
Theorem C03_exact :
  forall fes kt dt masks L wstride junk single0 s W n,
  (forall k, length (fes k) = L) -> Forall (fun m => length m = L) masks ->
  (0 < s)%Z -> positive_option wstride -> W = option_or wstride (100 * s) ->
  (W mod s = 0)%Z -> (forall m, length (junk m) = m) -> (0 <= n)%Z ->
  exists r0 r rows,
    (forall k, delta_f_line fes kt dt masks k (rows k)) /\
    delta_f_init (map (fun m => [length m]) masks) [L] (Some s) wstride true junk single0 = Ok r0 /\
    delta_f_simulation fes kt dt masks n r0 = Ok r /\
    rc_file r = Some (
      if (n mod W =? 0)%Z || (s <=? n mod W)%Z then map rows (times 0 n s)
      else map rows (times 0 (W * (n / W)) s) ++
           (if (n <? W)%Z then junk (Z.to_nat (W / s))
            else map rows (times (W * (n / W) - W) (W * (n / W)) s))).
Proof. exact delta_f_simulation_file. Qed.
Print Assumptions C03_exact.

(** without stride: one row at the end *)
Theorem C03_no_stride :
  forall fes kt dt masks L wstride junk single0 n,
  (forall k, length (fes k) = L) -> Forall (fun m => length m = L) masks -> (0 <= n)%Z ->
  exists r0 r row,
    delta_f_last_line fes kt dt masks n row /\
    delta_f_init (map (fun m => [length m]) masks) [L] None wstride true junk single0 = Ok r0 /\
    delta_f_simulation fes kt dt masks n r0 = Ok r /\ rc_file r = Some [row].
Proof. exact delta_f_simulation_once. Qed.
Print Assumptions C03_no_stride.

(** histogram with k + 1 counts in the first and one in the second bin at step k; stride 2, write stride 4: fine after 7 steps,
    uninitialised memory after 1, doubled rows after 5 *)
Example C03_case : exists r0 r r1 r5,
  delta_f_init [[2]; [2]]%nat [2]%nat (Some 2%Z) (Some 4%Z) true (fun m => repeat [NaN] m) [] = Ok r0 /\
  delta_f_simulation growing_fes 1 (1/2) [[true; false]; [false; true]] 7 r0 = Ok r /\ rc_file r = Some [growing_row (1/2) 2; growing_row (1/2) 4; growing_row (1/2) 6] /\
  delta_f_simulation growing_fes 1 (1/2) [[true; false]; [false; true]] 1 r0 = Ok r1 /\ rc_file r1 = Some [[NaN]; [NaN]] /\
  delta_f_simulation growing_fes 1 (1/2) [[true; false]; [false; true]] 5 r0 = Ok r5 /\
  rc_file r5 = Some [growing_row (1/2) 2; growing_row (1/2) 4; growing_row (1/2) 2; growing_row (1/2) 4].
Proof. exact growing_files. Qed.
