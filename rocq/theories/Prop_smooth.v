(** Properties of the smoothed density and of the grids of the corrections: C64, C65, C66 *)
From Coq Require Import Lia Lra.
From Verif Require Import PyBase Model_dyn Model_grid Model_potgrid Model_corr Spec_grid Spec_gridops Spec_bd Spec_smooth Spec_correction
  Proof_grid2 Proof_smooth Proof_correction.
Open Scope R_scope.

(** C64: every value of the smoothed density is the sum of the density times the Gaussian kernel
    cut at five bandwidths and centered at the grid point, if ten bandwidths are an even number of
    grid spacings in every dimension. *)
Theorem C64_centered_partial :
  forall g ranges ns v bw, grid_of g ranges ns v -> (length ns <= 2)%nat -> increasing ranges ->
  length bw = length ns -> Forall (fun b => 0 < b) bw ->
  (forall d, (d < length ns)%nat -> exists z, 10 * nth d bw 0 = 2 * IZR z * nth d (spacings ranges ns) 0) ->
  exists h w, dens_kernel_convolution g bw MSame = Ok h /\ grid_of h ranges ns w /\
    forall idx, in_shape ns idx -> entry ns w idx = smoothed ranges ns v bw (map (fun b => 5 * b) bw) (repeat 0 (length ns)) idx.
Proof. exact smoothing_centered. Qed.
Print Assumptions C64_centered_partial.

(** In general the kernel is displaced by up to half a grid spacing. *)
Theorem C64_displacement_exact :
  forall g ranges ns v bw, grid_of g ranges ns v -> (length ns <= 2)%nat -> increasing ranges ->
  length bw = length ns -> Forall (fun b => 0 < b) bw ->
  exists h w hi shift, dens_kernel_convolution g bw MSame = Ok h /\ grid_of h ranges ns w /\
    (forall d, (d < length ns)%nat -> let b := nth d bw 0 in let s := nth d (spacings ranges ns) 0 in
       5 * b <= nth d hi 0 < 5 * b + s /\ Rabs (nth d shift 0) <= s / 2 /\
       (nth d shift 0 = 0 <-> exists z, 10 * b = 2 * IZR z * s)) /\
    forall idx, in_shape ns idx -> entry ns w idx = smoothed ranges ns v bw hi shift idx.
Proof. exact smoothing_exact. Qed.
Print Assumptions C64_displacement_exact.

(** A symmetric density with a smoothed density that is not symmetric and not the centered sum *)
Theorem C64_refuted : exists g h w, grid_of g [(0, 4)] [5%nat] [0; 0; 1; 0; 0] /\
  dens_kernel_convolution g [1/10] MSame = Ok h /\ grid_of h [(0, 4)] [5%nat] w /\
  entry [5%nat] w [1%nat] = 0 /\ 0 < entry [5%nat] w [3%nat] /\
  entry [5%nat] w [3%nat] <> smoothed [(0, 4)] [5%nat] [0; 0; 1; 0; 0] [1/10] [1/2] [0] [3%nat].
Proof. exact asymmetric. Qed.
Print Assumptions C64_refuted.

Example C64_case : (* a two-dimensional grid with the even numbers 10 and 20 *)
  exists (g : grid R) v, grid_of g [(0, 4); (0, 1)] [5; 3]%nat v /\
  forall d, (d < 2)%nat -> exists z, 10 * nth d [1; 1] 0 = 2 * IZR z * nth d (spacings [(0, 4); (0, 1)] [5; 3]%nat) 0.
Proof.
  destruct (@new_grid R [(0, 4); (0, 1)] [5; 3]%nat eq_refl ltac:(repeat constructor)) as (g & E & _).
  destruct (set_data_grid_of [(0, 4); (0, 1)] [5; 3]%nat g (mkArr [5; 3]%nat (repeat 1 15)) eq_refl ltac:(repeat constructor) E eq_refl) as (h & _ & H).
  exists h. eexists. split; [exact H|]. intros [|[|d]] Hd; [exists 5%Z|exists 10%Z|lia]; cbn; lra.
Qed.

Example C64_program_case : (* bandwidth 0.101 in the range (0, 1): the density grid made by the program has 501 points, and
   ten bandwidths are 505 spacings *)
  bd_grid_points (0, 1) (101/1000) = 501%nat /\ ~ exists z, 10 * (101/1000) = 2 * IZR z * (1 / (INR 501 - 1)).
Proof.
  split.
  - unfold bd_grid_points. cbn [fst snd]. assert (Rceil ((1 - 0) / (1 / 2 * (101 / 1000))) = 20%Z) as -> by (apply Rceil_unique; lra). reflexivity.
  - intros (z & Hz). rewrite INR_IZR_INZ in Hz. change (IZR (Z.of_nat 501)) with 501 in Hz. assert (IZR (2 * z) = 505) as H by (rewrite mult_IZR; lra).
    apply eq_IZR in H. lia.
Qed.

(** C65: at every common point of the density grid and of the grid with at most 101 points per dimension
    the additive correction is -ln(K*pi / pi) plus the integral of ln(K*pi / pi) pi ... *)
Theorem C65_additive :
  forall (gd : griddata_t R) nan g ranges ns v bw, griddata_exact gd -> grid_of g ranges ns v -> (length ns <= 2)%nat -> increasing ranges ->
  length bw = length ns -> Forall (fun b => 0 < b) bw -> Forall (fun x => 0 < x) v ->
  exists k w I h u, dens_kernel_convolution g bw MSame = Ok k /\ grid_of k ranges ns w /\ Forall (fun x => 0 < x) w /\
    integral_is ns (spacings ranges ns) (map (fun xy => ln (fst xy / snd xy) * snd xy) (combine w v)) I /\
    calc_additive_correction gd nan g bw MSame = Ok h /\ grid_of h ranges (map (Nat.min 101) ns) u /\
    forall idx idx', in_shape ns idx -> in_shape (map (Nat.min 101) ns) idx' ->
      grid_point ranges ns idx = grid_point ranges (map (Nat.min 101) ns) idx' ->
      entry (map (Nat.min 101) ns) u idx' = - ln (entry ns w idx / entry ns v idx) + I.
Proof. exact additive_spec. Qed.
Print Assumptions C65_additive.

(** ... the multiplicative grid is -ln(K*pi) ... *)
Theorem C65_multiplicative :
  forall (gd : griddata_t R) nan g ranges ns v bw, griddata_exact gd -> grid_of g ranges ns v -> (length ns <= 2)%nat -> increasing ranges ->
  length bw = length ns -> Forall (fun b => 0 < b) bw -> Forall (fun x => 0 < x) v ->
  exists k w h u, dens_kernel_convolution g bw MSame = Ok k /\ grid_of k ranges ns w /\ Forall (fun x => 0 < x) w /\
    multiplicative_grid gd nan g bw = Ok h /\ grid_of h ranges (map (Nat.min 101) ns) u /\
    forall idx idx', in_shape ns idx -> in_shape (map (Nat.min 101) ns) idx' ->
      grid_point ranges ns idx = grid_point ranges (map (Nat.min 101) ns) idx' ->
      entry (map (Nat.min 101) ns) u idx' = - ln (entry ns w idx).
Proof. exact multiplicative_spec. Qed.
Print Assumptions C65_multiplicative.

(** ... and the average of the additive correction over the density is not zero but -I (1 - T), where T is the
    trapezoidal integral of the density, since the density is normalised with the sum of its values. *)
Theorem C65_average :
  forall g ranges ns v bw, grid_of g ranges ns v -> (length ns <= 2)%nat -> ns <> [] -> increasing ranges ->
  length bw = length ns -> Forall (fun b => 0 < b) bw -> Forall (fun x => 0 < x) v -> total v * volume ranges ns = 1 ->
  Forall (fun n => (n <= 101)%nat) ns ->
  exists k w I T h u, dens_kernel_convolution g bw MSame = Ok k /\ grid_of k ranges ns w /\
    integral_is ns (spacings ranges ns) (map (fun xy => ln (fst xy / snd xy) * snd xy) (combine w v)) I /\
    integral_is ns (spacings ranges ns) v T /\ 0 < T < 1 /\
    (forall gd nan, calc_additive_correction gd nan g bw MSame = Ok h) /\ grid_of h ranges ns u /\
    integral_is ns (spacings ranges ns) (map (fun xy => fst xy * snd xy) (combine u v)) (- (I * (1 - T))).
Proof. exact additive_average. Qed.
Print Assumptions C65_average.

Example C65_case : exists g, grid_of g [(0, 2)] [3%nat] [1/4; 1/2; 1/4] /\ total [1/4; 1/2; 1/4] * volume [(0, 2)] [3%nat] = 1 /\
  Forall (fun x => 0 < x) [1/4; 1/2; 1/4] /\ griddata_exact (@lookup_griddata R).
Proof.
  destruct (@new_grid R [(0, 2)] [3%nat] eq_refl ltac:(repeat constructor)) as (g & E & _).
  destruct (set_data_grid_of [(0, 2)] [3%nat] g (mkArr [3%nat] [1/4; 1/2; 1/4]) eq_refl ltac:(repeat constructor) E eq_refl) as (h & _ & H).
  exists h. split; [exact H|]. split; [cbn; lra|]. split; [repeat constructor; lra|exact lookup_exact].
Qed.

(** C66 *)
Theorem C66_sparsify :
  forall (gd : griddata_t R) nan g ranges ns v max_points, griddata_exact gd -> grid_of g ranges ns v -> (length ns <= 2)%nat ->
  increasing ranges -> length max_points = length ns -> usable_points max_points ->
  let ns' := map (fun nm => Nat.min (fst nm) (snd nm)) (combine ns max_points) in
  exists h u, sparsify gd nan g max_points = Ok h /\ grid_of h ranges ns' u /\
    forall idx idx', in_shape ns idx -> in_shape ns' idx' ->
      grid_point ranges ns idx = grid_point ranges ns' idx' -> entry ns' u idx' = entry ns v idx.
Proof. exact sparsify_spec. Qed.
Print Assumptions C66_sparsify.
Theorem C66_short :
  forall (gd : griddata_t R) nan g max_points, (length max_points < length (g_npoints g))%nat ->
  sparsify gd nan g max_points = Err IndexError.
Proof. exact (@sparsify_short R). Qed.
Print Assumptions C66_short.
(** All points of the sparser grid are points of the grid if the numbers of intervals divide each other. *)
Theorem C66_common_points :
  forall ranges ns ms idx', length ranges = length ns -> usable_points ms ->
  Forall2 (fun n m => Nat.divide (m - 1) (n - 1) /\ (2 <= n)%nat) ns ms -> in_shape ms idx' ->
  exists idx, in_shape ns idx /\ grid_point ranges ns idx = grid_point ranges ms idx'.
Proof. exact common_points. Qed.
Print Assumptions C66_common_points.

Example C66_case : Forall2 (fun n m => Nat.divide (m - 1) (n - 1) /\ (2 <= n)%nat) [501; 21]%nat [101; 21]%nat.
Proof. repeat constructor; try lia; [exists 5%nat|exists 1%nat]; reflexivity. Qed.
