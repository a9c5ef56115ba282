(** Properties of grids: C32-C36.  The auxiliary notions are in Spec_grid.v / Spec_gridops.v *)
From Coq Require Import Lra Lia.
From Verif Require Import PyBase Model_dyn Model_grid Model_potgrid Spec_grid Spec_gridops Proof_grid Proof_grid2.
Open Scope R_scope.

(** C32 in one and two dimensions: positive, normalised, and Boltzmann weights at the grid
    points in row-major order *)
Theorem C32_density_partial :
  forall pot kt ranges ns,
  length ranges = pot_ndim pot -> length ns = pot_ndim pot -> increasing ranges -> usable_points ns -> 0 < kt ->
  (pot_ndim pot <= 2)%nat ->
  exists g v Zc, calculate_probability_density pot kt ranges ns = Ok g /\ grid_of g ranges ns v /\
    Forall (fun x => 0 < x) v /\ total v * volume ranges ns = 1 /\ 0 < Zc /\
    forall idx, in_shape ns idx ->
      entry ns v idx = exp (- pot_energy pot (grid_point ranges ns idx) / kt) / Zc.
Proof. exact density_small. Qed.
Print Assumptions C32_density_partial.

(** C32 fails in three dimensions: two entries are equal although the energies at the
    corresponding grid points differ *)
Theorem C32_density_refuted : exists pot g idx1 idx2,
  pot_ndim pot = 3%nat /\
  calculate_probability_density pot 1 [(0, 1); (0, 1); (0, 1)] [2; 2; 2]%nat = Ok g /\
  in_shape [2; 2; 2]%nat idx1 /\ in_shape [2; 2; 2]%nat idx2 /\
  pot_energy pot (grid_point [(0, 1); (0, 1); (0, 1)] [2; 2; 2]%nat idx1)
  < pot_energy pot (grid_point [(0, 1); (0, 1); (0, 1)] [2; 2; 2]%nat idx2) /\
  entry [2; 2; 2]%nat (a_flat (g_data g)) idx1 = entry [2; 2; 2]%nat (a_flat (g_data g)) idx2.
Proof. exact density_3d_wrong. Qed.
Print Assumptions C32_density_refuted.

(** C32, exact behaviour in any dimension: the values are stored in the order in which
    points() lists the points *)
Theorem C32_density_exact :
  forall pot kt ranges ns,
  length ranges = pot_ndim pot -> length ns = pot_ndim pot -> increasing ranges -> usable_points ns -> 0 < kt ->
  exists g v Zc, calculate_probability_density pot kt ranges ns = Ok g /\ grid_of g ranges ns v /\
    Forall (fun x => 0 < x) v /\ total v * volume ranges ns = 1 /\ 0 < Zc /\
    forall idx, in_shape ns idx ->
      nth (flat_pos (listing ns) (listing idx)) v 0
      = exp (- pot_energy pot (grid_point ranges ns idx) / kt) / Zc.
Proof. exact density_any. Qed.
Print Assumptions C32_density_exact.

(** ranges or numbers of points that do not fit the dimension of the potential are rejected *)
Theorem C32_wrong_dimension :
  forall pot kt ranges ns, length ranges <> pot_ndim pot \/ length ns <> pot_ndim pot ->
  calculate_probability_density pot kt ranges ns = Err ValueError.
Proof. exact density_rejects. Qed.
Print Assumptions C32_wrong_dimension.

Example C32_case : exists pot : potential, pot_ndim pot = 2%nat /\
  length [(-2, 2); (-1, 3)] = pot_ndim pot /\ length [101; 51]%nat = pot_ndim pot /\
  increasing [(-2, 2); (-1, 3)] /\ usable_points [101; 51]%nat /\ (pot_ndim pot <= 2)%nat.
Proof.
  exists (mkPot 2 [] (fun p => nth 0 p 0 ^ 4 + nth 1 p 0) (fun _ => []) None). cbn. repeat split; try lia.
  - repeat constructor; cbn; lra.
  - repeat constructor; lia.
Qed.

(** C33 in one and two dimensions *)
Theorem C33_points_partial :
  forall A (g : grid A) ranges ns v idx, grid_of g ranges ns v -> (length ns <= 2)%nat -> in_shape ns idx ->
  length (points g) = size ns /\
  nth (flat_pos ns idx) (points g) [] = grid_point ranges ns idx.
Proof. exact @points_partial. Qed.
Print Assumptions C33_points_partial.

Theorem C33_points_refuted : exists (g : grid R) idx,
  from_npoints [(0, 1); (0, 1); (0, 1)] (NList [2; 2; 2]%nat) = Ok g /\ in_shape [2; 2; 2]%nat idx /\
  nth (flat_pos [2; 2; 2]%nat idx) (points g) [] <> grid_point [(0, 1); (0, 1); (0, 1)] [2; 2; 2]%nat idx.
Proof. exact points_3d_wrong. Qed.
Print Assumptions C33_points_refuted.

(** C33, exact order in any dimension *)
Theorem C33_points_exact :
  forall A (g : grid A) ranges ns v idx, grid_of g ranges ns v -> in_shape ns idx ->
  length (points g) = size ns /\
  nth (flat_pos (listing ns) (listing idx)) (points g) [] = grid_point ranges ns idx.
Proof. exact @points_any. Qed.
Print Assumptions C33_points_exact.

(** consequence: a function of the points set on a 1D or 2D grid is stored in row-major order *)
Theorem C33_set_from_func :
  forall A (f : list R -> A) (dflt : A) ranges ns (g : grid A), from_npoints ranges (NList ns) = Ok g ->
  length ranges = length ns -> usable_points ns -> (length ns <= 2)%nat ->
  exists h v, set_from_func g f = Ok h /\ grid_of h ranges ns v /\
    forall idx, in_shape ns idx -> nth (flat_pos ns idx) v dflt = f (grid_point ranges ns idx).
Proof. exact @set_from_func_grid. Qed.
Print Assumptions C33_set_from_func.

Example C33_case : exists g : grid R, grid_of g [(0, 1); (0, 2)] [2; 3]%nat [1; 2; 3; 4; 5; 6] /\ in_shape [2; 3]%nat [1; 2]%nat.
Proof.
  eexists (mkGrid (mkArr [2;3]%nat [1; 2; 3; 4; 5; 6]) [(0, 1); (0, 2)] [2; 3]%nat (spacings [(0, 1); (0, 2)] [2; 3]%nat) 2).
  split; [|repeat constructor]. unfold grid_of; cbn. repeat split. repeat constructor.
Qed.

(** C34 without shrink *)
Theorem C34_from_stepsizes :
  forall ranges steps, length ranges = length steps -> increasing ranges -> Forall (fun s => 0 < s) steps ->
  exists g : grid R, from_stepsizes ranges (SList steps) false = Ok g /\
    spaced ranges steps g (fun r s lst => snd r <= lst < snd r + s).
Proof. exact from_stepsizes_extend. Qed.
Print Assumptions C34_from_stepsizes.

(** a single step is used for all dimensions *)
Theorem C34_single_step :
  forall (ranges : list (R * R)) s shrink,
  @from_stepsizes R ranges (SOne s) shrink = from_stepsizes ranges (SList (repeat s (length ranges))) shrink.
Proof. exact from_stepsizes_one. Qed.
Print Assumptions C34_single_step.

(** C34 with shrink, if the steps do not fit exactly *)
Theorem C34_shrink_partial :
  forall ranges steps, length ranges = length steps -> increasing ranges -> Forall (fun s => 0 < s) steps ->
  (forall d, (d < length ranges)%nat -> forall k : Z, snd (nth d ranges (0,0)) - fst (nth d ranges (0,0)) <> IZR k * nth d steps 0) ->
  exists g : grid R, from_stepsizes ranges (SList steps) true = Ok g /\
    spaced ranges steps g (fun r s lst => snd r - s < lst <= snd r).
Proof. exact from_stepsizes_shrink_noexact. Qed.
Print Assumptions C34_shrink_partial.

(** C34 with shrink is false if the step fits: [0, 2] with step 1 *)
Theorem C34_shrink_refuted :
  exists g : grid R, from_stepsizes [(0, 2)] (SList [1]) true = Ok g /\
  ~ spaced [(0, 2)] [1] g (fun r s lst => snd r - s < lst <= snd r).
Proof. exact from_stepsizes_shrink_bad. Qed.
Print Assumptions C34_shrink_refuted.

(** C34 with shrink, exact: the last point is max - step exactly if the step fits *)
Theorem C34_shrink_exact :
  forall ranges steps, length ranges = length steps -> increasing ranges -> Forall (fun s => 0 < s) steps ->
  exists g : grid R, from_stepsizes ranges (SList steps) true = Ok g /\
    spaced ranges steps g (fun r s lst => snd r - s <= lst < snd r /\
      (lst = snd r - s <-> exists k : Z, snd r - fst r = IZR k * s)).
Proof. exact from_stepsizes_shrink. Qed.
Print Assumptions C34_shrink_exact.

Example C34_case : length [(0, 1)] = length [2/3] /\ increasing [(0, 1)] /\ Forall (fun s => 0 < s) [2/3] /\
  (forall d, (d < 1)%nat -> forall k : Z, snd (nth d [(0,1)] (0,0)) - fst (nth d [(0,1)] (0,0)) <> IZR k * nth d [2/3] 0).
Proof.
  split; [reflexivity|]. split; [repeat constructor; cbn; lra|]. split; [repeat constructor; lra|].
  intros d Hd k. destruct d; [|lia]. cbn. intros E. assert (3 = IZR (2 * k)) as E2 by (rewrite mult_IZR; lra).
  apply eq_IZR in E2. lia.
Qed.

(** C35: elementwise results on a grid with the same points *)
Theorem C35_number :
  forall A (d : A) g ranges ns v x op, grid_of g ranges ns v ->
  exists h, perform_arithmetic d g (ONum x) op = Ok h /\ grid_of h ranges ns (map (fun y => op y x) v).
Proof. exact @arith_number. Qed.
Print Assumptions C35_number.
Theorem C35_function :
  forall A (g : grid A) ranges ns v f, grid_of g ranges ns v ->
  exists h, perform_math g f = Ok h /\ grid_of h ranges ns (map f v).
Proof. exact @arith_self. Qed.
Print Assumptions C35_function.
Theorem C35_array :
  forall A (d : A) g ranges ns v w op, grid_of g ranges ns v -> length w = size ns ->
  exists h, perform_arithmetic d g (OArr (mkArr ns w)) op = Ok h /\
    grid_of h ranges ns (map (fun xy => op (fst xy) (snd xy)) (combine v w)).
Proof. exact @arith_arr. Qed.
Print Assumptions C35_array.
Theorem C35_grid :
  forall A (d : A) g g2 ranges ns v w op, grid_of g ranges ns v -> grid_of g2 ranges ns w ->
  exists h, perform_arithmetic d g (OGrid g2) op = Ok h /\
    grid_of h ranges ns (map (fun xy => op (fst xy) (snd xy)) (combine v w)).
Proof. exact @arith_grid. Qed.
Print Assumptions C35_grid.
Theorem C35_reject :
  forall A (d : A) g g2 ranges ns v r2 ns2 w op, grid_of g ranges ns v -> grid_of g2 r2 ns2 w ->
  ns2 <> ns \/ r2 <> ranges -> perform_arithmetic d g (OGrid g2) op = Err ValueError.
Proof. exact @arith_grid_reject. Qed.
Print Assumptions C35_reject.
Theorem C35_reject_other :
  forall A (d : A) g ranges ns v op, grid_of g ranges ns v -> perform_arithmetic d g OOther op = Err ValueError.
Proof. exact @arith_other. Qed.
Print Assumptions C35_reject_other.
(** two grids are equal if and only if they have the same ranges, numbers of points and data *)
Theorem C35_equality :
  forall A (eqb : A -> A -> bool) g g2 ranges ns v r2 ns2 w, (forall x y, eqb x y = true <-> x = y) ->
  grid_of g ranges ns v -> grid_of g2 r2 ns2 w ->
  (grid_eq eqb g g2 = true <-> ranges = r2 /\ ns = ns2 /\ v = w).
Proof. exact @grid_equality. Qed.
Print Assumptions C35_equality.
(** new grids and their data *)
Theorem C35_new_grid :
  forall A ranges ns, length ranges = length ns -> usable_points ns ->
  exists g : grid A, from_npoints ranges (NList ns) = Ok g /\
  g_ranges g = ranges /\ g_npoints g = ns /\ g_ndim g = length ns /\ g_steps g = spacings ranges ns.
Proof. exact @new_grid. Qed.
Print Assumptions C35_new_grid.
Theorem C35_set_data :
  forall A ranges ns (g0 : grid A) v, length ranges = length ns -> usable_points ns ->
  from_npoints ranges (NList ns) = Ok g0 -> length (a_flat v) = size ns ->
  exists g, set_data g0 v = Ok g /\ grid_of g ranges ns (a_flat v).
Proof. exact @set_data_grid_of. Qed.
Print Assumptions C35_set_data.
Theorem C35_wrong_size :
  forall A ranges ns (g0 : grid A) v,
  from_npoints ranges (NList ns) = Ok g0 -> length (a_flat v) <> size ns -> set_data g0 v = Err ValueError.
Proof. exact @set_data_wrong. Qed.
Print Assumptions C35_wrong_size.
Theorem C35_wrong_dimension :
  forall A ranges ns, length ranges <> length ns -> @from_npoints A ranges (NList ns) = Err ValueError.
Proof. exact @from_npoints_mismatch. Qed.
Print Assumptions C35_wrong_dimension.

(** C36: the smaller grid gs may be the first or the second argument *)
Theorem C36_valid_convolution :
  forall gl gs rl nl vl ns vs g1 g2,
  grid_of gl rl nl vl -> a_shape (g_data gs) = ns -> g_npoints gs = ns -> a_flat (g_data gs) = vs -> length vs = size ns ->
  g_steps gs = spacings rl nl -> nl <> [] -> Forall2 (fun l s => (s < l)%nat) nl ns ->
  (g1 = gl /\ g2 = gs) \/ (g1 = gs /\ g2 = gl) ->
  exists h r v, convolve g1 g2 MValid = Ok h /\
    let n := map (fun p => (fst p - snd p + 1)%nat) (combine nl ns) in
    grid_of h r n v /\ spacings r n = spacings rl nl /\
    Forall2 (fun r' r0 => fst r' + snd r' = fst r0 + snd r0) r rl /\
    forall idx, in_shape n idx ->
      entry n v idx = nsum ns (fun j => entry nl vl (partner idx ns j) * entry ns vs j) * volume rl nl.
Proof. exact convolve_valid_ok. Qed.
Print Assumptions C36_valid_convolution.
Theorem C36_different_spacing :
  forall g1 g2 m, g_steps g1 <> g_steps g2 -> convolve g1 g2 m = Err ValueError.
Proof. exact convolve_spacing. Qed.
Print Assumptions C36_different_spacing.
(** mode 'same': the points of the first grid, zero padding, centered kernel *)
Theorem C36_same_convolution :
  forall gl gs rl nl vl ns vs,
  grid_of gl rl nl vl -> a_shape (g_data gs) = ns -> a_flat (g_data gs) = vs -> length vs = size ns ->
  length ns = length nl -> g_steps gs = spacings rl nl ->
  exists h v, convolve gl gs MSame = Ok h /\ grid_of h rl nl v /\
    forall idx, in_shape nl idx ->
      entry nl v idx = nsum ns (fun j => padded_entry nl vl (centered_partner idx ns j) * entry ns vs j) * volume rl nl.
Proof. exact convolve_same_ok. Qed.
Print Assumptions C36_same_convolution.
(** if the grids have the same number of points in some dimension there is no grid with the
    spacing of the inputs (a single point); the function fails *)
Theorem C36_equal_size :
  forall gl gs rl nl vl ns vs,
  grid_of gl rl nl vl -> length (g_ranges gs) = length nl -> a_shape (g_data gs) = ns -> g_npoints gs = ns ->
  a_flat (g_data gs) = vs -> length vs = size ns ->
  g_steps gs = spacings rl nl -> Forall2 (fun l s => (s <= l)%nat) nl ns ->
  (exists d, (d < length nl)%nat /\ nth d nl 0%nat = nth d ns 0%nat) ->
  convolve gl gs MValid = Err ZeroDivisionError.
Proof. exact convolve_equal_size. Qed.
Print Assumptions C36_equal_size.

Example C36_case : exists gl gs : grid R,
  grid_of gl [(0, 3)] [4]%nat [1; 2; 3; 4] /\ a_shape (g_data gs) = [2]%nat /\ g_npoints gs = [2]%nat /\
  a_flat (g_data gs) = [1; 1] /\ g_steps gs = spacings [(0, 3)] [4]%nat /\ Forall2 (fun l s => (s < l)%nat) [4]%nat [2]%nat.
Proof.
  exists (mkGrid (mkArr [4]%nat [1;2;3;4]) [(0,3)] [4]%nat (spacings [(0,3)] [4]%nat) 1),
         (mkGrid (mkArr [2]%nat [1;1]) [(0,1)] [2]%nat (spacings [(0,3)] [4]%nat) 1).
  unfold grid_of; cbn. repeat split; repeat constructor.
Qed.
