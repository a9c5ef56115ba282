(** Properties C04 and C50 *)
From Coq Require Import Lia Lra.
From Verif Require Import PyBase Model_dyn Model_rec Model_pdist Spec_times Spec_traj Spec_box Spec_pdist
  Proof_pdist Proof_examples.
Open Scope R_scope.

(** C50: box membership is exact. *)
Theorem C50_pos_inside_ranges :
  forall n_dim pos ranges,
  Forall (fun st => length st = n_dim) ranges -> Forall (fun p => length p = n_dim) pos ->
  exists masks, pos_inside_ranges n_dim pos ranges = Ok masks /\
    Forall2 (fun st mask => length mask = length pos /\
       forall j, (j < length pos)%nat -> (nth j mask false = true <-> in_state st (nth j pos [])))
      ranges masks.
Proof. exact pos_inside_ranges_spec. Qed.
Print Assumptions C50_pos_inside_ranges.

(** particle counts are the numbers of walkers in the boxes *)
Theorem C50_count_particles :
  forall n_dim parts states,
  (0 < length parts)%nat ->
  Forall (fun st => length st = n_dim) states -> Forall (fun w => length (p_pos w) = n_dim) parts ->
  exists cs, count_particles n_dim parts states = Ok cs /\
    Forall2 (fun box c => counts (fun w => in_state box (p_pos w)) parts c) states cs.
Proof. exact count_particles_spec. Qed.
Print Assumptions C50_count_particles.

Theorem C50_disjoint_states :
  forall n_dim parts states cs,
  (0 < length parts)%nat ->
  Forall (fun st => length st = n_dim) states -> Forall (fun w => length (p_pos w) = n_dim) parts ->
  ForallOrdPairs (fun b1 b2 => forall p, ~ (in_state b1 p /\ in_state b2 p)) states ->
  count_particles n_dim parts states = Ok cs -> (list_sum cs <= length parts)%nat.
Proof. exact count_particles_disjoint. Qed.
Print Assumptions C50_disjoint_states.

Example C50_case :
  let w x y := mkP [x; y] [0; 0] 1 0 [] 0 in
  let st := [(Fin 0, Fin 1); (MInf, Fin 2)] in
  count_particles 2 [w 0 2; w 1 3; w (1/2) 1] [st] = Ok [2%nat] /\
  in_state st [0; 2] /\ ~ in_state st [1; 3].
Proof.
  cbv zeta. split; [|split].
  - cbn. unfold and_in_range, sum_bools; cbn.
    repeat (match goal with |- context [Rle_dec ?a ?b] => destruct (Rle_dec a b); try lra end; cbn).
    reflexivity.
  - split; [reflexivity|]. intros [|[|d]] Hd; cbn in *; try lra; lia.
  - intros [_ H]. specialize (H 1%nat ltac:(cbn; lia)). cbn in H. lra.
Qed.

(** C04, proved part: if n steps end on a write step or at least one stride after it, the
    file has exactly one row per multiple of the stride.  W is the write stride. *)
Theorem C04_particle_distribution_partial :
  forall n_dim states hist wstride junk single0 s W n,
  (forall k, (0 < length (hist k))%nat) ->
  Forall (fun st => length st = n_dim) states ->
  (forall k, Forall (fun w => length (p_pos w) = n_dim) (hist k)) ->
  (0 < s)%Z -> positive_option wstride -> W = option_or wstride (100 * s) ->
  (W mod s = 0)%Z -> (forall m, length (junk m) = m) -> (0 <= n)%Z ->
  (n mod W = 0 \/ s <= n mod W)%Z ->
  exists r0 r rows,
    (forall k, pdist_row_spec states (hist k) k (rows k)) /\
    pdist_init (Some s) wstride true junk single0 = Ok r0 /\
    pdist_simulation n_dim states hist n r0 = Ok r /\
    rc_file r = Some (map rows (times 0 n s)).
Proof. exact pdist_simulation_good. Qed.
Print Assumptions C04_particle_distribution_partial.

(** C04, refuted part: for all other n the file has W/s > 0 superfluous rows at the end
    (see C04_exact for their content). *)
Theorem C04_particle_distribution_refuted :
  forall n_dim states hist wstride junk single0 s W n,
  (forall k, (0 < length (hist k))%nat) ->
  Forall (fun st => length st = n_dim) states ->
  (forall k, Forall (fun w => length (p_pos w) = n_dim) (hist k)) ->
  (0 < s)%Z -> positive_option wstride -> W = option_or wstride (100 * s) ->
  (W mod s = 0)%Z -> (forall m, length (junk m) = m) -> (0 <= n)%Z ->
  (0 < n mod W < s)%Z ->
  exists r0 r rows extra,
    (forall k, pdist_row_spec states (hist k) k (rows k)) /\
    pdist_init (Some s) wstride true junk single0 = Ok r0 /\
    pdist_simulation n_dim states hist n r0 = Ok r /\
    rc_file r = Some (map rows (times 0 n s) ++ extra) /\
    Z.of_nat (length extra) = (W / s)%Z /\ (0 < W / s)%Z.
Proof. exact pdist_simulation_stale. Qed.
Print Assumptions C04_particle_distribution_refuted.

(** exact content for every n: the superfluous rows are those of the last complete cycle
    once more, or uninitialised memory if there was none *)
Theorem C04_exact :
  forall n_dim states hist stride wstride junk single0 s W n,
  (forall k, (0 < length (hist k))%nat) ->
  Forall (fun st => length st = n_dim) states ->
  (forall k, Forall (fun w => length (p_pos w) = n_dim) (hist k)) ->
  stride = Some s -> (0 < s)%Z -> positive_option wstride -> W = option_or wstride (100 * s) ->
  (W mod s = 0)%Z -> (forall m, length (junk m) = m) -> (0 <= n)%Z ->
  exists r0 r rows,
    (forall k, pdist_row_spec states (hist k) k (rows k)) /\
    pdist_init stride wstride true junk single0 = Ok r0 /\
    pdist_simulation n_dim states hist n r0 = Ok r /\
    rc_file r = Some (
      if (n mod W =? 0)%Z || (s <=? n mod W)%Z then map rows (times 0 n s)
      else map rows (times 0 (W * (n / W)) s) ++
           (if (n <? W)%Z then junk (Z.to_nat (W / s))
            else map rows (times (W * (n / W) - W) (W * (n / W)) s))).
Proof. exact pdist_simulation_file. Qed.
Print Assumptions C04_exact.

(** without a stride: one row at the end *)
Theorem C04_no_stride :
  forall n_dim states hist wstride junk single0 n,
  (forall k, (0 < length (hist k))%nat) ->
  Forall (fun st => length st = n_dim) states ->
  (forall k, Forall (fun w => length (p_pos w) = n_dim) (hist k)) -> (0 <= n)%Z ->
  exists r0 r row,
    pdist_row_spec states (hist n) n row /\
    pdist_init None wstride true junk single0 = Ok r0 /\
    pdist_simulation n_dim states hist n r0 = Ok r /\ rc_file r = Some [row].
Proof. exact pdist_simulation_once. Qed.
Print Assumptions C04_no_stride.

(** a walker moving through the states [2, 4] and [5, inf), another one at 5; stride 2, write stride 4: fine after 7 steps, doubled rows after 9 *)
Example C04_case : exists r0 r r',
  pdist_init (Some 2%Z) (Some 4%Z) true (fun m => repeat [7%Z] m) [] = Ok r0 /\
  pdist_simulation 1 climbing_states climbing 7 r0 = Ok r /\ rc_file r = Some [[2; 1; 1]; [4; 1; 1]; [6; 0; 2]]%Z /\
  pdist_simulation 1 climbing_states climbing 9 r0 = Ok r' /\
  rc_file r' = Some [[2; 1; 1]; [4; 1; 1]; [6; 0; 2]; [8; 0; 2]; [6; 0; 2]; [8; 0; 2]]%Z.
Proof. exact climbing_distribution. Qed.
