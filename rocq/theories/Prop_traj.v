(** Properties C01 and C02 *)
From Coq Require Import Lia.
From Verif Require Import PyBase Model_valid Model_dyn Model_traj Spec_times Spec_traj Spec_trajrun
  Proof_valid Proof_trajrun Proof_examples.
Open Scope Z_scope.

(** C01.  For every number of steps, write stride, stride, number of walkers, with or
    without momentum, every history of walker states, every initial (uninitialised) buffer
    content and every pattern of manual writes: the run ends without exception and the file
    of each walker has exactly the rows of the multiples of the stride in 1..n. *)
Theorem C01_trajectory_files :
  forall dt hist manual n np stride momentum wstride times0 pos0 mom0,
  (0 < np)%nat -> 0 <= n ->
  positive_option stride -> positive_option wstride ->
  (forall k, length (hist k) = np) ->
  Z.of_nat (length times0) = option_or wstride 100 ->
  Z.of_nat (length pos0) = option_or wstride 100 ->
  Z.of_nat (length mom0) = option_or wstride 100 ->
  exists t,
    traj_simulation dt hist manual n
      (traj_init np stride true momentum wstride times0 pos0 mom0) = Ok t /\
    tr_files t = Some (traj_files dt momentum hist (option_or stride 1) n np).
Proof. exact traj_simulation_files. Qed.
Print Assumptions C01_trajectory_files.

(** ... and without a file name nothing is written. *)
Theorem C01_no_filename :
  forall dt hist manual n np stride momentum wstride times0 pos0 mom0,
  0 <= n ->
  positive_option stride -> positive_option wstride ->
  (forall k, length (hist k) = np) ->
  Z.of_nat (length times0) = option_or wstride 100 ->
  Z.of_nat (length pos0) = option_or wstride 100 ->
  Z.of_nat (length mom0) = option_or wstride 100 ->
  exists t,
    traj_simulation dt hist manual n
      (traj_init np stride false momentum wstride times0 pos0 mom0) = Ok t /\
    tr_files t = None.
Proof. exact traj_simulation_nofile. Qed.
Print Assumptions C01_no_filename.

(** two walkers, the first one moving; stride 3, write stride 4, 11 steps, two manual writes after step 5 *)
Open Scope R_scope.
Example C01_case : exists t,
  traj_simulation (1/2) climbing (fun k => if (k =? 5)%Z then 2%nat else 0%nat) 11
    (traj_init 2 (Some 3%Z) true true (Some 4%Z) [0; 0; 0; 0] [[]; []; []; []] [[]; []; []; []]) = Ok t /\
  tr_files t = Some [[[3 * (1/2); 3; 1]; [6 * (1/2); 6; 1]; [9 * (1/2); 9; 1]]; [[3 * (1/2); 5; 0]; [6 * (1/2); 5; 0]; [9 * (1/2); 5; 0]]].
Proof. exact climbing_files. Qed.
Open Scope Z_scope.

(** C02.  [data] is a ring buffer of length L with one row every [us] steps (wrapping time
    W = L*us), filled up to the current step; [f t] is the row stored at time t.
    Documented preconditions: the stride is a multiple of the update stride; the last write
    is not before the last rewrite from the beginning.
    The additional condition is that the current cycle has at least one row or that the last
    one is complete.  *)
Theorem C02_get_valid_data :
  forall A (data : list A) (f : Z -> A) step stride us lw,
  0 < us -> 0 < stride -> stride mod us = 0 -> data <> [] ->
  let W := Z.of_nat (length data) * us in
  0 <= lw -> cycle_start W step <= lw <= step ->
  (step mod W = 0 \/ us <= step mod W) ->
  buffer_holds data us f step ->
  get_valid_data data step stride us lw = Ok (map f (times lw step stride)).
Proof. exact @get_valid_data_correct. Qed.
Print Assumptions C02_get_valid_data.

(** The exceptional case: all rows of the buffer are returned although none is due. *)
Theorem C02_get_valid_data_stale :
  forall A (data : list A) step us lw,
  0 < us -> data <> [] ->
  let W := Z.of_nat (length data) * us in
  cycle_start W step <= lw < step -> 0 < step mod W < us ->
  get_valid_data data step us us lw = Ok data /\ times lw step us = [].
Proof. exact @get_valid_data_stale_times. Qed.
Print Assumptions C02_get_valid_data_stale.

(** hypotheses are met: 3 rows, update stride 2, stride 4, last write 6, step 11 *)
Example C02_case :
  let data := [8; 10; 6] in
  buffer_holds data 2 (fun t => t) 11 /\ cycle_start (3 * 2) 11 <= 6 <= 11 /\
  2 <= 11 mod 6 /\ get_valid_data data 11 4 2 6 = Ok [8].
Proof.
  cbv zeta. split; [|split; [|split]].
  - intros [|[|[|r]]] H1 H2; cbn in *; try reflexivity; lia.
  - vm_compute; split; congruence.
  - vm_compute; congruence.
  - reflexivity.
Qed.
(** stale case: last write 6, step 7 *)
Example C02_stale_case : get_valid_data [2; 4; 6] 7 2 2 6 = Ok [2; 4; 6] /\ times 6 7 2 = [].
Proof. split; reflexivity. Qed.
