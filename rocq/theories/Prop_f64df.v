(** Free energy differences in float64 arithmetic, property C100 *)
From Verif Require Import Spec_f64df Proof_f64c Proof_f64sim2 Proof_f64df2.
From Coq Require Import Lia Lra.
Open Scope R_scope.

(** From the histogram to the differences: the FES is calculated and from it the difference of every state to the first one, with an error
    of at most 2 * 10^-9 kt, +inf for a state without samples, -inf if the first state has none and nan if both have none. *)
Theorem C100_delta_f : forall fexp flog np_sum kt data m1 ms,
  exp_ok fexp -> log_all_ok flog -> sums np_sum -> ends_ok fexp flog -> moderate kt ->
  data <> [] -> Forall (fun c => (0 <= c <= 2 ^ 53)%Z) data -> (Z.of_nat (length data) <= 2 ^ 20)%Z -> Forall (fun m => length m = length data) (m1 :: ms) ->
  exists fes ds, f_fes flog kt data = Ok fes /\ f_delta_f fexp flog np_sum fes kt (m1 :: ms) = Ok ds /\ length ds = length ms /\
    forall j, (j < length ms)%nat -> difference_ok kt (samples_in data (nth j ms [])) (samples_in data m1) (nth j ds fzero).
Proof. exact delta_f_float. Qed.
Print Assumptions C100_delta_f.

(** a mask of another length is an error *)
Theorem C100_bad_mask : forall fexp flog np_sum kt fes masks,
  Exists (fun m => length m <> length fes) masks -> f_delta_f fexp flog np_sum fes kt masks = Err IndexError.
Proof. exact delta_f_bad_mask. Qed.
Print Assumptions C100_bad_mask.

(** without states there are no differences *)
Theorem C100_no_states : forall fexp flog np_sum kt fes, f_delta_f fexp flog np_sum fes kt [] = Ok [].
Proof. exact delta_f_no_states. Qed.
Print Assumptions C100_no_states.

(** four bins, three states of which one has no samples *)
Example C100_case : exists fexp flog, exp_ok fexp /\ log_all_ok flog /\ sums left_sum /\ ends_ok fexp flog /\ moderate (f_of_Z 2) /\
  let data := [3; 0; 5; 2]%Z in
  Forall (fun c => (0 <= c <= 2 ^ 53)%Z) data /\ (Z.of_nat (length data) <= 2 ^ 20)%Z /\
  Forall (fun m => length m = length data) [[true; true; false; false]; [false; true; true; true]; [false; true; false; false]] /\
  map (samples_in data) [[true; true; false; false]; [false; true; true; true]; [false; true; false; false]] = [3; 7; 0]%Z.
Proof.
  destruct ends_inhabited as (fexp & flog & A & B & C). exists fexp, flog. split; [exact A|]. split; [exact B|]. split; [exact left_sum_sums|]. split; [exact C|].
  split; [apply moderate_Z; lia|]. split; [repeat (apply Forall_cons; [lia|]); apply Forall_nil|]. split; [cbn; lia|]. split; [repeat constructor|reflexivity].
Qed.
