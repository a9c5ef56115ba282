(** Properties C29-C31, C54 and C58: potentials *)
From Coq Require Import Lia Lra.
From Verif Require Import PyBase Model_dyn Model_grid Model_pot Spec_grid Spec_pot Proof_pot.
Open Scope R_scope.

(** C29: a polynomial potential in 1, 2 or 3 dimensions has the energy sum c_ijk x^i y^j z^k and
    its force is minus the gradient *)
Theorem C29_polynomial :
  forall c ranges bc, (1 <= length (a_shape c) <= 3)%nat -> Forall (fun n => (0 < n)%nat) (a_shape c) ->
  exists pot, poly_init c ranges bc = Ok pot /\ pot_ndim pot = length (a_shape c) /\ pot_bc pot = bc /\
    pot_ranges pot = match ranges with Some r => r | None => [] end /\
    forall pos, length pos = pot_ndim pot ->
      pot_energy pot pos = polynomial (a_shape c) (a_flat c) pos /\
      is_minus_gradient (pot_energy pot) pos (pot_force pot pos) /\
      evaluate pot pos = (pot_energy pot pos, pot_force pot pos).
Proof. exact poly_potential. Qed.
Print Assumptions C29_polynomial.

(** arrays of other dimensions are rejected *)
Theorem C29_rejected :
  forall c ranges bc, (3 < length (a_shape c) -> poly_init c ranges bc = Err NotImplementedError)%nat /\
  (length (a_shape c) = 0%nat -> poly_init c ranges bc = Err ValueError).
Proof. exact poly_rejected. Qed.
Print Assumptions C29_rejected.

(** 1 + 2 y + 3 x + 4 x y + 5 x^2 + 6 x^2 y at (2, 3) *)
Example C29_case : let c := mkArr [3; 2]%nat [1; 2; 3; 4; 5; 6] in
  poly_energy c [2; 3] = 129 /\ poly_force c [2; 3] = [- 107; - 34].
Proof. cbn. split; [lra|]. f_equal; [lra|]. f_equal. lra. Qed.

(** C30: Mueller-Brown, for every value of the global amplitudes *)
Theorem C30_force :
  forall A x y, is_minus_gradient (mb_energy A) [x; y] (mb_force A [x; y]).
Proof. exact mb_gradient. Qed.
Print Assumptions C30_force.

Theorem C30_evaluate :
  forall A pos, mb_evaluate A pos = (mb_energy A pos, mb_force A pos).
Proof. exact mb_evaluate_eq. Qed.
Print Assumptions C30_evaluate.

(** C31: "a potential created with factor s has s times the energy and force, independent of other
    potentials" is false: the constant shift is not scaled, *)
Theorem C31_scaling_refuted :
  ~ forall s p, s <> 0 -> length p = 2%nat -> mb_energy (mb_inits mb_A0 [Some s]) p = s * mb_energy mb_A0 p.
Proof. exact mb_single_refuted. Qed.
Print Assumptions C31_scaling_refuted.

(** potentials created later change existing ones, *)
Theorem C31_shared_refuted :
  ~ forall s1 s2 p, length p = 2%nat ->
    mb_energy (mb_inits mb_A0 [Some s1; Some s2]) p = mb_energy (mb_inits mb_A0 [Some s1]) p.
Proof. exact mb_shared_refuted. Qed.
Print Assumptions C31_shared_refuted.

(** and factor zero is ignored *)
Theorem C31_zero :
  forall p, mb_inits mb_A0 [Some 0] = mb_A0 /\ mb_energy (mb_inits mb_A0 [Some 0]) p = mb_energy mb_A0 p.
Proof. exact mb_zero. Qed.
Print Assumptions C31_zero.

(** the part that holds: for the first and only potential forces and energy differences are scaled *)
Theorem C31_single_partial :
  forall s p q, s <> 0 -> length p = 2%nat -> length q = 2%nat -> let A := mb_inits mb_A0 [Some s] in
  mb_energy A p - mb_energy A q = s * (mb_energy mb_A0 p - mb_energy mb_A0 q) /\
  mb_force A p = map (fun f => s * f) (mb_force mb_A0 p).
Proof. exact mb_single. Qed.
Print Assumptions C31_single_partial.

(** after any sequence of constructor calls all potentials are scaled by the product of all factors
    so far, without the shift *)
Theorem C31_scaling_exact :
  forall fs x y, let A := mb_inits mb_A0 fs in
  let s := fold_right Rmult 1 (map (fun f => match f with Some s => if Req_EM_T s 0 then 1 else s | None => 1 end) fs) in
  mb_energy A [x; y] = s * (mb_energy mb_A0 [x; y] - mb_shift) + mb_shift /\
  mb_force A [x; y] = map (fun f => s * f) (mb_force mb_A0 [x; y]).
Proof. exact mb_exact. Qed.
Print Assumptions C31_scaling_exact.

Example C31_case : 2 <> 0 /\ length [0; 1/2] = 2%nat /\ mb_energy mb_A0 [0; 1/2] < mb_shift.
Proof. split; [lra|]. split; [reflexivity|exact mb_negative]. Qed.

(** C58: the energy is not the documented sum, not even up to a constant *)
Theorem C58_documented_refuted :
  ~ exists k, forall x y, mb_energy mb_A0 [x; y] = mb_documented x y + k.
Proof. exact mb_documented_refuted. Qed.
Print Assumptions C58_documented_refuted.

(** the third amplitude is -175 instead of -170 and a constant is added *)
Theorem C58_documented_exact :
  forall x y, mb_energy mb_A0 [x; y] = mb_documented x y - 5 * mb_term3 x y + 30.33319242243656.
Proof. exact mb_documented_exact. Qed.
Print Assumptions C58_documented_exact.

(** C54: coefficient files with at least two lines *)
Theorem C54_coefficient_file_partial :
  forall lines n, (1 <= n)%nat -> (2 <= length lines)%nat ->
  Forall (fun l => length (orders l) = n) lines ->
  (forall l l', In l lines -> In l' lines -> length (snd l) = length (snd l')) ->
  exists coeffs, coefficients_from_file (map line_numbers lines) n = Ok coeffs /\
    a_shape coeffs = map (fun d => S (highest lines d)) (seq 0 n) /\ length (a_flat coeffs) = size (a_shape coeffs) /\
    (forall l, In l lines -> in_shape (a_shape coeffs) (orders l)) /\
    forall idx, in_shape (a_shape coeffs) idx ->
      entry (a_shape coeffs) (a_flat coeffs) idx = match listed lines idx with Some v => v | None => 0 end.
Proof. exact coefficient_file. Qed.
Print Assumptions C54_coefficient_file_partial.

(** ... define the potential with the listed coefficients *)
Theorem C54_file_potential_partial :
  forall lines n ranges bc, (1 <= n <= 3)%nat -> (2 <= length lines)%nat ->
  Forall (fun l => length (orders l) = n) lines ->
  (forall l l', In l lines -> In l' lines -> length (snd l) = length (snd l')) ->
  exists coeffs pot, coefficients_from_file (map line_numbers lines) n = Ok coeffs /\ poly_init coeffs ranges bc = Ok pot /\
    pot_ndim pot = n /\ forall pos, length pos = n ->
      pot_energy pot pos = nsum (map (fun d => S (highest lines d)) (seq 0 n))
        (fun idx => match listed lines idx with Some v => v | None => 0 end * monomial pos idx) /\
      is_minus_gradient (pot_energy pot) pos (pot_force pot pos).
Proof. exact file_potential. Qed.
Print Assumptions C54_file_potential_partial.

(** a file with one line is not accepted *)
Theorem C54_coefficient_file_refuted :
  ~ forall lines n, (1 <= n)%nat -> (1 <= length lines)%nat ->
    Forall (fun l => length (orders l) = n) lines ->
    (forall l l', In l lines -> In l' lines -> length (snd l) = length (snd l')) ->
    exists coeffs, coefficients_from_file (map line_numbers lines) n = Ok coeffs.
Proof. exact coefficient_file_refuted. Qed.
Print Assumptions C54_coefficient_file_refuted.

Theorem C54_single_line_exact :
  forall l n, coefficients_from_file [line_numbers l] n = Err IndexError.
Proof. exact coefficient_file_single. Qed.
Print Assumptions C54_single_line_exact.

(** three lines, the first one is overwritten by the last *)
Example C54_case : let lines := [([0; 2]%nat, 5, [9]); ([1; 0]%nat, 7, [9]); ([0; 2]%nat, 6, [9])] in
  Forall (fun l => length (orders l) = 2%nat) lines /\ (forall l l', In l lines -> In l' lines -> length (snd l) = length (snd l')) /\
  map (fun d => S (highest lines d)) (seq 0 2) = [2; 3]%nat /\ listed lines [0; 2]%nat = Some 6 /\ listed lines [1; 1]%nat = None.
Proof.
  cbv zeta. split; [repeat constructor|]. split; [|repeat split].
  intros l l' [<-|[<-|[<-|[]]]] [<-|[<-|[<-|[]]]]; reflexivity.
Qed.
