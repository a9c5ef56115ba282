(** Cases for Prop_f64ld.v *)
From Coq Require Import Lia Lra Reals ZArith.
From Verif Require Import PyBase Model_dyn Model_grid Model_pot Model_f64 Model_f64ld Spec_grid Spec_pot Spec_f64 Spec_f64ld.
From Verif Require Import Proof_f64 Proof_f64b Proof_f64f Proof_f64g Proof_f64j Proof_f64k Proof_f64l Proof_f64m Proof_f64q.
From Flocq Require Import Core.Core IEEE754.BinarySingleNaN.
Open Scope R_scope.
Ltac Zify.zify_post_hook ::= idtac.
#[local] Arguments bpow : simpl never.

(** double well: x - 4 x^2 + x^4 *)
Definition demo_well : arr f64 := mkArr [5%nat] [fzero; f_of_Z 1; f_of_Z (-4); fzero; f_of_Z 1].
(** 1 + 2 y + 3 x + 4 x y *)
Definition demo_poly2 : arr f64 := mkArr [2; 2]%nat [f_of_Z 1; f_of_Z 2; f_of_Z 3; f_of_Z 4].

Lemma bounded_Z b z : (Z.abs z <= 2 ^ b)%Z -> (0 <= b <= 53)%Z -> bounded (bpow radix2 b) (f_of_Z z).
Proof.
  intros H Hb. assert (2 ^ b <= 2 ^ 53)%Z by (apply Z.pow_le_mono_r; lia). destruct (of_Z_small z) as [F V]; [lia|]. split; [exact F|]. rewrite V, <- abs_IZR.
  rewrite <- (IZR_Zpower radix2 b) by lia. apply IZR_le. exact H.
Qed.
Lemma bounded_0 b : bounded (bpow radix2 b) fzero.
Proof. split; [reflexivity|]. change (val fzero) with 0. rewrite Rabs_R0. apply bpow_ge_0. Qed.
Lemma bounded_half b : (0 <= b)%Z -> bounded (bpow radix2 b) fhalf.
Proof. intros H. destruct fhalf_val as [F V]. split; [exact F|]. rewrite V, Rabs_pos_eq by lra. apply Rle_trans with (bpow radix2 0); [change (bpow radix2 0) with 1; lra|now apply bpow_le]. Qed.

Lemma well_ok : poly_ok 2 demo_well.
Proof.
  split; [repeat constructor; lia|]. split; [reflexivity|]. split.
  - cbn [demo_well a_flat]. repeat (constructor; [first [apply bounded_0|apply bounded_Z; lia]|]). constructor.
  - cbn. lia.
Qed.
Lemma poly2_ok : poly_ok 2 demo_poly2.
Proof.
  split; [repeat constructor; lia|]. split; [reflexivity|]. split.
  - cbn [demo_poly2 a_flat]. repeat (constructor; [apply bounded_Z; lia|]). constructor.
  - cbn. lia.
Qed.

Lemma langevin_case : let ranges := [(f_of_Z (-3), f_of_Z 3)] in let dt := fmake 1 (-7) in
  (exists fexp, exp_ok fexp) /\ finite dt /\ bpow radix2 (-100) <= val dt <= bpow radix2 100 /\
  finite (f_of_Z 10) /\ 0 <= val (f_of_Z 10) /\ val (f_of_Z 10) * val dt <= bpow radix2 900 /\
  finite (f_of_Z 1) /\ bpow radix2 (-100) <= val (f_of_Z 1) <= bpow radix2 100 /\
  poly_ok 2 demo_well /\ length ranges = length (a_shape demo_well) /\
  Forall (fun r => bounded (bpow radix2 2) (fst r) /\ bounded (bpow radix2 2) (snd r) /\ val (fst r) <= val (snd r)) ranges /\
  Forall (fun n => noise_for ranges (fst n) /\ noise_for ranges (snd n)) [([fhalf], [fopp fhalf]); ([f_of_Z (-1)], [fzero])] /\
  in_box ranges [fhalf].
Proof.
  cbv zeta. destruct (fmake_val 1 (-7)) as [Fd Vd]; [lia..|]. rewrite Rmult_1_l in Vd. destruct (of_Z_small 10) as [F10 V10]; [lia|]. destruct (of_Z_small 1) as [F1 V1]; [lia|].
  destruct (of_Z_small (-3)) as [F3 V3]; [lia|]. destruct (of_Z_small 3) as [F3' V3']; [lia|]. destruct fhalf_val as [Fh Vh].
  assert (B1 : forall k, (k <= 0)%Z -> bpow radix2 k <= 1) by (intros; change 1 with (bpow radix2 0); now apply bpow_le).
  assert (B2 : forall k, (0 <= k)%Z -> 1 <= bpow radix2 k) by (intros; change 1 with (bpow radix2 0); now apply bpow_le).
  split; [exact exp_ok_inhabited|]. split; [exact Fd|]. rewrite Vd, V10, V1.
  split; [split; apply bpow_le; lia|]. split; [exact F10|]. split; [lra|].
  split. { apply Rle_trans with (bpow radix2 4 * bpow radix2 (-7)); [apply Rmult_le_compat_r; [apply bpow_ge_0|change (bpow radix2 4) with 16; lra]|rewrite <- bpow_plus; apply bpow_le; lia]. }
  split; [exact F1|]. split; [split; [apply B1|apply B2]; lia|]. split; [exact well_ok|]. split; [reflexivity|].
  split. { constructor; [|constructor]. cbn [fst snd]. split; [apply bounded_Z; lia|]. split; [apply bounded_Z; lia|]. rewrite V3, V3'. lra. }
  split.
  { assert (N : forall x, bounded (bpow radix2 10) x -> noise_for [(f_of_Z (-3), f_of_Z 3)] [x]) by (intros x Hx; split; [reflexivity|constructor; [exact Hx|constructor]]).
    constructor; [|constructor; [|constructor]]; cbn [fst snd]; split; apply N.
    - apply bounded_half; lia.
    - split; [now apply fopp_finite|]. rewrite fopp_val, Rabs_Ropp. apply bounded_half; lia.
    - apply bounded_Z; lia.
    - apply bounded_0. }
  constructor; [|constructor]. split; cbn [fst snd]; apply fle_val; try assumption; rewrite ?V3, ?V3', Vh; lra.
Qed.

Lemma poly_case : poly_ok 2 demo_poly2 /\ length [f_of_Z 2; f_of_Z 3] = length (a_shape demo_poly2) /\
  Forall (bounded (bpow radix2 2)) [f_of_Z 2; f_of_Z 3] /\ exact_poly demo_poly2 [2; 3] = 37 /\
  feq (f_poly_energy demo_poly2 [f_of_Z 2; f_of_Z 3]) (f_of_Z 37) = true /\
  map (fun f => feq f (f_of_Z (-15))) (f_poly_force demo_poly2 [f_of_Z 2; f_of_Z 3]) = [true; false].
Proof.
  split; [exact poly2_ok|]. split; [reflexivity|]. split; [repeat (constructor; [apply bounded_Z; lia|]); constructor|]. split.
  - unfold exact_poly, demo_poly2. cbn [a_shape a_flat map]. rewrite (proj2 (of_Z_small 1 ltac:(lia))), (proj2 (of_Z_small 2 ltac:(lia))), (proj2 (of_Z_small 3 ltac:(lia))), (proj2 (of_Z_small 4 ltac:(lia))).
    cbv -[Rplus Rmult IZR pow]. cbn [pow]. lra.
  - split; vm_compute; reflexivity.
Qed.

Lemma force_all coeffs a pos d : poly_ok a coeffs -> length pos = length (a_shape coeffs) -> Forall (bounded (bpow radix2 a)) pos -> (d < length pos)%nat ->
  exists F D D', nth_error (f_poly_force coeffs pos) d = Some F /\ finite F /\
  derivable_pt_lim (fun t => exact_poly coeffs (moved (map val pos) d t)) (nth d (map val pos) 0) D /\
  derivable_pt_lim (fun t => abs_poly coeffs (moved (map Rabs (map val pos)) d t)) (nth d (map Rabs (map val pos)) 0) D' /\
  Rabs (val F - - D) <= INR (fold_right Nat.add 0%nat (a_shape coeffs) + 1) * / 2 ^ 51 * D' + bpow radix2 (-900).
Proof.
  intros OK L HP Hd. destruct (force_entry a coeffs pos OK L HP d Hd) as (F & D & D' & E & [Fi _] & H1 & H2 & H3). exists F, D, D'. repeat split; assumption.
Qed.
Lemma energy_all' coeffs a pos : poly_ok a coeffs -> length pos = length (a_shape coeffs) -> Forall (bounded (bpow radix2 a)) pos ->
  finite (f_poly_energy coeffs pos) /\
  Rabs (val (f_poly_energy coeffs pos) - exact_poly coeffs (map val pos)) <=
    INR (fold_right Nat.add 0%nat (a_shape coeffs)) * / 2 ^ 51 * abs_poly coeffs (map Rabs (map val pos)) + bpow radix2 (-900).
Proof. intros OK L HP. exact (energy_all a coeffs pos OK L HP). Qed.
