(** Grids with given step size in float64 numbers *)
From Coq Require Import Lia Lra Reals ZArith.
From Verif Require Import PyBase Model_f64 Model_f64grid Spec_f64 Spec_f64grid Proof_f64 Proof_f64b Proof_f64i Proof_f64j.
From Flocq Require Import Core.Core IEEE754.BinarySingleNaN.
Open Scope R_scope.
Ltac Zify.zify_post_hook ::= idtac.

Lemma f_int_ceil_val x : finite x -> 0 <= val x <= 2 ^ 52 -> exists z, f_int_ceil x = Ok z /\ (0 <= z)%Z /\ IZR z - 1 < val x <= IZR z.
Proof.
  intros Fx [H0 H1]. destruct (f_int_val x Fx H0) as (c & E & Pc & Bc). unfold f_int_ceil. rewrite E. cbn [bind].
  assert (Lc : (c <= 2 ^ 52)%Z). { apply le_IZR. rewrite (pow_val 52) in H1. change (Z.of_nat 52) with 52%Z in H1. lra. }
  destruct (f_of_Z_val c) as [Fc Vc]; [lia|].
  destruct (flt (f_of_Z c) x) eqn:L.
  - apply flt_val in L; [|assumption..]. rewrite Vc in L. exists (c + 1)%Z. split; [reflexivity|]. split; [lia|]. rewrite plus_IZR. lra.
  - apply flt_false in L; [|assumption..]. rewrite Vc in L. exists c. split; [reflexivity|]. split; [exact Pc|]. lra.
Qed.

Section stepsize.
Context (lo hi s : f64) (shrink : bool).
Context (Flo : finite lo) (Fhi : finite hi) (Fs : finite s).
Let D := val hi - val lo.
Let Q := (val hi - val lo) / val s.
Let T := Rabs (val lo) + Rabs (val hi) + val s.
Context (Hlt : val lo < val hi) (Hs : bpow radix2 (-900) <= val s) (HT : Rabs (val lo) + Rabs (val hi) + val s <= bpow radix2 1000).
Context (HQ : / 2 ^ 50 <= (val hi - val lo) / val s <= 2 ^ 49).

Lemma D_T : 0 < D /\ D <= T /\ 0 < val s /\ val s <= T.
Proof using All.
  unfold D, T. pose proof (Rle_abs (val hi)). pose proof (Rle_abs (- val lo)) as X. rewrite Rabs_Ropp in X. pose proof (bpow_gt_0 radix2 (-900)). pose proof (Rabs_pos (val lo)). pose proof (Rabs_pos (val hi)). lra.
Qed.
Lemma sQ : val s * Q = D. Proof using All. destruct D_T as (_ & _ & P & _). unfold Q, D. field. lra. Qed.

Let quot := fdiv (fsub hi lo) s.
Lemma quot_val : finite quot /\ Rabs (val quot - Q) <= 3 * U * Q.
Proof using All.
  destruct D_T as (PD & LD & Ps & Ls). fold Q in HQ. fold T in HT.
  pose proof (rnd_plus_err hi (fopp lo)) as E. rewrite fopp_val in E. replace (val hi + - val lo) with D in E by (unfold D; lra). rewrite (Rabs_pos_eq D) in E by lra.
  assert (B : Rabs (rnd D) < bpow radix2 1024).
  { apply Rle_lt_trans with (2 * bpow radix2 1000); [|rewrite <- bpow_1001; apply bpow_big].
    apply Rabs_le_inv in E. unfold U in E. pose proof (bpow_gt_0 radix2 1000). apply Rabs_le. lra. }
  destruct (fsub_val hi lo Fhi Flo B) as [Fd Vd]. fold D in Vd. set (d := fsub hi lo) in *.
  set (q := val d / val s).
  assert (Eq : Rabs (q - Q) <= U * Q).
  { unfold q, Q. fold D. replace (val d / val s - D / val s) with ((val d - D) * / val s) by (field; lra). rewrite Rabs_mult, (Rabs_pos_eq (/ val s)).
    - replace (U * (D / val s)) with (U * D * / val s) by (field; lra). apply Rmult_le_compat_r; [apply Rlt_le, Rinv_0_lt_compat; lra|]. rewrite Vd. exact E.
    - apply Rlt_le, Rinv_0_lt_compat. lra. }
  assert (Pq : Q / 2 <= q <= 2 * Q) by (apply Rabs_le_inv in Eq; unfold U in Eq; lra).
  assert (Er : Rabs (rnd q - q) <= U * q).
  { rewrite <- (Rabs_pos_eq q) at 3 by lra. apply rnd_err_normal. rewrite (Rabs_pos_eq q) by lra.
    apply Rle_trans with (bpow radix2 (-51)); [apply bpow_le; lia|]. replace (bpow radix2 (-51)) with (/ 2 ^ 51).
    - lra.
    - change (-51)%Z with (- (51))%Z. rewrite bpow_opp. f_equal. change 51%Z with (Z.of_nat 51). apply pow2_bpow. }
  assert (Es : Rabs (rnd q - Q) <= 3 * U * Q).
  { unfold U in *. apply Rabs_le_inv in Er. apply Rabs_le_inv in Eq. apply Rabs_le. lra. }
  assert (B2 : Rabs (rnd q) < bpow radix2 1024).
  { apply Rle_lt_trans with (2 ^ 51); [apply Rabs_le_inv in Es; unfold U in Es; apply Rabs_le; lra|].
    rewrite pow2_bpow. apply bpow_lt. reflexivity. }
  destruct (fdiv_val d s Fd Fs) as [F V]; [lra|exact B2|]. fold quot in F, V. fold q in V. split; [exact F|]. rewrite V. exact Es.
Qed.

Lemma ceil_val : exists z, f_int_ceil quot = Ok z /\ (0 <= z)%Z /\ IZR z - 1 < Q * (1 + 3 * U) /\ Q * (1 - 3 * U) <= IZR z.
Proof using All.
  destruct quot_val as [F E]. fold Q in HQ. apply Rabs_le_inv in E. destruct (f_int_ceil_val quot F) as (z & Ez & Pz & Bz); [unfold U in E; lra|].
  exists z. split; [exact Ez|]. split; [exact Pz|]. lra.
Qed.

Let k := if shrink then 1%Z else 0%Z.
Lemma from_stepsize_all : exists n last, f_from_stepsize (lo, hi) s shrink = Ok (n, (lo, last)) /\ finite last /\
  (forall c, is_ceil ((val hi - val lo) / val s) c -> (Z.abs (n - (c + 1 - k)) <= 1)%Z) /\
  val hi - IZR k * val s - (Rabs (val lo) + Rabs (val hi) + val s) * / 2 ^ 49 <= val last <
    val hi + (1 - IZR k) * val s + (Rabs (val lo) + Rabs (val hi) + val s) * / 2 ^ 49 /\
  (forall c, is_ceil ((val hi - val lo) / val s) c ->
     (forall i, (val hi - val lo) / val s * / 2 ^ 51 < Rabs ((val hi - val lo) / val s - IZR i)) -> n = (c + 1 - k)%Z).
Proof using All.
  destruct D_T as (PD & LD & Ps & Ls). pose proof sQ as SQ. fold T. fold Q in HQ |- *. fold T in HT.
  destruct ceil_val as (z & Ez & Pz & Z1 & Z2). unfold f_from_stepsize.
  replace (feq s fzero) with false by (symmetry; apply Bool.not_true_iff_false; rewrite feq_val by (assumption || reflexivity); change (val fzero) with 0; lra).
  fold quot. rewrite Ez. cbn [bind]. fold k. replace (z + 1 - k - 1)%Z with (z - k)%Z by ring.
  assert (Kk : (0 <= k <= 1)%Z) by (unfold k; destruct shrink; lia). assert (KR : 0 <= IZR k <= 1) by (split; apply IZR_le; lia).
  assert (ZB : (z <= 2 ^ 50)%Z). { apply le_IZR. replace (IZR (2 ^ 50)) with (2 ^ 50) by (rewrite (pow_val 50); reflexivity). unfold U in Z1. lra. }
  destruct (f_of_Z_val (z - k)) as [Fz Vz]; [lia|]. rewrite minus_IZR in Vz.
  set (a := val s * (IZR z - IZR k)).
  assert (SZ : D * (1 - 3 * U) <= val s * IZR z < D * (1 + 3 * U) + val s).
  { split.
    - rewrite <- SQ. rewrite Rmult_assoc. apply Rmult_le_compat_l; lra.
    - rewrite <- SQ. replace (val s * Q * (1 + 3 * U) + val s) with (val s * (Q * (1 + 3 * U) + 1)) by ring. apply Rmult_lt_compat_l; lra. }
  assert (Ka : val s * IZR k <= val s) by (rewrite <- (Rmult_1_r (val s)) at 2; apply Rmult_le_compat_l; lra).
  assert (Kb : 0 <= val s * IZR k) by (apply Rmult_le_pos; lra).
  assert (Ea : a = val s * IZR z - val s * IZR k) by (unfold a; ring).
  assert (Ba : Rabs a <= 3 * T). { unfold U in SZ. apply Rabs_le. lra. }
  assert (Er : Rabs (rnd a - a) <= U * Rabs a).
  { destruct (Z.eq_dec (z - k) 0) as [E0|N0].
    - assert (a = 0) as ->. { unfold a. rewrite <- minus_IZR, E0. ring. } rewrite rnd_0, Rminus_0_r, Rabs_R0. lra.
    - apply rnd_err_normal. unfold a. rewrite Rabs_mult, <- minus_IZR, (Rabs_pos_eq (val s)) by lra.
      apply Rle_trans with (bpow radix2 (-900)); [apply bpow_le; lia|]. rewrite <- (Rmult_1_r (bpow radix2 (-900))). apply Rmult_le_compat; [apply bpow_ge_0|lra|exact Hs|].
      rewrite <- abs_IZR. apply IZR_le. lia. }
  assert (B4 : 4 * T < bpow radix2 1024).
  { apply Rle_lt_trans with (4 * bpow radix2 1000); [lra|]. change 4 with (bpow radix2 2). rewrite <- bpow_plus. apply bpow_lt. lia. }
  assert (B8 : 8 * T < bpow radix2 1024).
  { apply Rle_lt_trans with (8 * bpow radix2 1000); [lra|]. change 8 with (bpow radix2 3). rewrite <- bpow_plus. apply bpow_lt. lia. }
  assert (Br : Rabs (rnd a) <= 4 * T). { replace (rnd a) with ((rnd a - a) + a) by ring. eapply Rle_trans; [apply Rabs_triang|]. unfold U in Er. lra. }
  destruct (fmul_val s (f_of_Z (z - k)) Fs Fz) as [Fm Vm]; [rewrite Vz; fold a; lra|]. rewrite Vz in Vm. fold a in Vm.
  set (y := fmul s (f_of_Z (z - k))) in *. pose proof (rnd_plus_err lo y) as Ep. rewrite Vm in Ep.
  assert (Bl : Rabs (val lo) <= T) by (unfold T; pose proof (Rabs_pos (val hi)); lra).
  assert (Bs : Rabs (val lo + rnd a) <= 5 * T) by (eapply Rle_trans; [apply Rabs_triang|]; lra).
  assert (Bf : Rabs (rnd (val lo + rnd a)) <= 6 * T).
  { replace (rnd (val lo + rnd a)) with ((rnd (val lo + rnd a) - (val lo + rnd a)) + (val lo + rnd a)) by ring. eapply Rle_trans; [apply Rabs_triang|]. unfold U in Ep. lra. }
  destruct (fadd_val lo y Flo Fm) as [Ff Vf]; [rewrite Vm; lra|]. rewrite Vm in Vf.
  eexists _, _. split; [reflexivity|]. split; [exact Ff|].
  assert (NC : forall c, is_ceil Q c -> (Z.abs (z - c) <= 1)%Z).
  { intros c [C1 C2]. assert (A1 : (c - 2 < z)%Z). { apply lt_IZR. rewrite minus_IZR. unfold U in Z2. lra. }
    assert (A2 : (z < c + 2)%Z). { apply lt_IZR. rewrite plus_IZR. unfold U in Z1. lra. } lia. }
  split; [intros c Hc; specialize (NC c Hc); lia|]. split.
  - rewrite Vf. apply Rabs_le_inv in Ep. apply Rabs_le_inv in Er. unfold D, U in *. lra.
  - intros c [C1 C2] Hi. assert (z = c); [|lia].
    pose proof (Hi z) as Iz. pose proof (Hi c) as Ic. pose proof (Hi (z - 1)%Z) as Iy. pose proof (Hi (c - 1)%Z) as Ib. rewrite minus_IZR in Iy, Ib.
    assert (A1 : IZR (c - 1) < IZR z). { rewrite minus_IZR. unfold U, Rabs in *. destruct (Rcase_abs (Q - IZR z)), (Rcase_abs (Q - (IZR c - 1))); lra. }
    assert (A2 : IZR z < IZR (c + 1)). { rewrite plus_IZR. unfold U, Rabs in *. destruct (Rcase_abs (Q - (IZR z - 1))), (Rcase_abs (Q - IZR c)); lra. }
    apply lt_IZR in A1. apply lt_IZR in A2. lia.
Qed.
End stepsize.

(** ** Where the number of points or the range is wrong *)
(** 0.1, 0.4 (which is exactly four times 0.1) and the steps 0.1 *)
Definition f_tenth : f64 := fmake 3602879701896397 (-55).
Definition f_four_tenths : f64 := fmake 3602879701896397 (-53).
Definition f_hundredth : f64 := fmake 5764607523034235 (-59).
Definition f_three_hundredths : f64 := fmake 8646911284551353 (-58).
Lemma fmake_val m e : (Z.abs m < 2 ^ 53)%Z -> (-1074 <= e <= 900)%Z -> finite (fmake m e) /\ val (fmake m e) = IZR m * bpow radix2 e.
Proof.
  intros Hm He. pose proof (binary_normalize_correct 53 1024 prec_53 emax_1024 mode_NE m e false) as C.
  cbv zeta in C. rewrite rnd_eq in C.
  assert (Q : F2R {| Fnum := m; Fexp := e |} = IZR m * bpow radix2 e) by reflexivity. rewrite Q in C.
  assert (R : rnd (IZR m * bpow radix2 e) = IZR m * bpow radix2 e).
  { apply round_generic; auto with typeclass_instances. apply generic_format_FLT. exists (Float radix2 m e); cbn [Fnum Fexp]; [reflexivity|exact Hm|lia]. }
  rewrite R in C. rewrite Rlt_bool_true in C; [destruct C as [C1 [C2 _]]; split; assumption|].
  rewrite Rabs_mult, <- abs_IZR, (Rabs_pos_eq (bpow radix2 e)) by apply bpow_ge_0.
  apply Rle_lt_trans with (bpow radix2 53 * bpow radix2 900).
  - apply Rmult_le_compat; [apply IZR_le; lia|apply bpow_ge_0| |apply bpow_le; lia]. rewrite <- (IZR_Zpower radix2 53) by lia. apply IZR_le. change (Zpower radix2 53) with (2 ^ 53)%Z. lia.
  - rewrite <- bpow_plus. apply bpow_lt. lia.
Qed.
Lemma bpow_neg k : bpow radix2 (- Z.of_nat k) = / 2 ^ k.
Proof. rewrite bpow_opp. f_equal. symmetry. apply pow2_bpow. Qed.

Lemma from_stepsize_eq lo hi s q : feq s fzero = false -> f_int_ceil (fdiv (fsub hi lo) s) = Ok q ->
  f_from_stepsize (lo, hi) s false = Ok ((q + 1)%Z, (lo, fadd lo (fmul s (f_of_Z q)))).
Proof. intros E1 E2. unfold f_from_stepsize. rewrite E1, E2. cbn [bind]. replace (q + 1 - 0)%Z with (q + 1)%Z by ring. replace (q + 1 - 1)%Z with q by ring. reflexivity. Qed.
(** the range fits exactly, but there are five points instead of four *)
Lemma extra_point : exists lo hi s last, finite lo /\ finite hi /\ finite s /\ 0 < val s /\ val hi - val lo = 3 * val s /\
  f_from_stepsize (lo, hi) s false = Ok (5%Z, (lo, last)) /\ val hi + val s / 2 < val last.
Proof.
  exists f_tenth, f_four_tenths, f_tenth, (fadd f_tenth (fmul f_tenth (f_of_Z 4))). destruct (fmake_val 3602879701896397 (-55)) as [F1 V1]; [lia..|]. destruct (fmake_val 3602879701896397 (-53)) as [F2 V2]; [lia..|].
  destruct (fmake_val 1 (-1)) as [F3 V3]; [lia..|]. fold f_tenth in F1, V1. fold f_four_tenths in F2, V2. fold fhalf in F3, V3.
  change (-55)%Z with (- Z.of_nat 55)%Z in V1. change (-53)%Z with (- Z.of_nat 53)%Z in V2. change (-1)%Z with (- Z.of_nat 1)%Z in V3. rewrite bpow_neg in V1, V2, V3.
  split; [exact F1|]. split; [exact F2|]. split; [exact F1|]. split; [rewrite V1; lra|]. split; [rewrite V2, V1; lra|]. split.
  - apply (from_stepsize_eq f_tenth f_four_tenths f_tenth 4); vm_compute; reflexivity.
  - assert (E : feq (fadd f_tenth (fmul f_tenth (f_of_Z 4))) fhalf = true) by (vm_compute; reflexivity).
    assert (F : finite (fadd f_tenth (fmul f_tenth (f_of_Z 4)))) by (vm_compute; reflexivity). apply feq_val in E; [|exact F|exact F3]. rewrite E, V1, V2, V3. lra.
Qed.
(** 0, 0.030000000000000002 and steps of 0.01: the last point 0.03 is below the maximum *)
Lemma not_covered : exists lo hi s last, finite lo /\ finite hi /\ finite s /\ 0 < val s /\
  f_from_stepsize (lo, hi) s false = Ok (4%Z, (lo, last)) /\ flt last hi = true.
Proof.
  destruct (fmake_val 5764607523034235 (-59)) as [F1 V1]; [lia..|].
  exists fzero, f_three_hundredths, f_hundredth, (fadd fzero (fmul f_hundredth (f_of_Z 3))). split; [reflexivity|]. split; [reflexivity|]. split; [exact F1|].
  split; [unfold f_hundredth; rewrite V1; apply Rmult_lt_0_compat; [lra|apply bpow_gt_0]|]. split; [apply (from_stepsize_eq fzero f_three_hundredths f_hundredth 3); vm_compute; reflexivity|]. vm_compute. reflexivity.
Qed.
