(** The constants of the thermostat and the whole float64 Langevin run *)
From Coq Require Import Lia Lra Reals ZArith.
From Verif Require Import PyBase Model_f64 Model_f64ld Spec_f64 Proof_f64 Proof_f64b Proof_f64d Proof_f64f Proof_f64j Proof_f64k Proof_f64m.
From Flocq Require Import Core.Core IEEE754.BinarySingleNaN.
Open Scope R_scope.
Ltac Zify.zify_post_hook ::= idtac.
#[local] Arguments bpow : simpl never.

Lemma half_sign : Bsign fhalf = false. Proof. vm_compute. reflexivity. Qed.
Lemma abs_half : Babs fhalf = fhalf.
Proof. pose proof half_sign as H. destruct fhalf as [s|s| |s m e b]; cbn in *; subst; reflexivity. Qed.
Lemma c1_prob fexp friction dt : f_event_prob fexp friction dt fhalf = fsub (f_of_Z 1) (f_c1 fexp friction dt).
Proof. unfold f_event_prob, f_c1. now rewrite abs_half. Qed.

Lemma c1_arg friction dt : finite friction -> 0 <= val friction -> finite dt -> 0 < val dt -> neg (fmul (fmul (fopp fhalf) friction) dt).
Proof.
  intros Ff Hf Fd Hd. destruct fhalf_val as [Fh Vh]. apply fmul_neg; [|assumption..]. destruct Hf as [Hf|Hf].
  - apply fmul_neg; [|assumption..]. left. split; [now apply fopp_finite|]. rewrite fopp_val, Vh. lra.
  - left. destruct (fmul_val (fopp fhalf) friction (fopp_finite _ Fh) Ff) as [F V].
    + rewrite <- Hf, Rmult_0_r, rnd_0, Rabs_R0. apply bpow_gt_0.
    + split; [exact F|]. rewrite V, <- Hf, Rmult_0_r, rnd_0. lra.
Qed.
Lemma c1_range fexp friction dt : exp_ok fexp -> finite friction -> 0 <= val friction -> finite dt -> 0 < val dt ->
  finite (f_c1 fexp friction dt) /\ 0 <= val (f_c1 fexp friction dt) <= 1.
Proof.
  intros (H1 & H2 & H3) Ff Hf Fd Hd. unfold f_c1. destruct (c1_arg friction dt Ff Hf Fd Hd) as [[A1 A2]|A].
  - destruct (H1 _ A1 A2) as (G1 & G2 & _). now split.
  - rewrite A. split; [exact H2|]. rewrite H3. lra.
Qed.
Lemma c1_accuracy fexp friction dt : exp_ok fexp -> finite friction -> 0 <= val friction -> finite dt -> bpow radix2 (-100) <= val dt <= bpow radix2 100 ->
  val friction * val dt <= bpow radix2 900 -> Rabs (val (f_c1 fexp friction dt) - exp (- (val friction * val dt / 2))) <= / 2 ^ 47.
Proof.
  intros He Ff Hf Fd Hd Hx. pose proof (bpow_gt_0 radix2 (-100)) as P. assert (Hd0 : 0 < val dt) by lra.
  destruct (c1_range fexp friction dt He Ff Hf Fd Hd0) as [F1 B1]. destruct fhalf_val as [Fh Vh]. destruct Hf as [Hf|Hf].
  - pose proof (prob_accuracy fexp friction dt fhalf He Ff Hf Fd Fh Hd) as A. cbv zeta in A. rewrite Vh, (Rabs_pos_eq (/ 2)) in A by lra.
    replace (/ 2 * val friction * val dt) with (val friction * val dt / 2) in A by field.
    assert (X : 0 <= val friction * val dt) by (apply Rmult_le_pos; lra). specialize (A ltac:(lra)).
    rewrite c1_prob in A. destruct (one_minus _ F1 B1) as (_ & V & _ & E). rewrite V in A. apply Rabs_le_inv in A. apply Rabs_le_inv in E.
    apply Rabs_le. unfold U in *. lra.
  - destruct He as (H1 & _). unfold f_c1. assert (Z : val (fmul (fmul (fopp fhalf) friction) dt) = 0 /\ finite (fmul (fmul (fopp fhalf) friction) dt)).
    { destruct (fmul_val (fopp fhalf) friction (fopp_finite _ Fh) Ff) as [F V]; [rewrite <- Hf, Rmult_0_r, rnd_0, Rabs_R0; apply bpow_gt_0|].
      rewrite <- Hf, Rmult_0_r, rnd_0 in V. destruct (fmul_val _ dt F Fd) as [F' V']; [rewrite V, Rmult_0_l, rnd_0, Rabs_R0; apply bpow_gt_0|].
      rewrite V, Rmult_0_l, rnd_0 in V'. now split. }
    destruct Z as [Z FZ]. destruct (H1 _ FZ) as (_ & _ & G & _); [lra|]. rewrite (G Z). rewrite <- Hf, Rmult_0_l.
    replace (- (0 / 2)) with 0 by field. rewrite exp_0, Rminus_diag_eq, Rabs_R0 by reflexivity. left. apply Rinv_0_lt_compat. lra.
Qed.

(** ** c2 *)
Lemma fsqrt_val x : finite x -> 0 <= val x -> finite (fsqrt x) /\ val (fsqrt x) = rnd (sqrt (val x)).
Proof.
  intros F H. pose proof (Bsqrt_correct 53 1024 prec_53 emax_1024 mode_NE x) as (V & Fi & _). rewrite rnd_eq in V. split; [|exact V].
  unfold fsqrt. red. rewrite Fi. destruct x as [s|s| |s m e b]; try discriminate F; [reflexivity|]. destruct s; [|reflexivity].
  exfalso. assert (F2R (Float radix2 (Zneg m) e) < 0) by (now apply F2R_lt_0). cbn in H. lra.
Qed.
Section C2.
Context (c1 mass kt : f64) (F1 : finite c1) (H1 : 0 <= val c1 <= 1) (Fm : finite mass) (Fk : finite kt).
Context (Hm : 0 <= val mass <= bpow radix2 100) (Hk : 0 <= val kt <= bpow radix2 100).
Let a := val c1.
Let y := fmul c1 c1.
Let z := fsub (f_of_Z 1) y.
Let t1 := fmul z mass.
Let t2 := fmul t1 kt.

Lemma big_pow k : (0 <= k <= 900)%Z -> rnd (bpow radix2 k) = bpow radix2 k /\ bpow radix2 k < bpow radix2 1024.
Proof using Type. intros H. split; [|apply bpow_lt; lia]. rewrite <- (Rmult_1_l (bpow radix2 k)). change 1 with (IZR 1). apply rnd_mult_pow; lia. Qed.
Lemma y_val : finite y /\ val y = rnd (a * a) /\ 0 <= rnd (a * a) <= 1.
Proof using All.
  assert (B : 0 <= a * a <= 1) by (unfold a; nra). assert (R1 : rnd 1 = 1) by (destruct (big_pow 0) as [X _]; [lia|]; exact X).
  assert (C : 0 <= rnd (a * a) <= 1) by (split; [rewrite <- rnd_0; apply rnd_le; lra|rewrite <- R1; apply rnd_le; lra]).
  destruct (fmul_val c1 c1 F1 F1) as [F V]; [change (val c1) with a; apply Rabs_lt; destruct (big_pow 0) as [_ X]; [lia|]; change (bpow radix2 0) with 1 in X; lra|].
  split; [exact F|]. split; [exact V|exact C].
Qed.
Lemma z_val : finite z /\ 0 <= val z <= 1 /\ Rabs (val z - (1 - a * a)) <= 2 * U + ETA.
Proof using All.
  destruct y_val as (Fy & Vy & By). destruct (one_minus y Fy) as (Fz & Vz & Bz & Ez); [rewrite Vy; exact By|]. fold z in Fz, Vz.
  split; [exact Fz|]. rewrite Vz. split; [exact Bz|]. rewrite Vy in *. pose proof (rnd_err (a * a)) as E. assert (B : 0 <= a * a <= 1) by (unfold a; nra).
  rewrite (Rabs_pos_eq (a * a)) in E by lra. assert (U * (a * a) <= U * 1) by (apply Rmult_le_compat_l; [left; apply U_pos|lra]).
  apply Rabs_le_inv in E. apply Rabs_le_inv in Ez. apply Rabs_le. lra.
Qed.
Lemma t1_val : finite t1 /\ val t1 = rnd (val z * val mass) /\ 0 <= val t1 <= bpow radix2 100.
Proof using All.
  destruct z_val as (Fz & Bz & _). assert (B : 0 <= val z * val mass <= bpow radix2 100).
  { split; [apply Rmult_le_pos; lra|]. rewrite <- (Rmult_1_l (bpow radix2 100)). apply Rmult_le_compat; lra. }
  destruct (big_pow 100) as [R B1]; [lia|].
  assert (C : 0 <= rnd (val z * val mass) <= bpow radix2 100) by (split; [rewrite <- rnd_0; apply rnd_le; lra|rewrite <- R; apply rnd_le; lra]).
  destruct (fmul_val z mass Fz Fm) as [F V]; [apply Rabs_lt; lra|]. fold t1 in F, V. split; [exact F|]. rewrite V. split; [reflexivity|exact C].
Qed.
Lemma t2_val : finite t2 /\ val t2 = rnd (val t1 * val kt) /\ 0 <= val t2 <= bpow radix2 200.
Proof using All.
  destruct t1_val as (Ft & _ & Bt). assert (B : 0 <= val t1 * val kt <= bpow radix2 200).
  { split; [apply Rmult_le_pos; lra|]. change 200%Z with (100 + 100)%Z. rewrite bpow_plus. apply Rmult_le_compat; lra. }
  destruct (big_pow 200) as [R B1]; [lia|].
  assert (C : 0 <= rnd (val t1 * val kt) <= bpow radix2 200) by (split; [rewrite <- rnd_0; apply rnd_le; lra|rewrite <- R; apply rnd_le; lra]).
  destruct (fmul_val t1 kt Ft Fk) as [F V]; [apply Rabs_lt; lra|]. fold t2 in F, V. split; [exact F|]. rewrite V. split; [reflexivity|exact C].
Qed.
Lemma c2_val : finite (f_c2 c1 mass kt) /\ val (f_c2 c1 mass kt) = rnd (sqrt (val t2)) /\ 0 <= val (f_c2 c1 mass kt) <= bpow radix2 100.
Proof using All.
  destruct t2_val as (Ft & _ & Bt). destruct (fsqrt_val t2 Ft) as [F V]; [lra|]. unfold f_c2. fold y. fold z. fold t1. fold t2. split; [exact F|]. split; [exact V|]. rewrite V.
  destruct (big_pow 100) as [R B1]; [lia|]. split; [rewrite <- rnd_0; apply rnd_le; apply sqrt_pos|]. rewrite <- R. apply rnd_le.
  rewrite <- (sqrt_Rsqr (bpow radix2 100)) by apply bpow_ge_0. apply sqrt_le_1_alt. unfold Rsqr. rewrite <- bpow_plus. change (100 + 100)%Z with 200%Z. lra.
Qed.
Lemma c2_accuracy : bpow radix2 (-100) <= val mass -> bpow radix2 (-100) <= val kt ->
  Rabs (val (f_c2 c1 mass kt) * val (f_c2 c1 mass kt) - (1 - a * a) * (val mass * val kt)) <= / 2 ^ 49 * (val mass * val kt).
Proof using All.
  intros Lm Lk. destruct z_val as (Fz & Bz & Ez). destruct t1_val as (Ft1 & Vt1 & Bt1). destruct t2_val as (Ft2 & Vt2 & Bt2). destruct c2_val as (Fc & Vc & Bc).
  set (c := val (f_c2 c1 mass kt)) in *. set (m := val mass) in *. set (k := val kt) in *. set (Vv := m * k).
  pose proof (bpow_gt_0 radix2 (-100)) as P100. pose proof U_pos as HU. pose proof ETA_pos as HE.
  assert (m0 : 0 < m) by lra. assert (k0 : 0 < k) by lra. assert (HV : 0 < Vv) by (apply Rmult_lt_0_compat; assumption).
  assert (LV : bpow radix2 (-200) <= Vv) by (change (-200)%Z with (-100 + -100)%Z; rewrite bpow_plus; apply Rmult_le_compat; lra).
  assert (HU1 : U * 1024 <= 1) by (unfold U; lra).
  (* the small numbers *)
  assert (E1 : ETA * bpow radix2 500 <= U * bpow radix2 (-200)).
  { rewrite U_bpow. unfold ETA. rewrite <- !bpow_plus. apply bpow_le. lia. }
  assert (G500 : bpow radix2 200 * 16 <= bpow radix2 500) by (change 16 with (bpow radix2 4); rewrite <- bpow_plus; apply bpow_le; lia).
  assert (G1 : 16 <= bpow radix2 500) by (change 16 with (bpow radix2 4); apply bpow_le; lia).
  assert (G100 : bpow radix2 100 * 16 <= bpow radix2 500) by (change 16 with (bpow radix2 4); rewrite <- bpow_plus; apply bpow_le; lia).
  assert (UV : U * bpow radix2 (-200) <= U * Vv) by (apply Rmult_le_compat_l; lra).
  assert (e1 : ETA * 16 <= U * Vv) by (apply Rle_trans with (ETA * bpow radix2 500); [apply Rmult_le_compat_l; lra|lra]).
  assert (e2 : ETA * k * 16 <= U * Vv). { apply Rle_trans with (ETA * bpow radix2 500); [|lra]. rewrite Rmult_assoc. apply Rmult_le_compat_l; lra. }
  assert (e3 : ETA * Vv * 16 <= U * Vv).
  { replace (ETA * Vv * 16) with (ETA * 16 * Vv) by ring. apply Rmult_le_compat_r; [lra|]. unfold ETA. rewrite U_bpow. change 16 with (bpow radix2 4). rewrite <- bpow_plus. apply bpow_le. lia. }
  assert (e4 : ETA * sqrt (val t2) * 16 <= U * Vv).
  { apply Rle_trans with (ETA * bpow radix2 500); [|lra]. rewrite Rmult_assoc. apply Rmult_le_compat_l; [lra|]. apply Rle_trans with (bpow radix2 100 * 16); [|lra].
    apply Rmult_le_compat_r; [lra|]. rewrite <- (sqrt_Rsqr (bpow radix2 100)) by apply bpow_ge_0. apply sqrt_le_1_alt. unfold Rsqr. rewrite <- bpow_plus. change (100 + 100)%Z with 200%Z. lra. }
  assert (UUV : 0 <= U * U * Vv * 1024 <= U * Vv).
  { split; [repeat apply Rmult_le_pos; lra|]. replace (U * U * Vv * 1024) with (U * 1024 * (U * Vv)) by ring. rewrite <- (Rmult_1_l (U * Vv)) at 2. apply Rmult_le_compat_r; [apply Rmult_le_pos; lra|exact HU1]. }
  (* z m k *)
  apply Rabs_le_inv in Ez. set (D := 1 - a * a) in *. assert (D01 : 0 <= D <= 1) by (unfold D, a; nra).
  assert (Z1 : (D - (2 * U + ETA)) * Vv <= val z * Vv <= (D + (2 * U + ETA)) * Vv) by (split; apply Rmult_le_compat_r; lra).
  assert (DV : 0 <= D * Vv <= Vv) by (split; [apply Rmult_le_pos; lra|rewrite <- (Rmult_1_l Vv) at 2; apply Rmult_le_compat_r; lra]).
  (* t1 *)
  pose proof (rnd_err (val z * m)) as T1. rewrite (Rabs_pos_eq (val z * m)) in T1 by (apply Rmult_le_pos; lra). rewrite <- Vt1 in T1. apply Rabs_le_inv in T1.
  assert (ZM : 0 <= val z * m <= m) by (split; [apply Rmult_le_pos; lra|rewrite <- (Rmult_1_l m) at 2; apply Rmult_le_compat_r; lra]).
  assert (UZ : U * (val z * m) <= U * m) by (apply Rmult_le_compat_l; lra).
  assert (T1' : (val z * m - (U * m + ETA)) * k <= val t1 * k <= (val z * m + (U * m + ETA)) * k) by (split; apply Rmult_le_compat_r; lra).
  replace ((val z * m - (U * m + ETA)) * k) with (val z * Vv - (U * Vv + ETA * k)) in T1' by (unfold Vv; ring).
  replace ((val z * m + (U * m + ETA)) * k) with (val z * Vv + (U * Vv + ETA * k)) in T1' by (unfold Vv; ring).
  (* t2 *)
  assert (T0 : 0 <= val t1 * k) by (apply Rmult_le_pos; lra).
  pose proof (rnd_err (val t1 * k)) as T2. rewrite (Rabs_pos_eq (val t1 * k)) in T2 by exact T0. rewrite <- Vt2 in T2. apply Rabs_le_inv in T2.
  assert (UVs : U * Vv * 1024 <= Vv). { replace (U * Vv * 1024) with (U * 1024 * Vv) by ring. rewrite <- (Rmult_1_l Vv) at 2. apply Rmult_le_compat_r; lra. }
  assert (W : val t1 * k <= 2 * Vv) by lra.
  assert (UW : U * (val t1 * k) <= U * (2 * Vv)) by (apply Rmult_le_compat_l; lra).
  assert (UW0 : 0 <= U * (val t1 * k)) by (apply Rmult_le_pos; lra).
  assert (Q2 : D * Vv - 6 * (U * Vv) <= val t2 <= D * Vv + 6 * (U * Vv)) by lra.
  (* c *)
  set (s := sqrt (val t2)) in *. assert (S0 : 0 <= s) by apply sqrt_pos. assert (SS : s * s = val t2) by (apply sqrt_sqrt; lra).
  pose proof (rnd_err s) as Ec. rewrite (Rabs_pos_eq s S0) in Ec. rewrite <- Vc in Ec. fold c in Ec. apply Rabs_le_inv in Ec.
  assert (Cs : Rabs (c * c - s * s) <= 3 * U * (s * s) + 3 * (ETA * s) + ETA * ETA).
  { replace (c * c - s * s) with ((c - s) * (c + s)) by ring. rewrite Rabs_mult. apply Rle_trans with ((U * s + ETA) * (2 * s + (U * s + ETA))).
    - apply Rmult_le_compat; [apply Rabs_pos..| |]; apply Rabs_le; pose proof (Rmult_le_pos U s ltac:(lra) S0); lra.
    - assert (q1 : U * (U * (s * s)) <= 1 * (U * (s * s))) by (apply Rmult_le_compat_r; [repeat apply Rmult_le_pos; lra|lra]).
      assert (q2 : U * (ETA * s) <= / 1024 * (ETA * s)) by (apply Rmult_le_compat_r; [apply Rmult_le_pos; lra|lra]).
      assert (q3 : 0 <= ETA * s) by (apply Rmult_le_pos; lra). lra. }
  assert (EE : ETA * ETA <= ETA * 1) by (apply Rmult_le_compat_l; [lra|]; unfold ETA; change 1 with (bpow radix2 0); apply bpow_le; lia).
  rewrite SS in Cs. assert (UT : U * val t2 <= U * (2 * Vv)) by (apply Rmult_le_compat_l; lra).
  replace (/ 2 ^ 49) with (16 * U) by (unfold U; lra). apply Rabs_le_inv in Cs. apply Rabs_le. lra.
Qed.
End C2.
