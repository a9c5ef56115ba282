(** Basic facts about the float64 operations *)
From Verif Require Import Spec_f64.
From Flocq Require Import Core.Core Relative Plus_error.
From Coq Require Import Lia Lra.
Open Scope R_scope.

Definition rnd : R -> R := round radix2 (FLT_exp (-1074) 53) ZnearestE.
Definition U : R := / 2 ^ 53.
Definition ETA : R := bpow radix2 (-1075).

Lemma rnd_eq x : round radix2 (SpecFloat.fexp 53 1024) (round_mode mode_NE) x = rnd x.
Proof. reflexivity. Qed.

Lemma U_pos : 0 < U. Proof. unfold U. apply Rinv_0_lt_compat. lra. Qed.
Lemma ETA_pos : 0 < ETA. Proof. apply bpow_gt_0. Qed.
Lemma U_bpow : U = bpow radix2 (-53).
Proof. unfold U. change (-53)%Z with (- (53))%Z. rewrite bpow_opp. f_equal. rewrite <- IZR_Zpower by discriminate. change (Zpower radix2 53) with 9007199254740992%Z. lra. Qed.

Lemma half_bpow : / 2 * bpow radix2 (- (53) + 1) = U.
Proof.
  rewrite U_bpow. change (- (53) + 1)%Z with (1 + -53)%Z. rewrite bpow_plus. change (bpow radix2 1) with 2. lra.
Qed.

#[global] Instance prec_53_inst : Prec_gt_0 53 := eq_refl.
#[global] Instance fexp_valid : Valid_exp (FLT_exp (-1074) 53).
Proof. apply FLT_exp_valid. reflexivity. Qed.

Lemma rnd_le x y : x <= y -> rnd x <= rnd y.
Proof. apply round_le; auto with typeclass_instances. Qed.
Lemma rnd_val (x : f64) : rnd (val x) = val x.
Proof. apply round_generic; auto with typeclass_instances. apply generic_format_B2R. Qed.
Lemma rnd_0 : rnd 0 = 0. Proof. apply round_0; auto with typeclass_instances. Qed.

Lemma rnd_err x : Rabs (rnd x - x) <= U * Rabs x + ETA.
Proof.
  unfold rnd. destruct (Rle_or_lt (bpow radix2 (-1074 + 53 - 1)) (Rabs x)) as [H | H].
  - pose proof (relative_error_N_FLT radix2 (-1074) 53 eq_refl (fun x => negb (Z.even x)) x H) as E.
    rewrite half_bpow in E. pose proof ETA_pos. lra.
  - assert (E : Rabs (round radix2 (FLT_exp (-1074) 53) ZnearestE x - x) <= / 2 * ulp radix2 (FLT_exp (-1074) 53) x)
      by (apply error_le_half_ulp; auto with typeclass_instances).
    rewrite ulp_FLT_small in E; [|reflexivity|eapply Rlt_le_trans; [exact H|apply bpow_le; lia]].
    assert (/ 2 * bpow radix2 (-1074) = ETA).
    { unfold ETA. change (-1074)%Z with (1 + -1075)%Z at 1. rewrite bpow_plus. change (bpow radix2 1) with 2. lra. }
    pose proof (Rmult_le_pos U (Rabs x) (Rlt_le _ _ U_pos) (Rabs_pos x)). lra.
Qed.

Lemma rnd_err_normal x : bpow radix2 (-1022) <= Rabs x -> Rabs (rnd x - x) <= U * Rabs x.
Proof.
  intros H. pose proof (relative_error_N_FLT radix2 (-1074) 53 eq_refl (fun x => negb (Z.even x)) x H) as E.
  rewrite half_bpow in E. exact E.
Qed.

(** a sum of two numbers has no underflow *)
Lemma rnd_plus_err (x y : f64) : Rabs (rnd (val x + val y) - (val x + val y)) <= U * Rabs (val x + val y).
Proof.
  destruct (FLT_plus_error_N_ex radix2 (-1074) 53 (fun x => negb (Z.even x)) (val x) (val y)) as [e [He E]];
    try (apply generic_format_B2R).
  unfold rnd. rewrite E. replace ((val x + val y) * (1 + e) - (val x + val y)) with (e * (val x + val y)) by ring.
  rewrite Rabs_mult. apply Rmult_le_compat_r; [apply Rabs_pos|].
  eapply Rle_trans; [exact He|].
  assert (u_ro radix2 53 = U).
  { exact half_bpow. }
  rewrite H. pose proof U_pos. apply Rmult_le_reg_r with (1 + U); [lra|]. unfold Rdiv. rewrite Rmult_assoc, Rinv_l by lra. nra.
Qed.

Lemma MAXV : bpow radix2 1024 = 2 * bpow radix2 1023.
Proof. change 1024%Z with (1 + 1023)%Z. rewrite bpow_plus. reflexivity. Qed.

Lemma fadd_val x y : finite x -> finite y -> Rabs (rnd (val x + val y)) < bpow radix2 1024 ->
  finite (fadd x y) /\ val (fadd x y) = rnd (val x + val y).
Proof.
  intros Hx Hy H. pose proof (Bplus_correct 53 1024 prec_53 emax_1024 mode_NE x y Hx Hy) as C.
  rewrite rnd_eq in C. rewrite Rlt_bool_true in C by exact H. destruct C as [C1 [C2 _]]. split; assumption.
Qed.
Lemma fsub_val x y : finite x -> finite y -> Rabs (rnd (val x - val y)) < bpow radix2 1024 ->
  finite (fsub x y) /\ val (fsub x y) = rnd (val x - val y).
Proof.
  intros Hx Hy H. pose proof (Bminus_correct 53 1024 prec_53 emax_1024 mode_NE x y Hx Hy) as C.
  rewrite rnd_eq in C. rewrite Rlt_bool_true in C by exact H. destruct C as [C1 [C2 _]]. split; assumption.
Qed.
Lemma fmul_val x y : finite x -> finite y -> Rabs (rnd (val x * val y)) < bpow radix2 1024 ->
  finite (fmul x y) /\ val (fmul x y) = rnd (val x * val y).
Proof.
  intros Hx Hy H. pose proof (Bmult_correct 53 1024 prec_53 emax_1024 mode_NE x y) as C.
  rewrite rnd_eq in C. rewrite Rlt_bool_true in C by exact H. destruct C as [C1 [C2 _]]. split; [|exact C1].
  red. unfold fmul. rewrite C2. unfold finite in *. rewrite Hx, Hy. reflexivity.
Qed.
Lemma fdiv_val x y : finite x -> finite y -> val y <> 0 -> Rabs (rnd (val x / val y)) < bpow radix2 1024 ->
  finite (fdiv x y) /\ val (fdiv x y) = rnd (val x / val y).
Proof.
  intros Hx Hy H0 H. pose proof (Bdiv_correct 53 1024 prec_53 emax_1024 mode_NE x y H0) as C.
  rewrite rnd_eq in C. rewrite Rlt_bool_true in C by exact H. destruct C as [C1 [C2 _]]. split; [|exact C1].
  red. unfold fdiv. rewrite C2. exact Hx.
Qed.

Lemma fopp_val x : val (fopp x) = - val x.
Proof. apply B2R_Bopp. Qed.
Lemma fopp_finite x : finite x -> finite (fopp x).
Proof. unfold finite, fopp. intros H. rewrite is_finite_Bopp. exact H. Qed.

Lemma flt_val x y : finite x -> finite y -> (flt x y = true <-> val x < val y).
Proof.
  intros Hx Hy. unfold flt. rewrite Bltb_correct by assumption. split; intros H.
  - destruct (Rlt_bool_spec (val x) (val y)); [assumption|discriminate].
  - now apply Rlt_bool_true.
Qed.
Lemma fle_val x y : finite x -> finite y -> (fle x y = true <-> val x <= val y).
Proof.
  intros Hx Hy. unfold fle. rewrite Bleb_correct by assumption. split; intros H.
  - destruct (Rle_bool_spec (val x) (val y)); [assumption|discriminate].
  - now apply Rle_bool_true.
Qed.
Lemma flt_false x y : finite x -> finite y -> (flt x y = false <-> val y <= val x).
Proof.
  intros Hx Hy. pose proof (flt_val x y Hx Hy) as H. destruct (flt x y); split; intros.
  - discriminate.
  - destruct H as [H _]. specialize (H eq_refl). lra.
  - destruct (Rle_or_lt (val y) (val x)); [assumption|]. destruct H as [_ H]. specialize (H H1). discriminate.
  - reflexivity.
Qed.

(** integers *)
Lemma rnd_IZR z : (Z.abs z <= 2 ^ 53)%Z -> rnd (IZR z) = IZR z.
Proof.
  intros H. apply round_generic; auto with typeclass_instances.
  destruct (Z.eq_dec (Z.abs z) (2 ^ 53)) as [E | E].
  - assert (Q : IZR z = bpow radix2 53 \/ IZR z = - bpow radix2 53).
    { rewrite <- IZR_Zpower by discriminate. rewrite <- opp_IZR. change (Zpower radix2 53) with (2 ^ 53)%Z.
      destruct (Z.abs_eq_or_opp z); [left | right]; f_equal; lia. }
    assert (G : generic_format radix2 (FLT_exp (-1074) 53) (bpow radix2 53)).
    { apply generic_format_bpow. unfold FLT_exp. lia. }
    destruct Q as [-> | ->]; [exact G|]. now apply generic_format_opp.
  - apply generic_format_FLT. exists (Float radix2 z 0).
    + unfold F2R. simpl. lra.
    + simpl. change (Z.pow_pos 2 53) with (2 ^ 53)%Z. lia.
    + simpl. lia.
Qed.
Lemma f_of_Z_val z : (Z.abs z <= 2 ^ 53)%Z -> finite (f_of_Z z) /\ val (f_of_Z z) = IZR z.
Proof.
  intros H. pose proof (binary_normalize_correct 53 1024 prec_53 emax_1024 mode_NE z 0 false) as C.
  cbv zeta in C. rewrite rnd_eq in C.
  replace (F2R {| Fnum := z; Fexp := 0 |}) with (IZR z) in C by (unfold F2R; simpl; lra).
  rewrite (rnd_IZR z H) in C. rewrite Rlt_bool_true in C.
  - destruct C as [C1 [C2 _]]. split; assumption.
  - rewrite <- abs_IZR. eapply Rle_lt_trans; [apply IZR_le; exact H|].
    change (IZR (2 ^ 53)) with (IZR (Zpower radix2 53)). rewrite IZR_Zpower by discriminate. apply bpow_lt. lia.
Qed.

Lemma f_int_val x : finite x -> 0 <= val x -> exists c, f_int x = Ok c /\ (0 <= c)%Z /\ IZR c <= val x < IZR c + 1.
Proof.
  intros Hx H0. pose proof (Btrunc_correct 53 1024 emax_1024 x) as C.
  assert (Q : IZR (Btrunc x) = IZR (Zfloor (val x))).
  { rewrite C. unfold round, F2R, scaled_mantissa, cexp, FIX_exp. simpl. rewrite !Rmult_1_r. now rewrite Ztrunc_floor. }
  apply eq_IZR in Q.
  assert (F : f_int x = Ok (Btrunc x)) by (destruct x; try discriminate Hx; reflexivity).
  exists (Btrunc x). split; [exact F|]. rewrite Q. split.
  - apply Zfloor_lub. exact H0.
  - split; [apply Zfloor_lb | apply Zfloor_ub].
Qed.
