(** Walker densities for more than 10000 walkers in float64 arithmetic (C105) *)
From Coq Require Import Machin.
From Verif Require Import Spec_f64many Spec_f64 Spec_f64ld Spec_grid Spec_bd Model_corr Proof_base Proof_dens Proof_f64 Proof_f64b Proof_f64f Proof_f64n Proof_f64s Proof_f64t Proof_f64u.
From Verif Require Import Spec_f64ld Spec_f64bd Spec_f64many Proof_f64b.
From Flocq Require Import Core.Core.
From Coq Require Import Lia Lra.
Open Scope R_scope.
Ltac Zify.zify_post_hook ::= idtac.
#[local] Arguments bpow : simpl never.

(** ** the height of the kernel *)
Lemma pi_tight : rel (2 / 3) (val fpi) PI.
Proof.
  destruct fpi_val as [_ V]. pose proof PI_range. pose proof U_pos as HU. unfold rel. rewrite V.
  assert (P : Rabs (IZR 884279719003555 * / 2 ^ 48 - PI) <= / 2 ^ 52).
  { pose proof (PI_2_3_7_ineq 10) as H'. cbv [Nat.mul Nat.add] in H'.
    unfold tg_alt, PI_2_3_7_tg, Ratan_seq in H'. cbn [sum_f_R0 pow Nat.mul Nat.add INR] in H'. apply Rabs_le. lra. }
  eapply Rle_trans; [exact P|]. replace (/ 2 ^ 52) with (2 * U) by (unfold U; lra).
  assert (U * 3 <= U * PI) by (apply Rmult_le_compat_l; lra). lra.
Qed.
Lemma two_pi_val : finite (fmul (f_of_Z 2) fpi) /\ rel (2 / 3 + 17 / 16) (val (fmul (f_of_Z 2) fpi)) (2 * PI) /\ 1 <= val (fmul (f_of_Z 2) fpi) <= 8.
Proof.
  pose proof PI_range as HP. destruct (f_of_Z_val 2 ltac:(lia)) as [F2 V2]. destruct fpi_val as [Fp Vp].
  assert (R1 : rel (2 / 3) (2 * val fpi) (2 * PI)).
  { pose proof pi_tight as R0. unfold rel in *. replace (2 * val fpi - 2 * PI) with (2 * (val fpi - PI)) by ring. rewrite Rabs_mult, (Rabs_pos_eq 2) by lra. lra. }
  assert (B10 : bpow radix2 (-1000) <= 1) by (change 1 with (bpow radix2 0); apply bpow_le; lia).
  assert (R2 : rel (2 / 3 + 17 / 16) (rnd (2 * val fpi)) (2 * PI)) by (apply rel_rnd; [exact R1|lra|lra|lra]).
  pose proof (rel_range _ _ _ R2 ltac:(lra) ltac:(lra)) as G2.
  assert (B4 : 16 <= bpow radix2 900) by (change 16 with (bpow radix2 4); apply bpow_le; lia).
  destruct (fmul_val (f_of_Z 2) fpi F2 Fp) as [Fm Vm]; [rewrite V2; apply small_max; rewrite Rabs_pos_eq; lra|].
  rewrite V2 in Vm. rewrite Vm. split; [exact Fm|]. split; [exact R2|].
  assert (rnd (2 * val fpi) <= 8); [|lra]. pose proof pi_digits as D. apply Rabs_le_inv in D.
  assert (PI <= 7 / 2) by lra. lra.
Qed.

Lemma Rpower_half x : 0 < x -> Rpower x (1 / 2) = sqrt x.
Proof. intros H. replace (1 / 2) with (/ 2) by lra. now apply Rpower_sqrt. Qed.
Lemma Rpower_three_halves x : 0 < x -> Rpower x (3 / 2) = x * sqrt x.
Proof. intros H. replace (3 / 2) with (1 + / 2) by lra. now rewrite Rpower_plus, Rpower_1, Rpower_sqrt. Qed.

Section Kernel.
Context (fexp : f64 -> f64) (fpow : f64 -> f64 -> f64) (np_sum : list f64 -> f64) (He : exp_ok fexp) (Hp : pow_ok fpow) (Hs : sums np_sum)
  (bw : list f64) (Hbw : Forall moderate bw) (Hdim : (1 <= length bw <= 3)%nat).
Let H := gauss_height (map val bw).
Let S2 := sqrt (2 * PI).

Lemma half_val : let y := fdiv (f_of_Z (Z.of_nat (length bw))) (f_of_Z 2) in finite y /\ val y = INR (length bw) / 2.
Proof using Hdim.
  intros y. destruct (f_of_Z_val (Z.of_nat (length bw)) ltac:(lia)) as [Fn Vn]. destruct (f_of_Z_val 2 ltac:(lia)) as [F2 V2].
  rewrite <- INR_IZR_INZ in Vn.
  assert (N : 1 <= INR (length bw) <= 3) by (split; [replace 1 with (INR 1) by (cbn; lra)|replace 3 with (INR 3) by (cbn; lra)]; apply le_INR; lia).
  assert (G : rnd (INR (length bw) / 2) = INR (length bw) / 2).
  { apply round_generic; [typeclasses eauto|]. rewrite INR_IZR_INZ. apply generic_format_FLT.
    exists (Float radix2 (Z.of_nat (length bw)) (-1)); [|change (Z.abs (Z.of_nat (length bw)) < 9007199254740992)%Z; lia|cbn; lia].
    unfold F2R. cbn [Fnum Fexp]. change (bpow radix2 (-1)) with (/ 2). reflexivity. }
  assert (B : 16 <= bpow radix2 900) by (change 16 with (bpow radix2 4); apply bpow_le; lia).
  destruct (fdiv_val (f_of_Z (Z.of_nat (length bw))) (f_of_Z 2) Fn F2) as [F V]; [rewrite V2; lra|rewrite Vn, V2, G; apply small_max; rewrite Rabs_pos_eq; lra|].
  rewrite Vn, V2, G in V. split; assumption.
Qed.

Lemma power_val : let p := fpow (fmul (f_of_Z 2) fpi) (fdiv (f_of_Z (Z.of_nat (length bw))) (f_of_Z 2)) in
  finite p /\ rel (116 / 10) (val p) (S2 ^ length bw) /\ 2 <= S2 ^ length bw <= 27.
Proof using Hp Hdim.
  intros p. destruct two_pi_val as (Fx & Rx & Bx). destruct half_val as (Fy & Vy). set (x := fmul (f_of_Z 2) fpi) in *. set (y := fdiv _ _) in *.
  assert (N : 1 <= INR (length bw) <= 3) by (split; [replace 1 with (INR 1) by (cbn; lra)|replace 3 with (INR 3) by (cbn; lra)]; apply le_INR; lia).
  destruct (Hp x y Fx Fy Bx ltac:(rewrite Vy; lra)) as [Fp Ep]. fold p in Fp, Ep. rewrite Vy in Ep.
  pose proof PI_range as HPI. assert (P2 : 0 < 2 * PI) by lra.
  destruct root_val as (_ & _ & SR). fold S2 in SR.
  pose proof (rel_sqrt _ _ _ Rx ltac:(lra) P2) as Rq. fold S2 in Rq.
  assert (SS : S2 * S2 = 2 * PI) by (unfold S2; apply sqrt_sqrt; lra).
  pose proof (rel_mul _ _ _ _ _ _ Rx Rq ltac:(lra) ltac:(lra) P2 ltac:(lra)) as Rm.
  set (Q := Rpower (val x) (INR (length bw) / 2)) in *.
  assert (RQ : rel (353 / 100) Q (S2 ^ length bw) /\ 2 <= S2 ^ length bw <= 27).
  { assert (C : length bw = 1%nat \/ length bw = 2%nat \/ length bw = 3%nat) by lia. unfold Q. clear - C Rx Rq Rm SS SR Bx P2.
    destruct C as [-> | [-> | ->]].
    - replace (INR 1 / 2) with (1 / 2) by (cbn; lra). rewrite Rpower_half by lra. rewrite pow_1. split; [|lra]. apply rel_le with (1 := Rq); lra.
    - replace (INR 2 / 2) with 1 by (cbn; lra). rewrite Rpower_1 by lra. replace (S2 ^ 2) with (2 * PI) by (rewrite <- SS; ring).
      split; [|pose proof PI_range; lra]. apply rel_le with (1 := Rx); lra.
    - replace (INR 3 / 2) with (3 / 2) by (cbn; lra). rewrite Rpower_three_halves by lra. replace (S2 ^ 3) with (2 * PI * S2) by (rewrite <- SS; ring).
      pose proof PI_range. assert (0 < 2 * PI * S2) by (apply Rmult_lt_0_compat; lra).
      assert (6 * 2 <= 2 * PI * S2) by (apply Rmult_le_compat; lra). assert (2 * PI * S2 <= 9 * 3) by (apply Rmult_le_compat; lra).
      split; [|lra]. apply rel_le with (1 := Rm); lra. }
  destruct RQ as [RQ BQ]. split; [exact Fp|]. split; [|exact BQ]. set (P := S2 ^ length bw) in *.
  pose proof (rel_range _ _ _ RQ ltac:(lra) ltac:(lra)) as GQ. unfold rel in *. pose proof U_pos as HU.
  replace (/ 2 ^ 50) with (8 * U) in Ep by (unfold U; lra).
  replace (val p - P) with ((val p - Q) + (Q - P)) by ring. eapply Rle_trans; [apply Rabs_triang|].
  assert (U * Q <= U * (P * (1025 / 1024))) by (apply Rmult_le_compat_l; lra). assert (0 < U * P) by (apply Rmult_lt_0_compat; lra). lra.
Qed.

Lemma prod_bw_val : finite (f_prod bw) /\ rel (9 / 4) (val (f_prod bw)) (prod_R (map val bw)) /\
  bpow radix2 (-300) <= prod_R (map val bw) <= bpow radix2 300.
Proof using Hbw Hdim.
  pose proof (bpow_gt_0 radix2 (-100)) as B0. pose proof (bpow_gt_0 radix2 (-200)) as B1.
  assert (B1000 : bpow radix2 (-1000) <= bpow radix2 (-300)) by (apply bpow_le; lia).
  assert (LL : bpow radix2 (-300) <= bpow radix2 (-200) <= bpow radix2 (-100)) by (split; apply bpow_le; lia).
  assert (UU : bpow radix2 100 <= bpow radix2 200 <= bpow radix2 300) by (split; apply bpow_le; lia).
  assert (M : bpow radix2 300 * 4 <= bpow radix2 900) by (change (bpow radix2 300 * bpow radix2 2 <= bpow radix2 900); rewrite <- bpow_plus; apply bpow_le; lia).
  assert (Z : forall z, rel 0 z z) by (intros z; unfold rel; rewrite Rminus_diag_eq by reflexivity; rewrite Rabs_R0; lra).
  assert (G2 : forall a b, moderate a -> moderate b -> finite (fmul a b) /\ rel (9 / 8) (val (fmul a b)) (val a * val b) /\ bpow radix2 (-200) <= val a * val b <= bpow radix2 200).
  { intros a b [Fa Ba] [Fb Bb].
    assert (L : bpow radix2 (-200) <= val a * val b) by (change (-200)%Z with (-100 + -100)%Z; rewrite bpow_plus; apply Rmult_le_compat; lra).
    assert (L' : val a * val b <= bpow radix2 200) by (change 200%Z with (100 + 100)%Z; rewrite bpow_plus; apply Rmult_le_compat; lra).
    pose proof (rel_rnd 0 _ _ (Z (val a * val b)) ltac:(lra) ltac:(lra) ltac:(lra)) as R.
    pose proof (rel_range _ _ _ R ltac:(lra) ltac:(lra)) as G.
    destruct (fmul_val a b Fa Fb) as [F V]; [apply small_max; rewrite Rabs_pos_eq; lra|].
    split; [exact F|]. rewrite V. split; [apply rel_le with (1 := R); lra|lra]. }
  destruct bw as [|a [|b [|c [|]]]]; cbn [length] in Hdim; try lia; cbn [f_prod fold_left map prod_R fold_right]; rewrite ?Rmult_1_r;
    repeat match goal with X : Forall moderate (_ :: _) |- _ => inversion X; clear X; subst end.
  - assert (Ha : moderate a) by assumption. destruct Ha as [F B]. split; [exact F|]. split; [apply rel_le with (1 := Z _); lra|lra].
  - destruct (G2 a b ltac:(assumption) ltac:(assumption)) as (F & R & B). split; [exact F|]. split; [apply rel_le with (1 := R); lra|lra].
  - destruct (G2 a b ltac:(assumption) ltac:(assumption)) as (F & R & B). assert (Hc : moderate c) by assumption. destruct Hc as [Fc Bc]. rewrite <- Rmult_assoc.
    assert (L : bpow radix2 (-300) <= val a * val b * val c) by (change (-300)%Z with (-200 + -100)%Z; rewrite bpow_plus; apply Rmult_le_compat; lra).
    assert (L' : val a * val b * val c <= bpow radix2 300) by (change 300%Z with (200 + 100)%Z; rewrite bpow_plus; apply Rmult_le_compat; lra).
    pose proof (bpow_gt_0 radix2 (-300)) as B3.
    pose proof (rel_mul _ _ _ _ _ _ R (Z (val c)) ltac:(lra) ltac:(lra) ltac:(lra) ltac:(lra)) as R1.
    pose proof (rel_rnd _ _ _ R1 ltac:(lra) ltac:(lra) ltac:(lra)) as R2.
    pose proof (rel_range _ _ _ R2 ltac:(lra) ltac:(lra)) as G.
    destruct (fmul_val (fmul a b) c F Fc) as [F3 V3]; [apply small_max; rewrite Rabs_pos_eq; lra|].
    split; [exact F3|]. rewrite V3. split; [apply rel_le with (1 := R2); lra|lra].
Qed.

Lemma height_bounds : bpow radix2 (-306) <= H <= bpow radix2 297.
Proof using Hbw Hdim.
  destruct (heights_fac bw Hbw) as (l & A & B & C & D & E). destruct (prod_acc l A ltac:(lia)) as (_ & _ & _ & _ & L1 & L2). rewrite E, C in L1, L2. fold H in L1, L2.
  split; [eapply Rle_trans; [|exact L1]; apply bpow_le; lia|eapply Rle_trans; [exact L2|]; apply bpow_le; lia].
Qed.
Lemma kernel_height_val : finite (f_kernel_height fpow bw) /\ rel 17 (val (f_kernel_height fpow bw)) H.
Proof using Hp Hbw Hdim.
  destruct power_val as (Fp & Rp & Bp). destruct prod_bw_val as (Fb & Rb & Bb). unfold f_kernel_height.
  set (p := fpow _ _) in *. set (q := f_prod bw) in *. set (P := S2 ^ length bw) in *. set (Q := prod_R (map val bw)) in *.
  pose proof (bpow_gt_0 radix2 (-300)) as B0. assert (PQ : 0 < P * Q) by (apply Rmult_lt_0_compat; lra).
  assert (EH : H = / (P * Q)).
  { unfold H. rewrite <- kernel_height_spec by (apply Forall_map; eapply Forall_impl; [|exact Hbw]; intros b [_ B]; pose proof (bpow_gt_0 radix2 (-100)); lra).
    unfold kernel_height. rewrite map_length. unfold Rdiv. rewrite Rmult_1_l. reflexivity. }
  pose proof height_bounds as HB. rewrite EH in HB |- *.
  pose proof (rel_mul _ _ _ _ _ _ Rp Rb ltac:(lra) ltac:(lra) ltac:(lra) ltac:(lra)) as R1.
  assert (L1 : bpow radix2 (-1000) <= P * Q).
  { apply Rle_trans with (1 * bpow radix2 (-300)); [rewrite Rmult_1_l; apply bpow_le; lia|]. apply Rmult_le_compat; lra. }
  assert (L2 : P * Q <= bpow radix2 305) by (change 305%Z with (5 + 300)%Z; rewrite bpow_plus; change (bpow radix2 5) with 32; apply Rmult_le_compat; lra).
  pose proof (rel_rnd _ _ _ R1 ltac:(lra) PQ L1) as R2. pose proof (rel_range _ _ _ R2 ltac:(lra) PQ) as G2.
  assert (M1 : bpow radix2 305 * 2 <= bpow radix2 900) by (change (bpow radix2 305 * bpow radix2 1 <= bpow radix2 900); rewrite <- bpow_plus; apply bpow_le; lia).
  destruct (fmul_val p q Fp Fb) as [Fm Vm]; [apply small_max; rewrite Rabs_pos_eq; lra|].
  destruct one_val as [F1 V1]. pose proof (rel_inv _ _ _ R2 ltac:(lra) PQ) as R3.
  pose proof (Rinv_0_lt_compat _ PQ) as PI'.
  assert (L3 : bpow radix2 (-1000) <= / (P * Q)) by (eapply Rle_trans; [|apply HB]; apply bpow_le; lia).
  pose proof (rel_rnd _ _ _ R3 ltac:(lra) PI' L3) as R4. pose proof (rel_range _ _ _ R4 ltac:(lra) PI') as G4.
  assert (M2 : bpow radix2 297 * 2 <= bpow radix2 900) by (change (bpow radix2 297 * bpow radix2 1 <= bpow radix2 900); rewrite <- bpow_plus; apply bpow_le; lia).
  assert (E1 : val (f_of_Z 1) / val (fmul p q) = / rnd (val p * val q)) by (rewrite V1, Vm; unfold Rdiv; ring).
  destruct (fdiv_val (f_of_Z 1) (fmul p q) F1 Fm) as [Fd Vd]; [rewrite Vm; lra|rewrite E1; apply small_max; rewrite Rabs_pos_eq; lra|].
  rewrite E1 in Vd. split; [exact Fd|]. rewrite Vd. apply rel_le with (1 := R4); [lra|exact PI'].
Qed.
End Kernel.

(** ** the argument of the exponential *)
Section Term.
Context (b x y : f64) (Hb : moderate b) (Hx : bounded (bpow radix2 200) x) (Hy : bounded (bpow radix2 200) y).
Let D := val x - val y.
Let A := D ^ 2 / (2 * val b ^ 2).
Lemma term_val : let a := f_term (fsub x y) b in
  nonneg a /\ Rabs (val a - A) <= 16 * (U * A) + TAU /\ 0 <= A <= bpow radix2 601.
Proof using All.
  destruct (square_val b x y Hb Hx Hy) as (Fq & Q0 & Eq & BD). destruct (width_val b x y Hb Hx Hy) as (Fv & Rv & Bv). intros a. unfold f_term in a.
  fold D in Eq, BD. set (q := fmul (fsub x y) (fsub x y)) in *. set (v := fmul (f_of_Z 2) (fmul b b)) in *.
  pose proof U_pos as HU. pose proof U_small as HU1. pose proof ETA_pos as HE.
  pose proof (bpow_gt_0 radix2 (-199)) as B0. set (W := 2 * val b ^ 2) in *. assert (PW : 0 < W) by lra.
  pose proof (rel_range _ _ _ Rv ltac:(lra) PW) as Gv. assert (Pv : 0 < val v) by lra.
  pose proof (rel_inv _ _ _ Rv ltac:(lra) PW) as Ri. unfold rel in Ri.
  assert (D0 : 0 <= D ^ 2) by apply pow2_ge_0.
  pose proof (Rinv_0_lt_compat _ PW) as IW. pose proof (Rinv_0_lt_compat _ Pv) as Iv.
  assert (BW : / W <= bpow radix2 199) by (change 199%Z with (- -199)%Z; rewrite (bpow_opp radix2 (-199)); apply Rinv_le_contravar; lra).
  assert (A0 : 0 <= A) by (unfold A, Rdiv; apply Rmult_le_pos; [exact D0|]; fold W; lra).
  assert (AW : A = D ^ 2 * / W) by reflexivity.
  set (e1 := val q - D ^ 2) in *. set (e2 := / val v - / W) in *.
  assert (Ee : ETA * / W <= TAU / 1024).
  { apply Rle_trans with (ETA * bpow radix2 199); [apply Rmult_le_compat_l; lra|].
    replace (TAU / 1024) with (bpow radix2 (-800 + -10)) by (rewrite bpow_plus; unfold TAU; change (bpow radix2 (-10)) with (/ 1024); field).
    unfold ETA. rewrite <- bpow_plus. apply bpow_le. lia. }
  assert (EE : ETA <= TAU / 1024).
  { replace (TAU / 1024) with (bpow radix2 (-800 + -10)) by (rewrite bpow_plus; unfold TAU; change (bpow radix2 (-10)) with (/ 1024); field).
    unfold ETA. apply bpow_le. lia. }
  assert (UA : 0 <= U * A <= / 1048576 * A) by (split; [apply Rmult_le_pos|apply Rmult_le_compat_r]; lra).
  destruct TAU_small as [T0 T1].
  (* the exact quotient *)
  assert (Qe : Rabs (val q * / val v - A) <= 10 * (U * A) + TAU / 256).
  { replace (val q * / val v - A) with (e1 * / W + val q * e2) by (rewrite AW; unfold e1, e2; ring).
    eapply Rle_trans; [apply Rabs_triang|]. rewrite !Rabs_mult, (Rabs_pos_eq (/ W)), (Rabs_pos_eq (val q)) by lra.
    assert (P1 : Rabs e1 * / W <= 5 * (U * A) + ETA * / W).
    { apply Rle_trans with ((5 * (U * D ^ 2) + ETA) * / W); [apply Rmult_le_compat_r; lra|]. rewrite AW. lra. }
    assert (P2 : val q * Rabs e2 <= 5 * (U * A) + 2 * (ETA * / W)).
    { assert (P4 : val q <= D ^ 2 + (5 * (U * D ^ 2) + ETA)) by (apply Rabs_le_inv in Eq; unfold e1 in Eq; lra).
      assert (P5 : val q <= D ^ 2 * (17 / 16) + ETA) by (assert (U * D ^ 2 <= / 1048576 * D ^ 2) by (apply Rmult_le_compat_r; lra); lra).
      apply Rle_trans with ((D ^ 2 * (17 / 16) + ETA) * ((3 + 1 / 16) * U * / W)).
      - apply Rmult_le_compat; [exact Q0|apply Rabs_pos|exact P5|exact Ri].
      - assert (ETA * ((3 + 1 / 16) * U * / W) <= ETA * (1 * / W)) by (apply Rmult_le_compat_l; [lra|]; apply Rmult_le_compat_r; lra).
        assert (0 <= U * (D ^ 2 * / W)) by (rewrite <- AW; lra). assert (0 <= ETA * / W) by (apply Rmult_le_pos; lra). rewrite AW. lra. }
    lra. }
  (* rounding *)
  set (z := val q * / val v) in *. assert (z0 : 0 <= z) by (apply Rmult_le_pos; lra).
  pose proof (rnd_err z) as R. rewrite (Rabs_pos_eq z z0) in R.
  assert (AB : A <= bpow radix2 601).
  { rewrite AW. change 601%Z with (402 + 199)%Z. rewrite bpow_plus. apply Rmult_le_compat; lra. }
  assert (M1 : bpow radix2 601 * 4 <= bpow radix2 900) by (change (bpow radix2 601 * bpow radix2 2 <= bpow radix2 900); rewrite <- bpow_plus; apply bpow_le; lia).
  assert (M2 : 1 <= bpow radix2 601) by (change 1 with (bpow radix2 0); apply bpow_le; lia).
  apply Rabs_le_inv in Qe. apply Rabs_le_inv in R.
  assert (Uz : U * z <= U * (2 * A + TAU)) by (apply Rmult_le_compat_l; lra).
  assert (Uz1 : U * z <= / 1048576 * z) by (apply Rmult_le_compat_r; lra).
  assert (Ut : U * TAU <= / 1048576 * TAU) by (apply Rmult_le_compat_r; lra).
  assert (R0 : 0 <= rnd z) by (rewrite <- rnd_0; apply rnd_le; lra).
  assert (Qz : val q / val v = z) by reflexivity.
  destruct (fdiv_val q v Fq Fv) as [Fa Va]; [lra|rewrite Qz; apply small_max; apply Rabs_le; lra|].
  rewrite Qz in Va. fold a in Fa, Va. unfold nonneg. rewrite Va. split; [split; assumption|]. split; [|split; [exact A0|exact AB]]. apply Rabs_le. lra.
Qed.

End Term.

(** ** a kernel value *)
Definition goodterm (a : f64) (A : R) : Prop := nonneg a /\ Rabs (val a - A) <= 16 * (U * A) + TAU /\ 0 <= A <= bpow radix2 601.
Lemma terms_val bw : Forall moderate bw -> forall p q, coords_ok bw p -> coords_ok bw q ->
  Forall2 goodterm (fmap2 f_term (fmap2 fsub p q) bw)
    (vmap2 (fun d b => d ^ 2 / (2 * b ^ 2)) (vsub (map val p) (map val q)) (map val bw)).
Proof.
  induction 1 as [|b bw Hb _ IH]; intros p q [Lp Fp] [Lq Fq].
  - destruct p; [|discriminate]. destruct q; [|discriminate]. constructor.
  - destruct p as [|x p]; [discriminate|]. destruct q as [|y q]; [discriminate|]. inversion Fp; subst. inversion Fq; subst.
    cbn [fmap2 map vsub vmap2]. constructor; [now apply term_val|]. apply IH; (split; [cbn in *; lia|assumption]).
Qed.
Lemma exp_close2 w x : 0 <= w -> 0 <= x -> Rabs (w - x) <= 32 * (U * x) + 8 * TAU -> Rabs (exp (- w) - exp (- x)) <= 200 * U.
Proof.
  intros W0 Hx0 Ew. pose proof U_pos as HU. pose proof U_small as HU1. destruct TAU_small as [T0 T1].
  eapply Rle_trans; [apply exp_abs; assumption|].
  apply Rabs_le_inv in Ew. set (a := Rmin w x).
  assert (Ux : 0 <= U * x <= / 1048576 * x) by (split; [apply Rmult_le_pos; lra | apply Rmult_le_compat_r; lra]).
  assert (A0 : 0 <= a) by (unfold a, Rmin; destruct (Rle_dec w x); lra).
  assert (A1 : x / 2 - 1 <= a) by (unfold a, Rmin; destruct (Rle_dec w x); lra).
  assert (XE : exp (- a) <= 3 * exp (- (x / 2))).
  { apply Rle_trans with (exp (1 + - (x / 2))).
    - destruct (Req_dec (- a) (1 + - (x / 2))) as [-> | NE]; [lra|]. left. apply exp_increasing. lra.
    - rewrite exp_plus. apply Rmult_le_compat_r; [left; apply exp_pos|exact exp1_3]. }
  assert (XA : exp (- a) <= 1).
  { rewrite <- exp_0. destruct A0 as [A0 | A0]; [left; apply exp_increasing; lra | rewrite <- A0; right; f_equal; ring]. }
  assert (T : x * exp (- a) <= 6).
  { apply Rle_trans with (x * (3 * exp (- (x / 2)))); [apply Rmult_le_compat_l; lra|]. pose proof (texp (x / 2)). lra. }
  pose proof (exp_pos (- a)) as EP.
  apply Rle_trans with ((32 * (U * x) + 8 * TAU) * exp (- a)).
  - apply Rmult_le_compat_r; [lra|]. apply Rabs_le. lra.
  - assert (U * (x * exp (- a)) <= U * 6) by (apply Rmult_le_compat_l; lra).
    assert (TAU * exp (- a) <= TAU * 1) by (apply Rmult_le_compat_l; lra). lra.
Qed.

Section Entry.
Context (fexp : f64 -> f64) (fpow : f64 -> f64 -> f64) (np_sum : list f64 -> f64) (He : exp_ok fexp) (Hp : pow_ok fpow) (Hs : sums np_sum)
  (bw : list f64) (Hbw : Forall moderate bw) (Hdim : (1 <= length bw <= 3)%nat).
Let H := gauss_height (map val bw).

Lemma sum_terms l L : Forall2 goodterm l L -> (1 <= length l <= 3)%nat ->
  nonneg (np_sum l) /\ Rabs (val (np_sum l) - rsum L) <= 32 * (U * rsum L) + 8 * TAU /\ 0 <= rsum L.
Proof using All.
  intros F2 Len. pose proof U_pos as HU. pose proof U_small as HU1. destruct TAU_small as [T0 T1].
  assert (NE : l <> []) by (intros ->; cbn in Len; lia).
  assert (N3 : 1 <= INR (length l) <= 3) by (split; [replace 1 with (INR 1) by (cbn; lra)|replace 3 with (INR 3) by (cbn; lra)]; apply le_INR; lia).
  assert (FN : Forall nonneg l) by (clear - F2; induction F2 as [|a A l L (G & _ & _) _ IH]; constructor; assumption).
  assert (B0 := bpow_gt_0 radix2 601).
  assert (SB : 0 <= rsum L <= INR (length l) * bpow radix2 601 /\ Rabs (vsum l - rsum L) <= 16 * (U * rsum L) + INR (length l) * TAU).
  { clear - F2 B0 HU. induction F2 as [|a A l L (_ & G2 & G3) _ [I1 I2]]; [cbn; rewrite Rminus_0_r, Rabs_R0; lra|].
    cbn [length vsum rsum fold_right]. fold (rsum L). fold (vsum l). rewrite S_INR. split; [lra|].
    replace (val a + vsum l - (A + rsum L)) with ((val a - A) + (vsum l - rsum L)) by ring. eapply Rle_trans; [apply Rabs_triang|]. lra. }
  destruct SB as [S1 S3]. set (T := rsum L) in *. set (v := vsum l) in *.
  assert (UT : 0 <= U * T <= / 1048576 * T) by (split; [apply Rmult_le_pos|apply Rmult_le_compat_r]; lra).
  assert (NT : INR (length l) * TAU <= 3 * TAU) by (apply Rmult_le_compat_r; lra).
  assert (NB : INR (length l) * bpow radix2 601 <= 3 * bpow radix2 601) by (apply Rmult_le_compat_r; lra).
  apply Rabs_le_inv in S3.
  assert (M : bpow radix2 601 * 8 <= bpow radix2 1000) by (change (bpow radix2 601 * bpow radix2 3 <= bpow radix2 1000); rewrite <- bpow_plus; apply bpow_le; lia).
  assert (M1 : 1 <= bpow radix2 601) by (change 1 with (bpow radix2 0); apply bpow_le; lia).
  assert (M2 : bpow radix2 1000 < bpow radix2 1023) by (apply bpow_lt; lia).
  assert (V0 : 0 <= v) by (apply vsum_nonneg; exact FN).
  assert (MV : v < bpow radix2 1023) by lra.
  assert (dd : INR (2 * length l) * U <= 6 * U) by (rewrite mult_INR; change (INR 2) with 2; apply Rmult_le_compat_r; lra).
  destruct (np_sum_bounds np_sum l Hs NE FN MV ltac:(lra)) as (Fs & S4 & S5). fold v in S4, S5.
  set (d := INR (2 * length l) * U) in *. set (s := val (np_sum l)) in *.
  assert (d0 : 0 <= d) by (unfold d; apply Rmult_le_pos; [apply pos_INR|lra]).
  assert (s0 : 0 <= s) by (eapply Rle_trans; [|exact S4]; apply Rmult_le_pos; lra).
  assert (dv : d * v <= 6 * U * v) by (apply Rmult_le_compat_r; lra).
  assert (ds : d * s <= 6 * U * s) by (apply Rmult_le_compat_r; lra).
  assert (Us : 0 <= U * s <= / 1048576 * s) by (split; [apply Rmult_le_pos|apply Rmult_le_compat_r]; lra).
  assert (Uv : U * v <= U * (T * (17 / 16) + 3 * TAU)) by (apply Rmult_le_compat_l; lra).
  assert (Us2 : U * s <= U * (v * (17 / 16))) by (apply Rmult_le_compat_l; lra).
  assert (Ut : U * TAU <= / 1048576 * TAU) by (apply Rmult_le_compat_r; lra).
  split; [split; assumption|]. split; [|lra]. apply Rabs_le. lra.
Qed.

Lemma kernel_val p q : coords_ok bw p -> coords_ok bw q ->
  let g := f_kernel fexp fpow np_sum bw (fmap2 fsub p q) in let G := gauss_kernel (map val bw) (map val p) (map val q) in
  nonneg g /\ 0 <= G <= H /\ Rabs (val g - G) <= 768 * U * H /\ bpow radix2 (-306) <= H <= bpow radix2 297.
Proof using All.
  intros Cp Cq g G. pose proof (terms_val bw Hbw p q Cp Cq) as F2.
  assert (Len : length (fmap2 f_term (fmap2 fsub p q) bw) = length bw).
  { destruct Cp as [Lp _]. destruct Cq as [Lq _]. assert (forall op (a b : list f64), length a = length b -> length (fmap2 op a b) = length b) as X.
    { clear. induction a as [|x a IH]; intros [|y b] E; try discriminate E; [reflexivity|]. cbn. f_equal. apply IH. now injection E. }
    rewrite X; [reflexivity|]. rewrite X; congruence. }
  destruct (sum_terms _ _ F2 ltac:(rewrite Len; exact Hdim)) as ((Fs & s0) & Es & T0'). unfold f_kernel in g.
  set (sm := np_sum _) in *. set (T := rsum _) in Es, T0'.
  destruct (kernel_height_val fpow Hp bw Hbw Hdim) as (Fh & Rh). fold H in Rh. pose proof (height_bounds bw Hbw Hdim) as Bh. fold H in Bh.
  assert (EG : G = H * exp (- T)) by (unfold G, H; apply gauss_split; rewrite !map_length; [apply Cp|apply Cq]).
  set (h := f_kernel_height fpow bw) in *.
  pose proof U_pos as HU. pose proof U_small as HU1. pose proof ETA_pos as HE. destruct TAU_small as [T0 T1].
  pose proof (bpow_gt_0 radix2 (-306)) as B0. assert (PH : 0 < H) by lra.
  set (a := fopp sm) in *. assert (Fa : finite a) by (apply fopp_finite; exact Fs). assert (Va : val a = - val sm) by apply fopp_val.
  destruct He as [He1 _]. destruct (He1 a Fa ltac:(lra)) as (Fe & Ge & _ & Ee). set (e := val (fexp a)) in *.
  assert (EA1 : exp (- T) <= 1).
  { rewrite <- exp_0. destruct T0' as [Q | Q]; [left; apply exp_increasing; lra | rewrite <- Q; right; f_equal; ring]. }
  assert (EW1 : exp (val a) <= 1).
  { rewrite <- exp_0, Va. destruct s0 as [Q | Q]; [left; apply exp_increasing; lra | rewrite <- Q; right; f_equal; ring]. }
  pose proof (exp_pos (- T)) as EA0. pose proof (exp_pos (val a)) as EW0.
  pose proof (exp_close2 (val sm) T s0 T0' Es) as C. rewrite <- Va in C.
  assert (T1000 : powerRZ 2 (-1000) <= TAU).
  { unfold TAU. replace (powerRZ 2 (-1000)) with (bpow radix2 (-1000)) by (rewrite bpow_powerRZ; reflexivity). apply bpow_le. lia. }
  assert (P50 : / 2 ^ 50 = 8 * U) by (unfold U; lra). rewrite P50 in Ee.
  assert (E1 : Rabs (e - exp (- T)) <= 209 * U).
  { apply Rabs_le_inv in C. apply Rabs_le_inv in Ee. assert (8 * U * exp (val a) <= 8 * U * 1) by (apply Rmult_le_compat_l; lra). apply Rabs_le. lra. }
  pose proof (rel_range _ _ _ Rh ltac:(lra) PH) as Gh. unfold rel in Rh.
  assert (E2 : Rabs (val h * e - G) <= 226 * U * H).
  { replace (val h * e - G) with ((val h - H) * e + H * (e - exp (- T))) by (rewrite EG; ring).
    eapply Rle_trans; [apply Rabs_triang|]. rewrite !Rabs_mult, (Rabs_pos_eq e), (Rabs_pos_eq H) by lra.
    assert (Rabs (val h - H) * e <= 17 * U * H * 1) by (apply Rmult_le_compat; [apply Rabs_pos|lra|exact Rh|lra]).
    assert (H * Rabs (e - exp (- T)) <= H * (209 * U)) by (apply Rmult_le_compat_l; lra). lra. }
  assert (he0 : 0 <= val h * e) by (apply Rmult_le_pos; lra).
  assert (he1 : val h * e <= H * (1025 / 1024) * 1) by (apply Rmult_le_compat; lra).
  pose proof (rnd_err (val h * e)) as R. rewrite (Rabs_pos_eq _ he0) in R.
  assert (EH : ETA <= U * H).
  { apply Rle_trans with (bpow radix2 (-53) * bpow radix2 (-306)); [unfold ETA; rewrite <- bpow_plus; apply bpow_le; lia|].
    rewrite <- U_bpow. apply Rmult_le_compat_l; lra. }
  assert (Uh : U * (val h * e) <= U * (H * (1025 / 1024) * 1)) by (apply Rmult_le_compat_l; lra).
  assert (UH : 0 <= U * H <= / 1048576 * H) by (split; [apply Rmult_le_pos|apply Rmult_le_compat_r]; lra).
  assert (M1 : bpow radix2 297 * 4 <= bpow radix2 900) by (change (bpow radix2 297 * bpow radix2 2 <= bpow radix2 900); rewrite <- bpow_plus; apply bpow_le; lia).
  assert (R0 : 0 <= rnd (val h * e)) by (rewrite <- rnd_0; apply rnd_le; exact he0).
  apply Rabs_le_inv in R. apply Rabs_le_inv in E2.
  destruct (fmul_val h (fexp a) Fh Fe) as [Fg Vg]; [fold e; apply small_max; rewrite Rabs_pos_eq; lra|]. fold e in Vg. fold g in Fg, Vg.
  unfold nonneg. rewrite Vg. split; [split; assumption|]. split.
  - rewrite EG. split; [apply Rmult_le_pos; lra|]. rewrite <- (Rmult_1_r H) at 2. apply Rmult_le_compat_l; lra.
  - split; [apply Rabs_le; lra|exact Bh].
Qed.

Lemma manual_val pos : Forall (coords_ok bw) pos -> pos <> [] -> (Z.of_nat (length pos) <= 1073741824)%Z ->
  length (f_density_manual fexp fpow np_sum bw pos) = length pos /\
  forall i x, nth_error (f_density_manual fexp fpow np_sum bw pos) i = Some x ->
    finite x /\ 0 < val x /\ Rabs (val x - exact_density bw pos i) <= INR (length pos) * / 2 ^ 43 * exact_density bw pos i /\
    bpow radix2 (-336) <= exact_density bw pos i <= bpow radix2 297.
Proof using All.
  intros Hpos Hn Hmax. unfold f_density_manual. rewrite map_length, seq_length. split; [reflexivity|]. intros i x Hi.
  set (n := length pos) in *.
  assert (Li : (i < n)%nat).
  { match type of Hi with nth_error ?l i = _ => assert (Q : nth_error l i <> None) by (rewrite Hi; discriminate) end.
    apply nth_error_Some in Q. now rewrite map_length, seq_length in Q. }
  rewrite nth_error_map in Hi. rewrite (nth_error_nth' _ 0%nat) in Hi by (rewrite seq_length; exact Li). rewrite seq_nth in Hi by exact Li.
  cbn in Hi. injection Hi as <-.
  assert (Cn : forall k, (k < n)%nat -> coords_ok bw (nth k pos [])) by (intros k Hk; rewrite Forall_forall in Hpos; apply Hpos, nth_In; exact Hk).
  destruct (mean_val np_sum Hs bw pos Hbw Hpos Hn Hmax (fun j i => f_kernel fexp fpow np_sum bw (fmap2 fsub (nth i pos []) (nth j pos [])))) with (j := i) as (A & B & C & D1 & D2).
  { intros k j Hk Hj. apply kernel_val; apply Cn; assumption. }
  { exact Li. }
  fold n in A, B, C, D1, D2. split; [exact A|]. split; [exact B|]. split; [exact C|].
  pose proof (height_bounds bw Hbw Hdim) as HB. fold H in D1, D2, HB.
  assert (NZ : INR n <= 1073741824) by (rewrite INR_IZR_INZ; apply IZR_le; exact Hmax).
  assert (N1 : 1 <= INR n) by (replace 1 with (INR 1) by (cbn; lra); apply le_INR; lia).
  split; [|lra]. apply Rmult_le_reg_r with (INR n); [lra|]. apply Rle_trans with (bpow radix2 (-336) * bpow radix2 30).
  - apply Rmult_le_compat_l; [apply bpow_ge_0|]. change (bpow radix2 30) with 1073741824. lra.
  - rewrite <- bpow_plus. apply Rle_trans with (bpow radix2 (-306)); [apply bpow_le; lia|lra].
Qed.
End Entry.
