(** Kernel values of pairs of walkers in float64 arithmetic (C93) *)
From Verif Require Import Spec_f64bd Model_f64bd Spec_f64 Spec_f64ld Spec_bd Proof_f64 Proof_f64b Proof_f64f Proof_f64n Proof_f64s.
From Flocq Require Import Core.Core.
From Coq Require Import Lia Lra.
Open Scope R_scope.
Ltac Zify.zify_post_hook ::= idtac.
#[local] Arguments bpow : simpl never.

Definition TAU : R := bpow radix2 (-800).
Lemma TAU_small : 0 < TAU /\ TAU * 1024 <= U.
Proof.
  split; [apply bpow_gt_0|]. rewrite U_bpow. unfold TAU. change 1024 with (bpow radix2 10). rewrite <- bpow_plus. apply bpow_le. lia.
Qed.

Lemma exp_close w x : 0 <= w -> 0 <= x -> Rabs (w - x) <= 16 * (U * x) + TAU -> Rabs (exp (- w) - exp (- x)) <= 100 * U.
Proof.
  intros W0 Hx0 Ew. pose proof U_pos as HU. pose proof U_small as HU1. destruct TAU_small as [T0 T1].
  eapply Rle_trans; [apply exp_abs; assumption|].
  apply Rabs_le_inv in Ew. set (a := Rmin w x).
  assert (Ux : 0 <= U * x <= / 1048576 * x) by (split; [apply Rmult_le_pos; lra | apply Rmult_le_compat_r; lra]).
  assert (A0 : 0 <= a) by (unfold a, Rmin; destruct (Rle_dec w x); lra).
  assert (A1 : x / 2 - 1 <= a) by (unfold a, Rmin; destruct (Rle_dec w x); lra).
  assert (XE : exp (- a) <= 3 * exp (- (x / 2))).
  { apply Rle_trans with (exp (1 + - (x / 2))).
    - destruct (Req_dec (- a) (1 + - (x / 2))) as [-> | NE]; [lra|]. left. apply exp_increasing. lra.
    - rewrite exp_plus. apply Rmult_le_compat_r; [left; apply exp_pos|exact exp1_3]. }
  assert (XA : exp (- a) <= 1).
  { rewrite <- exp_0. destruct A0 as [A0 | A0]; [left; apply exp_increasing; lra | rewrite <- A0; right; f_equal; ring]. }
  assert (T : x * exp (- a) <= 6).
  { apply Rle_trans with (x * (3 * exp (- (x / 2)))); [apply Rmult_le_compat_l; lra|]. pose proof (texp (x / 2)). lra. }
  pose proof (exp_pos (- a)) as EP.
  apply Rle_trans with ((16 * (U * x) + TAU) * exp (- a)).
  - apply Rmult_le_compat_r; [lra|]. apply Rabs_le. lra.
  - assert (U * (x * exp (- a)) <= U * 6) by (apply Rmult_le_compat_l; lra).
    assert (TAU * exp (- a) <= TAU * 1) by (apply Rmult_le_compat_l; lra). lra.
Qed.

Section Pair.
Context (b x y : f64) (Hb : moderate b) (Hx : bounded (bpow radix2 200) x) (Hy : bounded (bpow radix2 200) y).
Let D := val x - val y.
Let A := D ^ 2 / (2 * val b ^ 2).

Lemma diff_val : finite (fsub x y) /\ Rabs (val (fsub x y) - D) <= U * Rabs D /\ Rabs D <= bpow radix2 201.
Proof using All.
  destruct Hx as [Fx Bx]. destruct Hy as [Fy By]. pose proof U_pos. pose proof U_small.
  assert (BD : Rabs D <= bpow radix2 201).
  { unfold D, Rminus. eapply Rle_trans; [apply Rabs_triang|]. rewrite Rabs_Ropp.
    change 201%Z with (1 + 200)%Z. rewrite bpow_plus. change (bpow radix2 1) with 2. lra. }
  pose proof (rnd_plus_err x (fopp y)) as E. rewrite fopp_val in E. fold (val x - val y) in E. fold D in E.
  assert (B1 : bpow radix2 201 * 2 <= bpow radix2 900) by (change (bpow radix2 201 * bpow radix2 1 <= bpow radix2 900); rewrite <- bpow_plus; apply bpow_le; lia).
  assert (R : Rabs (rnd D) <= bpow radix2 900).
  { replace (rnd D) with ((rnd D - D) + D) by ring. eapply Rle_trans; [apply Rabs_triang|]. pose proof (Rabs_pos D).
    assert (U * Rabs D <= 1 * Rabs D) by (apply Rmult_le_compat_r; lra). lra. }
  destruct (fsub_val x y Fx Fy) as [F V]; [apply small_max; exact R|]. fold D in V.
  split; [exact F|]. rewrite V. split; [exact E|exact BD].
Qed.

Lemma square_val : let q := fmul (fsub x y) (fsub x y) in finite q /\ 0 <= val q /\ Rabs (val q - D ^ 2) <= 5 * (U * D ^ 2) + ETA /\ D ^ 2 <= bpow radix2 402.
Proof using All.
  destruct diff_val as (F & E & B). intros q. pose proof U_pos as HU. pose proof U_small as HU1. pose proof ETA_pos as HE.
  set (d := val (fsub x y)) in *. assert (D0 : 0 <= D ^ 2) by (apply pow2_ge_0).
  assert (DD : D ^ 2 = Rabs D * Rabs D) by (rewrite <- Rabs_mult; rewrite Rabs_pos_eq; [ring|]; replace (D * D) with (D ^ 2) by ring; exact D0).
  assert (S : Rabs (d * d - D ^ 2) <= 3 * (U * D ^ 2)).
  { replace (d * d - D ^ 2) with ((d - D) * ((d - D) + 2 * D)) by ring. rewrite Rabs_mult.
    assert (T : Rabs (d - D + 2 * D) <= (U + 2) * Rabs D).
    { eapply Rle_trans; [apply Rabs_triang|]. rewrite Rabs_mult, (Rabs_pos_eq 2) by lra. lra. }
    eapply Rle_trans; [apply Rmult_le_compat; [apply Rabs_pos|apply Rabs_pos|exact E|exact T]|].
    replace (U * Rabs D * ((U + 2) * Rabs D)) with (U * (U + 2) * (Rabs D * Rabs D)) by ring. rewrite <- DD.
    replace (3 * (U * D ^ 2)) with (U * 3 * D ^ 2) by ring. apply Rmult_le_compat_r; [exact D0|]. apply Rmult_le_compat_l; lra. }
  assert (BD : D ^ 2 <= bpow radix2 402).
  { rewrite DD. change 402%Z with (201 + 201)%Z. rewrite bpow_plus. apply Rmult_le_compat; try apply Rabs_pos; exact B. }
  assert (UD : 0 <= U * D ^ 2 <= / 1048576 * D ^ 2) by (split; [apply Rmult_le_pos|apply Rmult_le_compat_r]; lra).
  assert (d0 : 0 <= d * d) by (replace (d * d) with (d ^ 2) by ring; apply pow2_ge_0).
  pose proof (rnd_err (d * d)) as R. rewrite (Rabs_pos_eq _ d0) in R. apply Rabs_le_inv in R. apply Rabs_le_inv in S.
  assert (Ud : U * (d * d) <= U * (D ^ 2 * 2)) by (apply Rmult_le_compat_l; lra).
  assert (Ud1 : U * (d * d) <= / 1048576 * (d * d)) by (apply Rmult_le_compat_r; lra).
  assert (R0 : 0 <= rnd (d * d)) by (rewrite <- rnd_0; apply rnd_le; exact d0).
  assert (B1 : bpow radix2 402 * 4 <= bpow radix2 900) by (change (bpow radix2 402 * bpow radix2 2 <= bpow radix2 900); rewrite <- bpow_plus; apply bpow_le; lia).
  assert (B2 : ETA <= bpow radix2 402) by (apply bpow_le; lia).
  destruct (fmul_val (fsub x y) (fsub x y) F F) as [Fq Vq]; [apply small_max; fold d; rewrite Rabs_pos_eq; lra|]. fold d in Vq.
  fold q in Fq, Vq. split; [exact Fq|]. rewrite Vq. split; [exact R0|]. split; [apply Rabs_le; lra|exact BD].
Qed.

Lemma width_val : let v := fmul (f_of_Z 2) (fmul b b) in finite v /\ rel 3 (val v) (2 * val b ^ 2) /\ bpow radix2 (-199) <= 2 * val b ^ 2 <= bpow radix2 201.
Proof using All.
  destruct Hb as [Fb Bb]. intros v. pose proof (bpow_gt_0 radix2 (-100)) as B0. assert (Pb : 0 < val b) by lra.
  assert (Rb : rel 0 (val b) (val b)) by (unfold rel; rewrite Rminus_diag_eq by reflexivity; rewrite Rabs_R0; lra).
  assert (L1 : bpow radix2 (-200) <= val b * val b) by (change (-200)%Z with (-100 + -100)%Z; rewrite bpow_plus; apply Rmult_le_compat; lra).
  assert (L2 : val b * val b <= bpow radix2 200) by (change 200%Z with (100 + 100)%Z; rewrite bpow_plus; apply Rmult_le_compat; lra).
  pose proof (bpow_gt_0 radix2 (-200)) as B2.
  assert (N1 : bpow radix2 (-1000) <= bpow radix2 (-200)) by (apply bpow_le; lia).
  assert (R1 : rel (0 + 17 / 16) (rnd (val b * val b)) (val b * val b)).
  { apply rel_rnd; [|lra|lra|lra]. unfold rel. rewrite Rminus_diag_eq by reflexivity. rewrite Rabs_R0. lra. }
  pose proof (rel_range _ _ _ R1 ltac:(lra) ltac:(lra)) as G1.
  assert (M1 : bpow radix2 200 * 4 <= bpow radix2 900) by (change (bpow radix2 200 * bpow radix2 2 <= bpow radix2 900); rewrite <- bpow_plus; apply bpow_le; lia).
  destruct (fmul_val b b Fb Fb) as [F1 V1]; [apply small_max; rewrite Rabs_pos_eq; lra|].
  destruct (f_of_Z_val 2 ltac:(lia)) as [F2 V2].
  assert (R2 : rel (0 + 17 / 16) (2 * rnd (val b * val b)) (2 * (val b * val b))).
  { unfold rel in *. replace (2 * rnd (val b * val b) - 2 * (val b * val b)) with (2 * (rnd (val b * val b) - val b * val b)) by ring.
    rewrite Rabs_mult, (Rabs_pos_eq 2) by lra. lra. }
  assert (R3 : rel (0 + 17 / 16 + 17 / 16) (rnd (2 * rnd (val b * val b))) (2 * (val b * val b))) by (apply rel_rnd; [exact R2|lra|lra|lra]).
  pose proof (rel_range _ _ _ R3 ltac:(lra) ltac:(lra)) as G3.
  destruct (fmul_val (f_of_Z 2) (fmul b b) F2 F1) as [F3 V3]; [rewrite V2, V1; apply small_max; rewrite Rabs_pos_eq; lra|].
  rewrite V2, V1 in V3. fold v in F3, V3.
  replace (2 * val b ^ 2) with (2 * (val b * val b)) by ring. split; [exact F3|]. split; [rewrite V3; apply rel_le with (1 := R3); lra|].
  change (-199)%Z with (1 + -200)%Z. change 201%Z with (1 + 200)%Z. rewrite !bpow_plus. change (bpow radix2 1) with 2. lra.
Qed.

(** the argument of the exponential *)
Lemma arg_val : let a := fdiv (fopp (fmul (fsub x y) (fsub x y))) (fmul (f_of_Z 2) (fmul b b)) in
  finite a /\ val a <= 0 /\ Rabs (- val a - A) <= 16 * (U * A) + TAU /\ 0 <= A.
Proof using All.
  destruct square_val as (Fq & Q0 & Eq & BD). destruct width_val as (Fv & Rv & Bv). intros a.
  set (q := fmul (fsub x y) (fsub x y)) in *. set (v := fmul (f_of_Z 2) (fmul b b)) in *.
  pose proof U_pos as HU. pose proof U_small as HU1. pose proof ETA_pos as HE.
  pose proof (bpow_gt_0 radix2 (-199)) as B0. set (W := 2 * val b ^ 2) in *. assert (PW : 0 < W) by lra.
  pose proof (rel_range _ _ _ Rv ltac:(lra) PW) as Gv. assert (Pv : 0 < val v) by lra.
  pose proof (rel_inv _ _ _ Rv ltac:(lra) PW) as Ri. unfold rel in Ri.
  assert (D0 : 0 <= D ^ 2) by apply pow2_ge_0.
  pose proof (Rinv_0_lt_compat _ PW) as IW. pose proof (Rinv_0_lt_compat _ Pv) as Iv.
  assert (BW : / W <= bpow radix2 199) by (change 199%Z with (- -199)%Z; rewrite (bpow_opp radix2 (-199)); apply Rinv_le_contravar; lra).
  assert (A0 : 0 <= A) by (unfold A, Rdiv; apply Rmult_le_pos; [exact D0|]; fold W; lra).
  assert (AW : A = D ^ 2 * / W) by reflexivity.
  set (e1 := val q - D ^ 2) in *. set (e2 := / val v - / W) in *.
  assert (Ee : ETA * / W <= TAU / 1024).
  { apply Rle_trans with (ETA * bpow radix2 199); [apply Rmult_le_compat_l; lra|].
    replace (TAU / 1024) with (bpow radix2 (-800 + -10)) by (rewrite bpow_plus; unfold TAU; change (bpow radix2 (-10)) with (/ 1024); field).
    unfold ETA. rewrite <- bpow_plus. apply bpow_le. lia. }
  assert (EE : ETA <= TAU / 1024).
  { replace (TAU / 1024) with (bpow radix2 (-800 + -10)) by (rewrite bpow_plus; unfold TAU; change (bpow radix2 (-10)) with (/ 1024); field).
    unfold ETA. apply bpow_le. lia. }
  assert (UA : 0 <= U * A <= / 1048576 * A) by (split; [apply Rmult_le_pos|apply Rmult_le_compat_r]; lra).
  destruct TAU_small as [T0 T1].
  (* the exact quotient *)
  assert (Qe : Rabs (val q * / val v - A) <= 10 * (U * A) + TAU / 256).
  { replace (val q * / val v - A) with (e1 * / W + val q * e2) by (rewrite AW; unfold e1, e2; ring).
    eapply Rle_trans; [apply Rabs_triang|]. rewrite !Rabs_mult, (Rabs_pos_eq (/ W)), (Rabs_pos_eq (val q)) by lra.
    assert (P1 : Rabs e1 * / W <= 5 * (U * A) + ETA * / W).
    { apply Rle_trans with ((5 * (U * D ^ 2) + ETA) * / W); [apply Rmult_le_compat_r; lra|]. rewrite AW. lra. }
    assert (P2 : val q * Rabs e2 <= 5 * (U * A) + 2 * (ETA * / W)).
    { assert (P4 : val q <= D ^ 2 + (5 * (U * D ^ 2) + ETA)) by (apply Rabs_le_inv in Eq; unfold e1 in Eq; lra).
      assert (P5 : val q <= D ^ 2 * (17 / 16) + ETA) by (assert (U * D ^ 2 <= / 1048576 * D ^ 2) by (apply Rmult_le_compat_r; lra); lra).
      apply Rle_trans with ((D ^ 2 * (17 / 16) + ETA) * ((3 + 1 / 16) * U * / W)).
      - apply Rmult_le_compat; [exact Q0|apply Rabs_pos|exact P5|exact Ri].
      - assert (ETA * ((3 + 1 / 16) * U * / W) <= ETA * (1 * / W)) by (apply Rmult_le_compat_l; [lra|]; apply Rmult_le_compat_r; lra).
        assert (0 <= U * (D ^ 2 * / W)) by (rewrite <- AW; lra). assert (0 <= ETA * / W) by (apply Rmult_le_pos; lra). rewrite AW. lra. }
    lra. }
  (* rounding *)
  set (z := val q * / val v) in *. assert (z0 : 0 <= z) by (apply Rmult_le_pos; lra).
  pose proof (rnd_err (- z)) as R. rewrite Rabs_Ropp, (Rabs_pos_eq z z0) in R.
  assert (AB : A <= bpow radix2 601).
  { rewrite AW. change 601%Z with (402 + 199)%Z. rewrite bpow_plus. apply Rmult_le_compat; lra. }
  assert (M1 : bpow radix2 601 * 4 <= bpow radix2 900) by (change (bpow radix2 601 * bpow radix2 2 <= bpow radix2 900); rewrite <- bpow_plus; apply bpow_le; lia).
  assert (M2 : 1 <= bpow radix2 601) by (change 1 with (bpow radix2 0); apply bpow_le; lia).
  apply Rabs_le_inv in Qe. apply Rabs_le_inv in R.
  assert (Uz : U * z <= U * (2 * A + TAU)) by (apply Rmult_le_compat_l; lra).
  assert (Uz1 : U * z <= / 1048576 * z) by (apply Rmult_le_compat_r; lra).
  assert (Ut : U * TAU <= / 1048576 * TAU) by (apply Rmult_le_compat_r; lra).
  assert (R0 : rnd (- z) <= 0) by (rewrite <- rnd_0; apply rnd_le; lra).
  assert (Qz : val (fopp q) / val v = - z) by (rewrite fopp_val; unfold z, Rdiv; ring).
  destruct (fdiv_val (fopp q) v (fopp_finite _ Fq) Fv) as [Fa Va]; [lra|rewrite Qz; apply small_max; apply Rabs_le; lra|].
  rewrite Qz in Va. fold a in Fa, Va. split; [exact Fa|]. rewrite Va. split; [exact R0|]. split; [|exact A0]. apply Rabs_le. lra.
Qed.

Context (fexp : f64 -> f64) (He : exp_ok fexp).
Lemma pair_val : let g := f_pair fexp b x y in let G := HH (val b) * exp (- A) in
  finite g /\ 0 <= val g /\ 0 <= G <= HH (val b) /\ Rabs (val g - G) <= 128 * U * HH (val b).
Proof using All.
  destruct arg_val as (Fa & Na & Ea & A0). destruct (height_val b Hb) as (Fh & Rh & Bh). intros g G.
  unfold f_pair in g. set (a := fdiv _ _) in Fa, Na, Ea, g. set (h := f_height b) in *. set (H := HH (val b)) in *.
  pose proof U_pos as HU. pose proof U_small as HU1. pose proof ETA_pos as HE. destruct TAU_small as [T0 T1].
  pose proof (bpow_gt_0 radix2 (-102)) as B0. assert (PH : 0 < H) by lra.
  destruct He as [He1 _]. destruct (He1 a Fa Na) as (Fe & Ge & _ & Ee). set (e := val (fexp a)) in *.
  assert (EA1 : exp (- A) <= 1).
  { rewrite <- exp_0. destruct A0 as [A0' | A0']; [left; apply exp_increasing; lra | rewrite <- A0'; right; f_equal; ring]. }
  assert (EW1 : exp (val a) <= 1).
  { rewrite <- exp_0. destruct Na as [N | ->]; [left; apply exp_increasing; lra | right; reflexivity]. }
  pose proof (exp_pos (- A)) as EA0. pose proof (exp_pos (val a)) as EW0.
  pose proof (exp_close (- val a) A ltac:(lra) A0 Ea) as C. rewrite Ropp_involutive in C.
  assert (T1000 : powerRZ 2 (-1000) <= TAU).
  { unfold TAU. replace (powerRZ 2 (-1000)) with (bpow radix2 (-1000)) by (rewrite bpow_powerRZ; reflexivity). apply bpow_le. lia. }
  assert (P50 : / 2 ^ 50 = 8 * U) by (unfold U; lra). rewrite P50 in Ee.
  assert (E1 : Rabs (e - exp (- A)) <= 109 * U).
  { apply Rabs_le_inv in C. apply Rabs_le_inv in Ee. assert (8 * U * exp (val a) <= 8 * U * 1) by (apply Rmult_le_compat_l; lra). apply Rabs_le. lra. }
  pose proof (rel_range _ _ _ Rh ltac:(lra) PH) as Gh. unfold rel in Rh.
  assert (E2 : Rabs (val h * e - G) <= 117 * U * H).
  { replace (val h * e - G) with ((val h - H) * e + H * (e - exp (- A))) by (unfold G; ring).
    eapply Rle_trans; [apply Rabs_triang|]. rewrite !Rabs_mult, (Rabs_pos_eq e), (Rabs_pos_eq H) by lra.
    assert (Rabs (val h - H) * e <= 8 * U * H * 1) by (apply Rmult_le_compat; [apply Rabs_pos|lra|exact Rh|lra]).
    assert (H * Rabs (e - exp (- A)) <= H * (109 * U)) by (apply Rmult_le_compat_l; lra). lra. }
  assert (he0 : 0 <= val h * e) by (apply Rmult_le_pos; lra).
  assert (he1 : val h * e <= H * (1025 / 1024) * 1) by (apply Rmult_le_compat; lra).
  pose proof (rnd_err (val h * e)) as R. rewrite (Rabs_pos_eq _ he0) in R.
  assert (EH : ETA <= U * H).
  { apply Rle_trans with (bpow radix2 (-53) * bpow radix2 (-102)); [unfold ETA; rewrite <- bpow_plus; apply bpow_le; lia|].
    rewrite <- U_bpow. apply Rmult_le_compat_l; lra. }
  assert (Uh : U * (val h * e) <= U * (H * (1025 / 1024) * 1)) by (apply Rmult_le_compat_l; lra).
  assert (UH : 0 <= U * H <= / 1048576 * H) by (split; [apply Rmult_le_pos|apply Rmult_le_compat_r]; lra).
  assert (M1 : bpow radix2 99 * 4 <= bpow radix2 900) by (change (bpow radix2 99 * bpow radix2 2 <= bpow radix2 900); rewrite <- bpow_plus; apply bpow_le; lia).
  assert (R0 : 0 <= rnd (val h * e)) by (rewrite <- rnd_0; apply rnd_le; exact he0).
  apply Rabs_le_inv in R. apply Rabs_le_inv in E2.
  destruct (fmul_val h (fexp a) Fh Fe) as [Fg Vg]; [fold e; apply small_max; rewrite Rabs_pos_eq; lra|]. fold e in Vg. fold g in Fg, Vg.
  split; [exact Fg|]. rewrite Vg. split; [exact R0|]. split.
  - unfold G. split; [apply Rmult_le_pos; lra|]. rewrite <- (Rmult_1_r H) at 2. apply Rmult_le_compat_l; lra.
  - apply Rabs_le. lra.
Qed.
End Pair.
