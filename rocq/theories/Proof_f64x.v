(** A function np.log with the contract of Spec_f64bd.v exists; example for C93 *)
From Verif Require Import Spec_f64bd Proof_base Proof_f64 Proof_f64b Proof_f64c Proof_f64e Proof_f64f Proof_f64g Proof_f64h Proof_f64s Proof_f64v Proof_f64w.
From Flocq Require Import Core.Core.
From Coq Require Import Lia Lra.
Open Scope R_scope.
Ltac Zify.zify_post_hook ::= idtac.
#[local] Arguments bpow : simpl never.

Lemma val_form (x : f64) : 0 < val x -> exists m e, val x = IZR m * bpow radix2 e /\ (1 <= m)%Z /\ (-1074 <= e)%Z /\ (/ 2 <= val x -> (-53 <= e)%Z).
Proof.
  intros P. pose proof (generic_format_B2R 53 1024 x) as G. unfold generic_format, F2R in G. cbn [Fnum Fexp] in G.
  set (m := Ztrunc _) in G. set (e := cexp _ _ _) in G. exists m, e. split; [exact G|].
  assert (Pb : 0 < bpow radix2 e) by apply bpow_gt_0.
  split.
  - assert (0 < IZR m). { apply (Rmult_lt_reg_r (bpow radix2 e)); [exact Pb|]. rewrite Rmult_0_l, <- G. exact P. } apply lt_IZR in H. lia.
  - unfold e, cexp, SpecFloat.fexp, SpecFloat.emin. split; [lia|]. intros H.
    assert (L : (0 <= mag radix2 (val x))%Z).
    { apply mag_ge_bpow. rewrite Rabs_pos_eq by lra. change (0 - 1)%Z with (-1)%Z. change (bpow radix2 (-1)) with (/ 2). exact H. }
    lia.
Qed.

Lemma val_near_one (x : f64) : / 2 <= val x -> val x <> 1 -> bpow radix2 (-53) <= Rabs (val x - 1).
Proof.
  intros H1 H2. destruct (val_form x) as (m & e & E & _ & _ & He); [lra|]. specialize (He H1).
  assert (Q : val x - 1 = IZR (m * 2 ^ (e + 53) - 2 ^ 53) * bpow radix2 (-53)).
  { rewrite E, minus_IZR, mult_IZR, !(IZR_Zpower radix2) by lia. rewrite bpow_plus.
    assert (B : bpow radix2 53 * bpow radix2 (-53) = 1) by (rewrite <- bpow_plus; reflexivity).
    replace ((IZR m * (bpow radix2 e * bpow radix2 53) - bpow radix2 53) * bpow radix2 (-53))
      with ((IZR m * bpow radix2 e) * (bpow radix2 53 * bpow radix2 (-53)) - bpow radix2 53 * bpow radix2 (-53)) by ring. rewrite B. lra. }
  rewrite Q, Rabs_mult, (Rabs_pos_eq (bpow radix2 (-53))) by apply bpow_ge_0.
  set (z := (m * 2 ^ (e + 53) - 2 ^ 53)%Z) in *.
  assert (Z0 : z <> 0%Z) by (intros Z0; rewrite Z0, Rmult_0_l in Q; apply H2; lra).
  assert (1 <= Rabs (IZR z)) by (rewrite <- abs_IZR; apply IZR_le; lia).
  pose proof (bpow_ge_0 radix2 (-53)). rewrite <- (Rmult_1_l (bpow radix2 (-53))) at 1. now apply Rmult_le_compat_r.
Qed.

Lemma log_all_ok_inhabited : exists flog, log_all_ok flog.
Proof.
  exists (fun x => nearest (ln (val x))). intros x Fx Px. set (v := val x) in *. set (l := ln v).
  destruct (val_form x Px) as (m & e & E & M1 & E1 & _). fold v in E.
  assert (V1 : bpow radix2 (-1074) <= v).
  { rewrite E. apply Rle_trans with (1 * bpow radix2 e); [rewrite Rmult_1_l; now apply bpow_le|]. apply Rmult_le_compat_r; [apply bpow_ge_0|]. now apply IZR_le. }
  assert (V2 : v < bpow radix2 1024) by (pose proof (abs_B2R_lt_emax 53 1024 x) as Q; fold v in Q; rewrite Rabs_pos_eq in Q; lra).
  assert (P0 : 0 < bpow radix2 (-1074)) by apply bpow_gt_0.
  assert (LB : forall e, ln (bpow radix2 e) = IZR e * ln 2).
  { intros k. rewrite bpow_powerRZ, powerRZ_Rpower by (cbn; lra). unfold Rpower. apply ln_exp. }
  assert (L2 : / 2 < ln 2 <= 1) by (split; [exact ln_lt_2|]; pose proof (ln_le_sub 2 ltac:(lra)); lra).
  assert (LR : Rabs l <= 1074).
  { assert (G1 : ln (bpow radix2 (-1074)) <= l) by (apply ln_mono; [exact P0|exact V1]).
    assert (G2 : l <= ln (bpow radix2 1024)) by (apply ln_mono; [exact Px|lra]).
    rewrite LB in G1, G2. apply Rabs_le. lra. }
  pose proof U_pos as HU.
  assert (ER : Rabs (rnd l - l) <= U * Rabs l).
  { destruct (Req_dec v 1) as [Q | NE].
    - unfold l. rewrite Q, ln_1, rnd_0, Rminus_0_r, Rabs_R0. lra.
    - apply rnd_err_normal. apply Rle_trans with (bpow radix2 (-54)); [apply bpow_le; lia|].
      assert (B53 : bpow radix2 (-53) = 2 * bpow radix2 (-54)) by (change (-53)%Z with (1 + -54)%Z; rewrite bpow_plus; reflexivity).
      assert (B54 : bpow radix2 (-54) <= / 4) by (change (/ 4) with (bpow radix2 (-2)); apply bpow_le; lia).
      assert (P54 : 0 < bpow radix2 (-54)) by apply bpow_gt_0.
      destruct (Rle_or_lt v 1) as [L | L].
      + assert (A1 : l <= v - 1) by (now apply ln_le_sub).
        destruct (Rle_or_lt (/ 2) v) as [H | H].
        * pose proof (val_near_one x H NE) as N. fold v in N. rewrite Rabs_left1 in N by lra. rewrite Rabs_left1 by lra. lra.
        * rewrite Rabs_left1 by lra. lra.
      + assert (A1 : - l <= / v - 1).
        { unfold l. rewrite <- ln_Rinv by exact Px. apply ln_le_sub. now apply Rinv_0_lt_compat. }
        pose proof (val_near_one x ltac:(fold v; lra) NE) as N. fold v in N. rewrite Rabs_pos_eq in N by lra.
        assert (A2 : bpow radix2 (-54) <= 1 - / v).
        { apply (Rmult_le_reg_r v); [exact Px|]. rewrite Rmult_minus_distr_r, Rinv_l by lra. 
          destruct (Rle_or_lt v 2) as [H | H]; nra. }
        rewrite Rabs_pos_eq by lra. lra. }
  assert (U * Rabs l <= 1 * Rabs l) by (apply Rmult_le_compat_r; [apply Rabs_pos|unfold U; lra]).
  assert (Big : 4096 < bpow radix2 1024) by (change 4096 with (bpow radix2 12); apply bpow_lt; lia).
  destruct (nearest_val l) as [F V].
  { replace (rnd l) with ((rnd l - l) + l) by lra. eapply Rle_lt_trans; [apply Rabs_triang|]. lra. }
  split; [exact F|]. rewrite V. eapply Rle_trans; [exact ER|]. apply Rmult_le_compat_r; [apply Rabs_pos|unfold U; lra].
Qed.

(** three walkers in two dimensions *)
Definition ex_bw : list f64 := [f_of_Z 1; f_of_Z 2].
Definition ex_pos : list (list f64) := [[f_of_Z 0; f_of_Z 1]; [f_of_Z 3; f_of_Z (-2)]; [f_of_Z 0; f_of_Z 1]].
Lemma rates_case : exists fexp flog np_sum, exp_ok fexp /\ log_all_ok flog /\ sums np_sum /\ Forall moderate ex_bw /\ (1 <= length ex_bw <= 3)%nat /\
  Forall (coords_ok ex_bw) ex_pos /\ ex_pos <> [] /\ (Z.of_nat (length ex_pos) <= 10000)%Z /\ moderate (f_of_Z 1) /\ 0 <= 3 <= bpow radix2 300 /\
  Forall (fun e => finite e /\ Rabs (val e / val (f_of_Z 1)) <= 3) (map f_of_Z [3; -1; 3]%Z) /\ Forall (bounded 3) (map f_of_Z [0; -2; 1]%Z).
Proof.
  destruct exp_ok_inhabited as [fexp H1]. destruct log_all_ok_inhabited as [flog H2]. exists fexp, flog, left_sum.
  assert (HZ : forall z, (Z.abs z <= 3)%Z -> finite (f_of_Z z) /\ val (f_of_Z z) = IZR z) by (intros; apply f_of_Z_val; lia).
  assert (BZ : forall z, (1 <= z <= 3)%Z -> moderate (f_of_Z z)).
  { intros z Hz. destruct (HZ z) as [F V]; [lia|]. split; [exact F|]. rewrite V.
    assert (1 <= IZR z <= 3) by (split; apply IZR_le; lia).
    assert (bpow radix2 (-100) <= 1) by (change 1 with (bpow radix2 0); apply bpow_le; lia).
    assert (4 <= bpow radix2 100) by (change 4 with (bpow radix2 2); apply bpow_le; lia). lra. }
  assert (AZ : forall z B, (Z.abs z <= 3)%Z -> 3 <= B -> bounded B (f_of_Z z)).
  { intros z B Hz HB. destruct (HZ z Hz) as [F V]. split; [exact F|]. rewrite V, <- abs_IZR. apply IZR_le in Hz. lra. }
  assert (B200 : 4 <= bpow radix2 200) by (change 4 with (bpow radix2 2); apply bpow_le; lia).
  assert (B300 : 4 <= bpow radix2 300) by (change 4 with (bpow radix2 2); apply bpow_le; lia).
  split; [exact H1|]. split; [exact H2|]. split; [exact left_sum_sums|].
  split; [unfold ex_bw; constructor; [apply BZ; lia|constructor; [apply BZ; lia|constructor]]|].
  split; [cbn; lia|].
  split.
  { unfold ex_pos. constructor; [|constructor; [|constructor; [|constructor]]]; (split; [reflexivity|]);
      (constructor; [apply AZ; [lia|lra]|constructor; [apply AZ; [lia|lra]|constructor]]). }
  split; [discriminate|]. split; [cbn; lia|]. split; [apply BZ; lia|]. split; [lra|].
  destruct (HZ 1%Z ltac:(lia)) as [_ V1].
  split.
  - assert (EZ : forall z, (Z.abs z <= 3)%Z -> finite (f_of_Z z) /\ Rabs (val (f_of_Z z) / 1) <= 3).
    { intros z Hz. destruct (HZ z Hz) as [F V]. split; [exact F|]. rewrite V. unfold Rdiv. rewrite Rinv_1, Rmult_1_r, <- abs_IZR. now apply IZR_le. }
    cbn [map]. rewrite V1. repeat (apply Forall_cons; [apply EZ; lia|]). apply Forall_nil.
  - cbn [map]. constructor; [|constructor; [|constructor; [|constructor]]]; (apply AZ; [lia|lra]).
Qed.
