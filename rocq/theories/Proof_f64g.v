(** Functions np.log and np.exp with the contracts of Spec_f64.v exist *)
From Verif Require Import Spec_f64 Proof_f64 Proof_f64b Proof_f64e Proof_f64f Proof_base.
From Flocq Require Import Core.Core.
From Coq Require Import Lia Lra.
Open Scope R_scope.

#[local] Arguments bpow : simpl never.

(** the float64 nearest to a real number *)
Definition nearest (y : R) : f64 :=
  fmake (Ztrunc (scaled_mantissa radix2 (FLT_exp (-1074) 53) (rnd y))) (cexp radix2 (FLT_exp (-1074) 53) (rnd y)).

Lemma nearest_val y : Rabs (rnd y) < bpow radix2 1024 -> finite (nearest y) /\ val (nearest y) = rnd y.
Proof.
  intros H. assert (G : generic_format radix2 (FLT_exp (-1074) 53) (rnd y)) by (apply generic_format_round; auto with typeclass_instances).
  unfold nearest, fmake. set (m := Ztrunc _). set (e := cexp _ _ _).
  pose proof (binary_normalize_correct 53 1024 prec_53 emax_1024 mode_NE m e false) as C. cbv zeta in C. rewrite rnd_eq in C.
  assert (Q : F2R (Float radix2 m e) = rnd y) by (symmetry; exact G). rewrite Q in C.
  assert (RR : rnd (rnd y) = rnd y) by (apply round_generic; auto with typeclass_instances). rewrite RR in C.
  rewrite Rlt_bool_true in C by exact H. destruct C as [C1 [C2 _]]. split; assumption.
Qed.

Lemma log_ok_inhabited : exists flog, log_ok flog.
Proof.
  exists (fun x => nearest (ln (val x))). intros c Hc. destruct (f_of_Z_val c) as [Fc Vc]; [lia|]. rewrite Vc.
  assert (HcR : 1 <= IZR c <= 2 ^ 53).
  { split; [apply IZR_le; lia|]. replace (2 ^ 53) with (IZR (2 ^ 53)) by (rewrite (pow_IZR 2 53); reflexivity). apply IZR_le; lia. }
  pose proof (ln_le_53 _ HcR) as Hl. set (l := ln (IZR c)) in *. pose proof U_pos as HU.
  assert (E : Rabs (rnd l - l) <= U * l).
  { destruct (Z.eq_dec c 1) as [-> | NE].
    - unfold l. rewrite ln_1, rnd_0. rewrite Rminus_0_r, Rabs_R0. lra.
    - assert (L2 : / 2 < l).
      { apply Rlt_le_trans with (ln 2); [exact ln_lt_2|]. apply ln_mono; [lra|]. apply IZR_le; lia. }
      pose proof (rnd_err_normal l) as E. rewrite (Rabs_pos_eq l) in E by lra. apply E.
      apply Rle_trans with (bpow radix2 (-1)); [apply bpow_le; lia|]. change (bpow radix2 (-1)) with (/ 2). lra. }
  assert (E' := E). apply Rabs_le_inv in E'.
  assert (U1 : U * l <= 1 * l) by (apply Rmult_le_compat_r; [lra|unfold U; lra]).
  assert (Big : 128 < bpow radix2 1024) by (change 128 with (bpow radix2 7); apply bpow_lt; lia).
  destruct (nearest_val l) as [F V]; [apply Rabs_lt; lra|]. split; [exact F|]. rewrite V.
  eapply Rle_trans; [exact E|]. apply Rmult_le_compat_r; [lra|unfold U; lra].
Qed.

Lemma exp_ok_inhabited : exists fexp, exp_ok fexp.
Proof.
  exists (fun x => match x with B754_infinity true => fzero | _ => nearest (exp (val x)) end).
  split; [|split; reflexivity]. intros x Fx Hx.
  assert (D : match x with B754_infinity true => fzero | _ => nearest (exp (val x)) end = nearest (exp (val x))).
  { destruct x as [s|[]| |s m e b]; try discriminate Fx; reflexivity. }
  rewrite D. clear D. set (t := exp (val x)).
  assert (T0 : 0 < t) by apply exp_pos.
  assert (T1 : t <= 1).
  { unfold t. rewrite <- exp_0. destruct Hx as [Hx | ->]; [left; now apply exp_increasing | right; reflexivity]. }
  assert (R1 : rnd 1 = 1) by (destruct one_val as [_ V1]; rewrite <- V1; apply rnd_val).
  assert (B : 0 <= rnd t <= 1) by (split; [rewrite <- rnd_0; apply rnd_le; lra | apply Rle_trans with (rnd 1); [apply rnd_le; lra|lra]]).
  assert (Big : 1 < bpow radix2 1024) by (change 1 with (bpow radix2 0); apply bpow_lt; lia).
  destruct (nearest_val t) as [F V]; [apply Rabs_lt; lra|]. rewrite V.
  split; [exact F|]. split; [exact B|]. split.
  - intros E. unfold t. rewrite E, exp_0. exact R1.
  - pose proof (rnd_err t) as E. rewrite (Rabs_pos_eq t) in E by lra. eapply Rle_trans; [exact E|].
    assert (ETA <= powerRZ 2 (-1000)).
    { replace (powerRZ 2 (-1000)) with (bpow radix2 (-1000)) by (rewrite bpow_powerRZ; reflexivity). unfold ETA. apply bpow_le. lia. }
    assert (U * t <= / 2 ^ 50 * t) by (apply Rmult_le_compat_r; [lra|unfold U; lra]). lra.
Qed.
