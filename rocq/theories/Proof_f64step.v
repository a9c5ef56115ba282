(** Single steps of the dynamics in float64: one coordinate *)
From Verif Require Import Model_f64od Spec_f64step Proof_f64 Proof_f64b Proof_f64f Proof_f64k Proof_f64l Proof_f64m Proof_f64mb.
From Flocq Require Import Core.Core.
From Coq Require Import Lra Lia.
Open Scope R_scope.
Ltac Zify.zify_post_hook ::= idtac.

Lemma near_div B e f x d : near B e f x -> finite d -> 0 < val d -> (B + e) * / val d <= huge ->
  near (B * / val d) (e * / val d + (U * ((B + e) * / val d) + ETA)) (fdiv f d) (x / val d).
Proof.
  intros N Fd Hd HM. pose proof (near_val _ _ _ _ N) as V. destruct N as (F & E & H). assert (I : 0 < / val d) by now apply Rinv_0_lt_compat.
  assert (S : Rabs (val f / val d) <= (B + e) * / val d) by (unfold Rdiv; rewrite Rabs_mult, (Rabs_pos_eq (/ val d)) by lra; apply Rmult_le_compat_r; lra).
  destruct (near_rnd _ _ S HM) as [L R]. destruct (fdiv_val f d F Fd ltac:(lra) L) as [FF VV]. split; [exact FF|]. rewrite VV. split.
  - assert (D : Rabs (val f / val d - x / val d) <= e * / val d).
    { replace (val f / val d - x / val d) with ((val f - x) * / val d) by (unfold Rdiv; ring). rewrite Rabs_mult, (Rabs_pos_eq (/ val d)) by lra. apply Rmult_le_compat_r; lra. }
    apply Rabs_le_inv in R, D. apply Rabs_le. lra.
  - unfold Rdiv. rewrite Rabs_mult, (Rabs_pos_eq (/ val d)) by lra. apply Rmult_le_compat_r; lra.
Qed.
Lemma bpow_pow n : bpow radix2 (Z.of_nat n) = 2 ^ n.
Proof. symmetry. apply pow2_bpow. Qed.
Lemma huge_pow : huge = 2 ^ 900. Proof. exact (bpow_pow 900). Qed.
Lemma eta_pow : 2 ^ 400 * ETA <= bpow radix2 (-600).
Proof. rewrite <- (bpow_pow 400). unfold ETA. rewrite <- bpow_plus. apply bpow_le. lia. Qed.
Lemma eta_num : 0 < ETA /\ ETA <= / 2 ^ 1000.
Proof. split; [apply bpow_gt_0|]. rewrite <- (bpow_pow 1000), <- bpow_opp. apply bpow_le. lia. Qed.

Section Coordinate.
Context (c1 c2 mass dt : f64) (Fc1 : finite c1) (Hc1 : 0 <= val c1 <= 1) (Fc2 : finite c2) (Hc2 : 0 <= val c2 <= 2 ^ 120) (Fm : finite mass) (Hm : / 2 ^ 100 <= val mass)
  (Fdt : finite dt) (Hdt : 0 <= val dt <= 2 ^ 100).
Let d := val dt.
Let g := / val mass.
Lemma g_small : 0 < g <= 2 ^ 100.
Proof using Hm. unfold g. assert (0 < / 2 ^ 100) by (apply Rinv_0_lt_compat; lra). split; [apply Rinv_0_lt_compat; lra|]. rewrite <- (Rinv_inv (2 ^ 100)). now apply Rinv_le_contravar. Qed.

Lemma kick_near F : bounded (2 ^ 200) F -> near (Rabs (val F) * d / 2) (3 * U * (Rabs (val F) * d) + 2 ^ 102 * ETA) (fmul (fmul fhalf F) dt) (val F * d / 2).
Proof using Fdt Hdt.
  intros [FF HF]. destruct fhalf_val as [Fh Vh]. pose proof eta_num as HE. pose proof huge_pow as HH. fold d in Hdt.
  assert (N1 : near (/ 2) 0 fhalf (/ 2)) by (apply near_exact; [exact Fh|exact Vh|rewrite Rabs_pos_eq; lra]).
  assert (N2 : near (Rabs (val F)) 0 F (val F)) by (apply near_exact; [exact FF|reflexivity|lra]).
  assert (N3 : near d 0 dt d) by (apply near_exact; [exact Fdt|reflexivity|rewrite Rabs_pos_eq; lra]).
  pose proof (Rabs_pos (val F)) as P. set (p := Rabs (val F)) in *.
  assert (M : near (/ 2 * p) (U * p + ETA) (fmul fhalf F) (/ 2 * val F)) by (eapply near_weak; [apply (near_mul _ _ _ _ _ _ _ _ N1 N2); lra|lra|unfold U; lra]).
  assert (D1 : 0 <= ETA * d <= ETA * 2 ^ 100) by (split; [apply Rmult_le_pos; lra|apply Rmult_le_compat_l; lra]).
  assert (D2 : 0 <= p * d <= 2 ^ 200 * 2 ^ 100) by (split; [apply Rmult_le_pos; lra|apply Rmult_le_compat; lra]).
  replace (val F * d / 2) with (/ 2 * val F * d) by field.
  eapply near_weak; [apply (near_mul _ _ _ _ _ _ _ _ M N3); unfold U; lra|lra|unfold U; lra].
Qed.
Lemma thermo_near B e m v n : near B e m v -> 0 <= B <= 2 ^ 410 -> 0 <= e <= 2 ^ 410 -> bounded (2 ^ 10) n ->
  near (B + val c2 * Rabs (val n)) (e + 4 * U * (B + e + val c2 * Rabs (val n)) + 6 * ETA) (fadd (fmul c1 m) (fmul c2 n)) (val c1 * v + val c2 * val n).
Proof using Fc1 Hc1 Fc2 Hc2.
  intros N HB He [Fn Hn]. pose proof eta_num as HE. pose proof huge_pow as HH.
  assert (N1 : near (val c1) 0 c1 (val c1)) by (apply near_exact; [exact Fc1|reflexivity|rewrite Rabs_pos_eq; lra]).
  assert (N2 : near (val c2) 0 c2 (val c2)) by (apply near_exact; [exact Fc2|reflexivity|rewrite Rabs_pos_eq; lra]).
  assert (N3 : near (Rabs (val n)) 0 n (val n)) by (apply near_exact; [exact Fn|reflexivity|lra]).
  pose proof (Rabs_pos (val n)) as P. set (q := Rabs (val n)) in *. set (k1 := val c1) in *. set (k2 := val c2) in *.
  assert (A1 : 0 <= k1 * B <= 1 * B) by (split; [apply Rmult_le_pos; lra|apply Rmult_le_compat_r; lra]).
  assert (A2 : 0 <= k1 * e <= 1 * e) by (split; [apply Rmult_le_pos; lra|apply Rmult_le_compat_r; lra]).
  assert (A3 : 0 <= k2 * q <= 2 ^ 120 * 2 ^ 10) by (split; [apply Rmult_le_pos; lra|apply Rmult_le_compat; lra]).
  assert (M1 : near B (e + U * (B + e) + ETA) (fmul c1 m) (k1 * v)) by (eapply near_weak; [apply (near_mul _ _ _ _ _ _ _ _ N1 N); unfold U; lra|lra|unfold U; lra]).
  assert (M2 : near (k2 * q) (U * (k2 * q) + ETA) (fmul c2 n) (k2 * val n)) by (eapply near_weak; [apply (near_mul _ _ _ _ _ _ _ _ N2 N3); unfold U; lra|lra|unfold U; lra]).
  eapply near_weak; [apply (near_add _ _ _ _ _ _ _ _ M1 M2); unfold U; lra|lra|unfold U; lra].
Qed.

Context (x m F a : f64) (Bx : bounded (2 ^ 200) x) (Bm : bounded (2 ^ 400) m) (BF : bounded (2 ^ 200) F) (Ba : bounded (2 ^ 10) a).
Let S := Rabs (val m) + val c2 * Rabs (val a) + Rabs (val F) * d.
Let p := val c1 * val m + val c2 * val a + val F * d / 2.
Lemma S_small : 0 <= S <= 2 ^ 402 /\ 0 <= Rabs (val m) /\ 0 <= val c2 * Rabs (val a) /\ 0 <= Rabs (val F) * d.
Proof using Hc2 Hdt Bm BF Ba.
  destruct Bm as [_ H1]. destruct BF as [_ H2]. destruct Ba as [_ H3]. fold d in Hdt. pose proof (Rabs_pos (val m)). pose proof (Rabs_pos (val a)). pose proof (Rabs_pos (val F)).
  assert (0 <= val c2 * Rabs (val a) <= 2 ^ 120 * 2 ^ 10) by (split; [apply Rmult_le_pos; lra|apply Rmult_le_compat; lra]).
  assert (0 <= Rabs (val F) * d <= 2 ^ 200 * 2 ^ 100) by (split; [apply Rmult_le_pos; lra|apply Rmult_le_compat; lra]). unfold S. lra.
Qed.
Lemma mom_near : near S (10 * U * S + 2 ^ 103 * ETA) (fadd (fadd (fmul c1 m) (fmul c2 a)) (fmul (fmul fhalf F) dt)) p.
Proof using All.
  destruct S_small as (HS & P1 & P2 & P3). pose proof eta_num as HE. pose proof huge_pow as HH. destruct Bm as [Fmm Hmm].
  assert (N : near (Rabs (val m)) 0 m (val m)) by (apply near_exact; [exact Fmm|reflexivity|lra]).
  pose proof (thermo_near _ _ _ _ a N ltac:(lra) ltac:(lra) Ba) as N1. pose proof (kick_near F BF) as N2. unfold S, p in *.
  set (k := val c2 * Rabs (val a)) in *. set (f := Rabs (val F) * d) in *. set (mm := Rabs (val m)) in *. clearbody k f mm.
  eapply near_weak; [apply (near_add _ _ _ _ _ _ _ _ N1 N2); unfold U; lra|lra|unfold U; lra].
Qed.
Lemma pos_near : near (Rabs (val x) + S * g * d) (/ 2 ^ 49 * (Rabs (val x) + S * g * d) + 2 ^ 400 * ETA)
  (fadd x (fmul (fdiv (fadd (fadd (fmul c1 m) (fmul c2 a)) (fmul (fmul fhalf F) dt)) mass) dt)) (val x + p / val mass * d).
Proof using All.
  pose proof mom_near as N. destruct S_small as (HS & _). pose proof eta_num as HE. pose proof huge_pow as HH. pose proof g_small as HG. fold d in Hdt. destruct Bx as [Fx Hx].
  assert (Hm0 : 0 < val mass) by (assert (0 < / 2 ^ 100) by (apply Rinv_0_lt_compat; lra); lra).
  set (pf := fadd _ _) in N |- *. clearbody pf.
  assert (G1 : 0 <= S * g <= 2 ^ 402 * 2 ^ 100) by (split; [apply Rmult_le_pos; lra|apply Rmult_le_compat; lra]).
  assert (G2 : 0 <= ETA * g <= ETA * 2 ^ 100) by (split; [apply Rmult_le_pos; lra|apply Rmult_le_compat_l; lra]).
  assert (N1 : near (S * g) (12 * U * (S * g) + 2 ^ 204 * ETA) (fdiv pf mass) (p / val mass)).
  { eapply near_weak; [apply (near_div _ _ _ _ _ N Fm Hm0); fold g; unfold U; lra|fold g; lra|fold g; unfold U; lra]. }
  assert (N2 : near d 0 dt d) by (apply near_exact; [exact Fdt|reflexivity|rewrite Rabs_pos_eq; lra]).
  set (h := S * g) in *.
  assert (G3 : 0 <= h * d <= 2 ^ 402 * 2 ^ 100 * 2 ^ 100) by (split; [apply Rmult_le_pos; lra|apply Rmult_le_compat; lra]).
  assert (G4 : 0 <= ETA * d <= ETA * 2 ^ 100) by (split; [apply Rmult_le_pos; lra|apply Rmult_le_compat_l; lra]).
  assert (N3 : near (h * d) (14 * U * (h * d) + 2 ^ 306 * ETA) (fmul (fdiv pf mass) dt) (p / val mass * d)).
  { eapply near_weak; [apply (near_mul _ _ _ _ _ _ _ _ N1 N2); unfold U; lra|lra|unfold U; lra]. }
  assert (N4 : near (Rabs (val x)) 0 x (val x)) by (apply near_exact; [exact Fx|reflexivity|lra]). pose proof (Rabs_pos (val x)) as X0. set (xx := Rabs (val x)) in *. set (hd := h * d) in *.
  eapply near_weak; [apply (near_add _ _ _ _ _ _ _ _ N4 N3); unfold U; lra|lra|unfold U; lra].
Qed.

(** the second half, after the momentum is p or -p *)
Context (b : f64) (Bb : bounded (2 ^ 10) b).
Lemma second_near pf v F' : near S (10 * U * S + 2 ^ 103 * ETA) pf v -> bounded (2 ^ 200) F' ->
  near (S + Rabs (val F') * d + val c2 * Rabs (val b)) (/ 2 ^ 48 * (S + Rabs (val F') * d + val c2 * Rabs (val b)) + 2 ^ 400 * ETA)
    (fadd (fmul c1 (fadd pf (fmul (fmul fhalf F') dt))) (fmul c2 b)) (val c1 * (v + val F' * d / 2) + val c2 * val b).
Proof using All.
  intros N BF'. destruct S_small as (HS & _). pose proof eta_num as HE. pose proof huge_pow as HH. fold d in Hdt.
  assert (P2 : 0 <= val c2 * Rabs (val b)) by (apply Rmult_le_pos; [lra|apply Rabs_pos]).
  assert (P3 : 0 <= Rabs (val F') * d <= 2 ^ 200 * 2 ^ 100) by (destruct BF' as [_ HF']; pose proof (Rabs_pos (val F')); split; [apply Rmult_le_pos; lra|apply Rmult_le_compat; lra]).
  pose proof (kick_near F' BF') as K. set (f := Rabs (val F') * d) in *.
  assert (N1 : near (S + f) (15 * U * (S + f) + 2 ^ 105 * ETA) (fadd pf (fmul (fmul fhalf F') dt)) (v + val F' * d / 2)).
  { eapply near_weak; [apply (near_add _ _ _ _ _ _ _ _ N K); unfold U; lra|lra|unfold U; lra]. }
  set (y := val c2 * Rabs (val b)) in *.
  eapply near_weak; [apply (thermo_near _ _ _ _ b N1); [lra|unfold U; lra|exact Bb]|fold y; lra|fold y; unfold U; lra].
Qed.
End Coordinate.
