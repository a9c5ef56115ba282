(** Mueller-Brown potential in float64: errors of sums and products *)
From Verif Require Import Model_f64mb Spec_f64mb Proof_f64 Proof_f64b Proof_f64k Proof_f64l Proof_f64m Proof_f64s.
From Flocq Require Import Core.Core.
From Coq Require Import Lra Lia.
Open Scope R_scope.
Ltac Zify.zify_post_hook ::= idtac.

(** a float64 within e of x, which is at most B *)
Definition near (B e : R) (f : f64) (x : R) : Prop := finite f /\ Rabs (val f - x) <= e /\ Rabs x <= B.
Definition huge : R := bpow radix2 900.
Lemma huge_big : 2 ^ 300 <= huge.
Proof. unfold huge. replace (2 ^ 300) with (bpow radix2 300) by (rewrite <- (IZR_Zpower radix2 300) by lia; rewrite pow_IZR; reflexivity). apply bpow_le. lia. Qed.
Lemma eta_tiny : 0 < ETA <= / 2 ^ 200.
Proof. split; [apply bpow_gt_0|exact small_eta]. Qed.

Lemma near_rnd z M : Rabs z <= M -> M <= huge -> Rabs (rnd z) < bpow radix2 1024 /\ Rabs (rnd z - z) <= U * M + ETA.
Proof.
  intros Hz HM. split.
  - pose proof (rnd_err z) as E. pose proof (Rabs_triang_inv (rnd z) z) as T. assert (U * Rabs z <= 1 * Rabs z) by (apply Rmult_le_compat_r; [apply Rabs_pos|unfold U; lra]).
    assert (huge * 4 < bpow radix2 1024).
    { change 4 with (bpow radix2 2). unfold huge. rewrite <- bpow_plus. apply bpow_lt. lia. }
    pose proof huge_big. pose proof eta_tiny. assert (1 <= 2 ^ 300) by (apply pow_R1_Rle; lra). assert (/ 2 ^ 200 <= 1) by lra. lra.
  - eapply Rle_trans; [apply rnd_err|]. apply Rplus_le_compat_r. apply Rmult_le_compat_l; [unfold U; lra|exact Hz].
Qed.
Lemma near_val B e f x : near B e f x -> Rabs (val f) <= B + e.
Proof. intros (_ & E & H). pose proof (Rabs_triang (val f - x) x) as T. replace (val f - x + x) with (val f) in T by ring. lra. Qed.
Lemma near_exact f v B : finite f -> val f = v -> Rabs v <= B -> near B 0 f v.
Proof. intros F V H. split; [exact F|]. split; [rewrite V, Rminus_diag_eq, Rabs_R0 by reflexivity; lra|exact H]. Qed.
Lemma near_weak B e B' e' f x : near B e f x -> B <= B' -> e <= e' -> near B' e' f x.
Proof. intros (F & E & H) HB He. split; [exact F|]. split; lra. Qed.
Lemma near_opp B e f x : near B e f x -> near B e (fopp f) (- x).
Proof.
  intros (F & E & H). unfold fopp. split; [unfold finite; rewrite is_finite_Bopp; exact F|]. rewrite B2R_Bopp. split; [|now rewrite Rabs_Ropp].
  replace (- val f - - x) with (- (val f - x)) by ring. now rewrite Rabs_Ropp.
Qed.

Lemma near_add B1 e1 f x B2 e2 g y : near B1 e1 f x -> near B2 e2 g y -> B1 + e1 + (B2 + e2) <= huge ->
  near (B1 + B2) (e1 + e2 + (U * (B1 + e1 + (B2 + e2)) + ETA)) (fadd f g) (x + y).
Proof.
  intros N1 N2 HM. pose proof (near_val _ _ _ _ N1) as V1. pose proof (near_val _ _ _ _ N2) as V2. destruct N1 as (F1 & E1 & H1). destruct N2 as (F2 & E2 & H2).
  assert (S : Rabs (val f + val g) <= B1 + e1 + (B2 + e2)) by (pose proof (Rabs_triang (val f) (val g)); lra).
  destruct (near_rnd _ _ S HM) as [L E]. destruct (fadd_val f g F1 F2 L) as [F V]. split; [exact F|]. rewrite V. split.
  - apply Rabs_le_inv in E, E1, E2. apply Rabs_le. lra.
  - pose proof (Rabs_triang x y). lra.
Qed.
Lemma near_sub B1 e1 f x B2 e2 g y : near B1 e1 f x -> near B2 e2 g y -> B1 + e1 + (B2 + e2) <= huge ->
  near (B1 + B2) (e1 + e2 + (U * (B1 + e1 + (B2 + e2)) + ETA)) (fsub f g) (x - y).
Proof.
  intros N1 N2 HM. pose proof (near_val _ _ _ _ N1) as V1. pose proof (near_val _ _ _ _ N2) as V2. destruct N1 as (F1 & E1 & H1). destruct N2 as (F2 & E2 & H2).
  assert (S : Rabs (val f - val g) <= B1 + e1 + (B2 + e2)) by (unfold Rminus; pose proof (Rabs_triang (val f) (- val g)) as T; rewrite Rabs_Ropp in T; lra).
  destruct (near_rnd _ _ S HM) as [L E]. destruct (fsub_val f g F1 F2 L) as [F V]. split; [exact F|]. rewrite V. split.
  - apply Rabs_le_inv in E, E1, E2. apply Rabs_le. lra.
  - unfold Rminus. pose proof (Rabs_triang x (- y)) as T. rewrite Rabs_Ropp in T. lra.
Qed.
Lemma near_mul B1 e1 f x B2 e2 g y : near B1 e1 f x -> near B2 e2 g y -> (B1 + e1) * (B2 + e2) <= huge ->
  near (B1 * B2) (e1 * (B2 + e2) + B1 * e2 + (U * ((B1 + e1) * (B2 + e2)) + ETA)) (fmul f g) (x * y).
Proof.
  intros N1 N2 HM. pose proof (near_val _ _ _ _ N1) as V1. pose proof (near_val _ _ _ _ N2) as V2. destruct N1 as (F1 & E1 & H1). destruct N2 as (F2 & E2 & H2).
  assert (S : Rabs (val f * val g) <= (B1 + e1) * (B2 + e2)) by (rewrite Rabs_mult; apply Rmult_le_compat; try apply Rabs_pos; assumption).
  destruct (near_rnd _ _ S HM) as [L E]. destruct (fmul_val f g F1 F2 L) as [F V]. split; [exact F|]. rewrite V. split.
  - assert (D : Rabs (val f * val g - x * y) <= e1 * (B2 + e2) + B1 * e2).
    { replace (val f * val g - x * y) with ((val f - x) * val g + x * (val g - y)) by ring. eapply Rle_trans; [apply Rabs_triang|]. rewrite !Rabs_mult.
      apply Rplus_le_compat; apply Rmult_le_compat; try apply Rabs_pos; assumption. }
    apply Rabs_le_inv in E, D. apply Rabs_le. lra.
  - rewrite Rabs_mult. apply Rmult_le_compat; try apply Rabs_pos; assumption.
Qed.

(** ** one of the four terms *)
Section Term.
Context (fexp fsq : f64 -> f64) (OKe : exp_both_ok fexp) (OKs : square_ok fsq).
Context (fa fb fcc fx0 fy0 x y : f64) (a b c x0 y0 : R).
Context (Na : near 10 U fa a) (Nb : near 11 U fb b) (Nc : near 10 U fcc c) (Nx0 : near 2 0 fx0 x0) (Ny0 : near 2 0 fy0 y0).
Context (Fx : finite x) (Fy : finite y) (Hdx : Rabs (val x - x0) <= 5 / 2) (Hdy : Rabs (val y - y0) <= 5 / 2).

Lemma diff_near f g v : finite f -> near 2 0 g v -> Rabs (val f - v) <= 5 / 2 -> near (5 / 2) (3 * U) (fsub f g) (val f - v).
Proof.
  intros F (G & E & _) H. apply Rabs_le_inv in E. assert (V : val g = v) by lra. rewrite <- V in *.
  destruct (near_rnd _ _ H) as [L R]; [pose proof huge_big; lra|]. destruct (fsub_val f g F G L) as [FF VV]. split; [exact FF|]. split; [|exact H].
  rewrite VV. eapply Rle_trans; [exact R|]. pose proof eta_tiny. unfold U. lra.
Qed.
Lemma tiny1000 : bpow radix2 (-1000) <= / 2 ^ 200.
Proof. replace (/ 2 ^ 200) with (bpow radix2 (-200)); [apply bpow_le; lia|]. change (-200)%Z with (- (200))%Z. rewrite bpow_opp. rewrite <- (IZR_Zpower radix2 200) by lia. rewrite pow_IZR. reflexivity. Qed.
Lemma square_near f d : near (5 / 2) (3 * U) f d -> near (25 / 4) (42 * U) (fsq f) (d ^ 2).
Proof using OKs.
  intros N. pose proof (near_val _ _ _ _ N) as V. destruct N as (F & E & H).
  assert (L : Rabs (val f) <= bpow radix2 100).
  { eapply Rle_trans; [exact V|]. change (bpow radix2 100) with (IZR (2 ^ 100)). assert (2 ^ 10 <= IZR (2 ^ 100)) by (rewrite pow_IZR; apply IZR_le; lia). unfold U. lra. }
  destruct (OKs f F L) as [FF EE]. split; [exact FF|].
  apply Rabs_le_inv in E, H, V. set (v := val f) in *.
  assert (S : 0 <= v ^ 2 <= 63 / 10) by (unfold U in *; split; [apply pow2_ge_0|nra]).
  assert (D : Rabs (v ^ 2 - d ^ 2) <= 16 * U).
  { replace (v ^ 2 - d ^ 2) with ((v - d) * (v + d)) by ring. rewrite Rabs_mult.
    apply Rle_trans with (3 * U * (53 / 10)); [|unfold U; lra]. apply Rmult_le_compat; try apply Rabs_pos; apply Rabs_le; unfold U in *; lra. }
  pose proof tiny1000 as T. apply Rabs_le_inv in EE, D. split.
  - apply Rabs_le. unfold U in *. lra.
  - apply Rabs_le. nra.
Qed.

Let dx := val x - x0.
Let dy := val y - y0.
Definition expo : R := a * dx ^ 2 + b * dx * dy + c * dy ^ 2.
Lemma num (r s : R) : r <= s -> r <= s. Proof. exact (fun h => h). Qed.
Ltac small := pose proof huge_big; pose proof eta_tiny; unfold U; lra.
Lemma expo_near : near 194 (/ 2 ^ 42) (fadd (fadd (fmul fa (fsq (fsub x fx0))) (fmul (fmul fb (fsub x fx0)) (fsub y fy0))) (fmul fcc (fsq (fsub y fy0)))) expo.
Proof using All.
  pose proof (diff_near x fx0 x0 Fx Nx0 Hdx) as Dx. pose proof (diff_near y fy0 y0 Fy Ny0 Hdy) as Dy. fold dx in Dx. fold dy in Dy.
  pose proof (square_near _ _ Dx) as Sx. pose proof (square_near _ _ Dy) as Sy.
  assert (P1 : near (125 / 2) (500 * U) (fmul fa (fsq (fsub x fx0))) (a * dx ^ 2)) by (eapply near_weak; [apply (near_mul _ _ _ _ _ _ _ _ Na Sx); small|lra|small]).
  assert (P3 : near (125 / 2) (500 * U) (fmul fcc (fsq (fsub y fy0))) (c * dy ^ 2)) by (eapply near_weak; [apply (near_mul _ _ _ _ _ _ _ _ Nc Sy); small|lra|small]).
  assert (Q : near (55 / 2) (70 * U) (fmul fb (fsub x fx0)) (b * dx)) by (eapply near_weak; [apply (near_mul _ _ _ _ _ _ _ _ Nb Dx); small|lra|small]).
  assert (P2 : near (275 / 4) (350 * U) (fmul (fmul fb (fsub x fx0)) (fsub y fy0)) (b * dx * dy)) by (eapply near_weak; [apply (near_mul _ _ _ _ _ _ _ _ Q Dy); small|lra|small]).
  assert (P12 : near (525 / 4) (1000 * U) (fadd (fmul fa (fsq (fsub x fx0))) (fmul (fmul fb (fsub x fx0)) (fsub y fy0))) (a * dx ^ 2 + b * dx * dy))
    by (eapply near_weak; [apply (near_add _ _ _ _ _ _ _ _ P1 P2); small|lra|small]).
  eapply near_weak; [apply (near_add _ _ _ _ _ _ _ _ P12 P3); small|lra|small].
Qed.

Lemma exp_minus_1 t : Rabs t <= / 2 -> Rabs (exp t - 1) <= 2 * Rabs t.
Proof.
  intros H. assert (L : forall s, 1 + s <= exp s).
  { intros s. destruct (Req_dec s 0) as [-> | N]; [rewrite exp_0; lra|]. left. now apply exp_ineq1. }
  pose proof (L t) as L1. pose proof (L (- t)) as L2. rewrite exp_Ropp in L2.
  assert (P : 0 < exp t) by apply exp_pos. apply Rabs_le_inv in H.
  assert (X : (1 - t) * exp t <= 1).
  { apply Rmult_le_reg_r with (/ exp t); [now apply Rinv_0_lt_compat|]. rewrite Rmult_assoc, Rinv_r by lra. lra. }
  unfold Rabs. destruct (Rcase_abs (exp t - 1)), (Rcase_abs t); nra.
Qed.
Definition kap : R := 101 / 100 / 2 ^ 41.
Lemma exp_near : near (exp expo) (kap * exp expo) (fexp (fadd (fadd (fmul fa (fsq (fsub x fx0))) (fmul (fmul fb (fsub x fx0)) (fsub y fy0))) (fmul fcc (fsq (fsub y fy0))))) (exp expo).
Proof using All.
  pose proof expo_near as N. set (f := fadd _ _) in *. clearbody f. pose proof (near_val _ _ _ _ N) as V. destruct N as (F & E & H).
  destruct (OKe f F) as [FF EE]; [lra|]. split; [exact FF|]. assert (P : 0 < exp expo) by apply exp_pos. split; [|rewrite Rabs_pos_eq; lra].
  assert (D : exp (val f) = exp expo * exp (val f - expo)) by (rewrite <- exp_plus; f_equal; ring).
  assert (X : Rabs (exp (val f - expo) - 1) <= / 2 ^ 41) by (eapply Rle_trans; [apply exp_minus_1; lra|lra]).
  rewrite D in EE. set (t := exp (val f - expo)) in *. set (w := exp expo) in *. clearbody t w. apply Rabs_le_inv in EE, X. clear D.
  assert (X1 : w * t <= w * (1 + / 2 ^ 41)) by (apply Rmult_le_compat_l; lra).
  assert (X2 : w * (1 - / 2 ^ 41) <= w * t) by (apply Rmult_le_compat_l; lra).
  apply Rabs_le. unfold kap. lra.
Qed.

(** the energy and the forces, for an amplitude A *)
Context (fA : f64) (FA : finite fA) (HA : Rabs (val fA) <= bpow radix2 100) (Hw : exp expo <= 32768).
Let e := fexp (fadd (fadd (fmul fa (fsq (fsub x fx0))) (fmul (fmul fb (fsub x fx0)) (fsub y fy0))) (fmul fcc (fsq (fsub y fy0)))).
Let W := Rabs (val fA) * exp expo.
Lemma p100 : bpow radix2 100 = 2 ^ 100. Proof. rewrite <- (IZR_Zpower radix2 100) by lia. rewrite pow_IZR. reflexivity. Qed.
Lemma A_near : near (Rabs (val fA)) 0 fA (val fA).
Proof using FA. apply near_exact; [exact FA|reflexivity|lra]. Qed.
Lemma W_small : 0 <= W <= 2 ^ 100 * 32768.
Proof using HA Hw. unfold W. rewrite p100 in HA. pose proof (exp_pos expo). pose proof (Rabs_pos (val fA)). split; [apply Rmult_le_pos; lra|]. apply Rmult_le_compat; lra. Qed.
Definition kap2 : R := 102 / 100 / 2 ^ 41.
Lemma energy_term : near W (kap2 * W + ETA) (fmul fA e) (val fA * exp expo).
Proof using All.
  pose proof W_small as S. pose proof (near_mul _ _ _ _ _ _ _ _ A_near exp_near) as N. fold e in N. unfold W in *. pose proof huge_big.
  eapply near_weak; [apply N|lra|]; set (p := Rabs (val fA)) in *; set (w := exp expo) in *; unfold kap, kap2, U; lra.
Qed.
Lemma slope_near d1 d2 c1 c2 f1 f2 v1 v2 : near (5 / 2) (3 * U) d1 c1 -> near (5 / 2) (3 * U) d2 c2 -> near 10 U f1 v1 -> near 11 U f2 v2 ->
  near 78 (1000 * U) (fadd (fmul (fmul (f_of_Z 2) f1) d1) (fmul f2 d2)) (2 * v1 * c1 + v2 * c2) /\
  near 78 (1000 * U) (fadd (fmul f2 d2) (fmul (fmul (f_of_Z 2) f1) d1)) (v2 * c2 + 2 * v1 * c1).
Proof.
  intros D1 D2 N1 N2. destruct (of_Z_small 2) as [F2 V2]; [lia|]. assert (T : near 2 0 (f_of_Z 2) 2) by (apply near_exact; [exact F2|exact V2|rewrite Rabs_pos_eq; lra]).
  assert (P : near 20 (25 * U) (fmul (f_of_Z 2) f1) (2 * v1)) by (eapply near_weak; [apply (near_mul _ _ _ _ _ _ _ _ T N1); small|lra|small]).
  assert (P1 : near 50 (200 * U) (fmul (fmul (f_of_Z 2) f1) d1) (2 * v1 * c1)) by (eapply near_weak; [apply (near_mul _ _ _ _ _ _ _ _ P D1); small|lra|small]).
  assert (P2 : near (55 / 2) (70 * U) (fmul f2 d2) (v2 * c2)) by (eapply near_weak; [apply (near_mul _ _ _ _ _ _ _ _ N2 D2); small|lra|small]).
  split; (eapply near_weak; [first [apply (near_add _ _ _ _ _ _ _ _ P1 P2)|apply (near_add _ _ _ _ _ _ _ _ P2 P1)]; small|lra|small]).
Qed.
Lemma force_term g s : near 78 (1000 * U) g s -> near (78 * W) (80 / 2 ^ 41 * W + 2 ^ 17 * ETA) (fmul (fmul (fopp fA) g) e) (- val fA * s * exp expo).
Proof using All.
  intros G. pose proof W_small as S. pose proof huge_big as HH. pose proof eta_tiny as HE. pose proof (exp_pos expo) as P0. pose proof (Rabs_pos (val fA)) as A0.
  rewrite p100 in HA. pose proof (near_mul _ _ _ _ _ _ _ _ (near_opp _ _ _ _ A_near) G) as N1.
  assert (N : near (Rabs (val fA) * 78) (2000 * U * Rabs (val fA) + ETA) (fmul (fopp fA) g) (- val fA * s)).
  { eapply near_weak; [apply N1; unfold U; lra|lra|unfold U; lra]. }
  pose proof (near_mul _ _ _ _ _ _ _ _ N exp_near) as M. fold e in M. unfold W in *. set (p := Rabs (val fA)) in *. set (w := exp expo) in *. clearbody p w.
  assert (Ew : 0 <= ETA * w <= ETA * 32768) by (split; [apply Rmult_le_pos; lra|apply Rmult_le_compat_l; lra]).
  eapply near_weak; [apply M|lra|]; unfold kap, U; lra.
Qed.
End Term.
