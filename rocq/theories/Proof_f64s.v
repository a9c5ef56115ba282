(** Kernel values in float64 arithmetic (C93) *)
From Verif Require Import Spec_f64bd Model_f64bd Spec_f64 Spec_bd Proof_f64 Proof_f64b Proof_f64f Proof_f64n.
From Flocq Require Import Core.Core.
From Coq Require Import Lia Lra Machin.
Open Scope R_scope.
Ltac Zify.zify_post_hook ::= idtac.
#[local] Arguments bpow : simpl never.

(** ** np.pi *)
Lemma pi_digits : Rabs (IZR 884279719003555 * / 2 ^ 48 - PI) <= / 2 ^ 50.
Proof.
  pose proof (PI_2_3_7_ineq 9) as H. cbv [Nat.mul Nat.add] in H.
  unfold tg_alt, PI_2_3_7_tg, Ratan_seq in H. cbn [sum_f_R0 pow Nat.mul Nat.add INR] in H.
  apply Rabs_le. lra.
Qed.
Lemma fpi_val : finite fpi /\ val fpi = IZR 884279719003555 * / 2 ^ 48.
Proof.
  split; [vm_compute; reflexivity|]. change (val fpi) with (IZR 7074237752028440 * / IZR 2251799813685248). lra.
Qed.
Lemma PI_range : 3 <= PI <= 4.
Proof. pose proof pi_digits as H. apply Rabs_le_inv in H. lra. Qed.

(** ** relative errors of positive numbers, in units of U *)
Definition rel (k x X : R) : Prop := Rabs (x - X) <= k * U * X.
Lemma U_small : U * 1048576 <= 1. Proof. unfold U. lra. Qed.
Lemma rel_le k j x X : rel k x X -> k <= j -> 0 < X -> rel j x X.
Proof. unfold rel. intros H L P. eapply Rle_trans; [exact H|]. apply Rmult_le_compat_r; [lra|]. apply Rmult_le_compat_r; [left; exact U_pos|exact L]. Qed.
Lemma rel_range k x X : rel k x X -> 0 <= k <= 1024 -> 0 < X -> X * (1023 / 1024) <= x <= X * (1025 / 1024).
Proof.
  unfold rel. intros H K P. pose proof U_pos. pose proof U_small. apply Rabs_le_inv in H.
  assert (k * U * X <= / 1024 * X); [|lra]. apply Rmult_le_compat_r; [lra|].
  assert (k * U <= 1024 * U) by (apply Rmult_le_compat_r; lra). lra.
Qed.
Lemma rel_rnd k x X : rel k x X -> 0 <= k <= 16 -> 0 < X -> bpow radix2 (-1000) <= X -> rel (k + 17 / 16) (rnd x) X.
Proof.
  intros H K P B. pose proof (rel_range k x X H ltac:(lra) P) as R. unfold rel in *. pose proof U_pos. pose proof U_small.
  assert (N : bpow radix2 (-1022) <= Rabs x).
  { rewrite Rabs_pos_eq by lra. apply Rle_trans with (bpow radix2 (-1000) * / 2); [|lra].
    change (/ 2) with (bpow radix2 (-1)). rewrite <- bpow_plus. apply bpow_le. lia. }
  pose proof (rnd_err_normal x N) as E. rewrite (Rabs_pos_eq x) in E by lra.
  replace (rnd x - X) with ((rnd x - x) + (x - X)) by ring. eapply Rle_trans; [apply Rabs_triang|].
  assert (U * x <= U * (X * (17 / 16))) by (apply Rmult_le_compat_l; lra). lra.
Qed.
Lemma rel_mul k j x X y Y : rel k x X -> rel j y Y -> 0 <= k <= 16 -> 0 <= j <= 16 -> 0 < X -> 0 < Y -> rel (k + j + 1 / 16) (x * y) (X * Y).
Proof.
  intros H1 H2 K J PX PY. pose proof (rel_range j y Y H2 ltac:(lra) PY) as R. unfold rel in *. pose proof U_pos. pose proof U_small.
  replace (x * y - X * Y) with ((x - X) * y + X * (y - Y)) by ring. eapply Rle_trans; [apply Rabs_triang|]. rewrite !Rabs_mult.
  rewrite (Rabs_pos_eq y) by lra. rewrite (Rabs_pos_eq X) by lra.
  assert (A : Rabs (x - X) * y <= (k * U * X) * (Y * (1 + j * U))).
  { apply Rmult_le_compat; [apply Rabs_pos|lra|exact H1|]. apply Rabs_le_inv in H2. lra. }
  assert (B : X * Rabs (y - Y) <= X * (j * U * Y)) by (apply Rmult_le_compat_l; lra).
  assert (C : k * j * U <= 1 / 16).
  { assert (k * j <= 16 * 16) by (apply Rmult_le_compat; lra). assert (0 <= k * j) by (apply Rmult_le_pos; lra).
    assert (k * j * U <= 16 * 16 * U) by (apply Rmult_le_compat_r; lra). lra. }
  assert (D : k * j * U * (U * X * Y) <= 1 / 16 * (U * X * Y)).
  { apply Rmult_le_compat_r; [|exact C]. apply Rmult_le_pos; [apply Rmult_le_pos|]; lra. }
  lra.
Qed.
Lemma rel_inv k x X : rel k x X -> 0 <= k <= 16 -> 0 < X -> rel (k + 1 / 16) (/ x) (/ X).
Proof.
  intros H K P. pose proof (rel_range k x X H ltac:(lra) P) as R. unfold rel in *. pose proof U_pos. pose proof U_small.
  assert (Px : 0 < x) by lra. replace (/ x - / X) with ((X - x) * (/ x * / X)) by (field; lra).
  rewrite Rabs_mult, Rabs_minus_sym. pose proof (Rinv_0_lt_compat _ Px) as Ix. pose proof (Rinv_0_lt_compat _ P) as IX.
  rewrite (Rabs_pos_eq (/ x * / X)) by (apply Rmult_le_pos; lra).
  apply Rle_trans with (k * U * X * (/ x * / X)); [apply Rmult_le_compat_r; [apply Rmult_le_pos; lra|exact H]|].
  replace (k * U * X * (/ x * / X)) with (k * U * / x) by (field; lra).
  assert (Q : / x * (1 - k * U) <= / X).
  { apply Rmult_le_reg_r with x; [exact Px|]. replace (/ x * (1 - k * U) * x) with (1 - k * U) by (field; lra).
    apply Rmult_le_reg_r with X; [exact P|]. replace (/ X * x * X) with x by (field; lra). apply Rabs_le_inv in H. lra. }
  assert (KU : 0 <= k * U <= 16 * U) by (split; [apply Rmult_le_pos|apply Rmult_le_compat_r]; lra).
  assert (Q2 : / x <= / X * (1 + 2 * (k * U))).
  { assert (A1 : / x * (1 - k * U) * (1 + 2 * (k * U)) <= / X * (1 + 2 * (k * U))) by (apply Rmult_le_compat_r; lra).
    assert (A2 : / x * 1 <= / x * ((1 - k * U) * (1 + 2 * (k * U)))) by (apply Rmult_le_compat_l; [lra|]; nra). lra. }
  assert (A : k * U * / x <= k * U * (/ X * (1 + 2 * (k * U)))) by (apply Rmult_le_compat_l; lra).
  assert (B : k * (2 * (k * U)) <= 1 / 16).
  { assert (k * (2 * (k * U)) <= 16 * (2 * (16 * U))) by (apply Rmult_le_compat; lra). lra. }
  assert (C : k * (2 * (k * U)) * (U * / X) <= 1 / 16 * (U * / X)) by (apply Rmult_le_compat_r; [apply Rmult_le_pos|]; lra).
  lra.
Qed.
Lemma rel_sqrt k x X : rel k x X -> 0 <= k <= 16 -> 0 < X -> rel k (sqrt x) (sqrt X).
Proof.
  intros H K P. pose proof (rel_range k x X H ltac:(lra) P) as R. unfold rel in *.
  assert (Px : 0 < x) by lra. pose proof (sqrt_lt_R0 _ Px) as Sx. pose proof (sqrt_lt_R0 _ P) as SX.
  pose proof (sqrt_sqrt x ltac:(lra)) as Ex. pose proof (sqrt_sqrt X ltac:(lra)) as EX.
  assert (E : (sqrt x - sqrt X) * (sqrt x + sqrt X) = x - X).
  { replace ((sqrt x - sqrt X) * (sqrt x + sqrt X)) with (sqrt x * sqrt x - sqrt X * sqrt X) by ring. now rewrite Ex, EX. }
  apply Rmult_le_reg_r with (sqrt x + sqrt X); [lra|].
  rewrite <- (Rabs_pos_eq (sqrt x + sqrt X)) at 1 by lra. rewrite <- Rabs_mult, E.
  eapply Rle_trans; [exact H|]. rewrite <- EX at 1.
  replace (k * U * sqrt X * (sqrt x + sqrt X)) with (k * U * (sqrt X * sqrt X) + k * U * (sqrt X * sqrt x)) by ring.
  assert (0 <= k * U * (sqrt X * sqrt x)); [|lra]. pose proof U_pos. repeat apply Rmult_le_pos; lra.
Qed.


(** ** 1 / (np.sqrt(2 * np.pi) * bw) *)
Definition HH (b : R) : R := / (sqrt (2 * PI) * b).
Lemma small_max x : Rabs x <= bpow radix2 900 -> Rabs x < bpow radix2 1024.
Proof. intros H. eapply Rle_lt_trans; [exact H|]. apply bpow_lt. lia. Qed.

Lemma root_val : finite (fsqrt (fmul (f_of_Z 2) fpi)) /\ rel 5 (val (fsqrt (fmul (f_of_Z 2) fpi))) (sqrt (2 * PI)) /\ 2 <= sqrt (2 * PI) <= 3.
Proof.
  pose proof PI_range as HP. destruct (f_of_Z_val 2 ltac:(lia)) as [F2 V2]. destruct fpi_val as [Fp Vp].
  assert (R0 : rel (8 / 3) (val fpi) PI).
  { unfold rel. rewrite Vp. eapply Rle_trans; [apply pi_digits|]. replace (/ 2 ^ 50) with (8 * U) by (unfold U; lra).
    pose proof U_pos. assert (U * 3 <= U * PI) by (apply Rmult_le_compat_l; lra). lra. }
  assert (R1 : rel (8 / 3) (2 * val fpi) (2 * PI)).
  { unfold rel in *. replace (2 * val fpi - 2 * PI) with (2 * (val fpi - PI)) by ring. rewrite Rabs_mult, (Rabs_pos_eq 2) by lra. lra. }
  assert (B10 : bpow radix2 (-1000) <= 1) by (change 1 with (bpow radix2 0); apply bpow_le; lia).
  assert (R2 : rel (8 / 3 + 17 / 16) (rnd (2 * val fpi)) (2 * PI)) by (apply rel_rnd; [exact R1|lra|lra|lra]).
  pose proof (rel_range _ _ _ R2 ltac:(lra) ltac:(lra)) as G2.
  assert (B4 : 16 <= bpow radix2 900) by (change 16 with (bpow radix2 4); apply bpow_le; lia).
  destruct (fmul_val (f_of_Z 2) fpi F2 Fp) as [Fm Vm]; [rewrite V2; apply small_max; rewrite Rabs_pos_eq; lra|].
  rewrite V2 in Vm. destruct (fsqrt_val _ Fm) as [Fs Vs]; [rewrite Vm; lra|].
  assert (S1 : 2 <= sqrt (2 * PI)) by (apply Rle_trans with (sqrt (2 * 2)); [rewrite sqrt_square; lra|apply sqrt_le_1_alt; lra]).
  assert (S2 : sqrt (2 * PI) <= 3) by (apply Rle_trans with (sqrt (3 * 3)); [apply sqrt_le_1_alt; lra|rewrite sqrt_square; lra]).
  split; [exact Fs|]. split; [|lra]. rewrite Vs, Vm.
  apply rel_le with (8 / 3 + 17 / 16 + 17 / 16); [|lra|lra]. apply rel_rnd; [|lra|lra|lra]. apply rel_sqrt; [exact R2|lra|lra].
Qed.

Lemma height_val b : moderate b -> finite (f_height b) /\ rel 8 (val (f_height b)) (HH (val b)) /\ bpow radix2 (-102) <= HH (val b) <= bpow radix2 99.
Proof.
  intros [Fb Hb]. destruct root_val as (Fr & Rr & Sr). unfold f_height, HH.
  set (r := fsqrt (fmul (f_of_Z 2) fpi)) in *. set (S := sqrt (2 * PI)) in *.
  pose proof (bpow_gt_0 radix2 (-100)) as B0. assert (Pb : 0 < val b) by lra. assert (PS : 0 < S) by lra.
  assert (PSb : 0 < S * val b) by (apply Rmult_lt_0_compat; lra).
  assert (Rb : rel 0 (val b) (val b)) by (unfold rel; rewrite Rminus_diag_eq by reflexivity; rewrite Rabs_R0; lra).
  pose proof (rel_mul 5 0 _ _ _ _ Rr Rb ltac:(lra) ltac:(lra) PS Pb) as R1.
  assert (B100 : bpow radix2 (-100) = / bpow radix2 100) by (rewrite <- bpow_opp; reflexivity).
  assert (L1 : bpow radix2 (-99) <= S * val b).
  { change (-99)%Z with (1 + -100)%Z. rewrite bpow_plus. change (bpow radix2 1) with 2. apply Rmult_le_compat; lra. }
  assert (L2 : S * val b <= bpow radix2 102).
  { change 102%Z with (2 + 100)%Z. rewrite bpow_plus. change (bpow radix2 2) with 4. apply Rmult_le_compat; lra. }
  assert (Bm : bpow radix2 (-1000) <= bpow radix2 (-99)) by (apply bpow_le; lia).
  assert (R2 : rel (5 + 0 + 1 / 16 + 17 / 16) (rnd (val r * val b)) (S * val b)) by (apply rel_rnd; [exact R1|lra|exact PSb|lra]).
  pose proof (rel_range _ _ _ R2 ltac:(lra) PSb) as G2.
  assert (B900 : bpow radix2 102 * 2 <= bpow radix2 900) by (change (bpow radix2 102 * bpow radix2 1 <= bpow radix2 900); rewrite <- bpow_plus; apply bpow_le; lia).
  destruct (fmul_val r b Fr Fb) as [Fm Vm]; [apply small_max; rewrite Rabs_pos_eq; lra|].
  destruct one_val as [F1 V1].
  pose proof (rel_inv _ _ _ R2 ltac:(lra) PSb) as R3.
  assert (I1 : / (S * val b) <= bpow radix2 99) by (change 99%Z with (- -99)%Z; rewrite (bpow_opp radix2 (-99)); apply Rinv_le_contravar; [apply bpow_gt_0|exact L1]).
  assert (I2 : bpow radix2 (-102) <= / (S * val b)) by (change (-102)%Z with (- (102))%Z; rewrite (bpow_opp radix2 102); apply Rinv_le_contravar; [exact PSb|exact L2]).
  pose proof (Rinv_0_lt_compat _ PSb) as PI'.
  assert (Bm' : bpow radix2 (-1000) <= bpow radix2 (-102)) by (apply bpow_le; lia).
  assert (R4 : rel (5 + 0 + 1 / 16 + 17 / 16 + 1 / 16 + 17 / 16) (rnd (/ rnd (val r * val b))) (/ (S * val b))) by (apply rel_rnd; [exact R3|lra|exact PI'|lra]).
  pose proof (rel_range _ _ _ R4 ltac:(lra) PI') as G4.
  assert (B900' : bpow radix2 99 * 2 <= bpow radix2 900) by (change (bpow radix2 99 * bpow radix2 1 <= bpow radix2 900); rewrite <- bpow_plus; apply bpow_le; lia).
  assert (Q : val (f_of_Z 1) / val (fmul r b) = / rnd (val r * val b)) by (rewrite V1, Vm; unfold Rdiv; ring).
  destruct (fdiv_val (f_of_Z 1) (fmul r b) F1 Fm) as [Fd Vd]; [rewrite Vm; lra|rewrite Q; apply small_max; rewrite Rabs_pos_eq; lra|].
  rewrite Q in Vd. split; [exact Fd|]. split; [|lra]. rewrite Vd. apply rel_le with (1 := R4); [lra|exact PI'].
Qed.
