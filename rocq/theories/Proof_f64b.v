(** Sums of float64 numbers and the counts of fractions-pos (C73) *)
From Verif Require Import Spec_f64 Proof_f64 Proof_base.
From Flocq Require Import Core.Core.
From Coq Require Import Lia Lra.
Open Scope R_scope.

#[local] Arguments bpow : simpl never.
Definition nonneg (x : f64) : Prop := finite x /\ 0 <= val x.
Fixpoint nodes (t : sum_tree) : nat := match t with Leaf _ => 0%nat | Node a b => S (nodes a + nodes b) end.

Lemma vsum_app l1 l2 : vsum (l1 ++ l2) = vsum l1 + vsum l2.
Proof. induction l1 as [|x l1 IH]; simpl; [lra|]. rewrite IH. lra. Qed.
Lemma vsum_perm l1 l2 : Permutation l1 l2 -> vsum l1 = vsum l2.
Proof. induction 1; simpl; lra. Qed.
Lemma vsum_zeros k : vsum (repeat fzero k) = 0.
Proof. induction k; simpl; [reflexivity|]. rewrite IHk. simpl. lra. Qed.
Lemma vsum_nonneg l : Forall nonneg l -> 0 <= vsum l.
Proof. induction 1 as [|x l [_ H] _ IH]; simpl; lra. Qed.
Lemma nodes_leaves t : S (nodes t) = length (tree_leaves t).
Proof. induction t; simpl; [reflexivity|]. rewrite app_length. lia. Qed.

Lemma tree_sum_bounds t : Forall nonneg (tree_leaves t) -> vsum (tree_leaves t) * (1 + U) ^ nodes t < bpow radix2 1024 ->
  finite (tree_sum t) /\ vsum (tree_leaves t) * (1 - U) ^ nodes t <= val (tree_sum t) <= vsum (tree_leaves t) * (1 + U) ^ nodes t.
Proof.
  pose proof U_pos as HU. assert (HU1 : U < 1) by (unfold U; lra).
  induction t as [x | a IHa b IHb]; intros HF HM; simpl in *.
  - inversion HF as [|? ? [H1 H2] _]; subst. split; [exact H1|]. lra.
  - apply Forall_app in HF. destruct HF as [Fa Fb]. rewrite vsum_app in *.
    pose proof (vsum_nonneg _ Fa) as Ha. pose proof (vsum_nonneg _ Fb) as Hb.
    set (A := vsum (tree_leaves a)) in *. set (B := vsum (tree_leaves b)) in *.
    assert (P1 : forall n, 1 <= (1 + U) ^ n) by (intros; apply pow_R1_Rle; lra).
    assert (P2 : forall n, 0 <= (1 - U) ^ n) by (intros; apply pow_le; lra).
    assert (P3 : forall n m, (1 + U) ^ n <= (1 + U) ^ (n + m)).
    { intros n m. rewrite pow_add. pose proof (P1 n). pose proof (P1 m). nra. }
    assert (P4 : forall n m, (1 - U) ^ (n + m) <= (1 - U) ^ n).
    { intros n m. rewrite pow_add. pose proof (P2 n). assert ((1 - U) ^ m <= 1).
      { replace 1 with (1 ^ m) at 2 by apply pow1. apply pow_incr. lra. } nra. }
    rewrite (Nat.add_comm (nodes a) (nodes b)) in HM |- *.
    assert (Qa : (1 + U) ^ nodes a <= (1 + U) ^ (nodes b + nodes a)) by (rewrite Nat.add_comm; apply P3).
    assert (Qb : (1 + U) ^ nodes b <= (1 + U) ^ (nodes b + nodes a)) by apply P3.
    assert (Ra : (1 - U) ^ (nodes b + nodes a) <= (1 - U) ^ nodes a) by (rewrite Nat.add_comm; apply P4).
    assert (Rb : (1 - U) ^ (nodes b + nodes a) <= (1 - U) ^ nodes b) by apply P4.
    set (N := (1 + U) ^ (nodes b + nodes a)) in *. set (M := (1 - U) ^ (nodes b + nodes a)) in *.
    assert (HN : 1 <= N) by apply P1. assert (HM0 : 0 <= M) by apply P2.
    assert (HM' : (A + B) * N * (1 + U) < bpow radix2 1024) by lra.
    assert (0 <= (A + B) * N) by nra.
    destruct IHa as [a1 [a2 a3]]; [exact Fa | nra |]. destruct IHb as [b1 [b2 b3]]; [exact Fb | nra |].
    assert (0 <= (1 - U) ^ nodes a) by apply P2. assert (0 <= (1 - U) ^ nodes b) by apply P2.
    assert (S1 : val (tree_sum a) + val (tree_sum b) <= (A + B) * N) by nra.
    assert (S2 : (A + B) * M <= val (tree_sum a) + val (tree_sum b)) by nra.
    assert (S0 : 0 <= val (tree_sum a) + val (tree_sum b)) by nra.
    pose proof (rnd_plus_err (tree_sum a) (tree_sum b)) as E. rewrite (Rabs_pos_eq _ S0) in E.
    assert (E' := E). apply Rabs_le_inv in E'.
    set (s := val (tree_sum a) + val (tree_sum b)) in *.
    assert (G1 : rnd s <= s * (1 + U)) by lra. assert (G2 : s * (1 - U) <= rnd s) by lra.
    assert (G3 : 0 <= rnd s) by (rewrite <- rnd_0; apply rnd_le; exact S0).
    destruct (fadd_val (tree_sum a) (tree_sum b) a1 b1) as [F V].
    { fold s. rewrite Rabs_pos_eq by exact G3. nra. }
    split; [exact F|]. rewrite V. fold s. nra.
Qed.

Lemma bernoulli_minus x n : 0 <= x <= 1 -> 1 - INR n * x <= (1 - x) ^ n.
Proof.
  intros H. induction n as [|n IH]; [simpl; lra|]. rewrite S_INR. simpl.
  destruct (Rle_or_lt 0 (1 - INR n * x)) as [P | P]; pose proof (pos_INR n).
  - assert ((1 - x) * (1 - INR n * x) <= (1 - x) * (1 - x) ^ n) by (apply Rmult_le_compat_l; lra).
    assert (0 <= INR n * x * x) by (apply Rmult_le_pos; [apply Rmult_le_pos|]; lra). lra.
  - assert (0 <= (1 - x) * (1 - x) ^ n) by (apply Rmult_le_pos; [lra|]; apply pow_le; lra). lra.
Qed.
Lemma pow_plus_bound x n : 0 <= x < 1 -> INR n * x < 1 -> (1 + x) ^ n * (1 - INR n * x) <= 1.
Proof.
  intros H Hn. assert (P : (1 + x) ^ n * (1 - x) ^ n <= 1).
  { rewrite <- Rpow_mult_distr. apply Rle_trans with (1 ^ n); [apply pow_incr; nra|]. rewrite pow1. lra. }
  pose proof (bernoulli_minus x n ltac:(lra)). assert (0 <= (1 + x) ^ n) by (apply pow_le; lra). nra.
Qed.

(** the value of np.sum *)
Lemma np_sum_bounds np_sum l : sums np_sum -> l <> [] -> Forall nonneg l -> vsum l < bpow radix2 1023 ->
  let d := INR (2 * length l) * U in d <= 1 / 2 ->
  finite (np_sum l) /\ vsum l * (1 - d) <= val (np_sum l) /\ val (np_sum l) * (1 - d) <= vsum l.
Proof.
  intros HS Hl HF HM d Hd. destruct (HS l Hl) as (t & k & Hk & HP & ->).
  assert (Q : vsum (tree_leaves t) = vsum l) by (rewrite (vsum_perm _ _ HP), vsum_app, vsum_zeros; lra).
  assert (F : Forall nonneg (tree_leaves t)).
  { rewrite Forall_forall in *. intros x Hx. apply (Permutation_in _ HP) in Hx. apply in_app_or in Hx. destruct Hx as [Hx | Hx].
    - now apply HF.
    - apply repeat_spec in Hx. subst x. split; [reflexivity|]. simpl. lra. }
  assert (L : (nodes t <= 2 * length l)%nat).
  { pose proof (nodes_leaves t) as E. rewrite (Permutation_length HP), app_length, repeat_length in E. lia. }
  pose proof U_pos as HU. assert (HU1 : U < 1) by (unfold U; lra).
  pose proof (vsum_nonneg _ HF) as H0.
  assert (D0 : 0 <= INR (nodes t) * U) by (apply Rmult_le_pos; [apply pos_INR|lra]).
  assert (D1 : INR (nodes t) * U <= d) by (apply Rmult_le_compat_r; [lra|]; now apply le_INR).
  pose proof (bernoulli_minus U (nodes t) ltac:(lra)) as B1.
  pose proof (pow_plus_bound U (nodes t) ltac:(lra) ltac:(lra)) as B2.
  assert (B3 : 1 <= (1 + U) ^ nodes t) by (apply pow_R1_Rle; lra).
  assert (B4 : (1 + U) ^ nodes t <= 2) by nra.
  destruct (tree_sum_bounds t F) as [G1 [G2 G3]].
  { rewrite Q, MAXV. nra. }
  rewrite Q in *. split; [exact G1|]. split; [nra|].
  assert (val (tree_sum t) * (1 - d) <= vsum l * (1 + U) ^ nodes t * (1 - d)) by (apply Rmult_le_compat_r; lra).
  assert ((1 + U) ^ nodes t * (1 - d) <= 1) by nra. nra.
Qed.

(** ** one count *)
Definition kappa (n : nat) : R := INR (2 * n + 4) * (2 * U).

Lemma pow2_bpow n : 2 ^ n = bpow radix2 (Z.of_nat n).
Proof.
  induction n as [|n IH]; [reflexivity|]. rewrite Nat2Z.inj_succ, <- Z.add_1_l, bpow_plus.
  change (bpow radix2 1) with 2. cbn [pow]. rewrite IH. reflexivity.
Qed.
Lemma small_eta : ETA <= / 2 ^ 200.
Proof.
  unfold ETA. apply Rle_trans with (bpow radix2 (- (200))); [apply bpow_le; lia|].
  rewrite bpow_opp. change 200%Z with (Z.of_nat 200). rewrite <- pow2_bpow. apply Rle_refl.
Qed.

Lemma count_bounds f S T N n : nonneg f -> finite S -> 0 < T -> val f <= T ->
  (0 < N)%Z -> (1 <= n)%nat -> (N * Z.of_nat (2 * n + 4) <= 2 ^ 50)%Z ->
  let d := INR (2 * n) * U in
  T * (1 - d) <= val S -> val S * (1 - d) <= T ->
  let v := fmul (fdiv f S) (f_of_Z N) in
  let e := IZR N * (val f / T) in
  nonneg v /\ Rabs (val v - e) <= kappa n * e + / 2 ^ 100.
Proof.
  intros [Ff F0] FS HT HfT HN Hn1 HNn d HS1 HS2 v e.
  pose proof U_pos as HU.
  assert (HNr : 1 <= IZR N) by (apply IZR_le; lia).
  assert (HNn' : IZR N * INR (2 * n + 4) <= 2 ^ 50).
  { rewrite INR_IZR_INZ, <- mult_IZR. replace (2 ^ 50) with (IZR (2 ^ 50)) by (rewrite (pow_IZR 2 50); reflexivity). now apply IZR_le. }
  assert (HNb : IZR N <= 2 ^ 50).
  { assert (1 <= INR (2 * n + 4)) by (change 1 with (INR 1); apply le_INR; lia). nra. }
  assert (Hn4 : INR (2 * n + 4) = INR (2 * n) + 4) by (rewrite plus_INR; simpl; lra).
  assert (Hn0 : 0 <= INR (2 * n)) by apply pos_INR.
  assert (HUe : U = / 2 ^ 53) by reflexivity.
  assert (P50 : 2 ^ 50 * U = / 8) by (rewrite HUe; lra).
  assert (Hd8 : INR (2 * n + 4) * U <= / 8) by nra.
  assert (Hd0 : 0 <= d) by (unfold d; nra).
  assert (Hdd : INR (2 * n + 4) * U = d + 4 * U) by (unfold d; rewrite Hn4; ring).
  assert (HS0 : 0 < val S) by nra.
  (* the quotient *)
  set (r := val f / T) in *. assert (Hr0 : 0 <= r) by (apply Rmult_le_pos; [exact F0|]; left; now apply Rinv_0_lt_compat).
  assert (Hr1 : r <= 1) by (unfold r; apply Rmult_le_reg_r with T; [exact HT|]; unfold Rdiv; rewrite Rmult_assoc, Rinv_l; lra).
  set (q := val f / val S). assert (Hq0 : 0 <= q) by (apply Rmult_le_pos; [exact F0|]; left; now apply Rinv_0_lt_compat).
  assert (Efr : val f = r * T) by (unfold r; field; lra).
  assert (Efq : val f = q * val S) by (unfold q; field; lra).
  assert (Hq1 : q * (1 - d) <= r).
  { apply Rmult_le_reg_r with T; [exact HT|]. rewrite <- Efr, Efq. nra. }
  assert (Hq2 : r * (1 - d) <= q).
  { apply Rmult_le_reg_r with (val S); [exact HS0|]. rewrite <- Efq, Efr. nra. }
  assert (Hq3 : q <= 2) by nra.
  pose proof small_eta as HE. pose proof ETA_pos as HE0.
  assert (HE1 : ETA <= U * U).
  { eapply Rle_trans; [exact HE|]. rewrite HUe. lra. }
  assert (Big : 2 ^ 60 < bpow radix2 1024).
  { apply Rlt_trans with (bpow radix2 61); [|apply bpow_lt; lia].
    rewrite pow2_bpow. apply bpow_lt. reflexivity. }
  pose proof (rnd_err q) as Eq. rewrite (Rabs_pos_eq _ Hq0) in Eq. apply Rabs_le_inv in Eq.
  assert (Rq0 : 0 <= rnd q) by (rewrite <- rnd_0; now apply rnd_le).
  assert (HU8 : U <= / 2 ^ 53) by lra.
  assert (HUq : U * q <= 2 * U) by nra. assert (HUs : 3 * U + U * U <= 1) by (rewrite HUe; lra).
  assert (Hrq : rnd q <= 3) by lra.
  destruct (fdiv_val f S Ff FS ltac:(lra)) as [Fq Vq].
  { fold q. rewrite (Rabs_pos_eq _ Rq0). lra. }
  fold q in Vq.
  destruct (f_of_Z_val N) as [FN VN]; [lia|].
  set (p := rnd q * IZR N). assert (Hp0 : 0 <= p) by (unfold p; nra).
  pose proof (rnd_err p) as Ep. rewrite (Rabs_pos_eq _ Hp0) in Ep. apply Rabs_le_inv in Ep.
  assert (Rp0 : 0 <= rnd p) by (rewrite <- rnd_0; now apply rnd_le).
  assert (Hp3 : p <= 3 * 2 ^ 50) by (unfold p; nra).
  destruct (fmul_val (fdiv f S) (f_of_Z N) Fq FN) as [Fv Vv].
  { rewrite Vq, VN. fold p. rewrite (Rabs_pos_eq _ Rp0). nra. }
  rewrite Vq, VN in Vv. fold p in Vv.
  split; [split; [exact Fv|]; unfold v; rewrite Vv; exact Rp0|].
  unfold v. rewrite Vv.
  (* the error *)
  assert (He : e = IZR N * r) by reflexivity. clearbody e.
  assert (HqU : Rabs (q - r) <= 2 * d * r).
  { apply Rabs_le. split; [nra|]. assert (q <= r + 2 * d * r); [|lra].
    apply Rmult_le_reg_r with (1 - d); [lra|]. assert (0 <= r * d * (1 - 2 * d)) by (apply Rmult_le_pos; nra). lra. }
  apply Rabs_le_inv in HqU.
  assert (G1 : p <= e * (1 + 2 * d) * (1 + U) + 2 ^ 50 * ETA).
  { unfold p. assert (rnd q <= r * (1 + 2 * d) * (1 + U) + ETA) by nra.
    assert (rnd q * IZR N <= (r * (1 + 2 * d) * (1 + U) + ETA) * IZR N) by (apply Rmult_le_compat_r; lra).
    assert (ETA * IZR N <= 2 ^ 50 * ETA) by nra. rewrite He. lra. }
  assert (G2 : e * (1 - 2 * d) * (1 - U) - 2 ^ 50 * ETA <= p).
  { unfold p. assert (r * (1 - 2 * d) * (1 - U) - ETA <= rnd q) by nra.
    assert ((r * (1 - 2 * d) * (1 - U) - ETA) * IZR N <= rnd q * IZR N) by (apply Rmult_le_compat_r; lra).
    assert (ETA * IZR N <= 2 ^ 50 * ETA) by nra. rewrite He. lra. }
  assert (He0 : 0 <= e) by (rewrite He; nra).
  assert (Hk : kappa n = 2 * d + 8 * U) by (unfold kappa; rewrite <- Rmult_assoc, (Rmult_comm _ 2), Rmult_assoc, Hdd; ring).
  rewrite Hk.
  assert (Hsm : 4 * (2 ^ 50 * ETA) <= / 2 ^ 100).
  { replace 4 with (bpow radix2 2) by reflexivity. rewrite (pow2_bpow 50). unfold ETA. rewrite <- !bpow_plus.
    rewrite (pow2_bpow 100), <- bpow_opp. apply bpow_le. lia. }
  assert (H50 : 1 <= 2 ^ 50) by lra. clear HE.
  set (X := 2 ^ 50 * ETA) in *. assert (HX : 0 <= X) by (unfold X; apply Rmult_le_pos; lra).
  assert (HEX : ETA <= X) by (unfold X; rewrite <- (Rmult_1_l ETA) at 1; apply Rmult_le_compat_r; lra).
  clearbody X. set (Y := / 2 ^ 100) in *. clearbody Y.
  assert (HU1 : U <= / 8) by (rewrite HUe; lra).
  assert (HUU : 0 <= U * U <= U) by (split; [apply Rmult_le_pos; lra | rewrite <- (Rmult_1_r U) at 3; apply Rmult_le_compat_l; lra]).
  assert (K1 : (1 + 2 * d) * (1 + U) * (1 + U) <= 1 + 2 * d + 8 * U - U).
  { assert ((1 + 2 * d) * (2 * U + U * U) <= 2 * (3 * U)) by (apply Rmult_le_compat; lra). lra. }
  assert (K2 : 1 - (2 * d + 8 * U) <= (1 - 2 * d) * (1 - U) * (1 - U)).
  { assert ((1 - 2 * d) * (2 * U - U * U) <= 1 * (2 * U)) by (apply Rmult_le_compat; lra). lra. }
  assert (HdU : 0 <= 2 * d <= 1) by lra.
  clear HqU Hq1 Hq2 Hq3 Eq HUq HUs HNr HNn' HNb P50 Hd8 Big HE1 HU8 Hp3.
  apply Rabs_le. split.
  - assert (L1 : e * (1 - (2 * d + 8 * U)) <= e * ((1 - 2 * d) * (1 - U) * (1 - U))) by (apply Rmult_le_compat_l; assumption).
    assert (L2 : (e * (1 - 2 * d) * (1 - U) - X) * (1 - U) <= p * (1 - U)) by (apply Rmult_le_compat_r; lra).
    assert (L3 : 0 <= X * U) by (apply Rmult_le_pos; lra). lra.
  - assert (L1 : e * ((1 + 2 * d) * (1 + U) * (1 + U)) <= e * (1 + 2 * d + 8 * U - U)) by (apply Rmult_le_compat_l; assumption).
    assert (L2 : p * (1 + U) <= (e * (1 + 2 * d) * (1 + U) + X) * (1 + U)) by (apply Rmult_le_compat_r; lra).
    assert (L3 : X * U <= X) by (rewrite <- (Rmult_1_r X) at 2; apply Rmult_le_compat_l; lra).
    assert (0 <= e * U) by (apply Rmult_le_pos; lra). lra.
Qed.
