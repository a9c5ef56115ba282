(** Polynomial potentials in float64 arithmetic: magnitudes and rounding errors *)
From Coq Require Import Lia Lra Reals ZArith.
From Verif Require Import PyBase Model_dyn Model_grid Model_pot Model_f64 Model_f64ld Spec_grid Spec_pot Spec_f64 Proof_base Proof_grid Proof_grid2 Proof_pot.
From Verif Require Import Proof_f64 Proof_f64b Proof_f64d Proof_f64j Proof_f64k Proof_f64m.
From Flocq Require Import Core.Core IEEE754.BinarySingleNaN.
Open Scope R_scope.
Ltac Zify.zify_post_hook ::= idtac.
#[local] Arguments bpow : simpl never.

Lemma fmul_fin x y : finite x -> finite y -> finite (fmul x y) -> val (fmul x y) = rnd (val x * val y).
Proof.
  intros Fx Fy F. destruct (Rlt_or_le (Rabs (rnd (val x * val y))) (bpow radix2 1024)) as [L|L]; [now apply fmul_val|].
  exfalso. pose proof (Bmult_correct 53 1024 prec_53 emax_1024 mode_NE x y) as C. rewrite rnd_eq in C. rewrite Rlt_bool_false in C by exact L.
  fold (fmul x y) in C. unfold binary_overflow in C. cbn in C. destruct (fmul x y) as [s|s| |s m e b]; try discriminate F; cbn in C; discriminate C.
Qed.
Lemma fadd_fin x y : finite x -> finite y -> finite (fadd x y) -> val (fadd x y) = rnd (val x + val y).
Proof.
  intros Fx Fy F. destruct (Rlt_or_le (Rabs (rnd (val x + val y))) (bpow radix2 1024)) as [L|L]; [now apply fadd_val|].
  exfalso. pose proof (Bplus_correct 53 1024 prec_53 emax_1024 mode_NE x y Fx Fy) as C. rewrite rnd_eq in C. rewrite Rlt_bool_false in C by exact L.
  fold (fadd x y) in C. destruct C as [C _]. unfold binary_overflow in C. cbn in C. destruct (fadd x y) as [s|s| |s m e b]; try discriminate F; cbn in C; discriminate C.
Qed.

(** ** magnitudes *)
Lemma upto_exp e e' j x : (e <= e')%Z -> (0 <= j)%Z -> upto e j x -> upto e' j x.
Proof. intros H Hj [F B]. split; [exact F|]. eapply Rle_trans; [exact B|]. apply Rmult_le_compat_l; [apply IZR_le; lia|now apply bpow_le]. Qed.

Section Horner.
Context (x : f64) (a : Z) (Fx : finite x) (Ha : (0 <= a)%Z) (Hx : Rabs (val x) <= bpow radix2 a).

Lemma x_zero : finite (fmul x fzero) /\ val (fmul x fzero) = 0.
Proof using Fx.
  assert (E : val x * val fzero = 0) by (change (val fzero) with 0; ring). destruct (fmul_val x fzero Fx eq_refl) as [F V]; [rewrite E, rnd_0, Rabs_R0; apply bpow_gt_0|].
  split; [exact F|]. now rewrite V, E, rnd_0.
Qed.
Lemma last_val c : finite c -> finite (fadd c (fmul x fzero)) /\ val (fadd c (fmul x fzero)) = val c.
Proof using Fx.
  intros Fc. destruct x_zero as [F V]. destruct (fadd_val c _ Fc F) as [F' V']; rewrite V, Rplus_0_r, rnd_val in *; [apply abs_B2R_lt_emax|now split].
Qed.
Lemma horner_cons c d cs : f_horner x (c :: d :: cs) = fadd c (fmul (f_horner x (d :: cs)) x).
Proof using Type. reflexivity. Qed.

Lemma horner_upto e K cs : (-1000 <= e)%Z -> (0 <= K)%Z -> cs <> [] -> Forall (upto e K) cs ->
  (Z.of_nat (length cs) * K < 2 ^ 53)%Z -> (e + Z.of_nat (length cs) * a <= 900)%Z ->
  upto (e + Z.of_nat (length cs) * a) (Z.of_nat (length cs) * K) (f_horner x cs).
Proof using All.
  intros He HK. induction cs as [|c cs IH]; [congruence|]. intros _ HF HL HE. inversion HF as [|? ? Hc HF']; subst. destruct cs as [|d cs].
  - cbn [length f_horner] in *. destruct Hc as [Fc Bc]. destruct (last_val c Fc) as [F V]. replace (Z.of_nat 1 * K)%Z with K by lia. apply (upto_exp e); [lia|exact HK|]. split; [exact F|]. rewrite V. exact Bc.
  - rewrite horner_cons. set (n := length (d :: cs)) in *. change (length (c :: d :: cs)) with (S n) in *.
    assert (I : upto (e + Z.of_nat n * a) (Z.of_nat n * K) (f_horner x (d :: cs))) by (apply IH; [discriminate|exact HF'|lia|lia]).
    destruct I as [FI BI]. replace (Z.of_nat (S n) * K)%Z with (K + Z.of_nat n * K)%Z by lia. assert (0 <= Z.of_nat n * K)%Z by lia.
    apply upto_add; [lia| | |lia..].
    + apply (upto_exp e); [lia|exact HK|exact Hc].
    + apply upto_mul with (a := IZR (Z.of_nat n * K) * bpow radix2 (e + Z.of_nat n * a) * bpow radix2 a); [lia|assumption..|lia| |].
      * apply Rmult_le_compat; try assumption; apply Rabs_pos.
      * rewrite Rmult_assoc, <- bpow_plus. replace (e + Z.of_nat n * a + a)%Z with (e + Z.of_nat (S n) * a)%Z by lia. lra.
Qed.

(** ** rounding errors: k roundings, an absolute error T from underflow; s bounds the exact value *)
Definition acc (k : nat) (T : R) (y : f64) (v s : R) : Prop := Rabs v <= s /\ Rabs (val y - v) <= ((1 + U) ^ k - 1) * s + T.
Lemma gam_pos k : 0 <= (1 + U) ^ k - 1.
Proof using Type. pose proof U_pos. pose proof (pow_R1_Rle (1 + U) k). lra. Qed.
Lemma gam_mono k k' : (k <= k')%nat -> (1 + U) ^ k <= (1 + U) ^ k'.
Proof using Type. intros H. pose proof U_pos. apply Rle_pow; [lra|exact H]. Qed.
Lemma acc_mono k k' T T' y v s : acc k T y v s -> (k <= k')%nat -> T <= T' -> acc k' T' y v s.
Proof using Type.
  intros [B E] Hk HT. split; [exact B|]. pose proof (gam_mono k k' Hk). pose proof (Rabs_pos v).
  assert (((1 + U) ^ k - 1) * s <= ((1 + U) ^ k' - 1) * s) by (apply Rmult_le_compat_r; lra). lra.
Qed.
(** rounding a value known up to an error *)
Lemma rnd_acc k T E t v s w : Rabs v <= s -> 0 <= E -> Rabs (t - v) <= ((1 + U) ^ k - 1) * s + T -> Rabs (w - t) <= U * Rabs t + E ->
  Rabs (w - v) <= ((1 + U) ^ (S k) - 1) * s + ((1 + U) * T + E).
Proof using Type.
  intros B HE H1 H2. pose proof U_pos as HU. assert (Rabs t <= (1 + U) ^ k * s + T).
  { replace t with ((t - v) + v) by ring. eapply Rle_trans; [apply Rabs_triang|]. lra. }
  replace (w - v) with ((w - t) + (t - v)) by ring. eapply Rle_trans; [apply Rabs_triang|].
  assert (U * Rabs t <= U * ((1 + U) ^ k * s + T)) by (apply Rmult_le_compat_l; lra). cbn [pow]. lra.
Qed.
Lemma mul_acc k T h v s : finite h -> finite (fmul h x) -> acc k T h v s -> 0 <= T ->
  acc (S k) (2 * T * bpow radix2 a + ETA) (fmul h x) (v * val x) (s * Rabs (val x)).
Proof using All.
  intros Fh Fp [B E] HT. pose proof U_pos as HU. pose proof (Rabs_pos (val x)) as X0. split.
  - rewrite Rabs_mult. now apply Rmult_le_compat_r.
  - rewrite (fmul_fin h x Fh Fx Fp).
    assert (W : Rabs (val h * val x - v * val x) <= ((1 + U) ^ k - 1) * (s * Rabs (val x)) + T * Rabs (val x)).
    { replace (val h * val x - v * val x) with ((val h - v) * val x) by ring. rewrite Rabs_mult. rewrite <- Rmult_assoc, <- Rmult_plus_distr_r. now apply Rmult_le_compat_r. }
    eapply Rle_trans; [apply (rnd_acc k (T * Rabs (val x)) ETA (val h * val x) (v * val x) (s * Rabs (val x))); [rewrite Rabs_mult; now apply Rmult_le_compat_r|left; apply ETA_pos|exact W|apply rnd_err]|].
    assert ((1 + U) * (T * Rabs (val x)) <= 2 * (T * bpow radix2 a)).
    { apply Rmult_le_compat; [lra|now apply Rmult_le_pos|unfold U; lra|now apply Rmult_le_compat_l]. }
    lra.
Qed.
Lemma add_acc k T1 T2 c p v1 s1 v2 s2 : finite c -> finite p -> finite (fadd c p) -> acc k T1 c v1 s1 -> acc k T2 p v2 s2 -> 0 <= T1 -> 0 <= T2 ->
  acc (S k) (2 * (T1 + T2)) (fadd c p) (v1 + v2) (s1 + s2).
Proof using Type.
  intros Fc Fp F [B1 E1] [B2 E2] H1 H2. assert (B : Rabs (v1 + v2) <= s1 + s2) by (eapply Rle_trans; [apply Rabs_triang|lra]). split; [exact B|].
  rewrite (fadd_fin c p Fc Fp F).
  assert (W : Rabs (val c + val p - (v1 + v2)) <= ((1 + U) ^ k - 1) * (s1 + s2) + (T1 + T2)).
  { replace (val c + val p - (v1 + v2)) with ((val c - v1) + (val p - v2)) by ring. eapply Rle_trans; [apply Rabs_triang|]. lra. }
  pose proof U_pos as HU.
  eapply Rle_trans; [apply (rnd_acc k (T1 + T2) 0 (val c + val p) (v1 + v2) (s1 + s2)); [exact B|lra|exact W|rewrite Rplus_0_r; apply rnd_plus_err]|].
  assert ((1 + U) * (T1 + T2) <= 2 * (T1 + T2)) by (apply Rmult_le_compat_r; [lra|unfold U; lra]). lra.
Qed.

Lemma bpow8 : 1 <= bpow radix2 a. Proof using Ha. change 1 with (bpow radix2 0). now apply bpow_le. Qed.
Lemma horner_acc e K k T cs : (-1000 <= e)%Z -> (0 <= K)%Z -> Forall (upto e K) cs -> ETA <= T -> cs <> [] ->
  (Z.of_nat (length cs) * K < 2 ^ 53)%Z -> (e + Z.of_nat (length cs) * a <= 900)%Z ->
  forall ps, Forall2 (fun c p => acc k T c (fst p) (snd p)) cs ps ->
  acc (k + 2 * length cs) (T * bpow radix2 ((a + 3) * Z.of_nat (length cs))) (f_horner x cs) (horner (val x) (map fst ps)) (horner (Rabs (val x)) (map snd ps)).
Proof using All.
  intros He HK HF HT NE. pose proof ETA_pos as EP. revert HF NE. induction cs as [|c cs IH]; [congruence|]. intros HF _ HL HE ps HP.
  inversion HP as [|? [v s] ? ps' Hc HP']; subst. inversion HF as [|? ? [Fc Bc] HF']; subst. cbn [fst snd] in Hc.
  destruct cs as [|d cs].
  - inversion HP'; subst. cbn [map fst snd horner f_horner]. destruct (last_val c Fc) as [F V].
    apply (acc_mono k _ T); [destruct Hc as [B E]; split; [exact B|rewrite V; exact E]|cbn; lia|].
    rewrite <- (Rmult_1_r T) at 1. apply Rmult_le_compat_l; [lra|]. change 1 with (bpow radix2 0). apply bpow_le. cbn [length]. lia.
  - rewrite horner_cons. destruct ps' as [|p2 ps2]; [inversion HP'|]. set (n := length (d :: cs)) in *. change (length (c :: d :: cs)) with (S n) in *.
    pose proof (IH HF' ltac:(discriminate) ltac:(lia) ltac:(lia) (p2 :: ps2) HP') as A.
    assert (I : upto (e + Z.of_nat n * a) (Z.of_nat n * K) (f_horner x (d :: cs))) by (apply horner_upto; [lia|lia|discriminate|exact HF'|lia|lia]).
    assert (J : upto (e + Z.of_nat (S n) * a) (Z.of_nat (S n) * K) (f_horner x (c :: d :: cs))).
    { apply (horner_upto e K (c :: d :: cs)); [lia|lia|discriminate|exact HF| |]; change (length (c :: d :: cs)) with (S n); lia. }
    assert (Pf : finite (fmul (f_horner x (d :: cs)) x)).
    { destruct I as [FI BI]. assert (Q : upto (e + Z.of_nat (S n) * a) (Z.of_nat n * K) (fmul (f_horner x (d :: cs)) x)); [|apply Q].
      apply upto_mul with (a := IZR (Z.of_nat n * K) * bpow radix2 (e + Z.of_nat n * a) * bpow radix2 a); [lia|assumption..|lia| |].
      * apply Rmult_le_compat; try assumption; apply Rabs_pos.
      * rewrite Rmult_assoc, <- bpow_plus. replace (e + Z.of_nat n * a + a)%Z with (e + Z.of_nat (S n) * a)%Z by lia. lra. }
    set (Tn := T * bpow radix2 ((a + 3) * Z.of_nat n)) in *. pose proof bpow8 as B8.
    assert (Tn1 : T <= Tn). { unfold Tn. rewrite <- (Rmult_1_r T) at 1. apply Rmult_le_compat_l; [lra|]. change 1 with (bpow radix2 0). apply bpow_le. lia. }
    pose proof (mul_acc (k + 2 * n) Tn _ _ _ (proj1 I) Pf A ltac:(lra)) as M.
    assert (C : acc (S (k + 2 * n)) T c v s) by (apply (acc_mono k _ T); [exact Hc|lia|lra]).
    assert (M0 : 0 <= 2 * Tn * bpow radix2 a) by (apply Rmult_le_pos; [lra|lra]).
    pose proof (add_acc (S (k + 2 * n)) T (2 * Tn * bpow radix2 a + ETA) c _ _ _ _ _ Fc Pf (proj1 J) C M ltac:(lra) ltac:(lra)) as G.
    change (map fst ((v, s) :: p2 :: ps2)) with (v :: fst p2 :: map fst ps2). change (map snd ((v, s) :: p2 :: ps2)) with (s :: snd p2 :: map snd ps2).
    change (horner (val x) (v :: fst p2 :: map fst ps2)) with (v + horner (val x) (map fst (p2 :: ps2)) * val x).
    change (horner (Rabs (val x)) (s :: snd p2 :: map snd ps2)) with (s + horner (Rabs (val x)) (map snd (p2 :: ps2)) * Rabs (val x)).
    apply (acc_mono _ _ _ _ _ _ _ G); [lia|].
    replace ((a + 3) * Z.of_nat (S n))%Z with ((a + 3) * Z.of_nat n + (a + 3))%Z by lia. rewrite (bpow_plus _ _ (a + 3)), <- Rmult_assoc. fold Tn. rewrite bpow_plus. change (bpow radix2 3) with 8.
    assert (Tn <= Tn * bpow radix2 a) by (rewrite <- (Rmult_1_r Tn) at 1; apply Rmult_le_compat_l; lra). lra.
Qed.
End Horner.
