(** Statements in the form of Prop_f64ld.v *)
From Coq Require Import Lia Lra Reals ZArith.
From Verif Require Import PyBase Model_dyn Model_grid Model_pot Model_f64 Model_f64ld Spec_grid Spec_pot Spec_f64 Spec_f64ld Proof_base Proof_grid Proof_grid2 Proof_pot.
From Verif Require Import Proof_f64 Proof_f64b Proof_f64d Proof_f64f Proof_f64g Proof_f64j Proof_f64k Proof_f64m Proof_f64n Proof_f64o Proof_f64p.
From Flocq Require Import Core.Core IEEE754.BinarySingleNaN.
Open Scope R_scope.
Ltac Zify.zify_post_hook ::= idtac.
#[local] Arguments bpow : simpl never.

Lemma langevin_all fexp ranges force dt friction kt mass pos noises : exp_ok fexp ->
  finite dt -> 0 < val dt <= bpow radix2 100 -> finite friction -> 0 <= val friction ->
  finite kt -> 0 <= val kt <= bpow radix2 100 -> finite mass -> bpow radix2 (-100) <= val mass <= bpow radix2 100 ->
  Forall finite_range ranges ->
  (forall p, in_box ranges p -> length (force p) = length ranges /\ Forall (bounded (bpow radix2 200)) (force p)) ->
  Forall (fun n => noise_for ranges (fst n) /\ noise_for ranges (snd n)) noises -> (Z.of_nat (length noises) <= 2 ^ 50)%Z ->
  in_box ranges pos ->
  exists w, f_langevin fexp ranges force dt friction kt mass pos noises = Ok w /\ in_box ranges (fw_pos w) /\ Forall finite (fw_pos w) /\
    length (fw_mom w) = length ranges /\ Forall (bounded (INR (4 * length noises) * bpow radix2 300)) (fw_mom w).
Proof.
  intros He Fd Hd Ff Hf Fk Hk Fm Hm HR HF HN HL Hp. pose proof (bpow_gt_0 radix2 (-100)) as P100.
  destruct (c1_range fexp friction dt He Ff Hf Fd (proj1 Hd)) as [F1 B1]. set (c1 := f_c1 fexp friction dt) in *.
  destruct (c2_val c1 mass kt F1 B1 Fm Fk) as (F2 & _ & B2); [lra|lra|]. set (c2 := f_c2 c1 mass kt) in *.
  assert (HR' : Forall range_small ranges).
  { eapply Forall_impl; [|exact HR]. intros r ([A1 A2] & [A3 A4] & A5). repeat split; assumption. }
  assert (b200 : 0 < bpow radix2 200) by apply bpow_gt_0.
  pose proof (run_ok ranges force c1 c2 mass dt (bpow radix2 10) (bpow radix2 200) 300 ltac:(lia) HR' F1 B1 F2 Fm ltac:(lra) Fd ltac:(lra)) as R.
  specialize (R ltac:(rewrite Rabs_pos_eq by lra; apply Rle_trans with (bpow radix2 100 * bpow radix2 10); [apply Rmult_le_compat_r; [apply bpow_ge_0|lra]|rewrite <- bpow_plus; apply bpow_le; lia])).
  specialize (R ltac:(apply bpow_ge_0) ltac:(lra) ltac:(apply bpow_le; lia)).
  specialize (R ltac:(apply Rle_trans with (bpow radix2 200 * bpow radix2 100); [apply Rmult_le_compat_l; lra|rewrite <- bpow_plus; apply bpow_le; lia])).
  specialize (R ltac:(apply Rle_trans with (bpow radix2 (-100) * bpow radix2 200); [rewrite <- bpow_plus; change 1 with (bpow radix2 0); apply bpow_le; lia|apply Rmult_le_compat_r; lra])).
  specialize (R ltac:(apply Rle_trans with (bpow radix2 100); [lra|apply bpow_le; lia]) ltac:(lia)).
  specialize (R (fun p Hin => HF p Hin) noises 0%Z (f_new_walker force pos)).
  destruct R as (w & E & G).
  - unfold f_new_walker, good. cbn [fw_pos fw_mom fw_forces]. split; [exact Hp|]. split; [rewrite map_length; symmetry; exact (F2_length _ _ _ Hp)|]. split; [|reflexivity].
    apply Forall_forall. intros x Hx. apply in_map_iff in Hx. destruct Hx as (? & <- & _). split; [reflexivity|]. change (val fzero) with 0. rewrite Rabs_R0, Rmult_0_l. lra.
  - lia.
  - lia.
  - exact HN.
  - exists w. unfold f_langevin. fold c1. fold c2. split; [exact E|]. destruct G as (G1 & G2 & G3 & _). split; [exact G1|]. split.
    + clear - G1 HR'. induction G1; constructor; inversion HR'; subst; [eapply inside_val; eassumption|auto].
    + split; [exact G2|]. eapply Forall_impl; [|exact G3]. intros x [Fx Bx]. split; [exact Fx|].
      replace (INR (4 * length noises)) with (IZR (0 + 4 * Z.of_nat (length noises))); [exact Bx|]. rewrite INR_IZR_INZ. f_equal. lia.
Qed.

Lemma constants_all fexp dt friction kt mass : exp_ok fexp ->
  finite dt -> bpow radix2 (-100) <= val dt <= bpow radix2 100 -> finite friction -> 0 <= val friction -> val friction * val dt <= bpow radix2 900 ->
  finite kt -> bpow radix2 (-100) <= val kt <= bpow radix2 100 -> finite mass -> bpow radix2 (-100) <= val mass <= bpow radix2 100 ->
  let c1 := f_c1 fexp friction dt in let c2 := f_c2 c1 mass kt in
  finite c1 /\ 0 <= val c1 <= 1 /\ Rabs (val c1 - exp (- (val friction * val dt / 2))) <= / 2 ^ 47 /\
  finite c2 /\ 0 <= val c2 /\
  Rabs (val c1 ^ 2 * (val mass * val kt) + val c2 ^ 2 - val mass * val kt) <= / 2 ^ 49 * (val mass * val kt).
Proof.
  intros He Fd Hd Ff Hf Hx Fk Hk Fm Hm. cbv zeta. pose proof (bpow_gt_0 radix2 (-100)) as P100.
  destruct (c1_range fexp friction dt He Ff Hf Fd ltac:(lra)) as [F1 B1]. pose proof (c1_accuracy fexp friction dt He Ff Hf Fd Hd Hx) as A.
  set (c1 := f_c1 fexp friction dt) in *. destruct (c2_val c1 mass kt F1 B1 Fm Fk) as (F2 & _ & B2); [lra|lra|].
  pose proof (c2_accuracy c1 mass kt F1 B1 Fm Fk ltac:(lra) ltac:(lra) ltac:(lra) ltac:(lra)) as C. set (c2 := f_c2 c1 mass kt) in *.
  split; [exact F1|]. split; [exact B1|]. split; [exact A|]. split; [exact F2|]. split; [lra|].
  replace (val c1 ^ 2 * (val mass * val kt) + val c2 ^ 2 - val mass * val kt) with (val c2 * val c2 - (1 - val c1 * val c1) * (val mass * val kt)) by ring. exact C.
Qed.

(** ** polynomials *)
Lemma gam_bound m : (m <= 1000)%nat -> (1 + U) ^ m - 1 <= 2 * INR m * U.
Proof.
  intros H. pose proof U_pos as HU. assert (M : INR m <= 1000) by (replace 1000 with (INR 1000) by (rewrite INR_IZR_INZ; reflexivity); now apply le_INR).
  pose proof (pos_INR m) as M0. assert (X : INR m * U <= / 2) by (apply Rle_trans with (1000 * U); [apply Rmult_le_compat_r; lra|unfold U; lra]).
  assert (X0 : 0 <= INR m * U) by (apply Rmult_le_pos; lra).
  pose proof (pow_plus_bound U m ltac:(unfold U in *; lra) ltac:(lra)) as B. set (q := (1 + U) ^ m) in *. set (t := INR m * U) in *.
  replace (2 * INR m * U) with (2 * t) by (unfold t; ring). assert (q * (1 - t) <= (1 + 2 * t) * (1 - t)) by nra. apply Rmult_le_reg_r with (1 - t); nra.
Qed.
Lemma upto_of_bounded b x : bounded (bpow radix2 b) x <-> upto b 1 x.
Proof. unfold bounded, upto. now rewrite Rmult_1_l. Qed.

Lemma T_small k : (k <= 100)%Z -> ETA * bpow radix2 k <= bpow radix2 (-900).
Proof. intros H. unfold ETA. rewrite <- bpow_plus. apply bpow_le. lia. Qed.
Lemma acc_final k T y v s n' : (k <= 2 * n')%nat -> (n' <= 100)%nat -> T <= bpow radix2 (-900) -> acc k T y v s ->
  Rabs (val y - v) <= INR n' * / 2 ^ 51 * s + bpow radix2 (-900).
Proof.
  intros Hk Hn HT [B E]. pose proof (Rabs_pos v). assert (G : (1 + U) ^ k - 1 <= INR n' * / 2 ^ 51).
  { apply Rle_trans with ((1 + U) ^ (2 * n') - 1); [pose proof (gam_mono k (2 * n') Hk); lra|]. eapply Rle_trans; [apply gam_bound; lia|].
    rewrite mult_INR. change (INR 2) with 2. pose proof (pos_INR n'). unfold U. lra. }
  assert (((1 + U) ^ k - 1) * s <= INR n' * / 2 ^ 51 * s) by (apply Rmult_le_compat_r; lra). lra.
Qed.
Lemma der_shape coeffs d : a_shape (f_polyder coeffs d) = if Nat.leb (nth d (a_shape coeffs) 0%nat) 1 then a_shape coeffs else set_nth (a_shape coeffs) d (nth d (a_shape coeffs) 0 - 1)%nat.
Proof. unfold f_polyder. destruct (Nat.leb _ 1); reflexivity. Qed.
Lemma set_nth_sum s d : (d < length s)%nat -> (total_len (set_nth s d (nth d s 0 - 1)%nat) <= total_len s)%nat.
Proof. revert d. induction s as [|m s IH]; intros [|d] H; cbn in *; try lia. specialize (IH d ltac:(lia)). unfold total_len in IH. lia. Qed.
Lemma set_nth_prod s d : (d < length s)%nat -> (prod_list (set_nth s d (nth d s 0 - 1)%nat) <= prod_list s)%nat.
Proof. revert d. induction s as [|m s IH]; intros [|d] H; cbn in *; try lia. specialize (IH d ltac:(lia)). unfold prod_list in IH. nia. Qed.
Lemma nth_sum s d : (nth d s 0%nat <= total_len s)%nat.
Proof. revert d. induction s as [|m s IH]; intros [|d]; cbn; try lia. specialize (IH d). unfold total_len in IH. lia. Qed.

Lemma size_bound a m m' : (0 <= a)%Z -> ((a + 3) * Z.of_nat m <= 100)%Z -> (m' <= m)%nat -> (0 <= Z.of_nat m' * a <= 100)%Z /\ ((a + 3) * Z.of_nat m' <= 100)%Z.
Proof. intros. split; nia. Qed.

Section Poly.
Context (a : Z) (coeffs : arr f64) (pos : list f64) (OK : poly_ok a coeffs) (L : length pos = length (a_shape coeffs)) (HP : Forall (bounded (bpow radix2 a)) pos).
Let n := fold_right Nat.add 0%nat (a_shape coeffs).
Lemma n_small : (n <= 33)%nat.
Proof using OK. clear L HP. destruct OK as (_ & _ & _ & Ha & Hn & _). fold n in Hn. nia. Qed.
Lemma coeffs_fit : coeffs_ok 40 1 coeffs.
Proof using OK. destruct OK as (_ & Hl & Hb & _). split; [|exact Hl]. eapply Forall_impl; [|exact Hb]. intros x. apply upto_of_bounded. Qed.
Lemma pos_vals : length (map val pos) = length (a_shape coeffs). Proof using L. now rewrite map_length. Qed.
Lemma pos_abs : length (map Rabs (map val pos)) = length (a_shape coeffs). Proof using L. now rewrite !map_length. Qed.

Lemma energy_all : finite (f_poly_energy coeffs pos) /\
  Rabs (val (f_poly_energy coeffs pos) - exact_poly coeffs (map val pos)) <= INR n * / 2 ^ 51 * abs_poly coeffs (map Rabs (map val pos)) + bpow radix2 (-900).
Proof using OK L HP.
  pose proof n_small as NS. pose proof coeffs_fit as CF. destruct OK as (FN & Hl & Hb & Ha & Hn & Hp).
  destruct (polyvalnd_AR a Ha pos HP 0 ETA 40 1 coeffs (vals_arr coeffs) (abs_arr coeffs) (coeffs_AR _ _ _ CF) L FN) as [R1 R2]; [lia|lia|lra| | |].
  - unfold prod_list. lia.
  - change (total_len (a_shape coeffs)) with n. fold n in Hn. pose proof (size_bound a n n Ha Hn (le_n _)). lia.
  - split; [exact (proj1 R1)|]. change (total_len (a_shape coeffs)) with n in R2.
    unfold exact_poly, abs_poly. rewrite <- (polyval_polynomial (vals_arr coeffs)), <- (polyval_polynomial (abs_arr coeffs)); try assumption; [|apply pos_abs|apply pos_vals].
    apply (acc_final _ _ _ _ _ n) in R2; [exact R2|lia|lia|]. apply T_small. exact Hn.
Qed.


Lemma force_entry d : (d < length pos)%nat -> exists F D D', nth_error (f_poly_force coeffs pos) d = Some F /\ upto 140 (2 ^ 50) F /\
  derivable_pt_lim (fun t => exact_poly coeffs (moved (map val pos) d t)) (nth d (map val pos) 0) D /\
  derivable_pt_lim (fun t => abs_poly coeffs (moved (map Rabs (map val pos)) d t)) (nth d (map Rabs (map val pos)) 0) D' /\
  Rabs (val F - - D) <= INR (n + 1) * / 2 ^ 51 * D' + bpow radix2 (-900).
Proof using OK L HP.
  intros Hd. pose proof n_small as NS. pose proof coeffs_fit as CF. destruct OK as (FN & Hl & Hb & Ha & Hn & Hp). fold n in Hn.
  assert (Hd1 : (d < length (map val pos))%nat) by (rewrite map_length; exact Hd). assert (Hd2 : (d < length (map Rabs (map val pos)))%nat) by (rewrite map_length; exact Hd1).
  rewrite L in Hd. pose proof (nth_sum (a_shape coeffs) d) as ND. change (total_len (a_shape coeffs)) with n in ND. pose proof (nth_shape _ _ FN Hd) as N1.
  assert (DA := der_AR 40 1 coeffs d ltac:(lia) ltac:(lia) CF FN Hd ltac:(lia) ltac:(lia)).
  assert (S1 : (total_len (a_shape (f_polyder coeffs d)) <= n)%nat /\ (prod_list (a_shape (f_polyder coeffs d)) <= prod_list (a_shape coeffs))%nat /\
    length (a_shape (f_polyder coeffs d)) = length (a_shape coeffs) /\ Forall (fun m => (0 < m)%nat) (a_shape (f_polyder coeffs d))).
  { rewrite der_shape. destruct (Nat.leb_spec (nth d (a_shape coeffs) 0%nat) 1).
    - split; [unfold total_len; fold n; lia|]. split; [lia|]. now split.
    - split; [now apply set_nth_sum|]. split; [now apply set_nth_prod|]. split; [apply set_nth_length|]. apply Forall_set_nth'; [exact FN|lia]. }
  destruct S1 as (S1 & S2 & S3 & S4). set (n' := total_len (a_shape (f_polyder coeffs d))) in *.
  set (Kd := (Z.of_nat (nth d (a_shape coeffs) 0%nat) * 1)%Z) in *.
  assert (KP : (Kd * Z.of_nat (prod_list (a_shape (f_polyder coeffs d))) <= 2 ^ 50)%Z).
  { apply Z.le_trans with (33 * 2 ^ 40)%Z; [|lia]. apply Z.mul_le_mono_nonneg; [lia|lia|lia|]. unfold prod_list in *. lia. }
  pose proof (size_bound a n n' Ha Hn S1) as [SB1 SB2].
  destruct (polyvalnd_AR a Ha pos HP 1 ETA 40 Kd _ _ _ DA) as [R1 R2]; [congruence|exact S4|lia|lia|lra|lia|fold n'; lia|]. fold n' in R1, R2.
  set (y := f_polyvalnd pos (f_polyder coeffs d)) in *.
  exists (fopp y), (polyvalnd (map val pos) (polyder (vals_arr coeffs) d)), (polyvalnd (map Rabs (map val pos)) (polyder (abs_arr coeffs) d)).
  split. { unfold f_poly_force. rewrite nth_error_map, nth_error_nth' with (d := 0%nat) by (rewrite seq_length; exact Hd). rewrite seq_nth by exact Hd. reflexivity. }
  split. { apply upto_opp. apply (upto_mono _ (Kd * Z.of_nat (prod_list (a_shape (f_polyder coeffs d))))); [|exact KP].
    apply (upto_exp (40 + Z.of_nat n' * a)); [lia|apply Z.mul_nonneg_nonneg; lia|exact R1]. }
  split. { rewrite polyder_value; [|apply pos_vals|exact FN|exact Hd1]. unfold exact_poly. apply (polynomial_deriv (a_shape coeffs) (map val (a_flat coeffs)) (map val pos) d); [exact Hd1|apply pos_vals]. }
  split. { rewrite polyder_value; [|apply pos_abs|exact FN|exact Hd2]. unfold abs_poly. apply (polynomial_deriv (a_shape coeffs) (map Rabs (map val (a_flat coeffs))) (map Rabs (map val pos)) d); [exact Hd2|apply pos_abs]. }
  rewrite fopp_val. apply (acc_final _ _ _ _ _ (n + 1)) in R2; [|lia|lia|apply T_small; exact SB2].
  match goal with |- Rabs (- ?u - - ?v) <= _ => replace (- u - - v) with (- (u - v)) by ring end. rewrite Rabs_Ropp. exact R2.
Qed.
Lemma force_length : length (f_poly_force coeffs pos) = length pos.
Proof using L. unfold f_poly_force. now rewrite map_length, seq_length. Qed.
Lemma force_bounded : Forall (bounded (bpow radix2 200)) (f_poly_force coeffs pos).
Proof using OK L HP.
  apply Forall_forall. intros F HI. apply In_nth_error in HI. destruct HI as (d & Hd). assert (D : (d < length pos)%nat) by (rewrite <- force_length; apply nth_error_Some; congruence).
  destruct (force_entry d D) as (F' & _ & _ & E & [Fi B] & _). rewrite Hd in E. injection E as ->. split; [exact Fi|]. eapply Rle_trans; [exact B|].
  change (IZR (2 ^ 50)) with (IZR (Zpower radix2 50)). rewrite IZR_Zpower by lia. rewrite <- bpow_plus. apply bpow_le. lia.
Qed.
End Poly.

Lemma poly_langevin fexp ranges coeffs a dt friction kt mass pos noises : exp_ok fexp ->
  finite dt -> 0 < val dt <= bpow radix2 100 -> finite friction -> 0 <= val friction ->
  finite kt -> 0 <= val kt <= bpow radix2 100 -> finite mass -> bpow radix2 (-100) <= val mass <= bpow radix2 100 ->
  poly_ok a coeffs -> length ranges = length (a_shape coeffs) ->
  Forall (fun r => bounded (bpow radix2 a) (fst r) /\ bounded (bpow radix2 a) (snd r) /\ val (fst r) <= val (snd r)) ranges ->
  Forall (fun n => noise_for ranges (fst n) /\ noise_for ranges (snd n)) noises -> (Z.of_nat (length noises) <= 2 ^ 50)%Z ->
  in_box ranges pos ->
  exists w, f_langevin fexp ranges (f_poly_force coeffs) dt friction kt mass pos noises = Ok w /\ in_box ranges (fw_pos w) /\ Forall finite (fw_pos w) /\
    length (fw_mom w) = length ranges /\ Forall (bounded (INR (4 * length noises) * bpow radix2 300)) (fw_mom w).
Proof.
  intros He Fd Hd Ff Hf Fk Hk Fm Hm OK L HR HN HL Hp. destruct (Nat.eq_dec (length (a_shape coeffs)) 0) as [Z0|NZ].
  - (* no dimension at all *) destruct ranges; [|cbn in L; lia]. apply langevin_all; try assumption; [constructor|]. intros p Hin. inversion Hin; subst. unfold f_poly_force. rewrite Z0. split; [reflexivity|constructor].
  - assert (An : (a <= 100)%Z).
    { destruct OK as (FN & _ & _ & Ha & Hn & _). assert (1 <= fold_right Nat.add 0%nat (a_shape coeffs))%nat; [|nia]. destruct (a_shape coeffs); [cbn in NZ; lia|]. inversion FN; subst. cbn. lia. }
    apply langevin_all; try assumption.
    + eapply Forall_impl; [|exact HR]. intros r ([A1 A2] & [A3 A4] & A5). assert (bpow radix2 a <= bpow radix2 900) by (apply bpow_le; lia).
      repeat split; try assumption; lra.
    + intros p Hin. assert (Lp : length p = length (a_shape coeffs)) by (rewrite <- L; symmetry; exact (F2_length _ _ _ Hin)).
      assert (HB : Forall (bounded (bpow radix2 a)) p).
      { clear - Hin HR An. induction Hin as [|r x rs xs I _ IH]; constructor; inversion HR as [|? ? ([A1 A2] & [A3 A4] & A5) HR']; subst; [|auto].
        assert (bpow radix2 a <= bpow radix2 900) by (apply bpow_le; lia).
        destruct (inside_val r x) as [Fx Bx]; [repeat split; try assumption; lra|exact I|]. split; [exact Fx|]. apply Rabs_le_inv in A2. apply Rabs_le_inv in A4. apply Rabs_le. lra. }
      split; [rewrite force_length by assumption; congruence|]. now apply (force_bounded a).
Qed.
