(** Overdamped dynamics in float64, and examples *)
From Verif Require Import Model_f64od Spec_f64step Proof_f64 Proof_f64b Proof_f64d Proof_f64f Proof_f64h Proof_f64k Proof_f64l Proof_f64m Proof_f64n Proof_f64r Proof_f64mb Proof_f64step Proof_f64step2.
From Flocq Require Import Core.Core.
From Coq Require Import Lra Lia.
Open Scope R_scope.
Ltac Zify.zify_post_hook ::= idtac.

Lemma noise_factor_val dt : finite dt -> bpow radix2 (-100) <= val dt <= bpow radix2 100 ->
  finite (f_noise_factor dt) /\ 0 <= val (f_noise_factor dt) /\ Rabs (val (f_noise_factor dt) - sqrt (2 * val dt)) <= / 2 ^ 51 * sqrt (2 * val dt) /\ sqrt (2 * val dt) <= 2 ^ 51.
Proof.
  intros F H. change (-100)%Z with (- Z.of_nat 100)%Z in H. change 100%Z with (Z.of_nat 100) in H. rewrite bpow_neg, bpow_pow in H.
  assert (P100 : 0 < / 2 ^ 100) by (apply Rinv_0_lt_compat; lra). set (d := val dt) in *.
  destruct (of_Z_small 2) as [F2 V2]; [lia|]. pose proof huge_pow as HH.
  assert (TB : forall t, / 2 ^ 100 <= t -> bpow radix2 (-1022) <= t).
  { intros t Ht. eapply Rle_trans; [|exact Ht]. rewrite <- (bpow_neg 100). apply bpow_le. lia. }
  assert (E1 : Rabs (rnd (val (f_of_Z 2) * d) - 2 * d) <= U * (2 * d)).
  { rewrite V2. pose proof (rnd_err_normal (2 * d)) as E. rewrite (Rabs_pos_eq (2 * d)) in E by lra. apply E. apply TB. lra. }
  assert (Big : 2 ^ 900 < bpow radix2 1024) by (rewrite <- (bpow_pow 900); apply bpow_lt; lia).
  assert (E1' := E1). apply Rabs_le_inv in E1'. unfold U in E1'.
  destruct (fmul_val (f_of_Z 2) dt F2 F) as [FM VM]; [fold d; apply Rabs_lt; lra|]. fold d in VM. set (v := val (fmul (f_of_Z 2) dt)) in *. rewrite <- VM in E1, E1'.
  destruct (fsqrt_val (fmul (f_of_Z 2) dt) FM) as [FS VS]; [fold v; lra|]. fold v in VS. unfold f_noise_factor. split; [exact FS|]. rewrite VS.
  assert (S0 : 0 < sqrt (2 * d)) by (apply sqrt_lt_R0; lra). assert (S1 : sqrt (2 * d) <= 2 ^ 51).
  { rewrite <- (sqrt_pow2 (2 ^ 51)) by lra. apply sqrt_le_1; lra. }
  assert (S2 : 0 <= sqrt v) by apply sqrt_pos.
  assert (D : Rabs (sqrt v - sqrt (2 * d)) <= U * sqrt (2 * d)).
  { assert (Q : (sqrt v - sqrt (2 * d)) * (sqrt v + sqrt (2 * d)) = v - 2 * d).
    { assert (sqrt v * sqrt v = v) by (apply sqrt_sqrt; lra). assert (sqrt (2 * d) * sqrt (2 * d) = 2 * d) by (apply sqrt_sqrt; lra). lra. }
    apply Rmult_le_reg_r with (sqrt v + sqrt (2 * d)); [lra|]. rewrite <- (Rabs_pos_eq (sqrt v + sqrt (2 * d))) at 1 by lra. rewrite <- Rabs_mult, Q.
    eapply Rle_trans; [exact E1|]. rewrite Rmult_assoc. apply Rmult_le_compat_l; [unfold U; lra|]. assert (sqrt (2 * d) * sqrt (2 * d) = 2 * d) by (apply sqrt_sqrt; lra).
    assert (0 <= sqrt (2 * d) * sqrt v) by (apply Rmult_le_pos; lra). lra. }
  apply Rabs_le_inv in D. set (s := sqrt (2 * d)) in *. unfold U in D.
  assert (sL : / 2 ^ 100 <= sqrt v).
  { assert (/ 2 ^ 51 <= s); [|lra]. unfold s. rewrite <- (sqrt_pow2 (/ 2 ^ 51)) by lra. apply sqrt_le_1; lra. }
  pose proof (rnd_err_normal (sqrt v)) as E2. rewrite (Rabs_pos_eq (sqrt v)) in E2 by lra. specialize (E2 (TB _ sL)). apply Rabs_le_inv in E2. unfold U in E2.
  split; [|split; [apply Rabs_le|exact S1]]; lra.
Qed.

Section Coordinate.
Context (dt : f64) (Fdt : finite dt) (Hdt : bpow radix2 (-100) <= val dt <= bpow radix2 100).
Let nf := f_noise_factor dt.
Lemma od_near x F n : bounded (2 ^ 200) x -> bounded (2 ^ 200) F -> bounded (2 ^ 10) n ->
  let B := Rabs (val x) + (val dt * Rabs (val F) + sqrt (2 * val dt) * Rabs (val n)) in
  near B (/ 2 ^ 49 * B + 2 ^ 400 * ETA) (fadd x (fadd (fmul dt F) (fmul nf n))) (val x + (val dt * val F + sqrt (2 * val dt) * val n)).
Proof using All.
  intros [Fx Hx] [FF HF] [Fn Hn] B. destruct (noise_factor_val dt Fdt Hdt) as (FN & N0 & NE & NS). fold nf in FN, N0, NE.
  change (-100)%Z with (- Z.of_nat 100)%Z in Hdt. change 100%Z with (Z.of_nat 100) in Hdt. rewrite bpow_neg, bpow_pow in Hdt.
  pose proof eta_num as HE. pose proof huge_pow as HH. assert (P100 : 0 < / 2 ^ 100) by (apply Rinv_0_lt_compat; lra).
  assert (S0 : 0 <= sqrt (2 * val dt)) by apply sqrt_pos.
  assert (M1 : near (val dt) 0 dt (val dt)) by (apply near_exact; [exact Fdt|reflexivity|rewrite Rabs_pos_eq; lra]).
  assert (M2 : near (Rabs (val F)) 0 F (val F)) by (apply near_exact; [exact FF|reflexivity|lra]).
  assert (M3 : near (Rabs (val n)) 0 n (val n)) by (apply near_exact; [exact Fn|reflexivity|lra]).
  assert (M4 : near (Rabs (val x)) 0 x (val x)) by (apply near_exact; [exact Fx|reflexivity|lra]).
  assert (M5 : near (sqrt (2 * val dt)) (/ 2 ^ 51 * sqrt (2 * val dt)) nf (sqrt (2 * val dt))) by (split; [exact FN|split; [exact NE|rewrite Rabs_pos_eq; lra]]).
  pose proof (Rabs_pos (val x)) as A1. pose proof (Rabs_pos (val F)) as A2. pose proof (Rabs_pos (val n)) as A3. unfold B.
  set (xx := Rabs (val x)) in *. set (ff := Rabs (val F)) in *. set (nn := Rabs (val n)) in *. set (s := sqrt (2 * val dt)) in *. set (d := val dt) in *.
  assert (Q1 : 0 <= d * ff <= 2 ^ 100 * 2 ^ 200) by (split; [apply Rmult_le_pos; lra|apply Rmult_le_compat; lra]).
  assert (Q2 : 0 <= s * nn <= 2 ^ 51 * 2 ^ 10) by (split; [apply Rmult_le_pos; lra|apply Rmult_le_compat; lra]).
  assert (K1 : near (d * ff) (U * (d * ff) + ETA) (fmul dt F) (d * val F)) by (eapply near_weak; [apply (near_mul _ _ _ _ _ _ _ _ M1 M2); lra|lra|unfold U; lra]).
  assert (K2 : near (s * nn) (6 * U * (s * nn) + ETA) (fmul nf n) (s * val n)) by (eapply near_weak; [apply (near_mul _ _ _ _ _ _ _ _ M5 M3); lra|lra|unfold U; lra]).
  assert (K3 : near (d * ff + s * nn) (8 * U * (d * ff + s * nn) + 4 * ETA) (fadd (fmul dt F) (fmul nf n)) (d * val F + s * val n)) by (eapply near_weak; [apply (near_add _ _ _ _ _ _ _ _ K1 K2); unfold U; lra|lra|unfold U; lra]).
  set (df := d * ff) in *. set (sn := s * nn) in *. clearbody df sn. pose proof (near_add _ _ _ _ _ _ _ _ M4 K3) as L.
  eapply near_weak; [apply L; unfold U; lra|lra|unfold U; lra].
Qed.

Lemma od_step ranges force w noise : ranges_ok ranges -> in_box ranges (fw_pos w) -> length (fw_mom w) = length ranges -> forces_ok ranges (fw_forces w) -> noise_for ranges noise ->
  exists w', f_od_update ranges force nf dt w noise = Ok w' /\ in_box ranges (fw_pos w') /\ fw_forces w' = force (fw_pos w') /\ length (fw_mom w') = length ranges /\
  forall i r x F n, nth_error ranges i = Some r -> nth_error (fw_pos w) i = Some x -> nth_error (fw_forces w) i = Some F -> nth_error noise i = Some n ->
    exists x', nth_error (fw_pos w') i = Some x' /\
    Rabs (val x' - clamped (val (fst r)) (val (snd r)) (val x + (val dt * val F + sqrt (2 * val dt) * val n))) <=
      / 2 ^ 49 * (Rabs (val x) + (val dt * Rabs (val F) + sqrt (2 * val dt) * Rabs (val n))) + bpow radix2 (-600).
Proof using All.
  intros HR HB Lm [LF HFo] [Ln Hn]. destruct (F2_at _ _ _ HB) as [Lp HBi].
  set (pos1 := fmap2 fadd (fw_pos w) (fmap2 fadd (map (fmul dt) (fw_forces w)) (map (fmul nf) noise))).
  assert (LP1 : length pos1 = length ranges) by (unfold pos1; repeat apply len_fmap2; rewrite ?map_length; congruence).
  destruct (reflect_near ranges pos1 (fw_mom w) HR (eq_sym LP1) ltac:(congruence)) as (pos2 & mom2 & E & LP2 & LM2 & HRf).
  assert (K : forall i r x F n, nth_error ranges i = Some r -> nth_error (fw_pos w) i = Some x -> nth_error (fw_forces w) i = Some F -> nth_error noise i = Some n ->
    let xf := fadd x (fadd (fmul dt F) (fmul nf n)) in nth_error pos1 i = Some xf /\ bounded (2 ^ 200) x /\ bounded (2 ^ 200) F /\ bounded (2 ^ 10) n /\ finite xf).
  { intros i r x F n G1 G2 G4 G5 xf. destruct (ranges_nth _ _ _ HR G1) as (Fl & Fh & Lr & Al & Ah).
    assert (Bx : bounded (2 ^ 200) x).
    { pose proof (HBi i r x G1 G2) as I. destruct r as [lo hi]. destruct (inside_fin _ _ _ Fl Fh I) as [Fx Hx]. cbn [fst snd] in *. split; [exact Fx|]. apply Rabs_le_inv in Al, Ah. apply Rabs_le. lra. }
    assert (BF : bounded (2 ^ 200) F) by exact (bounded_nth 200 _ _ _ HFo G4). assert (Ba : bounded (2 ^ 10) n) by exact (bounded_nth 10 _ _ _ Hn G5).
    split. { unfold pos1, xf. apply nth_fmap2; [exact G2|]. apply nth_fmap2; now apply map_nth_error. }
    split; [exact Bx|]. split; [exact BF|]. split; [exact Ba|]. destruct (od_near x F n Bx BF Ba) as [FX _]. exact FX. }
  assert (HM : forall i, (i < length ranges)%nat -> exists x m F n, nth_error (fw_pos w) i = Some x /\ nth_error (fw_mom w) i = Some m /\ nth_error (fw_forces w) i = Some F /\ nth_error noise i = Some n).
  { intros i Hi. destruct (nth_some (fw_pos w) i (length ranges)) as [x G2]; [congruence|exact Hi|]. destruct (nth_some (fw_mom w) i (length ranges)) as [m G3]; [congruence|exact Hi|].
    destruct (nth_some (fw_forces w) i (length ranges)) as [F G4]; [congruence|exact Hi|]. destruct (nth_some noise i (length ranges)) as [a G5]; [congruence|exact Hi|]. exists x, m, F, a. tauto. }
  exists (mkFW pos2 mom2 (force pos2)). unfold f_od_update. fold pos1. rewrite E. cbn [bind fw_pos fw_mom fw_forces]. split; [reflexivity|].
  split. { apply F2_of_nth; [congruence|]. intros i r x' G1 X1. destruct (HM i ltac:(apply nth_error_Some; congruence)) as (x & m & F & n & G2 & G3 & G4 & G5).
    destruct (K i r x F n G1 G2 G4 G5) as (M2 & _ & _ & _ & FX). destruct (HRf i r _ _ G1 M2 G3 FX) as (x2 & m2 & E1 & _ & I & _). congruence. }
  split; [reflexivity|]. split; [congruence|]. intros i r x F n G1 G2 G4 G5. destruct (HM i ltac:(apply nth_error_Some; congruence)) as (_ & m & _ & _ & _ & G3 & _).
  destruct (K i r x F n G1 G2 G4 G5) as (M2 & Bx & BF & Bn & FX). destruct (HRf i r _ _ G1 M2 G3 FX) as (x' & m2 & X1 & _ & _ & X4 & _).
  exists x'. split; [exact X1|]. rewrite X4. destruct (ranges_nth _ _ _ HR G1) as (_ & _ & Lr & _). apply clamped_lip; [exact Lr|].
  destruct (od_near x F n Bx BF Bn) as (_ & NE & _). pose proof eta_pow. lra.
Qed.

Lemma od_run ranges force pos noises : ranges_ok ranges -> (forall p, in_box ranges p -> forces_ok ranges (force p)) -> in_box ranges pos -> Forall (noise_for ranges) noises ->
  exists w, f_overdamped ranges force dt pos noises = Ok w /\ in_box ranges (fw_pos w) /\ Forall finite (fw_pos w) /\ fw_forces w = force (fw_pos w).
Proof using All.
  intros HR HF HB HN. unfold f_overdamped. fold nf.
  assert (FIN : forall p, in_box ranges p -> Forall finite p).
  { intros p Hp. destruct (F2_at _ _ _ Hp) as [Lp Hi]. apply Forall_forall. intros x Hx. apply In_nth_error in Hx. destruct Hx as [i Ei].
    destruct (nth_some ranges i (length p) Lp) as [[lo hi] G]; [apply nth_error_Some; congruence|]. destruct (ranges_nth _ _ _ HR G) as (Fl & Fh & _). exact (proj1 (inside_fin lo hi x Fl Fh (Hi _ _ _ G Ei))). }
  assert (GEN : forall w, in_box ranges (fw_pos w) -> length (fw_mom w) = length ranges -> fw_forces w = force (fw_pos w) ->
    exists w', f_od_steps ranges force nf dt w noises = Ok w' /\ in_box ranges (fw_pos w') /\ fw_forces w' = force (fw_pos w')).
  { clear HB pos. induction HN as [|n noises Hn _ IH]; intros w H1 H2 H3; [exists w; split; [reflexivity|split; assumption]|].
    destruct (od_step ranges force w n HR H1 H2 ltac:(rewrite H3; now apply HF) Hn) as (w' & E & K1 & K2 & K3 & _). cbn [f_od_steps]. rewrite E. cbn [bind]. apply IH; assumption. }
  destruct (GEN (f_new_walker force pos)) as (w & E & K1 & K2).
  - exact HB.
  - unfold f_new_walker. cbn [fw_mom]. rewrite ?map_length, ?repeat_length. symmetry. exact (proj1 (F2_at _ _ _ HB)).
  - reflexivity.
  - exists w. split; [exact E|]. split; [exact K1|]. split; [now apply FIN|exact K2].
Qed.
End Coordinate.

(** the force -x between -3 and 3 *)
Definition step_ranges : list (f64 * f64) := [(f_of_Z (-3), f_of_Z 3)].
Lemma step_case : let dt := fmake 1 (-7) in let w := mkFW [fhalf] [f_of_Z (-1)] [fopp fhalf] in
  ranges_ok step_ranges /\ (forall p, in_box step_ranges p -> forces_ok step_ranges (map fopp p)) /\
  finite fhalf /\ 0 <= val fhalf <= 1 /\ finite (f_of_Z 1) /\ 0 <= val (f_of_Z 1) <= bpow radix2 120 /\ bpow radix2 (-100) <= val (f_of_Z 1) /\
  finite dt /\ bpow radix2 (-100) <= val dt <= bpow radix2 100 /\
  in_box step_ranges (fw_pos w) /\ length (fw_mom w) = length step_ranges /\ Forall (bounded (bpow radix2 400)) (fw_mom w) /\ forces_ok step_ranges (fw_forces w) /\
  noise_for step_ranges [fhalf].
Proof.
  cbv zeta. cbn [fw_pos fw_mom fw_forces]. destruct fhalf_val as [Fh Vh]. destruct (of_Z_small 1) as [F1 V1]; [lia|]. destruct (of_Z_small 3) as [F3 V3]; [lia|]. destruct (of_Z_small (-3)) as [F3' V3']; [lia|].
  destruct (of_Z_small (-1)) as [F1' V1']; [lia|].
  assert (P : forall k, 1 <= bpow radix2 (Z.of_nat k)) by (intros k; change 1 with (bpow radix2 0); apply bpow_le; lia).
  assert (P200 : 4 <= bpow radix2 200) by (change 4 with (bpow radix2 2); apply bpow_le; lia). pose proof (P 10%nat) as P10. pose proof (P 120%nat) as P120. pose proof (P 400%nat) as P400.
  assert (M100 : bpow radix2 (-100) <= 1) by (change 1 with (bpow radix2 0); apply bpow_le; lia).
  assert (BX : in_box step_ranges [fhalf]).
  { unfold in_box, step_ranges. apply Forall2_cons; [|apply Forall2_nil]. unfold inside. cbn [fst snd]. split; apply fle_val; try assumption; rewrite Vh, ?V3, ?V3'; lra. }
  assert (RO : ranges_ok step_ranges).
  { unfold ranges_ok, step_ranges. apply Forall_cons; [|apply Forall_nil]. cbn [fst snd]. split; [split; [exact F3'|rewrite V3', Rabs_left; lra]|]. split; [split; [exact F3|rewrite V3, Rabs_pos_eq; lra]|]. rewrite V3, V3'. lra. }
  assert (FO : forall p, in_box step_ranges p -> forces_ok step_ranges (map fopp p)).
  { intros p Hp. destruct (F2_at _ _ _ Hp) as [Lp Hi]. split; [rewrite map_length; congruence|]. apply Forall_forall. intros y Hy. apply in_map_iff in Hy. destruct Hy as (x & <- & Hx).
    apply In_nth_error in Hx. destruct Hx as [i Ei]. destruct (nth_some step_ranges i (length p) Lp) as [[lo hi] G]; [apply nth_error_Some; congruence|].
    destruct (ranges_nth _ _ _ RO G) as (Fl & Fhh & _). destruct (inside_fin lo hi x Fl Fhh (Hi _ _ _ G Ei)) as [Fx Hx].
    assert (R : Some (lo, hi) = Some (f_of_Z (-3), f_of_Z 3)) by (destruct i as [|[|i]]; [symmetry; exact G|discriminate G..]). assert (R1 : lo = f_of_Z (-3)) by congruence. assert (R2 : hi = f_of_Z 3) by congruence. rewrite R1, R2, V3, V3' in Hx.
    split; [now apply fopp_finite|]. rewrite fopp_val, Rabs_Ropp. apply Rabs_le. lra. }
  split; [exact RO|]. split; [exact FO|]. split; [exact Fh|]. split; [rewrite Vh; lra|]. split; [exact F1|]. rewrite V1. split; [change 120%Z with (Z.of_nat 120); lra|]. split; [exact M100|].
  destruct (fmake_val 1 (-7)) as [F7 V7]; [lia|lia|]. split; [exact F7|]. split; [rewrite V7, Rmult_1_l; split; apply bpow_le; lia|]. split; [exact BX|]. split; [reflexivity|].
  split. { apply Forall_cons; [|apply Forall_nil]. split; [exact F1'|]. rewrite V1', Rabs_left by lra. change 400%Z with (Z.of_nat 400). lra. }
  split; [exact (FO [fhalf] BX)|]. split; [reflexivity|]. apply Forall_cons; [|apply Forall_nil]. split; [exact Fh|]. rewrite Vh, Rabs_pos_eq by lra. change 10%Z with (Z.of_nat 10). lra.
Qed.
