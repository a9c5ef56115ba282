(** Statements in the form of Prop_f64.v and cases *)
From Verif Require Import Spec_f64 Proof_f64 Proof_f64b Proof_f64c Proof_f64d Proof_f64e Proof_f64f Proof_f64g Proof_base.
From Flocq Require Import Core.Core.
From Coq Require Import Lia Lra.
Open Scope R_scope.

#[local] Arguments bpow : simpl never.

Lemma Z_vals z : (Z.abs z <= 2 ^ 53)%Z -> finite (f_of_Z z) /\ val (f_of_Z z) = IZR z.
Proof. exact (f_of_Z_val z). Qed.

Lemma big e : (7 <= e)%Z -> 128 <= bpow radix2 e.
Proof. intros H. change 128 with (bpow radix2 7). now apply bpow_le. Qed.

Lemma counts_case : let fractions := [f_of_Z 1; f_of_Z 3] in sums left_sum /\
  Forall (fun f => finite f /\ 0 <= val f) fractions /\ 0 < vsum fractions < bpow radix2 1023 /\
  (10 * Z.of_nat (2 * length fractions + 4) <= 2 ^ 50)%Z /\
  f_fraction_counts left_sum fractions 10 = Ok [3; 7]%Z /\
  forall k, IZR 10 * INR (2 * length fractions + 4) * / 2 ^ 52 + / 2 ^ 100 < Rabs (IZR 10 * (val (f_of_Z 3) / vsum fractions) - IZR k).
Proof.
  intros fr. destruct (Z_vals 1) as [F1 V1]; [lia|]. destruct (Z_vals 3) as [F3 V3]; [lia|].
  assert (S : vsum fr = 4) by (unfold fr, vsum, fold_right; rewrite V1, V3; lra).
  split; [exact left_sum_sums|]. split.
  { unfold fr. repeat constructor; try assumption; rewrite ?V1, ?V3; lra. }
  rewrite S, V3. pose proof (big 1023 ltac:(lia)). split; [lra|]. split; [cbn; lia|]. split; [vm_compute; reflexivity|].
  intros k. replace (INR (2 * length fr + 4)) with 8 by (unfold fr; simpl; lra).
  assert (Y : / 2 ^ 100 <= / 8) by (apply Rinv_le_contravar; [lra|]; replace 8 with (2 ^ 3) by lra; apply Rle_pow; [lra|lia]).
  assert (Q : / 2 <= Rabs (IZR 10 * (3 / 4) - IZR k)).
  { destruct (Z_le_gt_dec k 7) as [L | G].
    - apply IZR_le in L. rewrite Rabs_pos_eq; lra.
    - assert (8 <= k)%Z by lia. apply IZR_le in H0. rewrite Rabs_left; lra. }
  lra.
Qed.

Lemma bp_run_inside_any ranges force c1 c2 mass dt noises w w' :
  Forall range_ok ranges -> noises <> [] -> f_bp_run ranges force c1 c2 mass dt w noises = Ok w' ->
  forall i x, nth_error (fw_pos w') i = Some x -> exists r, nth_error ranges i = Some r /\ (inside r x \/ is_nan x = true).
Proof. exact (bp_run_inside ranges force c1 c2 mass dt noises w w'). Qed.

Lemma reflective_case : let ranges := [(f_of_Z (-1), f_of_Z 1)] in
  Forall range_ok ranges /\
  f_bc_reflective ranges [f_of_Z 3] [f_of_Z 2] = Ok ([f_of_Z 1], [fopp (f_of_Z 2)]) /\
  match f_bp_run ranges (fun _ => [fzero]) (f_of_Z 1) fzero (f_of_Z 1) (f_of_Z 1) (mkFW [fzero] [f_of_Z 2] [fzero])
    [([fzero], [fzero]); ([fzero], [fzero])] with Ok w => map (feq (f_of_Z (-1))) (fw_pos w) | Err _ => [] end = [true].
Proof.
  intros rs. split; [constructor; [vm_compute; reflexivity|constructor]|]. split.
  - unfold rs. cbn [f_bc_reflective bind].
    replace (flt (f_of_Z 3) (f_of_Z (-1))) with false by (vm_compute; reflexivity).
    replace (flt (f_of_Z 1) (f_of_Z 3)) with true by (vm_compute; reflexivity). reflexivity.
  - vm_compute. reflexivity.
Qed.

Lemma periodic_case : let lo := f_of_Z (-1) in let hi := f_of_Z 3 in let x := f_of_Z 5 in
  finite lo /\ finite hi /\ finite x /\ val lo <= val hi /\ Rabs (val lo) + Rabs (val hi) <= bpow radix2 1022 /\
  val lo - (val hi - val lo) <= val x <= val hi + (val hi - val lo) /\ val hi < val x /\
  match f_bc_periodic [(lo, hi)] [x] [fzero] with Ok (p, _) => map (feq (f_of_Z 1)) p | Err _ => [] end = [true].
Proof.
  intros lo hi x. destruct (Z_vals (-1)) as [F1 V1]; [lia|]. destruct (Z_vals 3) as [F3 V3]; [lia|]. destruct (Z_vals 5) as [F5 V5]; [lia|].
  assert (G : match f_bc_periodic [(lo, hi)] [x] [fzero] with Ok (p, _) => map (feq (f_of_Z 1)) p | Err _ => [] end = [true]) by (vm_compute; reflexivity).
  change (f_of_Z (-1)) with lo in F1, V1. change (f_of_Z 3) with hi in F3, V3. change (f_of_Z 5) with x in F5, V5. clearbody lo hi x.
  do 3 (split; [assumption|]). rewrite V1, V3, V5.
  pose proof (big 1022 ltac:(lia)). rewrite (Rabs_left (-1)), (Rabs_pos_eq 3) by lra.
  do 4 (split; [lra|]). exact G.
Qed.

Lemma fes_all flog kt data cmax : log_ok flog -> finite kt -> 0 < val kt <= bpow radix2 1000 ->
  Forall (fun c => (0 <= c <= 2 ^ 53)%Z) data ->
  In cmax data -> (0 < cmax)%Z -> (forall c, In c data -> (c <= cmax)%Z) ->
  exists fes, f_fes flog kt data = Ok fes /\ length fes = length data /\
    (forall i c x, nth_error data i = Some c -> nth_error fes i = Some x ->
      (c = 0%Z -> x = finf) /\
      ((0 < c)%Z -> finite x /\ 0 <= val x /\
        Rabs (val x - val kt * (ln (IZR cmax) - ln (IZR c))) <= val kt * / 2 ^ 40 + / 2 ^ 200)) /\
    (exists i x c, nth_error fes i = Some x /\ nth_error data i = Some c /\ (0 < c)%Z /\ val x = 0).
Proof. intros H1 H2 H3 H4. exact (fes_main flog kt H1 H2 H3 data H4 cmax). Qed.

Lemma fes_case : exists flog, log_ok flog /\ finite (f_of_Z 2) /\ 0 < val (f_of_Z 2) <= bpow radix2 1000 /\
  Forall (fun c => (0 <= c <= 2 ^ 53)%Z) [3; 0; 5]%Z /\ In 5%Z [3; 0; 5]%Z /\ forall c, In c [3; 0; 5]%Z -> (c <= 5)%Z.
Proof.
  destruct log_ok_inhabited as [flog H]. exists flog. split; [exact H|]. destruct (Z_vals 2) as [F V]; [lia|].
  split; [exact F|]. pose proof (big 1000 ltac:(lia)). split; [rewrite V; lra|].
  split; [repeat constructor; lia|]. split; [cbn; tauto|]. intros c [<- | [<- | [<- | []]]]; lia.
Qed.

Lemma time_all dt k : finite dt -> bpow radix2 (-1022) <= val dt ->
  (1 <= k <= 2 ^ 53)%Z -> IZR k * val dt < bpow radix2 1023 ->
  finite (f_time dt k) /\ Rabs (val (f_time dt k) - IZR k * val dt) <= / 2 ^ 53 * (IZR k * val dt).
Proof. intros H1 H2. exact (time_val dt H1 H2 k). Qed.
Lemma time_increasing_all dt k k' : finite dt -> bpow radix2 (-1022) <= val dt ->
  (1 <= k < k')%Z -> (k' <= 2 ^ 52)%Z -> IZR k' * val dt < bpow radix2 1023 ->
  flt (f_time dt k) (f_time dt k') = true.
Proof. intros H1 H2. exact (time_increasing dt H1 H2 k k'). Qed.

Lemma time_case : let dt := fmake 5764607523034235 (-60) in
  finite dt /\ bpow radix2 (-1022) <= val dt /\ (1 <= 999999999999 < 1000000000000)%Z /\ (1000000000000 <= 2 ^ 52)%Z /\
  IZR 1000000000000 * val dt < bpow radix2 1023.
Proof.
  intros dt. assert (F : finite dt) by (vm_compute; reflexivity). split; [exact F|].
  set (a := fmake 1 (-8)). set (b := fmake 1 (-7)).
  assert (Ha : flt a dt = true) by (vm_compute; reflexivity). assert (Hb : flt dt b = true) by (vm_compute; reflexivity).
  assert (Va : val a = / 2 ^ 8) by (change (val a) with (IZR 4503599627370496 * / IZR 1152921504606846976); lra).
  assert (Vb : val b = / 2 ^ 7) by (change (val b) with (IZR 4503599627370496 * / IZR 576460752303423488); lra).
  apply flt_val in Ha; [|reflexivity|exact F]. apply flt_val in Hb; [|exact F|reflexivity].
  rewrite Va in Ha. rewrite Vb in Hb.
  split.
  { apply Rle_trans with (/ 2 ^ 8); [|lra]. rewrite (pow2_bpow 8), <- bpow_opp. apply bpow_le. lia. }
  split; [lia|]. split; [lia|]. apply Rlt_le_trans with (2 ^ 50); [lra|]. rewrite (pow2_bpow 50). apply bpow_le. lia.
Qed.

Lemma prob_all fexp dt rate beta : exp_ok fexp -> finite dt -> 0 < val dt -> finite rate -> 0 < val rate -> finite beta ->
  let p := f_event_prob fexp dt rate beta in finite p /\ 0 <= val p <= 1 /\ (val beta = 0 -> val p = 0).
Proof.
  intros HX Fd Hd Fr Hr Fb p. destruct (prob_range fexp dt rate beta HX Fd Hd Fr Hr Fb) as [A B].
  split; [exact A|]. split; [exact B|]. intros H0. now apply prob_zero_beta.
Qed.

Lemma prob_case : exists fexp, exp_ok fexp /\ let dt := fmake 1 (-4) in let rate := f_of_Z 1 in let beta := f_of_Z (-3) in
  finite dt /\ 0 < val dt /\ finite rate /\ 0 < val rate /\ finite beta /\ bpow radix2 (-100) <= val rate <= bpow radix2 100 /\
  0 < Rabs (val beta) * val dt * val rate <= bpow radix2 900.
Proof.
  destruct exp_ok_inhabited as [fexp H]. exists fexp. split; [exact H|]. intros dt rate beta.
  destruct (Z_vals 1) as [F1 V1]; [lia|]. destruct (Z_vals (-3)) as [F3 V3]; [lia|]. fold rate in F1, V1. fold beta in F3, V3.
  assert (Vd : val dt = / 16) by (change (val dt) with (IZR 4503599627370496 * / IZR 72057594037927936); lra).
  rewrite V1, V3, Vd. rewrite (Rabs_left (-3)) by lra. pose proof (big 900 ltac:(lia)). pose proof (big 100 ltac:(lia)).
  assert (bpow radix2 (-100) <= bpow radix2 0) by (apply bpow_le; lia). change (bpow radix2 0) with 1 in H2.
  split; [vm_compute; reflexivity|]. split; [lra|]. split; [exact F1|]. split; [lra|]. split; [exact F3|]. split; lra.
Qed.
