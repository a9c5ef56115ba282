(** Birth-death rates in float64 arithmetic (C93) *)
From Verif Require Import Spec_f64bd Proof_base Proof_f64 Proof_f64b Proof_f64f Proof_f64s Proof_f64t Proof_f64u Proof_f64v.
From Flocq Require Import Core.Core.
From Coq Require Import Lia Lra.
Open Scope R_scope.
Ltac Zify.zify_post_hook ::= idtac.
#[local] Arguments bpow : simpl never.

Lemma ln_le_sub x : 0 < x -> ln x <= x - 1.
Proof. intros H. pose proof (exp_ineq1_le (ln x)) as E. rewrite exp_ln in E by exact H. lra. Qed.
Lemma ln_quot x y : 0 < x -> 0 < y -> ln (x / y) = ln x - ln y.
Proof. intros Hx Hy. unfold Rdiv. rewrite ln_mult, ln_Rinv by (try apply Rinv_0_lt_compat; assumption). lra. Qed.
Lemma ln_close d D t : 0 < D -> 0 <= t <= / 2 -> Rabs (d - D) <= t * D -> Rabs (ln d - ln D) <= 2 * t.
Proof.
  intros PD Ht H. apply Rabs_le_inv in H. assert (HD : t * D <= / 2 * D) by (apply Rmult_le_compat_r; lra).
  assert (Pd : 0 < d) by lra. rewrite <- ln_quot by assumption.
  assert (Q : 0 < d / D) by (apply Rdiv_lt_0_compat; assumption).
  assert (Q1 : d / D <= 1 + t) by (apply (Rmult_le_reg_r D); [exact PD|]; unfold Rdiv; rewrite Rmult_assoc, Rinv_l by lra; lra).
  pose proof (ln_le_sub _ Q) as L1.
  assert (Q' : 0 < D / d) by (apply Rdiv_lt_0_compat; assumption).
  assert (L2 : - ln (d / D) <= D / d - 1).
  { replace (- ln (d / D)) with (ln (D / d)) by (rewrite !ln_quot by assumption; lra). now apply ln_le_sub. }
  assert (Q2 : D / d <= 1 + 2 * t).
  { apply (Rmult_le_reg_r d); [exact Pd|]. unfold Rdiv; rewrite Rmult_assoc, Rinv_l by lra.
    assert (0 <= t * (d - / 2 * D)) by (apply Rmult_le_pos; lra). nra. }
  apply Rabs_le. lra.
Qed.
Lemma ln_bpow_bound D : bpow radix2 (-336) <= D <= bpow radix2 297 -> Rabs (ln D) <= 320.
Proof.
  intros [H1 H2]. pose proof (bpow_gt_0 radix2 (-336)) as P.
  assert (L2 : 0 < ln 2 < 95 / 100).
  { split; [pose proof ln_lt_2; lra|]. apply exp_lt_inv. rewrite exp_ln by lra.
    replace (95 / 100) with (95 / 200 + 95 / 200) by lra. rewrite exp_plus.
    pose proof (exp_ineq1 (95 / 200) ltac:(lra)) as E. apply Rlt_le_trans with ((1 + 95 / 200) * (1 + 95 / 200)); [lra|]. apply Rmult_le_compat; lra. }
  assert (LB : forall e, ln (bpow radix2 e) = IZR e * ln 2).
  { intros e. rewrite bpow_powerRZ, powerRZ_Rpower by (cbn; lra). unfold Rpower. apply ln_exp. }
  assert (G1 : ln (bpow radix2 (-336)) <= ln D) by (destruct H1 as [H1 | <-]; [left; now apply ln_increasing | right; reflexivity]).
  assert (G2 : ln D <= ln (bpow radix2 297)) by (destruct H2 as [H2 | ->]; [left; apply ln_increasing; lra | right; reflexivity]).
  rewrite LB in G1, G2. apply Rabs_le. lra.
Qed.

Lemma fmap2_inv op a b i x : nth_error (fmap2 op a b) i = Some x ->
  exists y z, nth_error a i = Some y /\ nth_error b i = Some z /\ x = op y z.
Proof.
  revert b i. induction a as [|y a IH]; intros [|z b] [|i] H; cbn in H; try discriminate H.
  - injection H as <-. exists y, z. auto.
  - exact (IH b i H).
Qed.
Lemma fmap2_len op a b : length a = length b -> length (fmap2 op a b) = length a.
Proof. revert b. induction a as [|y a IH]; intros [|z b] H; try discriminate H; [reflexivity|]. cbn. f_equal. apply IH. now injection H. Qed.

(** log of the density plus a term *)
Lemma raw_val flog d D t T n M : log_all_ok flog -> finite d -> 0 < val d -> 1 <= n <= 1073741824 -> 0 <= M <= bpow radix2 300 ->
  Rabs (val d - D) <= n * / 2 ^ 43 * D -> bpow radix2 (-336) <= D <= bpow radix2 297 ->
  finite t -> Rabs (val t - T) <= 4 * U * M + ETA -> Rabs T <= M ->
  finite (fadd (flog d) t) /\ Rabs (val (fadd (flog d) t) - (ln D + T)) <= n * / 2 ^ 42 + / 2 ^ 40 + 7 * U * M /\ Rabs (ln D + T) <= 320 + M.
Proof.
  intros HL Fd Pd Hn HM Hd HD Ft Ht HT.
  pose proof (bpow_gt_0 radix2 (-336)) as P0. assert (PD : 0 < D) by lra.
  assert (L1 := ln_close (val d) D (n * / 2 ^ 43) PD ltac:(lra) Hd).
  pose proof (ln_bpow_bound D HD) as L2.
  destruct (HL d Fd Pd) as [Fl El]. set (l := val (flog d)) in *. set (lD := ln D) in *. set (ld := ln (val d)) in *.
  assert (L3 : Rabs ld <= 321).
  { replace ld with ((ld - lD) + lD) by lra. eapply Rle_trans; [apply Rabs_triang|]. lra. }
  assert (E1 : Rabs (l - lD) <= 2 * (n * / 2 ^ 43) + / 2 ^ 41).
  { replace (l - lD) with ((l - ld) + (ld - lD)) by lra. eapply Rle_trans; [apply Rabs_triang|]. lra. }
  pose proof U_pos as HU. pose proof ETA_pos as HE. pose proof U_small as US. assert (UV : U = / 2 ^ 53) by reflexivity.
  assert (EU : ETA <= U * / 1024) by (rewrite U_bpow; change (/ 1024) with (bpow radix2 (-10)); rewrite <- bpow_plus; unfold ETA; apply bpow_le; lia).
  assert (UM : U * 1048576 * M <= 1 * M) by (apply Rmult_le_compat_r; lra).
  assert (T1 : Rabs (val t) <= M + 4 * U * M + ETA).
  { replace (val t) with ((val t - T) + T) by lra. eapply Rle_trans; [apply Rabs_triang|]. lra. }
  assert (L4 : Rabs l <= 321).
  { replace l with ((l - lD) + lD) by lra. eapply Rle_trans; [apply Rabs_triang|]. lra. }
  assert (S1 : Rabs (l + val t) <= 322 + 2 * M) by (eapply Rle_trans; [apply Rabs_triang|]; lra).
  pose proof (rnd_plus_err (flog d) t) as E2. fold l in E2.
  assert (S2 : U * Rabs (l + val t) <= U * (322 + 2 * M)) by (apply Rmult_le_compat_l; lra).
  assert (S3 : Rabs ((l + val t) - (lD + T)) <= 2 * (n * / 2 ^ 43) + / 2 ^ 41 + 4 * U * M + ETA).
  { replace ((l + val t) - (lD + T)) with ((l - lD) + (val t - T)) by lra. eapply Rle_trans; [apply Rabs_triang|]. lra. }
  assert (B1 : 1024 <= bpow radix2 300) by (change 1024 with (bpow radix2 10); apply bpow_le; lia).
  assert (B2 : bpow radix2 300 * 16 <= bpow radix2 900).
  { change (bpow radix2 300 * bpow radix2 4 <= bpow radix2 900). rewrite <- bpow_plus. apply bpow_le. lia. }
  destruct (fadd_val (flog d) t Fl Ft) as [F V].
  { fold l. apply small_max. replace (rnd (l + val t)) with ((rnd (l + val t) - (l + val t)) + (l + val t)) by lra. eapply Rle_trans; [apply Rabs_triang|]. lra. }
  split; [exact F|]. rewrite V. fold l. split.
  - replace (rnd (l + val t) - (lD + T)) with ((rnd (l + val t) - (l + val t)) + ((l + val t) - (lD + T))) by lra.
    eapply Rle_trans; [apply Rabs_triang|].
    replace (n * / 2 ^ 42) with (2 * (n * / 2 ^ 43)) by field. assert (0 <= U * M) by (apply Rmult_le_pos; lra). lra.
  - eapply Rle_trans; [apply Rabs_triang|]. lra.
Qed.

(** energies in units of kt *)
Lemma energy_val e kt M : finite e -> finite kt -> bpow radix2 (-100) <= val kt <= bpow radix2 100 -> Rabs (val e / val kt) <= M -> M <= bpow radix2 300 ->
  finite (fmul e (fdiv (f_of_Z 1) kt)) /\ Rabs (val (fmul e (fdiv (f_of_Z 1) kt)) - val e / val kt) <= 4 * U * M + ETA.
Proof.
  intros Fe Fk Hk HE HM. set (k := val kt) in *. pose proof (bpow_gt_0 radix2 (-100)) as P0.
  destruct (f_of_Z_val 1) as [F1 V1]; [lia|].
  assert (K1 : bpow radix2 (-100) <= / k <= bpow radix2 100).
  { split.
    - change (-100)%Z with (- (100))%Z. rewrite bpow_opp. apply Rinv_le; lra.
    - replace (bpow radix2 100) with (/ bpow radix2 (-100)) by (change (-100)%Z with (- (100))%Z; rewrite bpow_opp, Rinv_inv; reflexivity).
      apply Rinv_le; lra. }
  pose proof U_pos as HU. pose proof ETA_pos as HT. pose proof U_small as US.
  assert (R1 : Rabs (rnd (/ k) - / k) <= U * / k).
  { pose proof (rnd_err_normal (/ k)) as E. rewrite Rabs_pos_eq in E by lra. apply E.
    eapply Rle_trans; [|apply K1]. apply bpow_le. lia. }
  assert (UK : U * / k <= / 2 * / k) by (apply Rmult_le_compat_r; lra).
  assert (B1 : bpow radix2 100 * 2 <= bpow radix2 900).
  { change (bpow radix2 100 * bpow radix2 1 <= bpow radix2 900). rewrite <- bpow_plus. apply bpow_le. lia. }
  assert (R1' := R1). apply Rabs_le_inv in R1'.
  destruct (fdiv_val (f_of_Z 1) kt F1 Fk) as [Fi Vi].
  { fold k. lra. }
  { rewrite V1. fold k. replace (1 / k) with (/ k) by lra. apply small_max. apply Rabs_le. lra. }
  rewrite V1 in Vi. fold k in Vi. replace (1 / k) with (/ k) in Vi by lra.
  set (iv := fdiv _ _) in *. set (E := val e) in *.
  assert (X1 : Rabs (E * val iv - E / k) <= U * M).
  { rewrite Vi. replace (E * rnd (/ k) - E / k) with (E * (rnd (/ k) - / k)) by (unfold Rdiv; ring). rewrite Rabs_mult.
    apply Rle_trans with (Rabs E * (U * / k)); [apply Rmult_le_compat_l; [apply Rabs_pos|exact R1]|].
    unfold Rdiv in HE. rewrite Rabs_mult, (Rabs_pos_eq (/ k)) in HE by lra.
    replace (Rabs E * (U * / k)) with (U * (Rabs E * / k)) by ring. apply Rmult_le_compat_l; lra. }
  assert (M0 : 0 <= M) by (eapply Rle_trans; [apply Rabs_pos|exact HE]).
  assert (UM : U * 1048576 * M <= 1 * M) by (apply Rmult_le_compat_r; lra).
  assert (X2 : Rabs (E * val iv) <= 2 * M).
  { replace (E * val iv) with ((E * val iv - E / k) + E / k) by lra. eapply Rle_trans; [apply Rabs_triang|]. lra. }
  pose proof (rnd_err (E * val iv)) as X3.
  assert (U * Rabs (E * val iv) <= U * (2 * M)) by (apply Rmult_le_compat_l; lra).
  assert (B2 : bpow radix2 300 * 16 <= bpow radix2 900).
  { change (bpow radix2 300 * bpow radix2 4 <= bpow radix2 900). rewrite <- bpow_plus. apply bpow_le. lia. }
  assert (B3 : ETA <= 1) by (change 1 with (bpow radix2 0); apply bpow_le; lia).
  assert (B4 : 1 <= bpow radix2 300) by (change 1 with (bpow radix2 0); apply bpow_le; lia).
  destruct (fmul_val e iv Fe Fi) as [Fm Vm].
  { fold E. apply small_max. replace (rnd (E * val iv)) with ((rnd (E * val iv) - E * val iv) + E * val iv) by lra. eapply Rle_trans; [apply Rabs_triang|]. lra. }
  split; [exact Fm|]. rewrite Vm. fold E.
  replace (rnd (E * val iv) - E / k) with ((rnd (E * val iv) - E * val iv) + (E * val iv - E / k)) by lra. eapply Rle_trans; [apply Rabs_triang|]. assert (0 <= U * M) by (apply Rmult_le_pos; lra). lra.
Qed.

(** ** the rates *)
(** the rates calculated from given densities *)
Definition rates_from (flog : f64 -> f64) (np_sum : list f64 -> f64) (v : variant) (kt : f64) (energies corr dens : list f64) : list f64 :=
  let beta := map flog dens in
  let centered := f_center np_sum (fmap2 fadd beta (map (fun e => fmul e (fdiv (f_of_Z 1) kt)) energies)) in
  match v with
  | VOrig => centered
  | VAdd => fmap2 fadd centered corr
  | VMult => f_center np_sum (fmap2 fadd beta corr)
  end.

Section Rates.
Context (flog : f64 -> f64) (np_sum : list f64 -> f64) (Hl : log_all_ok flog) (Hs : sums np_sum)
  (bw : list f64) (pos : list (list f64)) (Hn : pos <> []) (Hmax : (Z.of_nat (length pos) <= 1073741824)%Z).
Let n := length pos.
Context (dens : list f64) (Ld : length dens = n)
  (HD : forall i x, nth_error dens i = Some x -> finite x /\ 0 < val x /\ Rabs (val x - exact_density bw pos i) <= INR n * / 2 ^ 43 * exact_density bw pos i /\
    bpow radix2 (-336) <= exact_density bw pos i <= bpow radix2 297).

Lemma n_range : 1 <= INR n <= 1073741824.
Proof using All.
  split; [change 1 with (INR 1); apply le_INR; unfold n; destruct pos; [congruence|cbn; lia]|].
  rewrite INR_IZR_INZ. apply IZR_le. exact Hmax.
Qed.

Lemma centered_val ts T M : length ts = n ->
  (forall i t, nth_error ts i = Some t -> finite t /\ Rabs (val t - T i) <= 4 * U * M + ETA /\ Rabs (T i) <= M) ->
  0 <= M <= bpow radix2 300 ->
  let r := f_center np_sum (fmap2 fadd (map flog dens) ts) in
  length r = n /\
  forall i x, nth_error r i = Some x ->
    finite x /\ Rabs (val x - centered n (fun k => ln (exact_density bw pos k) + T k) i) <= INR n * (/ 2 ^ 39 + / 2 ^ 40 + M * (26 * U)) /\
    Rabs (val x) <= 642 + 3 * M.
Proof using All.
  intros Lt HT HM r.
  pose proof n_range as NR. set (b := fmap2 fadd (map flog dens) ts) in *.
  assert (Lb : length b = n) by (unfold b; rewrite fmap2_len; rewrite map_length; congruence).
  set (a := map (fun k => ln (exact_density bw pos k) + T k) (seq 0 n)).
  assert (La : length a = n) by (unfold a; rewrite map_length, seq_length; reflexivity).
  pose proof U_pos as HU. pose proof U_small as US. assert (UV : U = / 2 ^ 53) by reflexivity.
  set (e := INR n * / 2 ^ 42 + / 2 ^ 40 + 7 * U * M). set (A := 320 + M).
  assert (na : forall i, (i < n)%nat -> nth i a 0 = ln (exact_density bw pos i) + T i).
  { intros i Hi. apply nth_error_nth. unfold a. rewrite nth_error_map, (nth_error_nth' _ 0%nat) by (rewrite seq_length; exact Hi).
    rewrite seq_nth by exact Hi. reflexivity. }
  assert (Hb : forall i x, nth_error b i = Some x -> finite x /\ Rabs (val x - nth i a 0) <= e /\ Rabs (nth i a 0) <= A).
  { intros i x Hi. assert (Li : (i < n)%nat) by (rewrite <- Lb; apply nth_error_Some; congruence).
    rewrite na by exact Li. destruct (fmap2_inv _ _ _ _ _ Hi) as (y & t & Hy & Ht & ->).
    rewrite nth_error_map in Hy. destruct (nth_error dens i) as [dd|] eqn:Ed; [|discriminate Hy]. cbn in Hy. injection Hy as <-.
    destruct (HD i dd Ed) as (D1 & D2 & D3 & D4). destruct (HT i t Ht) as (T1 & T2 & T3).
    exact (raw_val flog dd _ t _ (INR n) M Hl D1 D2 NR HM D3 D4 T1 T2 T3). }
  assert (US3 : U * 8796093022208 <= 1) by (unfold U; lra).
  assert (UM3 : U * 8796093022208 * M <= 1 * M) by (apply Rmult_le_compat_r; lra).
  assert (UM : U * 1048576 * M <= 1 * M) by (apply Rmult_le_compat_r; lra).
  assert (UM0 : 0 <= U * M) by (apply Rmult_le_pos; lra).
  assert (B1 : bpow radix2 300 * 16 <= bpow radix2 500).
  { change (bpow radix2 300 * bpow radix2 4 <= bpow radix2 500). rewrite <- bpow_plus. apply bpow_le. lia. }
  assert (B4 : 1024 <= bpow radix2 300) by (change 1024 with (bpow radix2 10); apply bpow_le; lia).
  assert (BN : b <> []) by (intros Q; rewrite Q in Lb; destruct pos; [congruence|discriminate Lb]).
  assert (E0 : 0 <= e <= A * / 1024) by (unfold e, A; lra).
  destruct (center_val np_sum b a A e Hs BN) as [C1 C2].
  { rewrite Lb. exact Hmax. } { now rewrite Lb. } { exact Hb. } { unfold A. lra. } { exact E0. } { unfold A. lra. }
  rewrite Lb in C1. split; [exact C1|]. intros i x Hi.
  assert (Li : (i < n)%nat) by (rewrite <- C1; apply nth_error_Some; unfold r in Hi; congruence).
  destruct (C2 i x Hi) as [X1 X2]. rewrite Lb, na in X2 by exact Li.
  split; [exact X1|]. fold (centered n (fun k => ln (exact_density bw pos k) + T k) i) in X2 |- *.
  change (ln (exact_density bw pos i) + T i - average a) with (centered n (fun k => ln (exact_density bw pos k) + T k) i) in X2.
  assert (NM : U * M * 1 <= U * M * INR n) by (apply Rmult_le_compat_l; lra).
  assert (X3 : 2 * e + 12 * INR n * U * A <= INR n * (/ 2 ^ 39 + / 2 ^ 40 + M * (26 * U))).
  { unfold e, A. replace (12 * INR n * U * (320 + M)) with (3840 * U * INR n + 12 * (U * M * INR n)) by ring.
    replace (INR n * (/ 2 ^ 39 + / 2 ^ 40 + M * (26 * U))) with (INR n * (/ 2 ^ 39 + / 2 ^ 40) + 26 * (U * M * INR n)) by ring. rewrite UV at 2. lra. }
  assert (X2' := X2). apply Rle_trans with (2 := X3) in X2'. split; [exact X2'|].
  assert (HAV : Rabs (centered n (fun k => ln (exact_density bw pos k) + T k) i) <= 2 * A).
  { unfold centered. fold a. rewrite <- (na i Li).
    assert (G : forall l', (forall i, (i < length l')%nat -> Rabs (nth i l' 0) <= A) -> Rabs (total l') <= INR (length l') * A).
    { clear. induction l' as [|y l' IH]; intros H; [cbn; rewrite Rabs_R0; lra|]. cbn [length total fold_right]. rewrite S_INR. fold (total l').
      pose proof (H O ltac:(cbn; lia)) as H0. cbn [nth] in H0.
      assert (Rabs (total l') <= INR (length l') * A) by (apply IH; intros i Hi; apply (H (S i)); cbn; lia).
      eapply Rle_trans; [apply Rabs_triang|]. lra. }
    assert (HA : forall k, (k < n)%nat -> Rabs (nth k a 0) <= A).
    { intros k Hk. destruct (nth_error b k) as [z|] eqn:Ez; [|apply nth_error_None in Ez; lia]. now apply (Hb k z Ez). }
    assert (Rabs (average a) <= A).
    { unfold average. rewrite La. unfold Rdiv. rewrite Rabs_mult, (Rabs_pos_eq (/ INR n)) by (left; apply Rinv_0_lt_compat; lra).
      apply (Rmult_le_reg_r (INR n)); [lra|]. rewrite Rmult_assoc, Rinv_l, Rmult_1_r by lra. rewrite Rmult_comm.
      rewrite <- La at 1. apply G. rewrite La. exact HA. }
    pose proof (HA i Li). eapply Rle_trans; [apply Rabs_triang|]. rewrite Rabs_Ropp. lra. }
  replace (val x) with ((val x - centered n (fun k => ln (exact_density bw pos k) + T k) i) + centered n (fun k => ln (exact_density bw pos k) + T k) i) by lra.
  eapply Rle_trans; [apply Rabs_triang|].
  assert (U * M * INR n <= U * M * 1073741824) by (apply Rmult_le_compat_l; lra).
  replace (INR n * (/ 2 ^ 39 + / 2 ^ 40 + M * (26 * U))) with (INR n * (/ 2 ^ 39 + / 2 ^ 40) + 26 * (U * M * INR n)) in X2' by ring. unfold A in *. lra.
Qed.

Lemma rates_from_val v kt energies corr M : moderate kt -> length energies = n -> length corr = n -> 0 <= M <= bpow radix2 300 ->
  Forall (fun e => finite e /\ Rabs (val e / val kt) <= M) energies -> Forall (bounded M) corr ->
  exists rates, rates_from flog np_sum v kt energies corr dens = rates /\ length rates = n /\
    forall i x, nth_error rates i = Some x ->
      finite x /\ Rabs (val x - exact_rate v kt bw pos energies corr i) <= INR n * (/ 2 ^ 38 + M * / 2 ^ 48).
Proof using All.
  intros [Fk Hk] Len Lco HM HE HC. pose proof n_range as NR.
  unfold rates_from.
  pose proof U_pos as HU. pose proof U_small as US. assert (UV : U = / 2 ^ 53) by reflexivity. pose proof ETA_pos as HT.
  assert (UM0 : 0 <= U * M) by (apply Rmult_le_pos; lra).
  set (ts := map (fun e => fmul e (fdiv (f_of_Z 1) kt)) energies).
  destruct (centered_val ts (fun k => val (nth k energies fzero) / val kt) M) as [C1 C2].
  { unfold ts. rewrite map_length. exact Len. }
  { intros i t Hi. unfold ts in Hi. rewrite nth_error_map in Hi. destruct (nth_error energies i) as [e|] eqn:Ee; [|discriminate Hi].
    cbn in Hi. injection Hi as <-. rewrite (nth_error_nth _ _ _ Ee). apply nth_error_In in Ee. rewrite Forall_forall in HE. destruct (HE e Ee) as [Fe Be].
    destruct (energy_val e kt M Fe Fk Hk Be) as [G1 G2]; [lra|]. auto. }
  { exact HM. }
  destruct (centered_val corr (fun k => val (nth k corr fzero)) M) as [D1 D2].
  { exact Lco. }
  { intros i t Hi. rewrite (nth_error_nth _ _ _ Hi). apply nth_error_In in Hi. rewrite Forall_forall in HC. destruct (HC t Hi) as [Ft Bt].
    split; [exact Ft|]. rewrite Rminus_diag_eq, Rabs_R0 by reflexivity. split; [lra|exact Bt]. }
  { exact HM. }
  assert (X3 : INR n * (/ 2 ^ 39 + / 2 ^ 40 + M * (26 * U)) + (700 + 5 * M) * U <= INR n * (/ 2 ^ 38 + M * / 2 ^ 48)).
  { rewrite UV. assert (M * 1 <= M * INR n) by (apply Rmult_le_compat_l; lra).
    replace (INR n * (/ 2 ^ 39 + / 2 ^ 40 + M * (26 * / 2 ^ 53))) with (INR n * (/ 2 ^ 39 + / 2 ^ 40) + 26 * / 2 ^ 53 * (M * INR n)) by ring.
    replace (INR n * (/ 2 ^ 38 + M * / 2 ^ 48)) with (INR n * / 2 ^ 38 + / 2 ^ 48 * (M * INR n)) by ring. lra. }
  assert (X0 : 0 <= (700 + 5 * M) * U) by (apply Rmult_le_pos; lra).
  unfold exact_rate. fold n. set (cen := f_center np_sum (fmap2 fadd (map flog dens) ts)) in *.
  destruct v.
  - exists cen. split; [reflexivity|]. split; [exact C1|]. intros i x Hi. destruct (C2 i x Hi) as (G1 & G2 & _). split; [exact G1|]. lra.
  - exists (fmap2 fadd cen corr). split; [reflexivity|]. split; [rewrite fmap2_len; congruence|]. intros i x Hi.
    destruct (fmap2_inv _ _ _ _ _ Hi) as (y & c & Hy & Hc & ->). destruct (C2 i y Hy) as (G1 & G2 & G3).
    rewrite (nth_error_nth _ _ _ Hc). apply nth_error_In in Hc. rewrite Forall_forall in HC. destruct (HC c Hc) as [Fc Bc].
    pose proof (rnd_plus_err y c) as P1.
    assert (P2 : Rabs (val y + val c) <= 642 + 4 * M) by (eapply Rle_trans; [apply Rabs_triang|]; lra).
    assert (P3 : U * Rabs (val y + val c) <= U * (642 + 4 * M)) by (apply Rmult_le_compat_l; lra).
    assert (B1 : bpow radix2 300 * 16 <= bpow radix2 500).
    { change (bpow radix2 300 * bpow radix2 4 <= bpow radix2 500). rewrite <- bpow_plus. apply bpow_le. lia. }
    assert (B4 : 1024 <= bpow radix2 300) by (change 1024 with (bpow radix2 10); apply bpow_le; lia).
    assert (B5 : bpow radix2 500 <= bpow radix2 900) by (apply bpow_le; lia).
    assert (UM : U * 1048576 * M <= 1 * M) by (apply Rmult_le_compat_r; lra).
    destruct (fadd_val y c G1 Fc) as [F V].
    { apply small_max. replace (rnd (val y + val c)) with ((rnd (val y + val c) - (val y + val c)) + (val y + val c)) by lra. eapply Rle_trans; [apply Rabs_triang|]. lra. }
    split; [exact F|]. rewrite V. set (q := centered _ _ _) in *.
    replace (rnd (val y + val c) - (q + val c)) with ((rnd (val y + val c) - (val y + val c)) + (val y - q)) by lra.
    eapply Rle_trans; [apply Rabs_triang|]. lra.
  - exists (f_center np_sum (fmap2 fadd (map flog dens) corr)). split; [reflexivity|]. split; [exact D1|].
    intros i x Hi. destruct (D2 i x Hi) as (G1 & G2 & _). split; [exact G1|]. lra.
Qed.
End Rates.

Lemma rates_all fexp flog np_sum : exp_ok fexp -> log_all_ok flog -> sums np_sum ->
  forall bw pos, Forall moderate bw -> (1 <= length bw <= 3)%nat -> Forall (coords_ok bw) pos -> pos <> [] -> (Z.of_nat (length pos) <= 10000)%Z ->
  forall v kt energies corr M, moderate kt -> length energies = length pos -> length corr = length pos -> 0 <= M <= bpow radix2 300 ->
  Forall (fun e => finite e /\ Rabs (val e / val kt) <= M) energies -> Forall (bounded M) corr ->
  exists rates, f_betas fexp flog np_sum v kt bw pos energies corr = Ok rates /\ length rates = length pos /\
    forall i x, nth_error rates i = Some x ->
      finite x /\ Rabs (val x - exact_rate v kt bw pos energies corr i) <= INR (length pos) * (/ 2 ^ 38 + M * / 2 ^ 48).
Proof.
  intros He Hl Hs bw pos Hbw Hdim Hpos Hn Hmax v kt energies corr M Hk Len Lco HM HE HC.
  destruct (density_all fexp np_sum He Hs bw pos Hbw Hdim Hpos Hn Hmax) as (dens & E & Ld & HD).
  destruct (rates_from_val flog np_sum Hl Hs bw pos Hn ltac:(lia) dens Ld) with (v := v) (kt := kt) (energies := energies) (corr := corr) (M := M) as (r & R1 & R2 & R3); try assumption.
  { intros i x Hi. destruct (HD i x Hi) as (A & B & C & D1 & D2). split; [exact A|]. split; [exact B|]. split; [exact C|]. split; [|exact D2].
    eapply Rle_trans; [|exact D1]. apply bpow_le. lia. }
  exists r. split; [|split; assumption]. unfold f_betas. rewrite E. cbn [bind]. rewrite <- R1. destruct v; reflexivity.
Qed.
