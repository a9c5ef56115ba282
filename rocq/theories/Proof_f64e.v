(** Free energy surfaces on float64 numbers (C76) *)
From Verif Require Import Spec_f64 Proof_f64 Proof_f64b Proof_f64d Proof_base.
From Flocq Require Import Core.Core.
From Coq Require Import Lia Lra.
Open Scope R_scope.

#[local] Arguments bpow : simpl never.

Lemma ln2_small : ln 2 <= 1.
Proof. apply Rlt_le. rewrite <- (ln_exp 1). apply ln_increasing; [lra|]. pose proof (exp_ineq1 1 ltac:(lra)). lra. Qed.
Lemma ln_pow2 n : ln (2 ^ n) = INR n * ln 2.
Proof. induction n as [|n IH]; [simpl; rewrite ln_1; lra|]. cbn [pow]. rewrite ln_mult, IH, S_INR by (try lra; apply pow_lt; lra). lra. Qed.
Lemma ln_le_53 x : 1 <= x <= 2 ^ 53 -> 0 <= ln x <= 53.
Proof.
  intros [H1 H2]. assert (L1 : ln 1 <= ln x) by (destruct H1 as [H1 | <-]; [left; apply ln_increasing; lra | right; reflexivity]).
  rewrite ln_1 in L1. split; [exact L1|]. assert (L2 : ln x <= ln (2 ^ 53)) by (destruct H2 as [H2 | ->]; [left; apply ln_increasing; lra | right; reflexivity]).
  rewrite ln_pow2 in L2. pose proof ln2_small. assert (0 < ln 2) by (rewrite <- ln_1; apply ln_increasing; lra).
  replace (INR 53) with 53 in L2 by (simpl; lra). lra.
Qed.
Lemma ln_mono x y : 0 < x -> x <= y -> ln x <= ln y.
Proof. intros Hx [H | ->]; [left; apply ln_increasing; lra | right; reflexivity]. Qed.

(** np.min *)
Lemma fmin_fold l : forall x, Forall not_nan (x :: l) ->
  let m := fold_left fmin2 l x in In m (x :: l) /\ forall y, In y (x :: l) -> fle m y = true.
Proof.
  induction l as [|z l IH]; intros x HF m.
  - split; [now left|]. intros y [<- | []]. inversion HF; subst. apply fle_ext; [assumption..|apply Rle_refl].
  - inversion HF as [|? ? Nx HF']; subst. inversion HF' as [|? ? Nz HF'']; subst.
    assert (Nm : not_nan (fmin2 x z)) by (unfold fmin2; destruct (flt z x); assumption).
    destruct (IH (fmin2 x z)) as [I1 I2]; [now constructor|]. cbn [fold_left] in m. fold m in I1, I2.
    assert (B1 : ext (fmin2 x z) <= ext x /\ ext (fmin2 x z) <= ext z).
    { unfold fmin2. pose proof (flt_ext z x Nz Nx) as T. destruct (flt z x).
      - destruct T as [T _]. specialize (T eq_refl). lra.
      - assert (~ ext z < ext x) by (intros D; apply T in D; discriminate). lra. }
    assert (Mm : fle m (fmin2 x z) = true) by (apply I2; now left).
    assert (Nmm : not_nan m) by (apply fle_not_nan in Mm; tauto). apply (fle_ext _ _ Nmm Nm) in Mm.
    split.
    + destruct I1 as [I1 | I1]; [|right; now right]. rewrite <- I1. unfold fmin2. destruct (flt z x); [right; now left|now left].
    + intros y [<- | [<- | Hy]]; [apply fle_ext; [assumption..|lra] | apply fle_ext; [assumption..|lra] | apply I2; now right].
Qed.

Section FES.
Context (flog : f64 -> f64) (kt : f64) (HL : log_ok flog) (Fk : finite kt) (Hk : 0 < val kt <= bpow radix2 1000).
Definition term (c : Z) : f64 := fmul (fopp kt) (flog (f_of_Z c)).
(** error of one bin *)
Definition err : R := val kt * / 2 ^ 44 + ETA.

Lemma term_val c : (1 <= c <= 2 ^ 53)%Z ->
  finite (term c) /\ Rabs (val (term c) + val kt * ln (IZR c)) <= err /\ -54 * val kt - 1 <= val (term c) <= 0.
Proof using All.
  intros Hc. assert (HcR : 1 <= IZR c <= 2 ^ 53).
  { split; [apply IZR_le; lia|]. replace (2 ^ 53) with (IZR (2 ^ 53)) by (rewrite (pow_IZR 2 53); reflexivity). apply IZR_le; lia. }
  pose proof (ln_le_53 _ HcR) as Hln. destruct (f_of_Z_val c) as [Fc Vc]; [lia|].
  destruct (HL c Hc) as [F1 E1]. set (l := ln (IZR c)) in *. set (L := val (flog (f_of_Z c))) in *.
  apply Rabs_le_inv in E1. pose proof U_pos as HU. pose proof ETA_pos as HE. pose proof small_eta as HE2.
  assert (U2 : 0 <= U * 64 <= / 2 ^ 47) by (unfold U; lra).
  assert (P200 : / 2 ^ 200 <= 1).
  { rewrite <- Rinv_1. apply Rinv_le_contravar; [lra|]. apply pow_R1_Rle. lra. }
  assert (S1 : 0 <= / 2 ^ 50 * l <= / 2 ^ 50 * 53) by lra.
  assert (HL0 : 0 <= L <= 53 + / 2 ^ 44) by lra.
  assert (Q : val (fopp kt) * L = - (val kt * L)) by (rewrite fopp_val; ring).
  assert (P0 : 0 <= val kt * L) by (apply Rmult_le_pos; lra).
  assert (P1 : val kt * L <= val kt * (53 + / 2 ^ 44)) by (apply Rmult_le_compat_l; lra).
  pose proof (rnd_err (- (val kt * L))) as Er. rewrite Rabs_Ropp, (Rabs_pos_eq _ P0) in Er. apply Rabs_le_inv in Er.
  assert (R0 : rnd (- (val kt * L)) <= 0) by (rewrite <- rnd_0; apply rnd_le; lra).
  assert (P2 : U * (val kt * L) <= / 2 ^ 47 * val kt).
  { apply Rle_trans with (U * (val kt * 64)); [apply Rmult_le_compat_l; lra|].
    replace (U * (val kt * 64)) with (U * 64 * val kt) by ring. apply Rmult_le_compat_r; lra. }
  assert (P3 : Rabs (val kt * L - val kt * l) <= val kt * (/ 2 ^ 50 * 53)).
  { rewrite <- Rmult_minus_distr_l, Rabs_mult, (Rabs_pos_eq (val kt)) by lra. apply Rmult_le_compat_l; [lra|]. apply Rabs_le. lra. }
  apply Rabs_le_inv in P3.
  assert (B : bpow radix2 1024 >= 2 ^ 24 * bpow radix2 1000).
  { right. change 1024%Z with (24 + 1000)%Z. rewrite bpow_plus, (pow2_bpow 24). reflexivity. }
  assert (B1 : 1 <= bpow radix2 1000) by (change 1 with (bpow radix2 0); apply bpow_le; lia).
  destruct (fmul_val (fopp kt) (flog (f_of_Z c)) (fopp_finite _ Fk) F1) as [Ft Vt].
  { fold L. rewrite Q. apply Rabs_lt. lra. }
  fold L in Vt. rewrite Q in Vt. fold (term c) in Ft, Vt.
  split; [exact Ft|]. rewrite Vt. unfold err. split; [apply Rabs_le; lra|]. lra.
Qed.

Definition raw (c : Z) : f64 := if (c =? 0)%Z then finf else term c.

Context (data : list Z) (HD : Forall (fun c => (0 <= c <= 2 ^ 53)%Z) data).

Lemma raw_not_nan : Forall not_nan (map raw data).
Proof using All.
  rewrite Forall_forall in *. intros x Hx. apply in_map_iff in Hx. destruct Hx as (c & <- & Hc). specialize (HD c Hc).
  unfold raw. destruct (Z.eqb_spec c 0); [reflexivity|]. destruct (term_val c) as [F _]; [lia|].
  red in F. red. destruct (term c); try discriminate; reflexivity.
Qed.

Lemma fes_main cmax : In cmax data -> (0 < cmax)%Z -> (forall c, In c data -> (c <= cmax)%Z) ->
  exists fes, f_fes flog kt data = Ok fes /\ length fes = length data /\
    (forall i c x, nth_error data i = Some c -> nth_error fes i = Some x ->
      (c = 0%Z -> x = finf) /\
      ((0 < c)%Z -> finite x /\ 0 <= val x /\
        Rabs (val x - val kt * (ln (IZR cmax) - ln (IZR c))) <= val kt * / 2 ^ 40 + / 2 ^ 200)) /\
    (exists i x c, nth_error fes i = Some x /\ nth_error data i = Some c /\ (0 < c)%Z /\ val x = 0).
Proof using All.
  intros Hin Hpos Hmax. pose proof raw_not_nan as NN.
  assert (NE : data <> []) by (intros E; rewrite E in Hin; contradiction).
  unfold f_fes. fold (term). change (map _ data) with (map raw data).
  destruct (map raw data) as [|x0 rest] eqn:ER; [destruct data; [congruence|discriminate]|].
  cbn [f_min bind]. destruct (fmin_fold rest x0 NN) as [M1 M2]. set (m := fold_left fmin2 rest x0) in *.
  rewrite <- ER in M1, M2, NN |- *.
  assert (HD' := HD). rewrite Forall_forall in HD'. pose proof (HD' cmax Hin) as Bmax.
  destruct (term_val cmax) as (Fx & Ex & Rx); [lia|].
  assert (Nm : not_nan m) by (rewrite Forall_forall in NN; now apply NN).
  assert (Inx : In (term cmax) (map raw data)).
  { apply in_map_iff. exists cmax. split; [|exact Hin]. unfold raw. destruct (Z.eqb_spec cmax 0); [lia|reflexivity]. }
  assert (Lm : ext m <= val (term cmax)).
  { rewrite <- (ext_fin _ Fx). apply fle_ext; [assumption| |now apply M2]. rewrite Forall_forall in NN. now apply NN. }
  apply in_map_iff in M1. destruct M1 as (cm & Em & Hcm). pose proof (HD' cm Hcm) as Bcm. pose proof (bpow_gt_0 radix2 1024) as B0.
  unfold raw in Em. destruct (Z.eqb_spec cm 0) as [Z0 | Z0].
  { rewrite <- Em in Lm. cbn [ext finf] in Lm. pose proof (val_lt_max (term cmax)). lra. }
  destruct (term_val cm) as (Fm & Ecm & Rm); [lia|]. rewrite Em in Fm, Ecm, Rm.
  rewrite (ext_fin m Fm) in Lm.
  assert (Ni : feq m finf = false).
  { unfold feq, Beqb. destruct m; try discriminate Fm; reflexivity. }
  rewrite Ni. cbn [negb]. rewrite map_map.
  (* the minimum *)
  assert (Hln : val kt * ln (IZR cm) <= val kt * ln (IZR cmax)).
  { apply Rmult_le_compat_l; [lra|]. apply ln_mono; [apply IZR_lt; lia|]. apply IZR_le. now apply Hmax. }
  apply Rabs_le_inv in Ecm. apply Rabs_le_inv in Ex.
  assert (HM : - err <= val m + val kt * ln (IZR cmax) <= err) by lra.
  pose proof small_eta as HE2. pose proof ETA_pos as HE. pose proof U_pos as HU.
  assert (B : bpow radix2 1024 >= 2 ^ 24 * bpow radix2 1000).
  { right. change 1024%Z with (24 + 1000)%Z. rewrite bpow_plus, (pow2_bpow 24). reflexivity. }
  assert (B1 : 1 <= bpow radix2 1000) by (change 1 with (bpow radix2 0); apply bpow_le; lia).
  assert (Sub : forall c, In c data -> (0 < c)%Z -> finite (fsub (raw c) m) /\ val (fsub (raw c) m) = rnd (val (term c) - val m) /\ 0 <= val (term c) - val m <= 64 * val kt + 2).
  { intros c Hc Pc. pose proof (HD' c Hc) as Bc. unfold raw. destruct (Z.eqb_spec c 0); [lia|].
    destruct (term_val c) as (Ft & Et & Rt); [lia|].
    assert (Inc : In (term c) (map raw data)).
    { apply in_map_iff. exists c. split; [|exact Hc]. unfold raw. destruct (Z.eqb_spec c 0); [lia|reflexivity]. }
    assert (Ge : val m <= val (term c)).
    { rewrite <- (ext_fin _ Ft), <- (ext_fin _ Fm). apply fle_ext; [assumption| |now apply M2]. rewrite Forall_forall in NN. now apply NN. }
    assert (D0 : 0 <= val (term c) - val m <= 64 * val kt + 2) by lra.
    pose proof (rnd_plus_err (term c) (fopp m)) as Es. rewrite fopp_val in Es.
    replace (val (term c) + - val m) with (val (term c) - val m) in Es by ring.
    rewrite (Rabs_pos_eq _ (proj1 D0)) in Es. apply Rabs_le_inv in Es.
    assert (Us : U * (val (term c) - val m) <= 1 * (val (term c) - val m)) by (apply Rmult_le_compat_r; [lra|unfold U; lra]).
    destruct (fsub_val (term c) m Ft Fm) as [G1 G2]; [apply Rabs_lt; lra|]. split; [exact G1|]. split; [exact G2|exact D0]. }
  eexists. split; [reflexivity|]. split; [now rewrite map_length|]. split.
  - intros i c x Hc Hx. rewrite (map_nth_error _ i data Hc) in Hx. injection Hx as <-.
    assert (Ic : In c data) by (eapply nth_error_In; eassumption). split.
    + intros ->. cbn. destruct m as [s|s| |s mm e b]; try discriminate Fm; reflexivity.
    + intros Pc. destruct (Sub c Ic Pc) as (G1 & G2 & D0). split; [exact G1|]. rewrite G2. split.
      { rewrite <- rnd_0. apply rnd_le. lra. }
      destruct (term_val c) as (Ft & Et & Rt); [pose proof (HD' c Ic); lia|]. apply Rabs_le_inv in Et.
      pose proof (rnd_plus_err (term c) (fopp m)) as Es. rewrite fopp_val in Es.
      replace (val (term c) + - val m) with (val (term c) - val m) in Es by ring.
      rewrite (Rabs_pos_eq _ (proj1 D0)) in Es. apply Rabs_le_inv in Es.
      assert (DT : val (term c) - val m <= val kt * 54 + 2 * err + val kt * / 2 ^ 40).
      { assert (0 <= val kt * ln (IZR c)) by (apply Rmult_le_pos; [lra|]; rewrite <- ln_1; apply ln_mono; [lra|]; apply IZR_le; lia).
        assert (ln (IZR cmax) <= 53).
        { apply ln_le_53. split; [apply IZR_le; lia|]. replace (2 ^ 53) with (IZR (2 ^ 53)) by (rewrite (pow_IZR 2 53); reflexivity). apply IZR_le; lia. }
        assert (val kt * ln (IZR cmax) <= val kt * 53) by (apply Rmult_le_compat_l; lra). lra. }
      assert (Us : U * (val (term c) - val m) <= U * (val kt * 54 + 2 * err + val kt * / 2 ^ 40)) by (apply Rmult_le_compat_l; lra).
      assert (Ue : U * (val kt * 54 + 2 * err + val kt * / 2 ^ 40) <= val kt * / 2 ^ 44 + ETA).
      { unfold err. assert (U * (2 * ETA) <= 1 * ETA) by (rewrite <- Rmult_assoc; apply Rmult_le_compat_r; [lra|unfold U; lra]).
        assert (U * (val kt * 54 + 2 * (val kt * / 2 ^ 44) + val kt * / 2 ^ 40) <= val kt * / 2 ^ 44) by (unfold U; lra). lra. }
      unfold err in *.
      assert (4 * ETA <= / 2 ^ 200).
      { unfold ETA. change 4 with (bpow radix2 2). rewrite <- bpow_plus. rewrite (pow2_bpow 200), <- bpow_opp. apply bpow_le. lia. }
      apply Rabs_le. lra.
  - destruct (In_nth_error data cm Hcm) as [i Hi]. exists i, (fsub (raw cm) m), cm.
    split; [exact (map_nth_error (fun c => fsub (raw c) m) i data Hi)|]. split; [exact Hi|]. split; [lia|].
    destruct (Sub cm Hcm ltac:(lia)) as (_ & G2 & _). rewrite G2, Em. replace (val m - val m) with 0 by ring. apply rnd_0.
Qed.
End FES.

(** an empty histogram *)
Lemma fes_empty flog kt data : data <> [] -> Forall (fun c => c = 0%Z) data -> f_fes flog kt data = Ok (map (fun _ => finf) data).
Proof.
  intros NE HF. unfold f_fes.
  replace (map (fun c => if (c =? 0)%Z then finf else fmul (fopp kt) (flog (f_of_Z c))) data) with (map (fun _ : Z => finf) data).
  - assert (M : f_min (map (fun _ : Z => finf) data) = Ok finf).
    { destruct data as [|c data]; [congruence|]. cbn. f_equal. clear. induction data; [reflexivity|]. cbn. exact IHdata. }
    rewrite M. reflexivity.
  - clear NE. induction HF as [|c data -> _ IH]; [reflexivity|]. cbn [map]. rewrite IH. reflexivity.
Qed.
Lemma fes_no_bins flog kt : f_fes flog kt [] = Err ValueError.
Proof. reflexivity. Qed.
