(** Free energy differences in float64 arithmetic (C100) *)
From Verif Require Import Spec_f64df Proof_base Proof_f64 Proof_f64b Proof_f64c Proof_f64e Proof_f64f Proof_f64h Proof_f64mb Proof_f64step Proof_f64w.
From Flocq Require Import Core.Core.
From Coq Require Import Lia Lra.
Open Scope R_scope.
Ltac Zify.zify_post_hook ::= idtac.
#[local] Arguments bpow : simpl never.

Lemma log_counts flog : log_all_ok flog -> log_ok flog.
Proof.
  intros H c Hc. destruct (f_of_Z_val c) as [F V]; [lia|]. assert (1 <= IZR c) by (apply IZR_le; lia).
  destruct (H (f_of_Z c) F ltac:(rewrite V; lra)) as [A B]. split; [exact A|]. rewrite V in B. rewrite (Rabs_pos_eq (ln (IZR c))) in B; [exact B|].
  rewrite <- ln_1. apply ln_mono; lra.
Qed.

(** ** special values *)
Lemma pos_shape x : finite x -> 0 < val x -> exists m e b, x = B754_finite false m e b.
Proof.
  intros F H. destruct x as [s|s| |[] m e b]; try discriminate F.
  - cbn in H. lra.
  - exfalso. cbn in H. apply (Rlt_irrefl 0). apply Rlt_trans with (1 := H). apply F2R_lt_0. reflexivity.
  - eauto.
Qed.
Lemma div_minf kt : finite kt -> 0 < val kt -> fdiv (B754_infinity true) kt = B754_infinity true.
Proof. intros F H. destruct (pos_shape kt F H) as (m & e & b & ->). reflexivity. Qed.
Lemma div_zero x : finite x -> 0 < val x -> fdiv fzero x = fzero.
Proof. intros F H. destruct (pos_shape x F H) as (m & e & b & ->). reflexivity. Qed.
Lemma div_by_zero x : finite x -> 0 < val x -> fdiv x fzero = finf.
Proof. intros F H. destruct (pos_shape x F H) as (m & e & b & ->). reflexivity. Qed.
Lemma mul_minf kt : finite kt -> 0 < val kt -> fmul (fopp kt) (B754_infinity true) = finf.
Proof. intros F H. destruct (pos_shape kt F H) as (m & e & b & ->). reflexivity. Qed.
Lemma mul_inf kt : finite kt -> 0 < val kt -> fmul (fopp kt) finf = B754_infinity true.
Proof. intros F H. destruct (pos_shape kt F H) as (m & e & b & ->). reflexivity. Qed.
Lemma mul_nan x y : is_nan y = true -> is_nan (fmul x y) = true.
Proof. intros H. destruct y as [s|s| |s m e b]; try discriminate H. destruct x as [s'|s'| |s' m' e' b']; reflexivity. Qed.
Lemma nan_00 : is_nan (fdiv fzero fzero) = true. Proof. reflexivity. Qed.

Lemma zero_tree t : Forall (eq fzero) (tree_leaves t) -> tree_sum t = fzero.
Proof.
  induction t as [x|a IHa b IHb]; cbn [tree_leaves tree_sum]; intros H.
  - inversion H; subst; reflexivity.
  - apply Forall_app in H. destruct H as [HA HB]. rewrite (IHa HA), (IHb HB). reflexivity.
Qed.
Lemma zero_sum np_sum l : sums np_sum -> l <> [] -> Forall (eq fzero) l -> np_sum l = fzero.
Proof.
  intros HS Hl H. destruct (HS l Hl) as (t & k & _ & P & ->). apply zero_tree. rewrite Forall_forall in *. intros x Hx.
  apply (Permutation_in _ P), in_app_or in Hx. destruct Hx as [Hx|Hx]; [now apply H|]. apply repeat_spec in Hx. now subst.
Qed.

(** ** numbers *)
Lemma two40 : 0 < / 2 ^ 40 /\ / 2 ^ 37 = 8 * / 2 ^ 40 /\ / 2 ^ 50 = / 2 ^ 40 * / 1024 /\ U = / 2 ^ 40 * / 8192 /\ / 2 ^ 32 = 256 * / 2 ^ 40 /\ / 2 ^ 29 = 2048 * / 2 ^ 40 /\ / 2 ^ 40 <= / 1000000.
Proof. unfold U. repeat split; lra. Qed.

Section Sums.
Context (fexp flog : f64 -> f64) (np_sum : list f64 -> f64) (kt : f64).
Context (HE : exp_ok fexp) (HL : log_all_ok flog) (HS : sums np_sum) (HN : ends_ok fexp flog) (HK : moderate kt).

Lemma Fk : finite kt.
Proof using HK. exact (proj1 HK). Qed.
Lemma kt_pos : 0 < val kt.
Proof using HK. destruct HK as [_ [H _]]. pose proof (bpow_gt_0 radix2 (-100)). lra. Qed.

(** the probability of a bin with c of at most cm counts *)
Definition prob_ok (cm : R) (c : Z) (p : f64) : Prop :=
  nonneg p /\ val p <= 1 /\ Rabs (val p - IZR c / cm) <= / 2 ^ 37 * (IZR c / cm) /\ (c = 0%Z -> p = fzero).

Lemma prob_zero cm : prob_ok cm 0 (fexp (fdiv (fopp finf) kt)).
Proof using HK HN.
  change (fopp finf) with (B754_infinity true : f64). rewrite (div_minf kt Fk kt_pos). destruct HN as (-> & _).
  unfold prob_ok, Rdiv. rewrite Rmult_0_l. split; [split; [reflexivity|cbn; lra]|]. cbn [B2R fzero].
  split; [lra|]. split; [|reflexivity]. rewrite Rminus_0_r, Rabs_R0. lra.
Qed.

Lemma prob_val cm c x : (0 < c <= cm)%Z -> (cm <= 2 ^ 53)%Z -> finite x -> 0 <= val x ->
  Rabs (val x - val kt * (ln (IZR cm) - ln (IZR c))) <= val kt * / 2 ^ 40 + / 2 ^ 200 -> prob_ok (IZR cm) c (fexp (fdiv (fopp x) kt)).
Proof using HE HK.
  intros Hc Hm Fx Px E. pose proof kt_pos as K0. destruct two40 as (W0 & W1 & W2 & W3 & W4 & W5 & W6).
  assert (C1 : 1 <= IZR c) by (apply IZR_le; lia). assert (CM : IZR c <= IZR cm) by (apply IZR_le; lia).
  assert (CB : IZR cm <= 2 ^ 53) by (replace (2 ^ 53) with (IZR (2 ^ 53)) by (rewrite (pow_IZR 2 53); reflexivity); apply IZR_le; lia).
  pose proof (ln_le_53 (IZR cm) ltac:(lra)) as L1. pose proof (ln_le_53 (IZR c) ltac:(lra)) as L2.
  pose proof (ln_mono (IZR c) (IZR cm) ltac:(lra) CM) as L3.
  set (l := ln (IZR cm) - ln (IZR c)) in *.
  assert (KI : 0 < / val kt <= 2 ^ 100).
  { split; [now apply Rinv_0_lt_compat|]. destruct HK as [_ [H _]]. rewrite <- (bpow_pow 100). replace (bpow radix2 (Z.of_nat 100)) with (/ bpow radix2 (-100)) by (rewrite <- bpow_opp; reflexivity).
    apply Rinv_le_contravar; [apply bpow_gt_0|exact H]. }
  (* the exponent *)
  assert (T : Rabs (val x / val kt - l) <= / 2 ^ 40 + / 2 ^ 100).
  { replace (val x / val kt - l) with ((val x - val kt * l) * / val kt) by (field; lra). rewrite Rabs_mult, (Rabs_pos_eq (/ val kt)) by lra.
    apply Rle_trans with ((val kt * / 2 ^ 40 + / 2 ^ 200) * / val kt); [apply Rmult_le_compat_r; [lra|exact E]|].
    rewrite Rmult_plus_distr_r. replace (val kt * / 2 ^ 40 * / val kt) with (/ 2 ^ 40) by (field; lra).
    apply Rplus_le_compat_l. apply Rle_trans with (/ 2 ^ 200 * 2 ^ 100); [apply Rmult_le_compat_l; [|lra]|]; lra. }
  assert (TT : 0 <= val x / val kt) by (apply Rmult_le_pos; lra).
  assert (LB : 0 <= l <= 53) by (unfold l; lra).
  assert (TB : val x / val kt <= 54) by (apply Rabs_le_inv in T; lra).
  assert (NX : near (val x) 0 (fopp x) (- val x)).
  { split; [now apply fopp_finite|]. split; [rewrite fopp_val, Rminus_diag_eq, Rabs_R0 by reflexivity; lra|]. rewrite Rabs_Ropp, Rabs_pos_eq; lra. }
  assert (HU0 : 54 <= huge) by (rewrite huge_pow; apply Rle_trans with (2 ^ 6); [lra|]; apply Rle_pow; [lra|lia]).
  pose proof (near_div _ _ _ _ kt NX Fk K0) as ND. rewrite Rplus_0_r, Rmult_0_l, Rplus_0_l in ND.
  change (val x * / val kt) with (val x / val kt) in ND. destruct (ND ltac:(lra)) as (FD & ED & _). clear ND.
  set (t := fdiv (fopp x) kt) in *. replace (- val x / val kt) with (- (val x / val kt)) in ED by (field; lra).
  destruct eta_num as [ET0 ET1].
  assert (ET2 : / 2 ^ 1000 <= / 2 ^ 100) by (apply Rinv_le_contravar; [lra|]; apply Rle_pow; [lra|lia]).
  assert (I100 : / 2 ^ 100 = / 2 ^ 40 * / 2 ^ 60) by lra.
  assert (ET3 : / 2 ^ 100 <= / 2 ^ 40 * / 1024) by lra.
  assert (UB : U * (val x / val kt) <= / 2 ^ 40 * / 100) by nra.
  assert (D : Rabs (val t - - l) <= 11 / 10 * / 2 ^ 40).
  { apply Rabs_le_inv in T, ED. apply Rabs_le. lra. }
  (* not positive *)
  assert (TN : val t <= 0).
  { unfold t. assert (Q : Rabs (rnd (val (fopp x) / val kt)) < bpow radix2 1024).
    { rewrite fopp_val. assert (A0 : Rabs (- val x / val kt) <= 54) by (replace (- val x / val kt) with (- (val x / val kt)) by (field; lra); rewrite Rabs_Ropp, Rabs_pos_eq; lra).
      destruct (near_rnd _ _ A0 HU0) as [A _]. exact A. }
    destruct (fdiv_val (fopp x) kt (fopp_finite x Fx) Fk ltac:(lra) Q) as [_ ->]. rewrite <- rnd_0. apply rnd_le. rewrite fopp_val.
    replace (- val x / val kt) with (- (val x / val kt)) by (field; lra). lra. }
  destruct HE as [HE1 _]. destruct (HE1 t FD TN) as (FP & [P0 P1] & _ & PE).
  assert (R : exp (- l) = IZR c / IZR cm).
  { unfold l. rewrite Ropp_minus_distr, <- ln_quot by lra. apply exp_ln. apply Rdiv_lt_0_compat; lra. }
  set (r := IZR c / IZR cm) in *.
  assert (R0 : / 2 ^ 53 <= r).
  { unfold r. apply Rle_trans with (1 * / IZR cm); [rewrite Rmult_1_l; apply Rinv_le_contravar; lra|]. apply Rmult_le_compat_r; [left; apply Rinv_0_lt_compat; lra|lra]. }
  assert (RP : 0 < r) by lra.
  set (dl := val t - - l) in *.
  assert (X : exp (val t) = r * exp dl) by (unfold dl; rewrite <- R, <- exp_plus; f_equal; ring).
  assert (Y : Rabs (exp dl - 1) <= 22 / 10 * / 2 ^ 40).
  { eapply Rle_trans; [apply exp_minus_1; lra|]. lra. }
  rewrite X in PE.
  assert (Z : powerRZ 2 (-1000) <= / 2 ^ 40 * / 1024 * r).
  { change (powerRZ 2 (-1000)) with (/ 2 ^ 1000)%R. apply Rle_trans with (/ 2 ^ 50 * / 2 ^ 53); [|rewrite <- W2; apply Rmult_le_compat_l; lra].
    rewrite <- Rinv_mult, <- pow_add. apply Rinv_le_contravar; [apply pow_lt; lra|]. apply Rle_pow; [lra|lia]. }
  split; [split; [exact FP|exact P0]|]. split; [exact P1|]. split; [|intros ->; lia].
  apply Rabs_le_inv in PE, Y. rewrite W2 in PE. rewrite W1.
  assert (M : 0 <= r * exp dl <= 2 * r) by (split; [apply Rmult_le_pos; [lra|left; apply exp_pos]|rewrite (Rmult_comm 2); apply Rmult_le_compat_l; lra]).
  assert (M1 : r * (exp dl - 1) <= r * (22 / 10 * / 2 ^ 40)) by (apply Rmult_le_compat_l; lra).
  assert (M2 : r * - (22 / 10 * / 2 ^ 40) <= r * (exp dl - 1)) by (apply Rmult_le_compat_l; lra).
  assert (M3 : / 2 ^ 40 * / 1024 * (r * exp dl) <= / 2 ^ 40 * / 1024 * (2 * r)) by (apply Rmult_le_compat_l; lra).
  fold r. apply Rabs_le. split; lra.
Qed.

Lemma select_val cm : 0 < cm -> forall data probs mask, Forall2 (prob_ok cm) data probs -> Forall (fun c => (0 <= c)%Z) data -> length mask = length data ->
  exists s, f_select probs mask = Ok s /\ (length s <= length data)%nat /\ Forall nonneg s /\ vsum s <= INR (length s) /\ (0 <= samples_in data mask)%Z /\
    Rabs (vsum s - IZR (samples_in data mask) / cm) <= / 2 ^ 37 * (IZR (samples_in data mask) / cm) /\
    (samples_in data mask = 0%Z -> Forall (eq fzero) s).
Proof using.
  intros HC data probs mask H. revert mask. induction H as [|c p data probs (P1 & P2 & P3 & P4) H IH]; intros [|b mask] HP HM; try discriminate.
  - exists []. split; [reflexivity|]. split; [cbn; lia|]. split; [constructor|]. split; [cbn; lra|]. split; [cbn; lia|]. split; [|constructor].
    cbn. unfold Rdiv. rewrite Rmult_0_l, Rminus_0_r, Rabs_R0. lra.
  - inversion HP as [|? ? HP1 HP2]; subst. destruct (IH mask HP2 ltac:(cbn in HM; lia)) as (s & E & LS & NS & BS & ZS & VS & OS).
    cbn [f_select samples_in]. rewrite E. cbn [bind]. destruct b; eexists; (split; [reflexivity|]).
    + split; [cbn; lia|]. split; [now constructor|]. split; [cbn [length vsum fold_right]; rewrite S_INR; fold (vsum s); lra|]. split; [lia|].
      split.
      * cbn [vsum fold_right]. fold (vsum s). rewrite plus_IZR. apply Rabs_le_inv in P3, VS.
        replace ((IZR c + IZR (samples_in data mask)) / cm) with (IZR c / cm + IZR (samples_in data mask) / cm) by (field; lra).
        apply Rabs_le. split; lra.
      * intros Q. constructor; [symmetry; apply P4; lia|apply OS; lia].
    + rewrite Z.add_0_l. split; [cbn; lia|]. split; [exact NS|]. split; [exact BS|]. split; [exact ZS|]. split; [exact VS|exact OS].
Qed.

(** the probability of a state *)
Definition state_ok (cm : R) (N : Z) (q : f64) : Prop :=
  nonneg q /\ Rabs (val q - IZR N / cm) <= 5 / 4 * / 2 ^ 32 * (IZR N / cm) /\ (N = 0%Z -> q = fzero).
Lemma state_val cm s N : 0 < cm -> (Z.of_nat (length s) <= 2 ^ 20)%Z -> Forall nonneg s -> vsum s <= INR (length s) -> (0 <= N)%Z ->
  Rabs (vsum s - IZR N / cm) <= / 2 ^ 37 * (IZR N / cm) -> (N = 0%Z -> Forall (eq fzero) s) ->
  state_ok cm N (match s with [] => fzero | _ => np_sum s end).
Proof using HS.
  intros HC HL' NS BS ZS VS OS. assert (A : 0 <= IZR N / cm) by (apply Rmult_le_pos; [apply IZR_le; lia|left; now apply Rinv_0_lt_compat]).
  destruct s as [|x s'].
  - assert (A0 : IZR N / cm = 0). { cbn in VS. apply Rabs_le_inv in VS. lra. }
    split; [split; [reflexivity|cbn; lra]|]. split; [rewrite A0; cbn; rewrite Rminus_0_r, Rabs_R0; lra|reflexivity].
  - set (s := x :: s') in *. assert (NE : s <> []) by discriminate.
    assert (LI : INR (length s) <= 2 ^ 20) by (rewrite INR_IZR_INZ; replace (2 ^ 20) with (IZR (2 ^ 20)) by (rewrite (pow_IZR 2 20); reflexivity); apply IZR_le; exact HL').
    assert (DU : INR (2 * length s) * U <= / 2 ^ 32).
    { rewrite mult_INR. change (INR 2) with 2. unfold U. assert (0 <= INR (length s)) by apply pos_INR. lra. }
    assert (D0 : 0 <= INR (2 * length s) * U) by (apply Rmult_le_pos; [apply pos_INR|left; apply U_pos]).
    assert (BB : vsum s < bpow radix2 1023).
    { apply Rle_lt_trans with (2 ^ 20); [lra|]. rewrite <- (bpow_pow 20). apply bpow_lt. lia. }
    destruct (np_sum_bounds np_sum s HS NE NS BB ltac:(lra)) as (FQ & Q1 & Q2). pose proof (vsum_nonneg s NS) as V0.
    change (match s with [] => fzero | _ :: _ => np_sum s end) with (np_sum s).
    set (q := val (np_sum s)) in *. set (d := INR (2 * length s) * U) in *. set (v := vsum s) in *. set (a := IZR N / cm) in *.
    assert (Q0 : 0 <= q) by (eapply Rle_trans; [|exact Q1]; apply Rmult_le_pos; lra).
    apply Rabs_le_inv in VS.
    assert (G1 : v * (1 - / 2 ^ 32) <= q) by (eapply Rle_trans; [|exact Q1]; apply Rmult_le_compat_l; lra).
    assert (G2 : q * (1 - / 2 ^ 32) <= v) by (eapply Rle_trans; [|exact Q2]; apply Rmult_le_compat_l; lra).
    split; [split; [exact FQ|exact Q0]|]. split; [|intros Z0; apply zero_sum; auto].
    fold q a. apply Rabs_le. split; lra.
Qed.

Lemma ln_range x : / 2 ^ 60 <= x <= 2 ^ 60 -> Rabs (ln x) <= 60.
Proof using.
  intros [A B]. assert (P : 0 < / 2 ^ 60) by (apply Rinv_0_lt_compat; lra).
  pose proof (ln_mono _ _ P A) as L1. pose proof (ln_mono x _ ltac:(lra) B) as L2. rewrite ln_Rinv in L1 by lra. rewrite ln_pow2 in *.
  pose proof ln2_small. pose proof ln_lt_2. replace (INR 60) with 60 in * by (cbn; lra). apply Rabs_le. lra.
Qed.

Lemma difference_val cm N N1 q q1 : 0 < cm <= 2 ^ 53 -> (0 <= N)%Z -> (0 <= N1)%Z -> IZR N / cm <= 2 ^ 20 -> IZR N1 / cm <= 2 ^ 20 ->
  state_ok cm N q -> state_ok cm N1 q1 -> difference_ok kt N N1 (fmul (fopp kt) (flog (fdiv q q1))).
Proof using HL HN HK.
  intros HC HZ HZ1 HB HB1 ([F P] & V & O) ([F1 P1] & V1 & O1). pose proof kt_pos as K0. pose proof Fk as K1. destruct HN as (_ & L0 & LI & LN).
  destruct two40 as (W0 & W1 & W2 & W3 & W4 & W5 & W6).
  assert (I53 : / 2 ^ 53 <= / cm) by (apply Rinv_le_contravar; lra).
  assert (POS : forall M y, (0 < M)%Z -> Rabs (y - IZR M / cm) <= 5 / 4 * / 2 ^ 32 * (IZR M / cm) -> / 2 ^ 53 <= IZR M / cm /\ 0 < y).
  { intros M y HM HV. assert (M1 : 1 <= IZR M) by (apply IZR_le; lia). assert (G : / 2 ^ 53 <= IZR M / cm).
    { apply Rle_trans with (1 * / cm); [lra|]. apply Rmult_le_compat_r; lra. }
    split; [exact G|]. apply Rabs_le_inv in HV. assert (0 < / 2 ^ 53) by (apply Rinv_0_lt_compat; lra). rewrite W4 in HV.
    assert (/ 2 ^ 40 * (IZR M / cm) <= / 1000000 * (IZR M / cm)) by (apply Rmult_le_compat_r; lra). lra. }
  unfold difference_ok. destruct (N =? 0)%Z eqn:EN; destruct (N1 =? 0)%Z eqn:EN1.
  - apply Z.eqb_eq in EN, EN1. rewrite (O EN), (O1 EN1). apply mul_nan, LN, nan_00.
  - apply Z.eqb_eq in EN. apply Z.eqb_neq in EN1. rewrite (O EN). destruct (POS N1 (val q1) ltac:(lia) V1) as [_ Q]. rewrite (div_zero q1 F1 Q), L0. now apply mul_minf.
  - apply Z.eqb_neq in EN. apply Z.eqb_eq in EN1. rewrite (O1 EN1). destruct (POS N (val q) ltac:(lia) V) as [_ Q]. rewrite (div_by_zero q F Q), LI. now apply mul_inf.
  - apply Z.eqb_neq in EN, EN1. destruct (POS N (val q) ltac:(lia) V) as [A Q]. destruct (POS N1 (val q1) ltac:(lia) V1) as [A1 Q1]. clear POS.
    assert (NP : 1 <= IZR N) by (apply IZR_le; lia). assert (NP1 : 1 <= IZR N1) by (apply IZR_le; lia).
    set (a := IZR N / cm) in *. set (a1 := IZR N1 / cm) in *.
    assert (RA : IZR N / IZR N1 = a / a1) by (unfold a, a1; field; lra). rewrite RA.
    assert (I0 : 0 < / 2 ^ 53) by (apply Rinv_0_lt_compat; lra).
    pose proof (ln_close (val q) a (5 / 4 * / 2 ^ 32) ltac:(lra) ltac:(lra) V) as E. pose proof (ln_close (val q1) a1 (5 / 4 * / 2 ^ 32) ltac:(lra) ltac:(lra) V1) as E1.
    (* the quotient *)
    assert (RQ : forall y b, Rabs (y - b) <= 5 / 4 * / 2 ^ 32 * b -> / 2 ^ 53 <= b <= 2 ^ 20 -> / 2 ^ 54 <= y <= 2 ^ 21).
    { intros y b HV HB'. apply Rabs_le_inv in HV. rewrite W4 in HV. 
      assert (/ 2 ^ 40 * b <= / 1000000 * b) by (apply Rmult_le_compat_r; lra). assert (/ 2 ^ 54 = / 2 * / 2 ^ 53) by lra. lra. }
    pose proof (RQ _ _ V (conj A HB)) as R. pose proof (RQ _ _ V1 (conj A1 HB1)) as R1. clear RQ.
    set (z := val q / val q1).
    assert (I1 : / 2 ^ 21 <= / val q1 <= 2 ^ 54).
    { split; [apply Rinv_le_contravar; lra|]. rewrite <- (Rinv_inv (2 ^ 54)). apply Rinv_le_contravar; [apply Rinv_0_lt_compat|]; lra. }
    assert (Z1 : / 2 ^ 75 <= z <= 2 ^ 75).
    { unfold z, Rdiv. split.
      - replace (/ 2 ^ 75) with (/ 2 ^ 54 * / 2 ^ 21) by lra. apply Rmult_le_compat; lra.
      - replace (2 ^ 75) with (2 ^ 21 * 2 ^ 54) by lra. apply Rmult_le_compat; lra. }
    assert (Z2 : ln z = ln (val q) - ln (val q1)) by (apply ln_quot; lra).
    assert (I75 : 0 < / 2 ^ 75) by (apply Rinv_0_lt_compat; lra).
    assert (ZN : bpow radix2 (-1022) <= Rabs z).
    { rewrite Rabs_pos_eq by lra. apply Rle_trans with (/ 2 ^ 75); [|lra]. rewrite <- (bpow_pow 75), <- bpow_opp. apply bpow_le. lia. }
    pose proof (rnd_err_normal z ZN) as RE. rewrite (Rabs_pos_eq z) in RE by lra.
    assert (RB : Rabs (rnd z) < bpow radix2 1024).
    { apply Rle_lt_trans with (2 ^ 76); [|rewrite <- (bpow_pow 76); apply bpow_lt; lia]. apply Rabs_le_inv in RE.
      assert (U * z <= 1 * z) by (apply Rmult_le_compat_r; [lra|unfold U; lra]). apply Rabs_le. lra. }
    destruct (fdiv_val q q1 F F1 ltac:(lra) RB) as [FD VD]. fold z in VD.
    set (w := fdiv q q1) in *. rewrite <- VD in RE.
    assert (WP : 0 < val w).
    { apply Rabs_le_inv in RE. assert (U * z <= / 2 * z) by (apply Rmult_le_compat_r; [lra|unfold U; lra]). lra. }
    pose proof (ln_close (val w) z U ltac:(lra) ltac:(unfold U; lra) RE) as E2.
    destruct (HL w FD WP) as [FL VL].
    assert (LA : Rabs (ln a - ln a1) <= 120).
    { pose proof (ln_range a ltac:(lra)) as X. pose proof (ln_range a1 ltac:(lra)) as X1. apply Rabs_le_inv in X, X1. apply Rabs_le. lra. }
    rewrite (ln_quot a a1) by lra.
    set (l := ln a - ln a1) in *.
    assert (EW : Rabs (ln (val w) - l) <= 5 * / 2 ^ 32 + 2 * U).
    { unfold l. apply Rabs_le_inv in E, E1, E2. rewrite Z2 in E2. apply Rabs_le. lra. }
    assert (LW : Rabs (ln (val w)) <= 121).
    { replace (ln (val w)) with ((ln (val w) - l) + l) by ring. eapply Rle_trans; [apply Rabs_triang|]. rewrite W3, W4 in EW. lra. }
    assert (ELg : Rabs (val (flog w) - l) <= 5 * / 2 ^ 32 + 2 * U + 121 * / 2 ^ 50).
    { assert (X : / 2 ^ 50 * Rabs (ln (val w)) <= / 2 ^ 50 * 121) by (apply Rmult_le_compat_l; lra).
      apply Rabs_le_inv in EW, VL. apply Rabs_le. lra. }
    (* the product *)
    assert (KB : val kt <= 2 ^ 100) by (rewrite <- (bpow_pow 100); apply HK).
    assert (NK : near (val kt) 0 (fopp kt) (- val kt)).
    { split; [now apply fopp_finite|]. split; [rewrite fopp_val, Rminus_diag_eq, Rabs_R0 by reflexivity; lra|]. rewrite Rabs_Ropp, Rabs_pos_eq; lra. }
    assert (NL : near 120 1 (flog w) l) by (split; [exact FL|]; split; [rewrite W2, W3, W4 in ELg; lra|exact LA]).
    assert (NL2 : near 120 (6 * / 2 ^ 32) (flog w) l) by (split; [exact FL|]; split; [rewrite W2, W3, W4 in *; lra|exact LA]).
    pose proof (near_mul _ _ _ _ _ _ _ _ NK NL2) as M. destruct M as (FM & EM & _).
    { rewrite huge_pow. apply Rle_trans with (2 ^ 100 * 2 ^ 7); [|rewrite <- pow_add; apply Rle_pow; [lra|lia]].
      apply Rmult_le_compat; lra. }
    split; [exact FM|]. eapply Rle_trans; [exact EM|]. destruct eta_num as [ET0 ET1].
    assert (KE : ETA <= val kt * / 2 ^ 50).
    { eapply Rle_trans; [exact ET1|]. apply Rle_trans with (/ 2 ^ 100 * / 2 ^ 50).
      - rewrite <- Rinv_mult, <- pow_add. apply Rinv_le_contravar; [apply pow_lt; lra|]. apply Rle_pow; [lra|lia].
      - apply Rmult_le_compat_r; [lra|]. rewrite <- (bpow_pow 100), <- bpow_opp. apply HK. }
    unfold U. lra.
Qed.
End Sums.
