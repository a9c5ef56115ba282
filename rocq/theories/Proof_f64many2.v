(** Densities and rates for any number of walkers in float64 arithmetic (C105) *)
From Coq Require Import Machin.
From Verif Require Import Spec_f64many Spec_f64 Spec_bd Proof_base Proof_f64 Proof_f64b Proof_f64f Proof_f64g Proof_f64s Proof_f64t Proof_f64u Proof_f64w Proof_f64x Proof_f64many.
From Verif Require Import Spec_f64ld Spec_f64bd Spec_f64many Proof_f64b.
From Flocq Require Import Core.Core.
From Coq Require Import Lia Lra.
Open Scope R_scope.
Ltac Zify.zify_post_hook ::= idtac.
#[local] Arguments bpow : simpl never.

Lemma any_density fexp fpow np_sum : exp_ok fexp -> pow_ok fpow -> sums np_sum ->
  forall bw pos, Forall moderate bw -> (1 <= length bw <= 3)%nat -> Forall (coords_ok bw) pos -> pos <> [] -> (Z.of_nat (length pos) <= 1073741824)%Z ->
  exists d, f_walker_density fexp fpow np_sum bw pos = Ok d /\ length d = length pos /\
    forall i x, nth_error d i = Some x ->
      finite x /\ 0 < val x /\ Rabs (val x - exact_density bw pos i) <= INR (length pos) * / 2 ^ 43 * exact_density bw pos i /\
      bpow radix2 (-336) <= exact_density bw pos i <= bpow radix2 297.
Proof.
  intros He Hp Hs bw pos Hbw Hdim Hpos Hn Hmax. unfold f_walker_density. destruct (Z.leb_spec (Z.of_nat (length pos)) 10000) as [L|L].
  - destruct (density_all fexp np_sum He Hs bw pos Hbw Hdim Hpos Hn L) as (d & E & Ld & HD). exists d. split; [exact E|]. split; [exact Ld|].
    intros i x Hi. destruct (HD i x Hi) as (A & B & C & D1 & D2). split; [exact A|]. split; [exact B|]. split; [exact C|]. split; [|exact D2].
    eapply Rle_trans; [|exact D1]. apply bpow_le. lia.
  - eexists. split; [reflexivity|]. now apply manual_val.
Qed.

Lemma any_rates fexp flog fpow np_sum : exp_ok fexp -> log_all_ok flog -> pow_ok fpow -> sums np_sum ->
  forall bw pos, Forall moderate bw -> (1 <= length bw <= 3)%nat -> Forall (coords_ok bw) pos -> pos <> [] -> (Z.of_nat (length pos) <= 1073741824)%Z ->
  forall v kt energies corr M, moderate kt -> length energies = length pos -> length corr = length pos -> 0 <= M <= bpow radix2 300 ->
  Forall (fun e => finite e /\ Rabs (val e / val kt) <= M) energies -> Forall (bounded M) corr ->
  exists rates, f_betas_any fexp flog fpow np_sum v kt bw pos energies corr = Ok rates /\ length rates = length pos /\
    forall i x, nth_error rates i = Some x ->
      finite x /\ Rabs (val x - exact_rate v kt bw pos energies corr i) <= INR (length pos) * (/ 2 ^ 38 + M * / 2 ^ 48).
Proof.
  intros He Hl Hp Hs bw pos Hbw Hdim Hpos Hn Hmax v kt energies corr M Hk Len Lco HM HE HC.
  destruct (any_density fexp fpow np_sum He Hp Hs bw pos Hbw Hdim Hpos Hn Hmax) as (dens & E & Ld & HD).
  destruct (rates_from_val flog np_sum Hl Hs bw pos Hn Hmax dens Ld HD v kt energies corr M Hk Len Lco HM HE HC) as (r & R1 & R2 & R3).
  exists r. split; [|split; assumption]. unfold f_betas_any. rewrite E. cbn [bind]. rewrite <- R1. destruct v; reflexivity.
Qed.

Lemma branches_agree fexp fpow np_sum : exp_ok fexp -> pow_ok fpow -> sums np_sum ->
  forall bw pos, Forall moderate bw -> (1 <= length bw <= 3)%nat -> Forall (coords_ok bw) pos -> pos <> [] -> (Z.of_nat (length pos) <= 10000)%Z ->
  exists d, f_density fexp np_sum bw pos = Ok d /\
    forall i x y, nth_error d i = Some x -> nth_error (f_density_manual fexp fpow np_sum bw pos) i = Some y ->
      Rabs (val x - val y) <= INR (length pos) * / 2 ^ 42 * exact_density bw pos i.
Proof.
  intros He Hp Hs bw pos Hbw Hdim Hpos Hn Hmax.
  destruct (density_all fexp np_sum He Hs bw pos Hbw Hdim Hpos Hn Hmax) as (d & E & Ld & HD). exists d. split; [exact E|].
  intros i x y Hx Hy. destruct (HD i x Hx) as (_ & _ & A & _).
  destruct (manual_val fexp fpow np_sum He Hp Hs bw Hbw Hdim pos Hpos Hn ltac:(lia)) as [_ HM]. destruct (HM i y Hy) as (_ & _ & B & _).
  set (e := exact_density bw pos i) in *. replace (val x - val y) with ((val x - e) - (val y - e)) by ring.
  eapply Rle_trans; [apply Rabs_triang|]. rewrite Rabs_Ropp.
  replace (INR (length pos) * / 2 ^ 42 * e) with (2 * (INR (length pos) * / 2 ^ 43 * e)) by field. lra.
Qed.

(** ** a case *)
Lemma pow_ok_inhabited : exists fpow, pow_ok fpow.
Proof.
  exists (fun x y => nearest (Rpower (val x) (val y))). intros x y Fx Fy Hx Hy. set (t := Rpower (val x) (val y)).
  assert (T : 1 <= t <= 64).
  { unfold t. split.
    - rewrite <- (Rpower_O (val x)) by lra. apply Rle_Rpower; lra.
    - apply Rle_trans with (Rpower (val x) 2); [apply Rle_Rpower; lra|]. replace 2 with (INR 2) by (cbn; lra). rewrite Rpower_pow by lra.
      apply Rle_trans with (8 ^ 2); [apply pow_incr; lra|lra]. }
  assert (E : Rabs (rnd t - t) <= U * t).
  { pose proof (rnd_err_normal t) as E. rewrite Rabs_pos_eq in E by lra. apply E. apply Rle_trans with 1; [change 1 with (bpow radix2 0); apply bpow_le; lia|lra]. }
  pose proof U_pos as HU. pose proof U_small as US. assert (UT : U * t <= 1 * t) by (apply Rmult_le_compat_r; lra).
  assert (Big : 128 < bpow radix2 1024) by (change 128 with (bpow radix2 7); apply bpow_lt; lia).
  assert (E' := E). apply Rabs_le_inv in E'.
  destruct (nearest_val t) as [F V]; [apply Rabs_lt; lra|]. split; [exact F|]. rewrite V. eapply Rle_trans; [exact E|].
  apply Rmult_le_compat_r; [lra|unfold U; lra].
Qed.

(** 10002 walkers in two dimensions *)
Definition ex_many : list (list f64) := [f_of_Z 3; f_of_Z (-2)] :: repeat [f_of_Z 0; f_of_Z 1] (Z.to_nat 10001).
Lemma many_case : exists fexp flog fpow np_sum, exp_ok fexp /\ log_all_ok flog /\ pow_ok fpow /\ sums np_sum /\ Forall moderate ex_bw /\ (1 <= length ex_bw <= 3)%nat /\
  Forall (coords_ok ex_bw) ex_many /\ ex_many <> [] /\ (10000 < Z.of_nat (length ex_many) <= 1073741824)%Z /\ moderate (f_of_Z 1) /\ 0 <= 3 <= bpow radix2 300 /\
  (let energies := map f_of_Z (3 :: repeat (-1) (Z.to_nat 10001))%Z in
   length energies = length ex_many /\ Forall (fun e => finite e /\ Rabs (val e / val (f_of_Z 1)) <= 3) energies /\ Forall (bounded 3) energies).
Proof.
  destruct rates_case as (fexp & flog & np_sum & H1 & H2 & H3 & H4 & H5 & H6 & _ & _ & H9 & H10 & H11 & _). destruct pow_ok_inhabited as [fpow Hp].
  exists fexp, flog, fpow, np_sum. split; [exact H1|]. split; [exact H2|]. split; [exact Hp|]. split; [exact H3|]. split; [exact H4|]. split; [exact H5|].
  unfold ex_pos in H6. inversion H6 as [|? ? Q1 H6']; subst. inversion H6' as [|? ? Q2 _]; subst.
  assert (LEN : Z.of_nat (length ex_many) = 10002%Z) by (unfold ex_many; cbn [length]; rewrite repeat_length, Nat2Z.inj_succ, Z2Nat.id; lia).
  split; [unfold ex_many; constructor; [exact Q2|]; apply Forall_forall; intros x Hx; apply repeat_spec in Hx; subst x; exact Q1|].
  split; [discriminate|]. split; [lia|]. split; [exact H9|]. split; [exact H10|].
  cbv zeta. split; [rewrite map_length; unfold ex_many; cbn [length]; rewrite !repeat_length; reflexivity|].
  cbn [map] in H11. inversion H11 as [|? ? E1 H11']; subst. inversion H11' as [|? ? E2 _]; subst.
  assert (V1 : val (f_of_Z 1) = 1) by (apply f_of_Z_val; lia).
  cbn [map]. split; constructor.
  - exact E1.
  - apply Forall_map, Forall_forall. intros z Hz. apply repeat_spec in Hz. subst z. exact E2.
  - destruct E1 as [F E]. split; [exact F|]. rewrite V1 in E. unfold Rdiv in E. rewrite Rinv_1, Rmult_1_r in E. exact E.
  - apply Forall_map, Forall_forall. intros z Hz. apply repeat_spec in Hz. subst z. destruct E2 as [F E]. split; [exact F|]. rewrite V1 in E. unfold Rdiv in E. rewrite Rinv_1, Rmult_1_r in E. exact E.
Qed.
