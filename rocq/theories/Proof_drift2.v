(** Regions and the example for the mean effect of a birth-death step (C102) *)
From Coq Require Import Lra Lia Permutation.
From Verif Require Import PyBase Model_dyn Model_bd Spec_grid Spec_bd Spec_rng Spec_well Spec_drift Proof_base Proof_dens Proof_bd Proof_bd2 Proof_well Proof_drift.
Open Scope R_scope.
Ltac Zify.zify_post_hook ::= idtac.

Lemma drift_any W (avg : (W -> R) -> R) rng gd par ps beta st g after f B :
  is_mean avg -> rng_ok rng -> bd_recalc par = false -> 0 <= bd_dt par -> 0 <= bd_rate par -> (2 <= length ps)%nat ->
  calc_betas gd par ps = Ok beta ->
  uniform_numbers avg (map (accept_prob (bd_dt par) (bd_rate par)) beta) (fun w => numbers rng (length ps) (g w)) ->
  fair_partners avg (map (accept_prob (bd_dt par) (bd_rate par)) beta) (fun w => numbers rng (length ps) (g w)) (fun i w => partner_number rng (length ps) i (g w)) ->
  (forall w, exists evs g' s', do_birth_death rng gd par (mkBS ps (g w) st) = Ok (evs, mkBS (after w) g' s')) ->
  Forall (fun p => Rabs (f p) <= B) ps ->
  Rabs (avg (fun w => sum_over f (after w) - sum_over f ps) - - (bd_dt par * bd_rate par * (INR (length ps) / INR (length ps - 1))) * rate_moment f beta ps)
    <= 6 * B * (bd_dt par * bd_rate par * total (map Rabs beta)) ^ 2.
Proof.
  intros HM HR Hm Hd Hr Hn Hb HU HP HA HB. destruct ps as [|p0 ps]; [cbn in Hn; lia|].
  exact (mean_change rng gd par (p0 :: ps) beta st HR Hm Hd Hr Hn Hb f B HB p0 avg HM g after HU HP HA).
Qed.

Lemma region_moment (region : particle -> bool) beta ps : length beta = length ps -> ps <> [] ->
  rate_moment (fun p => if region p then 1 else 0) beta ps = excess_rate region beta ps.
Proof.
  intros HL HN. destruct ps as [|p0 ps0]; [contradiction|]. set (ps := p0 :: ps0) in *. unfold rate_moment, excess_rate.
  rewrite (total_combine (fun b p => b * ((if region p then 1 else 0) - average (map (fun p => if region p then 1 else 0) ps))) beta ps p0 HL).
  rewrite (total_combine (fun b p => if region p then b - average beta else 0) beta ps p0 HL).
  set (h := fun i => if region (nth i ps p0) then 1 else 0). set (a := average (map (fun p => if region p then 1 else 0) ps)).
  rewrite (total_ext _ (fun i => nth i beta 0 * h i - a * nth i beta 0)) by (intros i _; unfold h; ring).
  rewrite (total_ext (fun i => if region (nth i ps p0) then nth i beta 0 - average beta else 0) (fun i => nth i beta 0 * h i - average beta * h i)) by (intros i _; unfold h; destruct (region _); ring).
  rewrite !total_minus, !total_scale. f_equal. unfold a, average. rewrite map_length, (total_seq _ ps p0), HL.
  assert (E : total beta = total (map (fun i => nth i beta 0) (seq 0 (length ps)))) by (rewrite <- HL, seq_nth_map; reflexivity). rewrite <- E.
  change (total (map (fun i => if region (nth i ps p0) then 1 else 0) (seq 0 (length ps)))) with (total (map h (seq 0 (length ps)))). unfold Rdiv. ring.
Qed.
Lemma drift_region W (avg : (W -> R) -> R) rng gd par ps beta st g after (region : particle -> bool) :
  is_mean avg -> rng_ok rng -> bd_recalc par = false -> 0 <= bd_dt par -> 0 <= bd_rate par -> (2 <= length ps)%nat ->
  calc_betas gd par ps = Ok beta ->
  uniform_numbers avg (map (accept_prob (bd_dt par) (bd_rate par)) beta) (fun w => numbers rng (length ps) (g w)) ->
  fair_partners avg (map (accept_prob (bd_dt par) (bd_rate par)) beta) (fun w => numbers rng (length ps) (g w)) (fun i w => partner_number rng (length ps) i (g w)) ->
  (forall w, exists evs g' s', do_birth_death rng gd par (mkBS ps (g w) st) = Ok (evs, mkBS (after w) g' s')) ->
  Rabs (avg (fun w => inhabitants region (after w) - inhabitants region ps) - - (bd_dt par * bd_rate par * (INR (length ps) / INR (length ps - 1))) * excess_rate region beta ps)
    <= 6 * (bd_dt par * bd_rate par * total (map Rabs beta)) ^ 2.
Proof.
  intros HM HR Hm Hd Hr Hn Hb HU HP HA.
  pose proof (drift_any W avg rng gd par ps beta st g after (fun p => if region p then 1 else 0) 1 HM HR Hm Hd Hr Hn Hb HU HP HA) as A.
  rewrite region_moment in A; [|apply (calc_betas_length _ _ _ _ Hb)|destruct ps; [cbn in Hn; lia|discriminate]].
  rewrite Rmult_1_r in A. apply A. apply Forall_forall. intros p _. destruct (region p); [rewrite Rabs_R1|rewrite Rabs_R0]; lra.
Qed.

(** ** the example *)
Definition hit (i : nat) (w : list bool) : R := if nth i w false then 1 else 0.
Section Cases.
Context (prob : list R) (H01 : Forall (fun p => 0 <= p < 1) prob) (Hn : (2 <= length prob)%nat).
Lemma cases_ok : is_mean (cases prob).
Proof using H01.
  clear Hn. split; [|split; [|split]].
  - clear H01. induction prob as [|p l IH]; intros f g H; cbn [cases]; [apply H|]. rewrite (IH _ _ (fun w => H (true :: w))), (IH _ _ (fun w => H (false :: w))). reflexivity.
  - clear H01. induction prob as [|p l IH]; intros a f g; cbn [cases]; [reflexivity|]. rewrite !IH. ring.
  - induction H01 as [|p l Hp Hl IH]; intros f H; cbn [cases]; [apply H|]. pose proof (IH Hl _ (fun w => H (true :: w))). pose proof (IH Hl _ (fun w => H (false :: w))).
    assert (0 <= p * cases l (fun w => f (true :: w))) by (apply Rmult_le_pos; lra). assert (0 <= (1 - p) * cases l (fun w => f (false :: w))) by (apply Rmult_le_pos; lra). lra.
  - clear H01. induction prob as [|p l IH]; cbn [cases]; [reflexivity|]. rewrite IH. ring.
Qed.
End Cases.
Lemma cases_hit prob : Forall (fun p => 0 <= p < 1) prob -> forall i, (i < length prob)%nat -> cases prob (hit i) = nth i prob 0.
Proof.
  induction 1 as [|p l Hp Hl IH]; intros i Hi; [cbn in Hi; lia|]. cbn [cases]. pose proof (cases_ok l Hl) as M. destruct i as [|i].
  - unfold hit. cbn [nth]. destruct M as (_ & _ & _ & O). rewrite O. rewrite (mean_zero _ (cases_ok l Hl)). ring.
  - change (p * cases l (hit i) + (1 - p) * cases l (hit i) = nth i l 0). rewrite IH by (cbn in Hi; lia). ring.
Qed.
Lemma cases_hits prob : Forall (fun p => 0 <= p < 1) prob -> forall i j, (i < length prob)%nat -> (j < length prob)%nat -> i <> j ->
  cases prob (fun w => hit i w * hit j w) = nth i prob 0 * nth j prob 0.
Proof.
  induction 1 as [|p l Hp Hl IH]; intros i j Hi Hj N; [cbn in Hi; lia|]. cbn [cases]. pose proof (cases_ok l Hl) as M. pose proof M as (E & _).
  destruct i as [|i], j as [|j]; try lia; cbn [length] in *.
  - rewrite (E _ (hit j)) by (intros w; unfold hit; cbn [nth]; ring). rewrite (E (fun w => hit 0 (false :: w) * hit (S j) (false :: w)) (fun _ => 0)) by (intros w; unfold hit; cbn [nth]; ring).
    rewrite (mean_zero _ M), cases_hit by (assumption || lia). cbn [nth]. ring.
  - rewrite (E _ (hit i)) by (intros w; unfold hit; cbn [nth]; ring). rewrite (E (fun w => hit (S i) (false :: w) * hit 0 (false :: w)) (fun _ => 0)) by (intros w; unfold hit; cbn [nth]; ring).
    rewrite (mean_zero _ M), cases_hit by (assumption || lia). cbn [nth]. ring.
  - change (p * cases l (fun w => hit i w * hit j w) + (1 - p) * cases l (fun w => hit i w * hit j w) = nth i l 0 * nth j l 0). rewrite IH by lia. ring.
Qed.
Section Example_.
Context (prob : list R) (H01 : Forall (fun p => 0 <= p < 1) prob) (Hn : (2 <= length prob)%nat).
Let n := length prob.
Lemma N1 : 0 < INR (n - 1). Proof using Hn. apply lt_0_INR. unfold n. lia. Qed.
Lemma cases_avg_ok : is_mean (cases_avg prob).
Proof using All.
  pose proof N1 as P. pose proof (cases_ok prob H01) as (E & L & Q & O). unfold cases_avg. fold n. split; [|split; [|split]].
  - intros f g H. f_equal. apply total_ext. intros k _. apply E. intros w. apply H.
  - intros a f g. rewrite (total_ext _ (fun k => a * cases prob (fun w => f (w, k)) + cases prob (fun w => g (w, k)))) by (intros k _; apply L).
    rewrite total_map_plus, total_scale. unfold Rdiv. ring.
  - intros f H. apply Rmult_le_pos; [|left; apply Rinv_0_lt_compat; exact P]. apply total_nonneg. intros k _. apply Q. intros w. apply H.
  - rewrite (total_ext _ (fun _ => 1)) by (intros k _; exact O). rewrite total_map_const, seq_length. field. lra.
Qed.
Lemma cases_avg_fst (f : list bool -> R) : cases_avg prob (fun w => f (fst w)) = cases prob f.
Proof using All.
  pose proof N1 as P. unfold cases_avg. fold n. cbn [fst]. rewrite (total_ext _ (fun _ => cases prob f)) by (intros k _; reflexivity). rewrite total_map_const, seq_length. field. lra.
Qed.
Lemma case_accepted i w : (i < n)%nat -> accepted (nth i (numbers list_rng n (case_state prob w)) 0) (nth i prob 0) = hit i (fst w).
Proof using All.
  intros Hi. unfold numbers. cbn [list_rng r_random fst]. rewrite (nth_map_in _ _ _ _ 0%nat) by (rewrite seq_length; exact Hi). rewrite seq_nth by exact Hi.
  cbn [plus]. unfold case_state. cbn [fst]. rewrite (nth_map_in _ _ _ _ 0%nat) by (rewrite seq_length; exact Hi). rewrite seq_nth by exact Hi. cbn [plus].
  assert (P : 0 <= nth i prob 0 < 1) by (rewrite Forall_forall in H01; apply H01; apply nth_In; exact Hi).
  unfold hit, accepted, clip. destruct (nth i (fst w) false).
  - destruct (Rle_dec 0 0); [|lra]. destruct (Rlt_dec 0 1); [|lra]. destruct (Rle_dec 0 (nth i prob 0)); [reflexivity|lra].
  - destruct (Rle_dec 0 ((nth i prob 0 + 1) / 2)); [|lra]. destruct (Rlt_dec ((nth i prob 0 + 1) / 2) 1); [|lra]. destruct (Rle_dec _ _); [lra|reflexivity].
Qed.
Lemma cases_uniform : uniform_numbers (cases_avg prob) prob (fun w => numbers list_rng n (case_state prob w)).
Proof using All.
  pose proof cases_avg_ok as (E & _). split.
  - intros i Hi. rewrite (E _ (fun w => hit i (fst w))) by (intros w; apply case_accepted; exact Hi). rewrite cases_avg_fst. apply cases_hit; assumption.
  - intros i j Hi Hj N. rewrite (E _ (fun w => hit i (fst w) * hit j (fst w))) by (intros w; rewrite !case_accepted by assumption; reflexivity).
    rewrite (cases_avg_fst (fun w => hit i w * hit j w)). apply cases_hits; assumption.
Qed.
Lemma cases_fair : fair_partners (cases_avg prob) prob (fun w => numbers list_rng n (case_state prob w)) (fun i w => partner_number list_rng n i (case_state prob w)).
Proof using All.
  pose proof cases_avg_ok as (E & _). pose proof N1 as P. intros i k Hi Hk. fold n in Hk |- *.
  rewrite (E _ (fun w => hit i (fst w) * equals (Nat.min (snd w) (n - 1 - 1)) k)) by (intros w; rewrite case_accepted by assumption; reflexivity).
  unfold cases_avg. fold n. cbn [fst snd]. f_equal.
  rewrite (total_ext _ (fun k' => nth i prob 0 * equals k' k)).
  - rewrite total_scale. assert (Q : total (map (fun k' => equals k' k) (seq 0 (n - 1))) = 1); [|rewrite Q; ring].
    assert (Q : forall l, NoDup l -> total (map (fun k' => equals k' k) l) = if in_dec Nat.eq_dec k l then 1 else 0).
    { induction l as [|a l IH]; intros ND; [reflexivity|]. inversion ND; subst. cbn [map]. change (equals a k + total (map (fun k' => equals k' k) l) = if in_dec Nat.eq_dec k (a :: l) then 1 else 0). rewrite IH by assumption.
      unfold equals. destruct (Nat.eqb_spec a k) as [->|NE].
      - destruct (in_dec Nat.eq_dec k l); [contradiction|]. destruct (in_dec Nat.eq_dec k (k :: l)) as [_|N]; [ring|exfalso; apply N; left; reflexivity].
      - destruct (in_dec Nat.eq_dec k l) as [I|I]; destruct (in_dec Nat.eq_dec k (a :: l)) as [J|J]; try ring.
        + exfalso. apply J. right. exact I.
        + exfalso. destruct J as [J|J]; [contradiction|contradiction]. }
    rewrite Q by apply seq_NoDup. destruct (in_dec Nat.eq_dec k (seq 0 (n - 1))) as [_|N]; [reflexivity|]. exfalso. apply N. apply in_seq. lia.
  - intros k' Hk'. apply in_seq in Hk'. rewrite Nat.min_l by lia. pose proof (cases_ok prob H01) as M. pose proof M as (E' & _).
    rewrite (E' _ (fun w => equals k' k * hit i w)) by (intros; ring). rewrite (avg_scale _ M), cases_hit by assumption. ring.
Qed.
End Example_.
Lemma list_rng_ok : rng_ok list_rng.
Proof.
  split; cbn.
  - intros n g. apply repeat_length.
  - intros n g. rewrite map_length, seq_length. reflexivity.
  - intros n g. apply Forall_forall. intros x Hx. apply in_map_iff in Hx as (i & <- & _). unfold clip. destruct (Rle_dec _ _); [|lra]. destruct (Rlt_dec _ _); lra.
  - intros. apply Permutation_refl.
  - intros. lia.
  - intros. lra.
  - intros. lia.
Qed.
(** three walkers at the same place with energies 0, 1 and 5 *)
Definition three_walkers : list particle := [mkP [0] [0] 1 0 [] 0; mkP [0] [0] 1 1 [] 0; mkP [0] [0] 1 5 [] 0].
Lemma three_betas gd : calc_betas gd (demo_par false) three_walkers = Ok [-2; -1; 3].
Proof.
  rewrite (betas_orig 1); [|reflexivity|apply demo_ok; repeat constructor|discriminate].
  rewrite center_map. cbn [three_walkers map p_energy demo_par bd_bw bd_kt]. f_equal.
  unfold log_density. cbn [p_pos]. set (L := ln _). unfold average, total. cbn. f_equal; [|f_equal; [|f_equal]]; field.
Qed.
Lemma three_probs : Forall (fun p => 0 <= p < 1) (map (accept_prob 1 1) [-2; -1; 3]).
Proof.
  apply Forall_forall. intros p Hp. apply in_map_iff in Hp as (b & <- & _). unfold accept_prob.
  destruct (prob_first_order (Rabs b * 1 * 1)) as (A & _ & C); [pose proof (Rabs_pos b); lra|lra].
Qed.
