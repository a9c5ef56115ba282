(** Example and refutation for the mode that recalculates (C103) *)
From Coq Require Import Lra Lia Permutation.
From Verif Require Import PyBase Model_dyn Model_bd Spec_grid Spec_bd Spec_bdrun Spec_rng Spec_well Spec_drift Spec_drift2 Proof_base Proof_dens Proof_bd Proof_bd2 Proof_well Proof_drift Proof_drift2 Proof_drift3.
Open Scope R_scope.
Ltac Zify.zify_post_hook ::= idtac.

Lemma recalc_any W (avg : (W -> R) -> R) rng gd par ps beta st g after f B bmax :
  is_mean avg -> rng_ok rng -> bd_recalc par = true -> 0 <= bd_dt par -> 0 <= bd_rate par -> (2 <= length ps)%nat ->
  calc_betas gd par ps = Ok beta -> rates_bounded gd par ps bmax ->
  uniform_numbers avg (repeat (accept_prob (bd_dt par) (bd_rate par) bmax) (length ps)) (fun w => numbers rng (length ps) (g w)) ->
  fair_partners avg (map (accept_prob (bd_dt par) (bd_rate par)) beta) (fun w => numbers rng (length ps) (g w)) (fun _ w => first_partner rng (length ps) (g w)) ->
  (forall w, exists evs g' s', do_birth_death rng gd par (mkBS ps (g w) st) = Ok (evs, mkBS (after w) g' s')) ->
  Forall (fun p => Rabs (f p) <= B) ps ->
  Rabs (avg (fun w => sum_over f (after w) - sum_over f ps) - bd_dt par * bd_rate par * (INR (length ps) / INR (length ps - 1)) * rate_moment f beta ps)
    <= 6 * B * (bd_dt par * bd_rate par * (INR (length ps) * bmax)) ^ 2.
Proof.
  intros HM HR Hm Hd Hr Hn Hb Hx HU HP HA HB. destruct ps as [|p0 ps]; [cbn in Hn; lia|].
  pose proof (recalc_mean rng gd par (p0 :: ps) beta st bmax HR Hm Hd Hr Hn Hb Hx f B HB p0 avg HM g after HU HP HA) as A.
  match type of A with _ <= 6 * B * ?X ^ 2 => replace (bd_dt par * bd_rate par * (INR (length (p0 :: ps)) * bmax)) with X by ring end. exact A.
Qed.
Lemma recalc_region W (avg : (W -> R) -> R) rng gd par ps beta st g after (region : particle -> bool) bmax :
  is_mean avg -> rng_ok rng -> bd_recalc par = true -> 0 <= bd_dt par -> 0 <= bd_rate par -> (2 <= length ps)%nat ->
  calc_betas gd par ps = Ok beta -> rates_bounded gd par ps bmax ->
  uniform_numbers avg (repeat (accept_prob (bd_dt par) (bd_rate par) bmax) (length ps)) (fun w => numbers rng (length ps) (g w)) ->
  fair_partners avg (map (accept_prob (bd_dt par) (bd_rate par)) beta) (fun w => numbers rng (length ps) (g w)) (fun _ w => first_partner rng (length ps) (g w)) ->
  (forall w, exists evs g' s', do_birth_death rng gd par (mkBS ps (g w) st) = Ok (evs, mkBS (after w) g' s')) ->
  Rabs (avg (fun w => inhabitants region (after w) - inhabitants region ps) - bd_dt par * bd_rate par * (INR (length ps) / INR (length ps - 1)) * excess_rate region beta ps)
    <= 6 * (bd_dt par * bd_rate par * (INR (length ps) * bmax)) ^ 2.
Proof.
  intros HM HR Hm Hd Hr Hn Hb Hx HU HP HA.
  pose proof (recalc_any W avg rng gd par ps beta st g after (fun p => if region p then 1 else 0) 1 bmax HM HR Hm Hd Hr Hn Hb Hx HU HP HA) as A.
  rewrite region_moment in A; [|apply (calc_betas_length _ _ _ _ Hb)|destruct ps; [cbn in Hn; lia|discriminate]].
  rewrite Rmult_1_r in A. apply A. apply Forall_forall. intros p _. destruct (region p); [rewrite Rabs_R1|rewrite Rabs_R0]; lra.
Qed.

(** ** two walkers *)
Lemma two_same gd t ps : calc_betas gd (two_par t) ps = calc_betas gd (demo_par true) ps. Proof. reflexivity. Qed.
Lemma two_betas gd t : calc_betas gd (two_par t) two_walkers = Ok [-1; 1]. Proof. rewrite two_same. apply demo_betas. Qed.
Lemma two_betas' gd t : calc_betas gd (two_par t) [mkP [0] [0] 1 2 [] 0; mkP [0] [0] 1 0 [] 0] = Ok [1; -1].
Proof.
  rewrite two_same, (betas_orig 1); [|reflexivity|apply demo_ok; repeat constructor|discriminate].
  rewrite center_map. cbn [map p_energy demo_par bd_bw bd_kt]. f_equal.
  unfold log_density. cbn [p_pos]. set (L := ln _). unfold average, total. cbn. f_equal; [|f_equal]; field.
Qed.
Lemma two_bounded gd t : rates_bounded gd (two_par t) two_walkers 1.
Proof.
  intros ws beta H L E. destruct ws as [|a [|b [|c ws]]]; try (cbn in L; lia). 
  assert (Ha := H a (or_introl eq_refl)). assert (Hb := H b (or_intror (or_introl eq_refl))). clear H L.
  assert (Q : forall x, x = 0 \/ x = 1 \/ x = -1 -> Rabs x <= 1) by (intros x [->|[->| ->]]; unfold Rabs; destruct (Rcase_abs _); lra).
  destruct Ha as [<-|[<-|[]]], Hb as [<-|[<-|[]]].
  - rewrite two_same, demo_betas_equal in E by reflexivity. injection E as <-. constructor; [apply Q; tauto|constructor; [apply Q; tauto|constructor]].
  - change (calc_betas gd (two_par t) two_walkers = Ok beta) in E. rewrite two_betas in E. injection E as <-. constructor; [apply Q; tauto|constructor; [apply Q; tauto|constructor]].
  - rewrite two_betas' in E. injection E as <-. constructor; [apply Q; tauto|constructor; [apply Q; tauto|constructor]].
  - rewrite two_same, demo_betas_equal in E by reflexivity. injection E as <-. constructor; [apply Q; tauto|constructor; [apply Q; tauto|constructor]].
Qed.
Definition two_prob (t : R) : R := 1 - exp (- t).
Lemma two_prob_01 t : 0 < t -> 0 < two_prob t < 1.
Proof. intros H. unfold two_prob. pose proof (exp_pos (- t)). assert (exp (- t) < exp 0) by (apply exp_increasing; lra). rewrite exp_0 in *. lra. Qed.
Lemma two_accept t b : Rabs b = 1 -> accept_prob (bd_dt (two_par t)) (bd_rate (two_par t)) b = two_prob t.
Proof. intros H. unfold accept_prob, two_prob. cbn. rewrite H. do 2 f_equal. ring. Qed.
Lemma two_accept0 t : accept_prob (bd_dt (two_par t)) (bd_rate (two_par t)) 0 = 0.
Proof. unfold accept_prob. cbn. rewrite Rabs_R0. replace (- (0 * t * 1)) with 0 by ring. rewrite exp_0. ring. Qed.

Lemma two_run gd t w st : 0 < t -> exists evs after g' s',
  do_birth_death list_rng gd (two_par t) (mkBS (rng := list_rng) two_walkers (case_state [two_prob t; two_prob t] w) st) = Ok (evs, mkBS after g' s').
Proof.
  intros Ht. pose proof (two_prob_01 t Ht) as P.
  assert (Y1 : forall b, Rabs b = 1 -> leb 0 (event_prob (two_par t) b) = true).
  { intros b Hb. rewrite event_prob_eq, two_accept by exact Hb. unfold leb. destruct (Rle_dec _ _); [reflexivity|lra]. }
  assert (Y2 : forall b, b = -1 \/ b = 1 \/ b = 0 -> leb ((two_prob t + 1) / 2) (event_prob (two_par t) b) = false).
  { intros b Hb. rewrite event_prob_eq. unfold leb. destruct (Rle_dec _ _) as [Q|Q]; [exfalso|reflexivity]. destruct Hb as [->|[->| ->]].
    - rewrite two_accept in Q by (unfold Rabs; destruct (Rcase_abs _); lra). lra.
    - rewrite two_accept in Q by (unfold Rabs; destruct (Rcase_abs _); lra). lra.
    - rewrite two_accept0 in Q. lra. }
  assert (Y3 : leb 0 (event_prob (two_par t) 0) = true) by (rewrite event_prob_eq, two_accept0; unfold leb; destruct (Rle_dec _ _); [reflexivity|lra]).
  assert (Rm : Rabs (-1) = 1) by (unfold Rabs; destruct (Rcase_abs _); lra).
  unfold do_birth_death. cbn [bs_ps]. rewrite two_betas. cbn [bind].
  set (rand := r_random list_rng (length two_walkers) (bs_rng (mkBS (rng := list_rng) two_walkers (case_state [two_prob t; two_prob t] w) st))).
  assert (Er : exists r0 r1, rand = ([r0; r1], case_state [two_prob t; two_prob t] w) /\ (r0 = 0 \/ r0 = (two_prob t + 1) / 2) /\ (r1 = 0 \/ r1 = (two_prob t + 1) / 2)).
  { assert (Q : forall b : bool, clip (if b then 0 else (two_prob t + 1) / 2) = 0 \/ clip (if b then 0 else (two_prob t + 1) / 2) = (two_prob t + 1) / 2).
    { intros b. unfold clip. destruct b; [left; destruct (Rle_dec 0 0); [destruct (Rlt_dec 0 1)|]; lra|right]. destruct (Rle_dec _ _); [destruct (Rlt_dec _ _); lra|lra]. }
    unfold rand. cbn [bs_rng]. cbn -[clip case_state]. eexists _, _. split; [reflexivity|]. unfold case_state. cbn -[clip Rdiv]. split; apply Q. }
  destruct Er as (r0 & r1 & Er & C0 & C1). rewrite Er. clear Er rand. change (negb (bd_recalc (two_par t))) with false. cbn match. cbn [bs_rng bs_ps bs_stats].
  change (r_shuffle list_rng (seq 0 (length two_walkers)) (case_state [two_prob t; two_prob t] w)) with ([0; 1]%nat, case_state [two_prob t; two_prob t] w). cbn match.
  change (length two_walkers) with 2%nat.
  assert (RO : forall i g, (i < 2)%nat -> exists g', random_other list_rng 2 i g = Ok (1 - i, g')%nat).
  { intros i g Hi. unfold random_other. cbn [Nat.leb]. cbn. replace (Nat.min (snd g) 0) with 0%nat by lia. destruct i as [|[|i]]; [| |lia]; cbn; eexists; reflexivity. }
  assert (N01 : forall e, (fst e < 2)%nat -> (snd e < 2)%nat -> forall a b, exists a' , perform_moves [a; b] [e] = Ok a' /\ ((a' = [a; b] \/ a' = [b; a]) \/ a' = [a; a] \/ a' = [b; b])).
  { intros [d k] H1 H2 a b. cbn in H1, H2. destruct d as [|[|]]; [| |lia]; (destruct k as [|[|]]; [| |lia]); cbn; eexists; split; try reflexivity; tauto. }
  assert (L2 : forall p r c evs s, length (p_pos p) = 1%nat -> (r = 0 \/ r = (two_prob t + 1) / 2) -> exists e' after g' s',
    recalc_loop list_rng gd (two_par t) 2 [r0; r] [1%nat] [0; 0] (Some (0, 1)%nat) evs (mkBS (rng := list_rng) [p; p] c s) = Ok (e', mkBS after g' s') /\ True).
  { intros p r c evs s Hp Hr. cbn [recalc_loop]. unfold at_; cbn [nth_error bind bs_stats bs_rng bs_ps]. rewrite gtb_false, ltb_false by lra.
    destruct Hr as [->| ->].
    - rewrite Y3. destruct (RO 1%nat c ltac:(lia)) as (g' & ->). cbn [bind]. cbn [perform_moves nth_error]. cbn -[calc_betas two_par].
      rewrite two_same, demo_betas_equal by exact Hp. cbn [bind]. eexists _, _, _, _. split; [reflexivity|exact I].
    - rewrite Y2 by tauto. eexists _, _, _, _. split; [reflexivity|exact I]. }
  assert (L2' : forall p r c evs s, length (p_pos p) = 1%nat -> (r = 0 \/ r = (two_prob t + 1) / 2) -> exists e' after g' s',
    recalc_loop list_rng gd (two_par t) 2 [r0; r] [1%nat] [0; 0] (Some (1, 0)%nat) evs (mkBS (rng := list_rng) [p; p] c s) = Ok (e', mkBS after g' s') /\ True).
  { intros p r c evs s Hp Hr. cbn [recalc_loop]. unfold at_; cbn [nth_error bind bs_stats bs_rng bs_ps]. rewrite gtb_false, ltb_false by lra.
    destruct Hr as [->| ->].
    - rewrite Y3. destruct (RO 1%nat c ltac:(lia)) as (g' & ->). cbn [bind]. cbn -[calc_betas two_par].
      rewrite two_same, demo_betas_equal by exact Hp. cbn [bind]. eexists _, _, _, _. split; [reflexivity|exact I].
    - rewrite Y2 by tauto. eexists _, _, _, _. split; [reflexivity|exact I]. }
  clear N01.
  remember [1%nat] as rest eqn:Erest. cbn [recalc_loop]. unfold at_ at 1 2. cbn [nth_error bind bs_stats bs_rng bs_ps]. rewrite (gtb_false (-1) 0), (ltb_true (-1) 0) by lra.
  destruct C0 as [->| ->].
  - rewrite Y1 by exact Rm. destruct (RO 0%nat (case_state [two_prob t; two_prob t] w) ltac:(lia)) as (g' & ->). cbn [bind Nat.sub]. subst rest.
    unfold two_walkers. cbn -[calc_betas two_par recalc_loop]. rewrite two_same, demo_betas_equal by reflexivity. cbn [bind].
    destruct (L2' (mkP [0] [0] 1 2 [] 0) r1 g' [(1, 0)%nat] (add_dup (add_attempts st 1 0)) eq_refl C1) as (e' & after & g2 & s' & E & _). exists e', after, g2, s'. exact E.
  - rewrite Y2 by tauto. subst rest. cbn [recalc_loop]. unfold at_. cbn [nth_error bind bs_stats bs_rng bs_ps]. rewrite (gtb_true 1 0), (ltb_false 1 0) by lra.
    destruct C1 as [->| ->].
    + rewrite Y1 by exact Rabs_R1. destruct (RO 1%nat (case_state [two_prob t; two_prob t] w) ltac:(lia)) as (g' & ->). cbn [bind Nat.sub].
      unfold two_walkers. cbn -[calc_betas two_par recalc_loop]. rewrite two_same, demo_betas_equal by reflexivity. cbn [bind].
      eexists _, _, _, _. reflexivity.
    + rewrite Y2 by tauto. eexists _, _, _, _. reflexivity.
Qed.
Definition two_after (gd : griddata_t R) (t : R) (w : list bool * nat) : list particle :=
  match do_birth_death list_rng gd (two_par t) (mkBS (rng := list_rng) two_walkers (case_state [two_prob t; two_prob t] w) stats0) with
  | Ok (_, s) => bs_ps s | Err _ => [] end.
Lemma two_instance gd t : 0 < t ->
  let avg := cases_avg [two_prob t; two_prob t] in let g := case_state [two_prob t; two_prob t] in let par := two_par t in
  is_mean avg /\ rng_ok list_rng /\ bd_recalc par = true /\ calc_betas gd par two_walkers = Ok [-1; 1] /\ rates_bounded gd par two_walkers 1 /\
  uniform_numbers avg (repeat (accept_prob (bd_dt par) (bd_rate par) 1) 2) (fun w => numbers list_rng 2 (g w)) /\
  fair_partners avg (map (accept_prob (bd_dt par) (bd_rate par)) [-1; 1]) (fun w => numbers list_rng 2 (g w)) (fun _ w => first_partner list_rng 2 (g w)) /\
  (forall w, exists evs g' s', do_birth_death list_rng gd par (mkBS two_walkers (g w) stats0) = Ok (evs, mkBS (two_after gd t w) g' s')).
Proof.
  intros Ht. cbv zeta. pose proof (two_prob_01 t Ht) as P. set (prob := [two_prob t; two_prob t]).
  assert (P01 : Forall (fun p => 0 <= p < 1) prob) by (constructor; [lra|constructor; [lra|constructor]]). assert (L : (2 <= length prob)%nat) by (cbn; lia).
  assert (Rm : Rabs (-1) = 1) by (unfold Rabs; destruct (Rcase_abs _); lra).
  split; [exact (cases_avg_ok prob P01 L)|]. split; [exact list_rng_ok|]. split; [reflexivity|]. split; [apply two_betas|]. split; [apply two_bounded|].
  split; [|split].
  - rewrite two_accept by exact Rabs_R1. exact (cases_uniform prob P01 L).
  - cbn [map]. rewrite !two_accept by (exact Rabs_R1 || exact Rm). exact (cases_fair prob P01 L).
  - intros w. destruct (two_run gd t w stats0 Ht) as (evs & after & g' & s' & E). exists evs, g', s'. unfold two_after. fold prob in E |- *. rewrite E. reflexivity.
Qed.
Definition upper (p : particle) : bool := if Rlt_dec 1 (p_energy p) then true else false.
Lemma two_excess : excess_rate upper [-1; 1] two_walkers = 1.
Proof.
  unfold excess_rate, two_walkers, upper, average, total. cbn [combine map fst snd p_energy fold_right length]. destruct (Rlt_dec 1 0); [lra|]. destruct (Rlt_dec 1 2); [|lra]. cbn [INR]. field.
Qed.
Lemma recalc_refuted gd C : exists W (avg : (W -> R) -> R) rng par ps beta st g after (region : particle -> bool) bmax,
  is_mean avg /\ rng_ok rng /\ bd_recalc par = true /\ 0 <= bd_dt par /\ 0 <= bd_rate par /\ (2 <= length ps)%nat /\
  calc_betas gd par ps = Ok beta /\ rates_bounded gd par ps bmax /\
  uniform_numbers avg (repeat (accept_prob (bd_dt par) (bd_rate par) bmax) (length ps)) (fun w => numbers rng (length ps) (g w)) /\
  fair_partners avg (map (accept_prob (bd_dt par) (bd_rate par)) beta) (fun w => numbers rng (length ps) (g w)) (fun _ w => first_partner rng (length ps) (g w)) /\
  (forall w, exists evs g' s', do_birth_death rng gd par (mkBS ps (g w) st) = Ok (evs, mkBS (after w) g' s')) /\
  ~ Rabs (avg (fun w => inhabitants region (after w) - inhabitants region ps) - - (bd_dt par * bd_rate par * (INR (length ps) / INR (length ps - 1))) * excess_rate region beta ps)
    <= C * (bd_dt par * bd_rate par * (INR (length ps) * bmax)) ^ 2.
Proof.
  set (t := / (7 + Rabs C)). pose proof (Rabs_pos C) as C0. assert (Ht : 0 < t) by (apply Rinv_0_lt_compat; lra).
  destruct (two_instance gd t Ht) as (H1 & H2 & H3 & H4 & H5 & H6 & H7 & H8).
  exists (list bool * nat)%type, (cases_avg [two_prob t; two_prob t]), list_rng, (two_par t), two_walkers, [-1; 1], stats0, (case_state [two_prob t; two_prob t]), (two_after gd t), upper, 1.
  change (length two_walkers) with 2%nat in *.
  split; [exact H1|]. split; [exact H2|]. split; [exact H3|]. split; [cbn; lra|]. split; [cbn; lra|]. split; [lia|]. split; [exact H4|]. split; [exact H5|]. split; [exact H6|]. split; [exact H7|]. split; [exact H8|].
  intros Q. pose proof (recalc_region _ _ list_rng gd (two_par t) two_walkers [-1; 1] stats0 _ (two_after gd t) upper 1 H1 H2 H3 ltac:(cbn; lra) ltac:(cbn; lra) ltac:(cbn; lia) H4 H5 H6 H7 H8) as A.
  change (length two_walkers) with 2%nat in A. rewrite two_excess in Q, A. set (m := cases_avg _ _) in *. cbn [two_par bd_dt bd_rate] in Q, A. change (INR (2 - 1)) with 1 in Q, A. change (INR 2) with (1 + 1) in Q, A.
  assert (E1 : (t * 1 * ((1 + 1) * 1)) ^ 2 = 4 * (t * t)) by ring. rewrite E1 in Q, A.
  replace (m - - (t * 1 * ((1 + 1) / 1)) * 1) with (m + 2 * t) in Q by field. replace (m - t * 1 * ((1 + 1) / 1) * 1) with (m - 2 * t) in A by field.
  assert (RI : forall x y, Rabs x <= y -> - y <= x <= y) by (intros x y H; unfold Rabs in H; destruct (Rcase_abs x); lra).
  apply RI in Q. apply RI in A.
  assert (T1 : t * (7 + Rabs C) = 1) by (unfold t; field; lra). pose proof (Rle_abs C) as C1.
  assert (T2 : C * (4 * (t * t)) <= Rabs C * (4 * (t * t))) by (apply Rmult_le_compat_r; nra).
  assert (T3 : (7 + Rabs C) * (t * t) = t) by (rewrite Rmult_comm, Rmult_assoc, T1; ring). nra.
Qed.
