(** Mean effect of a step of the mode that recalculates (C103) *)
From Coq Require Import Lra Lia Permutation.
From Verif Require Import PyBase Model_dyn Model_bd Spec_grid Spec_bd Spec_bdrun Spec_rng Spec_well Spec_drift Spec_drift2 Proof_base Proof_dens Proof_bd Proof_bd2 Proof_well Proof_drift Proof_drift2.
Open Scope R_scope.
Ltac Zify.zify_post_hook ::= idtac.

Lemma nth_repeat_lt (a : R) m i : (i < m)%nat -> nth i (repeat a m) 0 = a.
Proof. revert i. induction m as [|m IH]; intros [|i] H; cbn; try lia; [reflexivity|apply IH; lia]. Qed.
Section Recalc.
Context (rng : rng_if) (gd : griddata_t R) (par : bdpar) (ps : list particle) (beta : list R) (st : stats) (bmax : R).
Context (HR : rng_ok rng) (Hmode : bd_recalc par = true) (Hdt : 0 <= bd_dt par) (Hrate : 0 <= bd_rate par) (Hn : (2 <= length ps)%nat)
  (Hbeta : calc_betas gd par ps = Ok beta) (Hmax : rates_bounded gd par ps bmax).
Let n := length ps.
Let pr := accept_prob (bd_dt par) (bd_rate par).
Let P := pr bmax.
Lemma bmax_nonneg : 0 <= bmax.
Proof using All.
  pose proof (Hmax ps beta (fun p H => H) eq_refl Hbeta) as F. pose proof (calc_betas_length _ _ _ _ Hbeta) as L.
  destruct beta as [|b l]; [cbn in L; lia|]. inversion F; subst. pose proof (Rabs_pos b). lra.
Qed.
Lemma pr_le b : Rabs b <= bmax -> pr b <= P.
Proof using All.
  intros H. pose proof bmax_nonneg as B0. unfold P, pr, accept_prob. rewrite (Rabs_right bmax) by lra.
  assert (A : Rabs b * bd_dt par * bd_rate par <= bmax * bd_dt par * bd_rate par) by (apply Rmult_le_compat_r; [exact Hrate|apply Rmult_le_compat_r; assumption]).
  destruct (Req_dec (Rabs b * bd_dt par * bd_rate par) (bmax * bd_dt par * bd_rate par)) as [->|N]; [lra|].
  assert (exp (- (bmax * bd_dt par * bd_rate par)) < exp (- (Rabs b * bd_dt par * bd_rate par))) by (apply exp_increasing; lra). lra.
Qed.
Definition bounded (b : list R) := length b = n /\ Forall (fun x => Rabs x <= bmax) b.
Lemma bounded_nth b i : bounded b -> (i < n)%nat -> pr (nth i b 0) <= P.
Proof using All. intros [L F] Hi. apply pr_le. rewrite Forall_forall in F. apply F. apply nth_In. lia. Qed.
Lemma rates_of ws b : (forall p, In p ws -> In p ps) -> length ws = n -> calc_betas gd par ws = Ok b -> bounded b.
Proof using All. intros H L E. split; [rewrite (calc_betas_length _ _ _ _ E); exact L|]. exact (Hmax ws b H L E). Qed.

Lemma reject (r x : R) : pr x < r -> leb r (event_prob par x) = false.
Proof using All. intros H. rewrite event_prob_eq. unfold leb. destruct (Rle_dec _ _) as [Q|Q]; [exfalso; unfold pr in H; lra|reflexivity]. Qed.
Lemma accept (r x : R) : r <= pr x -> leb r (event_prob par x) = true.
Proof using All. intros H. rewrite event_prob_eq. unfold leb. destruct (Rle_dec _ _) as [Q|Q]; [reflexivity|contradiction]. Qed.

(** walkers that cannot be accepted are passed over *)
Lemma pass rand : length rand = n -> forall l rest b curr events s, Forall (fun i => (i < n)%nat /\ P < nth i rand 0) l -> bounded b ->
  exists s', recalc_loop rng gd par n rand (l ++ rest) b curr events s = recalc_loop rng gd par n rand rest b curr events (mkBS (bs_ps s) (bs_rng s) s').
Proof using All.
  intros Lr. induction l as [|i l IH]; intros rest b curr events s F HB.
  - exists (bs_stats s). destruct s; reflexivity.
  - inversion F as [|? ? [Hi HP] F']; subst. cbn [app recalc_loop]. destruct HB as [L FB] eqn:EHB. rewrite at_total by lia. cbn [bind]. rewrite at_total by lia. cbn [bind].
    pose proof (bounded_nth b i HB Hi) as Q. rewrite reject by lra.
    destruct (IH rest b curr events (mkBS (bs_ps s) (bs_rng s) (if ltb (nth i b 0) 0 then add_attempts (if gtb (nth i b 0) 0 then add_attempts (bs_stats s) 0 1 else bs_stats s) 1 0 else if gtb (nth i b 0) 0 then add_attempts (bs_stats s) 0 1 else bs_stats s)) F' HB) as (s' & E).
    exists s'. exact E.
Qed.
Lemma pass_all rand l b curr events s evs s2 : length rand = n -> Forall (fun i => (i < n)%nat /\ P < nth i rand 0) l -> bounded b ->
  recalc_loop rng gd par n rand l b curr events s = Ok (evs, s2) -> bs_ps s2 = bs_ps s.
Proof using All.
  intros Lr F HB H. destruct (pass rand Lr l [] b curr events s F HB) as (s' & E). rewrite app_nil_r in E. rewrite E in H. cbn [recalc_loop] in H. inversion H. reflexivity.
Qed.

Context (f : particle -> R) (B : R) (HB : Forall (fun p => Rabs (f p) <= B) ps) (p0 : particle).
Let v i := f (nth i ps p0).
Let dl i k := if Rlt_dec 0 (nth i beta 0) then v (skip i k) - v i else v i - v (skip i k).
Let q g := first_partner rng n g.
Let e g i := accepted (nth i (numbers rng n g) 0) (pr (nth i beta 0)).
Let E g i := accepted (nth i (numbers rng n g) 0) P.
Let D g i := e g i * dl i (q g).
Lemma vb i : (i < n)%nat -> Rabs (v i) <= B.
Proof using All. intros Hi. unfold v. rewrite Forall_forall in HB. apply HB. apply nth_In. exact Hi. Qed.
Lemma Bn : 0 <= B.
Proof using All. pose proof (vb 0 ltac:(unfold n; lia)) as Q. pose proof (Rabs_pos (v 0)). lra. Qed.
Lemma skl i k : (i < n)%nat -> (k < n - 1)%nat -> (skip i k < n)%nat.
Proof using All. intros Hi Hk. unfold skip. destruct (Nat.leb_spec i k); lia. Qed.
Lemma dlb i k : (i < n)%nat -> (k < n - 1)%nat -> Rabs (dl i k) <= 2 * B.
Proof using All.
  intros Hi Hk. pose proof (vb i Hi) as A1. pose proof (vb (skip i k) (skl i k Hi Hk)) as A2. unfold dl.
  destruct (Rlt_dec _ _); unfold Rminus; (eapply Rle_trans; [apply Rabs_triang|]); rewrite Rabs_Ropp; lra.
Qed.
Lemma q_lt g : (q g < n - 1)%nat.
Proof using All. unfold q, first_partner. apply (ok_integers rng HR). unfold n. lia. Qed.
Lemma bl : length beta = n. Proof using All. exact (calc_betas_length _ _ _ _ Hbeta). Qed.
Lemma beta_bounded : bounded beta. Proof using All. exact (rates_of ps beta (fun p H => H) eq_refl Hbeta). Qed.

Lemma only_one g i : (i < n)%nat -> (forall j, (j < n)%nat -> j <> i -> P < nth j (numbers rng n g) 0) -> forall evs g' s' after,
  do_birth_death rng gd par (mkBS ps g st) = Ok (evs, mkBS after g' s') ->
  sum_over f after - sum_over f ps = - D g i.
Proof using All.
  intros Hi Ho evs g' s' after H. unfold do_birth_death in H. cbn [bs_ps bs_rng bs_stats] in H. rewrite Hbeta in H. cbn [bind] in H. fold n in H.
  unfold D, e. pose proof (q_lt g) as QL. unfold q, first_partner in *. pose proof (ok_random_len rng HR n g) as Lr. unfold numbers in *.
  destruct (r_random rng n g) as [rand g1]. cbn [fst snd] in *. rewrite Hmode in H. cbn [negb bs_rng bs_ps bs_stats] in H.
  pose proof (ok_shuffle rng HR (seq 0 n) g1) as Pm. destruct (r_shuffle rng (seq 0 n) g1) as [order g2]. cbn [fst snd] in *.
  assert (Io : In i order) by (apply (Permutation_in i Pm), in_seq; lia).
  assert (Nd : NoDup order) by (eapply Permutation_NoDup; [exact Pm|apply seq_NoDup]).
  destruct (in_split _ _ Io) as (l1 & l2 & El). subst order.
  assert (Ho' : forall j, In j (l1 ++ l2) -> (j < n)%nat /\ P < nth j rand 0).
  { intros j Hj. assert (Jn : (j < n)%nat).
    { assert (J : In j (seq 0 n)) by (apply (Permutation_in j (Permutation_sym Pm)); apply in_app_iff in Hj; apply in_app_iff; destruct Hj; [left; assumption|right; right; assumption]). apply in_seq in J. lia. }
    split; [exact Jn|]. apply Ho; [exact Jn|]. intros ->. apply NoDup_remove_2 in Nd. contradiction. }
  assert (F1 : Forall (fun i => (i < n)%nat /\ P < nth i rand 0) l1) by (apply Forall_forall; intros j Hj; apply Ho', in_app_iff; left; exact Hj).
  assert (F2 : Forall (fun i => (i < n)%nat /\ P < nth i rand 0) l2) by (apply Forall_forall; intros j Hj; apply Ho', in_app_iff; right; exact Hj).
  destruct (pass rand Lr l1 (i :: l2) beta None [] (mkBS ps g2 st) F1 beta_bounded) as (s1 & E1). rewrite E1 in H. clear E1.
  cbn [bs_ps bs_rng recalc_loop] in H. rewrite at_total in H by (rewrite bl; exact Hi). cbn [bind] in H. rewrite at_total in H by lia. cbn [bind] in H.
  unfold accepted. destruct (Rle_dec (nth i rand 0) (pr (nth i beta 0))) as [A|A].
  - rewrite accept in H by exact A. unfold random_other in H. cbn [bs_rng] in H. destruct (Nat.leb_spec n 1); [unfold n in *; lia|].
    destruct (r_integers rng (n - 1) g2) as [k g3]. cbn [fst snd bind] in *. fold (skip i k) in H. pose proof (skl i k Hi QL) as SL.
    unfold dl. unfold gtb, ltb in H. destruct (Rlt_dec 0 (nth i beta 0)) as [B1|B1].
    + cbn [bs_ps] in H. apply bind_inv in H as (ps' & Hp & H). apply bind_inv in H as (b' & Hb' & H). apply perform_moves_ok in Hp as [-> V].
      apply pass_all in H; [|exact Lr|exact F2|apply (rates_of (execute ps [(i, skip i k)])); [intros p Hp; eapply execute_copies; exact Hp|apply execute_length|exact Hb']].
      cbn [bs_ps] in H. rewrite H. cbn [execute]. rewrite (nth_error_nth' ps p0) by exact Hi. rewrite (replace_total f _ p0) by exact SL. unfold v. ring.
    + destruct (Rlt_dec (nth i beta 0) 0) as [B2|B2]; [|discriminate H].
      cbn [bs_ps] in H. apply bind_inv in H as (ps' & Hp & H). apply bind_inv in H as (b' & Hb' & H). apply perform_moves_ok in Hp as [-> V].
      apply pass_all in H; [|exact Lr|exact F2|apply (rates_of (execute ps [(skip i k, i)])); [intros p Hp; eapply execute_copies; exact Hp|apply execute_length|exact Hb']].
      cbn [bs_ps] in H. rewrite H. cbn [execute]. rewrite (nth_error_nth' ps p0) by exact SL. rewrite (replace_total f _ p0) by exact Hi. unfold v. ring.
  - rewrite reject in H by lra. apply pass_all in H; [|exact Lr|exact F2|exact beta_bounded]. cbn [bs_ps] in H. rewrite H. ring.
Qed.

(** at most as many events as numbers below the largest probability *)
Lemma count_events rand : forall order b last ws evs,
  recalc_events n (fun ws b => calc_betas gd par ws = Ok b) pr rand order b last ws evs ->
  Forall (fun i => (i < n)%nat) order -> bounded b -> (forall p, In p ws -> In p ps) -> length ws = n ->
  INR (length evs) <= total (map (fun i => accepted (nth i rand 0) P) order).
Proof using All.
  intros order b last ws evs H. induction H as [b last ws|i order b last ws evs Hr H IH|i order b last ws ev b' evs Ha H1 H2 H3 H4 H5 H6 H IH]; intros F HBd Hc Hl.
  - cbn. lra.
  - inversion F; subst. cbn [map]. change (INR (length evs) <= accepted (nth i rand 0) P + total (map (fun i => accepted (nth i rand 0) P) order)).
    assert (0 <= accepted (nth i rand 0) P) by (unfold accepted; destruct (Rle_dec _ _); lra).
    specialize (IH ltac:(assumption) HBd Hc Hl). lra.
  - inversion F; subst. cbn [map length]. rewrite S_INR. change (INR (length evs) + 1 <= accepted (nth i rand 0) P + total (map (fun i => accepted (nth i rand 0) P) order)).
    assert (Hc' : forall p, In p (execute ws [ev]) -> In p ps) by (intros p Hp; apply Hc; eapply execute_copies; exact Hp).
    assert (Hl' : length (execute ws [ev]) = n) by (rewrite execute_length; exact Hl).
    specialize (IH ltac:(assumption) (rates_of _ _ Hc' Hl' H6) Hc' Hl').
    pose proof (bounded_nth b i HBd ltac:(assumption)) as Q. unfold accepted at 1. destruct (Rle_dec _ _); lra.
Qed.
Lemma E_01 g i : E g i = 0 \/ E g i = 1.
Proof using All. unfold E, accepted. destruct (Rle_dec _ _); [right|left]; reflexivity. Qed.
Lemma e_le g i : (i < n)%nat -> 0 <= e g i <= E g i.
Proof using All.
  intros Hi. pose proof (bounded_nth beta i beta_bounded Hi) as Q. unfold e, E, accepted. destruct (Rle_dec _ _), (Rle_dec _ _); lra.
Qed.
Lemma few_cases l g : NoDup l -> total (map (E g) l) = 0 /\ (forall j, In j l -> E g j = 0) \/
  (exists i, In i l /\ E g i = 1 /\ total (map (E g) l) = 1 /\ forall j, In j l -> j <> i -> E g j = 0) \/ 2 <= total (map (E g) l).
Proof using All.
  induction l as [|i l IH]; intros ND; [left; split; [reflexivity|intros j []]|]. inversion ND; subst. cbn [map].
  change (total (E g i :: map (E g) l)) with (E g i + total (map (E g) l)).
  assert (N : forall j, In j l -> j <> i) by (intros j Hj ->; contradiction).
  destruct (IH ltac:(assumption)) as [[T Z]|[(k & I1 & I2 & T & Z)|T]]; destruct (E_01 g i) as [Y|Y]; rewrite Y.
  - left. split; [lra|]. intros j [<-|Hj]; [exact Y|apply Z; exact Hj].
  - right; left. exists i. split; [left; reflexivity|]. split; [exact Y|]. split; [lra|]. intros j [->|Hj] NE; [contradiction|apply Z; exact Hj].
  - right; left. exists k. split; [right; exact I1|]. split; [exact I2|]. split; [lra|]. intros j [<-|Hj] NE; [exact Y|apply Z; assumption].
  - right; right. lra.
  - right; right. lra.
  - right; right. lra.
Qed.
Lemma above g i : E g i = 0 -> P < nth i (numbers rng n g) 0.
Proof using All. unfold E, accepted. destruct (Rle_dec _ _); lra. Qed.

Lemma recalc_bound g evs g' s' after : do_birth_death rng gd par (mkBS ps g st) = Ok (evs, mkBS after g' s') ->
  let N := total (map (E g) (seq 0 n)) in
  Rabs (sum_over f after - sum_over f ps + total (map (D g) (seq 0 n))) <= 4 * B * (N * N - N).
Proof using All.
  intros H. cbv zeta. pose proof Bn as B0.
  assert (Single : forall i, (i < n)%nat -> (forall j, (j < n)%nat -> j <> i -> E g j = 0) -> sum_over f after - sum_over f ps + total (map (D g) (seq 0 n)) = 0).
  { intros i Hi Z. rewrite (only_one g i Hi (fun j Hj NE => above g j (Z j Hj NE)) _ _ _ _ H).
    rewrite (total_perm _ (map (D g) (i :: map (skip i) (seq 0 (n - 1))))) by (apply Permutation_map, Permutation_sym, skip_perm; exact Hi).
    change (- D g i + (D g i + total (map (D g) (map (skip i) (seq 0 (n - 1))))) = 0). rewrite map_map.
    rewrite (total_ext _ (fun _ => 0)); [rewrite total_map_const; ring|]. intros k Hk. apply in_seq in Hk.
    assert (SL : (skip i k < n)%nat) by (apply skl; lia). assert (NE : skip i k <> i) by (unfold skip; destruct (Nat.leb_spec i k); lia).
    unfold D. pose proof (e_le g (skip i k) SL) as Q. rewrite (Z _ SL NE) in Q. replace (e g (skip i k)) with 0 by lra. ring. }
  destruct (few_cases (seq 0 n) g (seq_NoDup n 0)) as [[T Z]|[(i & I1 & I2 & T & Z)|T]].
  - rewrite (Single 0%nat); [rewrite T, Rabs_R0; lra|unfold n; lia|]. intros j Hj _. apply Z. apply in_seq. lia.
  - apply in_seq in I1. rewrite (Single i); [rewrite T, Rabs_R0; lra|lia|]. intros j Hj NE. apply Z; [apply in_seq; lia|exact NE].
  - destruct (recalc_full rng gd par _ _ _ HR Hmode H) as (b2 & rand & order & E1 & E2 & Pm & Hev & Hps & HV & _).
    cbn [bs_ps bs_rng] in *. rewrite Hbeta in E1. assert (b2 = beta) by congruence. subst b2. fold n in E2, Hev, Pm. fold (numbers rng n g) in E2. subst rand.
    apply count_events in Hev; [|apply Forall_forall; intros j Hj; apply (Permutation_in j Pm), in_seq in Hj; lia|exact beta_bounded|intros p Hp; exact Hp|reflexivity].
    rewrite (total_perm _ (map (E g) (seq 0 n))) in Hev by (apply (Permutation_map (E g)); exact Pm).
    set (N := total (map (E g) (seq 0 n))) in *. rewrite Hps. pose proof (execute_change f B evs ps HB HV) as C1.
    assert (C2 : Rabs (total (map (D g) (seq 0 n))) <= 2 * B * N).
    { unfold N. rewrite <- total_scale. eapply Rle_trans; [apply total_abs|]. apply total_le. intros j Hj. apply in_seq in Hj. unfold D. rewrite Rabs_mult.
      pose proof (e_le g j ltac:(lia)) as Q. pose proof (dlb j (q g) ltac:(lia) (q_lt g)) as Q2. rewrite (Rabs_right (e g j)) by lra. rewrite (Rmult_comm (2 * B)). apply Rmult_le_compat; try lra. apply Rabs_pos. }
    assert (C3 : 2 * B * INR (length evs) <= 2 * B * N) by (apply Rmult_le_compat_l; lra).
    eapply Rle_trans; [apply Rabs_triang|]. assert (N <= N * N - N) by nra. assert (4 * B * N <= 4 * B * (N * N - N)) by (apply Rmult_le_compat_l; lra). lra.
Qed.

Context {W : Type} (avg : (W -> R) -> R) (HM : is_mean avg) (g : W -> rng_st rng) (after : W -> list particle)
  (HU : uniform_numbers avg (repeat P n) (fun w => numbers rng n (g w)))
  (HP : fair_partners avg (map pr beta) (fun w => numbers rng n (g w)) (fun _ w => first_partner rng n (g w)))
  (HA : forall w, exists evs g' s', do_birth_death rng gd par (mkBS ps (g w) st) = Ok (evs, mkBS (after w) g' s')).
Let tau := bd_dt par * bd_rate par.
Lemma tn : 0 <= tau. Proof using All. apply Rmult_le_pos; assumption. Qed.
Lemma mp i : (i < n)%nat -> nth i (map pr beta) 0 = pr (nth i beta 0).
Proof using All. intros Hi. rewrite (nth_map_in _ _ _ _ 0) by (rewrite bl; exact Hi). reflexivity. Qed.
Lemma mean_D' i : (i < n)%nat -> avg (fun w => D (g w) i) = pr (nth i beta 0) / INR (n - 1) * total (map (dl i) (seq 0 (n - 1))).
Proof using All.
  intros Hi. pose proof HM as (X & _).
  rewrite (X _ (fun w => total (map (fun k => dl i k * (e (g w) i * equals (q (g w)) k)) (seq 0 (n - 1))))).
  - rewrite (avg_total avg HM (fun k w => dl i k * (e (g w) i * equals (q (g w)) k))). rewrite <- total_scale. apply total_ext. intros k Hk. apply in_seq in Hk.
    rewrite (avg_scale avg HM). pose proof (HP i k) as Q. rewrite map_length, bl, mp in Q by exact Hi. unfold e, q. rewrite Q by lia. ring.
  - intros w. unfold D. pose proof (q_lt (g w)) as PL. set (qq := q (g w)) in *.
    assert (Q : forall l, NoDup l -> total (map (fun k => dl i k * (e (g w) i * equals qq k)) l) = if in_dec Nat.eq_dec qq l then e (g w) i * dl i qq else 0).
    { induction l as [|k l IH]; intros ND; [reflexivity|]. inversion ND; subst. cbn [map].
      match goal with |- total (?a :: ?b) = _ => change (a + total b = if in_dec Nat.eq_dec qq (k :: l) then e (g w) i * dl i qq else 0) end. rewrite IH by assumption.
      unfold equals. destruct (Nat.eqb_spec qq k) as [Y|NE].
      - rewrite Y. destruct (in_dec Nat.eq_dec k l); [contradiction|]. destruct (in_dec Nat.eq_dec k (k :: l)) as [_|N]; [ring|exfalso; apply N; left; reflexivity].
      - destruct (in_dec Nat.eq_dec qq l) as [I|I]; destruct (in_dec Nat.eq_dec qq (k :: l)) as [J|J]; try ring.
        + exfalso. apply J. right. exact I.
        + exfalso. destruct J as [J|J]; [apply NE; symmetry; exact J|contradiction]. }
    rewrite Q by apply seq_NoDup. destruct (in_dec Nat.eq_dec qq (seq 0 (n - 1))) as [_|N]; [reflexivity|]. exfalso. apply N. apply in_seq. lia.
Qed.
Lemma P_x : 0 <= P <= tau * bmax.
Proof using All.
  pose proof bmax_nonneg as B0. destruct (prob_first_order (tau * bmax)) as (A & _); [apply Rmult_le_pos; [apply tn|exact B0]|].
  replace P with (1 - exp (- (tau * bmax))); [exact A|]. unfold P, pr, accept_prob, tau. rewrite (Rabs_right bmax) by lra. do 2 f_equal. ring.
Qed.
Lemma mean_square' : let N w := total (map (E (g w)) (seq 0 n)) in
  avg (fun w => N w * N w - N w) <= (INR n * (tau * bmax)) * (INR n * (tau * bmax)).
Proof using All.
  cbv zeta. pose proof HM as (X & _). pose proof P_x as PX.
  rewrite (X _ (fun w => total (map (fun i => total (map (fun j => if Nat.eqb i j then 0 else E (g w) i * E (g w) j) (seq 0 n))) (seq 0 n)))).
  - rewrite (avg_total avg HM (fun i w => total (map (fun j => if Nat.eqb i j then 0 else E (g w) i * E (g w) j) (seq 0 n)))).
    apply Rle_trans with (total (map (fun i : nat => total (map (fun j : nat => tau * bmax * (tau * bmax)) (seq 0 n))) (seq 0 n))).
    + apply total_le. intros i Hi. apply in_seq in Hi. rewrite (avg_total avg HM (fun j w => if Nat.eqb i j then 0 else E (g w) i * E (g w) j)).
      apply total_le. intros j Hj. apply in_seq in Hj.
      destruct (Nat.eqb_spec i j) as [Y|NE].
      * rewrite (mean_zero avg HM). apply Rmult_le_pos; lra.
      * destruct HU as [_ U2]. specialize (U2 i j). rewrite repeat_length, !nth_repeat_lt in U2 by lia. unfold E. rewrite U2 by lia. apply Rmult_le_compat; lra.
    + apply Req_le. rewrite !total_map_const, seq_length. ring.
  - intros w. set (l := seq 0 n).
    assert (Q : forall i, In i l -> total (map (fun j => if Nat.eqb i j then 0 else E (g w) i * E (g w) j) l) = E (g w) i * total (map (E (g w)) l) - E (g w) i).
    { intros i Hi. unfold l in *. apply in_seq in Hi. rewrite (total_perm _ (map (fun j => if Nat.eqb i j then 0 else E (g w) i * E (g w) j) (i :: map (skip i) (seq 0 (n - 1))))) by (apply Permutation_map, Permutation_sym, skip_perm; lia).
      cbn [map]. match goal with |- total (?a :: ?b) = _ => change (total (a :: b)) with (a + total b) end. rewrite Nat.eqb_refl, map_map.
      rewrite (total_ext _ (fun k => E (g w) i * E (g w) (skip i k))) by (intros k _; destruct (Nat.eqb_spec i (skip i k)) as [Z|Z]; [exfalso; unfold skip in Z; destruct (Nat.leb_spec i k); lia|reflexivity]).
      rewrite total_scale, (skip_total (E (g w)) n i) by lia. destruct (E_01 (g w) i) as [Z|Z]; rewrite Z; ring. }
    rewrite (total_ext _ _ _ Q), total_minus.
    rewrite (total_ext (fun i => E (g w) i * total (map (E (g w)) l)) (fun i => total (map (E (g w)) l) * E (g w) i)) by (intros; ring).
    rewrite total_scale. reflexivity.
Qed.
Let x i := tau * Rabs (nth i beta 0).
Lemma xn i : 0 <= x i. Proof using All. apply Rmult_le_pos; [apply tn|apply Rabs_pos]. Qed.
Lemma recalc_mean :
  Rabs (avg (fun w => sum_over f (after w) - sum_over f ps) - tau * (INR n / INR (n - 1)) * rate_moment f beta ps) <= 6 * B * (INR n * (tau * bmax)) ^ 2.
Proof using All.
  pose proof Bn as B0. pose proof HM as (X & _). assert (n2 : (2 <= n)%nat) by exact Hn. pose proof bmax_nonneg as BM. pose proof tn as T0.
  assert (N1 : 0 < INR (n - 1)) by (apply lt_0_INR; lia). assert (NN : INR n = INR (n - 1) + 1) by (rewrite <- S_INR; f_equal; lia).
  set (T := total (map v (seq 0 n))). set (Y := INR n * (tau * bmax)).
  assert (A1 : Rabs (avg (fun w => (sum_over f (after w) - sum_over f ps) + total (map (D (g w)) (seq 0 n)))) <= 4 * B * (Y * Y)).
  { eapply Rle_trans; [apply (avg_abs avg HM _ (fun w => 4 * B * (let N := total (map (E (g w)) (seq 0 n)) in N * N - N)))|].
    - intros w. destruct (HA w) as (evs & g' & s' & H). exact (recalc_bound (g w) evs g' s' (after w) H).
    - rewrite (avg_scale avg HM). apply Rmult_le_compat_l; [lra|]. exact mean_square'. }
  assert (A2 : forall i, (i < n)%nat -> total (map (dl i) (seq 0 (n - 1))) = (if Rlt_dec 0 (nth i beta 0) then 1 else -1) * (T - INR n * v i)).
  { intros i Hi. unfold dl. destruct (Rlt_dec 0 (nth i beta 0)).
    - rewrite (total_minus (fun k => v (skip i k)) (fun _ => v i)), (skip_total v n i Hi), total_map_const, seq_length, NN. fold T. ring.
    - rewrite (total_minus (fun _ => v i) (fun k => v (skip i k))), (skip_total v n i Hi), total_map_const, seq_length, NN. fold T. ring. }
  assert (A3 : forall i, (i < n)%nat -> Rabs ((T - INR n * v i) / INR (n - 1)) <= 2 * B).
  { intros i Hi. unfold Rdiv. rewrite Rabs_mult, (Rabs_right (/ INR (n - 1))) by (left; apply Rinv_0_lt_compat; exact N1).
    apply Rmult_le_reg_r with (INR (n - 1)); [exact N1|]. rewrite Rmult_assoc, Rinv_l, Rmult_1_r by lra.
    replace (T - INR n * v i) with (total (map (fun k => v (skip i k) - v i) (seq 0 (n - 1)))).
    - eapply Rle_trans; [apply total_abs|]. replace (2 * B * INR (n - 1)) with (total (map (fun _ : nat => 2 * B) (seq 0 (n - 1)))) by (rewrite total_map_const, seq_length; ring).
      apply total_le. intros k Hk. apply in_seq in Hk. pose proof (vb i Hi) as V1. pose proof (vb (skip i k) (skl i k Hi ltac:(lia))) as V2.
      unfold Rminus. eapply Rle_trans; [apply Rabs_triang|]. rewrite Rabs_Ropp. lra.
    - rewrite (total_minus (fun k => v (skip i k)) (fun _ => v i)), (skip_total v n i Hi), total_map_const, seq_length, NN. fold T. ring. }
  assert (A4 : avg (fun w => total (map (D (g w)) (seq 0 n))) = total (map (fun i => pr (nth i beta 0) * (if Rlt_dec 0 (nth i beta 0) then 1 else -1) * ((T - INR n * v i) / INR (n - 1))) (seq 0 n))).
  { rewrite (avg_total avg HM (fun i w => D (g w) i)). apply total_ext. intros i Hi. apply in_seq in Hi. rewrite mean_D', A2 by lia. unfold Rdiv. ring. }
  assert (A5 : - (tau * (INR n / INR (n - 1)) * rate_moment f beta ps) = total (map (fun i => tau * nth i beta 0 * ((T - INR n * v i) / INR (n - 1))) (seq 0 n))).
  { unfold rate_moment. rewrite (total_combine (fun b p => b * (f p - average (map f ps))) beta ps p0) by (rewrite bl; reflexivity). fold n.
    rewrite <- total_scale, <- (Rmult_1_l (total _)), Ropp_mult_distr_l, <- total_scale. apply total_ext. intros i Hi. fold (v i). unfold average. rewrite map_length. fold n. rewrite (total_seq f ps p0). fold n.
    change (total (map (fun i0 : nat => f (nth i0 ps p0)) (seq 0 n))) with T. field. split; [lra|]. rewrite NN. lra. }
  assert (A6 : Rabs (avg (fun w => total (map (D (g w)) (seq 0 n))) - total (map (fun i => tau * nth i beta 0 * ((T - INR n * v i) / INR (n - 1))) (seq 0 n))) <= 2 * B * (Y * Y)).
  { rewrite A4, <- total_minus. eapply Rle_trans; [apply total_abs|]. apply Rle_trans with (total (map (fun i => 2 * B * (x i * x i)) (seq 0 n))).
    - apply total_le. intros i Hi. apply in_seq in Hi. rewrite <- Rmult_minus_distr_r, Rabs_mult, (Rmult_comm (2 * B)).
      apply Rmult_le_compat; [apply Rabs_pos|apply Rabs_pos| |apply A3; lia].
      destruct (prob_first_order (x i) (xn i)) as (P1 & P2 & _). replace (pr (nth i beta 0)) with (1 - exp (- x i)) by (unfold pr, accept_prob, x, tau; do 2 f_equal; ring).
      assert (Q : tau * nth i beta 0 = (if Rlt_dec 0 (nth i beta 0) then 1 else -1) * x i).
      { unfold x. destruct (Rlt_dec 0 (nth i beta 0)) as [Z|Z]; [rewrite Rabs_right by lra; ring|rewrite Rabs_left1 by lra; ring]. }
      rewrite Q. apply Rabs_le. destruct (Rlt_dec 0 (nth i beta 0)); lra.
    - rewrite total_scale. apply Rmult_le_compat_l; [lra|]. eapply Rle_trans; [apply total_squares; intros i _; apply xn|].
      assert (Q : 0 <= total (map x (seq 0 n)) <= Y).
      { split; [apply total_nonneg; intros i _; apply xn|]. unfold Y. replace (INR n * (tau * bmax)) with (total (map (fun _ : nat => tau * bmax) (seq 0 n))) by (rewrite total_map_const, seq_length; reflexivity).
        apply total_le. intros i Hi. apply in_seq in Hi. apply Rmult_le_compat_l; [exact T0|]. destruct beta_bounded as [L F]. rewrite Forall_forall in F. apply F, nth_In. lia. }
      apply Rmult_le_compat; lra. }
  rewrite <- A5 in A6.
  assert (A7 : avg (fun w => sum_over f (after w) - sum_over f ps) =
     avg (fun w => (sum_over f (after w) - sum_over f ps) + total (map (D (g w)) (seq 0 n))) - avg (fun w => total (map (D (g w)) (seq 0 n)))).
  { assert (Q : avg (fun w => (sum_over f (after w) - sum_over f ps) + total (map (D (g w)) (seq 0 n))) = avg (fun w => sum_over f (after w) - sum_over f ps) + avg (fun w => total (map (D (g w)) (seq 0 n)))) by (apply (avg_plus avg HM)). rewrite Q. ring. }
  rewrite A7. set (M := tau * (INR n / INR (n - 1)) * rate_moment f beta ps) in *.
  set (a := avg (fun w => (sum_over f (after w) - sum_over f ps) + total (map (D (g w)) (seq 0 n)))) in *. set (b := avg (fun w => total (map (D (g w)) (seq 0 n)))) in *.
  replace (a - b - M) with (a + - (b - - M)) by ring. eapply Rle_trans; [apply Rabs_triang|]. rewrite Rabs_Ropp. replace (Y ^ 2) with (Y * Y) by ring. lra.
Qed.
End Recalc.
