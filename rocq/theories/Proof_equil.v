(** Rates of walkers in equilibrium *)
From Coq Require Import Lia Lra ZifyBool ZifyNat.
From Verif Require Import PyBase Model_dyn Model_grid Model_corr Model_bd Spec_grid Spec_rng Spec_bd Spec_bdrun Spec_equil Proof_base Proof_dens Proof_bd Proof_bd2.
Ltac Zify.zify_post_hook ::= idtac.
Open Scope R_scope.

Lemma kde_pos n_dim bw pos i : walkers_ok n_dim bw pos -> (i < length pos)%nat -> 0 < kde bw pos (nth i pos []).
Proof.
  intros W Hi. assert (pos <> []) as Hne by (intros ->; cbn in Hi; lia).
  destruct (density_full n_dim bw pos W Hne) as (d & _ & _ & _ & _ & H). destruct (H i Hi) as (E & _ & P). rewrite E in P. exact P.
Qed.

(** lists of the form ln(density) + w - constant with sum zero vanish iff the density is as w *)
Lemma zero_rates n_dim bw pos beta c w : walkers_ok n_dim bw pos -> length beta = length pos -> total beta = 0 ->
  (forall i, (i < length pos)%nat -> nth i beta 0 = ln (kde bw pos (nth i pos [])) + w i - c) ->
  (beta = repeat 0 (length pos) <-> distributed_as w bw pos).
Proof.
  intros W L T H. split.
  - intros E. exists (exp c). split; [apply exp_pos|]. intros i Hi. specialize (H i Hi).
    rewrite E, nth_repeat in H. pose proof (kde_pos _ _ _ _ W Hi) as P. rewrite <- exp_plus, <- (exp_ln _ P). f_equal. lra.
  - intros (k & Hk & D). assert (forall i, (i < length pos)%nat -> nth i beta 0 = ln k - c) as C.
    { intros i Hi. rewrite (H i Hi), (D i Hi), ln_mult, ln_exp; [lra|assumption|apply exp_pos]. }
    assert (beta = repeat (ln k - c) (length pos)) as E.
    { apply (nth_ext _ _ 0 0); [now rewrite repeat_length|]. intros i Hi. rewrite L in Hi. rewrite (C i Hi).
      rewrite (nth_indep _ 0 (ln k - c)) by (now rewrite repeat_length). now rewrite nth_repeat. }
    assert (forall n x, total (repeat x n) = INR n * x) as TR.
    { intros n x. induction n as [|n IH]; [cbn; lra|]. rewrite S_INR. unfold total in *. cbn [repeat fold_right]. rewrite IH. lra. }
    rewrite E, TR in T. destruct pos as [|p pos]; [now rewrite E|]. cbn [length] in *.
    apply Rmult_integral in T as [T|T]; [rewrite S_INR in T; pose proof (pos_INR (length pos)); lra|]. rewrite E, T. reflexivity.
Qed.

Lemma rate_differences n_dim gd par ps : bd_variant par = VOrig -> walkers_ok n_dim (bd_bw par) (map p_pos ps) -> ps <> [] ->
  exists beta, calc_betas gd par ps = Ok beta /\ length beta = length ps /\
  forall i j pi pj, nth_error ps i = Some pi -> nth_error ps j = Some pj ->
    nth i beta 0 - nth j beta 0 =
    ln (kde (bd_bw par) (map p_pos ps) (p_pos pi) / kde (bd_bw par) (map p_pos ps) (p_pos pj))
    + (p_energy pi - p_energy pj) / bd_kt par.
Proof.
  intros V W Hne. destruct (betas_sum_orig n_dim gd par ps V W Hne) as (beta & E & L & _ & c & H). exists beta.
  split; [assumption|]. split; [assumption|]. intros i j pi pj Hi Hj.
  assert (i < length ps)%nat as Li by (apply nth_error_Some; congruence).
  assert (j < length ps)%nat as Lj by (apply nth_error_Some; congruence).
  pose proof (kde_pos n_dim _ _ i W ltac:(now rewrite map_length)) as Pi.
  pose proof (kde_pos n_dim _ _ j W ltac:(now rewrite map_length)) as Pj.
  assert (forall k p d, nth_error ps k = Some p -> nth k (map p_pos ps) d = p_pos p) as NP.
  { intros k p d Hk. apply nth_error_nth. now rewrite nth_error_map, Hk. }
  assert (forall k p d, nth_error ps k = Some p -> nth k (map p_energy ps) d = p_energy p) as NE.
  { intros k p d Hk. apply nth_error_nth. now rewrite nth_error_map, Hk. }
  rewrite (H i Li), (H j Lj). rewrite (NP i pi [] Hi) in *. rewrite (NP j pj [] Hj) in *. rewrite (NE _ _ _ Hi), (NE _ _ _ Hj).
  unfold kde in *. unfold Rdiv at 3. rewrite ln_mult, ln_Rinv; [|assumption|assumption|now apply Rinv_0_lt_compat]. unfold Rdiv. lra.
Qed.

Lemma equilibrium_orig n_dim gd par ps : bd_variant par = VOrig -> walkers_ok n_dim (bd_bw par) (map p_pos ps) -> ps <> [] ->
  (calc_betas gd par ps = Ok (repeat 0 (length ps)) <->
   distributed_as (fun i => nth i (map p_energy ps) 0 / bd_kt par) (bd_bw par) (map p_pos ps)).
Proof.
  intros V W Hne. destruct (betas_sum_orig n_dim gd par ps V W Hne) as (beta & E & L & T & c & H).
  pose proof (zero_rates n_dim (bd_bw par) (map p_pos ps) beta c (fun i => nth i (map p_energy ps) 0 / bd_kt par) W) as Z.
  rewrite map_length in Z. rewrite <- (Z L T H). rewrite E. split; [intros Q; now inversion Q|intros ->; reflexivity].
Qed.

Lemma equilibrium_mult n_dim gd par g ps : griddata_pointwise gd -> bd_variant par = VMult -> bd_grid par = Some g ->
  walkers_ok n_dim (bd_bw par) (map p_pos ps) -> ps <> [] ->
  (calc_betas gd par ps = Ok (repeat 0 (length ps)) <->
   distributed_as (fun i => nth i (interpolate gd g (map p_pos ps) 0) 0) (bd_bw par) (map p_pos ps)).
Proof.
  intros G V Eg W Hne. destruct (betas_sum_mult n_dim gd par g ps G V Eg W Hne) as (beta & E & L & T & c & H).
  pose proof (zero_rates n_dim (bd_bw par) (map p_pos ps) beta c (fun i => nth i (interpolate gd g (map p_pos ps) 0) 0) W) as Z.
  rewrite map_length in Z. rewrite <- (Z L T H). rewrite E. split; [intros Q; now inversion Q|intros ->; reflexivity].
Qed.

Lemma equilibrium_add n_dim gd par g ps : griddata_pointwise gd -> bd_variant par = VAdd -> bd_grid par = Some g ->
  walkers_ok n_dim (bd_bw par) (map p_pos ps) -> ps <> [] ->
  (calc_betas gd par ps = Ok (interpolate gd g (map p_pos ps) 0) <->
   distributed_as (fun i => nth i (map p_energy ps) 0 / bd_kt par) (bd_bw par) (map p_pos ps)).
Proof.
  intros G V Eg W Hne.
  set (par0 := mkBD (bd_stride par) (bd_dt par) (bd_bw par) (bd_kt par) (bd_rate par) (bd_recalc par) VOrig None (bd_stats_stride par) (bd_to_file par)).
  pose proof (equilibrium_orig n_dim gd par0 ps eq_refl W Hne) as Q. change (bd_bw par0) with (bd_bw par) in Q. change (bd_kt par0) with (bd_kt par) in Q.
  rewrite <- Q. clear Q. pose proof (interpolated_pointwise gd par (map p_pos ps) G) as I. rewrite Eg in I. destruct I as (f & Hf).
  specialize (Hf (map p_pos ps)). unfold interpolated in Hf. rewrite Eg in Hf. destruct (Nat.eqb _ _) eqn:Hn; [|discriminate]. apply Nat.eqb_eq in Hn.
  rewrite (betas_orig n_dim gd par0 ps eq_refl W Hne). 
  rewrite (betas_add n_dim gd par ps (interpolate gd g (map p_pos ps) 0) V W Hne) by (unfold interpolated; rewrite Eg, Hn, Nat.eqb_refl; reflexivity).
  change (bd_bw par0) with (bd_bw par). change (bd_kt par0) with (bd_kt par). set (b := center _). set (y := interpolate _ _ _ _) in *.
  assert (length b = length ps) as Lb by (unfold b; now rewrite center_length, map_length). rewrite map_length in Hn.
  assert (vadd b y = y <-> b = repeat 0 (length ps)) as K.
  { clearbody b y. clear -Lb Hn. rewrite <- Lb in Hn |- *. clear Lb. revert y Hn. induction b as [|x b IH]; intros [|z y] Hn; cbn in *; try lia; [tauto|].
    unfold vadd in *. split; intros E; injection E as E1 E2.
    - f_equal; [lra|]. apply (IH y); [lia|assumption].
    - f_equal; [lra|]. apply (IH y); [lia|assumption]. }
  split; intros E; inversion E as [E']; f_equal; apply K; assumption.
Qed.

Lemma zero_prob par : event_prob par 0 = 0.
Proof. unfold event_prob. rewrite Rabs_R0. replace (-0 * bd_dt par * bd_rate par) with 0 by lra. rewrite exp_0. lra. Qed.

Lemma masks_false par n rand : Forall (fun r => 0 < r) rand ->
  where_true (map (fun br => leb (snd br) (event_prob par (fst br))) (combine (repeat 0 n) rand)) = [].
Proof.
  intros F. unfold where_true. set (m := map _ _).
  assert (Forall (fun b => b = false) m) as FM.
  { unfold m. apply Forall_map. rewrite Forall_forall in *. intros (b, r) Hin. pose proof (in_combine_l _ _ _ _ Hin) as Hb. apply repeat_spec in Hb. subst b.
    apply in_combine_r in Hin. specialize (F _ Hin). cbn [fst snd]. rewrite zero_prob. unfold leb. destruct (Rle_dec r 0); [lra|reflexivity]. }
  clearbody m. clear -FM. 
  assert (forall l, filter (fun i => nth i m false) l = []) as A.
  { induction l as [|i l IH]; [reflexivity|]. cbn [filter].
    assert (nth i m false = false) as ->; [|exact IH]. destruct (nth_in_or_default i m false) as [H|H]; [|exact H].
    rewrite Forall_forall in FM. auto. }
  apply A.
Qed.

Lemma no_events rng gd par st : rng_ok rng -> calc_betas gd par (bs_ps st) = Ok (repeat 0 (length (bs_ps st))) ->
  Forall (fun r => 0 < r) (fst (r_random rng (length (bs_ps st)) (bs_rng st))) ->
  exists st', do_birth_death rng gd par st = Ok ([], st') /\ bs_ps st' = bs_ps st /\
    dup_count (bs_stats st') = dup_count (bs_stats st) /\ kill_count (bs_stats st') = kill_count (bs_stats st).
Proof.
  intros RO B F. unfold do_birth_death. rewrite B. cbn [bind]. destruct (r_random rng _ _) as (rand, g) eqn:Er. cbn [fst] in F.
  assert (length rand = length (bs_ps st)) as Lr.
  { pose proof (ok_random_len _ RO (length (bs_ps st)) (bs_rng st)) as H. rewrite Er in H. exact H. }
  destruct (bd_recalc par); cbn [negb].
  - destruct (r_shuffle rng _ _) as (is_, g2) eqn:Es.
    assert (forall i, In i is_ -> (i < length (bs_ps st))%nat) as Hi.
    { pose proof (ok_shuffle _ RO) as H. specialize (H (seq 0 (length (bs_ps st))) g). cbn [bs_rng] in Es. rewrite Es in H. cbn in H.
      intros i Hin. apply (Permutation.Permutation_in (l' := seq 0 (length (bs_ps st)))) in Hin; [apply in_seq in Hin; lia|]. first [exact H|apply Permutation.Permutation_sym; exact H]. }
    cbn [bs_ps bs_stats]. 
    assert (forall l s, (forall i, In i l -> (i < length (bs_ps st))%nat) -> recalc_loop rng gd par (length (bs_ps st)) rand l (repeat 0 (length (bs_ps st))) None [] (mkBS (bs_ps st) g2 s) = Ok ([], mkBS (bs_ps st) g2 s)) as A.
    { induction l as [|i l IH]; intros s Hl; [reflexivity|]. cbn [recalc_loop]. specialize (Hl i (or_introl eq_refl)) as Hil.
      unfold at_ at 1. rewrite (nth_error_repeat _ Hil). cbn [bind]. unfold at_ at 1.
      destruct (nth_error rand i) as [r|] eqn:Hr; [|apply nth_error_None in Hr; lia]. cbn [bind bs_stats bs_ps bs_rng].
      rewrite (gtb_false 0 0), (ltb_false 0 0), zero_prob by lra. apply nth_error_In in Hr. rewrite Forall_forall in F. specialize (F _ Hr).
      unfold leb. destruct (Rle_dec r 0); [lra|]. apply IH. intros; apply Hl; now right. }
    rewrite (A is_ (bs_stats st) Hi). eexists. split; [reflexivity|]. cbn. auto.
  - unfold bd_bulk. cbn [bs_ps bs_stats bs_rng]. rewrite masks_false by assumption.
    destruct (r_shuffle rng [] g) as (e, g2) eqn:Es.
    assert (e = []) as ->.
    { pose proof (ok_shuffle _ RO [] g) as H. rewrite Es in H. cbn in H. first [apply Permutation.Permutation_nil; exact H|apply Permutation.Permutation_sym in H; apply Permutation.Permutation_nil; exact H]. }
    cbn. eexists. split; [reflexivity|]. cbn. auto.
Qed.

(** three walkers with different energies in equilibrium *)
Definition eq_pos : list vec := [[0]; [0]; [1]].
Definition eq_walker (p : vec) : particle := mkP p [0] 1 (- (2 * ln (kde [1] eq_pos p))) [] 0.
Definition eq_walkers : list particle := map eq_walker eq_pos.
Definition eq_par (recalc : bool) : bdpar := mkBD 1 1 [1] 2 1 recalc VOrig None None false.

Lemma eq_ok : walkers_ok 1 [1] (map p_pos eq_walkers).
Proof. split; [reflexivity|]. split; repeat constructor; lra. Qed.

Lemma eq_case : distributed_as (fun i => nth i (map p_energy eq_walkers) 0 / 2) [1] (map p_pos eq_walkers).
Proof.
  exists 1. split; [lra|]. assert (map p_pos eq_walkers = eq_pos) as -> by reflexivity. intros i Hi.
  unfold eq_walkers. rewrite map_map. rewrite (nth_map_in _ eq_pos i 0 []) by assumption. unfold eq_walker. cbn [p_energy].
  replace (- (- (2 * ln (kde [1] eq_pos (nth i eq_pos []))) / 2)) with (ln (kde [1] eq_pos (nth i eq_pos []))) by lra.
  rewrite exp_ln, Rmult_1_l; [reflexivity|]. apply (kde_pos 1); [exact eq_ok|assumption].
Qed.

Lemma eq_different : p_energy (eq_walker [0]) <> p_energy (eq_walker [1]).
Proof.
  unfold eq_walker. cbn [p_energy]. intros E. assert (ln (kde [1] eq_pos [0]) = ln (kde [1] eq_pos [1])) as L by lra.
  apply ln_inv in L; [|exact (kde_pos 1 _ _ 0 eq_ok ltac:(cbn; lia))|exact (kde_pos 1 _ _ 2 eq_ok ltac:(cbn; lia))].
  unfold kde, average, total, eq_pos in L. cbn [map gauss_kernel fold_right length] in L.
  replace ((0 - 0) ^ 2 / (2 * 1 ^ 2)) with 0 in L by field. replace ((1 - 0) ^ 2 / (2 * 1 ^ 2)) with (1/2) in L by field.
  replace ((0 - 1) ^ 2 / (2 * 1 ^ 2)) with (1/2) in L by field. replace ((1 - 1) ^ 2 / (2 * 1 ^ 2)) with 0 in L by field.
  rewrite Ropp_0, exp_0 in L. set (h := / (sqrt (2 * PI) * 1)) in L.
  assert (0 < h) as Hh by (unfold h; apply Rinv_0_lt_compat; rewrite Rmult_1_r; apply sqrt_lt_R0; pose proof PI_RGT_0; lra).
  assert (exp (- (1 / 2)) < exp 0) as He by (apply exp_increasing; lra). rewrite exp_0 in He. set (e := exp _) in *.
  cbn [INR] in L. unfold Rdiv in L. apply Rmult_eq_reg_r in L; [|apply Rinv_neq_0_compat; lra].
  assert (h * (1 - e) = 0) as Z by lra. apply Rmult_integral in Z as [Z|Z]; lra.
Qed.

Lemma eq_quiet rec : exists st', do_birth_death demo_rng (fun _ _ qs _ => map (fun _ => 0) qs) (eq_par rec) (mkBS (rng := demo_rng) eq_walkers 0%nat stats0) = Ok ([], st') /\ bs_ps st' = eq_walkers.
Proof.
  destruct (no_events demo_rng (fun _ _ qs _ => map (fun _ => 0) qs) (eq_par rec) (mkBS (rng := demo_rng) eq_walkers 0%nat stats0)) as (st' & E & P & _).
  - exact demo_rng_ok.
  - cbn [bs_ps]. apply (equilibrium_orig 1); [reflexivity|exact eq_ok|discriminate|exact eq_case].
  - cbn. repeat constructor; lra.
  - exists st'. split; [exact E|exact P].
Qed.
