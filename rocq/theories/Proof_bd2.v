(** Birth-death: statements of the properties *)
From Coq Require Import Lia Lra ZifyBool ZifyNat Permutation.
From Verif Require Import PyBase Model_dyn Model_grid Model_corr Model_bd Spec_grid Spec_times Spec_rng Spec_bd Spec_bdrun Proof_base Proof_dens Proof_bd.
Ltac Zify.zify_post_hook ::= idtac.
Open Scope R_scope.

(** ** C20 *)
Lemma accept_prob_range dt rate b : 0 < dt -> 0 < rate -> 0 <= accept_prob dt rate b < 1.
Proof.
  intros. unfold accept_prob. pose proof (exp_pos (- (Rabs b * dt * rate))). split; [|lra].
  assert (0 <= Rabs b * dt * rate) by (apply Rmult_le_pos; [apply Rmult_le_pos; [apply Rabs_pos|lra]|lra]).
  destruct (Rle_lt_or_eq_dec _ _ H2) as [Hlt|<-]; [|rewrite Ropp_0, exp_0; lra].
  assert (exp (- (Rabs b * dt * rate)) < exp 0) by (apply exp_increasing; lra). rewrite exp_0 in *. lra.
Qed.
Lemma accept_prob_increasing dt rate b1 b2 : 0 < dt -> 0 < rate -> Rabs b1 < Rabs b2 -> accept_prob dt rate b1 < accept_prob dt rate b2.
Proof.
  intros. unfold accept_prob. assert (exp (- (Rabs b2 * dt * rate)) < exp (- (Rabs b1 * dt * rate))); [|lra].
  apply exp_increasing. apply Ropp_lt_contravar. apply Rmult_lt_compat_r; [assumption|]. apply Rmult_lt_compat_r; assumption.
Qed.
Lemma accept_prob_zero dt rate b : 0 < dt -> 0 < rate -> accept_prob dt rate b = 0 <-> b = 0.
Proof.
  intros Hd Hr. split; intros H.
  - destruct (Req_dec b 0) as [|Hb]; [assumption|]. pose proof (accept_prob_increasing dt rate 0 b Hd Hr ltac:(rewrite Rabs_R0; now apply Rabs_pos_lt)) as L.
    pose proof (accept_prob_range dt rate 0 Hd Hr). lra.
  - subst. unfold accept_prob. rewrite Rabs_R0, !Rmult_0_l, Ropp_0, exp_0. lra.
Qed.
Lemma event_prob_full par : 0 < bd_dt par -> 0 < bd_rate par ->
  (forall b, event_prob par b = 1 - exp (- (Rabs b * bd_dt par * bd_rate par))) /\
  (forall b, 0 <= event_prob par b < 1) /\
  (forall b, event_prob par b = 0 <-> b = 0) /\
  (forall b, event_prob par (- b) = event_prob par b) /\
  (forall b1 b2, Rabs b1 < Rabs b2 -> event_prob par b1 < event_prob par b2).
Proof.
  intros Hd Hr. split; [exact (event_prob_eq par)|]. split; [|split; [|split]]; intros.
  - rewrite event_prob_eq. now apply accept_prob_range.
  - rewrite event_prob_eq. now apply accept_prob_zero.
  - rewrite !event_prob_eq. unfold accept_prob. now rewrite Rabs_Ropp.
  - rewrite !event_prob_eq. now apply accept_prob_increasing.
Qed.

(** ** C21 *)
Lemma density_full n_dim bw pos : walkers_ok n_dim bw pos -> pos <> [] ->
  exists d, walker_density pos bw = Ok d /\ walker_density_pdist pos bw = Ok d /\
    walker_density_manual pos bw = d /\ length d = length pos /\
    forall i, (i < length pos)%nat ->
      nth i d 0 = average (map (gauss_kernel bw (nth i pos [])) pos) /\
      gauss_height bw / INR (length pos) <= nth i d 0 <= gauss_height bw /\ 0 < nth i d 0.
Proof.
  intros W Hne. exists (dens bw pos). split; [now apply (walker_density_dens n_dim)|]. split; [now apply (pdist_dens n_dim)|].
  split; [now apply (manual_dens n_dim)|]. split; [unfold dens; apply map_length|]. intros i Hi.
  assert (In (nth i (dens bw pos) 0) (dens bw pos)) as HI by (apply nth_In; unfold dens; now rewrite map_length).
  split; [|split].
  - unfold dens. now rewrite (nth_map_in _ _ _ _ []).
  - pose proof (dens_bounds n_dim bw pos W) as F. rewrite Forall_forall in F. auto.
  - pose proof (dens_pos n_dim bw pos W Hne) as F. rewrite Forall_forall in F. auto.
Qed.

(** ** C19 *)
Lemma mul_inv a k : a * (1 / k) = a / k.
Proof. unfold Rdiv. ring. Qed.
Lemma total_vadd a b : length a = length b -> total (vadd a b) = total a + total b.
Proof. revert b; induction a as [|x a IH]; intros [|y b] H; cbn in *; try lia; [lra|]. unfold total, vadd in *. rewrite IH by lia. lra. Qed.

Lemma betas_sum_orig n_dim gd par ps : bd_variant par = VOrig -> walkers_ok n_dim (bd_bw par) (map p_pos ps) -> ps <> [] ->
  exists beta, calc_betas gd par ps = Ok beta /\ length beta = length ps /\ total beta = 0 /\
    exists c, forall i, (i < length ps)%nat ->
      nth i beta 0 = ln (average (map (gauss_kernel (bd_bw par) (nth i (map p_pos ps) [])) (map p_pos ps)))
                     + nth i (map p_energy ps) 0 / bd_kt par - c.
Proof.
  intros V W Hne. eexists. split; [now apply (betas_orig n_dim)|]. rewrite center_length, map_length. split; [reflexivity|].
  split; [apply center_total|]. rewrite center_map.
  exists (average (map (fun p => log_density (bd_bw par) ps p + p_energy p * (1 / bd_kt par)) ps)).
  intros i Hi. set (p0 := mkP [] [] 0 0 [] 0). rewrite (nth_map_in _ ps i 0 p0), (nth_map_in p_pos ps i [] p0), (nth_map_in p_energy ps i 0 p0) by assumption.
  unfold log_density. rewrite (mul_inv (p_energy (nth i ps p0)) (bd_kt par)). reflexivity.
Qed.

Lemma betas_sum_mult n_dim gd par g ps : griddata_pointwise gd -> bd_variant par = VMult -> bd_grid par = Some g ->
  walkers_ok n_dim (bd_bw par) (map p_pos ps) -> ps <> [] ->
  exists beta, calc_betas gd par ps = Ok beta /\ length beta = length ps /\ total beta = 0 /\
    exists c, forall i, (i < length ps)%nat ->
      nth i beta 0 = ln (average (map (gauss_kernel (bd_bw par) (nth i (map p_pos ps) [])) (map p_pos ps)))
                     + nth i (interpolate gd g (map p_pos ps) 0) 0 - c.
Proof.
  intros G V Eg W Hne. pose proof (interpolated_pointwise gd par (map p_pos ps) G) as I. rewrite Eg in I. destruct I as (f & Hf).
  assert (interpolate gd g (map p_pos ps) 0 = map f (map p_pos ps)) as Ei.
  { specialize (Hf (map p_pos ps)). unfold interpolated in Hf. rewrite Eg in Hf. destruct (Nat.eqb _ _); [|discriminate]. now inversion Hf. }
  eexists. split; [exact (betas_mult n_dim _ _ _ _ V W Hne (Hf _))|]. rewrite Ei, map_map, vadd_map, center_length, map_length.
  split; [reflexivity|]. split; [apply center_total|]. rewrite center_map. eexists. intros i Hi.
  set (p0 := mkP [] [] 0 0 [] 0). rewrite (nth_map_in _ ps i 0 p0), (nth_map_in p_pos ps i [] p0), (nth_map_in _ ps i 0 p0) by assumption.
  unfold log_density. reflexivity.
Qed.

Lemma betas_sum_add n_dim gd par g ps : griddata_pointwise gd -> bd_variant par = VAdd -> bd_grid par = Some g ->
  walkers_ok n_dim (bd_bw par) (map p_pos ps) -> ps <> [] ->
  exists beta, calc_betas gd par ps = Ok beta /\ length beta = length ps /\
    total beta = total (interpolate gd g (map p_pos ps) 0) /\
    exists c, forall i, (i < length ps)%nat ->
      nth i beta 0 = ln (average (map (gauss_kernel (bd_bw par) (nth i (map p_pos ps) [])) (map p_pos ps)))
                     + nth i (map p_energy ps) 0 / bd_kt par - c
                     + nth i (interpolate gd g (map p_pos ps) 0) 0.
Proof.
  intros G V Eg W Hne. pose proof (interpolated_pointwise gd par (map p_pos ps) G) as I. rewrite Eg in I. destruct I as (f & Hf).
  assert (interpolate gd g (map p_pos ps) 0 = map f (map p_pos ps)) as Ei.
  { specialize (Hf (map p_pos ps)). unfold interpolated in Hf. rewrite Eg in Hf. destruct (Nat.eqb _ _); [|discriminate]. now inversion Hf. }
  eexists. split; [exact (betas_add n_dim _ _ _ _ V W Hne (Hf _))|]. rewrite Ei.
  split; [unfold vadd; rewrite vmap2_length, center_length, !map_length; lia|].
  split; [rewrite total_vadd by (now rewrite center_length, !map_length); rewrite center_total; lra|].
  rewrite center_map, map_map, vadd_map. eexists. intros i Hi.
  set (p0 := mkP [] [] 0 0 [] 0). rewrite (nth_map_in _ ps i 0 p0), (nth_map_in p_pos ps i [] p0), (nth_map_in p_energy ps i 0 p0), (nth_map_in _ ps i 0 p0) by assumption.
  unfold log_density. rewrite (mul_inv (p_energy (nth i ps p0)) (bd_kt par)). reflexivity.
Qed.

Definition shift_energy (c : R) (p : particle) : particle :=
  mkP (p_pos p) (p_mom p) (p_mass p) (p_energy p + c) (p_forces p) (p_c2 p).

Lemma betas_energy_shift n_dim gd par ps c : walkers_ok n_dim (bd_bw par) (map p_pos ps) ->
  calc_betas gd par (map (shift_energy c) ps) = calc_betas gd par ps.
Proof.
  intros W. assert (map p_pos (map (shift_energy c) ps) = map p_pos ps) as Epos by (rewrite map_map; reflexivity).
  unfold calc_betas. rewrite Epos. destruct (walker_density _ _) as [d|] eqn:Hd; [|reflexivity]. cbn [bind].
  apply walker_density_length in Hd. rewrite map_length in Hd.
  assert (center (vadd (map ln d) (map (fun p => p_energy p * (1 / bd_kt par)) (map (shift_energy c) ps)))
          = center (vadd (map ln d) (map (fun p => p_energy p * (1 / bd_kt par)) ps))) as E.
  { rewrite map_map. rewrite <- (center_shift (vadd (map ln d) (map (fun p => p_energy p * (1 / bd_kt par)) ps)) (c * (1 / bd_kt par))).
    f_equal. clear -Hd. revert d Hd. induction ps as [|p ps IH]; intros [|x d] H; cbn in *; try lia; [reflexivity|].
    unfold vadd in *. rewrite IH by lia. f_equal. lra. }
  rewrite E. reflexivity.
Qed.

Lemma betas_mult_energies gd par ps ps' : bd_variant par = VMult -> map p_pos ps = map p_pos ps' ->
  calc_betas gd par ps = calc_betas gd par ps'.
Proof. intros V E. unfold calc_betas. rewrite E, V. reflexivity. Qed.

Lemma betas_perm n_dim gd par ps ps' : griddata_pointwise gd -> (bd_variant par = VOrig \/ bd_grid par <> None) ->
  walkers_ok n_dim (bd_bw par) (map p_pos ps) -> ps <> [] -> Permutation ps ps' ->
  exists beta beta', calc_betas gd par ps = Ok beta /\ calc_betas gd par ps' = Ok beta' /\
    Permutation (combine ps beta) (combine ps' beta').
Proof.
  intros G Hg W Hne P. destruct (betas_shape n_dim gd par G Hg) as (rate & H1 & H2).
  assert (walkers_ok n_dim (bd_bw par) (map p_pos ps')) as W'.
  { destruct W as (A & B & C). split; [assumption|]. split; [assumption|]. rewrite Forall_forall in *. intros x Hx. apply C.
    eapply Permutation_in; [apply Permutation_sym, Permutation_map; eassumption|assumption]. }
  assert (ps' <> []) as Hne' by (intros ->; apply Permutation_sym, Permutation_nil in P; contradiction).
  eexists _, _. split; [now apply H2|]. split; [now apply H2|]. rewrite !combine_map.
  rewrite (map_ext (fun x => (x, rate ps x)) (fun x => (x, rate ps' x))) by (intros a; now rewrite (H1 _ _ a P)).
  now apply Permutation_map.
Qed.

Lemma betas_single n_dim gd par p beta : walkers_ok n_dim (bd_bw par) [p_pos p] -> bd_variant par <> VAdd ->
  calc_betas gd par [p] = Ok beta -> beta = [0].
Proof.
  intros W V H. pose proof (calc_betas_length _ _ _ _ H) as L. destruct beta as [|b [|]]; cbn in L; try lia.
  unfold calc_betas in H. apply bind_inv in H as (d & _ & H).
  assert (total [b] = 0) as E; [|cbn in E; f_equal; lra].
  destruct (bd_variant par); [|congruence|].
  - inversion H. apply center_total.
  - apply bind_inv in H as (c & _ & H). inversion H. apply center_total.
Qed.

(** ** C17: recalculate mode *)
Definition demo_par (recalc : bool) : bdpar := mkBD 1 1 [1] 1 1 recalc VOrig None None false.
Definition demo_walkers : list particle := [mkP [0] [0] 1 0 [] 0; mkP [0] [0] 1 2 [] 0].

Lemma demo_ok l : Forall (fun p => length (p_pos p) = 1%nat) l -> walkers_ok 1 [1] (map p_pos l).
Proof. intros H. split; [reflexivity|]. split; [repeat constructor; lra|]. apply Forall_map. assumption. Qed.

Lemma demo_betas gd rec : calc_betas gd (demo_par rec) demo_walkers = Ok [-1; 1].
Proof.
  rewrite (betas_orig 1); [|reflexivity|apply demo_ok; repeat constructor|discriminate].
  rewrite center_map. cbn [demo_walkers map p_energy demo_par bd_bw bd_kt]. f_equal.
  unfold log_density. cbn [p_pos]. set (L := ln _). unfold average, total. cbn. f_equal; [|f_equal]; field.
Qed.
Lemma demo_betas_equal gd rec p : length (p_pos p) = 1%nat -> calc_betas gd (demo_par rec) [p; p] = Ok [0; 0].
Proof.
  intros Hl. rewrite (betas_orig 1); [|reflexivity|apply demo_ok; repeat constructor; assumption|discriminate].
  rewrite center_map. cbn [map]. f_equal. set (L := _ + _). unfold average, total. cbn. f_equal; [|f_equal]; field.
Qed.

Lemma prob_one rec b : Rabs b = 1 -> leb (1 / 2) (event_prob (demo_par rec) b) = true.
Proof.
  intros Hb. unfold leb. destruct (Rle_dec _ _) as [|N]; [reflexivity|exfalso; apply N]. unfold event_prob. cbn. rewrite Hb.
  replace (- (1) * 1 * 1) with (- (1)) by lra. rewrite exp_Ropp. pose proof (exp_ineq1 1 ltac:(lra)).
  assert (/ exp 1 < / (1 + 1)) by (apply Rinv_lt_contravar; [apply Rmult_lt_0_compat; lra|lra]). lra.
Qed.
Lemma prob_zero rec : leb (1 / 2) (event_prob (demo_par rec) 0) = false.
Proof.
  unfold leb. destruct (Rle_dec _ _) as [H|]; [exfalso|reflexivity]. unfold event_prob in H. cbn in H.
  rewrite Rabs_R0 in H. replace (-0 * 1 * 1) with 0 in H by lra. rewrite exp_0 in H. lra.
Qed.
Lemma gtb_true x y : y < x -> gtb x y = true. Proof. unfold gtb. destruct (Rlt_dec y x); [reflexivity|contradiction]. Qed.
Lemma gtb_false x y : x <= y -> gtb x y = false. Proof. unfold gtb. destruct (Rlt_dec y x); [lra|reflexivity]. Qed.
Lemma ltb_true x y : x < y -> ltb x y = true. Proof. unfold ltb. destruct (Rlt_dec x y); [reflexivity|contradiction]. Qed.
Lemma ltb_false x y : y <= x -> ltb x y = false. Proof. unfold ltb. destruct (Rlt_dec x y); [lra|reflexivity]. Qed.

Lemma demo_recalc gd : exists st', do_birth_death demo_rng gd (demo_par true) (mkBS (rng := demo_rng) demo_walkers 0%nat stats0) = Ok ([(1, 0)%nat], st').
Proof.
  unfold do_birth_death. cbn [bs_ps]. rewrite demo_betas. cbn -[calc_betas perform_moves gtb ltb leb event_prob demo_par].
  rewrite (prob_one true 1) by (rewrite Rabs_R1; reflexivity). rewrite (gtb_true 1 0), (ltb_false 1 0) by lra.
  cbn -[calc_betas gtb ltb leb event_prob demo_par]. rewrite demo_betas_equal by reflexivity. cbn [bind nth_error at_].
  unfold at_; cbn -[gtb ltb leb event_prob demo_par]. rewrite prob_zero. eexists. reflexivity.
Qed.

Lemma recalc_swapped gd : exists rng par st evs st' beta dup kill,
  rng_ok rng /\ bd_recalc par = true /\ do_birth_death rng gd par st = Ok (evs, st') /\
  calc_betas gd par (bs_ps st) = Ok beta /\ hd_error evs = Some (dup, kill) /\
  0 < nth dup beta 0 /\ nth kill beta 0 < 0.
Proof.
  destruct (demo_recalc gd) as (st' & H). exists demo_rng, (demo_par true), (mkBS (rng := demo_rng) demo_walkers 0%nat stats0), [(1, 0)%nat], st', [-1; 1], 1%nat, 0%nat.
  split; [apply demo_rng_ok|]. split; [reflexivity|]. split; [assumption|]. split; [apply demo_betas|]. split; [reflexivity|]. cbn. lra.
Qed.

Lemma map_repeat {A B} (f : A -> B) x n : map f (repeat x n) = repeat (f x) n.
Proof. induction n; cbn; [reflexivity|]. now rewrite IHn. Qed.

Lemma recalc_unbound gd par (p : particle) n : bd_recalc par = true -> (2 <= n)%nat ->
  bd_variant par = VOrig -> walkers_ok (length (p_pos p)) (bd_bw par) [p_pos p] ->
  do_birth_death zero_rng gd par (mkBS (rng := zero_rng) (repeat p n) tt stats0) = Err UnboundLocalError.
Proof.
  intros Hm Hn V W. destruct n as [|n]; [lia|]. set (ps := repeat p (S n)).
  assert (length ps = S n) as Lp by apply repeat_length.
  assert (map p_pos ps = repeat (p_pos p) (S n)) as Ep by (unfold ps; apply map_repeat).
  assert (forall q, In q ps -> q = p) as Hq by (intros q; apply repeat_spec).
  unfold do_birth_death. cbn [bs_ps bs_rng bs_stats].
  rewrite (betas_orig (length (p_pos p))); [|assumption| |discriminate].
  2:{ destruct W as (A & B & C). split; [assumption|]. split; [assumption|]. rewrite Ep. apply Forall_forall. intros x Hx. apply repeat_spec in Hx. now subst. }
  set (f := fun q => _). rewrite center_map.
  assert (map (fun x => f x - average (map f ps)) ps = repeat 0 (S n)) as ->.
  { assert (map f ps = repeat (f p) (S n)) as -> by (unfold ps; apply map_repeat).
    unfold ps. rewrite map_repeat. f_equal. unfold average. rewrite repeat_length.
    assert (total (repeat (f p) (S n)) = INR (S n) * f p) as ->.
    { rewrite <- (repeat_length p (S n)) at 2. rewrite <- (total_map_const (f p) (repeat p (S n))). now rewrite map_repeat. }
    field. apply not_0_INR. lia. }
  cbn [bind r_random zero_rng fst]. rewrite Lp, Hm. cbn [negb bs_ps bs_rng bs_stats r_shuffle zero_rng seq repeat recalc_loop].
  unfold at_ at 1; cbn [nth_error bind]. unfold at_ at 1; cbn [nth_error bind].
  rewrite gtb_false, ltb_false by lra. 
  assert (leb 0 (event_prob par 0) = true) as ->.
  { unfold leb, event_prob. destruct (Rle_dec _ _) as [|N]; [reflexivity|exfalso; apply N]. rewrite Rabs_R0.
    replace (-0 * bd_dt par * bd_rate par) with 0 by lra. rewrite exp_0. lra. }
  unfold random_other. destruct (Nat.leb_spec (S n) 1); [lia|]. reflexivity.
Qed.

(** ** C53 *)
Section Reports.
Variables (rng : rng_if) (gd : griddata_t R) (par : bdpar) (move : Z -> list particle -> list particle) (st : bdst rng).

Lemma bd_loop_0 n : (n <= 0)%Z -> bd_loop rng gd par move n st = Ok (st, []).
Proof. intros H. unfold bd_loop. rewrite zrange_nil by lia. reflexivity. Qed.
Lemma bd_loop_S n : (0 <= n)%Z -> bd_loop rng gd par move (n + 1) st =
  do (b, out) <- bd_loop rng gd par move n st;
  bd_run rng gd par (n + 1) (mkBS (move (n + 1)%Z (bs_ps b)) (bs_rng b) (bs_stats b), out).
Proof.
  intros H. unfold bd_loop. rewrite (zrange_snoc 1 (n + 1)) by lia. rewrite foldM_app.
  destruct (foldM _ (zrange 1 (n + 1)) (st, [])) as [[b out]|]; [|reflexivity]. cbn [bind foldM].
  destruct (bd_run _ _ _ _ _); reflexivity.
Qed.

Definition stats_times (n : Z) : list Z :=
  match bd_stats_stride par with Some s => if (s =? 0)%Z then [] else times 0 n s | None => [] end.

Lemma bd_loop_reports n : (0 <= n)%Z -> forall b out, bd_loop rng gd par move n st = Ok (b, out) ->
  exists S : Z -> stats,
    (forall k, (0 <= k <= n)%Z -> exists b' out', bd_loop rng gd par move k st = Ok (b', out') /\ bs_stats b' = S k) /\
    out = map (fun k => stats_print (bd_to_file par) k (S k)) (stats_times n).
Proof.
  intros Hn. pattern n. apply natlike_ind; [| |assumption].
  - intros b out H. rewrite bd_loop_0 in H by lia. injection H as <- <-. exists (fun _ => bs_stats st). split.
    + intros k Hk. exists st, []. rewrite bd_loop_0 by lia. auto.
    + unfold stats_times. destruct (bd_stats_stride par) as [s|]; [|reflexivity]. destruct (s =? 0)%Z; [reflexivity|]. now rewrite times_nil by lia.
  - clear n Hn. intros n Hn IH b out H. unfold Z.succ in *. pose proof H as H0. rewrite bd_loop_S in H by assumption.
    apply bind_inv in H as ([b1 out1] & E1 & H). destruct (IH _ _ E1) as (S & HS & ->).
    assert (exists c, bs_stats b = c /\ out = map (fun k => stats_print (bd_to_file par) k (S k)) (stats_times n) ++
              match bd_stats_stride par with Some s => if (s =? 0)%Z then [] else if ((n + 1) mod s =? 0)%Z then [stats_print (bd_to_file par) (n + 1) c] else [] | None => [] end) as (c & Hc & Ho).
    { unfold bd_run in H. destruct (bd_stride par =? 0)%Z; [discriminate|]. apply bind_inv in H as (s' & _ & H).
      exists (bs_stats b). split; [reflexivity|]. destruct (bd_stats_stride par) as [k|].
      - destruct (k =? 0)%Z; [inversion H; now rewrite app_nil_r|]. destruct ((n + 1) mod k =? 0)%Z; inversion H; subst; [reflexivity|now rewrite app_nil_r].
      - inversion H; now rewrite app_nil_r. }
    exists (fun k => if (k =? n + 1)%Z then c else S k). split.
    + intros k Hk. destruct (Z.eqb_spec k (n + 1)) as [->|].
      * eauto.
      * apply HS. lia.
    + rewrite Ho. assert (forall l, Forall (fun k => k <= n)%Z l ->
        map (fun k => stats_print (bd_to_file par) k (if (k =? n + 1)%Z then c else S k)) l = map (fun k => stats_print (bd_to_file par) k (S k)) l) as Ext.
      { intros l F. apply map_ext_in. intros k Hk. rewrite Forall_forall in F. apply F in Hk. destruct (Z.eqb_spec k (n + 1)); [lia|reflexivity]. }
      unfold stats_times. destruct (bd_stats_stride par) as [s|]; [|reflexivity]. destruct (s =? 0)%Z; [reflexivity|].
      rewrite (times_app 0 n (n + 1)) by lia. rewrite map_app, Ext.
      2:{ apply Forall_forall. intros k Hk. apply in_times in Hk. lia. }
      f_equal. unfold times at 1. rewrite zrange_cons, zrange_nil by lia. cbn [filter].
      destruct ((n + 1) mod s =? 0)%Z; [|reflexivity]. cbn [map]. now rewrite Z.eqb_refl.
Qed.

Lemma bd_simulation_reports n b out : (0 <= n)%Z -> bd_simulation rng gd par move n st = Ok (b, out) ->
  exists S : Z -> stats,
    (forall k, (0 <= k <= n)%Z -> exists b' out', bd_loop rng gd par move k st = Ok (b', out') /\ bs_stats b' = S k) /\
    map (fun r => (rep_step r, rep_stats r)) out =
    map (fun k => (k, S k)) (match bd_stats_stride par with Some s => if (s =? 0)%Z then [n] else times 0 n s | None => [n] end).
Proof.
  intros Hn H. unfold bd_simulation in H. apply bind_inv in H as ([b1 out1] & E1 & H).
  destruct (bd_loop_reports n Hn _ _ E1) as (S & HS & ->). exists S. split; [assumption|].
  destruct (HS n ltac:(lia)) as (b' & out' & E' & Hb). rewrite E1 in E'. inversion E'; subst b' out'.
  unfold bd_final_run, stats_times in *. unfold truthyZ in H. cbn [fst snd] in H.
  destruct (bd_stats_stride par) as [s|].
  - destruct (s =? 0)%Z; cbn [negb] in H.
    + injection H as <- <-. cbn. now rewrite Hb.
    + injection H as <- <-. rewrite map_map. reflexivity.
  - injection H as <- <-. cbn. now rewrite Hb.
Qed.

Lemma ratio_quotient c a b : quotient c a b (ratio c a b).
Proof.
  unfold ratio, quotient. destruct (Nat.eqb_spec b 0) as [H|H]; [assumption|]. split; [assumption|].
  field. apply not_0_INR. assumption.
Qed.
Lemma bd_simulation_screen n b out : (0 <= n)%Z -> bd_simulation rng gd par move n st = Ok (b, out) ->
  Forall (fun r => if bd_to_file par then rep_screen r = None else
    exists death birth succ att, rep_screen r = Some (death, birth, succ, att) /\
      quotient 100 (kill_count (rep_stats r)) (kill_attempts (rep_stats r)) death /\
      quotient 100 (dup_count (rep_stats r)) (dup_attempts (rep_stats r)) birth /\
      quotient 1 (dup_count (rep_stats r)) (kill_count (rep_stats r)) succ /\
      quotient 1 (dup_attempts (rep_stats r)) (kill_attempts (rep_stats r)) att) out.
Proof.
  intros Hn H. unfold bd_simulation in H. apply bind_inv in H as ([b1 out1] & E1 & H).
  destruct (bd_loop_reports n Hn _ _ E1) as (S & _ & ->).
  assert (exists l, out = map (fun ks => stats_print (bd_to_file par) (fst ks) (snd ks)) l) as (l & ->).
  { unfold bd_final_run in H. cbn [fst snd] in H.
    destruct (truthyZ (bd_stats_stride par)); injection H as <- <-.
    - exists (map (fun k => (k, S k)) (stats_times n)). now rewrite map_map.
    - exists (map (fun k => (k, S k)) (stats_times n) ++ [(n, bs_stats b1)]). rewrite map_app, map_map. reflexivity. }
  apply Forall_forall. intros r Hr. apply in_map_iff in Hr as ([k s] & <- & _). unfold stats_print. cbn [rep_screen rep_stats fst snd].
  destruct (bd_to_file par); [reflexivity|]. do 4 eexists. split; [reflexivity|]. repeat split; apply ratio_quotient.
Qed.
End Reports.

Lemma bd_reports_stride rng gd par move st n b out s : (0 <= n)%Z -> bd_stats_stride par = Some s -> (0 < s)%Z ->
  bd_simulation rng gd par move n st = Ok (b, out) ->
  exists stats_at : Z -> stats,
    (forall k, (0 <= k <= n)%Z -> exists b' out', bd_loop rng gd par move k st = Ok (b', out') /\ bs_stats b' = stats_at k) /\
    map (fun r => (rep_step r, rep_stats r)) out = map (fun k => (k, stats_at k)) (times 0 n s).
Proof.
  intros Hn Es Hs H. destruct (bd_simulation_reports _ _ _ _ _ _ _ _ Hn H) as (S & H1 & H2). exists S. split; [assumption|].
  rewrite Es in H2. destruct (Z.eqb_spec s 0); [lia|]. assumption.
Qed.
Lemma bd_reports_none rng gd par move st n b out : (0 <= n)%Z -> bd_stats_stride par = None ->
  bd_simulation rng gd par move n st = Ok (b, out) -> length out = 1%nat.
Proof.
  intros Hn Es H. destruct (bd_simulation_reports _ _ _ _ _ _ _ _ Hn H) as (S & H1 & H2). rewrite Es in H2.
  apply (f_equal (@length _)) in H2. now rewrite !map_length in H2.
Qed.

Lemma bulk_mode_events rng gd par st evs st' : rng_ok rng -> bd_recalc par = false ->
  do_birth_death rng gd par st = Ok (evs, st') ->
  exists beta rand order,
    calc_betas gd par (bs_ps st) = Ok beta /\
    rand = fst (r_random rng (length (bs_ps st)) (bs_rng st)) /\
    NoDup order /\
    (forall i, In i order <-> (i < length (bs_ps st))%nat /\
                 nth i rand 0 <= accept_prob (bd_dt par) (bd_rate par) (nth i beta 0)) /\
    bulk_events (length (bs_ps st)) beta order [] evs.
Proof. intros R M H. destruct (bulk_full _ _ _ _ _ _ R M H) as (b & r & o & H1 & H2 & H3 & H4 & H5 & _). exists b, r, o. auto. Qed.

Lemma recalc_mode_events rng gd par st evs st' : rng_ok rng -> bd_recalc par = true ->
  do_birth_death rng gd par st = Ok (evs, st') ->
  exists beta rand order,
    calc_betas gd par (bs_ps st) = Ok beta /\
    rand = fst (r_random rng (length (bs_ps st)) (bs_rng st)) /\
    Permutation order (seq 0 (length (bs_ps st))) /\
    recalc_events (length (bs_ps st)) (fun ws b => calc_betas gd par ws = Ok b)
      (accept_prob (bd_dt par) (bd_rate par)) rand order beta None (bs_ps st) evs.
Proof. intros R M H. destruct (recalc_full _ _ _ _ _ _ R M H) as (b & r & o & H1 & H2 & H3 & H4 & _). exists b, r, o. auto. Qed.

Lemma bulk_stats rng gd par st evs st' : rng_ok rng -> bd_recalc par = false ->
  do_birth_death rng gd par st = Ok (evs, st') ->
  let s := bs_stats st in let s' := bs_stats st' in
  (kill_attempts s' + dup_attempts s' = kill_attempts s + dup_attempts s + length (bs_ps st) /\
   kill_count s' + dup_count s' = kill_count s + dup_count s + length evs)%nat /\
  exists beta, calc_betas gd par (bs_ps st) = Ok beta /\
    kill_attempts s' = (kill_attempts s + length (filter (fun b => if Rlt_dec 0 b then true else false) beta))%nat.
Proof.
  intros R M H. destruct (bulk_full _ _ _ _ _ _ R M H) as (b & r & o & H1 & _ & _ & _ & _ & _ & _ & S). cbv zeta in *.
  split; [lia|]. exists b. split; [assumption|]. apply S.
Qed.
Lemma recalc_stats rng gd par st evs st' : rng_ok rng -> bd_recalc par = true ->
  do_birth_death rng gd par st = Ok (evs, st') ->
  let s := bs_stats st in let s' := bs_stats st' in
  (kill_attempts s <= kill_attempts s' /\ dup_attempts s <= dup_attempts s' /\
   kill_attempts s' + dup_attempts s' <= kill_attempts s + dup_attempts s + length (bs_ps st) /\
   kill_count s <= kill_count s' /\ dup_count s <= dup_count s' /\
   kill_count s' + dup_count s' <= kill_count s + dup_count s + length evs)%nat.
Proof.
  intros R M H. destruct (recalc_full _ _ _ _ _ _ R M H) as (b & r & o & _ & _ & _ & _ & _ & _ & S). cbv zeta in *. lia.
Qed.

Lemma demo_bulk_stats gd : exists st', do_birth_death demo_rng gd (demo_par false) (mkBS (rng := demo_rng) demo_walkers 0%nat stats0) = Ok ([(0, 1); (0, 1)]%nat, st') /\ bs_stats st' = mkStats 1 1 1 1.
Proof.
  unfold do_birth_death. cbn [bs_ps]. rewrite demo_betas.
  cbn -[perform_moves gtb leb event_prob demo_par where_true]. unfold demo_par at 1; cbn [bd_recalc negb].
  unfold bd_bulk. cbn -[perform_moves gtb leb event_prob demo_par where_true].
  rewrite (prob_one false 1), (prob_one false (-1)) by (unfold Rabs; destruct (Rcase_abs _); lra).
  rewrite (gtb_true 1 0), (gtb_false (-1) 0) by lra. cbn -[gtb demo_par].
  unfold at_; cbn -[gtb]. rewrite (gtb_true 1 0), (gtb_false (-1) 0) by lra. cbn. eexists. split; reflexivity.
Qed.
Lemma demo_bulk gd : exists st', do_birth_death demo_rng gd (demo_par false) (mkBS (rng := demo_rng) demo_walkers 0%nat stats0) = Ok ([(0, 1); (0, 1)]%nat, st').
Proof. destruct (demo_bulk_stats gd) as (st' & H & _). eauto. Qed.
Lemma demo_reach gd : exists st, bd_reach demo_rng gd (demo_par false) st /\ bs_stats st = mkStats 1 1 1 1.
Proof.
  destruct (demo_bulk_stats gd) as (st' & H & E). exists st'. split; [|assumption]. eapply reach_bd; [|exact H]. apply reach_start.
Qed.
Lemma demo_simulation gd : exists b out,
  bd_simulation demo_rng gd (demo_par false) (fun _ ps => ps) 1 (mkBS (rng := demo_rng) demo_walkers 0%nat stats0) = Ok (b, out) /\
  map (fun r => (rep_step r, rep_stats r)) out = [(1%Z, mkStats 1 1 1 1)].
Proof.
  destruct (demo_bulk_stats gd) as (st' & H & E). unfold bd_simulation, bd_loop.
  change (zrange 1 (1 + 1)) with [1%Z]. cbn [foldM bind bs_ps bs_rng bs_stats]. unfold bd_run.
  cbn [bd_stride demo_par]. change (1 mod 1 =? 0)%Z with true. change (1 =? 0)%Z with false. cbn match.
  rewrite H. cbn. eexists _, _. split; [reflexivity|]. cbn. now rewrite E.
Qed.

(** ** the object made by the constructor *)
Lemma bd_init_parameters gd nan md_dt stride bw kt rate recalc var eqd ss tf par :
  bd_init gd nan md_dt stride bw kt rate recalc var eqd ss tf = Ok par ->
  bd_stride par = stride /\ bd_bw par = bw /\ bd_kt par = kt /\ bd_recalc par = recalc /\
  bd_variant par = match var with Some v => v | None => VOrig end /\ bd_stats_stride par = ss /\
  exists factor, (match rate with Some x => (x <> 0 -> factor = x) /\ (x = 0 -> factor = 1) | None => factor = 1 end) /\
    forall b, event_prob par b = accept_prob (md_dt * IZR stride) factor b.
Proof.
  unfold bd_init. destruct (Req_EM_T kt 0); [discriminate|]. cbv zeta. intros H.
  assert (exists g, par = mkBD stride (md_dt * IZR stride) bw kt (orR rate 1) recalc (match var with Some v => v | None => VOrig end) g ss tf) as (g & ->).
  { destruct (match var with Some v => v | None => VOrig end) eqn:V.
    - injection H as <-. eexists; reflexivity.
    - destruct eqd as [d|]; [|discriminate]. apply bind_inv in H as (g & _ & H). injection H as <-. eexists; reflexivity.
    - destruct eqd as [d|]; [|discriminate]. apply bind_inv in H as (g & _ & H). injection H as <-. eexists; reflexivity. }
  cbn [bd_stride bd_bw bd_kt bd_recalc bd_variant bd_stats_stride]. do 6 (split; [reflexivity|]). exists (orR rate 1). split.
  - unfold orR. destruct rate as [x|]; [|reflexivity]. destruct (Req_EM_T x 0); split; intros; congruence.
  - intros b. unfold event_prob, accept_prob. cbn [bd_dt bd_rate]. do 2 f_equal. ring.
Qed.
