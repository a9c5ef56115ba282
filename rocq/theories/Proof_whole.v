(** The program as composition of its actions (C56) *)
From Coq Require Import Lia.
From Verif Require Import PyBase Model_xr Model_dyn Model_bd Model_traj Model_histaction Model_fes Model_deltaf Model_pdist
  Model_setup Model_main Spec_traj Spec_trajrun Spec_histact Spec_setup Spec_fes Spec_pdist Spec_main Spec_whole
  Proof_base Proof_main Proof_main2.
Open Scope Z_scope.
Ltac Zify.zify_post_hook ::= idtac.

(** * loops *)
Lemma foldM_snoc {S} (f : S -> Z -> res S) k s : 0 <= k ->
  foldM f (zrange 1 (k + 1 + 1)) s = do s' <- foldM f (zrange 1 (k + 1)) s; f s' (k + 1).
Proof.
  intro H. rewrite (zrange_snoc 1 (k + 1)) by lia. rewrite foldM_app.
  destruct (foldM f (zrange 1 (k + 1)) s) as [t|]; cbn [bind foldM]; [|reflexivity]. destruct (f t (k + 1)); reflexivity.
Qed.
Lemma foldM_prefix {S} (f : S -> Z -> res S) n s0 s : 0 <= n -> foldM f (zrange 1 (n + 1)) s0 = Ok s ->
  forall k, 0 <= k <= n -> exists sk, foldM f (zrange 1 (k + 1)) s0 = Ok sk.
Proof.
  intros Hn H k Hk. rewrite (zrange_app 1 (k + 1) (n + 1)), foldM_app in H by lia.
  apply bind_ok in H. destruct H as (sk & H & _). eauto.
Qed.
(** the states of a successful loop *)
Lemma foldM_states {S} (f : S -> Z -> res S) n s0 s : 0 <= n -> foldM f (zrange 1 (n + 1)) s0 = Ok s ->
  exists T : Z -> S, T 0 = s0 /\ T n = s /\ forall k, 1 <= k <= n -> f (T (k - 1)) k = Ok (T k).
Proof.
  intros Hn H. set (T := fun k => match foldM f (zrange 1 (k + 1)) s0 with Ok x => x | Err _ => s0 end).
  assert (HT : forall k, 0 <= k <= n -> foldM f (zrange 1 (k + 1)) s0 = Ok (T k)).
  { intros k Hk. unfold T. destruct (foldM_prefix f n s0 s Hn H k Hk) as (sk & ->). reflexivity. }
  exists T. split; [|split].
  - specialize (HT 0 ltac:(lia)). rewrite zrange_nil in HT by lia. cbn [foldM] in HT. symmetry. apply ok_inj, HT.
  - specialize (HT n ltac:(lia)). rewrite H in HT. symmetry. apply ok_inj, HT.
  - intros k Hk. pose proof (HT k ltac:(lia)) as H1. pose proof (HT (k - 1) ltac:(lia)) as H0.
    pose proof (foldM_snoc f (k - 1) s0 ltac:(lia)) as H2.
    replace (k - 1 + 1) with k in H2, H0 by lia. rewrite H1, H0 in H2. symmetry. exact H2.
Qed.
Lemma foldM_of_states {S} (f : S -> Z -> res S) (T : Z -> S) n :
  (forall k, 1 <= k <= n -> f (T (k - 1)) k = Ok (T k)) ->
  forall k, 0 <= k <= n -> foldM f (zrange 1 (k + 1)) (T 0) = Ok (T k).
Proof.
  intros H k [Hk1 Hk2]. revert Hk2. pattern k. apply natlike_ind; [| |exact Hk1].
  - intros _. rewrite zrange_nil by lia. reflexivity.
  - intros m Hm IH Hmn. unfold Z.succ in *. rewrite foldM_snoc by lia. rewrite IH by lia. cbn [bind].
    specialize (H (m + 1) ltac:(lia)). replace (m + 1 - 1) with m in H by lia. exact H.
Qed.

(** * the actions that are set up *)
Definition some {A} (o : option A) : bool := match o with Some _ => true | None => false end.
Definition is_set {rng} (w : world rng) (a : action) : bool :=
  match a with
  | ALd => true | ABirthDeath => some (w_bd w) | ATrajectories => some (w_traj w) | AHistogram => some (w_hist w)
  | AFes => some (w_fes w) | ADeltaF => some (w_df w) | AParticleDistribution => some (w_pd w)
  end.
Definition present {rng} (w : world rng) : list action := filter (is_set w) canonical.

Lemma when_present e o a setup s s' :
  when e o a setup s = Ok s' ->
  is_set (snd s) a = false ->
  (forall d w w', setup d w = Ok w' -> is_set w' a = true /\ forall b, b <> a -> is_set w' b = is_set w b) ->
  is_set (snd s') a = truthy_dict o /\ forall b, b <> a -> is_set (snd s') b = is_set (snd s) b.
Proof.
  unfold when. destruct o as [[|kv d]|]; cbn [truthy_dict]; intros H Hs Hf.
  - apply ok_inj in H. subst s'. auto.
  - apply bind_ok in H. destruct H as (w & E & H). apply ok_inj in H. subst s'. exact (Hf _ _ _ E).
  - apply ok_inj in H. subst s'. auto.
Qed.

Ltac binds H := repeat match type of H with
  | (do _ <- _; _) = Ok _ => let x := fresh "x" in let E := fresh "E" in apply bind_ok in H; destruct H as (x & E & H)
  | (let (_, _) := ?x in _) = Ok _ => destruct x
  end.

Lemma setup_present e c w0 acts w : setup_dynamics e c = Ok w0 -> setup_actions e c w0 = Ok (acts, w) -> acts = present w.
Proof.
  intros H0 H. rewrite (setup_actions_list _ _ _ _ _ H).
  assert (B : forall a, is_set w0 a = match a with ALd => true | _ => false end).
  { unfold setup_dynamics in H0. binds H0. apply ok_inj in H0. subst w0. intros []; reflexivity. }
  unfold setup_actions in H. cbv zeta in H.
  apply bind_ok in H. destruct H as (s1 & H1 & H). apply bind_ok in H. destruct H as (s2 & H2 & H).
  apply bind_ok in H. destruct H as (s3 & H3 & H). apply bind_ok in H. destruct H as (s4 & H4 & H).
  apply bind_ok in H. destruct H as (s5 & H5 & H6).
  assert (Gbd : forall (w : world (e_rng e)) ps b, is_set (set_bd e w ps b) ABirthDeath = true /\ forall a, a <> ABirthDeath -> is_set (set_bd e w ps b) a = is_set w a)
    by (intros; split; [reflexivity|intros []; congruence || reflexivity]).
  apply when_present in H1; [|cbn [snd]; apply B|intros d v v' Hv; binds Hv; apply ok_inj in Hv; subst v'; apply Gbd].
  destruct H1 as [A1 F1]. cbn [snd] in F1.
  apply when_present in H2; [|rewrite F1 by discriminate; apply B|intros d v v' Hv; binds Hv; apply ok_inj in Hv; subst v';
    split; [reflexivity|intros []; congruence || reflexivity]].
  destruct H2 as [A2 F2].
  apply when_present in H3; [|rewrite F2, F1 by discriminate; apply B|intros d v v' Hv; binds Hv; apply ok_inj in Hv; subst v';
    split; [reflexivity|intros []; congruence || reflexivity]].
  destruct H3 as [A3 F3].
  apply when_present in H4; [|rewrite F3, F2, F1 by discriminate; apply B|intros d v v' Hv; binds Hv; apply ok_inj in Hv; subst v';
    split; [reflexivity|intros []; congruence || reflexivity]].
  destruct H4 as [A4 F4].
  apply when_present in H5; [|rewrite F4, F3, F2, F1 by discriminate; apply B|intros d v v' Hv; binds Hv; apply ok_inj in Hv; subst v';
    split; [reflexivity|intros []; congruence || reflexivity]].
  destruct H5 as [A5 F5].
  apply when_present in H6; [|rewrite F5, F4, F3, F2, F1 by discriminate; apply B|intros d v v' Hv; binds Hv; apply ok_inj in Hv; subst v';
    split; [reflexivity|intros []; congruence || reflexivity]].
  destruct H6 as [A6 F6]. cbn [snd] in A6, F6.
  unfold present, canonical. cbn [filter].
  assert (B1 : is_set w ABirthDeath = truthy_dict (c_birth_death c)) by (rewrite F6, F5, F4, F3, F2 by discriminate; exact A1).
  assert (B2 : is_set w ATrajectories = truthy_dict (c_trajectories c)) by (rewrite F6, F5, F4, F3 by discriminate; exact A2).
  assert (B3 : is_set w AHistogram = truthy_dict (c_histogram c)) by (rewrite F6, F5, F4 by discriminate; exact A3).
  assert (B4 : is_set w AFes = truthy_dict (c_fes c)) by (rewrite F6, F5 by discriminate; exact A4).
  assert (B5 : is_set w ADeltaF = truthy_dict (c_delta_f c)) by (rewrite F6 by discriminate; exact A5).
  rewrite B1, B2, B3, B4, B5, A6.
  cbn [is_set].
  destruct (truthy_dict (c_birth_death c)), (truthy_dict (c_trajectories c)), (truthy_dict (c_histogram c)),
    (truthy_dict (c_fes c)), (truthy_dict (c_delta_f c)), (truthy_dict (c_particle_distribution c)); reflexivity.
Qed.

(** * one action, if it is set up *)
Definition opt_act {rng} (f : action -> world rng -> res (world rng)) (w : world rng) (a : action) : res (world rng) :=
  if is_set w a then f a w else Ok w.

Lemma run_is_set e a k w w' : run_action e a k w = Ok w' -> forall b, is_set w' b = is_set w b.
Proof.
  destruct a; cbn [run_action]; intros H; binds H; apply ok_inj in H; subst w';
    intros []; try reflexivity; cbn [is_set set_bd set_traj set_hist set_fes set_df set_pd set_dyn w_bd w_traj w_hist w_fes w_df w_pd];
    unfold need in *;
    match goal with |- some (Some _) = some ?o => destruct o; [reflexivity|discriminate] end.
Qed.
Lemma final_is_set e a k w w' : final_run_action e a k w = Ok w' -> forall b, is_set w' b = is_set w b.
Proof.
  destruct a; cbn [final_run_action]; intros H; binds H; apply ok_inj in H; subst w'; try reflexivity;
    intros []; try reflexivity; cbn [is_set set_bd set_traj set_hist set_fes set_df set_pd set_dyn w_bd w_traj w_hist w_fes w_df w_pd];
    unfold need in *;
    match goal with |- some (Some _) = some ?o => destruct o; [reflexivity|discriminate] end.
Qed.

Lemma fold_present {rng} (f : action -> world rng -> res (world rng)) :
  (forall a w w', f a w = Ok w' -> forall b, is_set w' b = is_set w b) ->
  forall l w, foldM (fun w a => f a w) (filter (is_set w) l) w = foldM (opt_act f) l w.
Proof.
  intros Hf. induction l as [|a l IH]; intro w; [reflexivity|]. cbn [filter foldM]. unfold opt_act at 1.
  destruct (is_set w a) eqn:E; [|apply IH]. cbn [foldM]. destruct (f a w) as [w1|x] eqn:E1; cbn [bind]; [|reflexivity].
  rewrite <- IH. f_equal. apply filter_ext. intro b. symmetry. apply (Hf _ _ _ E1).
Qed.
Lemma present_ext {rng} (w w' : world rng) : (forall b, is_set w' b = is_set w b) -> present w' = present w.
Proof. intro H. apply filter_ext. exact H. Qed.
Lemma fold_is_set {rng} (f : action -> world rng -> res (world rng)) :
  (forall a w w', f a w = Ok w' -> forall b, is_set w' b = is_set w b) ->
  forall l w w', foldM (fun w a => f a w) l w = Ok w' -> forall b, is_set w' b = is_set w b.
Proof.
  intros Hf. induction l as [|a l IH]; intros w w' H b; cbn [foldM] in H; [apply ok_inj in H; subst; reflexivity|].
  apply bind_ok in H. destruct H as (w1 & E & H). rewrite (IH _ _ H). apply (Hf _ _ _ E).
Qed.

(** * one time step *)
Definition step_rel (e : env) (k : Z) (w w' : world (e_rng e)) : Prop :=
  let ld := w_ld w in
  w_ld w' = ld /\ dyn_step e ld k (dyn_of w) (dyn_of w') /\
  match w_traj w with
  | None => w_traj w' = None
  | Some t => exists t', w_traj w' = Some t' /\ traj_run (ld_dt ld) (w_ps w') t k = Ok t'
  end /\
  match w_hist w with
  | None => w_hist w' = None
  | Some h => exists t' h', w_traj w' = Some t' /\ w_hist w' = Some h' /\ ha_run t' h k = Ok h'
  end /\
  match w_fes w with
  | None => w_fes w' = None
  | Some f => exists h' f', w_hist w' = Some h' /\ w_fes w' = Some f' /\ fes_run h' (e_junk_fes e k) f k = Ok f'
  end /\
  match w_df w with
  | None => w_df w' = None
  | Some (m, r) => exists f' r', w_fes w' = Some f' /\ w_df w' = Some (m, r') /\
      delta_f_run (fa_fes f') (ld_kt ld) (ld_dt ld) m r k = Ok r'
  end /\
  match w_pd w with
  | None => w_pd w' = None
  | Some (m, r) => exists r', w_pd w' = Some (m, r') /\ pdist_run (pot_ndim (ld_pot ld)) (w_ps w') m r k = Ok r'
  end.

Lemma dyn_step_inv e ld k (d d' : dyn e) : dyn_step e ld k d d' ->
  match d, d' with (ps, g, bd), (ps', g', bd') =>
    exists ps1, ld_run (e_rng e) ld ps g = Ok (ps1, g') /\
      match bd with None => bd' = None /\ ps' = ps1 | Some (par, bg, st, out) => exists b out',
        bd_run (e_rng e) (e_gd e) par k (mkBS ps1 bg st, out) = Ok (b, out') /\ ps' = bs_ps b /\ bd' = Some (par, bs_rng b, bs_stats b, out') end
  end.
Proof. destruct 1; eauto 10. Qed.

Lemma need_some {A} (o : option A) a : need o = Ok a -> o = Some a.
Proof. destruct o; cbn; [intro H; injection H as ->; reflexivity|discriminate]. Qed.

Ltac cbnw := cbn [w_ld w_ps w_rng w_bd w_traj w_hist w_fes w_df w_pd set_dyn set_bd set_traj set_hist set_fes set_df set_pd dyn_of need bind some is_set].
Ltac cbnw_in H := cbn [w_ld w_ps w_rng w_bd w_traj w_hist w_fes w_df w_pd set_dyn set_bd set_traj set_hist set_fes set_df set_pd dyn_of need bind some is_set] in H.

Lemma step_iff e k w w' : foldM (fun w a => run_action e a k w) (present w) w = Ok w' <-> step_rel e k w w'.
Proof.
  unfold present. rewrite (fold_present (fun a w => run_action e a k w)) by (intros a v v'; apply run_is_set).
  unfold canonical. cbn [foldM]. unfold opt_act. destruct w as [ld ps g bd tr hi fe df pd]. cbnw. cbn [run_action]. cbnw.
  split.
  - intro H. apply bind_ok in H. destruct H as (w1 & E & H). apply bind_ok in E. destruct E as ([ps1 g1] & Eld & E).
    apply ok_inj in E. subst w1. cbnw_in H. cbn [run_action] in H. cbnw_in H.
    apply bind_ok in H. destruct H as (w2 & E & H).
    assert (D : exists ps2 bd2, w2 = mkWorld ld ps2 g1 bd2 tr hi fe df pd /\ dyn_step e ld k (ps, g, bd) (ps2, g1, bd2)).
    { destruct bd as [[[[par bg] st] out]|]; cbnw_in E.
      - binds E. apply ok_inj in E. subst w2. eexists. eexists. split; [reflexivity|]. econstructor; eassumption.
      - apply ok_inj in E. subst w2. eexists. eexists. split; [reflexivity|]. constructor. exact Eld. }
    clear E Eld. destruct D as (ps2 & bd2 & -> & D). cbnw_in H.
    apply bind_ok in H. destruct H as (w3 & E & H).
    assert (T : exists tr', w3 = mkWorld ld ps2 g1 bd2 tr' hi fe df pd /\
       match tr with None => tr' = None | Some t => exists t', tr' = Some t' /\ traj_run (ld_dt ld) ps2 t k = Ok t' end).
    { destruct tr as [t|]; cbnw_in E; [binds E|]; apply ok_inj in E; subst w3; eexists; (split; [reflexivity|eauto]). }
    clear E. destruct T as (tr' & -> & T). cbnw_in H.
    apply bind_ok in H. destruct H as (w4 & E & H).
    assert (I : exists hi', w4 = mkWorld ld ps2 g1 bd2 tr' hi' fe df pd /\
       match hi with None => hi' = None | Some h => exists t' h', tr' = Some t' /\ hi' = Some h' /\ ha_run t' h k = Ok h' end).
    { destruct hi as [h|]; cbnw_in E; [binds E; apply need_some in E0|]; apply ok_inj in E; subst w4; eexists; (split; [reflexivity|eauto]). }
    clear E. destruct I as (hi' & -> & I). cbnw_in H.
    apply bind_ok in H. destruct H as (w5 & E & H).
    assert (F : exists fe', w5 = mkWorld ld ps2 g1 bd2 tr' hi' fe' df pd /\
       match fe with None => fe' = None | Some f => exists h' f', hi' = Some h' /\ fe' = Some f' /\ fes_run h' (e_junk_fes e k) f k = Ok f' end).
    { destruct fe as [f|]; cbnw_in E; [binds E; apply need_some in E0|]; apply ok_inj in E; subst w5; eexists; (split; [reflexivity|eauto]). }
    clear E. destruct F as (fe' & -> & F). cbnw_in H.
    apply bind_ok in H. destruct H as (w6 & E & H).
    assert (G : exists df', w6 = mkWorld ld ps2 g1 bd2 tr' hi' fe' df' pd /\
       match df with None => df' = None | Some (m, r) => exists f' r', fe' = Some f' /\ df' = Some (m, r') /\
         delta_f_run (fa_fes f') (ld_kt ld) (ld_dt ld) m r k = Ok r' end).
    { destruct df as [[m r]|]; cbnw_in E; [binds E; apply need_some in E0|]; apply ok_inj in E; subst w6; eexists; (split; [reflexivity|eauto]). }
    clear E. destruct G as (df' & -> & G). cbnw_in H.
    apply bind_ok in H. destruct H as (w7 & E & H). apply ok_inj in H. subst w7.
    assert (P : exists pd', w' = mkWorld ld ps2 g1 bd2 tr' hi' fe' df' pd' /\
       match pd with None => pd' = None | Some (m, r) => exists r', pd' = Some (m, r') /\
         pdist_run (pot_ndim (ld_pot ld)) ps2 m r k = Ok r' end).
    { destruct pd as [[m r]|]; cbnw_in E; [binds E|]; apply ok_inj in E; subst w'; eexists; (split; [reflexivity|eauto]). }
    destruct P as (pd' & -> & P). unfold step_rel. cbnw. repeat (split; [first [reflexivity | assumption]|]). exact P.
  - destruct w' as [ld' ps' g' bd' tr' hi' fe' df' pd']. unfold step_rel. cbnw.
    intros (-> & D & T & I & F & G & P).
    assert (D' : exists ps1, ld_run (e_rng e) ld ps g = Ok (ps1, g') /\
      match bd with None => bd' = None /\ ps' = ps1 | Some (par, bg, st, out) => exists b out',
        bd_run (e_rng e) (e_gd e) par k (mkBS ps1 bg st, out) = Ok (b, out') /\ ps' = bs_ps b /\ bd' = Some (par, bs_rng b, bs_stats b, out') end).
    { exact (dyn_step_inv _ _ _ _ _ D). }
    destruct D' as (ps1 & -> & D'). cbnw. clear D.
    assert (S2 : (if some bd then run_action e ABirthDeath k (set_dyn e (mkWorld ld ps g bd tr hi fe df pd) ps1 g')
                  else Ok (set_dyn e (mkWorld ld ps g bd tr hi fe df pd) ps1 g')) = Ok (mkWorld ld ps' g' bd' tr hi fe df pd)).
    { destruct bd as [[[[par bg] st] out]|]; cbn [run_action]; cbnw.
      - destruct D' as (b & out' & -> & -> & ->). reflexivity.
      - destruct D' as [-> ->]. reflexivity. }
    cbn [run_action] in S2. cbnw_in S2. rewrite S2. cbnw. clear S2 D'.
    assert (S3 : (if some tr then run_action e ATrajectories k (mkWorld ld ps' g' bd' tr hi fe df pd) else Ok (mkWorld ld ps' g' bd' tr hi fe df pd))
                 = Ok (mkWorld ld ps' g' bd' tr' hi fe df pd)).
    { destruct tr as [t|]; cbn [run_action]; cbnw; [destruct T as (t' & -> & ->)|rewrite T]; reflexivity. }
    cbn [run_action] in S3. cbnw_in S3. rewrite S3. cbnw. clear S3.
    assert (S4 : (if some hi then run_action e AHistogram k (mkWorld ld ps' g' bd' tr' hi fe df pd) else Ok (mkWorld ld ps' g' bd' tr' hi fe df pd))
                 = Ok (mkWorld ld ps' g' bd' tr' hi' fe df pd)).
    { destruct hi as [h|]; cbn [run_action]; cbnw; [destruct I as (t' & h' & -> & -> & I); cbnw; rewrite I|rewrite I]; reflexivity. }
    cbn [run_action] in S4. cbnw_in S4. rewrite S4. cbnw. clear S4.
    assert (S5 : (if some fe then run_action e AFes k (mkWorld ld ps' g' bd' tr' hi' fe df pd) else Ok (mkWorld ld ps' g' bd' tr' hi' fe df pd))
                 = Ok (mkWorld ld ps' g' bd' tr' hi' fe' df pd)).
    { destruct fe as [h|]; cbn [run_action]; cbnw; [destruct F as (t' & h' & -> & -> & F); cbnw; rewrite F|rewrite F]; reflexivity. }
    cbn [run_action] in S5. cbnw_in S5. rewrite S5. cbnw. clear S5.
    assert (S6 : (if some df then run_action e ADeltaF k (mkWorld ld ps' g' bd' tr' hi' fe' df pd) else Ok (mkWorld ld ps' g' bd' tr' hi' fe' df pd))
                 = Ok (mkWorld ld ps' g' bd' tr' hi' fe' df' pd)).
    { destruct df as [[m r]|]; cbn [run_action]; cbnw; [destruct G as (f' & r' & -> & -> & G); cbnw; rewrite G|rewrite G]; reflexivity. }
    cbn [run_action] in S6. cbnw_in S6. rewrite S6. cbnw. clear S6.
    destruct pd as [[m r]|]; cbnw; [destruct P as (r' & -> & ->)|rewrite P]; reflexivity.
Qed.

(** * the final actions *)
Definition final_rel (e : env) (n : Z) (w w' : world (e_rng e)) : Prop :=
  let ld := w_ld w in
  w_ld w' = ld /\ w_ps w' = w_ps w /\ w_rng w' = w_rng w /\ w_bd w' = bd_end e n (dyn_of w) /\
  match w_traj w with
  | None => w_traj w' = None
  | Some t => exists t', w_traj w' = Some t' /\ traj_final_run t n = Ok t'
  end /\
  match w_hist w with
  | None => w_hist w' = None
  | Some h => exists t' h', w_traj w' = Some t' /\ w_hist w' = Some h' /\ ha_final_run t' h n = Ok h'
  end /\
  match w_fes w with
  | None => w_fes w' = None
  | Some f => exists h' f', w_hist w' = Some h' /\ w_fes w' = Some f' /\ fes_final_run h' (e_junk_fes e (n + 1)) f n = Ok f'
  end /\
  match w_df w with
  | None => w_df w' = None
  | Some (m, r) => exists f' r', w_fes w' = Some f' /\ w_df w' = Some (m, r') /\
      delta_f_final_run (fa_fes f') (ld_kt ld) (ld_dt ld) m r n = Ok r'
  end /\
  match w_pd w with
  | None => w_pd w' = None
  | Some (m, r) => exists r', w_pd w' = Some (m, r') /\ pdist_final_run (pot_ndim (ld_pot ld)) (w_ps w) m r n = Ok r'
  end.

Lemma bd_final_ps rng par n b out : bs_ps (fst (bd_final_run rng par n (b, out))) = bs_ps b.
Proof. unfold bd_final_run. repeat match goal with |- context[match ?x with _ => _ end] => destruct x end; reflexivity. Qed.

Lemma final_iff e n w w' : foldM (fun w a => final_run_action e a n w) (present w) w = Ok w' <-> final_rel e n w w'.
Proof.
  unfold present. rewrite (fold_present (fun a w => final_run_action e a n w)) by (intros a v v'; apply final_is_set).
  unfold canonical. cbn [foldM]. unfold opt_act. destruct w as [ld ps g bd tr hi fe df pd]. cbnw. cbn [final_run_action]. cbnw.
  assert (B : (if some bd then final_run_action e ABirthDeath n (mkWorld ld ps g bd tr hi fe df pd) else Ok (mkWorld ld ps g bd tr hi fe df pd))
      = Ok (mkWorld ld ps g (bd_end e n (ps, g, bd)) tr hi fe df pd)).
  { destruct bd as [[[[par bg] st] out]|]; cbn [final_run_action]; cbnw; [|reflexivity]. unfold bd_end.
    pose proof (bd_final_ps (e_rng e) par n (mkBS ps bg st) out) as Hp. cbn [bs_ps] in Hp.
    destruct (bd_final_run _ _ _ _) as [b out']. cbn [fst] in Hp. rewrite Hp. reflexivity. }
  cbn [final_run_action] in B. cbnw_in B. rewrite B. cbnw. clear B. unfold final_rel. cbnw.
  set (bd' := bd_end e n (ps, g, bd)).
  split.
  - intro H.
    apply bind_ok in H. destruct H as (w3 & E & H).
    assert (T : exists tr', w3 = mkWorld ld ps g bd' tr' hi fe df pd /\
       match tr with None => tr' = None | Some t => exists t', tr' = Some t' /\ traj_final_run t n = Ok t' end).
    { destruct tr as [t|]; cbnw_in E; [binds E|]; apply ok_inj in E; subst w3; eexists; (split; [reflexivity|eauto]). }
    clear E. destruct T as (tr' & -> & T). cbnw_in H.
    apply bind_ok in H. destruct H as (w4 & E & H).
    assert (I : exists hi', w4 = mkWorld ld ps g bd' tr' hi' fe df pd /\
       match hi with None => hi' = None | Some h => exists t' h', tr' = Some t' /\ hi' = Some h' /\ ha_final_run t' h n = Ok h' end).
    { destruct hi as [h|]; cbnw_in E; [binds E; apply need_some in E0|]; apply ok_inj in E; subst w4; eexists; (split; [reflexivity|eauto]). }
    clear E. destruct I as (hi' & -> & I). cbnw_in H.
    apply bind_ok in H. destruct H as (w5 & E & H).
    assert (F : exists fe', w5 = mkWorld ld ps g bd' tr' hi' fe' df pd /\
       match fe with None => fe' = None | Some f => exists h' f', hi' = Some h' /\ fe' = Some f' /\ fes_final_run h' (e_junk_fes e (n + 1)) f n = Ok f' end).
    { destruct fe as [f|]; cbnw_in E; [binds E; apply need_some in E0|]; apply ok_inj in E; subst w5; eexists; (split; [reflexivity|eauto]). }
    clear E. destruct F as (fe' & -> & F). cbnw_in H.
    apply bind_ok in H. destruct H as (w6 & E & H).
    assert (G : exists df', w6 = mkWorld ld ps g bd' tr' hi' fe' df' pd /\
       match df with None => df' = None | Some (m, r) => exists f' r', fe' = Some f' /\ df' = Some (m, r') /\
         delta_f_final_run (fa_fes f') (ld_kt ld) (ld_dt ld) m r n = Ok r' end).
    { destruct df as [[m r]|]; cbnw_in E; [binds E; apply need_some in E0|]; apply ok_inj in E; subst w6; eexists; (split; [reflexivity|eauto]). }
    clear E. destruct G as (df' & -> & G). cbnw_in H.
    apply bind_ok in H. destruct H as (w7 & E & H). apply ok_inj in H. subst w7.
    assert (P : exists pd', w' = mkWorld ld ps g bd' tr' hi' fe' df' pd' /\
       match pd with None => pd' = None | Some (m, r) => exists r', pd' = Some (m, r') /\
         pdist_final_run (pot_ndim (ld_pot ld)) ps m r n = Ok r' end).
    { destruct pd as [[m r]|]; cbnw_in E; [binds E|]; apply ok_inj in E; subst w'; eexists; (split; [reflexivity|eauto]). }
    destruct P as (pd' & -> & P). cbnw. repeat (split; [first [reflexivity | assumption]|]). exact P.
  - destruct w' as [ld' ps' g' bd'' tr' hi' fe' df' pd']. cbnw.
    intros (-> & -> & -> & -> & T & I & F & G & P).
    assert (S3 : (if some tr then final_run_action e ATrajectories n (mkWorld ld ps g bd' tr hi fe df pd) else Ok (mkWorld ld ps g bd' tr hi fe df pd))
                 = Ok (mkWorld ld ps g bd' tr' hi fe df pd)).
    { destruct tr as [t|]; cbn [final_run_action]; cbnw; [destruct T as (t' & -> & ->)|rewrite T]; reflexivity. }
    cbn [final_run_action] in S3. cbnw_in S3. rewrite S3. cbnw. clear S3.
    assert (S4 : (if some hi then final_run_action e AHistogram n (mkWorld ld ps g bd' tr' hi fe df pd) else Ok (mkWorld ld ps g bd' tr' hi fe df pd))
                 = Ok (mkWorld ld ps g bd' tr' hi' fe df pd)).
    { destruct hi as [h|]; cbn [final_run_action]; cbnw; [destruct I as (t' & h' & -> & -> & I); cbnw; rewrite I|rewrite I]; reflexivity. }
    cbn [final_run_action] in S4. cbnw_in S4. rewrite S4. cbnw. clear S4.
    assert (S5 : (if some fe then final_run_action e AFes n (mkWorld ld ps g bd' tr' hi' fe df pd) else Ok (mkWorld ld ps g bd' tr' hi' fe df pd))
                 = Ok (mkWorld ld ps g bd' tr' hi' fe' df pd)).
    { destruct fe as [h|]; cbn [final_run_action]; cbnw; [destruct F as (t' & h' & -> & -> & F); cbnw; rewrite F|rewrite F]; reflexivity. }
    cbn [final_run_action] in S5. cbnw_in S5. rewrite S5. cbnw. clear S5.
    assert (S6 : (if some df then final_run_action e ADeltaF n (mkWorld ld ps g bd' tr' hi' fe' df pd) else Ok (mkWorld ld ps g bd' tr' hi' fe' df pd))
                 = Ok (mkWorld ld ps g bd' tr' hi' fe' df' pd)).
    { destruct df as [[m r]|]; cbn [final_run_action]; cbnw; [destruct G as (f' & r' & -> & -> & G); cbnw; rewrite G|rewrite G]; reflexivity. }
    cbn [final_run_action] in S6. cbnw_in S6. rewrite S6. cbnw. clear S6.
    destruct pd as [[m r]|]; cbnw; [destruct P as (r' & -> & ->)|rewrite P]; reflexivity.
Qed.

(** * composition *)
Lemma foldM_pred {S} (f : S -> Z -> res S) k s : 1 <= k ->
  foldM f (zrange 1 (k + 1)) s = do s' <- foldM f (zrange 1 (k - 1 + 1)) s; f s' k.
Proof.
  intro H. pose proof (foldM_snoc f (k - 1) s ltac:(lia)) as E. replace (k - 1 + 1 + 1) with (k + 1) in E by lia.
  rewrite E. replace (k - 1 + 1) with k by lia. reflexivity.
Qed.

Section composition.
Context (e : env) (n : Z) (Hn : 0 <= n) (w0 : world (e_rng e)).
Context (D : Z -> dyn e) (hs : Z -> histact) (fs : Z -> fesact).
Notation ld := (w_ld w0).
Notation hist := (walkers D).

Definition traj_pre (k : Z) (t0 : traj) := foldM (fun t j => traj_run (ld_dt ld) (hist j) t j) (zrange 1 (k + 1)) t0.
Definition fes_pre (k : Z) (f0 : fesact) := foldM (fun fa j => fes_run (hs j) (e_junk_fes e j) fa j) (zrange 1 (k + 1)) f0.
Definition df_pre (k : Z) m r0 :=
  foldM (fun r j => delta_f_run (fa_fes (fs j)) (ld_kt ld) (ld_dt ld) m r j) (zrange 1 (k + 1)) r0.
Definition pd_pre (k : Z) m r0 := foldM (fun r j => pdist_run (pot_ndim (ld_pot ld)) (hist j) m r j) (zrange 1 (k + 1)) r0.

Definition pre (k : Z) (w : world (e_rng e)) : Prop :=
  w_ld w = ld /\ dyn_of w = D k /\
  match w_traj w0 with
  | None => w_traj w = None
  | Some t0 => exists t, w_traj w = Some t /\ traj_pre k t0 = Ok t
  end /\
  match w_hist w0 with
  | None => w_hist w = None
  | Some h0 => w_hist w = Some (hs k) /\
      forall t0, w_traj w0 = Some t0 -> exists t, w_traj w = Some t /\ hist_loop (ld_dt ld) hist k (t0, h0) = Ok (t, hs k)
  end /\
  match w_fes w0 with
  | None => w_fes w = None
  | Some f0 => w_fes w = Some (fs k) /\ fes_pre k f0 = Ok (fs k)
  end /\
  match w_df w0 with
  | None => w_df w = None
  | Some (m, r0) => exists r, w_df w = Some (m, r) /\ df_pre k m r0 = Ok r
  end /\
  match w_pd w0 with
  | None => w_pd w = None
  | Some (m, r0) => exists r, w_pd w = Some (m, r) /\ pd_pre k m r0 = Ok r
  end.

Lemma traj_simulation_pre t0 t : traj_simulation (ld_dt ld) hist (fun _ => 0%nat) n t0 = Ok t <->
  exists t1, traj_pre n t0 = Ok t1 /\ traj_final_run t1 n = Ok t.
Proof.
  unfold traj_simulation. cbn [manual_writes repeat foldM bind].
  assert (E : foldM (traj_step (ld_dt ld) hist (fun _ => 0%nat)) (zrange 1 (n + 1)) t0 = traj_pre n t0).
  { apply foldM_ext. intros b k. unfold traj_step. destruct (traj_run _ _ _ _); reflexivity. }
  unfold manual_writes. cbn [repeat foldM bind]. rewrite E. split.
  - intro H. apply bind_ok in H. exact H.
  - intros (t1 & -> & H). exact H.
Qed.

Lemma hist_traj_pre k t0 h0 t h : hist_loop (ld_dt ld) hist k (t0, h0) = Ok (t, h) -> traj_pre k t0 = Ok t.
Proof.
  unfold hist_loop, traj_pre. generalize (zrange 1 (k + 1)). intro l. revert t0 h0.
  induction l as [|j l IH]; intros t0 h0 H; cbn [foldM] in *; [injection H as -> _; reflexivity|].
  apply bind_ok in H. destruct H as ([t1 h1] & E & H). unfold hist_step in E. cbn [fst snd] in E. binds E.
  injection E as -> ->. rewrite E0. cbn [bind]. apply (IH _ _ H).
Qed.

(** forward: the state of the program gives the states of the simulations *)
Lemma pre_step k w w' : 1 <= k <= n -> pre (k - 1) w -> step_rel e k w w' -> dyn_of w' = D k ->
  (w_hist w0 <> None -> w_hist w' = Some (hs k)) -> (w_fes w0 <> None -> w_fes w' = Some (fs k)) -> pre k w'.
Proof.
  intros Hk (Pl & Pd & Pt & Ph & Pf & Pdf & Ppd) (Sl & _ & St & Sh & Sf & Sdf & Spd) HD Hhs Hfs.
  rewrite Pl in *. assert (Ew : w_ps w' = hist k) by (unfold walkers; rewrite <- HD; reflexivity). rewrite Ew in *.
  unfold pre. split; [exact Sl|]. split; [exact HD|].
  split; [|split; [|split; [|split]]].
  - destruct (w_traj w0) as [t0|].
    + destruct Pt as (t & Et & Pt). rewrite Et in St. destruct St as (t' & Et' & St). exists t'. split; [exact Et'|].
      unfold traj_pre in *. rewrite foldM_pred, Pt by lia. exact St.
    + rewrite Pt in St. exact St.
  - destruct (w_hist w0) as [h0|].
    + destruct Ph as (Eh & Ph). specialize (Hhs ltac:(discriminate)). split; [exact Hhs|]. intros t0 Et0.
      destruct (Ph t0 Et0) as (t & Et & Pl'). rewrite Eh in Sh. destruct Sh as (t' & h' & Et' & Eh' & Sh).
      rewrite Hhs in Eh'. injection Eh' as <-. exists t'. split; [exact Et'|].
      unfold hist_loop in *. rewrite foldM_pred, Pl' by lia. cbn [bind]. unfold hist_step. cbn [fst snd].
      rewrite Et in St. destruct St as (t'' & Et'' & St). rewrite Et' in Et''. injection Et'' as <-. rewrite St. cbn [bind]. rewrite Sh. reflexivity.
    + rewrite Ph in Sh. exact Sh.
  - destruct (w_fes w0) as [f0|].
    + destruct Pf as (Ef & Pf). specialize (Hfs ltac:(discriminate)). split; [exact Hfs|].
      rewrite Ef in Sf. destruct Sf as (h' & f' & Eh & Ef' & Sf). rewrite Hfs in Ef'. injection Ef' as <-.
      unfold fes_pre in *. rewrite foldM_pred, Pf by lia. cbn [bind].
      assert (h' = hs k) as ->.
      { destruct (w_hist w0) as [h0|] eqn:E0.
        - specialize (Hhs ltac:(discriminate)). congruence.
        - rewrite Ph in Sh. congruence. }
      exact Sf.
    + rewrite Pf in Sf. exact Sf.
  - destruct (w_df w0) as [[m r0]|].
    + destruct Pdf as (r & Er & Pdf). rewrite Er in Sdf. destruct Sdf as (f' & r' & Ef' & Er' & Sdf). exists r'. split; [exact Er'|].
      unfold df_pre in *. rewrite foldM_pred, Pdf by lia. cbn [bind].
      assert (f' = fs k) as ->.
      { destruct (w_fes w0) as [h0|] eqn:E0.
        - specialize (Hfs ltac:(discriminate)). congruence.
        - rewrite Pf in Sf. congruence. }
      exact Sdf.
    + rewrite Pdf in Sdf. exact Sdf.
  - destruct (w_pd w0) as [[m r0]|].
    + destruct Ppd as (r & Er & Ppd). rewrite Er in Spd. destruct Spd as (r' & Er' & Spd). exists r'. split; [exact Er'|].
      unfold pd_pre in *. rewrite foldM_pred, Ppd by lia. exact Spd.
    + rewrite Ppd in Spd. exact Spd.
Qed.

Lemma pre_final w w' : history e w0 n D -> pre n w -> final_rel e n w w' ->
  (forall k, 0 <= k <= n -> exists wk, pre k wk) ->
  (w_hist w0 <> None -> w_hist w' = Some (hs (n + 1))) -> (w_fes w0 <> None -> w_fes w' = Some (fs (n + 1))) ->
  composed e n w0 w'.
Proof.
  intros HD (Pl & Pd & Pt & Ph & Pf & Pdf & Ppd) (Sl & Sp & Sg & Sb & St & Sh & Sf & Sdf & Spd) Hall Hhs Hfs.
  rewrite Pl in *. assert (Ew : w_ps w = hist n) by (unfold walkers; rewrite <- Pd; reflexivity). rewrite Ew in *.
  exists D, hs, fs. cbv zeta. split; [exact HD|]. split; [exact Sl|]. split; [exact Sp|].
  split; [rewrite Sg, <- Pd; reflexivity|]. split; [rewrite Sb, Pd; reflexivity|].
  assert (Hnone : w_hist w0 = None -> w_hist w' = None).
  { intro E. rewrite E in Ph. rewrite Ph in Sh. exact Sh. }
  assert (Fnone : w_fes w0 = None -> w_fes w' = None).
  { intro E. rewrite E in Pf. rewrite Pf in Sf. exact Sf. }
  split; [|split; [|split; [|split]]].
  - destruct (w_traj w0) as [t0|].
    + destruct Pt as (t & Et & Pt). rewrite Et in St. destruct St as (t' & Et' & St). exists t'. split; [exact Et'|].
      apply traj_simulation_pre. eauto.
    + rewrite Pt in St. exact St.
  - destruct (w_hist w0) as [h0|] eqn:Eh0; [|apply Hnone; reflexivity].
    destruct Ph as (Eh & Ph). specialize (Hhs ltac:(discriminate)). rewrite Eh in Sh. destruct Sh as (t' & h' & Et' & Eh' & Sh).
    destruct (w_traj w0) as [t0|] eqn:Et0; [|exfalso; rewrite Pt in St; congruence].
    exists t0, t'. split; [reflexivity|]. split; [exact Et'|]. split; [exact Hhs|]. split.
    + intros k Hk. destruct (Hall k Hk) as (wk & _ & _ & _ & Pk & _). rewrite Eh0 in Pk. destruct Pk as (_ & Pk).
      destruct (Pk t0 Et0) as (tk & _ & E). eauto.
    + destruct (Ph t0 eq_refl) as (t & Et & Pl'). unfold hist_simulation. rewrite Pl'. cbn [bind fst snd].
      rewrite Et in St. destruct St as (t'' & Et'' & ->). rewrite Et' in Et''. injection Et'' as <-. cbn [bind].
      rewrite Sh. cbn [bind]. rewrite Hhs in Eh'. injection Eh' as <-. reflexivity.
  - destruct (w_fes w0) as [f0|] eqn:Ef0; [|apply Fnone; reflexivity].
    destruct Pf as (Ef & Pf). specialize (Hfs ltac:(discriminate)). rewrite Ef in Sf. destruct Sf as (h' & f' & Eh' & Ef' & Sf).
    assert (Nh : w_hist w0 <> None) by (intro E; apply Hnone in E; congruence).
    split; [exact Nh|]. split; [exact Hfs|]. split.
    + intros k Hk. destruct (Hall k Hk) as (wk & _ & _ & _ & _ & Pk & _). rewrite Ef0 in Pk. destruct Pk as (_ & Pk). exact Pk.
    + unfold fes_simulation. unfold fes_pre in Pf. rewrite Pf. cbn [bind]. specialize (Hhs Nh). rewrite Hhs in Eh'. injection Eh' as <-.
      rewrite Hfs in Ef'. injection Ef' as <-. exact Sf.
  - destruct (w_df w0) as [[m r0]|].
    + destruct Pdf as (r & Er & Pdf). rewrite Er in Sdf. destruct Sdf as (f' & r' & Ef' & Er' & Sdf). exists r'.
      assert (Nf : w_fes w0 <> None) by (intro E; apply Fnone in E; congruence).
      split; [exact Nf|]. split; [exact Er'|].
      unfold delta_f_simulation. unfold df_pre in Pdf. rewrite Pdf. cbn [bind]. specialize (Hfs Nf). rewrite Hfs in Ef'. injection Ef' as <-. exact Sdf.
    + rewrite Pdf in Sdf. exact Sdf.
  - destruct (w_pd w0) as [[m r0]|].
    + destruct Ppd as (r & Er & Ppd). rewrite Er in Spd. destruct Spd as (r' & Er' & Spd). exists r'. split; [exact Er'|].
      unfold pdist_simulation. unfold pd_pre in Ppd. rewrite Ppd. exact Spd.
    + rewrite Ppd in Spd. exact Spd.
Qed.
End composition.

Lemma zle_true a b : a <= b -> (a <=? b) = true.
Proof. apply Z.leb_le. Qed.

Lemma dyn_eta {e} (w : world (e_rng e)) ps g bd : dyn_of w = (ps, g, bd) -> w_ps w = ps /\ w_rng w = g /\ w_bd w = bd.
Proof. unfold dyn_of. intro H. repeat split; congruence. Qed.

Lemma loop_composed e n w0 w : 0 < n ->
  main_loop (run_action e) (final_run_action e) (present w0) n w0 = Ok w -> composed e n w0 w.
Proof.
  intros Hn H. unfold main_loop in H. apply bind_ok in H. destruct H as (w1 & H1 & H2).
  destruct (foldM_states _ n w0 w1 ltac:(lia) H1) as (W & W0 & W1 & HW).
  assert (Hset : forall k, 0 <= k <= n -> forall b, is_set (W k) b = is_set w0 b).
  { intros k [Hk1 Hk2]. revert Hk2. pattern k. apply natlike_ind; [| |exact Hk1].
    - intros _ b. rewrite W0. reflexivity.
    - intros m Hm IH Hmn b. unfold Z.succ in *. specialize (HW (m + 1) ltac:(lia)). replace (m + 1 - 1) with m in HW by lia.
      rewrite (fold_is_set (fun a w => run_action e a (m + 1) w) (fun a v v' => run_is_set e a (m + 1) v v') _ _ _ HW). apply IH. lia. }
  assert (HS : forall k, 1 <= k <= n -> step_rel e k (W (k - 1)) (W k)).
  { intros k Hk. apply step_iff. rewrite (present_ext w0) by (apply Hset; lia). apply HW, Hk. }
  assert (HF : final_rel e n w1 w).
  { apply final_iff. rewrite (present_ext w0); [exact H2|]. rewrite <- W1. apply Hset. lia. }
  clear H1 H2 HW. subst w1.
  set (hs := fun k => match (if k <=? n then w_hist (W k) else w_hist w) with Some h => h | None => mkHA (mkH [] []) 0 [] None false 0 [] end).
  set (fs := fun k => match (if k <=? n then w_fes (W k) else w_fes w) with Some h => h | None => mkFA 0%R [] None false None false None [] [] end).
  set (D := fun k => dyn_of (W k)).
  assert (Hld : forall k, 0 <= k <= n -> w_ld (W k) = w_ld w0).
  { intros k [Hk1 Hk2]. revert Hk2. pattern k. apply natlike_ind; [| |exact Hk1]; [intros _; rewrite W0; reflexivity|].
    intros m Hm IH Hmn. unfold Z.succ in *. destruct (HS (m + 1) ltac:(lia)) as (E & _). rewrite E.
    replace (m + 1 - 1) with m by lia. apply IH. lia. }
  assert (Hpre : forall k, 0 <= k <= n -> pre e w0 D hs fs k (W k)).
  { intros k [Hk1 Hk2]. revert Hk2. pattern k. apply natlike_ind; [| |exact Hk1].
    - intros _. rewrite W0. unfold pre. split; [reflexivity|]. split; [unfold D; rewrite W0; reflexivity|].
      assert (E1 : forall h0, w_hist w0 = Some h0 -> hs 0 = h0).
      { intros h0 E. unfold hs. rewrite zle_true, W0, E by lia. reflexivity. }
      assert (E2 : forall h0, w_fes w0 = Some h0 -> fs 0 = h0).
      { intros h0 E. unfold fs. rewrite zle_true, W0, E by lia. reflexivity. }
      unfold traj_pre, hist_loop, fes_pre, df_pre, pd_pre. rewrite (zrange_nil 1 (0 + 1)) by lia. cbn [foldM].
      split; [destruct (w_traj w0); eauto|].
      split; [destruct (w_hist w0) as [h0|]; [rewrite (E1 h0 eq_refl); split; [reflexivity|intros t0 E; exists t0; auto]|reflexivity]|].
      split; [destruct (w_fes w0) as [h0|]; [rewrite (E2 h0 eq_refl); auto|reflexivity]|].
      split; [destruct (w_df w0) as [[m r]|]; eauto|destruct (w_pd w0) as [[m r]|]; eauto].
    - intros m Hm IH Hmn. unfold Z.succ in *. apply pre_step with (n := n) (w := W m); [lia| | |reflexivity| |].
      + replace (m + 1 - 1) with m by lia. apply IH. lia.
      + specialize (HS (m + 1) ltac:(lia)). replace (m + 1 - 1) with m in HS by lia. exact HS.
      + intro Hh. unfold hs. rewrite zle_true by lia. destruct (w_hist (W (m + 1))) eqn:E; [reflexivity|].
        specialize (Hset (m + 1) ltac:(lia) AHistogram). cbn [is_set] in Hset. rewrite E in Hset. destruct (w_hist w0); [discriminate|congruence].
      + intro Hh. unfold fs. rewrite zle_true by lia. destruct (w_fes (W (m + 1))) eqn:E; [reflexivity|].
        specialize (Hset (m + 1) ltac:(lia) AFes). cbn [is_set] in Hset. rewrite E in Hset. destruct (w_fes w0); [discriminate|congruence]. }
  assert (Hset' : forall b, is_set w b = is_set w0 b).
  { intro b. rewrite <- (Hset n) by lia. apply final_iff in HF. revert b.
    exact (fold_is_set (fun a w => final_run_action e a n w) (fun a v v' => final_is_set e a n v v') _ _ _ HF). }
  apply (pre_final e n w0 D hs fs (W n) w); [|apply Hpre; lia|exact HF| | |].
  - split; [unfold D; rewrite W0; reflexivity|]. intros k Hk. destruct (HS k Hk) as (_ & E & _).
    rewrite (Hld (k - 1)) in E by lia. exact E.
  - intros k Hk. exists (W k). apply Hpre, Hk.
  - intro Hh. unfold hs. replace (n + 1 <=? n) with false by (symmetry; apply Z.leb_gt; lia).
    specialize (Hset' AHistogram). cbn [is_set] in Hset'. destruct (w_hist w); [reflexivity|]. destruct (w_hist w0); [discriminate|congruence].
  - intro Hh. unfold fs. replace (n + 1 <=? n) with false by (symmetry; apply Z.leb_gt; lia).
    specialize (Hset' AFes). cbn [is_set] in Hset'. destruct (w_fes w); [reflexivity|]. destruct (w_fes w0); [discriminate|congruence].
Qed.

(** backward: if all simulations succeed, the program does *)
Lemma foldM_step {S} (f : S -> Z -> res S) n s0 s k sk : 0 <= n -> foldM f (zrange 1 (n + 1)) s0 = Ok s -> 1 <= k <= n ->
  foldM f (zrange 1 (k - 1 + 1)) s0 = Ok sk -> exists s', f sk k = Ok s' /\ foldM f (zrange 1 (k + 1)) s0 = Ok s'.
Proof.
  intros Hn H Hk E. destruct (foldM_prefix f n s0 s Hn H k ltac:(lia)) as (s' & H').
  exists s'. split; [|exact H']. rewrite foldM_pred, E in H' by lia. exact H'.
Qed.

Lemma composed_loop e n w0 w : 0 < n -> composed e n w0 w ->
  main_loop (run_action e) (final_run_action e) (present w0) n w0 = Ok w.
Proof.
  intros Hn (D & hs & fs & (HD0 & HD) & Cl & Cp & Cg & Cb & Ct & Ch & Cf & Cdf & Cpd).
  assert (H0 : pre e w0 D hs fs 0 w0).
  { unfold pre. split; [reflexivity|]. split; [symmetry; exact HD0|].
    unfold traj_pre, hist_loop, fes_pre, df_pre, pd_pre. rewrite (zrange_nil 1 (0 + 1)) by lia. cbn [foldM].
    split; [destruct (w_traj w0); eauto|].
    split.
    { destruct (w_hist w0) as [h0|]; [|reflexivity]. destruct Ch as (t0 & t & Et0 & _ & _ & Hl & _).
      destruct (Hl 0 ltac:(lia)) as (tk & E). unfold hist_loop in E. rewrite (zrange_nil 1 (0 + 1)) in E by lia. cbn [foldM] in E.
      injection E as <- E. rewrite <- E. split; [reflexivity|]. intros t1 E1. exists t1. auto. }
    split.
    { destruct (w_fes w0) as [f0|]; [|reflexivity]. destruct Cf as (_ & _ & Hl & _). specialize (Hl 0 ltac:(lia)).
      rewrite (zrange_nil 1 (0 + 1)) in Hl by lia. cbn [foldM] in Hl. injection Hl as <-. auto. }
    split; [destruct (w_df w0) as [[m r]|]; eauto|destruct (w_pd w0) as [[m r]|]; eauto]. }
  assert (Hset : forall k v, pre e w0 D hs fs k v -> 0 <= k <= n -> forall b, b <> ABirthDeath -> is_set v b = is_set w0 b).
  { intros k v (_ & _ & Pt & Ph & Pf & Pdf & Ppd) Hk [] Hb; cbn [is_set]; try reflexivity; try congruence.
    - destruct (w_traj w0); [destruct Pt as (t9 & -> & _)|rewrite Pt]; reflexivity.
    - destruct (w_hist w0); [destruct Ph as (-> & _)|rewrite Ph]; reflexivity.
    - destruct (w_fes w0); [destruct Pf as (-> & _)|rewrite Pf]; reflexivity.
    - destruct (w_df w0) as [[]|]; [destruct Pdf as (r' & -> & _)|rewrite Pdf]; reflexivity.
    - destruct (w_pd w0) as [[]|]; [destruct Ppd as (r' & -> & _)|rewrite Ppd]; reflexivity. }
  assert (HB : forall k, 0 <= k <= n -> some (snd (D k)) = some (w_bd w0)).
  { intros k [Hk1 Hk2]. revert Hk2. pattern k. apply natlike_ind; [| |exact Hk1].
    - intros _. rewrite HD0. reflexivity.
    - intros m Hm IH Hmn. unfold Z.succ in *. rewrite <- IH by lia. specialize (HD (m + 1) ltac:(lia)). replace (m + 1 - 1) with m in HD by lia.
      inversion HD; reflexivity. }
  assert (Hpres : forall k v, pre e w0 D hs fs k v -> 0 <= k <= n -> present v = present w0).
  { intros k v Pv Hk. apply present_ext. intros []; try (apply (Hset k v Pv Hk); discriminate).
    cbn [is_set]. rewrite <- (HB k Hk). destruct Pv as (_ & <- & _). reflexivity. }
  unfold main_loop.
  destruct (foldM_zrange_ind (fun w k => foldM (fun w a => run_action e a k w) (present w0) w)
    (fun v k => pre e w0 D hs fs k v) n w0 ltac:(lia) H0) as (w1 & -> & P1).
  { intros v k Hk Pv. rewrite <- (Hpres (k - 1) v Pv ltac:(lia)).
    assert (exists v', step_rel e k v v' /\ dyn_of v' = D k /\ (w_hist w0 <> None -> w_hist v' = Some (hs k)) /\
      (w_fes w0 <> None -> w_fes v' = Some (fs k))) as (v' & Sv & Dv & Hv & Fv).
    2: { exists v'. split; [apply step_iff; exact Sv|]. apply (pre_step e n w0 D hs fs k v v'); auto; lia. }
    destruct Pv as (Pl & Pd & Pt & Ph & Pf & Pdf & Ppd).
    assert (Hps : fst (fst (D k)) = walkers D k) by reflexivity.
    (* trajectory *)
    assert (T : exists tr', match w_traj v with None => tr' = None | Some t => exists t', tr' = Some t' /\ traj_run (ld_dt (w_ld w0)) (walkers D k) t k = Ok t' end /\
       forall t0, w_traj w0 = Some t0 -> exists t', tr' = Some t' /\ traj_pre e w0 D k t0 = Ok t').
    { destruct (w_traj w0) as [t0|].
      - destruct Pt as (t & Et & Pt). rewrite Et. destruct Ct as (t1 & _ & Ct). apply traj_simulation_pre in Ct. destruct Ct as (t2 & Ct & _).
        destruct (foldM_step _ n t0 t2 k t ltac:(lia) Ct ltac:(lia) Pt) as (t' & E1 & E2).
        exists (Some t'). split; [eauto|]. intros t0' E; injection E as <-. eauto.
      - rewrite Pt. exists None. split; [reflexivity|]. intros; discriminate. }
    destruct T as (tr' & T & T').
    (* histogram *)
    assert (I : exists hi', match w_hist v with None => hi' = None | Some h => exists t' h', tr' = Some t' /\ hi' = Some h' /\ ha_run t' h k = Ok h' end /\
       (w_hist w0 <> None -> hi' = Some (hs k))).
    { destruct (w_hist w0) as [h0|].
      - destruct Ph as (Eh & Ph). rewrite Eh. destruct Ch as (t0 & t1 & Et0 & _ & _ & Hl & _).
        destruct (Hl k ltac:(lia)) as (tk & Ek). destruct (Ph t0 Et0) as (t & Et & El).
        assert (E2 := Ek). unfold hist_loop in Ek, El. rewrite foldM_pred, El in Ek by lia. cbn [bind] in Ek. unfold hist_step in Ek. cbn [fst snd] in Ek.
        apply bind_ok in Ek. destruct Ek as (t' & _ & Ek). apply bind_ok in Ek. destruct Ek as (h' & E3 & Ek). injection Ek as -> ->.
        destruct (T' t0 Et0) as (t'' & Et'' & E4). apply hist_traj_pre in E2. rewrite E2 in E4. injection E4 as <-.
        exists (Some (hs k)). split; [|reflexivity]. exists tk, (hs k). auto.
      - rewrite Ph. exists None. split; [reflexivity|congruence]. }
    destruct I as (hi' & I & I').
    assert (F : exists fe', match w_fes v with None => fe' = None | Some f => exists h' f', hi' = Some h' /\ fe' = Some f' /\ fes_run h' (e_junk_fes e k) f k = Ok f' end /\
       (w_fes w0 <> None -> fe' = Some (fs k))).
    { destruct (w_fes w0) as [f0|].
      - destruct Pf as (Ef & Pf). rewrite Ef. destruct Cf as (Nh & _ & Hl & _). specialize (Hl k ltac:(lia)).
        unfold fes_pre in Pf. rewrite foldM_pred, Pf in Hl by lia. cbn [bind] in Hl.
        exists (Some (fs k)). split; [|reflexivity]. exists (hs k), (fs k). auto.
      - rewrite Pf. exists None. split; [reflexivity|congruence]. }
    destruct F as (fe' & F & F').
    assert (G : exists df', match w_df v with None => df' = None | Some (m, r) => exists f' r', fe' = Some f' /\ df' = Some (m, r') /\
         delta_f_run (fa_fes f') (ld_kt (w_ld w0)) (ld_dt (w_ld w0)) m r k = Ok r' end).
    { destruct (w_df w0) as [[m r0]|].
      - destruct Pdf as (r & Er & Pdf). rewrite Er. destruct Cdf as (r1 & Nf & _ & Cdf).
        unfold delta_f_simulation in Cdf. apply bind_ok in Cdf. destruct Cdf as (r2 & Cdf & _).
        destruct (foldM_step _ n r0 r2 k r ltac:(lia) Cdf ltac:(lia) Pdf) as (r' & E1 & E2).
        exists (Some (m, r')), (fs k), r'. auto.
      - rewrite Pdf. exists None. reflexivity. }
    destruct G as (df' & G).
    assert (P : exists pd', match w_pd v with None => pd' = None | Some (m, r) => exists r', pd' = Some (m, r') /\
         pdist_run (pot_ndim (ld_pot (w_ld w0))) (walkers D k) m r k = Ok r' end).
    { destruct (w_pd w0) as [[m r0]|].
      - destruct Ppd as (r & Er & Ppd). rewrite Er. destruct Cpd as (r1 & _ & Cpd).
        unfold pdist_simulation in Cpd. apply bind_ok in Cpd. destruct Cpd as (r2 & Cpd & _).
        destruct (foldM_step _ n r0 r2 k r ltac:(lia) Cpd ltac:(lia) Ppd) as (r' & E1 & E2).
        exists (Some (m, r')), r'. auto.
      - rewrite Ppd. exists None. reflexivity. }
    destruct P as (pd' & P).
    exists (mkWorld (w_ld w0) (fst (fst (D k))) (snd (fst (D k))) (snd (D k)) tr' hi' fe' df' pd').
    assert (De : dyn_of (mkWorld (w_ld w0) (fst (fst (D k))) (snd (fst (D k))) (snd (D k)) tr' hi' fe' df' pd') = D k).
    { unfold dyn_of. cbnw. destruct (D k) as [[? ?] ?]. reflexivity. }
    split; [|split; [exact De|split; [exact I'|exact F']]].
    unfold step_rel. rewrite De, Pl, Pd. cbnw. split; [reflexivity|]. split; [apply HD; lia|].
    split; [exact T|]. split; [exact I|]. split; [exact F|]. split; [exact G|exact P]. }
  cbn [bind]. rewrite <- (Hpres n w1 P1 ltac:(lia)). apply final_iff.
  destruct P1 as (Pl & Pd & Pt & Ph & Pf & Pdf & Ppd). unfold final_rel. rewrite Pl, Pd.
  assert (Ew : w_ps w1 = walkers D n) by (unfold walkers; rewrite <- Pd; reflexivity). rewrite Ew.
  split; [exact Cl|]. split; [exact Cp|]. split; [rewrite Cg, <- Pd; reflexivity|]. split; [exact Cb|].
  split; [|split; [|split; [|split]]].
  - destruct (w_traj w0) as [t0|].
    + destruct Pt as (t & -> & Pt). destruct Ct as (t' & -> & Ct). apply traj_simulation_pre in Ct. destruct Ct as (t1 & E1 & E2).
      rewrite Pt in E1. injection E1 as <-. eauto.
    + rewrite Pt. exact Ct.
  - destruct (w_hist w0) as [h0|].
    + destruct Ph as (-> & Ph). destruct Ch as (t0 & t & Et0 & Et & Eh & _ & Ch). destruct (Ph t0 Et0) as (t1 & _ & El).
      unfold hist_simulation in Ch. rewrite El in Ch. cbn [bind fst snd] in Ch. apply bind_ok in Ch. destruct Ch as (t2 & _ & Ch).
      apply bind_ok in Ch. destruct Ch as (h2 & E2 & Ch). injection Ch as -> ->. eauto.
    + rewrite Ph. exact Ch.
  - destruct (w_fes w0) as [f0|].
    + destruct Pf as (-> & Pf). destruct Cf as (Nh & Ef & _ & Cf). unfold fes_simulation in Cf. unfold fes_pre in Pf. rewrite Pf in Cf. cbn [bind] in Cf.
      destruct (w_hist w0) as [h0|]; [|congruence]. destruct Ch as (t0 & t & _ & _ & Eh & _ & _). eauto.
    + rewrite Pf. exact Cf.
  - destruct (w_df w0) as [[m r0]|].
    + destruct Pdf as (r & -> & Pdf). destruct Cdf as (r' & Nf & Er & Cdf). unfold delta_f_simulation in Cdf. unfold df_pre in Pdf. rewrite Pdf in Cdf. cbn [bind] in Cdf.
      destruct (w_fes w0) as [f0|]; [|congruence]. destruct Cf as (_ & Ef & _). eauto.
    + rewrite Pdf. exact Cdf.
  - destruct (w_pd w0) as [[m r0]|].
    + destruct Ppd as (r & -> & Ppd). destruct Cpd as (r' & Er & Cpd). unfold pdist_simulation in Cpd. unfold pd_pre in Ppd. rewrite Ppd in Cpd. cbn [bind] in Cpd. eauto.
    + rewrite Ppd. exact Cpd.
Qed.

Lemma set_up_steps e cv secs acts n w0 : set_up e cv secs acts n w0 -> 0 < n /\ acts = present w0.
Proof.
  intros (c & w1 & Hp & H1 & Ha & Hs). split.
  - destruct (parsed_n_steps _ _ _ Hp) as (n' & E & H). rewrite Hs in E. injection E as <-. exact H.
  - eapply setup_present; eassumption.
Qed.

Theorem main_composed e cv secs acts n w0 : set_up e cv secs acts n w0 ->
  forall w, main e cv (Some (Ok secs)) = Finished w <-> composed e n w0 w.
Proof.
  intros H w. destruct (set_up_steps _ _ _ _ _ _ H) as (Hn & ->). destruct (main_of_setup _ _ _ _ _ _ H) as (_ & ->).
  rewrite <- main_loop_calls. split.
  - intro E. apply loop_composed; [exact Hn|].
    destruct (main_loop _ _ _ _ _) as [w'|x]; [injection E as <-; reflexivity|destruct x; discriminate].
  - intro E. apply composed_loop in E; [|exact Hn]. rewrite E. reflexivity.
Qed.
