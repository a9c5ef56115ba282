(** Accepted inputs run to their end (C56) *)
From Coq Require Import Lia Lra Permutation.
From Verif Require Import PyBase Model_xr Model_input Spec_input Spec_rng Model_dyn Model_bd Model_traj Model_histaction Model_fes Model_deltaf
  Model_pdist Model_setup Model_main Spec_traj Spec_trajrun Spec_histact Spec_setup Spec_fes Spec_pdist Spec_ld Spec_bdrun Spec_main Spec_whole
  Spec_bd Proof_base Proof_ld Proof_bd Proof_bd2 Proof_input Proof_main Proof_main2 Proof_whole.
Open Scope string_scope.
Open Scope Z_scope.
Ltac Zify.zify_post_hook ::= idtac.

(** * The objects made by the setup *)
Record built (e : env) (c : config) (w : world (e_rng e)) : Prop := {
  bu_bd : w_bd w = None \/ exists o par g, c_birth_death c = Some o /\ setup_birth_death e o (w_ld w) = Ok (par, g) /\
            w_bd w = Some (par, g, stats0, []);
  bu_traj : w_traj w = None \/ exists o t, c_trajectories c = Some o /\ setup_trajectories e o (length (w_ps w)) = Ok t /\ w_traj w = Some t;
  bu_hist : w_hist w = None \/ exists o t h, c_histogram c = Some o /\ w_traj w = Some t /\
            setup_histogram o (pot_ndim (ld_pot (w_ld w))) t = Ok h /\ w_hist w = Some h;
  bu_fes : w_fes w = None \/ exists o h f, c_fes c = Some o /\ w_hist w = Some h /\ setup_fes e o (w_ld w) h = Ok f /\ w_fes w = Some f;
  bu_df : w_df w = None \/ exists o h d, c_delta_f c = Some o /\ w_hist w = Some h /\ w_fes w <> None /\
            setup_delta_f e o (ha_hist h) = Ok d /\ w_df w = Some d;
  bu_pd : w_pd w = None \/ exists o d, c_particle_distribution c = Some o /\ setup_particle_distribution e o = Ok d /\ w_pd w = Some d }.

Lemma when_cases e o a setup s s' : when e o a setup s = Ok s' ->
  snd s' = snd s \/ exists d, o = Some d /\ setup d (snd s) = Ok (snd s').
Proof.
  unfold when. destruct o as [[|kv d]|]; intro H.
  - apply ok_inj in H. subst. now left.
  - apply bind_ok in H. destruct H as (w & E & H). apply ok_inj in H. subst s'. right. eauto.
  - apply ok_inj in H. subst. now left.
Qed.
Lemma need_ok {A} (o : option A) a : need o = Ok a -> o = Some a.
Proof. destruct o; cbn [need]; intro H; [apply ok_inj in H; now subst|discriminate]. Qed.

Lemma set_up_built e c w0 acts w : setup_dynamics e c = Ok w0 -> setup_actions e c w0 = Ok (acts, w) ->
  built e c w /\ w_ld w = w_ld w0 /\ w_ps w = w_ps w0 /\ w_rng w = w_rng w0.
Proof.
  intros H0 H. unfold setup_dynamics in H0. binds H0. apply ok_inj in H0.
  unfold setup_actions in H. cbv zeta in H.
  apply bind_ok in H. destruct H as (s1 & H1 & H). apply bind_ok in H. destruct H as (s2 & H2 & H).
  apply bind_ok in H. destruct H as (s3 & H3 & H). apply bind_ok in H. destruct H as (s4 & H4 & H).
  apply bind_ok in H. destruct H as (s5 & H5 & H6).
  apply when_cases in H1, H2, H3, H4, H5, H6. cbn [snd] in H1, H6.
  assert (B1 : (w_bd (snd s1) = None \/ exists o par g, c_birth_death c = Some o /\ setup_birth_death e o (w_ld (snd s1)) = Ok (par, g) /\
            w_bd (snd s1) = Some (par, g, stats0, [])) /\
     w_ld (snd s1) = w_ld w0 /\ w_ps (snd s1) = w_ps w0 /\ w_rng (snd s1) = w_rng w0 /\
     w_traj (snd s1) = None /\ w_hist (snd s1) = None /\ w_fes (snd s1) = None /\ w_df (snd s1) = None /\ w_pd (snd s1) = None).
  { destruct H1 as [->|(d & Ed & H1)].
    - rewrite <- H0. cbn. auto 10.
    - binds H1. apply ok_inj in H1. rewrite <- H1, <- H0. rewrite <- H0 in E2. cbn in E2 |- *. split; [|auto 10]. right. eauto 10. }
  clear H1. destruct B1 as (B1 & L1 & P1 & G1 & T1 & Hi1 & F1 & D1 & Q1).
  assert (B2 : (w_traj (snd s2) = None \/ exists o t, c_trajectories c = Some o /\ setup_trajectories e o (length (w_ps (snd s2))) = Ok t /\
            w_traj (snd s2) = Some t) /\
     w_ld (snd s2) = w_ld (snd s1) /\ w_ps (snd s2) = w_ps (snd s1) /\ w_rng (snd s2) = w_rng (snd s1) /\
     w_bd (snd s2) = w_bd (snd s1) /\ w_hist (snd s2) = None /\ w_fes (snd s2) = None /\ w_df (snd s2) = None /\ w_pd (snd s2) = None).
  { destruct H2 as [->|(d & Ed & H2)].
    - auto 10.
    - binds H2. apply ok_inj in H2. rewrite <- H2. cbn. split; [|auto 10]. right. eauto 10. }
  clear H2. destruct B2 as (B2 & L2 & P2 & G2 & A2 & Hi2 & F2 & D2 & Q2).
  assert (B3 : (w_hist (snd s3) = None \/ exists o t h, c_histogram c = Some o /\ w_traj (snd s3) = Some t /\
            setup_histogram o (pot_ndim (ld_pot (w_ld (snd s3)))) t = Ok h /\ w_hist (snd s3) = Some h) /\
     w_ld (snd s3) = w_ld (snd s2) /\ w_ps (snd s3) = w_ps (snd s2) /\ w_rng (snd s3) = w_rng (snd s2) /\
     w_bd (snd s3) = w_bd (snd s2) /\ w_traj (snd s3) = w_traj (snd s2) /\ w_fes (snd s3) = None /\ w_df (snd s3) = None /\ w_pd (snd s3) = None).
  { destruct H3 as [->|(d & Ed & H3)].
    - auto 10.
    - binds H3. apply ok_inj in H3. apply need_ok in E2. rewrite <- H3. cbn. split; [|auto 10]. right. eauto 10. }
  clear H3. destruct B3 as (B3 & L3 & P3 & G3 & A3 & T3 & F3 & D3 & Q3).
  assert (B4 : (w_fes (snd s4) = None \/ exists o h f, c_fes c = Some o /\ w_hist (snd s4) = Some h /\
            setup_fes e o (w_ld (snd s4)) h = Ok f /\ w_fes (snd s4) = Some f) /\
     w_ld (snd s4) = w_ld (snd s3) /\ w_ps (snd s4) = w_ps (snd s3) /\ w_rng (snd s4) = w_rng (snd s3) /\
     w_bd (snd s4) = w_bd (snd s3) /\ w_traj (snd s4) = w_traj (snd s3) /\ w_hist (snd s4) = w_hist (snd s3) /\ w_df (snd s4) = None /\ w_pd (snd s4) = None).
  { destruct H4 as [->|(d & Ed & H4)].
    - auto 10.
    - binds H4. apply ok_inj in H4. apply need_ok in E2. rewrite <- H4. cbn. split; [|auto 10]. right. eauto 10. }
  clear H4. destruct B4 as (B4 & L4 & P4 & G4 & A4 & T4 & Hi4 & D4 & Q4).
  assert (B5 : (w_df (snd s5) = None \/ exists o h d, c_delta_f c = Some o /\ w_hist (snd s5) = Some h /\ w_fes (snd s5) <> None /\
            setup_delta_f e o (ha_hist h) = Ok d /\ w_df (snd s5) = Some d) /\
     w_ld (snd s5) = w_ld (snd s4) /\ w_ps (snd s5) = w_ps (snd s4) /\ w_rng (snd s5) = w_rng (snd s4) /\
     w_bd (snd s5) = w_bd (snd s4) /\ w_traj (snd s5) = w_traj (snd s4) /\ w_hist (snd s5) = w_hist (snd s4) /\ w_fes (snd s5) = w_fes (snd s4) /\ w_pd (snd s5) = None).
  { destruct H5 as [->|(d & Ed & H5)].
    - auto 10.
    - binds H5. apply ok_inj in H5. apply need_ok in E2, E3. rewrite <- H5. cbn. split; [|auto 10]. right. exists d, x2, x3.
      split; [exact Ed|]. split; [exact E3|]. split; [congruence|auto]. }
  clear H5. destruct B5 as (B5 & L5 & P5 & G5 & A5 & T5 & Hi5 & F5 & Q5).
  assert (B6 : (w_pd w = None \/ exists o d, c_particle_distribution c = Some o /\ setup_particle_distribution e o = Ok d /\ w_pd w = Some d) /\
     w_ld w = w_ld (snd s5) /\ w_ps w = w_ps (snd s5) /\ w_rng w = w_rng (snd s5) /\
     w_bd w = w_bd (snd s5) /\ w_traj w = w_traj (snd s5) /\ w_hist w = w_hist (snd s5) /\ w_fes w = w_fes (snd s5) /\ w_df w = w_df (snd s5)).
  { destruct H6 as [->|(d & Ed & H6)].
    - auto 10.
    - binds H6. apply ok_inj in H6. rewrite <- H6. cbn. split; [|auto 10]. right. eauto 10. }
  clear H6. destruct B6 as (B6 & L6 & P6 & G6 & A6 & T6 & Hi6 & F6 & D6).
  split; [|split; [congruence|split; congruence]].
  rewrite <- A2, <- A3, <- A4, <- A5, <- A6 in B1. rewrite <- T3, <- T4, <- T5, <- T6 in B2.
  rewrite <- T4, <- T5, <- T6 in B3. rewrite <- Hi4, <- Hi5, <- Hi6 in B3.
  rewrite <- Hi5, <- Hi6 in B4. rewrite <- F5, <- F6 in B4. rewrite <- Hi6, <- F6, <- D6 in B5.
  rewrite <- L2, <- L3, <- L4, <- L5, <- L6 in B1. rewrite <- P3, <- P4, <- P5, <- P6 in B2.
  rewrite <- L4, <- L5, <- L6 in B3. rewrite <- L5, <- L6 in B4.
  constructor; assumption.
Qed.

(** * The dynamics *)
Lemma setup_force_size e o pot : setup_potential e o = Ok pot -> force_size pot.
Proof.
  assert (Hp : forall coeffs ranges bc, poly_init coeffs ranges bc = Ok pot -> force_size pot).
  { intros coeffs ranges bc. unfold poly_init.
    repeat match goal with |- context[if ?b then _ else _] => destruct b end; try discriminate.
    intro H. apply ok_inj in H. subst pot. intros x Hx. cbn in *. unfold poly_force. rewrite map_length, seq_length. lia. }
  unfold setup_potential. destruct (vstr_is (get_dict o "type") "polynomial").
  - destruct (vint_is (get_dict o "n_dim") 1); intro H; binds H; eapply Hp; exact H.
  - destruct (vstr_is (get_dict o "type") "mueller-brown"); [|discriminate].
    intro H. binds H. apply ok_inj in H. subst pot. intros p Hx. cbn in *.
    destruct p as [|a [|b [|]]]; try discriminate. reflexivity.
Qed.
Lemma setup_ld_pot e o pot ld g : setup_ld e o pot = Ok (ld, g) -> ld_pot ld = pot.
Proof.
  unfold setup_ld. repeat match goal with |- context[if ?b then _ else _] => destruct b end; try discriminate;
    intro H; binds H; apply ok_inj in H; injection H as <- _; reflexivity.
Qed.
Lemma new_particle_size ld pos mass p : force_size (ld_pot ld) -> new_particle ld pos mass = Ok p -> right_size (pot_ndim (ld_pot ld)) p.
Proof.
  intros F. unfold new_particle. destruct (Nat.eqb (length pos) (pot_ndim (ld_pot ld))) eqn:E; cbn [negb]; [|discriminate].
  apply Nat.eqb_eq in E. unfold particle_init, evaluate. cbn.
  rewrite repeat_length, Nat.eqb_refl. cbn. intro H. apply ok_inj in H. subst p. unfold right_size. cbn.
  rewrite repeat_length. split; [exact E|]. split; [exact E|]. apply F, E.
Qed.
Lemma append_size ld ps pos mass ps' : force_size (ld_pot ld) -> append_particle ld ps pos mass = Ok ps' ->
  Forall (right_size (pot_ndim (ld_pot ld))) ps -> Forall (right_size (pot_ndim (ld_pot ld))) ps'.
Proof.
  intros F H Hps. unfold append_particle in H. eapply add_particle_forall; [|exact Hps|exact H]. intros p Hp. eapply new_particle_size; eassumption.
Qed.
Lemma random_global_size rng ld mass : force_size (ld_pot ld) -> forall n ps g ps', random_global rng ld mass n ps g = Ok ps' ->
  Forall (right_size (pot_ndim (ld_pot ld))) ps -> Forall (right_size (pot_ndim (ld_pot ld))) ps'.
Proof.
  intro F. induction n as [|n IH]; intros ps g ps' H Hps; cbn [random_global] in H; [apply ok_inj in H; now subst|].
  destruct (uniform_pos rng (pot_ranges (ld_pot ld)) g) as [pos g']. apply bind_ok in H. destruct H as (ps1 & E & H).
  eapply IH; [exact H|]. eapply append_size; eassumption.
Qed.
Lemma random_pos_size rng ld mass choices : force_size (ld_pot ld) -> forall n ps g ps', random_pos rng ld mass choices n ps g = Ok ps' ->
  Forall (right_size (pot_ndim (ld_pot ld))) ps -> Forall (right_size (pot_ndim (ld_pot ld))) ps'.
Proof.
  intro F. induction n as [|n IH]; intros ps g ps' H Hps; cbn [random_pos] in H; [apply ok_inj in H; now subst|].
  destruct choices as [|c0 cs]; [discriminate|]. destruct (r_choice rng _ g) as [i g'].
  apply bind_ok in H. destruct H as (pos & _ & H). apply bind_ok in H. destruct H as (ps1 & E & H).
  eapply IH; [exact H|]. eapply append_size; eassumption.
Qed.
Lemma add_copies_size ld mass pos : force_size (ld_pot ld) -> forall n ps ps', add_copies ld mass pos n ps = Ok ps' ->
  Forall (right_size (pot_ndim (ld_pot ld))) ps -> Forall (right_size (pot_ndim (ld_pot ld))) ps'.
Proof.
  intro F. induction n as [|n IH]; intros ps ps' H Hps; cbn [add_copies] in H; [apply ok_inj in H; now subst|].
  apply bind_ok in H. destruct H as (p & _ & H). apply bind_ok in H. destruct H as (ps1 & E & H).
  eapply IH; [exact H|]. eapply append_size; eassumption.
Qed.
Lemma init_size e o ld ps : force_size (ld_pot ld) -> init_particles e o ld = Ok ps -> Forall (right_size (pot_ndim (ld_pot ld))) ps.
Proof.
  intro F. unfold init_particles. intro H. binds H. cbv zeta in H.
  destruct (vstr_is (get_dict o "initial-distribution") "random-global").
  { binds H. eapply random_global_size; [exact F|exact H|constructor]. }
  destruct (vstr_is (get_dict o "initial-distribution") "random-pos").
  { binds H. eapply random_pos_size; [exact F|exact H|constructor]. }
  destruct (vstr_is (get_dict o "initial-distribution") "fractions-pos"); [|apply ok_inj in H; subst; constructor].
  binds H. destruct (Nat.eqb _ _); cbn [negb] in H; [|discriminate].
  revert H. generalize (combine x3 x2). intro l. 
  assert (G : forall l ps0, Forall (right_size (pot_ndim (ld_pot ld))) ps0 ->
    foldM (fun ps pc => add_copies ld x (fst pc) (Z.to_nat (snd pc)) ps) l ps0 = Ok ps -> Forall (right_size (pot_ndim (ld_pot ld))) ps).
  { clear l. induction l as [|pc l IH]; intros ps0 H0 H; cbn [foldM] in H; [apply ok_inj in H; now subst|].
    apply bind_ok in H. destruct H as (ps1 & Ec & H). eapply IH; [|exact H]. eapply add_copies_size; eassumption. }
  intro H. eapply G; [|exact H]. constructor.
Qed.

Lemma set_up_dynamics e c w0 : setup_dynamics e c = Ok w0 ->
  force_size (ld_pot (w_ld w0)) /\ Forall (right_size (pot_ndim (ld_pot (w_ld w0)))) (w_ps w0).
Proof.
  unfold setup_dynamics. intro H. binds H. apply ok_inj in H. subst w0. cbn.
  assert (F : force_size (ld_pot l)) by (rewrite (setup_ld_pot _ _ _ _ _ E0); eapply setup_force_size; exact E).
  split; [exact F|]. eapply init_size; eassumption.
Qed.
Lemma setup_ld_kt_pos e c ld g pot : usable c -> setup_ld e (c_ld c) pot = Ok (ld, g) -> (0 < ld_kt ld)%R.
Proof.
  intros (_ & _ & K & _). unfold setup_ld, get_dict. destruct K as [K|(K & (k & Hk & Pk) & _)]; rewrite K; cbn [vstr_is].
  - cbn. intro H. binds H. apply ok_inj in H. injection H as <- _. cbn. lra.
  - cbn. rewrite Hk. intro H. binds H. apply ok_inj in H. injection H as <- _. cbn.
    destruct k; cbn in Pk, E1; try discriminate. apply ok_inj in E1. now subst.
Qed.

(** * The birth-death step *)
Record bd_ready (e : env) (par : bdpar) (ndim np : nat) : Prop := {
  br_stride : bd_stride par <> 0;
  br_mode : bd_recalc par = false \/ forall n g, Forall (fun u => 0 < u)%R (fst (r_random (e_rng e) n g));
  br_two : (2 <= np)%nat;
  br_betas : forall ps, length ps = np -> Forall (right_size ndim) ps -> exists beta, calc_betas (e_gd e) par ps = Ok beta }.

Lemma at_ok (l : vec) i : (i < length l)%nat -> exists a, at_ l i = Ok a /\ nth_error l i = Some a.
Proof. intro H. unfold at_. apply nth_error_Some in H. destruct (nth_error l i); [eauto|congruence]. Qed.
Lemma recalc_total e par ndim np rand : rng_ok (e_rng e) -> bd_ready e par ndim np ->
  length rand = np -> Forall (fun u => 0 < u)%R rand ->
  forall order beta curr events st, Forall (fun i => (i < np)%nat) order -> length beta = np ->
  length (bs_ps st) = np -> Forall (right_size ndim) (bs_ps st) ->
  exists r, recalc_loop (e_rng e) (e_gd e) par np rand order beta curr events st = Ok r.
Proof.
  intros R B Lr Pr. induction order as [|i order IH]; intros beta curr events st Fo Lb Lp Sp; cbn [recalc_loop]; [eauto|].
  inversion Fo as [|? ? Hi Fo']; subst x l.
  destruct (at_ok beta i ltac:(lia)) as (b & -> & _). destruct (at_ok rand i ltac:(lia)) as (r & -> & Er). cbn [bind].
  assert (0 < r)%R as Hr. { eapply Forall_forall in Pr; [exact Pr|]. eapply nth_error_In; exact Er. }
  set (s := if Model_bd.ltb b 0 then _ else _). clearbody s.
  destruct (Model_bd.leb r (event_prob par b)) eqn:El; [|apply IH; assumption].
  unfold random_other. destruct (Nat.leb np 1) eqn:En; [apply Nat.leb_le in En; pose proof (br_two _ _ _ _ B); lia|].
  apply Nat.leb_gt in En. pose proof (ok_integers _ R (np - 1) (bs_rng st) ltac:(lia)) as Hn.
  destruct (r_integers (e_rng e) (np - 1) (bs_rng st)) as [num g]. cbn [fst] in Hn. cbn [bind].
  set (other := if Nat.leb i num then S num else num).
  assert (Ho : (other < np)%nat) by (unfold other; destruct (Nat.leb i num); lia). clearbody other.
  assert (G : forall ev curr' s', (fst ev < np)%nat -> (snd ev < np)%nat -> exists r0,
    (do ps <- perform_moves (bs_ps st) [ev]; do beta0 <- calc_betas (e_gd e) par ps;
     recalc_loop (e_rng e) (e_gd e) par np rand order beta0 curr' (events ++ [ev]) (mkBS ps g s')) = Ok r0).
  { intros ev curr' s' H1 H2. assert (V : valid_events (length (bs_ps st)) [ev]) by (constructor; [rewrite Lp; auto|constructor]).
    rewrite (perform_moves_total _ _ V). cbn [bind].
    assert (L' : length (execute (bs_ps st) [ev]) = np) by (rewrite execute_length; exact Lp).
    assert (S' : Forall (right_size ndim) (execute (bs_ps st) [ev])).
    { apply Forall_forall. intros x Hx. apply execute_copies in Hx. eapply Forall_forall in Sp; eassumption. }
    destruct (br_betas _ _ _ _ B _ L' S') as (beta' & Hb). rewrite Hb. cbn [bind]. apply IH; auto.
    rewrite (calc_betas_length _ _ _ _ Hb). exact L'. }
  unfold Model_bd.gtb, Model_bd.ltb, Model_bd.leb, event_prob in *. destruct (Rlt_dec 0 b); [apply G; assumption|].
  destruct (Rlt_dec b 0); [apply G; assumption|]. exfalso.
  assert (b = 0%R) as -> by lra. rewrite Rabs_R0 in El. destruct (Rle_dec _ _) as [Hc|]; [|discriminate].
  replace (-0 * bd_dt par * bd_rate par)%R with 0%R in Hc by ring. rewrite exp_0 in Hc. lra.
Qed.

Lemma bd_total e par ndim np st : rng_ok (e_rng e) -> bd_ready e par ndim np -> length (bs_ps st) = np ->
  Forall (right_size ndim) (bs_ps st) -> exists evs st', do_birth_death (e_rng e) (e_gd e) par st = Ok (evs, st').
Proof.
  intros R B L S. destruct (br_betas _ _ _ _ B _ L S) as (beta & Hb). pose proof (br_two _ _ _ _ B) as H2.
  destruct (bd_recalc par) eqn:M.
  - destruct (br_mode _ _ _ _ B) as [Hm|Hm]; [congruence|]. unfold do_birth_death. rewrite Hb. cbn [bind].
    pose proof (calc_betas_length _ _ _ _ Hb) as Lb. rewrite L in *.
    pose proof (ok_random_len _ R np (bs_rng st)) as Lr. specialize (Hm np (bs_rng st)).
    destruct (r_random (e_rng e) np (bs_rng st)) as [rand g]. cbn [fst] in Lr, Hm. rewrite M. cbn [negb bs_rng].
    pose proof (ok_shuffle _ R (seq 0 np) g) as Pm. destruct (r_shuffle (e_rng e) (seq 0 np) g) as [order g1]. cbn [fst] in Pm.
    edestruct (recalc_total e par ndim np rand R B Lr Hm order beta None []) as ([evs st'] & E);
      [| | |  |rewrite E; eauto]; cbn [bs_ps]; try assumption.
    apply Forall_forall. intros i Hi. apply (Permutation_in i (Permutation_sym Pm)), in_seq in Hi. lia.
  - eapply bulk_total; [exact R|exact M|lia|exact Hb].
Qed.

Lemma bd_run_total e par ndim np k ps bg st out : rng_ok (e_rng e) -> bd_ready e par ndim np -> length ps = np ->
  Forall (right_size ndim) ps -> exists b out', bd_run (e_rng e) (e_gd e) par k (mkBS ps bg st, out) = Ok (b, out') /\
    length (bs_ps b) = np /\ Forall (right_size ndim) (bs_ps b).
Proof.
  intros R B L S. unfold bd_run. destruct (Z.eqb_spec (bd_stride par) 0) as [H|_]; [now apply (br_stride _ _ _ _ B) in H|].
  assert (G : exists s', (if k mod bd_stride par =? 0 then do (_, s') <- do_birth_death (e_rng e) (e_gd e) par (mkBS ps bg st); Ok s'
     else Ok (mkBS ps bg st)) = Ok s' /\ length (bs_ps s') = np /\ Forall (right_size ndim) (bs_ps s')).
  { destruct (k mod bd_stride par =? 0); [|eexists; split; [reflexivity|auto]].
    destruct (bd_total e par ndim np (mkBS ps bg st) R B L S) as (evs & st' & E). rewrite E. cbn [bind]. eexists. split; [reflexivity|].
    destruct (bd_conserves _ _ _ _ _ _ R E) as (L' & _ & _ & C & _). cbn [bs_ps] in *. split; [congruence|].
    apply Forall_forall. intros x Hx. apply C in Hx. eapply Forall_forall in S; eassumption. }
  destruct G as (s' & -> & L' & S'). cbn [bind].
  destruct (bd_stats_stride par) as [z|]; [destruct (z =? 0); [|destruct (k mod z =? 0)]|]; eauto.
Qed.

(** what the setup makes *)
Lemma setup_bd_ready e c o ld par g np : usable c -> c_birth_death c = Some o -> setup_birth_death e o ld = Ok (par, g) ->
  (bd_variant par = VOrig \/ griddata_pointwise (e_gd e)) -> (2 <= np)%nat ->
  (bd_recalc par = false \/ forall n g, Forall (fun u => 0 < u)%R (fst (r_random (e_rng e) n g))) ->
  bd_ready e par (pot_ndim (ld_pot ld)) np.
Proof.
  intros U Hc H Hg H2 Hm. destruct U as (_ & _ & _ & _ & _ & U & _). rewrite Hc in U. cbn [on_section] in U.
  destruct U as ((stride & Hs & Ps) & _ & _ & Hbw).
  unfold setup_birth_death in H. cbv zeta in H. apply bind_ok in H. destruct H as (bw & Ebw & H).
  assert (Wbw : length bw = pot_ndim (ld_pot ld) /\ Forall (fun b => 0 < b)%R bw).
  { unfold setup_bandwidth in Ebw. apply bind_ok in Ebw. destruct Ebw as (bw' & E & Ebw).
    destruct (Nat.eqb (length bw') (pot_ndim (ld_pot ld))) eqn:El; cbn [negb] in Ebw; [|discriminate].
    apply ok_inj in Ebw. subst bw'. apply Nat.eqb_eq in El. split; [exact El|].
    destruct (Nat.eqb (pot_ndim (ld_pot ld)) 1).
    - destruct Hbw as [(x & Hx & Px)|(l & Hl & _)]; unfold get_dict in E.
      + rewrite Hx in E. destruct x; cbn in E, Px; try discriminate. apply ok_inj in E. subst bw. constructor; [exact Px|constructor].
      + rewrite Hl in E. discriminate.
    - destruct Hbw as [(x & Hx & Px)|(l & Hl & _ & Pl)]; unfold get_dict in E.
      + rewrite Hx in E. discriminate.
      + rewrite Hl in E. unfold v_floats in E. cbn [v_xfloats bind] in E. clear - E Pl. revert bw E. induction l as [|x l IH]; intros bw E; cbn [mapM] in E.
        * apply ok_inj in E. subst. constructor.
        * inversion Pl; subst. binds E. apply ok_inj in E. subst bw. destruct x; cbn in E0, H1; try discriminate. apply ok_inj in E0. subst.
          constructor; [assumption|]. apply IH; auto. }
  destruct Wbw as [Lbw Pbw]. binds H. apply ok_inj in H. injection H as -> _.
  unfold get_dict in E1. rewrite Hs in E1. apply ok_inj in E1. subst x1.
  unfold bd_init in E6. destruct (Req_EM_T (ld_kt ld) 0); [discriminate|].
  assert (P : bd_stride par = stride /\ bd_bw par = bw /\ bd_variant par = x /\ (x <> VOrig -> exists gr, bd_grid par = Some gr)).
  { destruct x.
    - apply ok_inj in E6. subst par. repeat split. congruence.
    - destruct x0; [|discriminate]. binds E6. apply ok_inj in E6. subst par. repeat split. eexists; reflexivity.
    - destruct x0; [|discriminate]. binds E6. apply ok_inj in E6. subst par. repeat split. eexists; reflexivity. }
  destruct P as (P1 & P2 & P3 & P4). constructor; [lia|assumption|assumption|].
  intros ps L S. assert (W : walkers_ok (pot_ndim (ld_pot ld)) (bd_bw par) (map p_pos ps)).
  { rewrite P2. split; [exact Lbw|]. split; [exact Pbw|]. apply Forall_map. eapply Forall_impl; [|exact S]. intros p Hp. apply Hp. }
  assert (Hne : ps <> []) by (intros ->; cbn in L; lia).
  rewrite <- P3 in P4. destruct (bd_variant par) eqn:V.
  - destruct (betas_sum_orig _ (e_gd e) par ps V W Hne) as (beta & Hb & _). eauto.
  - destruct Hg as [Hg|Hg]; [discriminate|]. destruct (P4 ltac:(discriminate)) as (gr & Eg).
    destruct (betas_sum_add _ (e_gd e) par gr ps Hg V Eg W Hne) as (beta & Hb & _). eauto.
  - destruct Hg as [Hg|Hg]; [discriminate|]. destruct (P4 ltac:(discriminate)) as (gr & Eg).
    destruct (betas_sum_mult _ (e_gd e) par gr ps Hg V Eg W Hne) as (beta & Hb & _). eauto.
Qed.
