(** Outputs of finished runs of the complete program (C56) *)
From Coq Require Import Lia Lra.
From Verif Require Import PyBase Model_xr Model_input Spec_input Spec_rng Model_dyn Model_bd Model_traj Model_hist Model_histaction Model_fes Model_rec Model_deltaf
  Model_pdist Model_setup Model_main Spec_times Spec_traj Spec_trajrun Spec_hist Spec_histact Spec_setup Spec_rec Spec_fes Spec_pdist Spec_ld Spec_bdrun Spec_main Spec_whole
  Proof_base Proof_ld Proof_bd Proof_hist Proof_histprops Proof_trajrun Proof_rec Proof_fes Proof_pdist Proof_input Proof_setup2 Proof_main Proof_main2 Proof_whole Proof_whole2 Proof_whole3 Proof_whole4.
Open Scope string_scope.
Open Scope Z_scope.
Open Scope list_scope.
Ltac Zify.zify_post_hook ::= idtac.

(** * The walkers of a finished run *)
Lemma bd_run_keeps rng gd par k ps bg st out b out' : rng_ok rng -> bd_run rng gd par k (mkBS ps bg st, out) = Ok (b, out') ->
  length (bs_ps b) = length ps /\ forall p, In p (bs_ps b) -> In p ps.
Proof.
  intros R H. unfold bd_run in H. destruct (bd_stride par =? 0); [discriminate|].
  apply bind_ok in H. destruct H as (s' & E & H).
  assert (G : length (bs_ps s') = length ps /\ forall p, In p (bs_ps s') -> In p ps).
  { destruct (k mod bd_stride par =? 0).
    - apply bind_ok in E. destruct E as ([evs st'] & E & E'). apply ok_inj in E'. subst st'.
      destruct (bd_conserves _ _ _ _ _ _ R E) as (L' & _ & _ & C & _). auto.
    - apply ok_inj in E. subst s'. auto. }
  assert (Eb : bs_ps b = bs_ps s').
  { destruct (bd_stats_stride par) as [z|]; [destruct (z =? 0); [|destruct (k mod z =? 0)]|];
      try discriminate; apply ok_inj in H; injection H as <- _; reflexivity. }
  rewrite Eb. exact G.
Qed.
Lemma step_keeps e ld k d d' : rng_ok (e_rng e) -> dyn_step e ld k d d' -> length (fst (fst d')) = length (fst (fst d)).
Proof.
  intros R H. apply stepf_rel in H. unfold stepf in H. destruct d as [[ps g] bd]. cbn [fst snd] in *. apply bind_ok in H.
  destruct H as ([ps' g'] & E & H). pose proof (ld_run_length _ _ _ _ _ _ E) as L.
  destruct bd as [[[[par bg] st] out]|].
  - apply bind_ok in H. destruct H as ([b out'] & E' & H). apply ok_inj in H. subst d'. cbn.
    destruct (bd_run_keeps _ _ _ _ _ _ _ _ _ _ R E') as [L' _]. congruence.
  - apply ok_inj in H. subst d'. exact L.
Qed.
Lemma step_keeps_size e ld k d d' : rng_ok (e_rng e) -> force_size (ld_pot ld) -> bc_ok (ld_pot ld) -> dyn_step e ld k d d' ->
  Forall (right_size (pot_ndim (ld_pot ld))) (fst (fst d)) -> Forall (right_size (pot_ndim (ld_pot ld))) (fst (fst d')).
Proof.
  intros R F B H S. apply stepf_rel in H. unfold stepf in H. destruct d as [[ps g] bd]. cbn [fst snd] in *. apply bind_ok in H.
  destruct H as ([ps' g'] & E & H). destruct (ld_run_total (e_rng e) ld R F B ps g S) as (ps2 & g2 & E2 & S' & _).
  rewrite E in E2. apply ok_inj in E2. injection E2 as <- <-.
  destruct bd as [[[[par bg] st] out]|].
  - apply bind_ok in H. destruct H as ([b out'] & E' & H). apply ok_inj in H. subst d'. cbn.
    destruct (bd_run_keeps _ _ _ _ _ _ _ _ _ _ R E') as [_ L']. apply Forall_forall. intros p Hp. apply L' in Hp.
    eapply Forall_forall in S'; eassumption.
  - apply ok_inj in H. subst d'. exact S'.
Qed.

(** the same history, constant outside of the run *)
Definition clamped (n : Z) {A} (D : Z -> A) (k : Z) : A := D (Z.max 0 (Z.min k n)).
Lemma clamped_in {A} n (D : Z -> A) k : 0 <= k <= n -> clamped n D k = D k.
Proof. intro H. unfold clamped. f_equal. lia. Qed.
Lemma clamped_history e w0 n D : 0 <= n -> history e w0 n D -> history e w0 n (clamped n D).
Proof.
  intros Hn (D0 & DS). split; [rewrite clamped_in by lia; exact D0|]. intros k Hk. rewrite !clamped_in by lia. auto.
Qed.
Lemma clamped_ind {A} (P : A -> Prop) n D : 0 <= n -> P (D 0) -> (forall k, 1 <= k <= n -> P (D (k - 1)) -> P (D k)) -> forall k, P (clamped n D k).
Proof.
  intros Hn P0 PS. assert (Q : forall k, 0 <= k -> k <= n -> P (D k)).
  { intros k Hk. pattern k. apply natlike_ind; [intros _; exact P0| |exact Hk]. intros j Hj IH Hl. unfold Z.succ in *.
    apply PS; [lia|]. replace (j + 1 - 1) with j by lia. apply IH. lia. }
  intro k. apply Q; lia.
Qed.

Lemma foldM_ext_in {S} (f g : S -> Z -> res S) l : (forall k s, In k l -> f s k = g s k) -> forall s, foldM f l s = foldM g l s.
Proof.
  induction l as [|k l IH]; intros H s; cbn [foldM]; [reflexivity|]. rewrite (H k s) by now left.
  destruct (g s k); cbn [bind]; [|reflexivity]. apply IH. intros k' s' Hk. apply H. now right.
Qed.
Lemma foldM_clamped {S} (f g : S -> Z -> res S) n k : (forall j s, 1 <= j <= n -> f s j = g s j) -> k <= n ->
  forall s, foldM f (zrange 1 (k + 1)) s = foldM g (zrange 1 (k + 1)) s.
Proof. intros H Hk. apply foldM_ext_in. intros j s Hj. apply H. apply in_zrange in Hj. lia. Qed.

Lemma traj_sim_ext dt hist hist' manual n t0 : (forall k, 1 <= k <= n -> hist k = hist' k) ->
  traj_simulation dt hist manual n t0 = traj_simulation dt hist' manual n t0.
Proof.
  intro H. unfold traj_simulation. destruct (manual_writes (manual 0) 0 t0) as [t1|]; cbn [bind]; [|reflexivity].
  rewrite (foldM_clamped (traj_step dt hist manual) (traj_step dt hist' manual) n n); [reflexivity| |lia].
  intros j s Hj. unfold traj_step. rewrite H by exact Hj. reflexivity.
Qed.
Lemma hist_loop_ext dt hist hist' n k st : (forall k, 1 <= k <= n -> hist k = hist' k) -> k <= n ->
  hist_loop dt hist k st = hist_loop dt hist' k st.
Proof.
  intros H Hk. unfold hist_loop. apply (foldM_clamped _ _ n); [|exact Hk]. intros j s Hj. unfold hist_step. rewrite H by exact Hj. reflexivity.
Qed.
Lemma hist_sim_ext dt hist hist' n st : (forall k, 1 <= k <= n -> hist k = hist' k) ->
  hist_simulation dt hist n st = hist_simulation dt hist' n st.
Proof. intro H. unfold hist_simulation. rewrite (hist_loop_ext dt hist hist' n n st H) by lia. reflexivity. Qed.

(** * The options *)
Lemma opt_int_ok o k x : v_opt_int (get_dict o k) = Ok x -> opt_int o k = x.
Proof. unfold opt_int, get_dict. destruct (assoc k o) as [[]|]; cbn; intro H; try discriminate; apply ok_inj in H; exact H. Qed.
Lemma opt_ints_ok o k x : v_opt_ints (get_dict o k) = Ok x -> opt_ints o k = match x with Some l => l | None => [] end.
Proof. unfold opt_ints, get_dict. destruct (assoc k o) as [[]|]; cbn; intro H; try discriminate; apply ok_inj in H; subst x; reflexivity. Qed.
Lemma opt_set_ok o k : v_true (get_dict o k) = opt_set o k.
Proof. unfold opt_set, get_dict. destruct (assoc k o) as [[]|]; reflexivity. Qed.

Lemma uniform_unique m r e1 e2 : uniform_edges m r e1 -> uniform_edges m r e2 -> e1 = e2.
Proof.
  intros [L1 H1] [L2 H2]. apply nth_ext with (d := 0%R) (d' := 0%R); [congruence|]. intros i Hi. rewrite H1, H2 by lia. reflexivity.
Qed.
Lemma bins_of_unique nb rs e1 e2 : bins_of nb rs e1 -> bins_of nb rs e2 -> e1 = e2.
Proof.
  unfold bins_of. generalize (combine nb rs). intro l. revert e1 e2. induction l as [|x l IH]; intros e1 e2 H1 H2; inversion H1; inversion H2; subst; [reflexivity|].
  f_equal; [eapply uniform_unique; eassumption|apply IH; assumption].
Qed.

(** * Finished runs *)
Section Finished.
Variables (e : env) (cv : conv) (secs : list (string * section)) (acts : list action) (n : Z) (w0 w : world (e_rng e)).
Hypothesis HS : set_up e cv secs acts n w0.
Hypothesis HF : main e cv (Some (Ok secs)) = Finished w.
Hypothesis R : rng_ok (e_rng e).
Hypothesis Hw : w_ps w0 <> [].

Lemma finished_np : (0 < length (w_ps w0))%nat.
Proof. destruct (w_ps w0); [congruence|cbn; lia]. Qed.

Lemma finished_trajectories c o : parse_all cv secs = Ok c -> c_trajectories c = Some o -> w_traj w0 <> None ->
  exists D t, history e w0 n D /\ w_ps w = walkers D n /\ (forall k, length (walkers D k) = length (w_ps w0)) /\ w_traj w = Some t /\
    tr_files t = if opt_set o "filename"
                 then Some (traj_files (ld_dt (w_ld w0)) (opt_set o "momentum") (walkers D) (option_or (opt_int o "stride") 1) n (length (w_ps w0)))
                 else None.
Proof.
  intros Hp Hc Ht. pose proof (set_up_steps _ _ _ _ _ _ HS) as (Hn & _).
  apply (main_composed _ _ _ _ _ _ HS) in HF. destruct HF as (D & hs & fs & Hh & _ & Eps & _ & _ & Ct & _).
  pose proof (accepted_usable _ _ _ Hp) as U.
  destruct HS as (c' & w1 & Hp' & H1 & Ha & _). rewrite Hp in Hp'. apply ok_inj in Hp'. subst c'.
  destruct (set_up_built _ _ _ _ _ H1 Ha) as (B & _). destruct (bu_traj _ _ _ B) as [?|(o' & t0 & Hc' & Hs & Et)]; [congruence|].
  rewrite Hc in Hc'. injection Hc' as <-. rewrite Et in Ct. destruct Ct as (t & Ewt & Es).
  assert (Len : forall k, length (walkers (clamped n D) k) = length (w_ps w0)).
  { intro k. unfold walkers. apply (clamped_ind (fun d => length (fst (fst d)) = length (w_ps w0))); [lia|destruct Hh as [-> _]; reflexivity|].
    intros j Hj IH. destruct Hh as [_ Hh]. rewrite (step_keeps _ _ _ _ _ R (Hh j Hj)). exact IH. }
  destruct (setup_traj_made _ _ _ _ _ U Hc Hs) as (s & ws & t1 & p1 & m1 & Os & _ & M).
  rewrite !opt_set_ok in M. rewrite (opt_int_ok _ _ _ Os).
  exists (clamped n D), t. split; [apply clamped_history; [lia|exact Hh]|]. split; [unfold walkers; rewrite clamped_in by lia; exact Eps|].
  split; [exact Len|]. split; [exact Ewt|].
  destruct (traj_total _ _ _ _ _ _ _ _ _ (ld_dt (w_ld w0)) (walkers (clamped n D)) (fun _ => 0%nat) n M finished_np ltac:(lia) Len) as (t' & E & Ef).
  rewrite (traj_sim_ext _ _ (walkers D)) in E by (intros k Hk; unfold walkers; rewrite clamped_in by lia; reflexivity).
  rewrite Es in E. apply ok_inj in E. subst t'. exact Ef.
Qed.

Hypothesis Hbc : pot_bc (ld_pot (w_ld w0)) = None \/ length (pot_ranges (ld_pot (w_ld w0))) = pot_ndim (ld_pot (w_ld w0)).

(** the histogram after the run, with the options W, s, resets *)
Lemma finished_histogram c ot oh h0 : parse_all cv secs = Ok c -> c_trajectories c = Some ot -> c_histogram c = Some oh -> w_hist w0 = Some h0 ->
  exists D h, history e w0 n D /\ w_ps w = walkers D n /\ w_hist w = Some h /\
    let fn := opt_set ot "filename" in
    let W := option_or (opt_int ot "write-stride") 100 in
    let s := option_or (opt_int oh "stride") 1 in
    let resets := opt_ints oh "reset" in
    let origin := repeat 0%R (pot_ndim (ld_pot (w_ld w0))) in
    let edges := h_edges (ha_hist h0) in
    h_edges (ha_hist h) = edges /\
    data_holds edges (content fn W s (walkers D) origin resets n n ++ sampled (walkers D) (final_batch fn W s n)) (h_data (ha_hist h)) /\
    exists files, written_ok fn W s (walkers D) origin resets (opt_int oh "write-stride") edges n files /\
      ha_written h = files ++ (if opt_set oh "filename" then [(None, h_data (ha_hist h))] else []).
Proof.
  intros Hp Hct Hch Eh0. pose proof (set_up_steps _ _ _ _ _ _ HS) as (Hn & _).
  apply (main_composed _ _ _ _ _ _ HS) in HF. destruct HF as (D & hs & fs & Hh & _ & Eps & _ & _ & _ & Ch & _).
  pose proof (accepted_usable _ _ _ Hp) as U.
  destruct HS as (c' & w1 & Hp' & H1 & Ha & _). rewrite Hp in Hp'. apply ok_inj in Hp'. subst c'.
  destruct (set_up_built _ _ _ _ _ H1 Ha) as (B & Eld & Ew1 & _).
  destruct (set_up_dynamics _ _ _ H1) as (F & S0). rewrite <- Eld in F, S0. rewrite <- Ew1 in S0.
  rewrite Eh0 in Ch. destruct Ch as (t0 & t & Et0 & _ & Ewh & HL & HFin).
  destruct (bu_traj _ _ _ B) as [?|(o' & t0' & Hc' & Hst & Et)]; [congruence|].
  rewrite Hct in Hc'. injection Hc' as <-. rewrite Et in Et0. injection Et0 as ->.
  destruct (bu_hist _ _ _ B) as [?|(o' & t0' & h0' & Hc' & Et' & Hsh & Eh)]; [congruence|].
  rewrite Hch in Hc'. injection Hc' as <-. rewrite Et in Et'. injection Et' as <-. rewrite Eh0 in Eh. injection Eh as <-.
  assert (Len : forall k, length (walkers (clamped n D) k) = length (w_ps w0) /\ Forall (right_size (pot_ndim (ld_pot (w_ld w0)))) (walkers (clamped n D) k)).
  { intro k. unfold walkers.
    apply (clamped_ind (fun d => length (fst (fst d)) = length (w_ps w0) /\ Forall (right_size (pot_ndim (ld_pot (w_ld w0)))) (fst (fst d))));
      [lia|destruct Hh as [-> _]; split; [reflexivity|exact S0]|].
    intros j Hj [IH1 IH2]. destruct Hh as [_ Hh]. split; [rewrite (step_keeps _ _ _ _ _ R (Hh j Hj)); exact IH1|].
    eapply step_keeps_size; [exact R|exact F|exact Hbc|exact (Hh j Hj)|exact IH2]. }
  destruct (setup_traj_made _ _ _ _ _ U Hct Hst) as (s & ws & t1 & p1 & m1 & _ & Ows & M).
  destruct (setup_hist_made _ _ _ _ _ U Hch Hsh) as (nb & rs & hst & rst & hws & Os & Or & Ohw & HM).
  rewrite !(opt_set_ok ot) in M. rewrite !(opt_set_ok oh) in HM. rewrite (opt_int_ok _ _ _ Ows), (opt_int_ok _ _ _ Os), (opt_ints_ok _ _ _ Or), (opt_int_ok _ _ _ Ohw).
  exists (clamped n D), (hs (n + 1)). split; [apply clamped_history; [lia|exact Hh]|]. split; [unfold walkers; rewrite clamped_in by lia; exact Eps|].
  split; [exact Ewh|]. cbv zeta.
  assert (A : hist_accepted (walkers (clamped n D)) (length (w_ps w0)) s ws t1 p1 m1 nb rs hst (opt_set oh "filename") hws).
  { destruct M, HM. constructor; try assumption; [exact finished_np|]. intro k. destruct (Len k) as [L1 L2]. split; [exact L1|].
    rewrite hm_dim. eapply Forall_impl; [|exact L2]. intros p [Hp0 _]. exact Hp0. }
  assert (St : forall st0, hist_start (opt_set ot "filename") (length (w_ps w0)) s (opt_set ot "momentum") ws t1 p1 m1 nb rs hst rst (opt_set oh "filename") hws = Ok st0 -> st0 = (t0, h0)).
  { intros st0. unfold hist_start. rewrite <- (tm_eq _ _ _ _ _ _ _ _ _ M). cbv zeta. rewrite (hm_eq _ _ _ _ _ _ _ _ _ HM). cbn [bind]. intro Hx. apply ok_inj in Hx. now subst. }
  destruct (hist_after (ld_dt (w_ld w0)) _ (opt_set ot "filename") _ _ (opt_set ot "momentum") _ _ _ _ _ _ _ rst _ _ A n Hn) as (st0 & t' & ha & E0 & E & Bi & Dh & Wr).
  rewrite (St _ E0) in E. rewrite (hist_sim_ext _ _ (walkers D)) in E by (intros k Hk; unfold walkers; rewrite clamped_in by lia; reflexivity).
  rewrite HFin in E. apply ok_inj in E. injection E as <- <-.
  assert (Ee : h_edges (ha_hist (hs (n + 1))) = h_edges (ha_hist h0)).
  { destruct (hist_during (ld_dt (w_ld w0)) _ (opt_set ot "filename") _ _ (opt_set ot "momentum") _ _ _ _ _ _ _ rst _ _ A 0 ltac:(lia)) as (st1 & tz & hz & E1 & E2 & Bz & _).
    rewrite (St _ E1) in E2. unfold hist_loop in E2. rewrite zrange_nil in E2 by lia. cbn [foldM] in E2. apply ok_inj in E2. injection E2 as <- <-.
    eapply bins_of_unique; [exact Bi|exact Bz]. }
  split; [exact Ee|]. rewrite <- Ee. rewrite <- (hm_dim _ _ _ _ _ _ _ _ _ HM). split; [exact Dh|exact Wr].
Qed.
End Finished.
