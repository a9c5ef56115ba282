(** Runs with other contents of uninitialised memory (C52): histogram, free energy and the complete program *)
From Coq Require Import Lia Lra FunctionalExtensionality.
From Verif Require Import PyBase Model_xr Model_input Spec_input Spec_rng Model_dyn Model_bd Model_traj Model_hist Model_histaction Model_fes Model_rec Model_deltaf
  Model_pdist Model_setup Model_main Spec_times Spec_box Spec_traj Spec_trajrun Spec_hist Spec_histact Spec_setup Spec_rec Spec_fes Spec_pdist Spec_ld Spec_bdrun Spec_main Spec_whole Spec_repro
  Proof_base Proof_ld Proof_bd Proof_hist Proof_histact Proof_histprops Proof_trajrun Proof_rec Proof_fes Proof_pdist Proof_input Proof_setup2 Proof_main Proof_main2 Proof_main3 Proof_whole Proof_whole2 Proof_whole3 Proof_whole4 Proof_whole5 Proof_whole6 Proof_repro2.
Open Scope string_scope.
Open Scope Z_scope.
Open Scope list_scope.
Ltac Zify.zify_post_hook ::= idtac.

(** * Histogram *)
Lemma data_holds_unique edges l d d' : Forall edges_ok edges -> data_holds edges l d -> data_holds edges l d' -> d = d'.
Proof.
  intros He (L & H) (L' & H'). eapply data_ext; [exact He|exact L|exact L'|]. intros idx Hi.
  eapply counts_fun; [apply H|apply H']; exact Hi.
Qed.
Lemma written_unique fn W s hist origin resets hws edges n f f' : Forall edges_ok edges ->
  written_ok fn W s hist origin resets hws edges n f -> written_ok fn W s hist origin resets hws edges n f' -> f = f'.
Proof.
  intro He. unfold written_ok. destruct hws as [w|]; [|congruence]. generalize (times 0 n w). intro l. revert f f'.
  induction l as [|j l IH]; intros f f' H H'; inversion H; inversion H'; subst; [reflexivity|]. f_equal; [|now apply IH].
  match goal with H1 : fst ?y = Some j /\ _, H2 : fst ?z = Some j /\ _ |- _ => destruct y, z, H1 as [E1 D1], H2 as [E2 D2] end.
  cbn [fst snd] in *. subst. f_equal. eapply data_holds_unique; eassumption.
Qed.

(** the parameters of the action *)
Definition ha_par (h : histact) := (h_edges (ha_hist h), ha_stride h, ha_reset h, ha_wstride h, ha_filename h, ha_update h).
Lemma ha_eq h h' : ha_par h = ha_par h' -> h_data (ha_hist h) = h_data (ha_hist h') -> ha_written h = ha_written h' -> h = h'.
Proof. destruct h as [[] ? ? ? ? ? ?], h' as [[] ? ? ? ? ? ?]. unfold ha_par. cbn. intros H -> ->. injection H as -> -> -> -> -> ->. reflexivity. Qed.
Lemma hist_add_edges h l h' : hist_add h l = Ok h' -> h_edges h' = h_edges h.
Proof. unfold hist_add. intro H. binds H. apply ok_inj in H. subst. reflexivity. Qed.
Lemma ha_write_par h s : ha_par (ha_write h s) = ha_par h.
Proof. unfold ha_write. destruct (ha_filename h) eqn:E; [|reflexivity]. unfold ha_par. cbn. rewrite E. reflexivity. Qed.
Lemma ha_run_par t h k h' : ha_run t h k = Ok h' -> ha_par h' = ha_par h.
Proof.
  unfold ha_run. destruct (ha_update h =? 0); [discriminate|]. intro H. apply bind_ok in H. destruct H as (h1 & E & H).
  assert (P : ha_par h1 = ha_par h).
  { destruct (k mod ha_update h =? 0); [|apply ok_inj in E; now subst]. binds E. apply ok_inj in E. subst h1. unfold ha_par. cbn.
    match goal with H : hist_add _ _ = Ok _ |- _ => rewrite (hist_add_edges _ _ _ H) end. reflexivity. }
  cbv zeta in H. apply ok_inj in H. subst h'. rewrite <- P.
  set (h2 := match ha_wstride h1 with Some _ => _ | None => _ end).
  assert (P2 : ha_par h2 = ha_par h1).
  { unfold h2. destruct (ha_wstride h1); [|reflexivity]. destruct (negb (z =? 0) && (k mod z =? 0))%bool; [apply ha_write_par|reflexivity]. }
  rewrite <- P2. destruct (existsb (Z.eqb k) (ha_reset h2)); reflexivity.
Qed.
Lemma hist_loop_par dt hist n t h t' h' : hist_loop dt hist n (t, h) = Ok (t', h') -> ha_par h' = ha_par h.
Proof.
  unfold hist_loop. generalize (zrange 1 (n + 1)). intro l. revert t h. induction l as [|k l IH]; intros t h H; cbn [foldM] in H.
  - apply ok_inj in H. now injection H as <- <-.
  - apply bind_ok in H. destruct H as ([t1 h1] & E & H). apply IH in H. rewrite H. unfold hist_step in E. cbn [fst snd] in E. binds E.
    apply ok_inj in E. injection E as <- <-. eapply ha_run_par; eassumption.
Qed.
Lemma hist_sim_par dt hist n t h t' h' : hist_simulation dt hist n (t, h) = Ok (t', h') -> ha_par h' = ha_par h.
Proof.
  unfold hist_simulation. intro H. apply bind_ok in H. destruct H as ([t1 h1] & E & H). cbn [fst snd] in H. apply bind_ok in H. destruct H as (t2 & _ & H).
  apply bind_ok in H. destruct H as (h2 & F & H). apply ok_inj in H. injection H as <- <-. rewrite <- (hist_loop_par _ _ _ _ _ _ _ E).
  unfold ha_final_run in F. binds F. cbv zeta in F. apply ok_inj in F. subst h2.
  match goal with H : hist_add _ _ = Ok _ |- _ => pose proof (hist_add_edges _ _ _ H) as Ee end.
  destruct (ha_filename h1) eqn:Ef; [rewrite ha_write_par|]; unfold ha_par; cbn; rewrite Ee; reflexivity.
Qed.

Section Hist.
Context (dt : R) (hist : Z -> list particle) (fn : bool) (np : nat) (stride : option Z) (momentum : bool)
  (wstride : option Z) (n_bins : list nat)
  (ranges : list (R * R)) (hstride : option Z) (reset : option (list Z)) (hfn : bool) (hws : option Z).
Let tr t1 p1 m1 := traj_init np stride fn momentum wstride t1 p1 m1.
Let acc t1 p1 m1 := hist_accepted hist np stride wstride t1 p1 m1 n_bins ranges hstride hfn hws.
Let made t1 p1 m1 h := ha_init (tr t1 p1 m1) (length ranges) n_bins ranges hstride reset hfn hws = Ok h.

Lemma hist_loop_same k t1 p1 m1 t1' p1' m1' h0 t h t' h' : 0 <= k -> acc t1 p1 m1 -> acc t1' p1' m1' -> made t1 p1 m1 h0 -> made t1' p1' m1' h0 ->
  hist_loop dt hist k (tr t1 p1 m1, h0) = Ok (t, h) -> hist_loop dt hist k (tr t1' p1' m1', h0) = Ok (t', h') -> h = h'.
Proof.
  intros Hk A A' M M' H H'.
  destruct (hist_during dt hist fn np stride momentum wstride t1 p1 m1 n_bins ranges hstride reset hfn hws A k Hk) as (st & x & ha & E0 & E & B & D & Wr).
  destruct (hist_during dt hist fn np stride momentum wstride t1' p1' m1' n_bins ranges hstride reset hfn hws A' k Hk) as (st' & x' & ha' & E0' & E' & B' & D' & Wr').
  unfold hist_start in E0, E0'. cbv zeta in E0, E0'. unfold made, tr in M, M'. rewrite M in E0. rewrite M' in E0'. cbn [bind] in E0, E0'. apply ok_inj in E0, E0'.
  subst st st'. unfold tr in H, H'. rewrite E in H. rewrite E' in H'. apply ok_inj in H, H'. injection H as <- <-. injection H' as <- <-.
  pose proof (hist_loop_par _ _ _ _ _ _ _ E) as P. pose proof (hist_loop_par _ _ _ _ _ _ _ E') as P'.
  assert (Pe : ha_par ha = ha_par ha') by congruence. assert (Ee : h_edges (ha_hist ha) = h_edges (ha_hist ha')) by (unfold ha_par in Pe; congruence).
  pose proof (bins_of_ok hist np stride wstride t1 p1 m1 n_bins ranges hstride hfn hws A _ B) as Ok1.
  rewrite <- Ee in D', Wr'. apply ha_eq; [exact Pe|eapply data_holds_unique; eassumption|eapply written_unique; eassumption].
Qed.
Lemma hist_sim_same n t1 p1 m1 t1' p1' m1' h0 t h t' h' : 0 < n -> acc t1 p1 m1 -> acc t1' p1' m1' -> made t1 p1 m1 h0 -> made t1' p1' m1' h0 ->
  hist_simulation dt hist n (tr t1 p1 m1, h0) = Ok (t, h) -> hist_simulation dt hist n (tr t1' p1' m1', h0) = Ok (t', h') -> h = h'.
Proof.
  intros Hn A A' M M' H H'.
  destruct (hist_after dt hist fn np stride momentum wstride t1 p1 m1 n_bins ranges hstride reset hfn hws A n Hn) as (st & x & ha & E0 & E & B & D & f & Wr & Fw).
  destruct (hist_after dt hist fn np stride momentum wstride t1' p1' m1' n_bins ranges hstride reset hfn hws A' n Hn) as (st' & x' & ha' & E0' & E' & B' & D' & f' & Wr' & Fw').
  unfold hist_start in E0, E0'. cbv zeta in E0, E0'. unfold made, tr in M, M'. rewrite M in E0. rewrite M' in E0'. cbn [bind] in E0, E0'. apply ok_inj in E0, E0'.
  subst st st'. unfold tr in H, H'. rewrite E in H. rewrite E' in H'. apply ok_inj in H, H'. injection H as <- <-. injection H' as <- <-.
  pose proof (hist_sim_par _ _ _ _ _ _ _ E) as P. pose proof (hist_sim_par _ _ _ _ _ _ _ E') as P'.
  assert (Pe : ha_par ha = ha_par ha') by congruence. assert (Ee : h_edges (ha_hist ha) = h_edges (ha_hist ha')) by (unfold ha_par in Pe; congruence).
  pose proof (bins_of_ok hist np stride wstride t1 p1 m1 n_bins ranges hstride hfn hws A _ B) as Ok1.
  rewrite <- Ee in D', Wr'. assert (Ed : h_data (ha_hist ha) = h_data (ha_hist ha')) by (eapply data_holds_unique; eassumption).
  apply ha_eq; [exact Pe|exact Ed|]. rewrite Fw, Fw', Ed. f_equal. eapply written_unique; eassumption.
Qed.
End Hist.

(** * Free energy surface *)
Lemma fes_any_junk data kt junk junk' : (0 < kt)%R -> calculate_fes data kt true junk = calculate_fes data kt true junk'.
Proof.
  intro K. destruct data as [|x l] eqn:E; [reflexivity|]. rewrite <- E.
  destruct (calculate_fes_spec data kt junk) as (f & Hj & E1 & _); [subst; discriminate|exact K|]. rewrite E1, Hj. reflexivity.
Qed.
Lemma fes_run_any h junk junk' fa k : (0 < fa_kt fa)%R -> fes_run h junk fa k = fes_run h junk' fa k.
Proof. intro K. unfold fes_run. rewrite (fes_any_junk _ _ junk junk' K). reflexivity. Qed.
Lemma fes_loop_any hs junk junk' l : forall fa, (0 < fa_kt fa)%R ->
  foldM (fun fa k => fes_run (hs k) (junk k) fa k) l fa = foldM (fun fa k => fes_run (hs k) (junk' k) fa k) l fa.
Proof.
  induction l as [|k l IH]; intros fa K; cbn [foldM]; [reflexivity|]. rewrite (fes_run_any _ _ (junk' k)) by exact K.
  destruct (fes_run (hs k) (junk' k) fa k) as [fa1|] eqn:E; cbn [bind]; [|reflexivity]. apply IH. rewrite (fes_run_kt _ _ _ _ _ E). exact K.
Qed.
Lemma fes_sim_any hs junk junk' n fa : (0 < fa_kt fa)%R -> fes_simulation hs junk n fa = fes_simulation hs junk' n fa.
Proof.
  intro K. unfold fes_simulation. rewrite (fes_loop_any hs junk junk' _ _ K).
  destruct (foldM (fun fa k => fes_run (hs k) (junk' k) fa k) (zrange 1 (n + 1)) fa) as [fa1|] eqn:E; cbn [bind]; [|reflexivity].
  unfold fes_final_run. rewrite (fes_any_junk _ _ (junk (n + 1)) (junk' (n + 1))); [reflexivity|]. rewrite (fes_loop_kt _ _ _ _ _ E). exact K.
Qed.

(** * The complete program *)
Lemma history_det e w0 n D D' : history e w0 n D -> history e w0 n D' -> forall k, 0 <= k -> k <= n -> D k = D' k.
Proof.
  intros [H0 H] [H0' H'] k Hk. pattern k. apply natlike_ind; [intros _; congruence| |exact Hk]. intros j Hj IH Hl. unfold Z.succ in *.
  specialize (H (j + 1) ltac:(lia)). specialize (H' (j + 1) ltac:(lia)). replace (j + 1 - 1) with j in * by lia.
  rewrite IH in H by lia. apply stepf_rel in H, H'. rewrite H in H'. now apply ok_inj in H'.
Qed.
Lemma present_same {rng} (w w' : world rng) : present w = present w' -> forall a, is_set w a = is_set w' a.
Proof.
  intros H a. assert (Ia : In a canonical) by (destruct a; cbn; auto 10).
  assert (X : In a (present w) <-> In a (present w')) by now rewrite H. unfold present in X. rewrite !filter_In in X.
  destruct (is_set w a), (is_set w' a); try reflexivity; exfalso; destruct X as [X Y]; [destruct (X (conj Ia eq_refl))|destruct (Y (conj Ia eq_refl))]; discriminate.
Qed.
Lemma ha_init_traj t t' nd nb rs hst rst hfn hws : tr_wstride t = tr_wstride t' -> ha_init t nd nb rs hst rst hfn hws = ha_init t' nd nb rs hst rst hfn hws.
Proof. intro H. unfold ha_init. rewrite H. reflexivity. Qed.
Lemma setup_hist_traj o nd t t' : tr_wstride t = tr_wstride t' -> setup_histogram o nd t = setup_histogram o nd t'.
Proof.
  intro H. unfold setup_histogram.
  match goal with |- context [bind ?x _] => destruct x as [[rs b]|] end; cbn [bind]; [|reflexivity].
  destruct (v_opt_int (get_dict o "stride")); cbn [bind]; [|reflexivity]. destruct (v_opt_ints (get_dict o "reset")); cbn [bind]; [|reflexivity].
  destruct (v_opt_int (get_dict o "write-stride")); cbn [bind]; [|reflexivity]. apply ha_init_traj. exact H.
Qed.

Lemma setup_df_rec e o h ms r : setup_delta_f e o h = Ok (ms, r) -> exists st ws, v_opt_int (get_dict o "stride") = Ok st /\
  v_opt_int (get_dict o "write-stride") = Ok ws /\ rec_init st ws (v_true (get_dict o "filename")) (np_empty (e_junk_df e)) (e_junk_df1 e) = Ok r.
Proof.
  unfold setup_delta_f. intro H. apply bind_ok in H. destruct H as (sts & _ & H). destruct (Nat.ltb (length sts) 2); [discriminate|]. cbv zeta in H.
  apply bind_ok in H. destruct H as (m & _ & H). apply bind_ok in H. destruct H as (st & E1 & H). apply bind_ok in H. destruct H as (ws & E2 & H).
  apply bind_ok in H. destruct H as (x & I & H). apply ok_inj in H. injection H as _ ->. unfold delta_f_init in I. apply bind_ok in I. destruct I as (_ & _ & I). eauto.
Qed.
Lemma setup_df_masks e e' o h ms ms' r r' : setup_delta_f e o h = Ok (ms, r) -> setup_delta_f e' o h = Ok (ms', r') -> ms = ms'.
Proof.
  unfold setup_delta_f. destruct (state_ranges o) as [sts|]; cbn [bind]; [|discriminate]. destruct (Nat.ltb (length sts) 2); [discriminate|]. cbv zeta.
  destruct (pos_inside_ranges (length (h_edges h)) (hist_points h) sts) as [m|]; cbn [bind]; [|discriminate].
  intros H H'. binds H. binds H'. apply ok_inj in H, H'. congruence.
Qed.

Section Memory.
Variables (e : env) (times0 : nat -> R) (pos0 mom0 : nat -> list vec) (fes0 : Z -> nat -> xreal)
    (df0 : nat -> list xreal) (df1 : list xreal) (pd0 : nat -> list Z) (pd1 : list Z).
Let e' := with_memory e times0 pos0 mom0 fes0 df0 df1 pd0 pd1.
Variables (cv : conv) (secs : list (string * section)) (n : Z) (c : config) (w w' : world (e_rng e)).
Hypothesis Hp : parse_all cv secs = Ok c.
Hypothesis Hs : assoc "n_steps" (c_ld c) = Some (VInt n).
Hypothesis HF : main e cv (Some (Ok secs)) = Finished w.
Hypothesis HF' : main e' cv (Some (Ok secs)) = Finished w'.
Hypothesis R : rng_ok (e_rng e).
Hypothesis Hw : w_ps w <> [].
Hypothesis Hbc : pot_bc (ld_pot (w_ld w)) = None \/ length (pot_ranges (ld_pot (w_ld w))) = pot_ndim (ld_pot (w_ld w)).

Ltac fixrng := change (e_rng e') with (e_rng e) in *.
Lemma memory_same : same_results w w' /\
  (~ too_short (c_delta_f c) n -> recorded (w_df w) = recorded (w_df w')) /\
  (~ too_short (c_particle_distribution c) n -> recorded (w_pd w) = recorded (w_pd w')).
Proof.
  destruct (finished_set_up _ _ _ _ HF) as (secs1 & acts & n1 & w0 & Es & HS & Hn & _). injection Es as <-.
  destruct (finished_set_up _ _ _ _ HF') as (secs2 & acts' & n2 & w0' & Es & HS' & _ & _). injection Es as <-.
  assert (Ea : acts = acts').
  { destruct (main_of_setup _ _ _ _ _ _ HS) as (-> & _). destruct (main_of_setup _ _ _ _ _ _ HS') as (-> & _). reflexivity. }
  destruct (set_up_steps _ _ _ _ _ _ HS) as (_ & Ep). destruct (set_up_steps _ _ _ _ _ _ HS') as (_ & Ep').
  rewrite Ea, Ep' in Ep. clear Ep' Ea.
  apply (main_composed _ _ _ _ _ _ HS) in HF. apply (main_composed _ _ _ _ _ _ HS') in HF'.
  destruct HS as (c1 & w1 & Hp1 & H1 & Ha & Hs1). rewrite Hp in Hp1. apply ok_inj in Hp1. subst c1. rewrite Hs in Hs1. injection Hs1 as <-.
  destruct HS' as (c1 & w1' & Hp1 & H1' & Ha' & Hs1). rewrite Hp in Hp1. apply ok_inj in Hp1. subst c1. rewrite Hs in Hs1. injection Hs1 as <-.
  change (setup_dynamics e' c) with (setup_dynamics e c) in H1'. rewrite H1 in H1'. apply ok_inj in H1'. subst w1'.
  pose proof (accepted_usable _ _ _ Hp) as U.
  destruct (set_up_built _ _ _ _ _ H1 Ha) as (B & L & P & G).
  destruct (set_up_built e' _ _ _ _ H1 Ha') as (B' & L' & P' & G').
  destruct (set_up_dynamics _ _ _ H1) as (F & S0). rewrite <- L in F, S0. rewrite <- P in S0.
  change (e_rng e') with (e_rng e) in w0', L', P', G'.
  rewrite <- L in L'. rewrite <- P in P'. rewrite <- G in G'. clear L P G.
  pose proof (present_same w0' w0 Ep) as Set_.
  assert (Ebd : w_bd w0 = w_bd w0').
  { pose proof (bu_bd _ _ _ B') as Bb. fixrng. destruct (bu_bd _ _ _ B) as [N|(o & par & g & Ho & E & Y)], Bb as [N'|(o' & par' & g' & Ho' & E' & Y')].
    - congruence.
    - specialize (Set_ ABirthDeath). cbn in Set_. rewrite N, Y' in Set_. discriminate.
    - specialize (Set_ ABirthDeath). cbn in Set_. rewrite N', Y in Set_. discriminate.
    - rewrite Ho in Ho'. injection Ho' as <-. change (setup_birth_death e' o (w_ld w0')) with (setup_birth_death e o (w_ld w0')) in E'.
      rewrite L', E in E'. apply ok_inj in E'. injection E' as <- <-. congruence. }
  destruct HF as (D & hs & fs & Hh & Cl & Cp & Cg & Cb & Ct & Ch & Cf & Cd & Cq).
  destruct HF' as (D' & hs' & fs' & Hh' & Cl' & Cp' & Cg' & Cb' & Ct' & Ch' & Cf' & Cd' & Cq'). fixrng.
  assert (Hd : forall k, 0 <= k -> k <= n -> D k = D' k).
  { apply (history_det e w0); [exact Hh|]. destruct Hh' as [X Y]. split.
    - rewrite X. unfold dyn_of. fixrng. rewrite P', G', Ebd. reflexivity.
    - intros k Hk. specialize (Y k Hk). fixrng. rewrite L' in Y. apply stepf_rel in Y. apply stepf_rel. exact Y. }
  rewrite Cl in Hbc.
  set (h := walkers (clamped n D)).
  assert (HhD : forall k, 1 <= k <= n -> h k = walkers D k) by (intros k Hk; unfold h, walkers; rewrite clamped_in by lia; reflexivity).
  assert (HhD' : forall k, 1 <= k <= n -> h k = walkers D' k) by (intros k Hk; unfold h, walkers; rewrite clamped_in, Hd by lia; reflexivity).
  assert (Len : forall k, length (h k) = length (w_ps w0) /\ Forall (right_size (pot_ndim (ld_pot (w_ld w0)))) (h k)).
  { intro k. unfold h, walkers.
    apply (clamped_ind (fun d => length (fst (fst d)) = length (w_ps w0) /\ Forall (right_size (pot_ndim (ld_pot (w_ld w0)))) (fst (fst d))));
      [lia|destruct Hh as [-> _]; split; [reflexivity|exact S0]|].
    intros j Hj [IH1 IH2]. destruct Hh as [_ Hh]. split; [rewrite (step_keeps _ _ _ _ _ R (Hh j Hj)); exact IH1|].
    eapply step_keeps_size; [exact R|exact F|exact Hbc|exact (Hh j Hj)|exact IH2]. }
  assert (Np : (0 < length (w_ps w0))%nat).
  { rewrite Cp in Hw. assert (length (walkers D n) = length (w_ps w0)) by (rewrite <- HhD by lia; apply Len).
    destruct (walkers D n); [congruence|cbn in *; lia]. }
  (* trajectories *)
  assert (T : (w_traj w0 = None /\ w_traj w0' = None) \/
     exists o t0 t0' s ws t1 p1 m1 t1' p1' m1', c_trajectories c = Some o /\ w_traj w0 = Some t0 /\ w_traj w0' = Some t0' /\
       traj_made t0 (length (w_ps w0)) s ws (v_true (get_dict o "filename")) (v_true (get_dict o "momentum")) t1 p1 m1 /\
       traj_made t0' (length (w_ps w0)) s ws (v_true (get_dict o "filename")) (v_true (get_dict o "momentum")) t1' p1' m1').
  { pose proof (bu_traj _ _ _ B') as Bb. fixrng. destruct (bu_traj _ _ _ B) as [N|(o & t0 & Ho & E & Y)], Bb as [N'|(o' & t0' & Ho' & E' & Y')].
    - left. auto.
    - specialize (Set_ ATrajectories). cbn in Set_. rewrite N, Y' in Set_. discriminate.
    - specialize (Set_ ATrajectories). cbn in Set_. rewrite N', Y in Set_. discriminate.
    - right. rewrite Ho in Ho'. injection Ho' as <-.
      destruct (setup_traj_made _ _ _ _ _ U Ho E) as (s & ws & t1 & p1 & m1 & Os & Ow & M).
      destruct (setup_traj_made _ _ _ _ _ U Ho E') as (s' & ws' & t1' & p1' & m1' & Os' & Ow' & M').
      rewrite Os in Os'. apply ok_inj in Os'. subst s'. rewrite Ow in Ow'. apply ok_inj in Ow'. subst ws'. rewrite P' in M'.
      exists o, t0, t0', s, ws, t1, p1, m1, t1', p1', m1'. auto 10. }
  assert (Et : option_map tr_files (w_traj w) = option_map tr_files (w_traj w')).
  { destruct T as [[N N']|(o & t0 & t0' & s & ws & t1 & p1 & m1 & t1' & p1' & m1' & Ho & Y & Y' & M & M')].
    - rewrite N in Ct. rewrite N' in Ct'. rewrite Ct, Ct'. reflexivity.
    - rewrite Y in Ct. rewrite Y' in Ct'. destruct Ct as (t & Wt & St). destruct Ct' as (t' & Wt' & St'). rewrite Wt, Wt'. cbn [option_map]. f_equal.
      destruct (traj_total _ _ _ _ _ _ _ _ _ (ld_dt (w_ld w0)) h (fun _ => 0%nat) n M Np ltac:(lia) ltac:(apply Len)) as (x & Ex & Fx).
      destruct (traj_total _ _ _ _ _ _ _ _ _ (ld_dt (w_ld w0)) h (fun _ => 0%nat) n M' Np ltac:(lia) ltac:(apply Len)) as (x' & Ex' & Fx').
      rewrite <- (traj_sim_ext _ h _ _ _ _ HhD) in St. rewrite <- (traj_sim_ext _ h _ _ _ _ HhD') in St'. rewrite L' in St'.
      rewrite Ex in St. rewrite Ex' in St'. apply ok_inj in St, St'. subst. congruence. }
  (* histogram *)
  assert (Hi : (w_hist w0 = None /\ w_hist w0' = None) \/
    exists h0, w_hist w0 = Some h0 /\ w_hist w0' = Some h0 /\ forall k, 0 <= k <= n + 1 -> hs k = hs' k).
  { pose proof (bu_hist _ _ _ B') as Bb. fixrng. destruct (bu_hist _ _ _ B) as [N|(o & t0 & h0 & Ho & Yt & E & Y)], Bb as [N'|(o' & t0' & h0' & Ho' & Yt' & E' & Y')].
    - left. auto.
    - specialize (Set_ AHistogram). cbn in Set_. rewrite N, Y' in Set_. discriminate.
    - specialize (Set_ AHistogram). cbn in Set_. rewrite N', Y in Set_. discriminate.
    - right. rewrite Ho in Ho'. injection Ho' as <-.
      destruct T as [[N N']|(ot & x & x' & s & ws & t1 & p1 & m1 & t1' & p1' & m1' & Hot & Z & Z' & M & M')]; [congruence|].
      rewrite Yt in Z. injection Z as <-. rewrite Yt' in Z'. injection Z' as <-.
      assert (Tw : tr_wstride t0' = tr_wstride t0) by (rewrite (tm_eq _ _ _ _ _ _ _ _ _ M), (tm_eq _ _ _ _ _ _ _ _ _ M'); reflexivity).
      rewrite L', (setup_hist_traj _ _ _ _ Tw), E in E'. apply ok_inj in E'. subst h0'.
      exists h0. split; [exact Y|]. split; [exact Y'|].
      destruct (setup_hist_made _ _ _ _ _ U Ho E) as (nb & rs & hst & rst & hws & _ & _ & _ & HM).
      rewrite Y in Ch. rewrite Y' in Ch'. destruct Ch as (a & b & Ya & _ & _ & HL & HFi). destruct Ch' as (a' & b' & Ya' & _ & _ & HL' & HFi'). fixrng.
      rewrite Yt in Ya. injection Ya as <-. rewrite Yt' in Ya'. injection Ya' as <-. rewrite L' in HL', HFi'.
      assert (Acc : forall ta pa ma, (exists tt, traj_made tt (length (w_ps w0)) s ws (v_true (get_dict ot "filename")) (v_true (get_dict ot "momentum")) ta pa ma) ->
         hist_accepted h (length (w_ps w0)) s ws ta pa ma nb rs hst (v_true (get_dict o "filename")) hws).
      { intros ta pa ma [tt []]. destruct HM. constructor; try assumption. intro k. destruct (Len k) as [L1 L2]. split; [exact L1|].
        rewrite hm_dim. eapply Forall_impl; [|exact L2]. intros p [Hp0 _]. exact Hp0. }
      pose proof (Acc _ _ _ (ex_intro _ _ M)) as A. pose proof (Acc _ _ _ (ex_intro _ _ M')) as A'.
      pose proof (tm_eq _ _ _ _ _ _ _ _ _ M) as Mt. pose proof (tm_eq _ _ _ _ _ _ _ _ _ M') as Mt'.
      pose proof (hm_eq _ _ _ _ _ _ _ _ _ HM) as I0. pose proof I0 as I0'. rewrite <- (ha_init_traj _ _ _ _ _ _ _ _ _ Tw) in I0'.
      rewrite Mt in I0, HL, HFi. rewrite Mt' in I0', HL', HFi'.
      rewrite <- (hist_sim_ext _ h _ _ _ HhD) in HFi. rewrite <- (hist_sim_ext _ h _ _ _ HhD') in HFi'.
      intros k Hk. destruct (Z.eq_dec k (n + 1)) as [->|Nk].
      + eapply hist_sim_same; [|exact A|exact A'|exact I0|exact I0'|exact HFi|exact HFi']. lia.
      + destruct (HL k ltac:(lia)) as (tk & El). destruct (HL' k ltac:(lia)) as (tk' & El').
        rewrite <- (hist_loop_ext _ h _ n _ _ HhD) in El by lia. rewrite <- (hist_loop_ext _ h _ n _ _ HhD') in El' by lia.
        eapply hist_loop_same; [|exact A|exact A'|exact I0|exact I0'|exact El|exact El']. lia. }
  assert (Eh : w_hist w = w_hist w').
  { destruct Hi as [[N N']|(h0 & Y & Y' & X)].
    - rewrite N in Ch. rewrite N' in Ch'. congruence.
    - rewrite Y in Ch. rewrite Y' in Ch'. destruct Ch as (_ & _ & _ & _ & -> & _). destruct Ch' as (_ & _ & _ & _ & E & _). fixrng. rewrite E, X by lia. reflexivity. }
  (* free energy *)
  assert (Kt : (0 < ld_kt (w_ld w0))%R).
  { unfold setup_dynamics in H1. clear - H1 U Ha. pose proof H1 as H2. binds H1. apply ok_inj in H1.
    destruct (set_up_built e c w1 acts w0) as (_ & -> & _); [exact H2|exact Ha|]. rewrite <- H1. cbn. eapply setup_ld_kt_pos; eassumption. }
  assert (Fe : (w_fes w0 = None /\ w_fes w0' = None) \/
    (w_fes w0 <> None /\ w_fes w0' <> None /\ w_fes w = Some (fs (n + 1)) /\ w_fes w' = Some (fs' (n + 1)) /\ forall k, 0 <= k <= n + 1 -> fs k = fs' k)).
  { pose proof (bu_fes _ _ _ B') as Bb. fixrng. destruct (bu_fes _ _ _ B) as [N|(o & h0 & f0 & Ho & Yh & E & Y)], Bb as [N'|(o' & h0' & f0' & Ho' & Yh' & E' & Y')].
    - left. auto.
    - specialize (Set_ AFes). cbn in Set_. rewrite N, Y' in Set_. discriminate.
    - specialize (Set_ AFes). cbn in Set_. rewrite N', Y in Set_. discriminate.
    - right. rewrite Ho in Ho'. injection Ho' as <-.
      destruct Hi as [[N N']|(x & Z & Z' & X)]; [congruence|]. rewrite Yh in Z. injection Z as <-. rewrite Yh' in Z'. injection Z' as ->.
      assert (Ef : f0 = f0').
      { assert (Q : setup_fes e' o (w_ld w0) h0 = setup_fes e o (w_ld w0) h0).
        { unfold setup_fes, fes_init. rewrite (fes_any_junk _ _ (e_junk_fes e' 0) (e_junk_fes e 0) Kt). reflexivity. }
        rewrite L', Q, E in E'. now apply ok_inj in E'. }
      subst f0'. destruct (setup_fes_kt _ _ _ _ _ E) as [K0 _]. assert (K1 : (0 < fa_kt f0)%R) by now rewrite K0.
      rewrite Y in Cf. rewrite Y' in Cf'. destruct Cf as (_ & W1 & HL & HFi). destruct Cf' as (_ & W2 & HL' & HFi'). fixrng.
      split; [congruence|]. split; [congruence|]. split; [exact W1|]. split; [exact W2|].
      intros k Hk. destruct (Z.eq_dec k (n + 1)) as [->|Nk].
      + rewrite (fes_sim_any _ _ (e_junk_fes e) _ _ K1) in HFi'. unfold fes_simulation in HFi, HFi'.
        rewrite (foldM_clamped _ (fun fa k => fes_run (hs k) (e_junk_fes e k) fa k) n n) in HFi'; [|intros j f Hj; rewrite X by lia; reflexivity|lia].
        rewrite <- X in HFi' by lia. rewrite HFi in HFi'. now apply ok_inj in HFi'.
      + specialize (HL k ltac:(lia)). specialize (HL' k ltac:(lia)). rewrite (fes_loop_any _ _ (e_junk_fes e) _ _ K1) in HL'.
        rewrite (foldM_clamped _ (fun fa k => fes_run (hs k) (e_junk_fes e k) fa k) n k) in HL'; [|intros j f Hj; rewrite X by lia; reflexivity|lia].
        rewrite HL in HL'. now apply ok_inj in HL'. }
  assert (Ef : w_fes w = w_fes w').
  { destruct Fe as [[N N']|(_ & _ & -> & -> & X)]; [rewrite N in Cf; rewrite N' in Cf'; fixrng; congruence|]. rewrite X by lia. reflexivity. }
  split.
  { unfold same_results. split; [congruence|].
    split; [rewrite Cp, Cp'; unfold walkers; fixrng; rewrite Hd by lia; reflexivity|].
    split; [rewrite Cg, Cg', Hd by lia; reflexivity|]. split; [rewrite Cb, Cb', Hd by lia; reflexivity|]. auto. }
  split; intro Hshort.
  - pose proof (bu_df _ _ _ B') as Bb. fixrng. destruct (bu_df _ _ _ B) as [N|(o & h0 & [ms r0] & Ho & Yh & Yf & E & Y)], Bb as [N'|(o' & h0' & [ms' r0'] & Ho' & Yh' & Yf' & E' & Y')].
    + rewrite N in Cd. rewrite N' in Cd'. fixrng. rewrite Cd, Cd'. reflexivity.
    + specialize (Set_ ADeltaF). cbn in Set_. rewrite N, Y' in Set_. discriminate.
    + specialize (Set_ ADeltaF). cbn in Set_. rewrite N', Y in Set_. discriminate.
    + rewrite Ho in Ho'. injection Ho' as <-. destruct Hi as [[N N']|(x & Z & Z' & X)]; [congruence|]. rewrite Yh in Z. injection Z as <-. rewrite Yh' in Z'. injection Z' as ->.
      rewrite Y in Cd. rewrite Y' in Cd'. destruct Cd as (r & _ & W1 & Sr). destruct Cd' as (r' & _ & W2 & Sr'). fixrng. rewrite W1, W2. unfold recorded. cbn [option_map snd]. f_equal.
      destruct Fe as [[N N']|(_ & _ & _ & _ & Xf)]; [congruence|].
      destruct U as (_ & _ & _ & _ & _ & _ & _ & _ & _ & U & _). rewrite Ho in U. destruct U as [U1 U2].
      destruct (setup_df_rec _ _ _ _ _ E) as (st & ws & Os & Ow & I). destruct (setup_df_rec _ _ _ _ _ E') as (st' & ws' & Os' & Ow' & I').
      rewrite Os in Os'. apply ok_inj in Os'. subst st'. rewrite Ow in Ow'. apply ok_inj in Ow'. subst ws'.
      assert (Em : ms = ms') by exact (setup_df_masks e e' _ _ _ _ _ _ E E'). subst ms'. rewrite L' in Sr'.
      unfold delta_f_simulation in Sr, Sr'.
      rewrite (foldM_clamped _ (fun r k => delta_f_run (fa_fes (fs k)) (ld_kt (w_ld w0)) (ld_dt (w_ld w0)) ms r k) n n) in Sr'; [|intros j f Hj; rewrite Xf by lia; reflexivity|lia].
      rewrite <- Xf in Sr' by lia.
      eapply (rec_same st ws _ _ _ _ _ (fun k => delta_f_row (fa_fes (fs k)) (ld_kt (w_ld w0)) (ld_dt (w_ld w0)) ms k) _ n);
        [exact (opt_positive _ _ _ U1 Os)|exact (opt_positive _ _ _ U2 Ow)|apply np_empty_length|apply np_empty_length|exact I|exact I'|lia|exact Sr|exact Sr'|].
      intros s0 ->. destruct (Z.le_gt_cases s0 n) as [|Gt]; [assumption|exfalso]. apply Hshort. exists o, s0. split; [exact Ho|]. split; [|exact Gt].
      unfold get_dict in Os. destruct (assoc "stride" o) as [[]|]; try discriminate. apply ok_inj in Os. now injection Os as ->.
  - pose proof (bu_pd _ _ _ B') as Bb. fixrng. destruct (bu_pd _ _ _ B) as [N|(o & [ms r0] & Ho & E & Y)], Bb as [N'|(o' & [ms' r0'] & Ho' & E' & Y')].
    + rewrite N in Cq. rewrite N' in Cq'. fixrng. rewrite Cq, Cq'. reflexivity.
    + specialize (Set_ AParticleDistribution). cbn in Set_. rewrite N, Y' in Set_. discriminate.
    + specialize (Set_ AParticleDistribution). cbn in Set_. rewrite N', Y in Set_. discriminate.
    + rewrite Ho in Ho'. injection Ho' as <-.
      rewrite Y in Cq. rewrite Y' in Cq'. destruct Cq as (r & W1 & Sr). destruct Cq' as (r' & W2 & Sr'). fixrng. rewrite W1, W2. unfold recorded. cbn [option_map snd]. f_equal.
      destruct U as (_ & _ & _ & _ & _ & _ & _ & _ & _ & _ & U). rewrite Ho in U. destruct U as [U1 U2].
      unfold setup_particle_distribution in E, E'. destruct (state_ranges o) as [sts|]; cbn [bind] in E, E'; [|discriminate].
      destruct (v_opt_int (get_dict o "stride")) as [st|] eqn:Os; cbn [bind] in E, E'; [|discriminate].
      destruct (v_opt_int (get_dict o "write-stride")) as [ws|] eqn:Ow; cbn [bind] in E, E'; [|discriminate].
      apply bind_ok in E. destruct E as (x & I & E). apply ok_inj in E. injection E as -> ->.
      apply bind_ok in E'. destruct E' as (x' & I' & E'). apply ok_inj in E'. injection E' as <- ->.
      unfold pdist_init in I, I'. rewrite L' in Sr'. unfold pdist_simulation in Sr, Sr'.
      rewrite (foldM_clamped _ (fun r k => pdist_run (pot_ndim (ld_pot (w_ld w0))) (walkers D k) ms r k) n n) in Sr';
        [|intros j f Hj; rewrite <- HhD, HhD' by lia; reflexivity|lia].
      rewrite <- HhD', HhD in Sr' by lia.
      eapply (rec_same st ws _ _ _ _ _ (fun k => pdist_row (pot_ndim (ld_pot (w_ld w0))) (walkers D k) ms k) _ n);
        [exact (opt_positive _ _ _ U1 Os)|exact (opt_positive _ _ _ U2 Ow)|apply np_empty_length|apply np_empty_length|exact I|exact I'|lia|exact Sr|exact Sr'|].
      intros s0 ->. destruct (Z.le_gt_cases s0 n) as [|Gt]; [assumption|exfalso]. apply Hshort. exists o, s0. split; [exact Ho|]. split; [|exact Gt].
      unfold get_dict in Os. destruct (assoc "stride" o) as [[]|]; try discriminate. apply ok_inj in Os. now injection Os as ->.
Qed.
End Memory.

(** * A run that is shorter than the stride *)
Lemma short_loop {A} (rows : Z -> res A) (r : recorder A) s n : rc_stride r = s -> rc_wstride r = s -> 0 <= n < s ->
  foldM (fun r k => rec_run (rows k) r k) (zrange 1 (n + 1)) r = Ok r.
Proof.
  intros H1 H2 [Hn Hs]. revert Hs. pattern n. apply natlike_ind; [| |exact Hn].
  - intro. rewrite zrange_nil by lia. reflexivity.
  - intros k Hk IH Hs. unfold Z.succ in *. rewrite zrange_snoc, foldM_app by lia. rewrite IH by lia. cbn [bind foldM].
    unfold rec_run. rewrite H1. rewrite (Z.mod_small (k + 1) s) by lia. rewrite (proj2 (Z.eqb_neq (k + 1) 0) ltac:(lia)), Bool.andb_false_r. cbn [bind].
    rewrite H2, (Z.mod_small (k + 1) s) by lia. rewrite (proj2 (Z.eqb_neq (k + 1) 0) ltac:(lia)), Bool.andb_false_r. reflexivity.
Qed.

Lemma short_run e w0 states x y :
  set_up e demo_conv short_input [ALd; AParticleDistribution] 4 w0 -> runnable e w0 -> w_pd w0 = Some (states, mkRec 100 100 [x] y 0 (Some [])) ->
  exists w, main e demo_conv (Some (Ok short_input)) = Finished w /\ recorded (w_pd w) = Some (Some [x]).
Proof.
  intros HS Ru Y. destruct (main_total _ _ _ _ _ _ HS Ru) as (w & _ & HF & _). exists w. split; [exact HF|].
  apply (main_composed _ _ _ _ _ _ HS) in HF. destruct HF as (D & _ & _ & _ & _ & _ & _ & _ & _ & _ & _ & _ & C). rewrite Y in C.
  destruct C as (r & W & S). rewrite W. unfold recorded. cbn [option_map snd]. f_equal.
  unfold pdist_simulation, pdist_run in S. rewrite (short_loop (fun k => pdist_row (pot_ndim (ld_pot (w_ld w0))) (walkers D k) states k) _ 100 4) in S; [|reflexivity|reflexivity|lia].
  cbn in S. apply ok_inj in S. rewrite <- S. reflexivity.
Qed.

Lemma short_set_up e : e = demo_env 1 2 3 \/ e = other_memory (demo_env 1 2 3) ->
  exists w0 states, set_up e demo_conv short_input [ALd; AParticleDistribution] 4 w0 /\ runnable e w0 /\
    w_pd w0 = Some (states, mkRec 100 100 [e_junk_pd e 0%nat] (e_junk_pd1 e) 0 (Some [])).
Proof.
  intros [-> | ->].
  - unfold set_up. do 2 eexists. split; [do 2 eexists; split; [parse_demo|split; [|split; [|reflexivity]]]|].
    + unfold setup_dynamics. cbn [c_potential c_ld c_particles]. cbn. change (Pos.to_nat 4) with 4%nat. change (Pos.to_nat 1) with 1%nat. cbn. reflexivity.
    + cbn. reflexivity.
    + split; [|reflexivity]. constructor; [exact demo_rng_ok|discriminate|left; reflexivity|exact I|repeat constructor].
  - unfold set_up. do 2 eexists. split; [do 2 eexists; split; [parse_demo|split; [|split; [|reflexivity]]]|].
    + unfold setup_dynamics. cbn [c_potential c_ld c_particles]. cbn. change (Pos.to_nat 4) with 4%nat. change (Pos.to_nat 1) with 1%nat. cbn. reflexivity.
    + cbn. reflexivity.
    + split; [|reflexivity]. constructor; [exact demo_rng_ok|discriminate|left; reflexivity|exact I|repeat constructor].
Qed.

Lemma memory_differs : exists e times0 pos0 mom0 fes0 df0 df1 pd0 pd1 cv secs c w w',
  rng_ok (e_rng e) /\ parse_all cv secs = Ok c /\ seeded c /\
  main e cv (Some (Ok secs)) = Finished w /\ main (with_memory e times0 pos0 mom0 fes0 df0 df1 pd0 pd1) cv (Some (Ok secs)) = Finished w' /\
  recorded (w_pd w) <> recorded (w_pd w').
Proof.
  destruct (short_set_up (demo_env 1 2 3) (or_introl eq_refl)) as (w0 & st & HS & Ru & Y).
  destruct (short_set_up (other_memory (demo_env 1 2 3)) (or_intror eq_refl)) as (w0' & st' & HS' & Ru' & Y').
  destruct (short_run _ _ _ _ _ HS Ru Y) as (w & HF & E). destruct (short_run _ _ _ _ _ HS' Ru' Y') as (w' & HF' & E').
  destruct HS as (c & _ & Hp & _).
  exists (demo_env 1 2 3), (fun _ => 1%R), (fun _ => []), (fun _ => []), (fun _ _ => PInf), (fun _ => []), [], (fun _ => [7]), [], demo_conv, short_input, c, w, w'.
  split; [exact demo_rng_ok|]. split; [exact Hp|].
  split.
  { assert (Q : exists c, parse_all demo_conv short_input = Ok c /\ seeded c).
    { eexists. split; [parse_demo|]. split; [exists 1; reflexivity|]. split; [left; exists 1; reflexivity|]. intros o Ho. discriminate. }
    destruct Q as (c' & Hp' & Q). rewrite Hp in Hp'. apply ok_inj in Hp'. now subst c'. }
  split; [exact HF|]. split; [exact HF'|]. rewrite E. intro X. apply (eq_trans X) in E'. discriminate.
Qed.

(** * Examples *)
Lemma memory_case : exists c w w', parse_all demo_conv running = Ok c /\ assoc "n_steps" (c_ld c) = Some (VInt 4) /\
  main (demo_env 1 2 3) demo_conv (Some (Ok running)) = Finished w /\
  main (other_memory (demo_env 1 2 3)) demo_conv (Some (Ok running)) = Finished w' /\
  w_ps w <> [] /\ pot_bc (ld_pot (w_ld w)) = None /\ w_traj w <> None /\ w_bd w <> None.
Proof.
  destruct running_case as (w0 & HS & Ru & Ln & Bd & Tr).
  assert (O : exists w0', set_up (other_memory (demo_env 1 2 3)) demo_conv running [ALd; ABirthDeath; ATrajectories] 4 w0' /\ runnable (other_memory (demo_env 1 2 3)) w0').
  { unfold set_up. eexists. split; [do 2 eexists; split; [parse_demo|split; [|split; [|reflexivity]]]|].
    - unfold setup_dynamics. cbn [c_potential c_ld c_particles]. cbn. change (Pos.to_nat 4) with 4%nat. change (Pos.to_nat 1) with 1%nat. cbn. reflexivity.
    - unfold setup_actions, when, setup_birth_death, bd_init. cbn. destruct (Req_EM_T 1 0) as [H|_]; [exfalso; lra|]. cbn. reflexivity.
    - constructor; [exact demo_rng_ok|discriminate|left; reflexivity| |exact I]. cbn. split; [lia|]. split; [left; reflexivity|left; reflexivity]. }
  destruct O as (w0' & HS' & Ru').
  destruct (main_total _ _ _ _ _ _ HS Ru) as (w & D & HF & Hh & Ep & Lk). destruct (main_total _ _ _ _ _ _ HS' Ru') as (w' & _ & HF' & _).
  pose proof HF as HC. apply (main_composed _ _ _ _ _ _ HS) in HC. destruct HC as (D2 & _ & _ & Hh2 & El & _ & _ & Eb & Et & _).
  pose proof HS as (c & w1 & Hp & H1 & _ & Hn). exists c, w, w'. split; [exact Hp|]. split; [exact Hn|]. split; [exact HF|]. split; [exact HF'|].
  split; [rewrite Ep; intro X; specialize (Lk 4); rewrite X, Ln in Lk; destruct Lk; discriminate|].
  split. { rewrite El. assert (Q : exists w2, set_up (demo_env 1 2 3) demo_conv running [ALd; ABirthDeath; ATrajectories] 4 w2 /\ pot_bc (ld_pot (w_ld w2)) = None).
    { unfold set_up. eexists. split; [do 2 eexists; split; [parse_demo|split; [|split; [|reflexivity]]]|].
      - unfold setup_dynamics. cbn [c_potential c_ld c_particles]. cbn. change (Pos.to_nat 4) with 4%nat. change (Pos.to_nat 1) with 1%nat. cbn. reflexivity.
      - unfold setup_actions, when, setup_birth_death, bd_init. cbn. destruct (Req_EM_T 1 0) as [H|_]; [exfalso; lra|]. cbn. reflexivity.
      - reflexivity. }
    destruct Q as (w2 & (c2 & w12 & Hp2 & H12 & Ha2 & _) & Q). destruct HS as (c3 & w13 & Hp3 & H13 & Ha3 & _).
    rewrite Hp2 in Hp3. apply ok_inj in Hp3. subst c3. rewrite H12 in H13. apply ok_inj in H13. subst w13. rewrite Ha2 in Ha3. apply ok_inj in Ha3. injection Ha3 as <-. exact Q. }
  split.
  - destruct (w_traj w0); [|congruence]. destruct Et as (t' & -> & _). discriminate.
  - assert (B4 : forall k, 0 <= k -> k <= 4 -> snd (D2 k) <> None).
    { intros k Hk. pattern k. apply natlike_ind; [intros _; destruct Hh2 as [-> _]; exact Bd| |exact Hk]. intros j Hj IH Hl. unfold Z.succ in *.
      destruct Hh2 as [_ Hs2]. specialize (Hs2 (j + 1) ltac:(lia)). replace (j + 1 - 1) with j in Hs2 by lia. specialize (IH ltac:(lia)). inversion Hs2; subst.
      - exfalso. apply IH. match goal with H : _ = D2 j |- _ => rewrite <- H end. reflexivity.
      - discriminate. }
    specialize (B4 4 ltac:(lia) ltac:(lia)). rewrite Eb. unfold bd_end. destruct (D2 4) as [[ps g] [[[[par bg] st] out]|]]; [|cbn in B4; congruence].
    destruct (bd_final_run _ _ _ _) as [b out']. discriminate.
Qed.

Lemma entropy_case : exists c, parse_all demo_conv (demo1 [("birth-death", demo1_bd [("seed", "4")])]) = Ok c /\ seeded c /\ bd_seed_not_zero c /\ c_birth_death c <> None.
Proof.
  eexists. split; [parse_demo|]. split; [|split; [|discriminate]].
  - split; [exists 1; reflexivity|]. split; [left; exists 1; reflexivity|]. intros o Ho. injection Ho as <-. exists 4. reflexivity.
  - intros o Ho X. injection Ho as <-. discriminate.
Qed.
