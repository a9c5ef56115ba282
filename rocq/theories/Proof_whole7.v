(** The files of the recording actions at the end of a run *)
From Coq Require Import Lia Lra.
From Verif Require Import PyBase Model_xr Model_input Model_dyn Model_bd Model_traj Model_hist Model_histaction Model_fes Model_rec Model_deltaf Model_pdist
  Model_setup Model_main Spec_input Spec_rng Spec_ld Spec_times Spec_traj Spec_trajrun Spec_hist Spec_histact Spec_setup Spec_fes Spec_rec Spec_pdist Spec_main Spec_whole
  Proof_base Proof_ld Proof_trajrun Proof_hist Proof_histact Proof_histprops Proof_rec Proof_fes Proof_pdist Proof_input Proof_setup2 Proof_main Proof_main2 Proof_whole Proof_whole2 Proof_whole3 Proof_whole4 Proof_whole5.
Open Scope string_scope.
Open Scope Z_scope.
Open Scope list_scope.
Ltac Zify.zify_post_hook ::= idtac.

Lemma rec_recorded {A} (rows : Z -> A) (last : A) stride wstride fn (junk : nat -> A) single0 r0 r n :
  positive_option stride -> positive_option wstride -> 0 <= n -> rec_init stride wstride fn (np_empty junk) single0 = Ok r0 ->
  (do r1 <- foldM (fun r k => rec_run (Ok (rows k)) r k) (zrange 1 (n + 1)) r0; rec_final_run (Ok last) r1 n) = Ok r ->
  rc_file r = if fn then Some (recorded_file rows last junk stride wstride n) else None.
Proof.
  intros Ps Pw Hn Hi H. destruct fn.
  - destruct stride as [s|].
    + assert (Hs : 0 < s) by (apply Ps; reflexivity). set (W := option_or wstride (100 * s)).
      assert (HW : W mod s = 0).
      { unfold rec_init in Hi. cbn [orZ] in Hi. assert (E0 : (s =? 0) = false) by (apply Z.eqb_neq; lia). rewrite !E0 in Hi. cbn [negb] in Hi.
        rewrite (Z.mul_comm s 100), (option_or_orZ wstride (100 * s) Pw) in Hi. fold W in Hi. rewrite andb_false_r in Hi.
        destruct (Z.eqb_spec (W mod s) 0); [assumption|discriminate]. }
      destruct (rec_simulation_file rows (Some s) wstride (np_empty junk) single0 s W n eq_refl Hs Pw eq_refl HW (fun m => np_empty_length junk m) Hn) as (r0' & r' & E0 & E1 & Hf).
      rewrite Hi in E0. apply ok_inj in E0. subst r0'.
      assert (E : rec_simulation rows n r0 = Ok r).
      { unfold rec_simulation. destruct (foldM _ _ r0) as [r1|] eqn:E2; cbn [bind] in *; [|discriminate].
        assert (S : rc_stride r1 = s).
        { apply (rec_steps_stride (fun k => Ok (rows k))) in E2. rewrite E2. unfold rec_init in Hi. cbn [orZ] in Hi. assert (Q : (s =? 0) = false) by (apply Z.eqb_neq; lia). rewrite !Q in Hi. cbn [negb] in Hi.
          destruct (_ && _); [discriminate|]. destruct (negb _); [discriminate|]. apply ok_inj in Hi. now subst r0. }
        unfold rec_final_run in *. rewrite S in *. destruct (Z.eqb_spec s 0); [lia|]. exact H. }
      rewrite E in E1. apply ok_inj in E1. subst r'. rewrite Hf. unfold recorded_file. cbv zeta. fold W. unfold rec_expected, np_empty. reflexivity.
    + unfold rec_init in Hi. cbn [orZ Z.eqb negb] in Hi. apply ok_inj in Hi. subst r0.
      assert (E2 : forall l, foldM (fun r k => rec_run (Ok (rows k)) r k) l (mkRec 0 0 [] single0 0 (Some [])) = Ok (mkRec 0 0 [] single0 0 (Some []))) by (induction l as [|k l IH]; [reflexivity|cbn; exact IH]).
      rewrite E2 in H. cbn in H. apply ok_inj in H. subst r. reflexivity.
  - assert (F : forall r0 r1 l, rc_file r0 = None -> foldM (fun r k => rec_run (Ok (rows k)) r k) l r0 = Ok r1 -> rc_file r1 = None).
    { intros a b l. revert a. induction l as [|k l IH]; intros a Ha E; cbn [foldM] in E; [apply ok_inj in E; now subst|].
      apply bind_ok in E. destruct E as (a' & E1 & E). apply (IH a'); [|exact E]. unfold rec_run in E1. apply bind_ok in E1. destruct E1 as (a2 & E2 & E1).
      assert (rc_file a2 = None). { destruct (_ && _) in E2; [|apply ok_inj in E2; now subst]. cbn [bind] in E2. apply bind_ok in E2. destruct E2 as (b2 & _ & E2). apply ok_inj in E2. now subst a2. }
      destruct (_ && _) in E1; [|apply ok_inj in E1; now subst]. unfold rec_write in E1. rewrite H0 in E1. apply ok_inj in E1. now subst. }
    assert (F0 : rc_file r0 = None).
    { unfold rec_init in Hi. cbv zeta in Hi. repeat match type of Hi with (if ?b then _ else _) = _ => destruct b end; try discriminate; apply ok_inj in Hi; now subst r0. }
    apply bind_ok in H. destruct H as (r1 & E1 & H). specialize (F _ _ _ F0 E1). unfold rec_final_run in H. apply bind_ok in H. destruct H as (r2 & E2 & H).
    assert (F2 : rc_file r2 = None). { destruct (_ =? 0) in E2; cbn [bind] in E2; apply ok_inj in E2; subst r2; exact F. }
    unfold rec_write in H. rewrite F2 in H. apply ok_inj in H. now subst.
Qed.

Section Finished.
Variables (e : env) (cv : conv) (secs : list (string * section)) (acts : list action) (n : Z) (w0 w : world (e_rng e)).
Hypothesis HS : set_up e cv secs acts n w0.
Hypothesis HF : main e cv (Some (Ok secs)) = Finished w.
Hypothesis R : rng_ok (e_rng e).
Hypothesis Hw : w_ps w0 <> [].
Hypothesis Hbc : pot_bc (ld_pot (w_ld w0)) = None \/ length (pot_ranges (ld_pot (w_ld w0))) = pot_ndim (ld_pot (w_ld w0)).

Lemma finished_distribution c o states r0 : parse_all cv secs = Ok c -> c_particle_distribution c = Some o -> w_pd w0 = Some (states, r0) ->
  Forall (fun st => length st = pot_ndim (ld_pot (w_ld w0))) states ->
  exists D r rows, history e w0 n D /\ w_ps w = walkers D n /\ w_pd w = Some (states, r) /\
    (forall k, pdist_row_spec states (walkers D k) k (rows k)) /\
    rc_file r = if opt_set o "filename"
                then Some (recorded_file rows (rows n) (e_junk_pd e) (opt_int o "stride") (opt_int o "write-stride") n)
                else None.
Proof.
  intros Hp Hc Hpd Hst. pose proof (set_up_steps _ _ _ _ _ _ HS) as (Hn & _).
  apply (main_composed _ _ _ _ _ _ HS) in HF. destruct HF as (D & hs & fs & Hh & _ & Eps & _ & _ & _ & _ & _ & _ & Cp).
  rewrite Hpd in Cp. destruct Cp as (r & Er & Sim).
  pose proof (accepted_usable _ _ _ Hp) as U. destruct U as (_ & _ & _ & _ & _ & _ & _ & _ & _ & _ & U). rewrite Hc in U. destruct U as [U1 U2].
  destruct HS as (c' & w1 & Hp' & H1 & Ha & _). rewrite Hp in Hp'. apply ok_inj in Hp'. subst c'.
  destruct (set_up_built _ _ _ _ _ H1 Ha) as (B & Eld & Ew1 & _). destruct (bu_pd _ _ _ B) as [?|(o' & d & Hc' & Hs & Y)]; [congruence|].
  rewrite Hc in Hc'. injection Hc' as <-. rewrite Hpd in Y. injection Y as <-.
  unfold setup_particle_distribution in Hs. binds Hs. apply ok_inj in Hs. injection Hs as -> ->.
  assert (Len : forall k, (0 < length (walkers (clamped n D) k))%nat /\ Forall (right_size (pot_ndim (ld_pot (w_ld w0)))) (walkers (clamped n D) k)).
  { destruct (set_up_dynamics _ _ _ H1) as (F & S0). rewrite <- Eld in F, S0. rewrite <- Ew1 in S0.
    intro k. unfold walkers.
    apply (clamped_ind (fun d => (0 < length (fst (fst d)))%nat /\ Forall (right_size (pot_ndim (ld_pot (w_ld w0)))) (fst (fst d))));
      [lia|destruct Hh as [-> _]; split; [change (0 < length (w_ps w0))%nat; destruct (w_ps w0); [congruence|cbn; lia]|exact S0]|].
    intros j Hj (I1 & I2). destruct Hh as [_ Hh]. split; [rewrite (step_keeps _ _ _ _ _ R (Hh j Hj)); exact I1|].
    eapply step_keeps_size; [exact R|exact F|exact Hbc|exact (Hh j Hj)|exact I2]. }
  destruct (pdist_rows (pot_ndim (ld_pot (w_ld w0))) states (walkers (clamped n D))) as (rows & Hrows);
    [intro; apply Len|exact Hst|intro k; eapply Forall_impl; [|apply Len]; intros p Hp0; apply Hp0|].
  exists (clamped n D), r, rows. split; [apply clamped_history; [lia|exact Hh]|]. split; [unfold walkers; rewrite clamped_in by lia; exact Eps|].
  split; [exact Er|]. split; [intro k; apply Hrows|].
  assert (Ext : pdist_simulation (pot_ndim (ld_pot (w_ld w0))) states (walkers (clamped n D)) n r0 = Ok r).
  { rewrite <- Sim. unfold pdist_simulation. rewrite (foldM_clamped _ (fun r k => pdist_run (pot_ndim (ld_pot (w_ld w0))) (walkers D k) states r k) n n); [|intros j s Hj; unfold walkers; rewrite clamped_in by lia; reflexivity|lia].
    destruct (foldM _ _ _); cbn [bind]; [|reflexivity]. unfold walkers. rewrite clamped_in by lia. reflexivity. }
  rewrite (pdist_simulation_eq _ states _ rows) in Ext by (intro; apply Hrows). unfold rec_simulation in Ext.
  rewrite <- opt_set_ok. rewrite (opt_int_ok _ _ _ E0), (opt_int_ok _ _ _ E1).
  eapply (rec_recorded rows (rows n)); [exact (opt_positive _ _ _ U1 E0)|exact (opt_positive _ _ _ U2 E1)|lia|exact E2|exact Ext].
Qed.
End Finished.

(** * Free energy surfaces during the run *)
Lemma stride_hit_mod s k : 0 < k -> stride_hit (Some s) k = (k mod s =? 0).
Proof. intro Hk. unfold stride_hit. destruct (Z.eqb_spec s 0) as [->|]; [|reflexivity]. rewrite Zmod_0_r. cbn. symmetry. apply Z.eqb_neq. lia. Qed.
Lemma moments_step st k : 0 < k -> moments st k = moments st (k - 1) ++ (if stride_hit st k then [k] else []).
Proof.
  intro Hk. unfold moments. destruct st as [s|]; [|reflexivity]. rewrite stride_hit_mod by exact Hk. apply times_step. lia.
Qed.
Lemma latest_step st k : positive_option st -> 0 < k -> latest st k = if stride_hit st k then k else latest st (k - 1).
Proof.
  intros P Hk. unfold latest. destruct st as [s|]; [|reflexivity]. assert (Hs : 0 < s) by (apply P; reflexivity).
  rewrite stride_hit_mod by exact Hk. pose proof (Z.div_mod k s ltac:(lia)) as E. destruct (Z.eqb_spec (k mod s) 0) as [H|H]; [lia|].
  f_equal. pose proof (Z.mod_pos_bound k s Hs). apply Z.div_unique with (k mod s - 1); lia.
Qed.
Lemma latest_range st k : positive_option st -> 0 <= k -> 0 <= latest st k <= k.
Proof.
  intros P Hk. unfold latest. destruct st as [s|]; [|lia]. assert (Hs : 0 < s) by (apply P; reflexivity).
  pose proof (Z.mul_div_le k s Hs). pose proof (Z.div_pos k s Hk Hs). nia.
Qed.

Section Surfaces.
Variables (kt : R) (st ws ps : option Z) (fn pn : bool) (F : Z -> list xreal).
Definition surface_state (k : Z) : fesact :=
  mkFA kt (F (latest st k)) st fn ws pn ps
    (if fn then map (fun j => (Some j, F (latest st j))) (moments ws k) else [])
    (if pn then map (fun j => (Some j, F (latest st j))) (moments ps k) else []).
Hypothesis Pst : positive_option st.
Lemma surfaces hs junk n : 
  (forall k, 0 <= k <= n + 1 -> forall j, calculate_fes (h_data (ha_hist (hs k))) kt true j = Ok (F k)) ->
  forall k, 0 <= k <= n ->
  foldM (fun fa j => fes_run (hs j) (junk j) fa j) (zrange 1 (k + 1)) (surface_state 0) = Ok (surface_state k).
Proof.
  intros HF k [Hk Hkn]. revert Hkn. pattern k. apply natlike_ind; [intros _; rewrite zrange_nil by lia; reflexivity| |exact Hk].
  intros j Hj IH Hjn. unfold Z.succ in *. rewrite foldM_snoc by lia. rewrite IH by lia. cbn [bind].
  assert (T : truthyZ (Some (j + 1)) = true) by (cbn; destruct (Z.eqb_spec (j + 1) 0); [lia|reflexivity]).
  unfold fes_run. cbn [surface_state fa_stride fa_kt].
  assert (E : (if stride_hit st (j + 1) then do f <- calculate_fes (h_data (ha_hist (hs (j + 1)))) kt true (junk (j + 1)); Ok (fa_set_fes (surface_state j) f) else Ok (surface_state j))
     = Ok (fa_set_fes (surface_state j) (F (latest st (j + 1))))).
  { rewrite (latest_step st (j + 1) Pst) by lia. replace (j + 1 - 1) with j by lia. destruct (stride_hit st (j + 1)); [|reflexivity].
    rewrite HF by lia. reflexivity. }
  rewrite E. clear E. cbn [bind]. cbv zeta. f_equal. unfold surface_state, fa_set_fes, fa_write, fa_plot. cbn [fa_wstride fa_filename fa_written fa_plotted fa_kt fa_fes fa_stride fa_plotname fa_pstride].
  rewrite (moments_step ws (j + 1)), (moments_step ps (j + 1)) by lia. replace (j + 1 - 1) with j by lia. rewrite T. rewrite !map_app.
  destruct (stride_hit ws (j + 1)), fn; cbn [fa_wstride fa_filename fa_written fa_plotted fa_kt fa_fes fa_stride fa_plotname fa_pstride];
    (destruct (stride_hit ps (j + 1)), pn); cbn [fa_wstride fa_filename fa_written fa_plotted fa_kt fa_fes fa_stride fa_plotname fa_pstride map]; rewrite ?app_nil_r; reflexivity.
Qed.
Lemma surfaces_end hs junk n : 0 <= n ->
  (forall k, 0 <= k <= n + 1 -> forall j, calculate_fes (h_data (ha_hist (hs k))) kt true j = Ok (F k)) ->
  fes_simulation hs junk n (surface_state 0) = Ok (mkFA kt (F (n + 1)) st fn ws pn ps
    (if fn then map (fun j => (Some j, F (latest st j))) (moments ws n) ++ [(None, F (n + 1))] else [])
    (if pn then map (fun j => (Some j, F (latest st j))) (moments ps n) ++ [(None, F (n + 1))] else [])).
Proof.
  intros Hn HF. unfold fes_simulation. rewrite (surfaces hs junk n HF n) by lia. cbn [bind]. unfold fes_final_run. cbn [surface_state fa_kt].
  rewrite HF by lia. cbn [bind]. f_equal. unfold surface_state, fa_set_fes, fa_write, fa_plot. cbn [truthyZ fa_wstride fa_filename fa_written fa_plotted fa_kt fa_fes fa_stride fa_plotname fa_pstride].
  destruct fn; cbn [truthyZ fa_wstride fa_filename fa_written fa_plotted fa_kt fa_fes fa_stride fa_plotname fa_pstride]; destruct pn; reflexivity.
Qed.
End Surfaces.

Lemma setup_fes_state e c o ld ha f0 F : usable c -> c_fes c = Some o -> setup_fes e o ld ha = Ok f0 ->
  (forall j, calculate_fes (h_data (ha_hist ha)) (ld_kt ld) true j = Ok (F 0)) ->
  positive_option (opt_int o "stride") /\
  f0 = surface_state (ld_kt ld) (opt_int o "stride") (opt_int o "write-stride") (opt_int o "plot-stride") (opt_set o "filename") (opt_set o "plot-filename") F 0.
Proof.
  intros U Hc H HF. destruct U as (_ & _ & _ & _ & _ & _ & _ & _ & U & _). rewrite Hc in U. destruct U as (U1 & _).
  unfold setup_fes in H. binds H. rewrite (opt_int_ok _ _ _ E0), (opt_int_ok _ _ _ E1), (opt_int_ok _ _ _ E2). rewrite !opt_set_ok in H.
  pose proof (opt_positive _ _ _ U1 E0) as P. split; [exact P|]. unfold fes_init in H. rewrite HF in H. cbn [bind] in H.
  repeat match type of H with (if ?b then _ else _) = _ => destruct b; [discriminate|] end. apply ok_inj in H. subst f0. unfold surface_state.
  assert (L0 : forall st, latest st 0 = 0) by (intros [z|]; unfold latest; [rewrite Zdiv_0_l|]; lia). rewrite L0.
  assert (M0 : forall st, moments st 0 = []) by (intros [z|]; unfold moments; [apply times_nil; lia|reflexivity]). rewrite !M0. cbn [map].
  destruct (opt_set o "filename"), (opt_set o "plot-filename"); reflexivity.
Qed.

Section Finished2.
Variables (e : env) (cv : conv) (secs : list (string * section)) (acts : list action) (n : Z) (w0 w : world (e_rng e)).
Hypothesis HS : set_up e cv secs acts n w0.
Hypothesis HF : main e cv (Some (Ok secs)) = Finished w.
Hypothesis R : rng_ok (e_rng e).
Hypothesis Hw : w_ps w0 <> [].
Hypothesis Hbc : pot_bc (ld_pot (w_ld w0)) = None \/ length (pot_ranges (ld_pot (w_ld w0))) = pot_ndim (ld_pot (w_ld w0)).

Lemma finished_surfaces c ot oh of h0 : parse_all cv secs = Ok c -> c_trajectories c = Some ot -> c_histogram c = Some oh -> c_fes c = Some of ->
  w_hist w0 = Some h0 -> w_fes w0 <> None ->
  exists D counts h f F, history e w0 n D /\ w_ps w = walkers D n /\ counted e w0 n ot oh (h_edges (ha_hist h0)) D counts /\
    w_hist w = Some h /\ h_data (ha_hist h) = counts (n + 1) /\
    (forall k, 0 <= k <= n + 1 -> forall j, calculate_fes (counts k) (ld_kt (w_ld w0)) true j = Ok (F k)) /\
    (forall k, 0 <= k <= n + 1 -> is_fes (ld_kt (w_ld w0)) (counts k) (F k)) /\
    w_fes w = Some f /\ fa_fes f = F (n + 1) /\
    let surface k := (Some k, F (latest (opt_int of "stride") k)) in
    fa_written f = (if opt_set of "filename" then map surface (moments (opt_int of "write-stride") n) ++ [(None, F (n + 1))] else []) /\
    fa_plotted f = (if opt_set of "plot-filename" then map surface (moments (opt_int of "plot-stride") n) ++ [(None, F (n + 1))] else []) /\
    forall od masks r0, c_delta_f c = Some od -> w_df w0 = Some (masks, r0) ->
    exists r, w_df w = Some (masks, r) /\
      let line k j := Fin (IZR k * ld_dt (w_ld w0)) :: differences (ld_kt (w_ld w0)) masks (counts j) in
      rc_file r = if opt_set od "filename"
                  then Some (recorded_file (fun k => line k (latest (opt_int of "stride") k)) (line n (n + 1)) (e_junk_df e)
                               (opt_int od "stride") (opt_int od "write-stride") n)
                  else None.
Proof.
  intros Hp Hct Hch Hcf Eh0 Nf. pose proof (set_up_steps _ _ _ _ _ _ HS) as (Hn & _).
  apply (main_composed _ _ _ _ _ _ HS) in HF. destruct HF as (D & hs & fs & Hh & _ & Eps & _ & _ & _ & Ch & Cf & Cd & _).
  pose proof (accepted_usable _ _ _ Hp) as U.
  destruct HS as (c' & w1 & Hp' & H1 & Ha & _). rewrite Hp in Hp'. apply ok_inj in Hp'. subst c'.
  destruct (set_up_built _ _ _ _ _ H1 Ha) as (B & Eld & Ew1 & _).
  destruct (set_up_dynamics _ _ _ H1) as (FS & S0). rewrite <- Eld in FS, S0. rewrite <- Ew1 in S0.
  assert (Kt : (0 < ld_kt (w_ld w0))%R).
  { unfold setup_dynamics in H1. binds H1. apply ok_inj in H1. rewrite Eld, <- H1. cbn. eapply setup_ld_kt_pos; eassumption. }
  rewrite Eh0 in Ch. destruct Ch as (t0 & t & Et0 & _ & Ewh & HL & HFin).
  destruct (bu_traj _ _ _ B) as [?|(o' & t0' & Hc' & Hst & Et)]; [congruence|].
  rewrite Hct in Hc'. injection Hc' as <-. rewrite Et in Et0. injection Et0 as ->.
  destruct (bu_hist _ _ _ B) as [?|(o' & t0' & h0' & Hc' & Et' & Hsh & Eh)]; [congruence|].
  rewrite Hch in Hc'. injection Hc' as <-. rewrite Et in Et'. injection Et' as <-. rewrite Eh0 in Eh. injection Eh as <-.
  assert (Len : forall k, length (walkers (clamped n D) k) = length (w_ps w0) /\ Forall (right_size (pot_ndim (ld_pot (w_ld w0)))) (walkers (clamped n D) k)).
  { intro k. unfold walkers.
    apply (clamped_ind (fun d => length (fst (fst d)) = length (w_ps w0) /\ Forall (right_size (pot_ndim (ld_pot (w_ld w0)))) (fst (fst d))));
      [lia|destruct Hh as [-> _]; split; [reflexivity|exact S0]|].
    intros j Hj [IH1 IH2]. destruct Hh as [_ Hh]. split; [rewrite (step_keeps _ _ _ _ _ R (Hh j Hj)); exact IH1|].
    eapply step_keeps_size; [exact R|exact FS|exact Hbc|exact (Hh j Hj)|exact IH2]. }
  assert (Hnp : (0 < length (w_ps w0))%nat) by (destruct (w_ps w0); [congruence|cbn; lia]).
  destruct (setup_traj_made _ _ _ _ _ U Hct Hst) as (s & ws & t1 & p1 & m1 & _ & Ows & M).
  destruct (setup_hist_made _ _ _ _ _ U Hch Hsh) as (nb & rs & hst & rst & hws & Os & Or & Ohw & HM).
  rewrite !(opt_set_ok ot) in M. rewrite !(opt_set_ok oh) in HM.
  assert (A : hist_accepted (walkers (clamped n D)) (length (w_ps w0)) s ws t1 p1 m1 nb rs hst (opt_set oh "filename") hws).
  { destruct M, HM. constructor; try assumption. intro k. destruct (Len k) as [L1 L2]. split; [exact L1|].
    rewrite hm_dim. eapply Forall_impl; [|exact L2]. intros p [Hp0 _]. exact Hp0. }
  assert (St : forall st0, hist_start (opt_set ot "filename") (length (w_ps w0)) s (opt_set ot "momentum") ws t1 p1 m1 nb rs hst rst (opt_set oh "filename") hws = Ok st0 -> st0 = (t0, h0)).
  { intros st0. unfold hist_start. rewrite <- (tm_eq _ _ _ _ _ _ _ _ _ M). cbv zeta. rewrite (hm_eq _ _ _ _ _ _ _ _ _ HM). cbn [bind]. intro Hx. apply ok_inj in Hx. now subst. }
  assert (Wc : forall k, 1 <= k <= n -> walkers (clamped n D) k = walkers D k) by (intros k Hk; unfold walkers; rewrite clamped_in by lia; reflexivity).
  assert (During : forall k, 0 <= k <= n -> bins_of nb rs (h_edges (ha_hist (hs k))) /\
     data_holds (h_edges (ha_hist (hs k))) (content (opt_set ot "filename") (option_or ws 100) (option_or hst 1) (walkers (clamped n D)) (repeat 0%R (length rs)) (match rst with Some l => l | None => [] end) k k) (h_data (ha_hist (hs k)))).
  { intros k Hk. destruct (hist_during (ld_dt (w_ld w0)) _ (opt_set ot "filename") _ _ (opt_set ot "momentum") _ _ _ _ _ _ _ rst _ _ A k ltac:(lia)) as (st1 & tz & hz & E1 & E2 & Bz & Dz & _).
    rewrite (St _ E1) in E2. rewrite (hist_loop_ext _ _ (walkers D) n) in E2 by (assumption || lia). destruct (HL k Hk) as (tk & E3). rewrite E3 in E2. apply ok_inj in E2. injection E2 as <- <-.
    split; [exact Bz|exact Dz]. }
  assert (H00 : hs 0 = h0).
  { destruct (HL 0 ltac:(lia)) as (tk & E3). unfold hist_loop in E3. rewrite zrange_nil in E3 by lia. cbn [foldM] in E3. apply ok_inj in E3. now injection E3. }
  destruct (hist_after (ld_dt (w_ld w0)) _ (opt_set ot "filename") _ _ (opt_set ot "momentum") _ _ _ _ _ _ _ rst _ _ A n Hn) as (st0 & t' & ha & E0 & E & Bi & Dh & _).
  rewrite (St _ E0) in E. rewrite (hist_sim_ext _ _ (walkers D)) in E by exact Wc.
  rewrite HFin in E. apply ok_inj in E. injection E as <- <-.
  set (counts := fun k => h_data (ha_hist (hs k))).
  assert (Ed : forall k, 0 <= k <= n + 1 -> h_edges (ha_hist (hs k)) = h_edges (ha_hist h0)).
  { intros k Hk. rewrite <- H00. apply (bins_of_unique nb rs); [|apply During; lia].
    destruct (Z.eq_dec k (n + 1)) as [->|]; [exact Bi|apply During; lia]. }
  assert (C : counted e w0 n ot oh (h_edges (ha_hist h0)) (clamped n D) counts).
  { unfold counted. cbv zeta. rewrite (opt_int_ok _ _ _ Ows), (opt_int_ok _ _ _ Os), (opt_ints_ok _ _ _ Or). rewrite <- (hm_dim _ _ _ _ _ _ _ _ _ HM). split.
    - intros k Hk. rewrite <- (Ed k) by lia. apply During. exact Hk.
    - rewrite <- (Ed (n + 1)) by lia. exact Dh. }
  assert (NC : (0 < n_cells (h_edges (ha_hist h0)))%nat).
  { destruct (During 0 ltac:(lia)) as [Bz _]. rewrite H00 in Bz. destruct HM. rewrite <- prod_nbins, (bins_of_nbins nb rs _ (proj1 hm_bins) Bz). apply prod_pos, hm_bins. }
  assert (Ne : forall k, 0 <= k <= n + 1 -> counts k <> []).
  { intros k Hk Hz. destruct C as [C1 C2]. assert (length (counts k) = n_cells (h_edges (ha_hist h0))).
    { destruct (Z.eq_dec k (n + 1)) as [->|]; [apply C2|apply C1; lia]. } rewrite Hz in H. cbn in H. lia. }
  destruct (w_fes w0) as [f0|] eqn:Ef0; [clear Nf|congruence].
  destruct Cf as (_ & Ewf & FL & FFin).
  destruct (bu_fes _ _ _ B) as [?|(o' & h0' & f0' & Hc' & Eh0' & Hsf & Ef)]; [congruence|].
  rewrite Hcf in Hc'. injection Hc' as <-. rewrite Eh0 in Eh0'. injection Eh0' as <-. rewrite Ef0 in Ef. injection Ef as <-.
  set (F := fun k => res_default [] (calculate_fes (counts k) (ld_kt (w_ld w0)) true (fun _ => NaN))).
  assert (HF1 : forall k, 0 <= k <= n + 1 -> forall j, calculate_fes (counts k) (ld_kt (w_ld w0)) true j = Ok (F k)).
  { intros k Hk j. destruct (calculate_fes_spec (counts k) (ld_kt (w_ld w0)) j (Ne k Hk) Kt) as (f & Hj & E & _). rewrite E. f_equal. unfold F. rewrite Hj. reflexivity. }
  assert (HF2 : forall k, 0 <= k <= n + 1 -> is_fes (ld_kt (w_ld w0)) (counts k) (F k)).
  { intros k Hk. destruct (calculate_is_fes (counts k) (ld_kt (w_ld w0)) (fun _ => NaN) (Ne k Hk) Kt) as (f & E & I). rewrite (HF1 k Hk) in E. apply ok_inj in E. now subst f. }
  assert (HF0 : forall j, calculate_fes (h_data (ha_hist h0)) (ld_kt (w_ld w0)) true j = Ok (F 0)) by (intro j; rewrite <- H00; apply HF1; lia).
  destruct (setup_fes_state _ _ _ _ _ _ F U Hcf Hsf HF0) as (Ps & Est).
  rewrite Est in FFin. rewrite (surfaces_end _ _ _ _ _ _ F Ps hs (e_junk_fes e) n ltac:(lia) HF1) in FFin. apply ok_inj in FFin.
  assert (FE : forall k, 0 <= k <= n -> fa_fes (fs k) = F (latest (opt_int of "stride") k)).
  { intros k Hk. specialize (FL k Hk). rewrite Est in FL. rewrite (surfaces _ _ _ _ _ _ F Ps hs (e_junk_fes e) n HF1 k Hk) in FL. apply ok_inj in FL. rewrite <- FL. reflexivity. }
  exists (clamped n D), counts, (hs (n + 1)), (fs (n + 1)), F.
  split; [apply clamped_history; [lia|exact Hh]|]. split; [unfold walkers; rewrite clamped_in by lia; exact Eps|].
  split; [exact C|]. split; [exact Ewh|]. split; [reflexivity|]. split; [exact HF1|]. split; [exact HF2|]. split; [exact Ewf|].
  assert (FN : fa_fes (fs (n + 1)) = F (n + 1)) by (rewrite <- FFin; reflexivity).
  split; [exact FN|]. cbv zeta. split; [rewrite <- FFin; reflexivity|]. split; [rewrite <- FFin; reflexivity|].
  intros od masks r0 Hcd Edf. rewrite Edf in Cd. destruct Cd as (r & _ & Ewd & Sim). exists r. split; [exact Ewd|].
  destruct (bu_df _ _ _ B) as [?|(o' & h0' & d & Hc' & Eh0' & _ & Hsd & Ed0)]; [congruence|].
  rewrite Hcd in Hc'. injection Hc' as <-. rewrite Eh0 in Eh0'. injection Eh0' as <-. rewrite Edf in Ed0. injection Ed0 as <-.
  pose proof U as U'. destruct U' as (_ & _ & _ & _ & _ & _ & _ & _ & _ & V & _). rewrite Hcd in V. destruct V as [V1 V2].
  unfold setup_delta_f in Hsd. binds Hsd. destruct (Nat.ltb (length x) 2); [discriminate|]. cbv zeta in Hsd. binds Hsd.
  apply ok_inj in Hsd. injection Hsd as -> ->. unfold delta_f_init in E4. binds E4.
  assert (Mk : forall k, 0 <= k <= n + 1 -> Forall (fun m => length m = length (counts k)) masks).
  { intros k Hk. destruct x0. apply df_masks in E5. eapply Forall_impl; [|exact E5]. intros m Hm. cbn beta in *. rewrite Hm.
    destruct C as [C1 C2]. assert (length (counts k) = n_cells (h_edges (ha_hist h0))).
    { destruct (Z.eq_dec k (n + 1)) as [->|]; [apply C2|apply C1; lia]. } rewrite H. apply prod_nbins. }
  set (line := fun k j => Fin (IZR k * ld_dt (w_ld w0)) :: differences (ld_kt (w_ld w0)) masks (counts j)).
  assert (Row : forall k j, 0 <= j <= n + 1 -> delta_f_row (F j) (ld_kt (w_ld w0)) (ld_dt (w_ld w0)) masks k = Ok (line k j)).
  { intros k j Hj. unfold delta_f_row. rewrite (delta_f_value (counts j) _ (fun _ => NaN) (F j) masks (Ne j Hj) Kt (Mk j Hj) (HF1 j Hj _)). reflexivity. }
  unfold delta_f_simulation in Sim. rewrite (foldM_clamped _ (fun r k => rec_run (Ok (line k (latest (opt_int of "stride") k))) r k) n n) in Sim.
  2:{ intros j s' Hj. unfold delta_f_run. rewrite FE by lia. pose proof (latest_range _ j Ps ltac:(lia)). rewrite Row by lia. reflexivity. }
  2:{ lia. }
  unfold delta_f_final_run in Sim. rewrite FN, Row in Sim by lia.
  rewrite <- (opt_set_ok od). rewrite (opt_int_ok _ _ _ E2), (opt_int_ok _ _ _ E3).
  eapply (rec_recorded (fun k => line k (latest (opt_int of "stride") k)) (line n (n + 1))); [exact (opt_positive _ _ _ V1 E2)|exact (opt_positive _ _ _ V2 E3)|lia|exact E4|exact Sim].
Qed.
End Finished2.
