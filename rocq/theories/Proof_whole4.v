(** Accepted inputs run to their end: the complete program (C56) *)
From Coq Require Import Lia Lra.
From Verif Require Import PyBase Model_xr Model_input Spec_input Spec_rng Model_dyn Model_bd Model_traj Model_hist Model_histaction Model_fes Model_rec Model_deltaf
  Model_pdist Model_setup Model_main Spec_times Spec_traj Spec_trajrun Spec_hist Spec_histact Spec_setup Spec_rec Spec_fes Spec_pdist Spec_ld Spec_bdrun Spec_main Spec_whole
  Proof_base Proof_ld Proof_hist Proof_histprops Proof_trajrun Proof_rec Proof_fes Proof_pdist Proof_input Proof_setup2 Proof_main Proof_main2 Proof_whole Proof_whole2 Proof_whole3.
Open Scope string_scope.
Open Scope Z_scope.
Ltac Zify.zify_post_hook ::= idtac.

(** * fes *)
Lemma plot_fes g s : fa_fes (fa_plot g s) = fa_fes g /\ fa_kt (fa_plot g s) = fa_kt g.
Proof. unfold fa_plot. destruct (fa_plotname g); auto. Qed.
Lemma write_fes g s : fa_fes (fa_write g s) = fa_fes g /\ fa_kt (fa_write g s) = fa_kt g.
Proof. unfold fa_write. destruct (fa_filename g); auto. Qed.
Lemma fes_run_total h junk fa k L : length (h_data (ha_hist h)) = L -> (0 < L)%nat -> (0 < fa_kt fa)%R -> length (fa_fes fa) = L ->
  exists fa', fes_run h junk fa k = Ok fa' /\ fa_kt fa' = fa_kt fa /\ length (fa_fes fa') = L.
Proof.
  intros HL PL Pk Lf. unfold fes_run.
  assert (E : exists fa1, (if stride_hit (fa_stride fa) k then do f <- calculate_fes (h_data (ha_hist h)) (fa_kt fa) true junk; Ok (fa_set_fes fa f)
     else Ok fa) = Ok fa1 /\ fa_kt fa1 = fa_kt fa /\ length (fa_fes fa1) = L).
  { destruct (stride_hit (fa_stride fa) k); [|eauto].
    destruct (calculate_fes_spec (h_data (ha_hist h)) (fa_kt fa) junk) as (f & _ & E & Lf' & _); [intros Hn; rewrite Hn in HL; cbn in HL; lia|exact Pk|].
    rewrite E. cbn [bind]. eexists. split; [reflexivity|]. cbn. split; [reflexivity|congruence]. }
  destruct E as (fa1 & -> & K1 & L1). cbn [bind]. cbv zeta. eexists. split; [reflexivity|].
  set (fa2 := if stride_hit (fa_wstride fa1) k then fa_write fa1 (Some k) else fa1).
  assert (H2 : fa_kt fa2 = fa_kt fa1 /\ fa_fes fa2 = fa_fes fa1).
  { unfold fa2. destruct (stride_hit (fa_wstride fa1) k); [split; apply write_fes|auto]. }
  destruct H2 as [K2 F2]. destruct (stride_hit (fa_pstride fa2) k).
  - destruct (plot_fes fa2 (Some k)) as [-> ->]. split; congruence.
  - split; congruence.
Qed.

Lemma fes_total e o ld f0 hs n L : (0 < ld_kt ld)%R -> (0 < L)%nat -> (forall k, length (h_data (ha_hist (hs k))) = L) ->
  setup_fes e o ld (hs 0) = Ok f0 -> 0 <= n ->
  exists fs : Z -> fesact, fs 0 = f0 /\
    (forall k, 0 <= k <= n -> foldM (fun fa j => fes_run (hs j) (e_junk_fes e j) fa j) (zrange 1 (k + 1)) f0 = Ok (fs k)) /\
    fes_simulation hs (e_junk_fes e) n f0 = Ok (fs (n + 1)) /\ (forall k, length (fa_fes (fs k)) = L).
Proof.
  intros Pk PL HL H Hn. pose proof (setup_fes_kt _ _ _ _ _ H) as [K0 _].
  assert (L0 : length (fa_fes f0) = L).
  { unfold setup_fes in H. binds H. unfold fes_init in H. binds H.
    repeat match type of H with (if ?b then _ else _) = _ => destruct b; [discriminate|] end. apply ok_inj in H. subst f0. cbn.
    destruct (calculate_fes_spec (h_data (ha_hist (hs 0))) (ld_kt ld) (e_junk_fes e 0)) as (f & _ & E' & Lf & _);
      [intros Hz; specialize (HL 0); rewrite Hz in HL; cbn in HL; lia|exact Pk|].
    rewrite E' in E3. apply ok_inj in E3. rewrite <- E3, Lf. apply HL. }
  assert (St : forall k, exists fk, foldM (fun fa j => fes_run (hs j) (e_junk_fes e j) fa j) (zrange 1 (k + 1)) f0 = Ok fk /\
     fa_kt fk = fa_kt f0 /\ length (fa_fes fk) = L).
  { intro k. destruct (Z.le_gt_cases k 0) as [Hk|Hk]; [rewrite zrange_nil by lia; exists f0; auto|].
    pattern k. apply natlike_ind; [rewrite zrange_nil by lia; exists f0; auto| |lia].
    intros j Hj (fj & E & Kj & Lj). unfold Z.succ. rewrite foldM_snoc by lia. rewrite E. cbn [bind].
    destruct (fes_run_total (hs (j + 1)) (e_junk_fes e (j + 1)) fj (j + 1) L (HL _) PL ltac:(rewrite Kj, K0; exact Pk) Lj) as (fa' & E' & K' & L').
    exists fa'. split; [exact E'|]. split; congruence. }
  destruct (St n) as (fn & En & Kn & Ln).
  destruct (calculate_fes_spec (h_data (ha_hist (hs (n + 1)))) (fa_kt fn) (e_junk_fes e (n + 1))) as (f & _ & E & Lf & _);
    [intros Hz; specialize (HL (n + 1)); rewrite Hz in HL; cbn in HL; lia|rewrite Kn, K0; exact Pk|].
  set (fin := fa_plot (fa_write (fa_set_fes fn f) None) None).
  assert (Efin : fes_simulation hs (e_junk_fes e) n f0 = Ok fin).
  { unfold fes_simulation. rewrite En. cbn [bind]. unfold fes_final_run. rewrite E. reflexivity. }
  assert (Lfin : length (fa_fes fin) = L).
  { unfold fin. destruct (plot_fes (fa_write (fa_set_fes fn f) None) None) as [-> _].
    destruct (write_fes (fa_set_fes fn f) None) as [-> _]. cbn. rewrite Lf. apply HL. }
  clearbody fin.
  exists (fun k => if k <=? n then match foldM (fun fa j => fes_run (hs j) (e_junk_fes e j) fa j) (zrange 1 (k + 1)) f0 with Ok x => x | Err _ => f0 end else fin).
  split; [|split; [|split]].
  - destruct (Z.leb_spec 0 n); [|lia]. rewrite zrange_nil by lia. reflexivity.
  - intros k Hk. destruct (Z.leb_spec k n); [|lia]. destruct (St k) as (fk & Ek & _). rewrite Ek. reflexivity.
  - destruct (Z.leb_spec (n + 1) n); [lia|]. exact Efin.
  - intro k. destruct (Z.leb_spec k n); [|exact Lfin]. destruct (St k) as (fk & Ek & _ & Lk). rewrite Ek. exact Lk.
Qed.

(** * delta-f *)
Lemma df_masks ms sh : check_mask_shapes (map (fun m : list bool => [length m]) ms) sh = Ok tt -> Forall (fun m => length m = prod_list sh) ms.
Proof.
  unfold check_mask_shapes. destruct (existsb _ _) eqn:E; [discriminate|]. intros _. apply Forall_forall. intros m Hm.
  assert (Hx : existsb (fun m0 => if list_eq_dec Nat.eq_dec m0 sh then false else true) (map (fun m => [length m]) ms) <> true) by congruence.
  destruct (list_eq_dec Nat.eq_dec [length m] sh) as [<-|N]; [cbn; lia|]. exfalso. apply Hx. apply existsb_exists.
  exists [length m]. split; [apply (in_map (fun m => [length m])), Hm|]. destruct (list_eq_dec Nat.eq_dec [length m] sh); [contradiction|reflexivity].
Qed.
Lemma df_total e c o h masks r0 fes kt dt n : usable c -> c_delta_f c = Some o -> setup_delta_f e o h = Ok (masks, r0) ->
  (forall k, length (fes k) = prod_list (n_bins_of (h_edges h))) -> 0 <= n ->
  exists r, delta_f_simulation fes kt dt masks n r0 = Ok r.
Proof.
  intros U Hc H HL Hn. destruct U as (_ & _ & _ & _ & _ & _ & _ & _ & _ & U & _). rewrite Hc in U. destruct U as [U1 U2].
  unfold setup_delta_f in H. binds H. destruct (Nat.ltb (length x) 2); [discriminate|]. cbv zeta in H. binds H.
  apply ok_inj in H. injection H as -> ->. unfold delta_f_init in E3. binds E3. destruct x0.
  pose proof (df_masks _ _ E4) as M.
  destruct (delta_f_rows fes kt dt masks _ HL M) as (rows & Hrows).
  assert (exists lr, delta_f_row (fes (n + 1)) kt dt masks n = Ok lr) as (lr & El).
  { unfold delta_f_row. destruct (delta_f_ok (fes (n + 1)) kt masks) as (d & -> & _); [rewrite HL; exact M|cbn; eauto]. }
  unfold delta_f_simulation. rewrite (delta_f_steps_eq fes kt dt masks rows) by (intro k; apply Hrows).
  unfold delta_f_final_run. rewrite El.
  refine (rec_total _ _ _ _ _ _ rows lr n (opt_positive _ _ _ U1 E1) (opt_positive _ _ _ U2 E2) _ Hn E3).
  intro m. apply np_empty_length.
Qed.

(** * particle distribution *)
Lemma pd_total e c o states r0 ndim hist n : usable c -> c_particle_distribution c = Some o -> setup_particle_distribution e o = Ok (states, r0) ->
  Forall (fun st => length st = ndim) states ->
  (forall k, (0 < length (hist k))%nat /\ Forall (fun p => length (p_pos p) = ndim) (hist k)) -> 0 <= n ->
  exists r, pdist_simulation ndim states hist n r0 = Ok r.
Proof.
  intros U Hc H Hs Hh Hn. destruct U as (_ & _ & _ & _ & _ & _ & _ & _ & _ & _ & U). rewrite Hc in U. destruct U as [U1 U2].
  unfold setup_particle_distribution in H. binds H. apply ok_inj in H. injection H as -> ->.
  destruct (pdist_rows ndim states hist) as (rows & Hrows); [intro; apply Hh|exact Hs|intro; apply Hh|].
  rewrite (pdist_simulation_eq ndim states hist rows) by (intro; apply Hrows). unfold rec_simulation.
  refine (rec_total _ _ _ _ _ _ rows (rows n) n (opt_positive _ _ _ U1 E0) (opt_positive _ _ _ U2 E1) _ Hn E2).
  intro m. apply np_empty_length.
Qed.

(** * The complete run *)
Lemma need_not_none {A} (o : option A) : o <> None -> exists a, o = Some a.
Proof. destruct o; [eauto|congruence]. Qed.

Theorem main_total e cv secs acts n w0 : set_up e cv secs acts n w0 -> runnable e w0 ->
  exists w D, main e cv (Some (Ok secs)) = Finished w /\ history e w0 n D /\ w_ps w = walkers D n /\
    forall k, length (walkers D k) = length (w_ps w0) /\ Forall (right_size (pot_ndim (ld_pot (w_ld w0)))) (walkers D k).
Proof.
  intros HS R. pose proof (set_up_steps _ _ _ _ _ _ HS) as (Hn & _). pose proof (main_composed _ _ _ _ _ _ HS) as MC.
  destruct HS as (c & w1 & Hp & H1 & Ha & _). pose proof (accepted_usable _ _ _ Hp) as U. clear Hp.
  destruct (set_up_built _ _ _ _ _ H1 Ha) as (B & Eld & Eps & _). destruct (set_up_dynamics _ _ _ H1) as (F & S0). rewrite <- Eld in F, S0.
  rewrite <- Eps in S0. assert (Kt : (0 < ld_kt (w_ld w0))%R).
  { unfold setup_dynamics in H1. binds H1. apply ok_inj in H1. rewrite Eld, <- H1. cbn. eapply setup_ld_kt_pos; eassumption. }
  clear H1 Ha Eld Eps w1 acts. destruct R as [Rr Rw Rg Rb Rp]. destruct B as [Bb Bt Bh Bf Bd Bp].
  set (ld := w_ld w0) in *. set (ndim := pot_ndim (ld_pot ld)) in *. set (np := length (w_ps w0)) in *.
  assert (Hnp : (0 < np)%nat) by (unfold np; destruct (w_ps w0); [congruence|cbn; lia]).
  assert (G0 : good_dyn e ndim np (dyn_of w0)).
  { split; [reflexivity|]. split; [exact S0|]. unfold dyn_of. cbn [snd]. destruct Bb as [->|(o & par & g & Hc & Hs & Hb)]; [exact I|].
    rewrite Hb in *. destruct Rb as (R1 & R2 & R3). eapply setup_bd_ready; eassumption. }
  destruct (dynamics_total e ld np (dyn_of w0) Rr F Rg G0) as (D & D0 & DS & DG).
  assert (Hist : history e w0 n D) by (split; [exact D0|intros k Hk; apply DS; lia]).
  assert (Len : forall k, length (walkers D k) = np) by (intro k; apply DG).
  assert (Siz : forall k, Forall (right_size ndim) (walkers D k)) by (intro k; apply DG).
  assert (Siz' : forall k, Forall (fun p => length (p_pos p) = ndim) (walkers D k)).
  { intro k. eapply Forall_impl; [|apply Siz]. intros p Hp. apply Hp. }
  (* trajectories *)
  assert (T : forall t0, w_traj w0 = Some t0 -> exists t, traj_simulation (ld_dt ld) (walkers D) (fun _ => 0%nat) n t0 = Ok t).
  { intros t0 E. destruct Bt as [Bt|(o & t & Hc & Hs & Ht)]; [congruence|]. rewrite Ht in E. injection E as <-.
    destruct (setup_traj_made _ _ _ _ _ U Hc Hs) as (s & ws & t1 & p1 & m1 & _ & _ & M).
    destruct (traj_total _ _ _ _ _ _ _ _ _ (ld_dt ld) (walkers D) (fun _ => 0%nat) n M Hnp ltac:(lia) Len) as (t' & E & _). eauto. }
  (* histogram *)
  assert (Hh : exists hs : Z -> histact, forall h0, w_hist w0 = Some h0 ->
     hs 0 = h0 /\ (0 < prod_list (n_bins_of (h_edges (ha_hist h0))))%nat /\
     (forall k, length (h_data (ha_hist (hs k))) = prod_list (n_bins_of (h_edges (ha_hist h0)))) /\
     exists t0 t, w_traj w0 = Some t0 /\ traj_simulation (ld_dt ld) (walkers D) (fun _ => 0%nat) n t0 = Ok t /\
      (forall k, 0 <= k <= n -> exists tk, hist_loop (ld_dt ld) (walkers D) k (t0, h0) = Ok (tk, hs k)) /\
      hist_simulation (ld_dt ld) (walkers D) n (t0, h0) = Ok (t, hs (n + 1))).
  { destruct Bh as [Bh|(o & t0 & h & Hc & Ht & Hs & Hh)].
    { exists (fun _ => mkHA (mkH [] []) 0 [] None false 0 []). intros h0 E. congruence. }
    destruct Bt as [Bt|(ot & tt0 & Htc & Hts & Htt)]; [congruence|]. rewrite Htt in Ht. injection Ht as ->.
    destruct (setup_traj_made _ _ _ _ _ U Htc Hts) as (s & ws & t1 & p1 & m1 & _ & _ & M).
    destruct (setup_hist_made _ _ _ _ _ U Hc Hs) as (nb & rs & hst & rst & hws & _ & _ & _ & HM).
    destruct (hist_total _ _ _ _ _ _ _ _ _ _ _ _ _ _ _ _ _ (ld_dt ld) (walkers D) n M HM Hnp Hn ltac:(intro k; split; [apply Len|apply Siz']))
      as (H & H0 & Nb & HL & (t & HF) & HLen).
    exists H. intros h0 E. rewrite Hh in E. injection E as <-. split; [exact H0|]. rewrite Nb. split; [apply prod_pos, HM|]. split; [exact HLen|].
    exists t0, t. split; [exact Htt|]. split; [|split; [exact HL|exact HF]].
    pose proof HF as HF'. unfold hist_simulation in HF'. binds HF'. destruct x as [tn hn]. cbn [fst snd] in *.
    apply (traj_simulation_pre e n w0 D). exists tn. split; [eapply hist_traj_pre; exact E|].
    apply ok_inj in HF'. injection HF' as <- _. exact E0. }
  destruct Hh as (hs & Hh).
  (* fes *)
  assert (Hf : exists fs : Z -> fesact, forall f0, w_fes w0 = Some f0 -> exists h0, w_hist w0 = Some h0 /\
      (forall k, 0 <= k <= n -> foldM (fun fa j => fes_run (hs j) (e_junk_fes e j) fa j) (zrange 1 (k + 1)) f0 = Ok (fs k)) /\
      fes_simulation hs (e_junk_fes e) n f0 = Ok (fs (n + 1)) /\
      forall k, length (fa_fes (fs k)) = prod_list (n_bins_of (h_edges (ha_hist h0)))).
  { destruct (w_fes w0) as [f0|] eqn:Ef.
    - destruct Bf as [Bf|(o & h & f & Hc & Hw & Hs & Hf)]; [congruence|]. injection Hf as ->.
      destruct (Hh h Hw) as (H0 & PL & HL & _). rewrite <- H0 in Hs.
      destruct (fes_total e o ld f hs n _ Kt PL HL Hs ltac:(lia)) as (fs & _ & F1 & F2 & F3).
      exists fs. intros f1 E. injection E as <-. exists h. auto.
    - exists (fun _ => mkFA 0 [] None false None false None [] []). intros f0 E. discriminate. }
  destruct Hf as (fs & Hf).
  assert (Hd : forall masks r0, w_df w0 = Some (masks, r0) -> exists r, w_fes w0 <> None /\
     delta_f_simulation (fun k => fa_fes (fs k)) (ld_kt ld) (ld_dt ld) masks n r0 = Ok r).
  { intros masks r0 E. destruct Bd as [Bd|(o & h & d & Hc & Hw & Hfn & Hs & Hdf)]; [congruence|]. rewrite Hdf in E. injection E as ->.
    destruct (need_not_none _ Hfn) as (f0 & Ef). destruct (Hf f0 Ef) as (h0 & Hw' & _ & _ & FL). rewrite Hw in Hw'. injection Hw' as <-.
    destruct (df_total e c o _ _ _ (fun k => fa_fes (fs k)) (ld_kt ld) (ld_dt ld) n U Hc Hs FL ltac:(lia)) as (r & E). eauto. }
  assert (Hpd : forall states r0, w_pd w0 = Some (states, r0) -> exists r, pdist_simulation ndim states (walkers D) n r0 = Ok r).
  { intros states r0 E. rewrite E in Rp. destruct Bp as [Bp|(o & d & Hc & Hs & Hd0)]; [congruence|]. rewrite Hd0 in E. injection E as ->.
    eapply pd_total; try eassumption; [|lia]. intro k. rewrite Len. split; [exact Hnp|apply Siz']. }
  assert (Wt : exists wt, match w_traj w0 with None => wt = None | Some t0 => exists t, wt = Some t /\
     traj_simulation (ld_dt ld) (walkers D) (fun _ => 0%nat) n t0 = Ok t end).
  { destruct (w_traj w0) as [t0|]; [|eauto]. destruct (T t0 eq_refl) as (t & E). eauto. }
  destruct Wt as (wt & Wt).
  assert (Wd : exists wd, match w_df w0 with None => wd = None | Some (masks, r0) => exists r, w_fes w0 <> None /\ wd = Some (masks, r) /\
     delta_f_simulation (fun k => fa_fes (fs k)) (ld_kt ld) (ld_dt ld) masks n r0 = Ok r end).
  { destruct (w_df w0) as [[masks r0]|]; [|eauto]. destruct (Hd masks r0 eq_refl) as (r & N & E). eauto 6. }
  destruct Wd as (wd & Wd).
  assert (Wp : exists wp, match w_pd w0 with None => wp = None | Some (states, r0) => exists r, wp = Some (states, r) /\
     pdist_simulation ndim states (walkers D) n r0 = Ok r end).
  { destruct (w_pd w0) as [[states r0]|]; [|eauto]. destruct (Hpd states r0 eq_refl) as (r & E). eauto. }
  destruct Wp as (wp & Wp).
  set (w := mkWorld ld (walkers D n) (snd (fst (D n))) (bd_end e n (D n)) wt
     (match w_hist w0 with None => None | Some _ => Some (hs (n + 1)) end)
     (match w_fes w0 with None => None | Some _ => Some (fs (n + 1)) end) wd wp).
  exists w, D. split; [apply MC|split; [exact Hist|split; [reflexivity|]]].
  - exists D, hs, fs. cbv zeta. split; [exact Hist|]. split; [reflexivity|]. split; [reflexivity|]. split; [reflexivity|]. split; [reflexivity|].
    split; [exact Wt|]. split; [|split; [|split; [exact Wd|exact Wp]]].
    + unfold w. cbn [w_traj w_hist]. destruct (w_hist w0) as [h0|]; [|reflexivity].
      destruct (Hh h0 eq_refl) as (_ & _ & _ & t0 & t & Et & ET & HL & HF). rewrite Et in *. destruct Wt as (t' & -> & ET').
      rewrite ET in ET'. apply ok_inj in ET'. subst t'. exists t0, t. auto.
    + unfold w. cbn [w_fes w_hist]. destruct (w_fes w0) as [f0|]; [|reflexivity].
      destruct (Hf f0 eq_refl) as (h0 & Hw & F1 & F2 & _). split; [congruence|]. auto.
  - intro k. split; [apply Len|apply Siz].
Qed.
