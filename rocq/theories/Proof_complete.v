(** Sensible inputs run to the end *)
From Coq Require Import Lia Lra.
From Verif Require Import PyBase Model_xr Model_input Model_dyn Model_pot Model_bd Model_corr Model_traj Model_grid Model_hist Model_histaction Model_fes Model_rec Model_deltaf Model_pdist Model_potgrid
  Model_setup Model_main Spec_input Spec_rng Spec_ld Spec_grid Spec_gridops Spec_setup Spec_pot Spec_bdrun Spec_correction Spec_main Spec_whole Spec_hist Spec_complete
  Proof_base Proof_grid Proof_grid2 Proof_correction Proof_hist Proof_pot Proof_fes Proof_setup Proof_setup2 Proof_input Proof_whole Proof_whole2 Proof_whole3 Proof_whole4 Proof_whole5 Proof_files9.
Open Scope string_scope.
Open Scope Z_scope.
Open Scope list_scope.
Ltac Zify.zify_post_hook ::= idtac.

Lemma forall2_increasing los : forall his, Forall2 Rlt los his -> increasing (combine los his) /\ length (combine los his) = length los /\ length his = length los.
Proof.
  induction los as [|a l IH]; intros his H; inversion H as [|? b ? m H1 H2]; subst; [repeat split; constructor|].
  destruct (IH _ H2) as (I & L & L'). cbn [combine length]. repeat split; [constructor; [exact H1|exact I]|lia|lia].
Qed.
Lemma finite_get d k r : finite d k r -> v_float (get_dict d k) = Ok r.
Proof. intro H. rewrite (get_of_assoc _ _ _ H). reflexivity. Qed.
Lemma finites_get d k l : finites d k l -> v_floats (get_dict d k) = Ok l.
Proof. intro H. rewrite (get_of_assoc _ _ _ H). apply v_floats_fin. Qed.
Lemma opt_finite_get d k : (assoc k d = Some VNone \/ exists r, finite d k r) -> exists o, v_opt_float (get_dict d k) = Ok o.
Proof. intros [H|(r & H)]; rewrite (get_of_assoc _ _ _ H); cbn; eauto. Qed.
Lemma seed_get d : good_seed d -> exists s, optional_int d "seed" s /\ match s with Some z => 0 <= z | None => True end.
Proof. intros [H|(z & H & P)]; [exists None; auto|exists (Some z); auto]. Qed.
Lemma opt_int_get d k : none_or_positive_int d k -> exists s, v_opt_int (get_dict d k) = Ok s /\ match s with Some z => 0 < z | None => True end /\
  (s = None <-> assoc k d = Some VNone).
Proof.
  intros [H|(z & H & P)]; rewrite (get_of_assoc _ _ _ H); cbn; eexists; split; try reflexivity; (split; [auto|]); rewrite H; split; congruence.
Qed.

(** * the potential *)
Lemma potential_ok e d ranges : sensible_potential e d ranges ->
  exists pot, setup_potential e d = Ok pot /\ pot_ndim pot = length ranges /\ pot_ranges pot = ranges /\ increasing ranges.
Proof.
  intros [coeffs lo hi T N C Cn Lo Hi Lt|n los his name lines T N Hn Lo Hi L I F Fr L2 Fo Fc|T S]; unfold setup_potential; rewrite (get_of_assoc _ _ _ T); unfold vstr_is; cbn [String.eqb Ascii.eqb Bool.eqb]; cbv zeta.
  - rewrite (get_of_assoc _ _ _ N). cbn [vint_is Z.eqb Pos.eqb]. rewrite (finite_get _ _ _ Lo), (finite_get _ _ _ Hi). cbn [bind].
    rewrite (get_of_assoc _ _ _ C). cbv iota. rewrite v_floats_fin. cbn [bind].
    destruct (poly_potential (arr_of_list coeffs) (Some [(lo, hi)]) (boundary_condition d)) as (pot & Ep & Nd & _ & Rg & _).
    + cbn. lia.
    + cbn. constructor; [|constructor]. destruct coeffs; [congruence|cbn; lia].
    + exists pot. rewrite Ep. repeat split; auto. constructor; [exact Lt|constructor].
  - rewrite (get_of_assoc _ _ _ N). cbn [vint_is]. destruct (Z.eqb_spec (Z.of_nat n) 1); [lia|].
    rewrite (finites_get _ _ _ Lo), (finites_get _ _ _ Hi). cbn [bind]. rewrite (get_of_assoc _ _ _ F). cbn [v_str v_int bind]. rewrite Fr. cbn [bind]. rewrite Nat2Z.id.
    destruct (coefficient_file lines n ltac:(lia) L2 Fo Fc) as (c & -> & Sh & _). cbn [bind].
    assert (Ls : length (a_shape c) = n) by (rewrite Sh, map_length, seq_length; reflexivity).
    destruct (forall2_increasing _ _ I) as (Ic & Lc & _).
    destruct (poly_potential c (Some (combine los his)) (boundary_condition d)) as (pot & Ep & Nd & _ & Rg & _); [lia| |].
    + rewrite Sh. apply Forall_forall. intros x Hx. apply in_map_iff in Hx as (k & <- & _). lia.
    + exists pot. rewrite Ep. repeat split; auto. lia.
  - destruct (opt_finite_get _ _ S) as (sf & ->). cbn [bind]. eexists. split; [reflexivity|]. repeat split. repeat constructor; cbn; lra.
Qed.

(** * the dynamics *)
Lemma dynamics_ok e c pot : usable c -> sensible_dynamics (c_ld c) -> exists ld g, setup_ld e (c_ld c) pot = Ok (ld, g) /\ ld_pot ld = pot /\ (0 < ld_kt ld)%R.
Proof.
  intros U ((dt & Hdt) & Hs & K). destruct (seed_get _ Hs) as (s & Es & Ps). destruct (init_seed (e_rng e) (e_os_ld e) s Ps) as (g & Eg).
  assert (X : exists ld g, setup_ld e (c_ld c) pot = Ok (ld, g)).
  { unfold setup_ld. rewrite (finite_get _ _ _ Hdt), (v_opt_int_of _ _ _ Es). cbn [bind]. rewrite Eg. cbn [bind].
    assert (T : assoc "type" (c_ld c) = Some (VStr "overdamped") \/ assoc "type" (c_ld c) = Some (VStr "bussi-parinello")).
    { destruct U as (_ & _ & [T|(T & _)] & _); auto. }
    destruct T as [T|T]; rewrite (get_of_assoc _ _ _ T); cbn - [get_dict]; [eauto|].
    destruct K as [K|(kt & fr & K1 & K2)]; [congruence|]. rewrite (finite_get _ _ _ K1), (finite_get _ _ _ K2). cbn [bind]. eauto. }
  destruct X as (ld & g' & X). exists ld, g'. split; [exact X|]. split; [eapply setup_ld_pot; exact X|eapply setup_ld_kt_pos; eassumption].
Qed.

(** * the walkers *)
Lemma walkers_ok_init e cv sec c ld n m : rng_ok (e_rng e) -> usable c -> parse_particles cv sec = Ok (c_particles c) ->
  length (pot_ranges (ld_pot ld)) = pot_ndim (ld_pot ld) -> increasing (pot_ranges (ld_pot ld)) ->
  assoc "number" (c_particles c) = Some (VInt n) -> finite (c_particles c) "mass" m -> sensible_walkers (c_particles c) (pot_ndim (ld_pot ld)) ->
  exists ps, init_particles e (c_particles c) ld = Ok ps /\ Z.of_nat (length ps) = n /\ 0 < n.
Proof.
  intros R U Pp Lr Ir Hn Hm W.
  assert (Pn : 0 < n). { destruct U as (_ & _ & _ & _ & (z & Hz & Pz) & _). rewrite Hz in Hn. injection Hn as <-. exact Pz. }
  destruct W as [D S|positions D S G Ne F|positions fr D G F Fr Nn Pt L].
  - destruct (seed_get _ S) as (s & Es & Ps). destruct (random_global_walkers e (c_particles c) ld m n s R D Hm Hn ltac:(lia) Es Ps) as (ps & E & Ln & _); [|eauto].
    split; [exact Lr|]. eapply Forall_impl; [|exact Ir]. intros [a b] H. cbn in *. lra.
  - destruct (seed_get _ S) as (s & Es & Ps). destruct (random_pos_walkers e cv sec (c_particles c) ld m n s positions R Pp D Hm Hn Es Ps G Ne F) as (ps & E & Ln & _). eauto.
  - destruct (fractions_walkers e (c_particles c) ld m n fr positions D Hm Hn ltac:(lia) Fr Nn Pt G F) as (H & _). destruct (H L) as (ps & co & E & Ln & _). eauto.
Qed.

(** * birth-death *)
Lemma variant_known d k : (assoc k d = Some VNone \/ exists s, assoc k d = Some (VStr s) /\ In s (no_correction ++ a_correction)) ->
  exists o, get_approx_variant d k = Ok o /\ (o = None \/ o = Some VOrig \/ (exists s, assoc k d = Some (VStr s) /\ In s a_correction)).
Proof.
  intros [H|(s & H & I)]; unfold get_approx_variant; rewrite (get_of_assoc _ _ _ H); [eauto|].
  unfold no_correction, a_correction in *. cbn in I.
  repeat (destruct I as [<-|I]; [cbn; eexists; split; [reflexivity|]; first [left; reflexivity|right; left; reflexivity|right; right; eexists; split; [exact H|cbn; tauto]]|]).
  destruct I.
Qed.
Lemma variant_ok d : (forall k, In k variant_keys -> assoc k d = Some VNone \/ exists s, assoc k d = Some (VStr s) /\ In s (no_correction ++ a_correction)) ->
  exists v, approx_variant d = Ok v /\ (v = VOrig \/ exists k s, In k variant_keys /\ assoc k d = Some (VStr s) /\ In s a_correction).
Proof.
  intros H. destruct (variant_known d "correction-variant") as (o1 & E1 & P1); [apply H; cbn; auto|].
  destruct (variant_known d "approximation-variant") as (o2 & E2 & P2); [apply H; cbn; auto|].
  unfold approx_variant. cbn [foldM]. rewrite E1. cbn [bind]. rewrite E2. cbn [bind]. eexists. split; [reflexivity|].
  destruct P2 as [->|[->|(s & P2 & I)]]; [|now left|right; exists "approximation-variant", s; cbn; auto].
  destruct P1 as [->|[->|(s & P1 & I)]]; [now left|now left|right; exists "correction-variant", s; cbn; auto].
Qed.
Lemma density_of pot bw kt : length (pot_ranges pot) = pot_ndim pot -> length bw = pot_ndim pot -> increasing (pot_ranges pot) -> Forall (fun b => 0 < b)%R bw -> (0 < kt)%R ->
  exists g ns v, bd_prob_density pot bw kt = Ok g /\ grid_of g (pot_ranges pot) ns v /\ Forall (fun x => 0 < x)%R v /\ length ns = pot_ndim pot.
Proof.
  intros H1 H2 H3 H4 H5. unfold bd_prob_density. destruct (bd_n_points_ok (pot_ranges pot) bw) as (ns & En & Lns & Nn); [congruence|assumption|assumption|].
  rewrite En. cbn [bind].
  assert (usable_points ns) as Hu.
  { apply Forall_nth. intros d dflt Hd. rewrite nth_indep with (d' := 0%nat) by assumption. rewrite Nn by lia.
    destruct (bd_points_spec (nth d (pot_ranges pot) (0,0)%R) (nth d bw 0%R)) as (A & B & _); [| |lia].
    - unfold increasing in H3. rewrite Forall_forall in H3. apply H3, nth_In; lia.
    - rewrite Forall_forall in H4. apply H4, nth_In; lia. }
  destruct (density_any pot kt (pot_ranges pot) ns) as (g & v & Zc & E & G & P & _); auto; [lia|]. exists g, ns, v. repeat (split; auto). lia.
Qed.

Lemma bandwidth_ok c d n_dim : usable c -> c_birth_death c = Some d ->
  ((n_dim = 1%nat /\ exists b, finite d "kernel-bandwidth" b) \/ (n_dim <> 1%nat /\ exists bs, finites d "kernel-bandwidth" bs /\ length bs = n_dim)) ->
  exists bw, setup_bandwidth d n_dim = Ok bw /\ length bw = n_dim /\ Forall (fun b => 0 < b)%R bw.
Proof.
  intros U Hc H. destruct U as (_ & _ & _ & _ & _ & U & _). rewrite Hc in U. destruct U as (_ & _ & _ & B).
  unfold setup_bandwidth. destruct H as [(-> & b & H)|(Hn & bs & H & L)].
  - rewrite Nat.eqb_refl, (finite_get _ _ _ H). cbn. exists [b]. repeat split. constructor; [|constructor].
    destruct B as [(x & B & P)|(l & B & _)]; rewrite H in B; [injection B as <-; exact P|discriminate].
  - destruct (Nat.eqb_spec n_dim 1); [congruence|]. rewrite (finites_get _ _ _ H). cbn [bind]. rewrite L, Nat.eqb_refl. cbn [negb]. exists bs. split; [reflexivity|]. split; [exact L|].
    destruct B as [(x & B & P)|(l & B & _ & P)]; rewrite H in B; [discriminate|injection B as <-]. rewrite Forall_map in P. exact P.
Qed.

Lemma birth_death_ok e c d ld n : usable c -> c_birth_death c = Some d -> sensible_birth_death e d (pot_ndim (ld_pot ld)) n ->
  length (pot_ranges (ld_pot ld)) = pot_ndim (ld_pot ld) -> increasing (pot_ranges (ld_pot ld)) -> (0 < ld_kt ld)%R ->
  exists par g, setup_birth_death e d ld = Ok (par, g) /\ (bd_variant par = VOrig \/ griddata_pointwise (e_gd e)) /\
    (bd_recalc par = false \/ forall m g, Forall (fun u => 0 < u)%R (fst (r_random (e_rng e) m g))).
Proof.
  intros U Hc (H2 & Hb & Hv & Hg & Hx & Hs & Hr) Lr Ir Pk. unfold setup_birth_death. cbv zeta.
  destruct (bandwidth_ok c d _ U Hc Hb) as (bw & -> & Lb & Pb). cbn [bind].
  destruct (variant_ok d Hv) as (v & -> & Pv). cbn [bind].
  pose proof U as (_ & _ & _ & _ & _ & V & _). rewrite Hc in V. destruct V as ((st & Est & Pst) & Hss & _ & _).
  destruct (opt_finite_get _ _ Hx) as (rate & Ex). destruct (seed_get _ Hs) as (s & Es & Ps). destruct (opt_int_get _ _ Hss) as (ss & Ess & _).
  assert (exists g, new_rng (e_rng e) (e_os_bd e) (bd_seed s) = Ok g) as (g & Eg).
  { apply init_seed. unfold bd_seed. destruct s as [z|]; cbn; [|exact I]. destruct (Z.eqb_spec z 0); cbn; [exact I|lia]. }
  assert (Gv : v = VOrig \/ ((pot_ndim (ld_pot ld) <= 2)%nat /\ griddata_exact (e_gd e) /\ griddata_pointwise (e_gd e))) by (destruct Pv as [Pv|Pv]; [now left|right; exact (Hg Pv)]).
  assert (Rr : forall b, b = v_true (get_dict d "recalculate-probabilities") -> b = false \/ forall m g, Forall (fun u => 0 < u)%R (fst (r_random (e_rng e) m g))).
  { intros b ->. destruct Hr as [Hr|Hr]; [left; rewrite (get_of_assoc _ _ _ Hr); reflexivity|now right]. }
  destruct Gv as [->|(D2 & Ex2 & Pw)].
  - cbn [bind]. rewrite (get_of_assoc _ _ _ Est), Ex, (v_opt_int_of _ _ _ Es), Ess. cbn [v_int bind]. rewrite Eg. cbn [bind].
    unfold bd_init. destruct (Req_EM_T (ld_kt ld) 0); [lra|]. cbv zeta. cbn [bind]. do 2 eexists. split; [reflexivity|]. cbn [bd_variant bd_recalc]. split; [now left|]. apply Rr. reflexivity.
  - destruct (density_of (ld_pot ld) bw (ld_kt ld) Lr Lb Ir Pb Pk) as (dg & ns & vv & Ed & G & Pv2 & Ln).
    assert (X : exists par, bd_init (e_gd e) (e_nan e) (ld_dt ld) st bw (ld_kt ld) rate (v_true (get_dict d "recalculate-probabilities")) (Some v)
        (match v with VOrig => None | _ => Some dg end) ss (v_true (get_dict d "stats-filename")) = Ok par /\ bd_recalc par = v_true (get_dict d "recalculate-probabilities")).
    { unfold bd_init. destruct (Req_EM_T (ld_kt ld) 0); [lra|]. cbv zeta. destruct v.
      - cbn [bind]. eexists. split; [reflexivity|reflexivity].
      - destruct (additive_spec (e_gd e) (e_nan e) dg _ ns vv bw Ex2 G ltac:(lia) Ir ltac:(lia) Pb Pv2) as (k & w & I' & h & u & _ & _ & _ & _ & E & _). rewrite E. cbn [bind]. eexists. split; reflexivity.
      - destruct (multiplicative_spec (e_gd e) (e_nan e) dg _ ns vv bw Ex2 G ltac:(lia) Ir ltac:(lia) Pb Pv2) as (k & w & h & u & _ & _ & _ & E & _). rewrite E. cbn [bind]. eexists. split; reflexivity. }
    destruct X as (par & X & Xr).
    assert (Y : match v with VOrig => Ok None | _ => do d0 <- bd_prob_density (ld_pot ld) bw (ld_kt ld); Ok (Some d0) end = Ok (match v with VOrig => None | _ => Some dg end)) by (destruct v; [reflexivity|rewrite Ed; reflexivity|rewrite Ed; reflexivity]).
    rewrite Y. cbn [bind]. rewrite (get_of_assoc _ _ _ Est), Ex, (v_opt_int_of _ _ _ Es), Ess. cbn [v_int bind]. rewrite Eg. cbn [bind]. rewrite X. cbn [bind].
    exists par, g. split; [reflexivity|]. split; [now right|]. apply Rr. exact Xr.
Qed.

(** * the output actions *)
Lemma trajectories_ok e c d n : usable c -> c_trajectories c = Some d -> exists t, setup_trajectories e d n = Ok t /\ tr_wstride t <> 0 /\ d <> [].
Proof.
  intros (_ & _ & _ & _ & _ & _ & U & _) Hc. rewrite Hc in U. destruct U as (U1 & U2).
  destruct (opt_int_get _ _ U1) as (s & E1 & _). destruct (opt_int_get _ _ U2) as (w & E2 & P & _).
  unfold setup_trajectories. rewrite E1, E2. cbn [bind]. eexists. split; [reflexivity|]. split; [|intros ->; destruct U1 as [U1|(z & U1 & _)]; discriminate].
  cbn. destruct w as [w|]; cbn; [|lia]. destruct (Z.eqb_spec w 0); lia.
Qed.
Lemma named_true d stride name : named d stride name -> assoc stride d <> Some VNone -> v_true (get_dict d name) = true.
Proof. intros [H|(s & H & N)] X; [congruence|]. rewrite (get_of_assoc _ _ _ H). cbn. destruct (String.eqb_spec s ""); [congruence|reflexivity]. Qed.
Lemma hist_bounds_fin l : v_hist_bounds (VFloats (map Fin l)) = Ok l.
Proof. unfold v_hist_bounds. cbn [v_xfloats bind]. induction l as [|x l IH]; [reflexivity|]. cbn [map mapM hist_bound bind]. rewrite IH. reflexivity. Qed.
Lemma histogram_ok c d n_dim t : usable c -> c_histogram c = Some d -> sensible_histogram d n_dim -> tr_wstride t <> 0 ->
  exists h, setup_histogram d n_dim t = Ok h /\ h_data (ha_hist h) <> [] /\ length (h_data (ha_hist h)) = length (hist_points (ha_hist h)) /\
    length (h_edges (ha_hist h)) = n_dim /\ ha_update h <> 0 /\ d <> [].
Proof.
  intros (_ & _ & _ & _ & _ & _ & _ & U & _) Hc (B & Nm) Ht. rewrite Hc in U. destruct U as (U1 & U2 & U3 & U4).
  assert (Nd : d <> []) by (intros ->; destruct U1 as [U1|(z & U1 & _)]; discriminate).
  destruct (opt_int_get _ _ U1) as (s & E1 & _). destruct (opt_int_get _ _ U2) as (w & E2 & Pw & Nw).
  assert (exists r, v_opt_ints (get_dict d "reset") = Ok r) as (r & E3).
  { destruct U3 as [U3|(l & U3 & _)]; rewrite (get_of_assoc _ _ _ U3); cbn; eauto. }
  assert (Fw : truthyZ w && negb (v_true (get_dict d "filename")) = false).
  { destruct w as [w|]; [|reflexivity]. rewrite (named_true _ _ _ Nm); [apply andb_false_r|]. intro X. apply Nw in X. discriminate. }
  unfold setup_histogram. rewrite E1, E2, E3.
  assert (X : exists ranges bins, (if Nat.eqb n_dim 1 then do lo <- v_hist_bound (get_dict d "min"); do hi <- v_hist_bound (get_dict d "max"); do b <- v_int (get_dict d "bins"); Ok ([(lo, hi)], [b])
     else do los <- v_hist_bounds (get_dict d "min"); do his <- v_hist_bounds (get_dict d "max"); do b <- v_ints (get_dict d "bins"); Ok (combine los his, b)) = Ok (ranges, bins) /\
     length ranges = n_dim /\ length bins = n_dim /\ increasing ranges /\ Forall (fun b => 0 < b) bins).
  { destruct B as [(-> & lo & hi & n & B1 & B2 & B3 & B4)|(Hn & los & his & ns & B1 & B2 & B3 & B4 & B5 & B6)].
    - rewrite Nat.eqb_refl, (get_of_assoc _ _ _ B1), (get_of_assoc _ _ _ B2), (get_of_assoc _ _ _ B3). cbn. do 2 eexists. split; [reflexivity|]. repeat split; [constructor; [exact B4|constructor]|].
      constructor; [|constructor]. destruct U4 as [(z & U4 & P)|(l & U4 & _)]; rewrite B3 in U4; [injection U4 as <-; exact P|discriminate].
    - destruct (Nat.eqb_spec n_dim 1); [congruence|]. rewrite (get_of_assoc _ _ _ B1), (get_of_assoc _ _ _ B2), (get_of_assoc _ _ _ B3). rewrite !hist_bounds_fin. cbn [v_ints bind].
      destruct (forall2_increasing _ _ B6) as (I & L & _). do 2 eexists. split; [reflexivity|]. repeat split; auto; [lia|].
      destruct U4 as [(z & U4 & P)|(l & U4 & _ & P)]; rewrite B3 in U4; [discriminate|injection U4 as <-; exact P]. }
  destruct X as (ranges & bins & -> & L1 & L2 & I & Pb). cbn [bind]. unfold ha_init. rewrite map_length, L1, L2, Nat.eqb_refl. cbn [negb].
  destruct (hist_init_spec (map Z.to_nat bins) ranges) as (h & Eh & _ & Hu & Le & _).
  - rewrite map_length. congruence.
  - apply Forall_map. eapply Forall_impl; [|exact Pb]. cbn. intros a Ha. lia.
  - exact I.
  - rewrite Eh. cbn [bind]. rewrite Fw. eexists. split; [reflexivity|]. cbn [ha_hist ha_update].
    assert (S : length (h_data h) = length (hist_points h)).
    { rewrite hist_points_length. destruct (hist_init_size _ _ _ Eh) as ((_ & S) & _). rewrite S. apply prod_size. }
    split; [|split; [exact S|split; [congruence|split; [exact Ht|exact Nd]]]].
    intro X. rewrite X in S. symmetry in S. rewrite hist_points_length in S. revert S. apply Nat.neq_0_lt_0.
    clear - Hu Pb. revert ranges Hu. generalize (h_edges h). induction Pb as [|b bins Hb Pb IH]; intros E ranges Hu; cbn [map] in Hu.
    { cbn in Hu. inversion Hu. cbn. lia. }
    destruct ranges as [|r ranges]; cbn [combine] in Hu; inversion Hu as [|? x ? E' (L & _) Hu']; subst; [cbn; lia|]. cbn [n_bins_of map size fst snd] in *. specialize (IH _ _ Hu'). unfold n_bins_of in IH. nia.
Qed.
