(** Accepted inputs run to their end: the components (C56) *)
From Coq Require Import Lia Lra.
From Verif Require Import PyBase Model_xr Model_input Spec_input Spec_rng Model_dyn Model_bd Model_traj Model_histaction Model_fes Model_rec Model_deltaf
  Model_pdist Model_setup Model_main Spec_times Spec_traj Spec_trajrun Spec_hist Spec_histact Spec_setup Spec_rec Spec_fes Spec_pdist Spec_ld Spec_bdrun Spec_main Spec_whole
  Proof_base Proof_ld Proof_hist Proof_histprops Proof_trajrun Proof_rec Proof_fes Proof_pdist Proof_input Proof_setup2 Proof_main Proof_main2 Proof_whole Proof_whole2.
Open Scope string_scope.
Open Scope Z_scope.
Ltac Zify.zify_post_hook ::= idtac.

(** * dynamics *)
Definition stepf (e : env) (ld : ldpar) (d : dyn e) (k : Z) : res (dyn e) :=
  do (ps, g) <- ld_run (e_rng e) ld (fst (fst d)) (snd (fst d));
  match snd d with
  | None => Ok (ps, g, None)
  | Some (par, bg, st, out) =>
      do (b, out') <- bd_run (e_rng e) (e_gd e) par k (mkBS ps bg st, out);
      Ok (bs_ps b, g, Some (par, bs_rng b, bs_stats b, out'))
  end.
Lemma stepf_rel e ld d k d' : stepf e ld d k = Ok d' <-> dyn_step e ld k d d'.
Proof.
  destruct d as [[ps g] [[[[par bg] st] out]|]], d' as [[ps2 g2] bd2]; unfold stepf; cbn [fst snd]; split; intro H.
  - binds H. apply ok_inj in H. rewrite <- H. econstructor; eassumption.
  - apply dyn_step_inv in H. destruct H as (ps' & H1 & b & out' & H2 & -> & ->). rewrite H1. cbn [bind]. rewrite H2. reflexivity.
  - binds H. apply ok_inj in H. rewrite <- H. econstructor; eassumption.
  - apply dyn_step_inv in H. destruct H as (ps' & H1 & -> & ->). rewrite H1. reflexivity.
Qed.

Definition good_dyn (e : env) (ndim np : nat) (d : dyn e) : Prop :=
  length (fst (fst d)) = np /\ Forall (right_size ndim) (fst (fst d)) /\
  match snd d with None => True | Some (par, _, _, _) => bd_ready e par ndim np end.

Lemma ld_run_length rng ld : forall ps g ps' g', ld_run rng ld ps g = Ok (ps', g') -> length ps' = length ps.
Proof.
  induction ps as [|p ps IH]; intros g ps' g' H; cbn [ld_run] in H; [apply ok_inj in H; injection H as <- _; reflexivity|].
  binds H. apply ok_inj in H. injection H as <- _. cbn. f_equal. eapply IH; eassumption.
Qed.
Lemma step_good e ld np d k : rng_ok (e_rng e) -> force_size (ld_pot ld) -> bc_ok (ld_pot ld) ->
  good_dyn e (pot_ndim (ld_pot ld)) np d -> exists d', stepf e ld d k = Ok d' /\ good_dyn e (pot_ndim (ld_pot ld)) np d'.
Proof.
  intros R F B (L & S & G). destruct d as [[ps g] bd]. unfold stepf. cbn [fst snd] in *.
  destruct (ld_run_total (e_rng e) ld R F B ps g S) as (ps' & g' & E & S' & _). rewrite E. cbn [bind].
  pose proof (ld_run_length _ _ _ _ _ _ E) as L'.
  destruct bd as [[[[par bg] st] out]|].
  - destruct (bd_run_total e par (pot_ndim (ld_pot ld)) np k ps' bg st out R G ltac:(congruence) S') as (b & out' & E2 & L2 & S2).
    rewrite E2. cbn [bind]. eexists. split; [reflexivity|]. split; [exact L2|]. split; [exact S2|exact G].
  - eexists. split; [reflexivity|]. split; [cbn; congruence|]. split; [exact S'|exact I].
Qed.

Lemma dynamics_total e ld np d0 : rng_ok (e_rng e) -> force_size (ld_pot ld) -> bc_ok (ld_pot ld) ->
  good_dyn e (pot_ndim (ld_pot ld)) np d0 ->
  exists D : Z -> dyn e, D 0 = d0 /\ (forall k, 1 <= k -> dyn_step e ld k (D (k - 1)) (D k)) /\
    forall k, good_dyn e (pot_ndim (ld_pot ld)) np (D k).
Proof.
  intros R F B G0.
  assert (T : forall k, exists d, foldM (stepf e ld) (zrange 1 (k + 1)) d0 = Ok d /\ good_dyn e (pot_ndim (ld_pot ld)) np d).
  { assert (N : forall k, k <= 0 -> exists d, foldM (stepf e ld) (zrange 1 (k + 1)) d0 = Ok d /\ good_dyn e (pot_ndim (ld_pot ld)) np d).
    { intros k Hk. rewrite zrange_nil by lia. exists d0. auto. }
    intro k. destruct (Z.le_gt_cases k 0) as [Hk|Hk]; [auto|]. assert (Hk' : 0 <= k) by lia. clear Hk. revert k Hk'.
    apply natlike_ind; [apply N; lia|]. intros k Hk (d & E & G). unfold Z.succ. rewrite foldM_snoc by lia. rewrite E. cbn [bind].
    destruct (step_good e ld np d (k + 1) R F B G) as (d' & E' & G'). eauto. }
  set (D := fun k => match foldM (stepf e ld) (zrange 1 (k + 1)) d0 with Ok d => d | Err _ => d0 end).
  assert (HD : forall k, foldM (stepf e ld) (zrange 1 (k + 1)) d0 = Ok (D k) /\ good_dyn e (pot_ndim (ld_pot ld)) np (D k)).
  { intro k. unfold D. destruct (T k) as (d & -> & G). auto. }
  exists D. split; [|split].
  - unfold D. rewrite zrange_nil by lia. reflexivity.
  - intros k Hk. apply stepf_rel. destruct (HD k) as [H1 _]. destruct (HD (k - 1)) as [H2 _].
    pose proof (foldM_snoc (stepf e ld) (k - 1) d0 ltac:(lia)) as H3. replace (k - 1 + 1) with k in * by lia.
    rewrite H1, H2 in H3. cbn [bind] in H3. symmetry. exact H3.
  - intro k. apply HD.
Qed.

(** * recorders *)
Lemma rec_total {A} stride wstride fn (junk : nat -> list A) single0 r0 (rows : Z -> A) last n :
  positive_option stride -> positive_option wstride -> (forall m, length (junk m) = m) -> 0 <= n ->
  rec_init stride wstride fn junk single0 = Ok r0 ->
  exists r, (do r1 <- foldM (fun r k => rec_run (Ok (rows k)) r k) (zrange 1 (n + 1)) r0; rec_final_run (Ok last) r1 n) = Ok r.
Proof.
  intros Ps Pw Hj Hn H. destruct stride as [s|].
  - specialize (Ps s eq_refl). set (W := option_or wstride (100 * s)).
    assert (HW : 0 < W) by (apply option_or_pos; [exact Pw|lia]).
    assert (HWs : W mod s = 0 /\ (wstride <> None -> fn = true)).
    { unfold rec_init in H. cbn [orZ] in H. assert (E0 : (s =? 0) = false) by (apply Z.eqb_neq; lia). rewrite !E0 in H. cbn [negb] in H.
      rewrite (Z.mul_comm s 100), (option_or_orZ wstride (100 * s) Pw) in H. fold W in H.
      destruct (truthyZ wstride && negb fn)%bool eqn:E; [discriminate|].
      destruct (Z.eqb_spec (W mod s) 0) as [HW0|]; cbn [negb] in H; [|discriminate]. split; [exact HW0|].
      intro Hw. destruct wstride as [z|]; [|congruence]. specialize (Pw z eq_refl). cbn [truthyZ] in E.
      destruct (Z.eqb_spec z 0); [lia|]. destruct fn; [reflexivity|discriminate]. }
    destruct HWs as [HWs Hfn].
    destruct (rec_init_inv (Some s) wstride fn junk single0 rows s W eq_refl Ps Pw eq_refl HWs Hfn Hj) as (r0' & f & E0 & I0 & _).
    rewrite H in E0. apply ok_inj in E0. subst r0'.
    assert (L : forall k, 0 <= k -> exists r, foldM (fun r k => rec_run (Ok (rows k)) r k) (zrange 1 (k + 1)) r0 = Ok r /\ rec_inv s W rows f fn r k).
    { intros k Hk. pattern k. apply natlike_ind; [rewrite zrange_nil by lia; exists r0; split; [reflexivity|exact I0]| |exact Hk]. clear k Hk. intros k Hk (r & E & I). unfold Z.succ. rewrite foldM_snoc by lia. rewrite E. cbn [bind].
      apply rec_run_inv; try lia. replace (k + 1 - 1) with k by lia. exact I. }
    destruct (L n Hn) as (r & -> & I). cbn [bind]. destruct fn.
    + destruct (rec_final_inv s W rows f r n (Ok last) Ps HW HWs Hn I) as (r' & -> & _). eauto.
    + unfold rec_final_run. rewrite (ri_stride _ _ _ _ _ _ _ I). destruct (Z.eqb_spec s 0); [lia|]. cbn [bind].
      rewrite rec_write_nofile; [eauto|]. apply (ri_file _ _ _ _ _ _ _ I).
  - cbn in H. apply ok_inj in H.
    assert (L : forall l, foldM (fun r k => rec_run (Ok (rows k)) r k) l r0 = Ok r0).
    { induction l as [|k l IH]; [reflexivity|]. cbn [foldM]. rewrite <- H at 1. cbn. rewrite H. exact IH. }
    rewrite L. cbn [bind]. rewrite <- H. unfold rec_final_run. cbn. unfold rec_write. cbn. destruct fn; eauto.
Qed.

(** * trajectories *)
Lemma opt_positive d k x : none_or_positive_int d k -> v_opt_int (get_dict d k) = Ok x -> positive_option x.
Proof.
  unfold get_dict. intros [E|(z & E & P)]; rewrite E; cbn; intro H; apply ok_inj in H; subst x; intros y Hy; [discriminate|].
  injection Hy as <-. exact P.
Qed.
Lemma np_empty_length {A} (junk : nat -> A) n : length (np_empty junk n) = n.
Proof. unfold np_empty. rewrite map_length, seq_length. reflexivity. Qed.

(** the trajectory action made by the setup *)
Record traj_made (t : traj) (np : nat) (stride wstride : option Z) (fn mom : bool) (times0 : list R) (pos0 mom0 : list (list vec)) : Prop := {
  tm_eq : t = traj_init np stride fn mom wstride times0 pos0 mom0;
  tm_stride : positive_option stride; tm_wstride : positive_option wstride;
  tm_times : Z.of_nat (length times0) = option_or wstride 100;
  tm_pos : Z.of_nat (length pos0) = option_or wstride 100;
  tm_mom : Z.of_nat (length mom0) = option_or wstride 100 }.
Lemma setup_traj_made e c o np t : usable c -> c_trajectories c = Some o -> setup_trajectories e o np = Ok t ->
  exists stride wstride times0 pos0 mom0, v_opt_int (get_dict o "stride") = Ok stride /\ v_opt_int (get_dict o "write-stride") = Ok wstride /\
    traj_made t np stride wstride (v_true (get_dict o "filename")) (v_true (get_dict o "momentum")) times0 pos0 mom0.
Proof.
  intros U Hc H. destruct U as (_ & _ & _ & _ & _ & _ & U & _). rewrite Hc in U. destruct U as [U1 U2].
  unfold setup_trajectories in H. binds H. cbv zeta in H. apply ok_inj in H. subst t.
  pose proof (opt_positive _ _ _ U1 E) as P1. pose proof (opt_positive _ _ _ U2 E0) as P2.
  rewrite (option_or_orZ _ 100 P2). pose proof (option_or_pos x0 100 P2 ltac:(lia)) as HW.
  exists x, x0. do 3 eexists. split; [exact E|]. split; [exact E0|].
  split; [reflexivity|assumption|assumption| | |]; rewrite np_empty_length; lia.
Qed.
Lemma traj_total t np stride wstride fn mom times0 pos0 mom0 dt hist manual n :
  traj_made t np stride wstride fn mom times0 pos0 mom0 -> (0 < np)%nat -> 0 <= n -> (forall k, length (hist k) = np) ->
  exists t', traj_simulation dt hist manual n t = Ok t' /\
    tr_files t' = if fn then Some (traj_files dt mom hist (option_or stride 1) n np) else None.
Proof.
  intros [] Hnp Hn Hh. subst t. destruct fn; [apply traj_simulation_files|apply traj_simulation_nofile]; assumption.
Qed.

(** * histogram *)
Definition widen (r : R * R) : R * R :=
  let (lo, hi) := r in if Req_EM_T lo hi then (lo - 1/2, hi + 1/2)%R else (lo, hi).
Lemma bin_edges_widen n r e : bin_edges n r = Ok e -> (0 < n)%nat /\ (fst (widen r) < snd (widen r))%R /\ bin_edges n (widen r) = Ok e.
Proof.
  destruct r as [lo hi]. unfold bin_edges, widen. destruct (Rlt_dec hi lo); [discriminate|].
  destruct (Nat.eqb_spec n 0); [discriminate|]. destruct (Req_EM_T lo hi) as [H|H]; intro E; cbn [fst snd].
  - destruct (Rlt_dec (hi + 1/2) (lo - 1/2)); [lra|]. destruct (Req_EM_T (lo - 1/2) (hi + 1/2)); [lra|]. repeat split; [lia|lra|exact E].
  - destruct (Rlt_dec hi lo); [contradiction|]. destruct (Req_EM_T lo hi); [contradiction|]. repeat split; [lia|lra|exact E].
Qed.
Lemma edges_widen : forall nb rs es, length nb = length rs ->
  mapM (fun nr => bin_edges (fst nr) (snd nr)) (combine nb rs) = Ok es ->
  Forall (fun n => (0 < n)%nat) nb /\ Forall (fun r => fst r < snd r)%R (map widen rs) /\
  mapM (fun nr => bin_edges (fst nr) (snd nr)) (combine nb (map widen rs)) = Ok es.
Proof.
  induction nb as [|n nb IH]; intros [|r rs] es L H; try discriminate L; [cbn in *; auto|].
  cbn [combine mapM fst snd] in H. apply bind_ok in H. destruct H as (e & E & H). apply bind_ok in H. destruct H as (es' & E' & H).
  apply ok_inj in H. subst es. apply bin_edges_widen in E. destruct E as (H1 & H2 & H3).
  destruct (IH rs es' ltac:(cbn in L; lia) E') as (I1 & I2 & I3). cbn [map combine mapM fst snd].
  split; [constructor; auto|]. split; [constructor; auto|]. rewrite H3. cbn [bind]. rewrite I3. reflexivity.
Qed.
Lemma hist_init_widen nb rs h : hist_init nb rs = Ok h ->
  length nb = length rs /\ Forall (fun n => (0 < n)%nat) nb /\ Forall (fun r => fst r < snd r)%R (map widen rs) /\ hist_init nb (map widen rs) = Ok h.
Proof.
  unfold hist_init. intro H. apply bind_ok in H. destruct H as (st & _ & H).
  destruct (Nat.eqb (length nb) (length rs)) eqn:L; cbn [negb] in H; [|discriminate]. apply Nat.eqb_eq in L.
  apply bind_ok in H. destruct H as (es & E & H). destruct (edges_widen _ _ _ L E) as (H1 & H2 & H3).
  split; [exact L|]. split; [exact H1|]. split; [exact H2|].
  destruct (stepsizes_bins (map widen rs) nb ltac:(rewrite map_length; exact L) H1) as (st' & ->). cbn [bind].
  rewrite map_length, L, Nat.eqb_refl. cbn [negb]. rewrite H3. cbn [bind]. rewrite L in H. exact H.
Qed.

(** the histogram action made by the setup *)
Record hist_made (h : histact) (t : traj) (ndim : nat) (n_bins : list nat) (ranges : list (R * R)) (hstride : option Z)
    (reset : option (list Z)) (hfn : bool) (hws : option Z) : Prop := {
  hm_eq : ha_init t (length ranges) n_bins ranges hstride reset hfn hws = Ok h;
  hm_dim : length ranges = ndim;
  hm_stride : positive_option hstride;
  hm_ws : forall z, hws = Some z -> 0 < z /\ hfn = true;
  hm_bins : length n_bins = length ranges /\ Forall (fun n => (0 < n)%nat) n_bins;
  hm_ranges : Forall (fun r => fst r < snd r)%R ranges }.
Lemma setup_hist_made c o ndim t h : usable c -> c_histogram c = Some o -> setup_histogram o ndim t = Ok h ->
  exists n_bins ranges hstride reset hws, v_opt_int (get_dict o "stride") = Ok hstride /\ v_opt_ints (get_dict o "reset") = Ok reset /\
    v_opt_int (get_dict o "write-stride") = Ok hws /\
    hist_made h t ndim n_bins ranges hstride reset (v_true (get_dict o "filename")) hws.
Proof.
  intros U Hc H. destruct U as (_ & _ & _ & _ & _ & _ & _ & U & _). rewrite Hc in U. destruct U as (U1 & U2 & _).
  unfold setup_histogram in H. apply bind_ok in H. destruct H as ([rs bins] & _ & H). binds H.
  pose proof (opt_positive _ _ _ U1 E) as P1. pose proof (opt_positive _ _ _ U2 E1) as P2.
  set (nb := map Z.to_nat bins) in *. exists nb, (map widen rs), x, x0, x1.
  unfold ha_init in H. destruct (Nat.eqb ndim (length nb)) eqn:L1; cbn [negb] in H; [|discriminate].
  destruct (Nat.eqb ndim (length rs)) eqn:L2; cbn [negb] in H; [|discriminate]. apply Nat.eqb_eq in L1, L2.
  apply bind_ok in H. destruct H as (hh & Eh & H). destruct (hist_init_widen _ _ _ Eh) as (_ & Pb & Pr & Eh').
  split; [exact E|]. split; [exact E0|]. split; [exact E1|]. constructor.
  - unfold ha_init. rewrite map_length, <- L2, <- L1, Nat.eqb_refl. cbn [negb]. rewrite Eh'. cbn [bind]. exact H.
  - rewrite map_length. congruence.
  - exact P1.
  - intros z ->. specialize (P2 z eq_refl). split; [exact P2|]. cbn [truthyZ] in H.
    destruct (Z.eqb_spec z 0); [lia|]. destruct (v_true (get_dict o "filename")); [reflexivity|discriminate].
  - rewrite map_length. split; [congruence|exact Pb].
  - exact Pr.
Qed.

Lemma bins_of_nbins nb rs es : length nb = length rs -> bins_of nb rs es -> n_bins_of es = nb.
Proof.
  unfold bins_of. revert rs es. induction nb as [|n nb IH]; intros [|r rs] es L H; try discriminate L; cbn [combine] in H; inversion H; subst; [reflexivity|].
  cbn. destruct H2 as [Hl _]. cbn [fst] in Hl. rewrite Hl. f_equal; [lia|]. apply (IH rs); [cbn in L; lia|assumption].
Qed.
Lemma prod_pos l : Forall (fun n => (0 < n)%nat) l -> (0 < prod_list l)%nat.
Proof.
  intro H. unfold prod_list. induction H as [|n l Hn _ IH]; cbn; nia.
Qed.

Lemma hist_total h0 t0 np stride wstride fn mom times0 pos0 mom0 ndim nb rs hs reset hfn hws dt hist n :
  traj_made t0 np stride wstride fn mom times0 pos0 mom0 -> hist_made h0 t0 ndim nb rs hs reset hfn hws ->
  (0 < np)%nat -> 0 < n -> (forall k, length (hist k) = np /\ Forall (fun p => length (p_pos p) = ndim) (hist k)) ->
  exists H : Z -> histact, H 0 = h0 /\ n_bins_of (h_edges (ha_hist h0)) = nb /\
    (forall k, 0 <= k <= n -> exists tk, hist_loop dt hist k (t0, h0) = Ok (tk, H k)) /\
    (exists t, hist_simulation dt hist n (t0, h0) = Ok (t, H (n + 1))) /\
    (forall k, length (h_data (ha_hist (H k))) = prod_list nb).
Proof.
  intros T M Hnp Hn Hh. destruct M. destruct T.
  assert (A : hist_accepted hist np stride wstride times0 pos0 mom0 nb rs hs hfn hws).
  { constructor; try assumption. intro k. rewrite hm_dim0. apply Hh. }
  assert (St : forall st0, hist_start fn np stride mom wstride times0 pos0 mom0 nb rs hs reset hfn hws = Ok st0 -> st0 = (t0, h0)).
  { intros st0. unfold hist_start. rewrite <- tm_eq0. cbv zeta. rewrite hm_eq0. cbn [bind]. intro H. apply ok_inj in H. now subst. }
  assert (Len : forall h, bins_of nb rs (h_edges h) -> length (h_data h) = n_cells (h_edges h) -> length (h_data h) = prod_list nb).
  { intros h Hb Hd. rewrite Hd, <- prod_nbins. f_equal. eapply bins_of_nbins; [apply hm_bins0|exact Hb]. }
  assert (Du : forall k, 0 <= k -> exists tk hk, hist_loop dt hist k (t0, h0) = Ok (tk, hk) /\ length (h_data (ha_hist hk)) = prod_list nb /\
     n_bins_of (h_edges (ha_hist hk)) = nb).
  { intros k Hk. destruct (hist_during dt hist fn np stride mom wstride times0 pos0 mom0 nb rs hs reset hfn hws A k Hk) as (st0 & t & ha & E0 & E & B & D & _).
    rewrite (St _ E0) in E. exists t, ha. split; [exact E|]. split; [apply Len; [exact B|apply D]|]. eapply bins_of_nbins; [apply hm_bins0|exact B]. }
  destruct (hist_after dt hist fn np stride mom wstride times0 pos0 mom0 nb rs hs reset hfn hws A n Hn) as (st0 & t & ha & E0 & E & B & D & _).
  rewrite (St _ E0) in E.
  destruct (Du 0 ltac:(lia)) as (tz & hz & Ez & Lz & Nz). unfold hist_loop in Ez. rewrite zrange_nil in Ez by lia. cbn [foldM] in Ez. apply ok_inj in Ez.
  injection Ez as <- <-.
  exists (fun k => if k <=? n then match hist_loop dt hist k (t0, h0) with Ok (_, h) => h | Err _ => h0 end else ha).
  split; [|split; [exact Nz|split; [|split]]].
  - destruct (Z.leb_spec 0 n); [|lia]. unfold hist_loop. rewrite zrange_nil by lia. reflexivity.
  - intros k Hk. destruct (Z.leb_spec k n); [|lia]. destruct (Du k ltac:(lia)) as (tk & hk & -> & _). eauto.
  - destruct (Z.leb_spec (n + 1) n); [lia|]. eauto.
  - intro k. destruct (Z.leb_spec k n); [|apply Len; [exact B|apply D]].
    destruct (Z.le_gt_cases 0 k) as [Hk|Hk]; [destruct (Du k Hk) as (tk & hk & -> & L & _); exact L|].
    unfold hist_loop. rewrite zrange_nil by lia. exact Lz.
Qed.
