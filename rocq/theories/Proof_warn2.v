(** Without warnings all outputs are up to date *)
From Coq Require Import Lia ZArith.
From Verif Require Import PyBase Model_xr Model_input Model_dyn Model_bd Model_traj Model_hist Model_histaction Model_fes Model_rec Model_deltaf Model_pdist
  Model_setup Model_main Model_warn Spec_input Spec_rng Spec_ld Spec_times Spec_traj Spec_trajrun Spec_hist Spec_histact Spec_setup Spec_fes Spec_rec Spec_pdist Spec_main Spec_whole Spec_warn
  Proof_base Proof_histact Proof_histprops Proof_whole7 Proof_warn.
Open Scope string_scope.
Open Scope Z_scope.
Open Scope list_scope.
Ltac Zify.zify_post_hook ::= idtac.

Lemma in_fes_warnings W s w p x : In x (fes_warnings W s w p) <->
  match x with WFesStride => no_multiple s (Some W) = true | WFesWriteStride => no_multiple w s = true
             | WFesPlotStride => no_multiple p s = true | WDeltaFStride => False end.
Proof.
  unfold fes_warnings. destruct (no_multiple s (Some W)), (no_multiple w s), (no_multiple p s), x; cbn; intuition congruence.
Qed.
Lemma no_multiple_iff a b : no_multiple a b = true <-> match a, b with Some x, Some y => x <> 0 /\ x mod y <> 0 | _, _ => False end.
Proof.
  unfold no_multiple. destruct a as [x|], b as [y|]; try intuition congruence. rewrite Bool.andb_true_iff, !Bool.negb_true_iff, !Z.eqb_neq. reflexivity.
Qed.

(** warnings are given exactly for combinations of strides with outputs that are not up to date *)
Lemma warnings_exact e cv secs acts n w0 c ot oh of h0 : set_up e cv secs acts n w0 ->
  parse_all cv secs = Ok c -> c_trajectories c = Some ot -> c_histogram c = Some oh -> c_fes c = Some of ->
  w_hist w0 = Some h0 -> w_fes w0 <> None ->
  let W := option_or (opt_int ot "write-stride") 100 in
  (In WFesStride (setup_warnings w0) <-> exists k, 0 < k /\ acts_at (opt_int of "stride") k /\ latest (Some W) k <> k) /\
  (In WFesWriteStride (setup_warnings w0) <-> exists k, 0 < k /\ acts_at (opt_int of "write-stride") k /\ latest (opt_int of "stride") k <> k) /\
  (In WFesPlotStride (setup_warnings w0) <-> exists k, 0 < k /\ acts_at (opt_int of "plot-stride") k /\ latest (opt_int of "stride") k <> k) /\
  (In WDeltaFStride (setup_warnings w0) <->
   exists od, c_delta_f c = Some od /\ w_df w0 <> None /\ exists k, 0 < k /\ acts_at (opt_int od "stride") k /\ latest (opt_int of "stride") k <> k).
Proof.
  intros HS Hp Hct Hch Hcf Eh Nf. cbv zeta. destruct (warnings_options _ _ _ _ _ _ _ _ _ _ _ HS Hp Hct Hch Hcf Eh Nf) as (PW & _ & Ps & Tw & Tp & dfw & E & Dw & Dn & Dd).
  rewrite E. rewrite !in_app_iff, !in_fes_warnings, !no_multiple_iff.
  assert (N : forall x, x <> WDeltaFStride -> ~ In x dfw) by (intros x Hx Hi; apply Dw in Hi; contradiction).
  pose proof (N WFesStride ltac:(discriminate)) as N1. pose proof (N WFesWriteStride ltac:(discriminate)) as N2. pose proof (N WFesPlotStride ltac:(discriminate)) as N3.
  assert (PW' : positive_option (Some (option_or (opt_int ot "write-stride") 100))) by (intros z [= <-]; exact PW).
  assert (S : forall o, (truthyZ o = true -> opt_int of "stride" <> None) ->
    match o, opt_int of "stride" with Some x, Some y => x <> 0 /\ x mod y <> 0 | _, _ => False end <->
    exists k, 0 < k /\ acts_at o k /\ latest (opt_int of "stride") k <> k).
  { intros o Ho. rewrite <- acts_latest by exact Ps. destruct o as [x|]; [|reflexivity]. destruct (opt_int of "stride"); [reflexivity|].
    split; [tauto|]. intro Hx. apply Ho; [|reflexivity]. unfold truthyZ. apply Bool.negb_true_iff, Z.eqb_neq. exact Hx. }
  split; [|split; [|split]].
  - rewrite <- acts_latest by exact PW'. destruct (opt_int of "stride"); tauto.
  - rewrite <- (S _ Tw). tauto.
  - rewrite <- (S _ Tp). tauto.
  - split.
    + intros [[]|Hi]. destruct (w_df w0) as [d|] eqn:Ed; [|rewrite Dn in Hi by reflexivity; contradiction].
      destruct HS as (c' & w1 & Hp' & H1 & Ha & _). rewrite Hp in Hp'. injection Hp' as <-.
      destruct (Proof_whole2.set_up_built _ _ _ _ _ H1 Ha) as (B & _).
      destruct (Proof_whole2.bu_df _ _ _ B) as [?|(od & _ & d' & Hc' & _)]; [congruence|]. exists od. split; [exact Hc'|]. split; [congruence|].
      destruct (Dd od d Hc' eq_refl) as [Pd ->]. apply acts_latest; [exact Ps|]. unfold delta_f_warnings in Hi.
      destruct (opt_int od "stride") as [z|] eqn:Eo; cbn [option_or] in Hi; [|destruct Hi].
      destruct (negb (z =? 0)) eqn:Ez; cbn [andb] in Hi; [|destruct Hi]. apply Bool.negb_true_iff, Z.eqb_neq in Ez.
      destruct (opt_int of "stride") as [y|]; [|exact Ez]. destruct (negb (truthyZ (Some y))) eqn:Ey.
      { exfalso. specialize (Ps y eq_refl). unfold truthyZ in Ey. apply Bool.negb_true_iff, Bool.negb_false_iff, Z.eqb_eq in Ey. lia. }
      cbn [orb] in Hi. destruct (no_multiple (Some z) (Some y)) eqn:En; [|destruct Hi]. now apply no_multiple_iff in En.
    + intros (od & Hc & Nd & Hk). right. destruct (w_df w0) as [d|]; [|congruence]. destruct (Dd od d Hc eq_refl) as [Pd ->].
      apply acts_latest in Hk; [|exact Ps]. unfold delta_f_warnings. destruct (opt_int od "stride") as [z|]; [|destruct Hk]. cbn [option_or].
      assert (Ez : z <> 0) by (destruct (opt_int of "stride"); tauto). rewrite (proj2 (Z.eqb_neq z 0) Ez). cbn [negb andb].
      destruct (opt_int of "stride") as [y|]; [|now left]. rewrite (proj2 (no_multiple_iff (Some z) (Some y)) Hk). rewrite Bool.orb_true_r. now left.
Qed.

Lemma resets_range resets k r l : resets_upto resets k = r :: l -> 0 < r <= k.
Proof.
  intro H. assert (Hi : In r (resets_upto resets k)) by (rewrite H; now left). unfold resets_upto in Hi.
  apply in_rev, filter_In in Hi. destruct Hi as [Hi _]. apply in_zrange in Hi. lia.
Qed.
Lemma content_until fn W s hist origin resets k : 0 < W -> 0 < s -> fn = true \/ W mod s = 0 -> 0 <= k -> k mod W = 0 ->
  content fn W s hist origin resets k k = until s W hist origin resets k.
Proof.
  intros HW Hs Hf Hk Hm. unfold content, until. assert (Ek : W * (k / W) = k) by (rewrite <- Z_div_exact_full_2; [reflexivity|lia|exact Hm]).
  destruct (resets_upto resets k) as [|r l] eqn:E.
  - rewrite batches_good by (assumption || lia). rewrite Zdiv_0_l, Z.mul_0_r, Ek. reflexivity.
  - apply resets_range in E. rewrite batches_good by (assumption || lia). rewrite Ek. reflexivity.
Qed.

Lemma recorded_ext {A} (rows rows' : Z -> A) last junk s W n : positive_option s -> positive_option W ->
  (forall k, 0 < k <= n -> acts_at s k -> rows k = rows' k) -> recorded_file rows last junk s W n = recorded_file rows' last junk s W n.
Proof.
  intros Ps PW H. unfold recorded_file. destruct s as [s|]; [|reflexivity]. specialize (Ps s eq_refl).
  assert (P : 0 < option_or W (100 * s)) by (destruct W as [x|]; [exact (PW x eq_refl)|cbn [option_or]; lia]). cbv zeta. set (w := option_or W (100 * s)) in *.
  assert (M : forall a b, 0 <= a -> b <= n -> map rows (times a b s) = map rows' (times a b s)).
  { intros a b Ha Hb. apply map_ext_in. intros k Hk. unfold times in Hk. apply filter_In in Hk. destruct Hk as [Hk Hm]. apply in_zrange in Hk.
    apply H; [lia|]. cbn. now apply Z.eqb_eq. }
  pose proof (Z.mul_div_le n w P) as L. destruct (_ || _); [apply M; lia|]. f_equal; [apply M; lia|].
  destruct (n <? w) eqn:E; [reflexivity|]. apply Z.ltb_ge in E. apply M; [|lia]. assert (1 <= n / w) by (apply Z.div_le_lower_bound; lia). nia.
Qed.

Lemma outputs_current e cv secs acts n w0 w : set_up e cv secs acts n w0 -> main e cv (Some (Ok secs)) = Finished w ->
  rng_ok (e_rng e) -> w_ps w0 <> [] ->
  pot_bc (ld_pot (w_ld w0)) = None \/ length (pot_ranges (ld_pot (w_ld w0))) = pot_ndim (ld_pot (w_ld w0)) ->
  forall c ot oh of h0, parse_all cv secs = Ok c -> c_trajectories c = Some ot -> c_histogram c = Some oh -> c_fes c = Some of ->
  w_hist w0 = Some h0 -> w_fes w0 <> None -> setup_warnings w0 = [] ->
  let W := option_or (opt_int ot "write-stride") 100 in let s := option_or (opt_int oh "stride") 1 in
  opt_set ot "filename" = true \/ W mod s = 0 ->
  exists D counts F f, history e w0 n D /\ w_ps w = walkers D n /\
    (forall k, 0 <= k <= n + 1 -> is_fes (ld_kt (w_ld w0)) (counts k) (F k)) /\
    (forall k, 0 < k <= n ->
       acts_at (opt_int of "write-stride") k \/ acts_at (opt_int of "plot-stride") k \/
       (exists od, c_delta_f c = Some od /\ w_df w0 <> None /\ acts_at (opt_int od "stride") k) ->
       data_holds (h_edges (ha_hist h0)) (until s W (walkers D) (repeat 0%R (pot_ndim (ld_pot (w_ld w0)))) (opt_ints oh "reset") k) (counts k)) /\
    w_fes w = Some f /\
    fa_written f = (if opt_set of "filename" then map (fun k => (Some k, F k)) (moments (opt_int of "write-stride") n) ++ [(None, F (n + 1))] else []) /\
    fa_plotted f = (if opt_set of "plot-filename" then map (fun k => (Some k, F k)) (moments (opt_int of "plot-stride") n) ++ [(None, F (n + 1))] else []) /\
    forall od masks r0, c_delta_f c = Some od -> w_df w0 = Some (masks, r0) ->
    exists r, w_df w = Some (masks, r) /\
      let line k j := Fin (IZR k * ld_dt (w_ld w0)) :: differences (ld_kt (w_ld w0)) masks (counts j) in
      rc_file r = if opt_set od "filename"
                  then Some (recorded_file (fun k => line k k) (line n (n + 1)) (e_junk_df e) (opt_int od "stride") (opt_int od "write-stride") n)
                  else None.
Proof.
  intros HS HF Rr Rw Rg c ot oh of h0 Hp Hct Hch Hcf Eh Nf HW W s Hfn.
  destruct (warnings_options _ _ _ _ _ _ _ _ _ _ _ HS Hp Hct Hch Hcf Eh Nf) as (PW & Pss & Ps & _ & _ & dfw & _ & _ & _ & Dd).
  destruct (warnings_exact _ _ _ _ _ _ _ _ _ _ _ HS Hp Hct Hch Hcf Eh Nf) as (X1 & X2 & X3 & X4). cbv zeta in X1. fold W in X1. fold W in PW. fold s in Pss. rewrite HW in X1, X2, X3, X4. cbn [In] in X1, X2, X3, X4.
  assert (Y : forall o : option Z, (False <-> exists k, 0 < k /\ acts_at o k /\ latest (opt_int of "stride") k <> k) ->
    forall k, 0 < k -> acts_at o k -> latest (opt_int of "stride") k = k).
  { intros o Ho k Hk Ha. destruct (Z.eq_dec (latest (opt_int of "stride") k) k); [assumption|]. exfalso. apply Ho. eauto. }
  pose proof (Y _ X2) as Yw. pose proof (Y _ X3) as Yp.
  assert (Yd : forall od, c_delta_f c = Some od -> w_df w0 <> None -> forall k, 0 < k -> acts_at (opt_int od "stride") k -> latest (opt_int of "stride") k = k).
  { intros od Hc Hd. apply Y. split; [tauto|]. intro Hk. apply X4. eauto. }
  destruct (finished_surfaces _ _ _ _ _ _ _ HS HF Rr Rw Rg _ _ _ _ _ Hp Hct Hch Hcf Eh Nf) as (D & counts & h & f & F & Hh & Eps & (Cd & _) & _ & _ & _ & Fi & Ef & _ & Wr & Pl & Df). fold W s in Cd.
  assert (Mo : forall o, (forall k, 0 < k -> acts_at o k -> latest (opt_int of "stride") k = k) ->
    map (fun k => (Some k, F (latest (opt_int of "stride") k))) (moments o n) = map (fun k => (Some k, F k)) (moments o n)).
  { intros o Ho. apply map_ext_in. intros k Hk. destruct o as [x|]; [|destruct Hk]. unfold moments, times in Hk. apply filter_In in Hk. destruct Hk as [Hk Hm]. apply in_zrange in Hk.
    rewrite Ho; [reflexivity|lia|]. cbn. now apply Z.eqb_eq. }
  exists D, counts, F, f. split; [exact Hh|]. split; [exact Eps|]. split; [exact Fi|]. split.
  { intros k Hk Ha. assert (L : latest (opt_int of "stride") k = k).
    { destruct Ha as [Ha|[Ha|(od & Hc & Hd & Ha)]]; [apply Yw|apply Yp|apply (Yd od Hc Hd)]; (assumption || lia). }
    rewrite <- (content_until (opt_set ot "filename")); [apply Cd; lia|assumption|assumption|assumption|lia|].
    destruct (opt_int of "stride") as [z|] eqn:Ez; cbn [latest] in L; [|lia].
    assert (A : acts_at (Some z) k) by (cbn; rewrite <- L, Z.mul_comm; apply Z_mod_mult).
    destruct (Z.eq_dec (latest (Some W) k) k) as [E|NE]; [cbn in E; rewrite <- E, Z.mul_comm; apply Z_mod_mult|]. exfalso. apply X1. exists k. split; [lia|]. auto. }
  split; [exact Ef|]. cbv zeta in Wr, Pl. rewrite Mo in Wr by exact Yw. rewrite Mo in Pl by exact Yp. split; [exact Wr|]. split; [exact Pl|].
  intros od masks r0 Hc Hd. destruct (Df od masks r0 Hc Hd) as (r & Er & Ef'). exists r. split; [exact Er|]. cbv zeta in Ef' |- *. rewrite Ef'. destruct (opt_set od "filename"); [|reflexivity].
  assert (U : usable c) by (eapply Proof_input.accepted_usable; eassumption).
  f_equal. apply recorded_ext.
  - eapply proj1, Dd; eassumption.
  - destruct U as (_ & _ & _ & _ & _ & _ & _ & _ & _ & V & _). rewrite Hc in V. destruct V as [_ V].
    intros z Hz. unfold opt_int in Hz. destruct V as [V|(z' & V & P)]; rewrite V in Hz; [discriminate|]. injection Hz as <-. exact P.
  - intros k Hk Ha. rewrite (Yd od Hc) by (assumption || congruence || lia). reflexivity.
Qed.
