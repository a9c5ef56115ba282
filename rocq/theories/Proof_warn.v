(** Proofs for C71 *)
From Coq Require Import Lia ZArith.
From Verif Require Import PyBase Model_xr Model_input Model_dyn Model_bd Model_traj Model_hist Model_histaction Model_fes Model_rec Model_deltaf Model_pdist
  Model_setup Model_main Model_warn Spec_input Spec_rng Spec_ld Spec_times Spec_traj Spec_trajrun Spec_hist Spec_histact Spec_setup Spec_fes Spec_rec Spec_pdist Spec_main Spec_whole Spec_warn
  Proof_base Proof_ld Proof_trajrun Proof_hist Proof_histact Proof_histprops Proof_rec Proof_fes Proof_pdist Proof_input Proof_setup2 Proof_main Proof_main2 Proof_whole Proof_whole2 Proof_whole3 Proof_whole4 Proof_whole5 Proof_whole7.
Open Scope string_scope.
Open Scope Z_scope.
Ltac Zify.zify_post_hook ::= idtac.

Lemma mod_abs k x : k mod (Z.abs x) = 0 <-> k mod x = 0.
Proof.
  destruct (Z.eq_dec x 0) as [->|]; [reflexivity|]. rewrite !Z.mod_divide by lia. apply Z.divide_abs_l.
Qed.
Lemma acts_latest (a b : option Z) : positive_option b ->
  match a, b with Some x, Some y => x <> 0 /\ x mod y <> 0 | Some x, None => x <> 0 | None, _ => False end <->
  exists k, 0 < k /\ acts_at a k /\ latest b k <> k.
Proof.
  intros Pb. destruct a as [x|]; cbn [acts_at].
  2:{ split; [tauto|intros (k & _ & [] & _)]. }
  assert (A : x <> 0 -> 0 < Z.abs x /\ Z.abs x mod x = 0).
  { intro. split; [lia|]. apply mod_abs. apply Z_mod_same_full. }
  destruct b as [y|]; cbn [latest].
  - specialize (Pb y eq_refl). split.
    + intros [Hx H]. exists (Z.abs x). split; [apply A, Hx|]. split; [apply A, Hx|]. intro E. apply H.
      assert (Z.abs x mod y = 0) by (rewrite <- E, Z.mul_comm; apply Z_mod_mult). apply Z.mod_divide; [lia|]. apply Z.divide_abs_r. apply Z.mod_divide; [lia|assumption].
    + intros (k & Hk & Ha & Hl). destruct (Z.eq_dec x 0) as [->|Nx]; [rewrite Zmod_0_r in Ha; lia|]. split; [exact Nx|]. intro E. apply Hl.
      rewrite <- Z_div_exact_full_2; [reflexivity|lia|].
      apply Z.mod_divide in Ha; [|lia]. apply Z.mod_divide in E; [|lia]. apply Z.mod_divide; [lia|]. eapply Z.divide_trans; eassumption.
  - split.
    + intro Hx. exists (Z.abs x). split; [apply A, Hx|]. split; [apply A, Hx|]. specialize (A Hx). lia.
    + intros (k & Hk & Ha & _) ->. rewrite Zmod_0_r in Ha. lia.
Qed.

(** the warnings in terms of the options *)
Lemma warnings_options e cv secs acts n w0 c ot oh of h0 : set_up e cv secs acts n w0 ->
  parse_all cv secs = Ok c -> c_trajectories c = Some ot -> c_histogram c = Some oh -> c_fes c = Some of ->
  w_hist w0 = Some h0 -> w_fes w0 <> None ->
  let W := option_or (opt_int ot "write-stride") 100 in
  0 < W /\ 0 < option_or (opt_int oh "stride") 1 /\ positive_option (opt_int of "stride") /\
  (truthyZ (opt_int of "write-stride") = true -> opt_int of "stride" <> None) /\ (truthyZ (opt_int of "plot-stride") = true -> opt_int of "stride" <> None) /\
  exists dfw, setup_warnings w0 = (fes_warnings W (opt_int of "stride") (opt_int of "write-stride") (opt_int of "plot-stride") ++ dfw)%list /\
  (forall x, In x dfw -> x = WDeltaFStride) /\
  (w_df w0 = None -> dfw = []) /\
  forall od d, c_delta_f c = Some od -> w_df w0 = Some d -> positive_option (opt_int od "stride") /\
    dfw = delta_f_warnings (option_or (opt_int od "stride") 0) (opt_int of "stride").
Proof.
  intros HS Hp Hct Hch Hcf Eh0 Nf. cbv zeta.
  pose proof (accepted_usable _ _ _ Hp) as U.
  destruct HS as (c' & w1 & Hp' & H1 & Ha & _). rewrite Hp in Hp'. apply ok_inj in Hp'. subst c'.
  destruct (set_up_built _ _ _ _ _ H1 Ha) as (B & _).
  destruct (bu_hist _ _ _ B) as [?|(o' & t0 & h0' & Hc' & Et & Hsh & Eh)]; [congruence|].
  rewrite Hch in Hc'. injection Hc' as <-. rewrite Eh0 in Eh. injection Eh as <-.
  destruct (bu_traj _ _ _ B) as [?|(o' & t0' & Hc' & Hst & Et')]; [congruence|].
  rewrite Hct in Hc'. injection Hc' as <-. rewrite Et in Et'. injection Et' as <-.
  destruct (setup_traj_made _ _ _ _ _ U Hct Hst) as (s & ws & t1 & p1 & m1 & _ & Ows & M).
  destruct (setup_hist_made _ _ _ _ _ U Hch Hsh) as (nb & rs & hst & rst & hws & Os & _ & _ & HM).
  rewrite (opt_int_ok _ _ _ Ows), (opt_int_ok _ _ _ Os).
  assert (Up : ha_update h0 = option_or ws 100).
  { pose proof (hm_eq _ _ _ _ _ _ _ _ _ HM) as E. unfold ha_init in E. destruct (negb _); [discriminate|]. destruct (negb _); [discriminate|]. binds E.
    destruct (_ && _); [discriminate|]. apply ok_inj in E. rewrite <- E. cbn. rewrite (tm_eq _ _ _ _ _ _ _ _ _ M). cbn.
    apply option_or_orZ. apply M. }
  split; [apply option_or_pos; [apply M|lia]|]. split; [apply option_or_pos; [apply HM|lia]|].
  destruct (w_fes w0) as [f0|] eqn:Ef0; [clear Nf|congruence].
  destruct (bu_fes _ _ _ B) as [?|(o' & h0' & f0' & Hc' & Eh0' & Hsf & Ef)]; [congruence|].
  rewrite Hcf in Hc'. injection Hc' as <-. rewrite Eh0 in Eh0'. injection Eh0' as <-. rewrite Ef0 in Ef. injection Ef as <-.
  pose proof U as U'. destruct U' as (_ & _ & _ & _ & _ & _ & _ & _ & U' & _). rewrite Hcf in U'. destruct U' as (U1 & _).
  unfold setup_fes in Hsf. binds Hsf. rewrite (opt_int_ok _ _ _ E0), (opt_int_ok _ _ _ E1), (opt_int_ok _ _ _ E2).
  pose proof (opt_positive _ _ _ U1 E0) as P. split; [exact P|].
  unfold fes_init in Hsf. binds Hsf.
  assert (T : forall o, truthyZ o && negb (truthyZ x0) = false -> truthyZ o = true -> x0 <> None).
  { intros o F1 F2 ->. rewrite F2 in F1. discriminate. }
  match type of Hsf with (if ?b then _ else _) = _ => destruct b eqn:Q0; [discriminate|] end.
  match type of Hsf with (if ?b then _ else _) = _ => destruct b eqn:Q1; [discriminate|] end.
  match type of Hsf with (if ?b then _ else _) = _ => destruct b eqn:Q2; [discriminate|] end.
  match type of Hsf with (if ?b then _ else _) = _ => destruct b eqn:Q3; [discriminate|] end.
  match type of Hsf with (if ?b then _ else _) = _ => destruct b eqn:Q4; [discriminate|] end.
  apply ok_inj in Hsf.
  split; [now apply T|]. split; [now apply T|].
  unfold setup_warnings. rewrite Eh0, Ef0, Up. rewrite <- Hsf. cbn [fa_stride fa_wstride fa_pstride].
  eexists. split; [reflexivity|].
  destruct (w_df w0) as [[masks r]|] eqn:Ed.
  2:{ split; [intros ? []|]. split; [reflexivity|]. congruence. }
  split.
  { intros y Hy. unfold delta_f_warnings in Hy. destruct (_ && _) in Hy; cbn [In] in Hy; intuition congruence. }
  split; [discriminate|]. intros od d Hcd Hd.
  destruct (bu_df _ _ _ B) as [?|(o' & h0' & d' & Hc' & Eh0' & _ & Hsd & Ed0)]; [congruence|].
  rewrite Hcd in Hc'. injection Hc' as <-. rewrite Ed in Ed0. injection Ed0 as <-.
  destruct U as (_ & _ & _ & _ & _ & _ & _ & _ & _ & V & _). rewrite Hcd in V. destruct V as [V1 V2].
  unfold setup_delta_f in Hsd. binds Hsd. destruct (Nat.ltb _ 2); [discriminate|]. cbv zeta in Hsd. binds Hsd.
  apply ok_inj in Hsd. injection Hsd as _ ->.
  match goal with X : delta_f_init _ _ ?a _ _ _ _ = Ok _, Y : v_opt_int (get_dict od "stride") = Ok ?a |- _ => rename X into E8; rename Y into E6; rename a into ds end.
  unfold delta_f_init in E8. binds E8.
  rewrite (opt_int_ok _ _ _ E6). pose proof (opt_positive _ _ _ V1 E6) as P6. split; [exact P6|].
  f_equal. unfold rec_init in E8. cbv zeta in E8. rewrite (option_or_orZ _ 0 P6) in E8.
  destruct (negb (option_or ds 0 =? 0)) eqn:Q.
  - do 2 match type of E8 with (if ?b then _ else _) = _ => destruct b; [discriminate|] end. apply ok_inj in E8. rewrite <- E8. reflexivity.
  - apply ok_inj in E8. rewrite <- E8. cbn. lia.
Qed.
