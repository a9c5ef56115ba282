(** From the options to the simulation (C79): birth-death moves and outputs *)
From Coq Require Import Lia Lra.
From Verif Require Import PyBase Model_xr Model_input Spec_input Spec_rng Model_dyn Model_pot Model_bd Model_setup Model_main Spec_main
  Model_traj Model_histaction Model_fes Model_rec Model_hist
  Spec_grid Spec_pot Spec_setup Spec_hist Spec_ld Spec_params Proof_base Proof_input Proof_pot Proof_hist Proof_setup Proof_main Proof_main2
  Proof_whole Proof_whole2 Proof_params Proof_params2 Proof_params3.
Open Scope string_scope.
Open Scope Z_scope.
Ltac Zify.zify_post_hook ::= idtac.

Lemma mapM_nth {A B} (f : A -> res B) : forall l l' i a, mapM f l = Ok l' -> nth_error l i = Some a ->
  exists b, f a = Ok b /\ nth_error l' i = Some b.
Proof.
  induction l as [|x l IH]; intros l' [|i] a H Ha; try discriminate Ha; cbn [mapM] in H; apply bind_ok in H; destruct H as (y & Hy & H);
    apply bind_ok in H; destruct H as (ys & Hys & H); apply ok_inj in H; subst l'; cbn [nth_error] in *.
  - injection Ha as <-. eauto.
  - eauto.
Qed.
Lemma combine_nth {A B} : forall (l : list A) (m : list B) i a b, nth_error l i = Some a -> nth_error m i = Some b -> nth_error (combine l m) i = Some (a, b).
Proof. induction l as [|x l IH]; intros [|y m] [|i] a b Ha Hb; cbn in *; try discriminate; [congruence|eauto]. Qed.
Lemma bound_ok x r : hist_bound x = Ok r -> x = Fin r.
Proof. destruct x; cbn; congruence. Qed.
Lemma v_bound_ok v r : v_hist_bound v = Ok r -> v = VFloat (Fin r).
Proof. destruct v; cbn; try discriminate. intro H. apply bound_ok in H. congruence. Qed.
Lemma mapM_bound : forall l r, mapM hist_bound l = Ok r -> l = map Fin r.
Proof.
  induction l as [|x l IH]; intros r H; cbn [mapM] in H; [apply ok_inj in H; subst; reflexivity|].
  apply bind_ok in H. destruct H as (y & Hy & H). apply bind_ok in H. destruct H as (ys & Hys & H). apply ok_inj in H. subst r.
  cbn [map]. f_equal; [exact (bound_ok _ _ Hy)|exact (IH _ Hys)].
Qed.
Lemma v_bounds_ok v l : v_hist_bounds v = Ok l -> v = VFloats (map Fin l).
Proof.
  unfold v_hist_bounds. intro H. apply bind_ok in H. destruct H as (xs & Hx & H). destruct v; cbn in Hx; try discriminate.
  apply ok_inj in Hx. subst. f_equal. exact (mapM_bound _ _ H).
Qed.
Lemma v_opt_ints_ok v z : v_opt_ints v = Ok z -> v = match z with Some z => VInts z | None => VNone end.
Proof. destruct v; cbn; try discriminate; intro H; apply ok_inj in H; subst; reflexivity. Qed.

Section sim.
Context (cv : conv) (secs : list (string * section)) (HP : percent_free secs) (c : config) (HC : parse_all cv secs = Ok c).

Lemma section_there name d : In name ["birth-death"; "trajectories"; "histogram"; "fes"; "delta-f"; "particle-distribution"] ->
  options_of c name = Some d -> has_section secs name = true.
Proof using All.
  intros Hn D. destruct (parse_all_inv _ _ _ HC) as (s1 & s2 & s3 & A1 & A2 & A3 & E1 & E2 & E3 & E4 & E5 & E6 & E7 & E8 & E9).
  assert (X : forall parse o, optional_section secs name parse = Ok o -> o = Some d -> has_section secs name = true).
  { intros parse o H ->. apply optional_inv in H. destruct H as [[H _]|(sec & d' & H & _)]; [discriminate|]. unfold has_section. rewrite H. reflexivity. }
  simpl in Hn. destruct Hn as [<-|[<-|[<-|[<-|[<-|[<-|[]]]]]]]; cbn in D; eauto.
Qed.

Lemma good_named name key d b : good cv secs c name key KStr b -> default_of name key = VNone -> options_of c name = Some d ->
  named secs name key (v_true (get_dict d key)).
Proof using All.
  intros [[(t & Hg & Hc)|[St E]] _] D O.
  - rewrite (value_get c _ _ _ _ O eq_refl) in Hc. assert (E : get_dict d key = VStr t) by (inversion Hc; reflexivity). rewrite E. cbn [v_true].
    destruct (String.eqb_spec t ""); cbn [negb named]; [right; subst; exact Hg|exists t; auto].
  - rewrite (value_get c _ _ _ _ O eq_refl), D in E. rewrite E. left. exact St.
Qed.
Lemma good_flag name key d b : good cv secs c name key KBool b -> options_of c name = Some d ->
  (default_of name key = VNone \/ default_of name key = VBool false) -> flag cv secs name key (v_true (get_dict d key)).
Proof using All.
  intros [[(t & Hg & Hc)|[St E]] _] O D.
  - left. rewrite (value_get c _ _ _ _ O eq_refl) in Hc. exists t. split; [exact Hg|]. inversion Hc; subst; rewrite <- H in *; cbn [v_true]; constructor; assumption.
  - right. split; [exact St|]. rewrite (value_get c _ _ _ _ O eq_refl) in E. rewrite E. destruct D as [-> | ->]; reflexivity.
Qed.
Lemma good_stride name key d z dflt b : good cv secs c name key KInt b -> default_of name key = VNone -> options_of c name = Some d ->
  v_opt_int (get_dict d key) = Ok z -> none_or_positive_int d key -> 0 < dflt -> stride_is cv secs name key dflt (orZ z dflt).
Proof using All.
  intros G D O H U P. apply v_opt_int_ok in H. pose proof (value_get c _ _ _ _ O H) as V. destruct z as [z|].
  - assert (Z0 : 0 < z).
    { destruct U as [U|(y & U & Hy)]; rewrite (get_of_assoc _ _ _ U) in H; [discriminate|]. injection H as ->. exact Hy. }
    unfold orZ. destruct (Z.eqb_spec z 0); [lia|]. split; [exact Z0|]. left. eapply good_value; [exact G|exact V|rewrite D; discriminate].
  - cbn. split; [exact P|]. right. split; [|reflexivity]. eapply good_none; [exact G|exact V].
Qed.
Lemma get_optional name key d z : good cv secs c name key KInt false -> default_of name key = VNone -> options_of c name = Some d ->
  v_opt_int (get_dict d key) = Ok z -> optional_integer_is cv secs name key z.
Proof using All.
  intros G D O H. apply v_opt_int_ok in H. eapply good_optional; [exact G|exact D|exact (value_get c _ _ _ _ O H)].
Qed.

(** * birth-death moves *)
Lemma variant_exact s v : variant_from_str s = Ok v -> In s (variant_called v).
Proof.
  unfold variant_from_str. intro H.
  destruct (existsb (String.eqb s) ["original"; "orig"]) eqn:A; [|destruct (existsb (String.eqb s) ["additive"; "add"]) eqn:B;
    [|destruct (existsb (String.eqb s) ["multiplicative"; "mult"]) eqn:C; [|discriminate]]]; apply ok_inj in H; subst v;
    match goal with X : existsb _ _ = true |- _ => apply existsb_exists in X; destruct X as (x & Hx & X); apply String.eqb_eq in X; subst x; exact Hx end.
Qed.
Lemma get_variant d key v : has_section secs "birth-death" = true -> options_of c "birth-death" = Some d -> In key ["correction-variant"; "approximation-variant"] ->
  get_approx_variant d key = Ok v ->
  match v with
  | Some v => exists text, given secs "birth-death" key text /\ In text (variant_called v)
  | None => named secs "birth-death" key false
  end.
Proof using All.
  intros Hs O Hk H.
  assert (G : good cv secs c "birth-death" key KStr false) by (apply good_bd; try assumption; destruct Hk as [<-|[<-|[]]]; in_list).
  assert (D : default_of "birth-death" key = VNone) by (destruct Hk as [<-|[<-|[]]]; reflexivity).
  pose proof (good_named _ _ _ _ G D O) as N. unfold get_approx_variant in H. destruct (get_dict d key) eqn:E; try (apply ok_inj in H; subst v; exact N).
  - destruct (String.eqb_spec s "") as [->|Ns]; [apply ok_inj in H; subst v; exact N|].
    destruct (variant_from_str s) as [w|[]] eqn:Ew; try discriminate. apply ok_inj in H. subst v. exists s. split; [|apply variant_exact; exact Ew].
    eapply good_text; [exact G|exact D|exact (value_get c _ _ _ _ O E)].
  - apply ok_inj in H. subst v. destruct G as [[(t & Hg & Hc)|[St E']] _].
    + rewrite (value_get c _ _ _ _ O E) in Hc. inversion Hc.
    + rewrite (value_get c _ _ _ _ O E), D in E'. discriminate.
Qed.
Lemma variant_ok d v : has_section secs "birth-death" = true -> options_of c "birth-death" = Some d -> approx_variant d = Ok v -> variant_given secs v.
Proof using All.
  intros Hs O H. unfold approx_variant in H. cbn [foldM] in H. apply bind_ok in H. destruct H as (v1 & H1 & H). apply bind_ok in H. destruct H as (v2 & H2 & H).
  apply ok_inj in H. subst v2. apply bind_ok in H1. destruct H1 as (w1 & H1 & E1). apply ok_inj in E1. apply bind_ok in H2. destruct H2 as (w2 & H2 & E2). apply ok_inj in E2.
  apply get_variant in H1; [|exact Hs|exact O|in_list]. apply get_variant in H2; [|exact Hs|exact O|in_list]. unfold variant_given.
  destruct w2 as [w2|]; [left; subst w2; exact H2|]. right. split; [exact H2|]. subst v1.
  destruct w1 as [w1|]; [left; subst w1; exact H1|]. right. split; [exact H1|congruence].
Qed.
Lemma bd_init_inv gd nan dt stride bw kt rate recalc var eqd ss f par : bd_init gd nan dt stride bw kt rate recalc (Some var) eqd ss f = Ok par ->
  bd_stride par = stride /\ bd_dt par = (dt * IZR stride)%R /\ bd_bw par = bw /\ bd_kt par = kt /\ bd_rate par = orR rate 1 /\
  bd_recalc par = recalc /\ bd_variant par = var /\ bd_stats_stride par = ss /\ bd_to_file par = f.
Proof.
  unfold bd_init. destruct (Req_EM_T kt 0); [discriminate|]. cbv zeta.
  destruct var; intro H; [|destruct eqd; [|discriminate]; apply bind_ok in H; destruct H as (corr & _ & H)
                         |destruct eqd; [|discriminate]; apply bind_ok in H; destruct H as (corr & _ & H)]; apply ok_inj in H; subst par; auto 20.
Qed.
Lemma bd_given e o ld par g : options_of c "birth-death" = Some o -> setup_birth_death e o ld = Ok (par, g) ->
  birth_death_given cv secs (e_rng e) (e_os_bd e) ld par g.
Proof using All.
  intros O H. assert (Hs : has_section secs "birth-death" = true) by (eapply section_there; [in_list|exact O]).
  pose proof (good_bd cv secs HP c HC) as G.
  unfold setup_birth_death in H. cbv zeta in H. apply bind_ok in H. destruct H as (bw & Hbw & H). apply bind_ok in H. destruct H as (var & Hvar & H).
  apply bind_ok in H. destruct H as (eqd & _ & H). apply bind_ok in H. destruct H as (stride & Hst & H). apply bind_ok in H. destruct H as (rate & Hrate & H).
  apply bind_ok in H. destruct H as (seed & Hseed & H). apply bind_ok in H. destruct H as (ss & Hss & H). apply bind_ok in H. destruct H as (g' & Hg & H).
  apply bind_ok in H. destruct H as (par' & Hpar & H). apply ok_inj in H. injection H as -> ->.
  apply bd_init_inv in Hpar. destruct Hpar as (P1 & P2 & P3 & P4 & P5 & P6 & P7 & P8 & P9).
  unfold birth_death_given. rewrite P1, P2, P3, P4, P5, P6, P7, P8, P9.
  apply v_int_ok in Hst. apply v_opt_float_ok in Hrate. apply v_opt_int_ok in Hseed.
  split; [eapply good_value; [eapply (G "stride" KInt true Hs); in_list|exact (value_get c _ _ _ _ O Hst)|discriminate]|].
  split; [reflexivity|]. split.
  { unfold setup_bandwidth in Hbw. apply bind_ok in Hbw. destruct Hbw as (b & Hb & Hbw).
    destruct (Nat.eqb_spec (length b) (pot_ndim (ld_pot ld))) as [L|]; cbn [negb] in Hbw; [|discriminate]. apply ok_inj in Hbw. subst b.
    destruct (Nat.eqb_spec (pot_ndim (ld_pot ld)) 1) as [E1|E1].
    - left. split; [exact E1|]. apply bind_ok in Hb. destruct Hb as (h & Hh & Hb). apply ok_inj in Hb. subst bw. apply v_float_ok in Hh.
      exists h. split; [|reflexivity]. destruct (Classical_Prop.classic (one_dim cv secs)) as [D1|D1].
      + eapply good_value; [eapply good_bw1; eassumption|exact (value_get c _ _ _ _ O Hh)|discriminate].
      + pose proof (good_value _ _ _ _ _ _ _ _ (good_bwn cv secs HP c HC Hs D1) (value_get c _ _ _ _ O Hh) ltac:(discriminate)) as (t & _ & X). inversion X.
    - right. split; [exact E1|]. split; [|exact L]. apply v_floats_ok in Hb. destruct (Classical_Prop.classic (one_dim cv secs)) as [D1|D1].
      + pose proof (good_value _ _ _ _ _ _ _ _ (good_bw1 cv secs HP c HC Hs D1) (value_get c _ _ _ _ O Hb) ltac:(discriminate)) as (t & _ & X). inversion X.
      + eapply good_value; [eapply good_bwn; eassumption|exact (value_get c _ _ _ _ O Hb)|discriminate]. }
  split; [reflexivity|]. split.
  { pose proof (G "exponential-factor" KFloat false Hs ltac:(in_list)) as Gr. destruct rate as [r|].
    - left. assert (0 < r)%R.
      { destruct (accepted_usable _ _ _ HC) as (_ & _ & _ & _ & _ & U & _). cbn in O. rewrite O in U. cbn in U. destruct U as (_ & _ & U & _).
        destruct U as [U|(x & U & Hx)]; rewrite (get_of_assoc _ _ _ U) in Hrate; [discriminate|]. injection Hrate as ->. exact Hx. }
      unfold orR. destruct (Req_EM_T r 0); [lra|]. eapply good_value; [exact Gr|exact (value_get c _ _ _ _ O Hrate)|discriminate].
    - right. split; [|reflexivity]. eapply good_none; [exact Gr|exact (value_get c _ _ _ _ O Hrate)]. }
  split. { eapply good_flag; [eapply (G "recalculate-probabilities" KBool false Hs); in_list|exact O|right; reflexivity]. }
  split; [exact (variant_ok _ _ Hs O Hvar)|].
  split. { eapply get_optional; [eapply (G "stats-stride" KInt false Hs); in_list|reflexivity|exact O|exact Hss]. }
  split. { eapply good_named; [eapply (G "stats-filename" KStr false Hs); in_list|reflexivity|exact O]. }
  pose proof (good_optional _ _ _ _ _ _ (G "seed" KInt false Hs ltac:(in_list)) eq_refl (value_get c _ _ _ _ O Hseed)) as Op.
  unfold seeded_1000, bd_seed in *. destruct seed as [z|]; cbn [truthyZ option_map optional_integer_is] in *.
  - destruct (Z.eqb_spec z 0) as [->|Nz]; cbn [negb] in Hg.
    + right. cbn [new_rng] in Hg. apply ok_inj in Hg. split; [auto|]. symmetry. exact Hg.
    + cbn [new_rng] in Hg. destruct (Z.ltb_spec (z + 1000) 0); [discriminate|]. apply ok_inj in Hg. left. exists z. split; [exact Op|]. split; [exact Nz|]. split; [assumption|]. symmetry. exact Hg.
  - right. cbn [new_rng] in Hg. apply ok_inj in Hg. split; [auto|]. symmetry. exact Hg.
Qed.

(** * trajectories, histogram, FES *)
Lemma traj_given e o n t : options_of c "trajectories" = Some o -> setup_trajectories e o n = Ok t -> trajectory_output cv secs t.
Proof using All.
  intros O H. assert (Hs : has_section secs "trajectories" = true) by (eapply section_there; [in_list|exact O]).
  pose proof (good_traj cv secs HP c HC) as G. destruct (accepted_usable _ _ _ HC) as (_ & _ & _ & _ & _ & _ & U & _). cbn in O. rewrite O in U. cbn in U. destruct U as [U1 U2].
  change (c_trajectories c) with (options_of c "trajectories") in O.
  unfold setup_trajectories in H. apply bind_ok in H. destruct H as (s & Hst & H). apply bind_ok in H. destruct H as (ws & Hws & H). apply ok_inj in H. subst t.
  unfold trajectory_output, traj_init. cbn [tr_stride tr_wstride tr_mom tr_files].
  split. { eapply good_stride; [eapply (G "stride" KInt false Hs); in_list|reflexivity|exact O|exact Hst|exact U1|lia]. }
  split. { eapply good_stride; [eapply (G "write-stride" KInt false Hs); in_list|reflexivity|exact O|exact Hws|exact U2|lia]. }
  split.
  - exists (v_true (get_dict o "filename")). split; [eapply good_named; [eapply (G "filename" KStr false Hs); in_list|reflexivity|exact O]|].
    destruct (v_true _); cbn; [discriminate|reflexivity].
  - exists (v_true (get_dict o "momentum")). split; [eapply good_flag; [eapply (G "momentum" KBool false Hs); in_list|exact O|left; reflexivity]|].
    destruct (v_true _); cbn; [discriminate|reflexivity].
Qed.

Lemma hist_given o n t h : options_of c "histogram" = Some o -> setup_histogram o n t = Ok h ->
  bins_given cv secs n (h_edges (ha_hist h)) /\ histogram_output cv secs h.
Proof using All.
  intros O H. assert (Hs : has_section secs "histogram" = true) by (eapply section_there; [in_list|exact O]).
  pose proof (good_hist cv secs HP c HC) as G. destruct (accepted_usable _ _ _ HC) as (_ & _ & _ & _ & _ & _ & _ & U & _). cbn in O. rewrite O in U. cbn in U. destruct U as (U1 & U2 & _).
  change (c_histogram c) with (options_of c "histogram") in O.
  unfold setup_histogram in H. apply bind_ok in H. destruct H as ([ranges bins] & Hr & H). apply bind_ok in H. destruct H as (s & Hst & H).
  apply bind_ok in H. destruct H as (re & Hre & H). apply bind_ok in H. destruct H as (ws & Hws & H).
  unfold ha_init in H. destruct (Nat.eqb_spec n (length (map Z.to_nat bins))) as [L1|]; cbn [negb] in H; [|discriminate].
  destruct (Nat.eqb_spec n (length ranges)) as [L2|]; cbn [negb] in H; [|discriminate]. rewrite map_length in L1.
  apply bind_ok in H. destruct H as (h0 & Hh & H). destruct (truthyZ ws && _); [discriminate|]. apply ok_inj in H. subst h.
  cbn [ha_hist]. split.
  - exists ranges, bins. split; [|split; [congruence|split; [congruence|]]].
    + destruct (Nat.eqb_spec n 1) as [E1|E1]; [left|right]; (split; [exact E1|]).
      * apply bind_ok in Hr. destruct Hr as (lo & Hlo & Hr). apply bind_ok in Hr. destruct Hr as (hi & Hhi & Hr). apply bind_ok in Hr. destruct Hr as (b & Hb & Hr).
        apply ok_inj in Hr. injection Hr as <- <-. apply v_bound_ok in Hlo, Hhi. apply v_int_ok in Hb.
        destruct (Classical_Prop.classic (one_dim cv secs)) as [D1|D1].
        -- exists lo, hi, b. pose proof (good_hist1 cv secs HP c HC) as G1.
           split; [eapply good_value; [eapply (G1 "min" KFloat true Hs D1); in_list|exact (value_get c _ _ _ _ O Hlo)|discriminate]|].
           split; [eapply good_value; [eapply (G1 "max" KFloat true Hs D1); in_list|exact (value_get c _ _ _ _ O Hhi)|discriminate]|].
           split; [eapply good_value; [eapply (G1 "bins" KInt true Hs D1); in_list|exact (value_get c _ _ _ _ O Hb)|discriminate]|]. auto.
        -- pose proof (good_value _ _ _ _ _ _ _ _ (good_histn cv secs HP c HC "min" KFloats true Hs D1 ltac:(in_list)) (value_get c _ _ _ _ O Hlo) ltac:(discriminate)) as (tt & _ & X). inversion X.
      * apply bind_ok in Hr. destruct Hr as (lo & Hlo & Hr). apply bind_ok in Hr. destruct Hr as (hi & Hhi & Hr). apply bind_ok in Hr. destruct Hr as (b & Hb & Hr).
        apply ok_inj in Hr. injection Hr as <- <-. apply v_bounds_ok in Hlo, Hhi. apply v_ints_ok in Hb.
        destruct (Classical_Prop.classic (one_dim cv secs)) as [D1|D1].
        -- pose proof (good_value _ _ _ _ _ _ _ _ (good_hist1 cv secs HP c HC "min" KFloat true Hs D1 ltac:(in_list)) (value_get c _ _ _ _ O Hlo) ltac:(discriminate)) as (tt & _ & X). inversion X.
        -- pose proof (good_histn cv secs HP c HC) as G1.
           split; [eapply good_value; [eapply (G1 "bins" KInts true Hs D1); in_list|exact (value_get c _ _ _ _ O Hb)|discriminate]|].
           exists lo, hi.
           split; [eapply good_value; [eapply (G1 "min" KFloats true Hs D1); in_list|exact (value_get c _ _ _ _ O Hlo)|discriminate]|].
           split; [eapply good_value; [eapply (G1 "max" KFloats true Hs D1); in_list|exact (value_get c _ _ _ _ O Hhi)|discriminate]|]. reflexivity.
    + unfold hist_init in Hh. apply bind_ok in Hh. destruct Hh as (? & _ & Hh). destruct (negb _); [discriminate|].
      apply bind_ok in Hh. destruct Hh as (edges & He & Hh). apply bind_ok in Hh. destruct Hh as (data & _ & Hh). apply ok_inj in Hh. subst h0. cbn [h_edges].
      split; [rewrite (mapM_len _ _ _ He), combine_length, map_length; lia|].
      intros i lo hi b Hi Hb Hlt.
      assert (Hc : nth_error (combine (map Z.to_nat bins) ranges) i = Some (Z.to_nat b, (lo, hi))) by (apply combine_nth; [rewrite nth_error_map, Hb; reflexivity|exact Hi]).
      destruct (mapM_nth _ _ _ _ _ He Hc) as (ed & Hed & Hn). cbn [fst snd] in Hed. apply (nth_error_nth _ _ []) in Hn. rewrite Hn.
      assert (B0 : 0 < b).
      { unfold bin_edges in Hed. destruct (Rlt_dec hi lo); [discriminate|]. destruct (Nat.eqb_spec (Z.to_nat b) 0); [discriminate|]. lia. }
      split; [exact B0|]. destruct (bin_edges_spec (Z.to_nat b) (lo, hi) ltac:(lia) Hlt) as (ed' & X & _ & Y). rewrite Hed in X. apply ok_inj in X. subst ed'. exact Y.
  - unfold histogram_output. cbn [ha_stride ha_reset ha_wstride ha_filename].
    split. { eapply good_stride; [eapply (G "stride" KInt false Hs); in_list|reflexivity|exact O|exact Hst|exact U1|lia]. }
    split. { apply v_opt_ints_ok in Hre. pose proof (G "reset" KInts false Hs ltac:(in_list)) as Gr. destruct re as [l|].
      - left. eapply good_value; [exact Gr|exact (value_get c _ _ _ _ O Hre)|discriminate].
      - right. split; [|reflexivity]. eapply good_none; [exact Gr|exact (value_get c _ _ _ _ O Hre)]. }
    split. { eapply get_optional; [eapply (G "write-stride" KInt false Hs); in_list|reflexivity|exact O|exact Hws]. }
    eapply good_named; [eapply (G "filename" KStr false Hs); in_list|reflexivity|exact O].
Qed.

Lemma fes_given e o ld h f : options_of c "fes" = Some o -> setup_fes e o ld h = Ok f -> fes_output cv secs f /\ fa_kt f = ld_kt ld.
Proof using All.
  intros O H. assert (Hs : has_section secs "fes" = true) by (eapply section_there; [in_list|exact O]). pose proof (good_fes cv secs HP c HC) as G.
  unfold setup_fes in H. apply bind_ok in H. destruct H as (? & _ & H). apply bind_ok in H. destruct H as (s & Hst & H).
  apply bind_ok in H. destruct H as (ws & Hws & H). apply bind_ok in H. destruct H as (pst & Hps & H).
  unfold fes_init in H. apply bind_ok in H. destruct H as (fe & _ & H).
  repeat (match type of H with (if ?b then _ else _) = _ => destruct b; [discriminate|] end). apply ok_inj in H. subst f.
  split; [|reflexivity]. unfold fes_output. cbn [fa_stride fa_wstride fa_pstride fa_filename fa_plotname].
  split. { eapply get_optional; [eapply (G "stride" KInt false Hs); in_list|reflexivity|exact O|exact Hst]. }
  split. { eapply get_optional; [eapply (G "write-stride" KInt false Hs); in_list|reflexivity|exact O|exact Hws]. }
  split. { eapply get_optional; [eapply (G "plot-stride" KInt false Hs); in_list|reflexivity|exact O|exact Hps]. }
  split; eapply good_named; [eapply (G "filename" KStr false Hs); in_list|reflexivity|exact O|eapply (G "plot-filename" KStr false Hs); in_list|reflexivity|exact O].
Qed.

(** * free energy differences and walkers per state *)
Lemma recorder_given {A} name o s ws (junk : nat -> list A) single r : In name ["delta-f"; "particle-distribution"] -> options_of c name = Some o ->
  v_opt_int (get_dict o "stride") = Ok s -> v_opt_int (get_dict o "write-stride") = Ok ws ->
  rec_init s ws (v_true (get_dict o "filename")) junk single = Ok r -> recorder_output cv secs name r.
Proof using All.
  intros Hn O Hst Hws H. assert (Hs : has_section secs name = true) by (eapply section_there; [destruct Hn as [<-|[<-|[]]]; in_list|exact O]).
  pose proof (good_out cv secs HP c HC name) as G. assert (D : forall k, default_of name k = VNone) by (intro k; apply default_out; exact Hn).
  assert (U : none_or_positive_int o "stride" /\ none_or_positive_int o "write-stride").
  { destruct (accepted_usable _ _ _ HC) as (_ & _ & _ & _ & _ & _ & _ & _ & _ & U1 & U2).
    destruct Hn as [<-|[<-|[]]]; cbn in O; [rewrite O in U1; exact U1|rewrite O in U2; exact U2]. }
  destruct U as [U1 U2]. pose proof (v_opt_int_ok _ _ Hst) as Vs.
  assert (F : exists b, named secs name "filename" b /\ exists_if b (if v_true (get_dict o "filename") then Some (@nil A) else None)).
  { exists (v_true (get_dict o "filename")). split; [eapply good_named; [eapply (G "filename" KStr false Hn Hs); in_list|apply D|exact O]|].
    destruct (v_true _); cbn; [discriminate|reflexivity]. }
  unfold recorder_output, rec_init in *. cbv zeta in H. pose proof (G "stride" KInt false Hn Hs ltac:(in_list)) as Gs. destruct s as [s|].
  - assert (Z0 : 0 < s).
    { destruct U1 as [U|(y & U & Hy)]; rewrite (get_of_assoc _ _ _ U) in Vs; [discriminate|]. injection Vs as ->. exact Hy. }
    assert (Eo : orZ (Some s) 0 = s) by (unfold orZ; destruct (Z.eqb_spec s 0); lia). rewrite Eo in H.
    destruct (Z.eqb_spec s 0) as [|_]; [lia|]. cbn [negb] in H.
    destruct (truthyZ ws && _); [discriminate|]. destruct (negb _); [discriminate|]. apply ok_inj in H. subst r. cbn [rc_stride rc_wstride rc_file].
    split; [|exact F]. right. split; [eapply good_value; [exact Gs|exact (value_get c _ _ _ _ O Vs)|rewrite D; discriminate]|].
    eapply good_stride; [eapply (G "write-stride" KInt false Hn Hs); in_list|apply D|exact O|exact Hws|exact U2|lia].
  - cbn [orZ truthyZ Z.eqb negb] in H. apply ok_inj in H. subst r. cbn [rc_stride rc_wstride rc_file]. split; [|exact F]. left. split; [|reflexivity].
    eapply good_none; [exact Gs|exact (value_get c _ _ _ _ O Vs)].
Qed.

Lemma state_opts_keys n k : In k (map io_key (state_opts n)) -> exists i, (i < n)%nat /\ (k = prefixed "state" (S i) "-min" \/ k = prefixed "state" (S i) "-max").
Proof.
  intro H. apply in_map_iff in H. destruct H as (o & <- & H). apply in_state_opts in H. destruct H as (i & Hi & [-> | ->]); exists i; auto.
Qed.
Lemma states_given_in name o states : In name ["delta-f"; "particle-distribution"] -> options_of c name = Some o -> state_ranges o = Ok states ->
  states_in_input cv secs name states.
Proof using All.
  intros Hn O H. assert (Hs : has_section secs name = true) by (eapply section_there; [destruct Hn as [<-|[<-|[]]]; in_list|exact O]).
  destruct (shape_out cv secs HP c HC name Hn Hs) as (sec & d & n & As & Od & N0 & Hp & Hsuf). rewrite O in Od. injection Od as <-.
  unfold state_ranges in H. apply bind_ok in H. destruct H as (mins & Hmin & H). apply bind_ok in H. destruct H as (maxs & Hmax & H).
  assert (X : forall suf vs, In suf ["-min"; "-max"] -> numbered_in_dict o "state" suf = Ok vs ->
     length vs = n /\ exists ls, vs = map VFloats ls /\
       forall i p, nth_error ls i = Some p -> value_is cv secs name (prefixed "state" (S i) suf) KFloats (VFloats p)).
  { intros suf vs Hf Hv. destruct (numbered_dict_spec o "state" suf) as (vs' & Hv' & Sh). rewrite Hv in Hv'. apply ok_inj in Hv'. subst vs'.
    apply (numbered_given cv secs HP c HC name o n "state" suf vs O); [| |exact Sh].
    - intros i Hi. apply (good_state cv secs HP c HC name suf i Hn Hs Hf). intros j Hj. apply (Hsuf _ Hf). lia.
    - destruct (assoc (prefixed "state" (S n) suf) o) eqn:E; [|reflexivity]. exfalso.
      destruct (section_keys _ _ (prefixed "state" (S n) suf) _ _ _ Hp ltac:(congruence)) as [Y|Y]; [apply Y; reflexivity|].
      rewrite map_app in Y. apply in_app_or in Y. destruct Y as [Y|Y].
      + simpl in Y. repeat (destruct Y as [Y|Y]; [discriminate Y|]). exact Y.
      + apply state_opts_keys in Y. destruct Y as (i & Hi & [Y|Y]); destruct Hf as [<-|[<-|[]]].
        * apply prefixed_inj in Y. lia.
        * unfold prefixed in Y. apply append_inj_l in Y. exact (min_not_max _ _ (eq_sym Y)).
        * unfold prefixed in Y. apply append_inj_l in Y. exact (min_not_max _ _ Y).
        * apply prefixed_inj in Y. lia. }
  destruct (X "-min" mins ltac:(in_list) Hmin) as (L1 & a & -> & V1). destruct (X "-max" maxs ltac:(in_list) Hmax) as (L2 & b & -> & V2).
  rewrite map_length in L1, L2.
  assert (SP : forall l, mapM state_point (map VFloats l) = Ok (map Nums l)).
  { induction l as [|x l IH]; [reflexivity|]. cbn [map mapM state_point bind]. rewrite IH. reflexivity. }
  rewrite !SP in H. cbn [bind] in H. rewrite ranges_exact in H by (destruct a; [cbn in L1; lia|discriminate]).
  destruct (negb _); [discriminate|]. destruct (existsb _ _); [discriminate|]. apply ok_inj in H. subst states. split.
  - intros i st Hi. rewrite nth_error_map in Hi. destruct (nth_error (combine a b) i) as [[lo hi]|] eqn:E; [|discriminate]. cbn in Hi. injection Hi as <-.
    assert (Y : nth_error a i = Some lo /\ nth_error b i = Some hi).
    { clear - E. revert b i E. induction a as [|x a IH]; intros [|y b] [|i] E; cbn in *; try discriminate; [injection E as -> ->; auto|eauto]. }
    destruct Y. exists lo, hi. auto.
  - rewrite map_length, combine_length, L1, L2, Nat.min_id. exact (proj2 (Hsuf "-min" ltac:(in_list))).
Qed.
End sim.
