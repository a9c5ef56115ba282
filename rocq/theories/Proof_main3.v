(** Proofs about the error messages of the program (C44, C45): outcomes and examples *)
From Coq Require Import Lra Lia Classical_Prop.
From Verif Require Import PyBase Model_xr Model_input Spec_input Spec_rng Proof_base Proof_input Model_dyn Model_setup Model_main Spec_main Proof_main Proof_main2.
Open Scope string_scope.
Open Scope Z_scope.
Ltac Zify.zify_post_hook ::= idtac.

Lemma scalar_values e cv secs : percent_free secs -> dependencies secs ->
  ~ bad_value cv secs KFloats -> ~ bad_value cv secs KInts ->
  (exists t, ~ list_type t /\ bad_value cv secs t) -> main e cv (Some (Ok secs)) = Exit1.
Proof.
  intros HP HD HF HI (t & Hl & name & key & text & Ho & Hg & Hn). unfold main. cbn [read_input bind].
  destruct (parse_all cv secs) as [c|x] eqn:E.
  - exfalso. destruct (accepted_scalars cv secs HP c E _ _ _ _ Ho Hl Hg) as (v & Hv). exact (Hn v Hv).
  - destruct (parse_all_err cv secs HP x E) as [->|[[->|[_ [H|H]]]|[_ H]]]; [reflexivity|reflexivity|contradiction..].
Qed.

Lemma failing_input e cv secs : percent_free secs -> (forall c, parse_all cv secs <> Ok c) ->
  main e cv (Some (Ok secs)) = Exit1 \/
  main e cv (Some (Ok secs)) = Traceback ValueError /\ (bad_value cv secs KFloats \/ bad_value cv secs KInts) \/
  main e cv (Some (Ok secs)) = Traceback NoSectionError /\ ~ dependencies secs.
Proof.
  intros HP Hn. unfold main. cbn [read_input bind].
  destruct (parse_all cv secs) as [c|x] eqn:E; [congruence|].
  destruct (parse_all_err cv secs HP x E) as [->|[[->|[-> H]]|[-> H]]]; auto.
Qed.
Lemma no_file e cv : main e cv None = Exit1.
Proof. reflexivity. Qed.

Lemma unknown_variant e cv secs c w o bw s : parse_all cv secs = Ok c -> setup_dynamics e c = Ok w ->
  c_birth_death c = Some o -> setup_bandwidth o (pot_ndim (ld_pot (w_ld w))) = Ok bw ->
  get_dict o "correction-variant" = VNone -> get_dict o "approximation-variant" = VStr s -> s <> "" -> ~ In s variant_names ->
  main e cv (Some (Ok secs)) = Traceback TypeError.
Proof.
  intros Hp Hw Ho Hb Hc Ha Hs Hn. unfold main. cbn [read_input bind]. rewrite Hp, Hw.
  assert (Hv : approx_variant o = Err TypeError).
  { unfold approx_variant. cbn [foldM]. unfold get_approx_variant at 1. rewrite Hc. cbn [bind]. unfold get_approx_variant. rewrite Ha.
    destruct (String.eqb_spec s ""); [contradiction|]. unfold variant_from_str.
    destruct (existsb (String.eqb s) ["original"; "orig"]) eqn:E1; [exfalso; apply existsb_in in E1; apply Hn; simpl in *; tauto|].
    destruct (existsb (String.eqb s) ["additive"; "add"]) eqn:E2; [exfalso; apply existsb_in in E2; apply Hn; simpl in *; tauto|].
    destruct (existsb (String.eqb s) ["multiplicative"; "mult"]) eqn:E3; [exfalso; apply existsb_in in E3; apply Hn; simpl in *; tauto|].
    reflexivity. }
  unfold setup_actions. rewrite Ho. unfold when at 1.
  destruct o as [|kv o]; [unfold get_dict in Ha; discriminate|]. cbn [fst snd]. unfold setup_birth_death. cbv zeta. rewrite Hb. cbn [bind].
  rewrite Hv. reflexivity.
Qed.
Lemma wrong_bandwidth e cv secs c w o bw : parse_all cv secs = Ok c -> setup_dynamics e c = Ok w ->
  c_birth_death c = Some o -> pot_ndim (ld_pot (w_ld w)) <> 1%nat -> get_dict o "kernel-bandwidth" = VFloats (map Fin bw) ->
  length bw <> pot_ndim (ld_pot (w_ld w)) -> main e cv (Some (Ok secs)) = Exit1.
Proof.
  intros Hp Hw Ho H1 Hb Hl. unfold main. cbn [read_input bind]. rewrite Hp, Hw. unfold setup_actions. rewrite Ho. unfold when at 1.
  destruct o as [|kv o]; [unfold get_dict in Hb; discriminate|]. cbn [fst snd]. unfold setup_birth_death, setup_bandwidth. cbv zeta. rewrite Hb.
  apply Nat.eqb_neq in H1. rewrite H1. cbn [v_floats v_xfloats bind].
  assert (E : mapM fin (map Fin bw) = Ok bw).
  { clear. induction bw as [|b bw IH]; [reflexivity|]. cbn [map mapM fin bind]. rewrite IH. reflexivity. }
  rewrite E. cbn [bind]. apply Nat.eqb_neq in Hl. rewrite Hl. reflexivity.
Qed.
Lemma negative_seed e cv secs c pot dt s : parse_all cv secs = Ok c -> setup_potential e (c_potential c) = Ok pot ->
  get_dict (c_ld c) "timestep" = VFloat (Fin dt) ->
  (get_dict (c_ld c) "type" = VStr "overdamped" \/
   get_dict (c_ld c) "type" = VStr "bussi-parinello" /\ exists kt fr, get_dict (c_ld c) "kt" = VFloat (Fin kt) /\ get_dict (c_ld c) "friction" = VFloat (Fin fr)) ->
  get_dict (c_ld c) "seed" = VInt s -> s < 0 -> main e cv (Some (Ok secs)) = Traceback ValueError.
Proof.
  intros Hp Hpot Hdt Hty Hs Hneg. unfold main. cbn [read_input bind]. rewrite Hp. unfold setup_dynamics. rewrite Hpot. cbn [bind].
  assert (E : setup_ld e (c_ld c) pot = Err ValueError).
  { unfold setup_ld. apply Z.ltb_lt in Hneg. destruct Hty as [->|(-> & kt & fr & Hk & Hf)]; cbn [vstr_is String.eqb Ascii.eqb Bool.eqb]; cbn;
      rewrite Hdt; cbn [v_float fin bind]; try rewrite Hf, Hk; cbn [v_float fin bind]; rewrite Hs; cbn [v_opt_int bind new_rng]; rewrite Hneg; reflexivity. }
  rewrite E. reflexivity.
Qed.
Lemma unknown_boundary e o : get_dict o "boundary-condition" <> VStr "reflective" -> get_dict o "boundary-condition" <> VStr "periodic" ->
  boundary_condition o = None /\ forall pot, setup_potential e o = Ok pot -> pot_bc pot = None.
Proof.
  intros Hr Hp. assert (E : boundary_condition o = None).
  { unfold boundary_condition. destruct (get_dict o "boundary-condition"); try reflexivity. cbn [vstr_is].
    destruct (String.eqb_spec s "reflective"); [congruence|]. destruct (String.eqb_spec s "periodic"); [congruence|reflexivity]. }
  split; [exact E|]. intros pot. unfold setup_potential. rewrite E. unfold poly_init. intro H.
  repeat match type of H with
  | (if ?b then _ else _) = _ => destruct b
  | bind ?r _ = _ => destruct r; cbn [bind] in H
  end; try discriminate; injection H as <-; reflexivity.
Qed.

(** * C45 *)
Lemma never_without_dependency e cv secs w : main e cv (Some (Ok secs)) = Finished w ->
  dependencies secs /\ (has_section secs "histogram" = true -> has_section secs "trajectories" = true).
Proof.
  intro H. apply finished_set_up in H. destruct H as (s & acts & n & w0 & Es & (c & w1 & Hp & Hw & Ha & _) & _). injection Es as <-.
  pose proof (parsed_sections _ _ _ Hp) as (S1 & S2 & S3 & S4 & S5 & S6).
  apply parse_all_inv in Hp. destruct Hp as (s1 & s2 & s3 & _ & _ & _ & _ & _ & _ & E4 & E5 & E6 & E7 & E8 & E9).
  split; [split|].
  - intro Hf. rewrite <- S3. rewrite <- S4 in Hf. apply optional_inv in E7. destruct E7 as [[E _]|(sec & d & _ & Hd & _)]; [rewrite E in Hf; discriminate|].
    unfold parse_fes in Hd. destruct (truthy_dict (c_histogram c)); [reflexivity|discriminate].
  - intro Hf. rewrite <- S4. rewrite <- S5 in Hf. apply optional_inv in E8. destruct E8 as [[E _]|(sec & d & _ & Hd & _)]; [rewrite E in Hf; discriminate|].
    unfold parse_delta_f in Hd. destruct (truthy_dict (c_fes c)); [reflexivity|discriminate].
  - intro Hh. rewrite <- S2. rewrite <- S3 in Hh. unfold setup_actions in Ha.
    apply bind_ok in Ha. destruct Ha as ([l1 x1] & H1 & Ha). apply bind_ok in Ha. destruct Ha as ([l2 x2] & H2 & Ha).
    apply bind_ok in Ha. destruct Ha as ([l3 x3] & H3 & Ha).
    destruct (truthy_dict (c_trajectories c)) eqn:Et; [reflexivity|exfalso].
    assert (N0 : w_traj w1 = None).
    { unfold setup_dynamics in Hw. apply bind_ok in Hw. destruct Hw as (p & _ & Hw). apply bind_ok in Hw. destruct Hw as ([l g] & _ & Hw).
      apply bind_ok in Hw. destruct Hw as (ps & _ & Hw). injection Hw as <-. reflexivity. }
    assert (N1 : w_traj x1 = None).
    { unfold when in H1. destruct (c_birth_death c) as [[|kv d]|].
      - injection H1 as _ <-. exact N0.
      - cbn [fst snd] in H1. apply bind_ok in H1. destruct H1 as (y & Hy & H1). apply bind_ok in Hy. destruct Hy as ([pp gg] & _ & Hy).
        injection Hy as <-. injection H1 as _ <-. exact N0.
      - injection H1 as _ <-. exact N0. }
    assert (N2 : w_traj x2 = None).
    { unfold when in H2. destruct (c_trajectories c) as [[|kv d]|]; [|discriminate|]; injection H2 as _ <-; exact N1. }
    unfold when in H3. destruct (c_histogram c) as [[|kv d]|]; [discriminate| |discriminate].
    cbn [fst snd] in H3. rewrite N2 in H3. cbn [need bind] in H3. discriminate.
Qed.

Lemma histogram_without_trajectories e cv secs c w : parse_all cv secs = Ok c -> setup_dynamics e c = Ok w ->
  (forall o, c_birth_death c = Some o -> exists b, setup_birth_death e o (w_ld w) = Ok b) ->
  has_section secs "histogram" = true -> has_section secs "trajectories" = false ->
  main e cv (Some (Ok secs)) = Exit1.
Proof.
  intros Hp Hw Hb Hh Ht. pose proof (parsed_sections _ _ _ Hp) as (S1 & S2 & S3 & _).
  unfold main. cbn [read_input bind]. rewrite Hp, Hw.
  assert (N0 : w_traj w = None).
  { unfold setup_dynamics in Hw. apply bind_ok in Hw. destruct Hw as (p & _ & Hw). apply bind_ok in Hw. destruct Hw as ([l g] & _ & Hw).
    apply bind_ok in Hw. destruct Hw as (ps & _ & Hw). injection Hw as <-. reflexivity. }
  rewrite Ht in S2. rewrite Hh in S3.
  assert (E : setup_actions e c w = Err KeyError).
  { unfold setup_actions.
    assert (E1 : exists l w1, when e (c_birth_death c) ABirthDeath (fun o w =>
            do (par, g) <- setup_birth_death e o (w_ld w); Ok (set_bd e w (w_ps w) (par, g, stats0, []))) ([ALd], w) = Ok (l, w1) /\ w_traj w1 = None).
    { unfold when. destruct (c_birth_death c) as [[|kv d]|]; [eauto| |eauto]. cbn [fst snd].
      destruct (Hb _ eq_refl) as ([par g] & ->). cbn [bind]. eauto. }
    destruct E1 as (l & w1 & -> & N1). cbn [bind].
    unfold when at 1. destruct (c_trajectories c) as [[|kv d]|]; [|discriminate|]; cbn [bind];
      (unfold when at 1; destruct (c_histogram c) as [[|kv2 d2]|]; [discriminate| |discriminate]; cbn [fst snd]; rewrite N1; reflexivity). }
  rewrite E. reflexivity.
Qed.

(** the sections read before the one with the missing dependency are fine *)
Lemma fes_without_histogram e cv secs s_ld s_pot s_part ld pot part bd traj :
  assoc "ld" secs = Some s_ld -> assoc "potential" secs = Some s_pot -> assoc "particles" secs = Some s_part ->
  parse_ld cv s_ld = Ok ld -> parse_potential cv s_pot = Ok pot -> parse_particles cv s_part = Ok part ->
  optional_section secs "birth-death" (parse_birth_death cv pot) = Ok bd ->
  optional_section secs "trajectories" (parse_trajectories cv) = Ok traj ->
  has_section secs "histogram" = false -> has_section secs "fes" = true ->
  main e cv (Some (Ok secs)) = Traceback NoSectionError.
Proof.
  intros A1 A2 A3 E1 E2 E3 E4 E5 Hh Hf. unfold main. cbn [read_input bind]. unfold parse_all. cbn [forallb]. rewrite A1, A2, A3. cbn [andb negb].
  rewrite E1. cbn [bind]. rewrite E2. cbn [bind]. rewrite E3. cbn [bind]. rewrite E4. cbn [bind]. rewrite E5. cbn [bind].
  unfold has_section in Hh, Hf. unfold optional_section. destruct (assoc "histogram" secs); [discriminate|]. cbn [bind].
  destruct (assoc "fes" secs); [|discriminate]. reflexivity.
Qed.
Lemma delta_f_without_fes e cv secs s_ld s_pot s_part ld pot part bd traj hist :
  assoc "ld" secs = Some s_ld -> assoc "potential" secs = Some s_pot -> assoc "particles" secs = Some s_part ->
  parse_ld cv s_ld = Ok ld -> parse_potential cv s_pot = Ok pot -> parse_particles cv s_part = Ok part ->
  optional_section secs "birth-death" (parse_birth_death cv pot) = Ok bd ->
  optional_section secs "trajectories" (parse_trajectories cv) = Ok traj ->
  optional_section secs "histogram" (parse_histogram cv pot) = Ok hist ->
  has_section secs "fes" = false -> has_section secs "delta-f" = true ->
  main e cv (Some (Ok secs)) = Traceback NoSectionError.
Proof.
  intros A1 A2 A3 E1 E2 E3 E4 E5 E6 Hh Hf. unfold main. cbn [read_input bind]. unfold parse_all. cbn [forallb]. rewrite A1, A2, A3. cbn [andb negb].
  rewrite E1. cbn [bind]. rewrite E2. cbn [bind]. rewrite E3. cbn [bind]. rewrite E4. cbn [bind]. rewrite E5. cbn [bind]. rewrite E6. cbn [bind].
  unfold has_section in Hh, Hf. unfold optional_section. destruct (assoc "fes" secs); [discriminate|]. cbn [bind].
  destruct (assoc "delta-f" secs); [|discriminate]. reflexivity.
Qed.

(** * Examples *)
Definition demo_parsed (bd traj hist : option dict) (coeffs : list xreal) : config :=
  mkConfig [("type", VStr "overdamped"); ("timestep", VFloat (Fin (1 / 10))); ("n_steps", VInt 4); ("seed", VInt 1)]
    [("type", VStr "polynomial"); ("n_dim", VInt 1); ("coeffs", VFloats coeffs); ("min", VFloat (Fin (-2)));
     ("max", VFloat (Fin 2)); ("boundary-condition", VNone)]
    [("number", VInt 4); ("mass", VFloat (Fin 1)); ("seed", VInt 1); ("initial-distribution", VStr "random-global")]
    bd traj hist None None None.
Ltac parse_demo := cbv - [Rlt_dec Rle_dec IZR Rdiv]; repeat one_section; reflexivity.

Lemma demo_dynamics os1 os2 os3 bd traj hist :
  exists w, setup_dynamics (demo_env os1 os2 os3) (demo_parsed bd traj hist [Fin 0; Fin 0; Fin 1]) = Ok w /\
    pot_ndim (ld_pot (w_ld w)) = 1%nat.
Proof.
  eexists. split.
  - unfold setup_dynamics, demo_parsed. cbn [c_potential c_ld c_particles].
    unfold setup_potential. cbn. change (Pos.to_nat 4) with 4%nat. change (Pos.to_nat 1) with 1%nat. cbn. reflexivity.
  - reflexivity.
Qed.

Lemma bad_list_traceback : exists cv secs, percent_free secs /\ dependencies secs /\ bad_value cv secs KFloats /\
  forall e, main e cv (Some (Ok secs)) = Traceback ValueError.
Proof.
  exists demo_conv, [("ld", demo1_ld); ("potential", demo1_pot "0,x,1"); ("particles", demo1_particles)].
  split; [|split; [|split]].
  - intros name sec H. cbn in H. repeat match type of H with (if ?b then _ else _) = _ => destruct b; [injection H as <-; repeat constructor|] end. discriminate.
  - split; discriminate.
  - exists "potential", "coeffs", "0,x,1". split; [|split].
    + apply oo_pot_1; [eexists; split; reflexivity| |simpl; auto].
      exists "1". split; [eexists; split; reflexivity|reflexivity].
    + eexists. split; reflexivity.
    + intros v Hv. apply convert_spec in Hv. discriminate.
  - intro e. unfold main. assert (E : read_input demo_conv (Some (Ok [("ld", demo1_ld); ("potential", demo1_pot "0,x,1"); ("particles", demo1_particles)])) = Err ValueError).
    { cbv - [Rlt_dec Rle_dec IZR Rdiv]; repeat one_section; reflexivity. }
    rewrite E. reflexivity.
Qed.
Lemma bad_variant_traceback : exists e cv secs, main e cv (Some (Ok secs)) = Traceback TypeError /\
  given secs "birth-death" "approximation-variant" "multiplikative" /\ ~ In "multiplikative" variant_names.
Proof.
  exists (demo_env 1 2 3), demo_conv, (demo1 [("birth-death", demo1_bd [("approximation-variant", "multiplikative")])]).
  split; [|split; [eexists; split; reflexivity|simpl; intuition discriminate]].
  destruct (demo_dynamics 1 2 3 (Some [("stride", VInt 1); ("correction-variant", VNone);
           ("approximation-variant", VStr "multiplikative"); ("exponential-factor", VNone);
           ("recalculate-probabilities", VBool false); ("stats-stride", VNone); ("stats-filename", VNone);
           ("seed", VNone); ("kernel-bandwidth", VFloat (Fin (1 / 10)))]) None None) as (w & Hw & Hd).
  eapply unknown_variant with (s := "multiplikative"); [|exact Hw|reflexivity|rewrite Hd; reflexivity|reflexivity|reflexivity|discriminate|simpl; intuition discriminate].
  parse_demo.
Qed.
Lemma bad_scalar_exit e : 
  percent_free (demo1 [("trajectories", [("stride", "many")])]) /\ dependencies (demo1 [("trajectories", [("stride", "many")])]) /\
  bad_value demo_conv (demo1 [("trajectories", [("stride", "many")])]) KInt /\
  main e demo_conv (Some (Ok (demo1 [("trajectories", [("stride", "many")])]))) = Exit1.
Proof.
  split; [|split; [|split]].
  - intros name sec H. cbn in H. repeat match type of H with (if ?b then _ else _) = _ => destruct b; [injection H as <-; repeat constructor|] end. discriminate.
  - split; discriminate.
  - exists "trajectories", "stride", "many". split; [apply oo_traj; simpl; auto|]. split; [eexists; split; reflexivity|].
    intros v Hv. apply convert_spec in Hv. discriminate.
  - unfold main. assert (E : read_input demo_conv (Some (Ok (demo1 [("trajectories", [("stride", "many")])]))) = Err OptionError).
    { cbv - [Rlt_dec Rle_dec IZR Rdiv]; repeat one_section; reflexivity. }
    rewrite E. reflexivity.
Qed.
Lemma missing_histogram e : main e demo_conv (Some (Ok (demo1 [("trajectories", []); ("fes", [("kt", "1")])]))) = Traceback NoSectionError.
Proof.
  unfold main. assert (E : read_input demo_conv (Some (Ok (demo1 [("trajectories", []); ("fes", [("kt", "1")])]))) = Err NoSectionError).
  { cbv - [Rlt_dec Rle_dec IZR Rdiv]; repeat one_section; reflexivity. }
  rewrite E. reflexivity.
Qed.
Lemma missing_trajectories :
  main (demo_env 1 2 3) demo_conv (Some (Ok (demo1 [("histogram", [("min", "-2"); ("max", "2"); ("bins", "100")])]))) = Exit1.
Proof.
  destruct (demo_dynamics 1 2 3 None None (Some [("stride", VNone); ("reset", VNone); ("filename", VNone); ("write-stride", VNone); ("fmt", VNone);
     ("min", VFloat (Fin (-2))); ("max", VFloat (Fin 2)); ("bins", VInt 100)])) as (w & Hw & Hd).
  eapply histogram_without_trajectories; [|exact Hw|discriminate|reflexivity|reflexivity]. parse_demo.
Qed.
