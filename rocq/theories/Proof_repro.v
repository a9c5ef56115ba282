(** Proofs for reproducible runs (C52) *)
From Coq Require Import Lia Lra.
From Verif Require Import PyBase Model_xr Model_input Model_dyn Model_bd Model_setup Model_main Spec_input Spec_bd Spec_grid Spec_traj Spec_main Spec_rng Spec_repro
  Proof_base Proof_bd Proof_bd2 Proof_input Proof_setup2 Proof_main Proof_main2 Proof_main3 Proof_whole.
Open Scope string_scope.
Open Scope Z_scope.
Open Scope list_scope.
Ltac Zify.zify_post_hook ::= idtac.

Section Entropy.
Variables (e : env) (a b d : rng_st (e_rng e)).
Let e' := with_entropy e a b d.

Lemma ent_ld o pot s : has_seed o s -> setup_ld e' o pot = setup_ld e o pot.
Proof.
  intro H. unfold setup_ld, get_dict. rewrite H. cbn [v_opt_int]. reflexivity.
Qed.
Lemma ent_init o ld s : has_seed o s -> init_particles e' o ld = init_particles e o ld.
Proof.
  intro H. unfold init_particles, get_dict. rewrite H. cbn [v_opt_int]. reflexivity.
Qed.
Lemma ent_init_fixed o ld : assoc "initial-distribution" o = Some (VStr "fractions-pos") -> init_particles e' o ld = init_particles e o ld.
Proof.
  intro H. unfold init_particles. replace (get_dict o "initial-distribution") with (VStr "fractions-pos") by (unfold get_dict; rewrite H; reflexivity).
  reflexivity.
Qed.
Lemma ent_bd o ld s : has_seed o s -> s <> 0 -> setup_birth_death e' o ld = setup_birth_death e o ld.
Proof.
  intros H Hs. unfold setup_birth_death. replace (get_dict o "seed") with (VInt s) by (unfold get_dict; rewrite H; reflexivity).
  cbn [v_opt_int bind]. unfold bd_seed. cbn [truthyZ]. destruct (Z.eqb_spec s 0); [contradiction|]. reflexivity.
Qed.

Lemma ent_main cv file : (forall secs c, file = Some (Ok secs) -> parse_all cv secs = Ok c -> seeded c /\ bd_seed_not_zero c) ->
  main e' cv file = main e cv file.
Proof.
  intro H. unfold main. destruct (read_input cv file) as [c|x] eqn:E; [|reflexivity].
  assert (S : seeded c /\ bd_seed_not_zero c).
  { unfold read_input in E. destruct file as [[secs|]|]; cbn [bind] in E; try discriminate. eapply H; [reflexivity|exact E]. }
  destruct S as (((s1 & S1) & S2 & S3) & S4).
  assert (D : setup_dynamics e' c = setup_dynamics e c).
  { unfold setup_dynamics. change (setup_potential e' (c_potential c)) with (setup_potential e (c_potential c)).
    destruct (setup_potential e (c_potential c)) as [pot|]; cbn [bind]; [|reflexivity]. rewrite (ent_ld _ _ _ S1).
    change (e_rng e') with (e_rng e). destruct (setup_ld e (c_ld c) pot) as [[ld g]|]; cbn [bind]; [|reflexivity].
    destruct S2 as [(s2 & S2)|S2]; [rewrite (ent_init _ _ _ S2)|rewrite (ent_init_fixed _ _ S2)]; reflexivity. }
  assert (A : forall w, setup_actions e' c w = setup_actions e c w).
  { intro w. unfold setup_actions, when. cbv zeta.
    destruct (c_birth_death c) as [[|kv o]|] eqn:Eo; [reflexivity| |reflexivity].
    destruct (S3 _ eq_refl) as (s & Hs). cbn [snd fst].
    rewrite (ent_bd _ _ _ Hs); [reflexivity|]. intro; subst s. exact (S4 _ Eo Hs). }
  rewrite D. change (e_rng e') with (e_rng e). destruct (setup_dynamics e c) as [w|]; [|reflexivity]. rewrite A. reflexivity.
Qed.
End Entropy.

(** * The counterexample *)
Lemma entropy_rng_ok : rng_ok entropy_rng.
Proof.
  constructor; cbn; intros.
  - apply repeat_length.
  - apply repeat_length.
  - apply Forall_forall. intros x Hx. apply repeat_spec in Hx. destruct (Nat.eqb g 0); lra.
  - apply Permutation.Permutation_refl.
  - assumption.
  - destruct (Nat.even g); lra.
  - assumption.
Qed.

Definition two_par (par : bdpar) : Prop :=
  bd_variant par = VOrig /\ bd_recalc par = false /\ bd_bw par = [(1/10)%R] /\ bd_kt par = 1%R /\ bd_rate par = 1%R /\ bd_dt par = (1/10)%R.

Lemma two_betas gd par p q : two_par par -> length (p_pos p) = 1%nat -> length (p_pos q) = 1%nat -> (p_energy p - p_energy q = 2)%R ->
  calc_betas gd par [p; q] = Ok [1%R; (-1)%R].
Proof.
  intros (V & _ & B & K & _) Lp Lq E.
  rewrite (betas_orig 1 gd par [p; q] V); [| |discriminate].
  2:{ rewrite B. split; [reflexivity|]. split; [repeat constructor; lra|]. repeat constructor; assumption. }
  rewrite center_map, K. cbn [map].
  assert (S : log_density (bd_bw par) [p; q] p = log_density (bd_bw par) [p; q] q).
  { unfold log_density. f_equal. cbn [map]. destruct (p_pos p) as [|x [|]], (p_pos q) as [|y [|]]; try discriminate.
    rewrite B. unfold average. cbn [gauss_kernel length total]. unfold total. cbn [fold_right].
    replace ((y - x) ^ 2)%R with ((x - y) ^ 2)%R by ring. replace ((y - y) ^ 2)%R with ((x - x) ^ 2)%R by ring.
    set (A := exp _). set (C := exp _). unfold Rdiv. f_equal. ring. }
  rewrite S. set (L := log_density _ _ _). unfold average, total. cbn. assert (E' : p_energy p = (2 + p_energy q)%R) by lra. rewrite E'.
  f_equal. f_equal; [|f_equal]; field.
Qed.

Lemma prob_between par (x : R) : two_par par -> (x = 1 \/ x = -1)%R -> (0 <= event_prob par x)%R /\ (event_prob par x < 99/100)%R.
Proof.
  intros (_ & _ & _ & _ & R & D) Hx. unfold event_prob. rewrite R, D.
  assert (A : Rabs x = 1%R) by (destruct Hx; subst; unfold Rabs; destruct (Rcase_abs _); lra). rewrite A.
  replace (- (1) * (1/10) * 1)%R with (- (1/10))%R by lra. 
  assert (1 / 3 <= exp (- (1/10)))%R.
  { rewrite exp_Ropp. pose proof (exp_increasing (1/10) 1 ltac:(lra)). pose proof exp_le_3. pose proof (exp_pos (1/10)).
    replace (1 / 3)%R with (/ 3)%R by field. apply Rinv_le_contravar; lra. }
  pose proof (exp_increasing (- (1/10)) 0 ltac:(lra)) as X. rewrite exp_0 in X. lra.
Qed.
Lemma leb_true x y : (x <= y)%R -> Model_bd.leb x y = true.
Proof. unfold Model_bd.leb. destruct (Rle_dec x y); [reflexivity|contradiction]. Qed.
Lemma leb_false x y : (y < x)%R -> Model_bd.leb x y = false.
Proof. unfold Model_bd.leb. destruct (Rle_dec x y); [lra|reflexivity]. Qed.

Lemma two_bd gd par p q g st : two_par par -> length (p_pos p) = 1%nat -> length (p_pos q) = 1%nat -> (p_energy p - p_energy q = 2)%R ->
  exists evs st', do_birth_death entropy_rng gd par (mkBS (rng := entropy_rng) [p; q] g st) = Ok (evs, st') /\
    bs_ps st' = if Nat.eqb g 0 then [q; q] else [p; q].
Proof.
  intros T Lp Lq E. unfold do_birth_death. cbn [bs_ps]. rewrite (two_betas gd par p q T Lp Lq E). cbn [bind].
  destruct (prob_between par 1 T ltac:(now left)) as [P1 P1']. destruct (prob_between par (-1) T ltac:(now right)) as [P2 P2'].
  destruct T as (_ & -> & _). cbn [negb length r_random entropy_rng repeat bs_rng].
  unfold bd_bulk. cbn [bs_ps bs_rng bs_stats combine map fst snd].
  destruct (Nat.eqb g 0).
  - rewrite !leb_true by assumption. cbn -[gtb]. unfold at_; cbn -[gtb]. rewrite (gtb_true 1 0), (gtb_false (-1) 0) by lra. cbn.
    do 2 eexists. split; reflexivity.
  - rewrite !leb_false by lra. cbn. do 2 eexists. split; reflexivity.
Qed.

(** two seeds given, the one of the birth-death is 0: different walkers *)
Definition entropy_bd_dict : dict :=
  [("stride", VInt 1); ("correction-variant", VNone); ("approximation-variant", VNone); ("exponential-factor", VNone);
   ("recalculate-probabilities", VBool false); ("stats-stride", VNone); ("stats-filename", VNone); ("seed", VInt 0);
   ("kernel-bandwidth", VFloat (Fin (1 / 10)))].
Definition entropy_config : config :=
  mkConfig [("type", VStr "overdamped"); ("timestep", VFloat (Fin (1 / 10))); ("n_steps", VInt 1); ("seed", VInt 1)]
    [("type", VStr "polynomial"); ("n_dim", VInt 1); ("coeffs", VFloats [Fin 0; Fin 1]); ("min", VFloat (Fin (-2)));
     ("max", VFloat (Fin 2)); ("boundary-condition", VNone)]
    [("number", VInt 2); ("mass", VFloat (Fin 1)); ("seed", VInt 1); ("initial-distribution", VStr "random-global")]
    (Some entropy_bd_dict) None None None None None.
Lemma entropy_parsed : parse_all entropy_conv entropy_input = Ok entropy_config.
Proof. parse_demo. Qed.

Lemma line_energy x : poly_energy (arr_of_list [0; 1]%R) [x] = x.
Proof. cbv -[Rplus Rmult Ropp IZR INR pow]. ring. Qed.
Lemma line_force x : poly_force (arr_of_list [0; 1]%R) [x] = [(-1)%R].
Proof. cbv -[Rplus Rmult Ropp IZR INR pow]. f_equal. cbn [INR]. ring. Qed.

Lemma entropy_run g : exists w p q, main (entropy_env g) entropy_conv (Some (Ok entropy_input)) = Finished w /\
  w_ps w = (if Nat.eqb g 0 then [q; q] else [p; q]) /\ (p_energy p - p_energy q = 2)%R.
Proof.
  unfold main. cbn [read_input bind]. rewrite entropy_parsed.
  unfold setup_dynamics. cbn [entropy_config c_potential c_ld c_particles].
  cbn. change (Pos.to_nat 2) with 2%nat. cbn -[poly_energy poly_force arr_of_list].
  unfold setup_actions, when, setup_birth_death, bd_init. cbn -[poly_energy poly_force arr_of_list].
  destruct (Req_EM_T 1 0) as [H|_]; [exfalso; lra|]. cbn -[poly_energy poly_force arr_of_list].
  unfold main_loop. rewrite zrange_cons, zrange_nil by lia. cbn -[poly_energy poly_force arr_of_list bd_run].
  rewrite !line_force, !line_energy. unfold vadd. cbn -[poly_energy poly_force arr_of_list bd_run]. rewrite !line_force, !line_energy.
  unfold bd_run. cbn [bd_stride bd_stats_stride Z.eqb].
  match goal with |- context [do_birth_death _ ?gd ?par (mkBS [?p; ?q] _ ?st)] =>
    assert (T : two_par par) by (repeat (split; [reflexivity|]); cbn [bd_dt]; lra);
    assert (E : (p_energy p - p_energy q = 2)%R) by (cbn [p_energy]; lra);
    destruct (two_bd gd par p q g st T eq_refl eq_refl E) as (evs & st' & B & W)
  end.
  change (1 mod 1)%Z with 0%Z. cbn iota. rewrite B. cbn -[poly_energy poly_force arr_of_list].
  do 3 eexists. split; [reflexivity|]. cbn [w_ps set_bd]. split; [exact W|exact E].
Qed.

Lemma entropy_differs : exists e cv secs c b w w', rng_ok (e_rng e) /\ parse_all cv secs = Ok c /\ seeded c /\
  main e cv (Some (Ok secs)) = Finished w /\ main (with_entropy e (e_os_ld e) (e_os_init e) b) cv (Some (Ok secs)) = Finished w' /\
  w_ps w <> w_ps w'.
Proof.
  destruct (entropy_run 0) as (w & p & q & H & W & E). destruct (entropy_run 1) as (w' & p' & q' & H' & W' & E').
  exists (entropy_env 0), entropy_conv, entropy_input, entropy_config, 1%nat, w, w'.
  split; [exact entropy_rng_ok|]. split; [exact entropy_parsed|].
  split. { split; [exists 1; reflexivity|]. split; [left; exists 1; reflexivity|]. intros o Ho. exists 0. injection Ho as <-. reflexivity. }
  split; [exact H|]. split; [exact H'|]. cbn [Nat.eqb] in W, W'. intro X. rewrite W in X. apply (eq_trans X) in W'. injection W' as -> ->. lra.
Qed.
