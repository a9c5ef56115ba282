(** One step of a simulation in float64 arithmetic and the example of C95 *)
From Coq Require Import Lia Lra.
From Verif Require Import Spec_f64sim Spec_grid Proof_base Proof_f64 Proof_f64b Proof_f64c Proof_f64g Proof_f64k Proof_f64l Proof_f64m Proof_f64n Proof_f64q Proof_f64r Proof_f64x Proof_f64sim Proof_f64sim2 Proof_f64sim3.
From Flocq Require Import Core.Core.
Open Scope R_scope.
Ltac Zify.zify_post_hook ::= idtac.
#[local] Arguments bpow : simpl never.

Section Sim.
Context (fexp flog : f64 -> f64) (np_sum : list f64 -> f64) (rng : frng_if) (s : fsim)
  (He : exp_ok fexp) (Hl : log_all_ok flog) (Hs : sums np_sum) (HR : frng_ok rng) (OK : sim_ok s).
Lemma step_float k i st : Forall (healthy s k) (st_ps rng st) -> (2 <= length (st_ps rng st))%nat -> (Z.of_nat (length (st_ps rng st)) <= 10000)%Z ->
  (4 * Z.of_nat (S k) < 2 ^ 53)%Z -> (fs_recalc s = true -> never_zero rng) ->
  exists moved g st', f_ld_run fexp rng s (st_ps rng st) (st_ld rng st) = Ok (moved, g) /\ Forall (healthy s (S k)) moved /\
    f_step fexp flog np_sum rng s i st = Ok st' /\ st_ld rng st' = g /\
    ((fs_stride s | i)%Z -> f_birth_death fexp flog np_sum rng s moved (st_stats rng st) (st_bd rng st) = Ok (st_ps rng st', st_stats rng st', st_bd rng st')) /\
    (~ (fs_stride s | i)%Z -> st_ps rng st' = moved /\ st_stats rng st' = st_stats rng st /\ st_bd rng st' = st_bd rng st).
Proof using OK He Hl Hs HR.
  intros H Hn Hm Hk NZ. destruct (ld_run_healthy fexp rng s He HR OK k Hk _ (st_ld rng st) H) as (ps & g & E & F & L).
  unfold f_step. rewrite E. cbn [bind]. pose proof (so_stride s OK) as St. destruct (Z.eqb_spec (fs_stride s) 0) as [Z0 | Z0]; [lia|].
  destruct (Z.eqb_spec (i mod fs_stride s) 0) as [D | D].
  - destruct (birth_death_fine fexp flog np_sum rng s He Hl Hs HR OK (S k) ps (st_stats rng st) (st_bd rng st) F) as (ps' & c & g' & E2 & F2 & L2); [lia|rewrite L; exact Hm|exact NZ|].
    rewrite E2. cbn [bind]. eexists _, _, _. split; [reflexivity|]. split; [exact F|]. split; [reflexivity|]. cbn [st_ld st_ps st_stats st_bd]. split; [reflexivity|].
    split; [intros _; exact E2|]. intros N. exfalso. apply N. now apply Z.mod_divide.
  - eexists _, _, _. split; [reflexivity|]. split; [exact F|]. split; [reflexivity|]. cbn [st_ld st_ps st_stats st_bd]. split; [reflexivity|].
    split; [intros N; exfalso; apply D; now apply Z.mod_divide|]. auto.
Qed.
End Sim.

Lemma well_energy x : Rabs (val x) <= 3 -> finite x -> Rabs (val (f_poly_energy demo_well [x])) <= 200.
Proof.
  intros Bx Fx. destruct (energy_all' demo_well 2 [x] well_ok eq_refl) as [F E].
  { apply Forall_cons; [split; [exact Fx|]|apply Forall_nil]. change (bpow radix2 2) with 4. lra. }
  assert (EP : exact_poly demo_well (map val [x]) = val x - 4 * val x ^ 2 + val x ^ 4).
  { unfold exact_poly, demo_well. cbn [a_shape a_flat map]. rewrite (proj2 (of_Z_small 1 ltac:(lia))), (proj2 (of_Z_small (-4) ltac:(lia))). change (val fzero) with 0.
    generalize (val x). clear. intros y. cbv -[Rplus Rmult IZR pow Rminus]. cbn [pow]. ring. }
  assert (EA : abs_poly demo_well (map Rabs (map val [x])) = Rabs (val x) + 4 * Rabs (val x) ^ 2 + Rabs (val x) ^ 4).
  { unfold abs_poly, demo_well. cbn [a_shape a_flat map]. rewrite (proj2 (of_Z_small 1 ltac:(lia))), (proj2 (of_Z_small (-4) ltac:(lia))). change (val fzero) with 0.
    rewrite Rabs_R0, Rabs_R1, (Rabs_left (-4)) by lra.
    generalize (Rabs (val x)). clear. intros y. cbv -[Rplus Rmult IZR pow Rminus Ropp]. cbn [pow]. ring. }
  rewrite EP, EA in E. change (INR (fold_right Nat.add 0%nat (a_shape demo_well))) with (INR 5) in E.
  assert (I5 : INR 5 = 5) by (cbn; lra). rewrite I5 in E.
  assert (P2 : 0 <= val x ^ 2 <= 9).
  { split; [apply pow2_ge_0|]. rewrite <- pow2_abs. pose proof (Rabs_pos (val x)). nra. }
  assert (P4 : 0 <= val x ^ 4 <= 81). { replace (val x ^ 4) with (val x ^ 2 * val x ^ 2) by ring. nra. }
  assert (A2 : Rabs (val x) ^ 2 = val x ^ 2) by apply pow2_abs.
  assert (A4 : Rabs (val x) ^ 4 = val x ^ 4) by (replace (val x ^ 4) with (val x ^ 2 * val x ^ 2) by ring; rewrite <- A2; ring).
  rewrite A2, A4 in E. assert (B9 : bpow radix2 (-900) <= 1) by (change 1 with (bpow radix2 0); apply bpow_le; lia).
  apply Rabs_le_inv in E. apply Rabs_le_inv in Bx. pose proof (Rabs_pos (val x)). assert (Rabs (val x) <= 3) by (apply Rabs_le; lra). apply Rabs_le. lra.
Qed.

Lemma events_case : exists fexp flog, exp_ok fexp /\ log_all_ok flog /\ sums left_sum /\ frng_ok (const_frng fhalf) /\ never_zero (const_frng fhalf) /\
  forall recalc, sim_ok (demo_fsim 5 recalc) /\ energies_below (demo_fsim 5 recalc) 200 /\
    Forall (healthy (demo_fsim 5 recalc) 0) (map (f_add_particle (demo_fsim 5 recalc)) [[fhalf]; [f_of_Z (-1)]; [fhalf]]).
Proof.
  destruct simulation_case as (fexp & flog & H1 & H2 & H3 & H4 & H5 & _ & H7). exists fexp, flog.
  split; [exact H1|]. split; [exact H2|]. split; [exact H3|]. split; [exact H4|]. split; [exact H5|]. intros recalc.
  assert (OK : sim_ok (demo_fsim 5 recalc)) by (apply demo_fsim_ok; lia). split; [exact OK|]. split.
  - destruct (of_Z_small (-3)) as [F3 V3]; [lia|]. destruct (of_Z_small 3) as [F3' V3']; [lia|]. destruct (of_Z_small 1) as [F1 V1]; [lia|].
    split; [|split].
    + split; [lra|]. apply Rle_trans with (bpow radix2 10); [|apply bpow_le; lia]. change (bpow radix2 10) with 1024. lra.
    + intros p Hp. cbn [demo_fsim fs_ranges fs_energy fs_kt] in *. inversion Hp as [|r x ? ? [I1 I2] Hnil]; subst. inversion Hnil; subst. cbn [fst snd] in I1, I2.
      destruct (inside_val (f_of_Z (-3), f_of_Z 3) x) as [Fx Vx]; [exact (Forall_inv (ranges_small _ OK))|split; assumption|]. cbn [fst snd] in Vx.
      rewrite V1. unfold Rdiv. rewrite Rinv_1, Rmult_1_r. apply well_energy; [|exact Fx]. apply Rabs_le. rewrite V3, V3' in Vx. lra.
    + intros pos _. cbn [demo_fsim fs_corr]. apply Forall_forall. intros y Hy. apply in_map_iff in Hy. destruct Hy as (? & <- & _). split; [reflexivity|].
      change (val fzero) with 0. rewrite Rabs_R0. lra.
  - apply Forall_forall. intros p Hp. apply in_map_iff in Hp. destruct Hp as (q & <- & Hq). apply healthy_new; [exact OK|]. rewrite Forall_forall in H7. now apply H7.
Qed.
