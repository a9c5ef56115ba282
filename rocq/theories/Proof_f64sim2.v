(** Polynomial potentials and examples for C94 *)
From Coq Require Import Lia Lra.
From Verif Require Import Spec_f64sim Proof_base Proof_f64 Proof_f64b Proof_f64c Proof_f64f Proof_f64g Proof_f64h Proof_f64j Proof_f64k Proof_f64l Proof_f64m Proof_f64n Proof_f64o Proof_f64p Proof_f64q Proof_f64r Proof_f64s Proof_f64t Proof_f64u Proof_f64v Proof_f64w Proof_f64x Proof_f64sim.
From Flocq Require Import Core.Core.
Open Scope R_scope.
Ltac Zify.zify_post_hook ::= idtac.
#[local] Arguments bpow : simpl never.

(** ** polynomial potentials *)
Lemma energy_bounded coeffs a pos : poly_ok a coeffs -> length pos = length (a_shape coeffs) -> Forall (bounded (bpow radix2 a)) pos ->
  bounded (bpow radix2 200) (f_poly_energy coeffs pos).
Proof.
  intros OK L HP. pose proof (n_small a coeffs OK) as NS. pose proof (coeffs_fit a coeffs OK) as CF. destruct OK as (FN & Hl & Hb & Ha & Hn & Hp).
  destruct (polyvalnd_AR a Ha pos HP 0 ETA 40 1 coeffs (vals_arr coeffs) (abs_arr coeffs) (coeffs_AR _ _ _ CF) L FN) as [[R1 R2] _]; [lia|lia|lra| | |].
  - unfold prod_list. lia.
  - pose proof (size_bound a _ _ Ha Hn (le_n _)). unfold total_len. lia.
  - split; [exact R1|]. eapply Rle_trans; [exact R2|].
    apply Rle_trans with (bpow radix2 40 * bpow radix2 140).
    + apply Rmult_le_compat; [apply IZR_le; unfold prod_list; lia|apply bpow_ge_0| |].
      * rewrite <- (IZR_Zpower radix2 40) by lia. apply IZR_le. unfold prod_list in *. change (Zpower radix2 40) with (2 ^ 40)%Z. lia.
      * apply bpow_le. pose proof (size_bound a _ _ Ha Hn (le_n _)). unfold total_len. lia.
    + rewrite <- bpow_plus. apply bpow_le. lia.
Qed.

Lemma poly_sim a coeffs s : poly_ok a coeffs -> length (fs_ranges s) = length (a_shape coeffs) -> (1 <= length (fs_ranges s) <= 3)%nat ->
  Forall (fun r => bounded (bpow radix2 a) (fst r) /\ bounded (bpow radix2 a) (snd r) /\ val (fst r) <= val (snd r)) (fs_ranges s) ->
  fs_force s = f_poly_force coeffs -> fs_energy s = f_poly_energy coeffs ->
  moderate (fs_dt s) -> finite (fs_friction s) /\ 0 <= val (fs_friction s) -> moderate (fs_kt s) -> moderate (fs_mass s) ->
  (1 <= fs_stride s <= 2 ^ 50)%Z -> length (fs_bw s) = length (fs_ranges s) /\ Forall moderate (fs_bw s) -> moderate (fs_rate s) ->
  (forall pos, Forall (in_box (fs_ranges s)) pos -> length (fs_corr s pos) = length pos /\ Forall (bounded (bpow radix2 200)) (fs_corr s pos)) ->
  sim_ok s.
Proof.
  intros OK L D HR EF EE. assert (A : (0 <= a <= 100)%Z).
  { destruct OK as (FN & _ & _ & Ha & Hn & _). split; [exact Ha|]. destruct (a_shape coeffs) as [|n sh]; [cbn in L; lia|]. inversion FN; subst. cbn [fold_right] in Hn. nia. }
  assert (B : bpow radix2 a <= bpow radix2 200) by (apply bpow_le; lia).
  assert (BX : forall p, in_box (fs_ranges s) p -> length p = length (a_shape coeffs) /\ Forall (bounded (bpow radix2 a)) p).
  { intros p Hp. split; [rewrite <- L; symmetry; exact (F2_length _ _ _ Hp)|]. clear - HR Hp B. 
    induction Hp as [|r x rs xs H HF IH]; [constructor|]. inversion HR as [|? ? ([F1 B1] & [F2 B2] & Le) HR']; subst.
    constructor; [|now apply IH]. 
    assert (bpow radix2 200 <= bpow radix2 900) by (apply bpow_le; lia).
    destruct (inside_val r x) as [F V]; [repeat split; first [assumption|lra]|exact H|]. split; [exact F|].
    apply Rabs_le_inv in B1. apply Rabs_le_inv in B2. apply Rabs_le. lra. }
  intros. constructor; try assumption.
  - eapply Forall_impl; [|exact HR]. intros r ([A1 A2] & [A3 A4] & A5). split; [split; [exact A1|lra]|]. split; [split; [exact A3|lra]|exact A5].
  - intros p Hp. destruct (BX p Hp) as [P1 P2]. rewrite EF. split; [rewrite (force_length coeffs p P1); congruence|]. exact (force_bounded a coeffs p OK P1 P2).
  - intros p Hp. destruct (BX p Hp) as [P1 P2]. rewrite EE. exact (energy_bounded coeffs a p OK P1 P2).
Qed.

(** ** two walkers at the same place *)
Lemma float_eq (x y : f64) : finite x -> finite y -> val x <> 0 -> val x = val y -> x = y.
Proof.
  intros Fx Fy N E. apply B2R_inj; [| |exact E].
  - destruct x as [s|s| |s m e b]; try discriminate Fx; [now exfalso; apply N|reflexivity].
  - destruct y as [s|s| |s m e b]; try discriminate Fy; [exfalso; apply N; rewrite E; reflexivity|reflexivity].
Qed.
Lemma rnd_double (x : f64) : rnd (2 * val x) = 2 * val x.
Proof.
  apply round_generic; [auto with typeclass_instances|]. pose proof (generic_format_B2R 53 1024 x) as G.
  change (SpecFloat.fexp 53 1024) with (FLT_exp (-1074) 53) in G. apply FLT_format_generic in G; [|reflexivity]. destruct G as [f E M1 M2].
  apply generic_format_FLT. exists (Float radix2 (Fnum f) (Fexp f + 1)).
  - rewrite E. unfold F2R. cbn [Fnum Fexp]. rewrite bpow_plus. change (bpow radix2 1) with 2. ring.
  - exact M1.
  - cbn [Fexp]. lia.
Qed.

Section Twins.
Context (fexp flog : f64 -> f64) (He : exp_ok fexp) (Hl : log_all_ok flog) (b x : f64) (Hb : moderate b) (Hx : bounded (bpow radix2 200) x).

Lemma pair_same : f_pair fexp b x x = f_height b.
Proof using He Hb Hx.
  destruct (height_val b Hb) as (Fh & Rh & Bh). pose proof (proj1 Hx) as Fx.
  assert (PH : 0 < HH (val b)) by (pose proof (bpow_gt_0 radix2 (-102)); lra).
  pose proof (rel_range 8 _ _ Rh ltac:(lra) PH) as R.
  unfold f_pair. set (d := fsub x x).
  destruct (fsub_val x x Fx Fx) as [Fd Vd]; [rewrite Rminus_diag_eq, rnd_0, Rabs_R0 by reflexivity; apply bpow_gt_0|].
  rewrite Rminus_diag_eq, rnd_0 in Vd by reflexivity. fold d in Fd, Vd.
  destruct (fmul_val d d Fd Fd) as [Fq Vq]; [rewrite Vd, Rmult_0_l, rnd_0, Rabs_R0; apply bpow_gt_0|]. rewrite Vd, Rmult_0_l, rnd_0 in Vq.
  destruct (width_val b x x Hb Hx Hx) as (Fv & Rv & Bv).
  assert (W0 : 0 < val (fmul (f_of_Z 2) (fmul b b))).
  { pose proof (bpow_gt_0 radix2 (-199)). pose proof (rel_range _ _ _ Rv ltac:(lra) ltac:(lra)). nra. }
  set (v := fmul (f_of_Z 2) (fmul b b)) in *. set (q := fmul d d) in *.
  destruct (fdiv_val (fopp q) v) as [Fa Va]; [now apply fopp_finite|exact Fv|lra|rewrite fopp_val, Vq; unfold Rdiv; rewrite Ropp_0, Rmult_0_l, rnd_0, Rabs_R0; apply bpow_gt_0|].
  rewrite fopp_val, Vq in Va. unfold Rdiv in Va. rewrite Ropp_0, Rmult_0_l, rnd_0 in Va.
  destruct (proj1 He _ Fa ltac:(lra)) as (Fe & _ & E1 & _). specialize (E1 Va).
  set (ex := fexp _) in *.
  destruct (fmul_val (f_height b) ex Fh Fe) as [Fm Vm].
  { rewrite E1, Rmult_1_r, rnd_val. apply small_max. rewrite Rabs_pos_eq by lra. assert (bpow radix2 99 * 2 <= bpow radix2 900) by (change (bpow radix2 99 * bpow radix2 1 <= bpow radix2 900); rewrite <- bpow_plus; apply bpow_le; lia). lra. }
  rewrite E1, Rmult_1_r, rnd_val in Vm. apply float_eq; [exact Fm|exact Fh| |exact Vm]. rewrite Vm. lra.
Qed.

Lemma twins_rates kt e corr : moderate kt -> bounded (bpow radix2 200) e -> 
  exists z z', f_betas fexp flog left_sum VOrig kt [b] [[x]; [x]] [e; e] corr = Ok [z; z'] /\ finite z /\ val z = 0.
Proof using All.
  intros [Fk Hk] [Fe Be].
  assert (Fb1 : Forall moderate [b]) by (apply Forall_cons; [exact Hb|apply Forall_nil]).
  assert (CO : coords_ok [b] [x]) by (split; [reflexivity|apply Forall_cons; [exact Hx|apply Forall_nil]]).
  assert (CC : Forall (coords_ok [b]) [[x]; [x]]) by (apply Forall_cons; [exact CO|apply Forall_cons; [exact CO|apply Forall_nil]]).
  destruct (density_all fexp left_sum He left_sum_sums [b] [[x]; [x]] Fb1 ltac:(cbn; lia) CC ltac:(discriminate) ltac:(cbn; lia)) as (d & E & Ld & HD).
  assert (Q : f_density fexp left_sum [b] [[x]; [x]] = Ok [fdiv (left_sum [f_height b; f_height b]) (f_of_Z 2); fdiv (left_sum [f_height b; f_height b]) (f_of_Z 2)]).
  { unfold f_density. cbn [length Nat.eqb seq map]. unfold f_entry. cbn [Nat.eqb Nat.min Nat.max nth map f_pairs f_prod fold_left]. rewrite pair_same. reflexivity. }
  set (dd := fdiv (left_sum [f_height b; f_height b]) (f_of_Z 2)) in Q.
  rewrite E in Q. injection Q as ->. clearbody dd. destruct (HD 0%nat dd eq_refl) as (D1 & D2 & D3 & D4).
  assert (ME : Rabs (val e / val kt) <= bpow radix2 300).
  { pose proof (bpow_gt_0 radix2 (-100)) as P100. unfold Rdiv. rewrite Rabs_mult, (Rabs_pos_eq (/ _)) by (left; apply Rinv_0_lt_compat; lra).
    change 300%Z with (200 + 100)%Z. rewrite bpow_plus. apply Rmult_le_compat; [apply Rabs_pos|left; apply Rinv_0_lt_compat; lra|exact Be|].
    replace (bpow radix2 100) with (/ bpow radix2 (-100)) by (change (-100)%Z with (- (100))%Z; rewrite bpow_opp, Rinv_inv; reflexivity).
    apply Rinv_le; lra. }
  destruct (energy_val e kt (bpow radix2 300) Fe Fk Hk ME ltac:(lra)) as [T1 T2]. set (t := fmul e (fdiv (f_of_Z 1) kt)) in *.
  destruct (raw_val flog dd _ t _ (INR 2) (bpow radix2 300) Hl D1 D2 ltac:(cbn; lra) ltac:(split; [apply bpow_ge_0|lra]) D3 ltac:(split; [eapply Rle_trans; [|apply D4]; apply bpow_le; lia|apply D4]) T1 T2 ME) as (Y1 & Y2 & Y3).
  set (y := fadd (flog dd) t) in *.
  assert (BY : Rabs (val y) <= bpow radix2 400).
  { replace (val y) with ((val y - (ln (exact_density [b] [[x]; [x]] 0) + val e / val kt)) + (ln (exact_density [b] [[x]; [x]] 0) + val e / val kt)) by lra.
    eapply Rle_trans; [apply Rabs_triang|]. pose proof U_pos. pose proof U_small as US. pose proof (bpow_gt_0 radix2 300) as P300.
    assert (U * 1048576 * bpow radix2 300 <= 1 * bpow radix2 300) by (apply Rmult_le_compat_r; lra).
    assert (1024 <= bpow radix2 300) by (change 1024 with (bpow radix2 10); apply bpow_le; lia).
    assert (bpow radix2 300 * 1024 <= bpow radix2 400) by (change (bpow radix2 300 * bpow radix2 10 <= bpow radix2 400); rewrite <- bpow_plus; apply bpow_le; lia).
    cbn [INR] in Y2. lra. }
  assert (B400 : bpow radix2 400 * 2 <= bpow radix2 900) by (change (bpow radix2 400 * bpow radix2 1 <= bpow radix2 900); rewrite <- bpow_plus; apply bpow_le; lia).
  assert (F0 : finite fzero) by reflexivity. assert (V0 : val fzero = 0) by reflexivity.
  destruct (fadd_val fzero y F0 Y1) as [S1 W1]; [rewrite V0, Rplus_0_l, rnd_val; apply small_max; pose proof (bpow_ge_0 radix2 400); lra|].
  rewrite V0, Rplus_0_l, rnd_val in W1.
  destruct (fadd_val (fadd fzero y) y S1 Y1) as [S2 W2].
  { rewrite W1. replace (val y + val y) with (2 * val y) by lra. rewrite rnd_double. apply small_max. rewrite Rabs_mult, (Rabs_pos_eq 2) by lra. lra. }
  rewrite W1 in W2. replace (val y + val y) with (2 * val y) in W2 by lra. rewrite rnd_double in W2.
  destruct (f_of_Z_val 2) as [F2 V2]; [lia|].
  destruct (fdiv_val (fadd (fadd fzero y) y) (f_of_Z 2) S2 F2) as [S3 W3].
  { rewrite V2. lra. } { rewrite W2, V2. replace (2 * val y / 2) with (val y) by field. rewrite rnd_val. apply small_max. pose proof (bpow_ge_0 radix2 400). lra. }
  rewrite W2, V2 in W3. replace (2 * val y / 2) with (val y) in W3 by field. rewrite rnd_val in W3.
  unfold f_betas. rewrite E. cbn [bind map fmap2]. fold t. fold y. unfold f_center.
  assert (K : filter (fun b0 => negb (feq b0 (fopp finf))) [y; y] = [y; y]) by (apply filter_id; intros z [<- | [<- | []]]; now rewrite finite_not_minf).
  rewrite K. cbn [length map]. unfold left_sum at 1 2. cbn [fold_left]. change (Z.of_nat 2) with 2%Z. set (m := fdiv (fadd (fadd fzero y) y) (f_of_Z 2)) in *.
  exists (fsub y m), (fsub y m). split; [reflexivity|].
  destruct (fsub_val y m Y1 S3) as [S4 W4]; [rewrite W3, Rminus_diag_eq, rnd_0, Rabs_R0 by reflexivity; apply bpow_gt_0|].
  split; [exact S4|]. rewrite W4, W3, Rminus_diag_eq, rnd_0 by reflexivity. reflexivity.
Qed.
End Twins.

(** ** a concrete simulation: a double well in one dimension *)
Definition demo_fsim (stride : Z) (recalc : bool) : fsim :=
  mkFSim [(f_of_Z (-3), f_of_Z 3)] (f_poly_force demo_well) (f_poly_energy demo_well) (fmake 1 (-7)) (f_of_Z 10) (f_of_Z 1) (f_of_Z 1)
    stride [fhalf] (f_of_Z 1) recalc VOrig (map (fun _ => fzero)).
(** a generator that always draws the smallest numbers, and one that draws 1/2 *)
Definition const_frng (x : f64) : frng_if :=
  {| fr_st := unit; fr_normal := fun n g => (repeat fzero n, g); fr_random := fun n g => (repeat x n, g);
     fr_shuffle := fun l g => (l, g); fr_integers := fun n g => (0%nat, g) |}.

Lemma moderate_Z z : (1 <= z <= 10)%Z -> moderate (f_of_Z z).
Proof.
  intros Hz. destruct (f_of_Z_val z) as [F V]; [lia|]. split; [exact F|]. rewrite V. assert (1 <= IZR z <= 10) by (split; apply IZR_le; lia).
  assert (bpow radix2 (-100) <= 1) by (change 1 with (bpow radix2 0); apply bpow_le; lia).
  assert (16 <= bpow radix2 100) by (change 16 with (bpow radix2 4); apply bpow_le; lia). lra.
Qed.
Lemma moderate_pow k : (-100 <= k <= 100)%Z -> moderate (fmake 1 k).
Proof.
  intros H. destruct (fmake_val 1 k) as [F V]; [lia..|]. split; [exact F|]. rewrite V, Rmult_1_l. split; apply bpow_le; lia.
Qed.
Lemma demo_fsim_ok stride recalc : (1 <= stride <= 2 ^ 50)%Z -> sim_ok (demo_fsim stride recalc).
Proof.
  intros Hst. destruct (of_Z_small (-3)) as [F3 V3]; [lia|]. destruct (of_Z_small 3) as [F3' V3']; [lia|]. destruct (of_Z_small 10) as [F10 V10]; [lia|].
  apply (poly_sim 2 demo_well); cbn [demo_fsim fs_ranges fs_force fs_energy fs_dt fs_friction fs_kt fs_mass fs_stride fs_bw fs_rate fs_corr]; try reflexivity.
  - exact well_ok.
  - cbn. lia.
  - apply Forall_cons; [|apply Forall_nil]. cbn [fst snd]. split; [apply bounded_Z; lia|]. split; [apply bounded_Z; lia|]. rewrite V3, V3'. lra.
  - apply moderate_pow. lia.
  - split; [exact F10|]. rewrite V10. lra.
  - apply moderate_Z. lia.
  - apply moderate_Z. lia.
  - exact Hst.
  - split; [reflexivity|]. apply Forall_cons; [|apply Forall_nil]. unfold fhalf. apply moderate_pow. lia.
  - apply moderate_Z. lia.
  - intros pos _. split; [apply map_length|]. apply Forall_forall. intros x Hx. apply in_map_iff in Hx. destruct Hx as (? & <- & _). apply bounded_0.
Qed.
Lemma const_frng_ok x : finite x -> 0 <= val x < 1 -> frng_ok (const_frng x).
Proof.
  intros Fx Bx. constructor; cbn [const_frng fr_st fr_normal fr_random fr_shuffle fr_integers fst].
  - intros n g. split; [apply repeat_length|]. apply Forall_forall. intros y Hy. apply repeat_spec in Hy. subst y. apply bounded_0.
  - intros n g. split; [apply repeat_length|]. apply Forall_forall. intros y Hy. apply repeat_spec in Hy. subst y. split; assumption.
  - intros l g. apply Permutation_refl.
  - intros n g Hn. exact Hn.
Qed.
Lemma demo_box x : bounded 1 x -> in_box [(f_of_Z (-3), f_of_Z 3)] [x].
Proof.
  intros [Fx Bx]. apply Rabs_le_inv in Bx. destruct (of_Z_small (-3)) as [F3 V3]; [lia|]. destruct (of_Z_small 3) as [F3' V3']; [lia|].
  constructor; [|constructor]. split; cbn [fst snd]; apply fle_val; try assumption; rewrite ?V3, ?V3'; lra.
Qed.
Lemma half_in : bounded 1 fhalf.
Proof. destruct fhalf_val as [F V]. split; [exact F|]. rewrite V, Rabs_pos_eq; lra. Qed.

Lemma simulation_case : exists fexp flog, exp_ok fexp /\ log_all_ok flog /\ sums left_sum /\ frng_ok (const_frng fhalf) /\ never_zero (const_frng fhalf) /\
  sim_ok (demo_fsim 5 true) /\ Forall (in_box (fs_ranges (demo_fsim 5 true))) [[fhalf]; [f_of_Z (-1)]; [fhalf]].
Proof.
  destruct exp_ok_inhabited as [fexp H1]. destruct log_all_ok_inhabited as [flog H2]. exists fexp, flog. destruct fhalf_val as [Fh Vh].
  split; [exact H1|]. split; [exact H2|]. split; [exact left_sum_sums|]. split; [apply const_frng_ok; [exact Fh|rewrite Vh; lra]|].
  split. { intros n g. apply Forall_forall. intros y Hy. apply repeat_spec in Hy. subst y. rewrite Vh. lra. }
  split; [apply demo_fsim_ok; lia|]. 
  assert (B1 : bounded 1 (f_of_Z (-1))) by (destruct (of_Z_small (-1)) as [F V]; [lia|]; split; [exact F|]; rewrite V, Rabs_left; lra).
  repeat (apply Forall_cons; [apply demo_box; first [exact half_in|exact B1]|]). apply Forall_nil.
Qed.

(** two walkers at the same place have the rate 0 *)
Lemma zero_random : exists rng s positions g1 g2, frng_ok rng /\ sim_ok s /\ fs_recalc s = true /\ Forall (in_box (fs_ranges s)) positions /\ length positions = 2%nat /\
  forall fexp flog, exp_ok fexp -> log_all_ok flog -> f_simulate fexp flog left_sum rng s 1 positions g1 g2 = Err UnboundLocalError.
Proof.
  set (s := demo_fsim 1 true). assert (OK : sim_ok s) by (apply demo_fsim_ok; lia).
  assert (HR : frng_ok (const_frng fzero)) by (apply const_frng_ok; [reflexivity|]; change (val fzero) with 0; lra).
  assert (BX : in_box (fs_ranges s) [fhalf]) by (apply demo_box, half_in).
  exists (const_frng fzero), s, [[fhalf]; [fhalf]], tt, tt. split; [exact HR|]. split; [exact OK|]. split; [reflexivity|].
  split; [repeat (apply Forall_cons; [exact BX|]); apply Forall_nil|]. split; [reflexivity|]. intros fexp flog He Hl.
  unfold f_simulate. cbn [seq map foldM]. unfold f_step. cbn [st_ps st_ld f_ld_run]. unfold f_ld_walker. cbn [fr_normal const_frng].
  pose proof (healthy_new s OK [fhalf] BX) as H0.
  assert (N0 : noise_for (fs_ranges s) (repeat fzero (length (fs_ranges s)))) by exact (okf_normal _ HR (length (fs_ranges s)) tt).
  destruct (step_healthy fexp s He OK 0 (f_add_particle s [fhalf]) _ _ ltac:(lia) H0 N0 N0) as (w & Ew & Hw). rewrite Ew. cbn [bind].
  change (fs_stride s) with 1%Z. cbn [Z.eqb]. change (Z.of_nat 1 mod 1 =? 0)%Z with true. cbv iota. unfold f_birth_death, f_calc_betas. cbn [map fp_energy]. unfold fp_pos. cbn [fp_w].
  destruct Hw as (W1 & W2 & _ & _ & _ & _ & _ & _). unfold fp_pos in W1, W2. cbn [fp_w] in W1, W2.
  destruct (box_fine s OK _ W1) as [W3 W4]. destruct (fw_pos w) as [|x [|? ?]] eqn:EP; [discriminate W4| |discriminate W4].
  pose proof (Forall_inv W3) as Bx.
  change (fs_variant s) with VOrig. change (fs_bw s) with [fhalf]. change (fs_kt s) with (f_of_Z 1).
  assert (Mh : moderate fhalf) by (unfold fhalf; apply moderate_pow; lia).
  destruct (twins_rates fexp flog He Hl fhalf x Mh Bx (f_of_Z 1) (fs_energy s [x]) (fs_corr s [[x]; [x]]) (moderate_Z 1 ltac:(lia)) (so_energy s OK [x] W1)) as (z & z' & E & Fz & Vz).
  rewrite E. cbn [bind length fr_random const_frng repeat negb]. change (fs_recalc s) with true. cbn [negb]. cbn [fr_shuffle const_frng seq f_recalc_loop].
  unfold fat. cbn [nth_error bind].
  destruct (bd_dt_fine s OK) as [Fd Pd]. destruct (so_rate s OK) as [Frt [Rt1 Rt2]]. pose proof (bpow_gt_0 radix2 (-100)) as P100.
  destruct (prob_all fexp (f_bd_dt s) (fs_rate s) z He Fd Pd Frt ltac:(lra) Fz) as (G1 & G2 & G3). specialize (G3 Vz).
  assert (A : f_accepted fexp (f_bd_dt s) (fs_rate s) z fzero = true).
  { unfold f_accepted. apply fle_val; [reflexivity|exact G1|]. rewrite G3. apply Rle_refl. }
  rewrite A. unfold f_random_other. cbn [Nat.leb fr_integers const_frng bind].
  assert (P1 : f_pos z = false) by (unfold f_pos; apply flt_false; [reflexivity|exact Fz|]; rewrite Vz; apply Rle_refl).
  assert (P2 : f_neg z = false) by (unfold f_neg; apply flt_false; [exact Fz|reflexivity|]; rewrite Vz; apply Rle_refl).
  rewrite P1, P2. reflexivity.
Qed.
