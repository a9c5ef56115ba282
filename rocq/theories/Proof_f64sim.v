(** Simulations in float64 arithmetic (C94) *)
From Coq Require Import Lia Lra.
From Verif Require Import Spec_f64sim Proof_base Proof_f64 Proof_f64b Proof_f64f Proof_f64j Proof_f64k Proof_f64m Proof_f64n Proof_f64q Proof_f64s Proof_f64h Proof_f64u Proof_f64v Proof_f64w.
From Flocq Require Import Core.Core.
Open Scope R_scope.
Ltac Zify.zify_post_hook ::= idtac.
#[local] Arguments bpow : simpl never.

Lemma In_set_nth {A} (l : list A) : forall k x t, In t (set_nth l k x) -> t = x \/ In t l.
Proof.
  induction l as [|y l IH]; intros [|k] x t H; cbn in H |- *; try tauto.
  - destruct H as [<- | H]; auto.
  - destruct H as [<- | H]; [auto|]. destruct (IH k x t H); auto.
Qed.

Section Sim.
Context (fexp flog : f64 -> f64) (np_sum : list f64 -> f64) (rng : frng_if) (s : fsim)
  (He : exp_ok fexp) (Hl : log_all_ok flog) (Hs : sums np_sum) (HR : frng_ok rng) (OK : sim_ok s).

Let ranges := fs_ranges s.
Lemma ranges_small : Forall range_small ranges.
Proof using OK.
  eapply Forall_impl; [|exact (so_ranges s OK)]. intros r ([A1 A2] & [A3 A4] & A5).
  assert (bpow radix2 200 <= bpow radix2 900) by (apply bpow_le; lia). split; [exact A1|]. split; [exact A3|]. split; [exact A5|]. split; lra.
Qed.
Lemma box_fine p : in_box ranges p -> Forall (bounded (bpow radix2 200)) p /\ length p = length ranges.
Proof using OK.
  pose proof ranges_small as RS. pose proof (so_ranges s OK) as RR. fold ranges in RR. intros H. split; [|symmetry; exact (F2_length _ _ _ H)].
  clear - H RS RR. induction H as [|r x rs xs H HF IH]; [constructor|]. inversion RS; subst. inversion RR as [|? ? ([_ B1] & [_ B2] & _) RR']; subst.
  constructor; [|now apply IH]. destruct (inside_val r x) as [F V]; [assumption..|]. split; [exact F|].
  apply Rabs_le_inv in B1. apply Rabs_le_inv in B2. apply Rabs_le. lra.
Qed.

(** ** dynamics *)
Lemma healthy_new pos : in_box ranges pos -> healthy s 0 (f_add_particle s pos).
Proof using OK.
  intros H. destruct (box_fine pos H) as [B L]. destruct (so_force s OK pos H) as [F1 F2]. destruct (so_energy s OK pos H) as [E1 E2].
  unfold healthy, f_add_particle, fp_pos, f_new_walker. cbn [fp_w fp_energy fw_pos fw_mom fw_forces].
  split; [exact H|]. split; [eapply Forall_impl; [|exact B]; now intros x []|]. split; [now rewrite map_length|]. split.
  - apply Forall_forall. intros x Hx. apply in_map_iff in Hx. destruct Hx as (? & <- & _). split; [reflexivity|]. change (val fzero) with 0. rewrite Rabs_R0. cbn. lra.
  - split; [reflexivity|]. split; [eapply Forall_impl; [|exact F2]; now intros x []|]. split; [reflexivity|exact E1].
Qed.

Lemma step_healthy k p n1 n2 : (4 * Z.of_nat (S k) < 2 ^ 53)%Z -> healthy s k p -> noise_for ranges n1 -> noise_for ranges n2 ->
  let c1 := f_c1 fexp (fs_friction s) (fs_dt s) in
  exists w, f_bp_update ranges (fs_force s) c1 (f_c2 c1 (fs_mass s) (fs_kt s)) (fs_mass s) (fs_dt s) (fp_w p) n1 n2 = Ok w /\
    healthy s (S k) (mkFP w (fs_energy s (fw_pos w))).
Proof using OK He.
  intros Hk (P1 & P2 & P3 & P4 & P5 & P6 & P7 & P8) N1 N2. cbv zeta. pose proof (bpow_gt_0 radix2 (-100)) as P100.
  destruct (so_dt s OK) as [Fd Hd]. destruct (so_friction s OK) as [Ff Hf]. destruct (so_kt s OK) as [Fk Hkt]. destruct (so_mass s OK) as [Fm Hm].
  destruct (c1_range fexp (fs_friction s) (fs_dt s) He Ff Hf Fd ltac:(lra)) as [F1 B1]. set (c1 := f_c1 fexp (fs_friction s) (fs_dt s)) in *.
  destruct (c2_val c1 (fs_mass s) (fs_kt s) F1 B1 Fm Fk) as (F2 & _ & B2); [lra|lra|]. set (c2 := f_c2 c1 (fs_mass s) (fs_kt s)) in *.
  assert (b200 : 0 < bpow radix2 200) by apply bpow_gt_0.
  pose proof (run_ok ranges (fs_force s) c1 c2 (fs_mass s) (fs_dt s) (bpow radix2 10) (bpow radix2 200) 300 ltac:(lia) ranges_small F1 B1 F2 Fm ltac:(lra) Fd ltac:(lra)) as R.
  specialize (R ltac:(rewrite Rabs_pos_eq by lra; apply Rle_trans with (bpow radix2 100 * bpow radix2 10); [apply Rmult_le_compat_r; [apply bpow_ge_0|lra]|rewrite <- bpow_plus; apply bpow_le; lia])).
  specialize (R ltac:(apply bpow_ge_0) ltac:(lra) ltac:(apply bpow_le; lia)).
  specialize (R ltac:(apply Rle_trans with (bpow radix2 200 * bpow radix2 100); [apply Rmult_le_compat_l; lra|rewrite <- bpow_plus; apply bpow_le; lia])).
  specialize (R ltac:(apply Rle_trans with (bpow radix2 (-100) * bpow radix2 200); [rewrite <- bpow_plus; change 1 with (bpow radix2 0); apply bpow_le; lia|apply Rmult_le_compat_r; lra])).
  specialize (R ltac:(apply Rle_trans with (bpow radix2 100); [lra|apply bpow_le; lia]) ltac:(lia)).
  specialize (R (fun p Hin => so_force s OK p Hin) [(n1, n2)] (4 * Z.of_nat k)%Z (fp_w p)).
  assert (QI : forall j, INR (4 * j) = IZR (4 * Z.of_nat j)) by (intros j; rewrite INR_IZR_INZ; f_equal; lia).
  destruct R as (w & E & G).
  - unfold good. split; [exact P1|]. split; [exact P3|]. split; [|exact P5].
    rewrite QI in P4. exact P4.
  - lia.
  - cbn [length]. lia.
  - constructor; [|constructor]. split; assumption.
  - cbn [f_bp_run] in E. destruct (f_bp_update _ _ _ _ _ _ _ _ _) as [w'|] eqn:E1; cbn [bind] in E; [|discriminate E]. injection E as ->.
    exists w. split; [reflexivity|]. destruct G as (G1 & G2 & G3 & G4). destruct (box_fine _ G1) as [BX BL].
    unfold healthy, fp_pos. cbn [fp_w fp_energy].
    split; [exact G1|]. split; [eapply Forall_impl; [|exact BX]; now intros x []|]. split; [exact G2|]. split.
    + rewrite QI. replace (4 * Z.of_nat (S k))%Z with (4 * Z.of_nat k + 4 * Z.of_nat (length [(n1, n2)]))%Z by (cbn [length]; lia). exact G3.
    + split; [exact G4|]. destruct (so_force s OK _ G1) as [Q1 Q2]. rewrite G4. split; [eapply Forall_impl; [|exact Q2]; now intros x []|].
      split; [reflexivity|]. exact (proj1 (so_energy s OK _ G1)).
Qed.

Lemma ld_run_healthy k : (4 * Z.of_nat (S k) < 2 ^ 53)%Z -> forall ps g, Forall (healthy s k) ps ->
  exists ps' g', f_ld_run fexp rng s ps g = Ok (ps', g') /\ Forall (healthy s (S k)) ps' /\ length ps' = length ps.
Proof using OK He HR.
  intros Hk. induction ps as [|p ps IH]; intros g H; [exists [], g; auto|].
  inversion H as [|? ? Hp Hps]; subst. cbn [f_ld_run]. unfold f_ld_walker.
  destruct (fr_normal rng (length (fs_ranges s)) g) as [n1 g1] eqn:E1. destruct (fr_normal rng (length (fs_ranges s)) g1) as [n2 g2] eqn:E2.
  pose proof (okf_normal rng HR (length (fs_ranges s)) g) as N1. rewrite E1 in N1. cbn [fst] in N1.
  pose proof (okf_normal rng HR (length (fs_ranges s)) g1) as N2. rewrite E2 in N2. cbn [fst] in N2.
  destruct (step_healthy k p n1 n2 Hk Hp N1 N2) as (w & Ew & Hw). unfold ranges in Ew. rewrite Ew. cbn [bind].
  destruct (IH g2 Hps) as (ps' & g' & E & F & L). rewrite E. cbn [bind]. eexists _, _. split; [reflexivity|]. split; [now constructor|]. cbn. now rewrite L.
Qed.

(** ** birth-death *)
Lemma betas_fine k ps : Forall (healthy s k) ps -> ps <> [] -> (Z.of_nat (length ps) <= 10000)%Z ->
  exists beta, f_calc_betas fexp flog np_sum s ps = Ok beta /\ length beta = length ps /\ Forall finite beta.
Proof using OK He Hl Hs.
  intros H Hn Hm. unfold f_calc_betas. set (pos := map fp_pos ps). destruct (so_bw s OK) as [LB MB].
  assert (HB : Forall (in_box ranges) pos).
  { apply Forall_forall. intros p Hp. apply in_map_iff in Hp. destruct Hp as (q & <- & Hq). rewrite Forall_forall in H. now apply (H q). }
  assert (LP : length pos = length ps) by apply map_length.
  assert (B2 : bpow radix2 200 * bpow radix2 100 = bpow radix2 300) by (rewrite <- bpow_plus; reflexivity).
  assert (B3 : bpow radix2 200 <= bpow radix2 300) by (apply bpow_le; lia).
  assert (P200 : 0 < bpow radix2 200) by apply bpow_gt_0. pose proof (bpow_gt_0 radix2 (-100)) as P100.
  destruct (rates_all fexp flog np_sum He Hl Hs (fs_bw s) pos MB) with (v := fs_variant s) (kt := fs_kt s) (energies := map fp_energy ps) (corr := fs_corr s pos) (M := bpow radix2 300) as (r & E & L & HF).
  - rewrite LB. exact (so_dim s OK).
  - eapply Forall_impl; [|exact HB]. intros p Hp. destruct (box_fine p Hp) as [A B]. split; [rewrite LB; exact B|exact A].
  - intros Q. apply map_eq_nil in Q. contradiction.
  - now rewrite LP.
  - exact (so_kt s OK).
  - rewrite map_length. now rewrite LP.
  - exact (proj1 (so_corr s OK pos HB)).
  - split; [lra|apply Rle_refl].
  - apply Forall_forall. intros e Hin. apply in_map_iff in Hin. destruct Hin as (q & <- & Hq). rewrite Forall_forall in H.
    destruct (H q Hq) as (Q1 & _ & _ & _ & _ & _ & Q7 & Q8). split; [exact Q8|]. rewrite Q7. destruct (so_energy s OK _ Q1) as [_ QE].
    destruct (so_kt s OK) as [_ [K1 K2]]. unfold Rdiv. rewrite Rabs_mult, (Rabs_pos_eq (/ _)) by (left; apply Rinv_0_lt_compat; lra).
    rewrite <- B2. apply Rmult_le_compat; [apply Rabs_pos|left; apply Rinv_0_lt_compat; lra|exact QE|].
    replace (bpow radix2 100) with (/ bpow radix2 (-100)) by (change (-100)%Z with (- (100))%Z; rewrite bpow_opp, Rinv_inv; reflexivity).
    apply Rinv_le; lra.
  - eapply Forall_impl; [|exact (proj2 (so_corr s OK pos HB))]. intros x [X1 X2]. split; [exact X1|lra].
  - exists r. split; [exact E|]. split; [now rewrite L|]. apply Forall_forall. intros x Hx. destruct (In_nth_error _ _ Hx) as [i Hi]. now apply (HF i x).
Qed.

Lemma move_fine (P : fpart -> Prop) ps ev : Forall P ps -> (fst ev < length ps)%nat -> (snd ev < length ps)%nat ->
  exists ps', f_move ps ev = Ok ps' /\ Forall P ps' /\ length ps' = length ps.
Proof using Type.
  intros H L1 L2. unfold f_move. destruct (nth_error ps (fst ev)) as [p|] eqn:E; [|apply nth_error_None in E; lia].
  destruct (Nat.ltb_spec (snd ev) (length ps)); [|lia]. eexists. split; [reflexivity|].
  apply nth_error_In in E. rewrite Forall_forall in H. split; [|apply set_nth_length].
  apply Forall_forall. intros q Hq. apply In_set_nth in Hq. destruct Hq as [-> | Hq]; auto.
Qed.
Lemma moves_fine (P : fpart -> Prop) evs : forall ps, Forall P ps -> Forall (fun ev => (fst ev < length ps)%nat /\ (snd ev < length ps)%nat) evs ->
  exists ps', foldM f_move evs ps = Ok ps' /\ Forall P ps' /\ length ps' = length ps.
Proof using Type.
  induction evs as [|ev evs IH]; intros ps H HE; [exists ps; auto|]. inversion HE as [|? ? [L1 L2] HE']; subst.
  destruct (move_fine P ps ev H L1 L2) as (ps1 & E1 & F1 & N1). cbn [foldM]. rewrite E1. cbn [bind].
  destruct (IH ps1 F1) as (ps2 & E2 & F2 & N2); [now rewrite N1|]. exists ps2. split; [exact E2|]. split; [exact F2|]. now rewrite N2.
Qed.

Lemma other_fine n i g : (2 <= n)%nat -> (i < n)%nat -> exists o g', f_random_other rng n i g = Ok (o, g') /\ (o < n)%nat /\ o <> i.
Proof using HR.
  intros Hn Hi. unfold f_random_other. destruct (Nat.leb_spec n 1); [lia|].
  destruct (fr_integers rng (n - 1) g) as [num g'] eqn:E. pose proof (okf_integers rng HR (n - 1) g ltac:(lia)) as Q. rewrite E in Q. cbn [fst] in Q.
  eexists _, _. split; [reflexivity|]. destruct (Nat.leb_spec i num); lia.
Qed.

Lemma bulk_loop_fine n beta : (2 <= n)%nat -> length beta = n -> forall is_ dups kills st g,
  Forall (fun i => (i < n)%nat) is_ -> Forall (fun i => (i < n)%nat) dups -> Forall (fun i => (i < n)%nat) kills ->
  exists d k st' g', f_bulk_loop rng n beta is_ dups kills st g = Ok (d, k, st', g') /\ Forall (fun i => (i < n)%nat) d /\ Forall (fun i => (i < n)%nat) k.
Proof using HR.
  intros Hn Lb. induction is_ as [|i is_ IH]; intros dups kills st g Hi Hd Hk; cbn [f_bulk_loop].
  { exists dups, kills, st, g. auto. }
  pose proof (Forall_inv Hi) as Hi0. pose proof (Forall_inv_tail Hi) as Hi'. cbv beta in Hi0. destruct (memb i kills); [now apply IH|].
  destruct (other_fine n i g Hn Hi0) as (o & g' & E & Lo & _). subst n. rewrite E. cbn [bind]. unfold fat.
  destruct (nth_error beta i) as [b|] eqn:Eb; [|apply nth_error_None in Eb; lia]. cbn [bind].
  destruct (f_pos b); apply IH; try assumption; apply Forall_app; auto.
Qed.

Lemma bulk_fine (P : fpart -> Prop) beta rand ps st g : (2 <= length ps)%nat -> length beta = length ps -> length rand = length ps -> Forall P ps ->
  exists ps' st' g', f_bulk fexp rng s beta rand ps st g = Ok (ps', st', g') /\ Forall P ps' /\ length ps' = length ps.
Proof using HR.
  intros Hn Lb Lr H. unfold f_bulk. set (mask := map _ (combine beta rand)).
  destruct (fr_shuffle rng (where_true mask) g) as [ev g1] eqn:E.
  pose proof (okf_shuffle rng HR (where_true mask) g) as Q. rewrite E in Q. cbn [fst] in Q.
  assert (HI : Forall (fun i => (i < length ps)%nat) ev).
  { apply Forall_forall. intros i Hi. apply (Permutation_in _ (Permutation_sym Q)) in Hi. unfold where_true in Hi. apply filter_In in Hi. destruct Hi as [Hi _].
    apply in_seq in Hi. unfold mask in Hi. rewrite map_length, combine_length in Hi. lia. }
  destruct (bulk_loop_fine (length ps) beta Hn Lb ev [] [] (add_attempts st (length ps - length (filter f_pos beta)) (length (filter f_pos beta))) g1 HI (Forall_nil _) (Forall_nil _))
    as (d & k & st' & g' & E2 & D & K). rewrite E2. cbn [bind].
  destruct (moves_fine P (combine d k) ps H) as (ps' & E3 & F3 & N3).
  { apply Forall_forall. intros [a b] Hab. rewrite Forall_forall in D, K. split; [apply D; eapply in_combine_l; exact Hab|apply K; eapply in_combine_r; exact Hab]. }
  rewrite E3. cbn [bind]. exists ps', st', g'. auto.
Qed.

Lemma bd_dt_fine : finite (f_bd_dt s) /\ 0 < val (f_bd_dt s).
Proof using OK.
  destruct (so_dt s OK) as [Fd [D1 D2]]. pose proof (so_stride s OK) as St. destruct (f_of_Z_val (fs_stride s)) as [Fz Vz]; [lia|].
  pose proof (bpow_gt_0 radix2 (-100)) as P100.
  assert (Z1 : 1 <= IZR (fs_stride s)) by (apply IZR_le; lia).
  assert (Z2 : IZR (fs_stride s) <= bpow radix2 50) by (rewrite <- (IZR_Zpower radix2 50) by lia; apply IZR_le; exact (proj2 St)).
  set (x := val (fs_dt s) * IZR (fs_stride s)).
  assert (X1 : bpow radix2 (-100) <= x) by (unfold x; rewrite <- (Rmult_1_r (bpow radix2 (-100))); apply Rmult_le_compat; lra).
  assert (X2 : x <= bpow radix2 150) by (unfold x; change 150%Z with (100 + 50)%Z; rewrite bpow_plus; apply Rmult_le_compat; lra).
  assert (R1 : 0 < rnd x).
  { pose proof (rnd_err_normal x) as E. rewrite Rabs_pos_eq in E by lra. specialize (E ltac:(eapply Rle_trans; [|exact X1]; apply bpow_le; lia)).
    apply Rabs_le_inv in E. assert (U * x <= / 2 * x) by (apply Rmult_le_compat_r; [lra|unfold U; lra]). lra. }
  assert (R2 : rnd x <= bpow radix2 150).
  { destruct (big_pow 150 ltac:(lia)) as [Q _]. rewrite <- Q. now apply rnd_le. }
  destruct (fmul_val (fs_dt s) (f_of_Z (fs_stride s)) Fd Fz) as [F V].
  { rewrite Vz. fold x. rewrite Rabs_pos_eq by lra. eapply Rle_lt_trans; [exact R2|]. apply bpow_lt. lia. }
  unfold f_bd_dt. split; [exact F|]. rewrite V, Vz. exact R1.
Qed.

Lemma recalc_loop_fine k n rand : (2 <= n)%nat -> (Z.of_nat n <= 10000)%Z -> length rand = n -> Forall (fun x => finite x /\ 0 < val x) rand ->
  forall is_ beta curr ps st g, Forall (fun i => (i < n)%nat) is_ -> length beta = n -> Forall finite beta ->
  Forall (healthy s k) ps -> length ps = n ->
  exists ps' st' g', f_recalc_loop fexp flog np_sum rng s n rand is_ beta curr ps st g = Ok (ps', st', g') /\ Forall (healthy s k) ps' /\ length ps' = n.
Proof using OK He Hl Hs HR.
  intros Hn Hm Lr Rr. induction is_ as [|i is_ IH]; intros beta curr ps st g Hi Lb Fb Hp Lp; cbn [f_recalc_loop].
  { eauto 6. }
  pose proof (Forall_inv Hi) as Hi0. pose proof (Forall_inv_tail Hi) as Hi'. cbv beta in Hi0. unfold fat.
  destruct (nth_error beta i) as [b|] eqn:Eb; [|apply nth_error_None in Eb; lia]. cbn [bind].
  destruct (nth_error rand i) as [r|] eqn:Er; [|apply nth_error_None in Er; lia]. cbn [bind].
  assert (Fbb : finite b) by (rewrite Forall_forall in Fb; apply Fb; eapply nth_error_In; exact Eb).
  assert (Frr : finite r /\ 0 < val r) by (rewrite Forall_forall in Rr; apply Rr; eapply nth_error_In; exact Er).
  destruct (f_accepted fexp (f_bd_dt s) (fs_rate s) b r) eqn:EA; [|now apply IH].
  destruct (other_fine (length ps) i g) as (o & g' & Eo & Lo & _); [lia|lia|]. rewrite Lp in Eo. subst n. rewrite Eo. cbn [bind].
  assert (NZ : f_pos b = true \/ f_neg b = true).
  { unfold f_pos, f_neg. destruct (Rtotal_order (val b) 0) as [C | [C | C]].
    - right. now apply flt_val.
    - exfalso. destruct bd_dt_fine as [Fd Pd]. destruct (so_rate s OK) as [Frt [Rt1 Rt2]]. pose proof (bpow_gt_0 radix2 (-100)) as P100.
      destruct (prob_all fexp (f_bd_dt s) (fs_rate s) b He Fd Pd Frt ltac:(lra) Fbb) as (G1 & G2 & G3). specialize (G3 C).
      unfold f_accepted in EA. apply fle_val in EA; [|tauto|exact G1]. rewrite G3 in EA. lra.
    - left. now apply flt_val. }
  assert (LI : (i < length beta)%nat) by (apply nth_error_Some; congruence).
  assert (PE : exists ev st'', (if f_pos b then (Some (i, o), add_kill (if f_neg b then add_attempts (if f_pos b then add_attempts st 0 1 else st) 1 0 else if f_pos b then add_attempts st 0 1 else st))
     else if f_neg b then (Some (o, i), add_dup (if f_neg b then add_attempts (if f_pos b then add_attempts st 0 1 else st) 1 0 else if f_pos b then add_attempts st 0 1 else st))
     else (curr, if f_neg b then add_attempts (if f_pos b then add_attempts st 0 1 else st) 1 0 else if f_pos b then add_attempts st 0 1 else st)) = (Some ev, st'')
     /\ (fst ev < length ps)%nat /\ (snd ev < length ps)%nat).
  { destruct (f_pos b); [eexists _, _; split; [reflexivity|]; cbn; lia|]. destruct (f_neg b); [eexists _, _; split; [reflexivity|]; cbn; lia|]. destruct NZ; discriminate. }
  destruct PE as (ev & st'' & -> & L1 & L2).
  destruct (move_fine (healthy s k) ps ev Hp L1 L2) as (ps1 & E1 & F1 & N1). rewrite E1. cbn [bind].
  destruct (betas_fine k ps1 F1) as (beta' & E2 & Lb' & Fb').
  { destruct ps1; [cbn in N1; lia|discriminate]. } { rewrite N1, Lp. exact Hm. }
  rewrite E2. cbn [bind]. apply IH; try assumption; congruence.
Qed.

Lemma birth_death_fine k ps st g : Forall (healthy s k) ps -> (2 <= length ps)%nat -> (Z.of_nat (length ps) <= 10000)%Z -> (fs_recalc s = true -> never_zero rng) ->
  exists ps' st' g', f_birth_death fexp flog np_sum rng s ps st g = Ok (ps', st', g') /\ Forall (healthy s k) ps' /\ length ps' = length ps.
Proof using OK He Hl Hs HR.
  intros H Hn Hm NZ. unfold f_birth_death. destruct (betas_fine k ps H) as (beta & E & Lb & Fb); [destruct ps; [cbn in Hn; lia|discriminate]|exact Hm|].
  rewrite E. cbn [bind]. destruct (fr_random rng (length ps) g) as [rand g1] eqn:Er.
  pose proof (okf_random rng HR (length ps) g) as [R1 R2]. rewrite Er in R1, R2. cbn [fst] in R1, R2.
  destruct (fs_recalc s) eqn:EC; cbn [negb].
  - destruct (fr_shuffle rng (seq 0 (length ps)) g1) as [is_ g2] eqn:Es.
    pose proof (okf_shuffle rng HR (seq 0 (length ps)) g1) as Q. rewrite Es in Q. cbn [fst] in Q.
    pose proof (NZ eq_refl (length ps) g) as Z. rewrite Er in Z. cbn [fst] in Z.
    apply recalc_loop_fine; try assumption; try reflexivity.
    + rewrite Forall_forall in *. intros x Hx. split; [now apply R2|now apply Z].
    + apply Forall_forall. intros i Hi. apply (Permutation_in _ (Permutation_sym Q)) in Hi. apply in_seq in Hi. lia.
  - now apply bulk_fine.
Qed.

(** ** whole runs *)
Lemma step_fine k i st : (4 * Z.of_nat (S k) < 2 ^ 53)%Z -> Forall (healthy s k) (st_ps rng st) -> (2 <= length (st_ps rng st))%nat -> (Z.of_nat (length (st_ps rng st)) <= 10000)%Z ->
  (fs_recalc s = true -> never_zero rng) ->
  exists st', f_step fexp flog np_sum rng s i st = Ok st' /\ Forall (healthy s (S k)) (st_ps rng st') /\ length (st_ps rng st') = length (st_ps rng st).
Proof using OK He Hl Hs HR.
  intros Hk H Hn Hm NZ. unfold f_step. destruct (ld_run_healthy k Hk _ (st_ld rng st) H) as (ps & g & E & F & L). rewrite E. cbn [bind].
  pose proof (so_stride s OK) as St. destruct (Z.eqb_spec (fs_stride s) 0); [lia|].
  destruct (i mod fs_stride s =? 0)%Z.
  - destruct (birth_death_fine (S k) ps (st_stats rng st) (st_bd rng st) F) as (ps' & c & g' & E2 & F2 & L2); [lia|rewrite L; exact Hm|exact NZ|].
    rewrite E2. cbn [bind]. eexists. split; [reflexivity|]. cbn [st_ps]. split; [exact F2|]. congruence.
  - eexists. split; [reflexivity|]. cbn [st_ps]. split; assumption.
Qed.

Lemma simulate_fine positions n g1 g2 : Forall (in_box ranges) positions -> (2 <= length positions)%nat -> (Z.of_nat (length positions) <= 10000)%Z ->
  (Z.of_nat n <= 2 ^ 50)%Z -> (fs_recalc s = true -> never_zero rng) ->
  exists st, f_simulate fexp flog np_sum rng s n positions g1 g2 = Ok st /\ length (st_ps rng st) = length positions /\ Forall (healthy s n) (st_ps rng st).
Proof using OK He Hl Hs HR.
  intros HB Hn Hm HN NZ. unfold f_simulate.
  assert (G : forall l k st, (Z.of_nat k + Z.of_nat (length l) <= 2 ^ 50)%Z -> Forall (healthy s k) (st_ps rng st) -> length (st_ps rng st) = length positions ->
    exists st', foldM (fun st i => f_step fexp flog np_sum rng s i st) l st = Ok st' /\ length (st_ps rng st') = length positions /\ Forall (healthy s (k + length l)) (st_ps rng st')).
  { induction l as [|i l IH]; intros k st Hk H L; cbn [foldM].
    - exists st. rewrite Nat.add_0_r. auto.
    - cbn [length] in Hk. destruct (step_fine k i st) as (st1 & E & F & L1); [lia|assumption|lia|lia|assumption|]. rewrite E. cbn [bind].
      destruct (IH (S k) st1) as (st2 & E2 & L2 & F2); [lia|assumption|congruence|]. exists st2. split; [exact E2|]. split; [exact L2|].
      replace (k + length (i :: l))%nat with (S k + length l)%nat by (cbn; lia). exact F2. }
  destruct (G (map Z.of_nat (seq 1 n)) 0%nat (mkFS rng (map (f_add_particle s) positions) stats0 g1 g2)) as (st & E & L & F).
  - rewrite map_length, seq_length. lia.
  - cbn [st_ps]. apply Forall_forall. intros p Hp. apply in_map_iff in Hp. destruct Hp as (q & <- & Hq). rewrite Forall_forall in HB. now apply healthy_new, HB.
  - cbn [st_ps]. apply map_length.
  - exists st. rewrite map_length, seq_length in F. auto.
Qed.
End Sim.
