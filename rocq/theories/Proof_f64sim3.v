(** Birth-death events in float64 arithmetic (C95) *)
From Coq Require Import Lia Lra.
From Verif Require Import Spec_f64sim Spec_grid Proof_base Proof_bd Proof_f64 Proof_f64b Proof_f64f Proof_f64h Proof_f64j Proof_f64k Proof_f64m Proof_f64n Proof_f64q Proof_f64s Proof_f64u Proof_f64v Proof_f64w Proof_f64sim.
From Flocq Require Import Core.Core.
Open Scope R_scope.
Ltac Zify.zify_post_hook ::= idtac.
#[local] Arguments bpow : simpl never.

(** ** e^-x for two close numbers x *)
Lemma exp_minus_le x : 0 <= x -> x * exp (- x) <= 1.
Proof.
  intros Hx. assert (E : exp (- x) * exp x = 1) by (rewrite <- exp_plus, Rplus_opp_l; apply exp_0).
  pose proof (exp_pos (- x)). destruct (Rle_lt_or_eq_dec 0 x Hx) as [P | <-]; [|lra].
  pose proof (exp_ineq1 x ltac:(lra)). rewrite Rmult_comm, <- E. apply Rmult_le_compat_l; lra.
Qed.
Lemma exp_close x y d : 0 <= x <= y -> 0 <= d -> y - x <= d * x -> 0 <= exp (- x) - exp (- y) <= d.
Proof.
  intros [H0 H1] Hd H. assert (E : exp (- y) = exp (- x) * exp (- (y - x))) by (rewrite <- exp_plus; f_equal; lra).
  pose proof (exp_pos (- x)) as P. pose proof (exp_minus_le x H0) as M.
  assert (G : 1 - exp (- (y - x)) <= y - x) by (destruct (Req_dec (y - x) 0) as [-> | N]; [rewrite Ropp_0, exp_0; lra|pose proof (exp_ineq1 (- (y - x)) ltac:(lra)); lra]).
  assert (G0 : exp (- (y - x)) <= 1) by (rewrite <- exp_0; destruct (Req_dec (y - x) 0) as [-> | N]; [rewrite Ropp_0; lra|left; apply exp_increasing; lra]).
  rewrite E. replace (exp (- x) - exp (- x) * exp (- (y - x))) with (exp (- x) * (1 - exp (- (y - x)))) by ring. split.
  - apply Rmult_le_pos; lra.
  - apply Rle_trans with (exp (- x) * (d * x)); [apply Rmult_le_compat_l; lra|]. replace (exp (- x) * (d * x)) with (d * (x * exp (- x))) by ring.
    rewrite <- (Rmult_1_r d) at 2. apply Rmult_le_compat_l; lra.
Qed.

Lemma nth_error_combine {A B} (a : list A) : forall (b : list B) i x y, nth_error a i = Some x -> nth_error b i = Some y -> nth_error (combine a b) i = Some (x, y).
Proof. induction a as [|u a IH]; intros [|v b] [|i] x y Ha Hb; cbn in *; try discriminate; [now inversion Ha; inversion Hb|now apply IH]. Qed.

(** ** bounds of the exact rates *)
Lemma average_bounded l A : l <> [] -> Forall (fun x => Rabs x <= A) l -> Rabs (average l) <= A.
Proof.
  intros Hl H. assert (0 < INR (length l)) as P by (apply lt_0_INR; destruct l; [congruence|cbn; lia]).
  assert (T : Rabs (total l) <= INR (length l) * A).
  { clear Hl P. induction H as [|x l Hx H IH]; [cbn; rewrite Rabs_R0; lra|]. change (total (x :: l)) with (x + total l). change (length (x :: l)) with (S (length l)). rewrite S_INR.
    eapply Rle_trans; [apply Rabs_triang|]. lra. }
  unfold average, Rdiv. rewrite Rabs_mult, (Rabs_pos_eq (/ _)) by (left; now apply Rinv_0_lt_compat).
  apply (Rmult_le_reg_r (INR (length l))); [exact P|]. rewrite Rmult_assoc, Rinv_l by lra. lra.
Qed.
Lemma centered_bounded n a A i : (i < n)%nat -> (forall k, (k < n)%nat -> Rabs (a k) <= A) -> Rabs (centered n a i) <= 2 * A.
Proof.
  intros Hi H. unfold centered. assert (Rabs (average (map a (seq 0 n))) <= A) as G.
  { apply average_bounded; [destruct n; [lia|discriminate]|]. apply Forall_forall. intros x Hx. apply in_map_iff in Hx. destruct Hx as (k & <- & Hk). apply in_seq in Hk. apply H. lia. }
  eapply Rle_trans; [apply Rabs_triang|]. rewrite Rabs_Ropp. specialize (H i Hi). lra.
Qed.

Section Sim.
Context (fexp flog : f64 -> f64) (np_sum : list f64 -> f64) (rng : frng_if) (s : fsim)
  (He : exp_ok fexp) (Hl : log_all_ok flog) (Hs : sums np_sum) (HR : frng_ok rng) (OK : sim_ok s) (M : R) (HM : energies_below s M).

Lemma betas_near k ps : Forall (healthy s k) ps -> ps <> [] -> (Z.of_nat (length ps) <= 10000)%Z ->
  exists beta, f_calc_betas fexp flog np_sum s ps = Ok beta /\ near_rates s M ps beta.
Proof using OK He Hl Hs HM.
  intros H Hn Hm. unfold f_calc_betas. set (pos := map fp_pos ps). destruct (so_bw s OK) as [LB MB]. destruct HM as (HM1 & HM2 & HM3).
  assert (HB : Forall (in_box (fs_ranges s)) pos).
  { apply Forall_forall. intros p Hp. apply in_map_iff in Hp. destruct Hp as (q & <- & Hq). rewrite Forall_forall in H. now apply (H q). }
  assert (LP : length pos = length ps) by apply map_length.
  assert (HD : (1 <= length (fs_bw s) <= 3)%nat) by (rewrite LB; exact (so_dim s OK)).
  assert (HC : Forall (coords_ok (fs_bw s)) pos).
  { eapply Forall_impl; [|exact HB]. intros p Hp. destruct (box_fine s OK p Hp) as [A B]. split; [rewrite LB; exact B|exact A]. }
  assert (HN : pos <> []) by (intros Q; apply map_eq_nil in Q; contradiction).
  assert (HX : (Z.of_nat (length pos) <= 10000)%Z) by now rewrite LP.
  assert (HE : Forall (fun e => finite e /\ Rabs (val e / val (fs_kt s)) <= M) (map fp_energy ps)).
  { apply Forall_forall. intros e Hin. apply in_map_iff in Hin. destruct Hin as (q & <- & Hq). rewrite Forall_forall in H.
    destruct (H q Hq) as (Q1 & _ & _ & _ & _ & _ & Q7 & Q8). split; [exact Q8|]. rewrite Q7. now apply HM2. }
  pose proof (so_corr s OK pos HB) as [LC _].
  destruct (rates_all fexp flog np_sum He Hl Hs (fs_bw s) pos MB HD HC HN HX (fs_variant s) (fs_kt s) (map fp_energy ps) (fs_corr s pos) M (so_kt s OK)) as (r & E & L & HF);
    [rewrite map_length; now rewrite LP|exact LC|exact HM1|exact HE|now apply HM3|].
  exists r. split; [exact E|]. split; [now rewrite L|]. intros i b Hb. destruct (HF i b Hb) as [F1 F2]. rewrite <- LP. split; [|exact F2].
  assert (Hi : (i < length pos)%nat) by (rewrite <- L; apply nth_error_Some; congruence).
  split; [exact F1|].
  (* the exact rate *)
  destruct (density_all fexp np_sum He Hs (fs_bw s) pos MB HD HC HN HX) as (d & _ & Ld & HDens).
  assert (LN : forall j, (j < length pos)%nat -> Rabs (ln (exact_density (fs_bw s) pos j)) <= 320).
  { intros j Hj. destruct (nth_error d j) as [x|] eqn:Ex; [|apply nth_error_None in Ex; lia]. destruct (HDens j x Ex) as (_ & _ & _ & B1 & B2).
    pose proof (bpow_gt_0 radix2 (-320)) as P. pose proof ln_lt_2 as L2. pose proof (ln_increasing 1 2 ltac:(lra) ltac:(lra)) as L20. rewrite ln_1 in L20.
    assert (L21 : ln 2 <= 1). { rewrite <- (ln_exp 1). apply Rcomplements.ln_le; [lra|]. pose proof (exp_ineq1 1 ltac:(lra)). lra. }
    assert (LB1 : ln (bpow radix2 (-320)) <= ln (exact_density (fs_bw s) pos j)) by (apply Rcomplements.ln_le; [exact P|exact B1]).
    assert (LB2 : ln (exact_density (fs_bw s) pos j) <= ln (bpow radix2 297)) by (apply Rcomplements.ln_le; lra).
    assert (LP2 : forall z, ln (bpow radix2 z) = IZR z * ln 2).
    { intros z. rewrite bpow_exp, ln_exp. change (IZR radix2) with 2. reflexivity. }
    rewrite LP2 in LB1, LB2. apply Rabs_le. split; nra. }
  assert (EN : forall j, (j < length pos)%nat -> Rabs (val (nth j (map fp_energy ps) fzero) / val (fs_kt s)) <= M).
  { intros j Hj. rewrite Forall_forall in HE. apply HE. apply nth_In. rewrite map_length, <- LP. exact Hj. }
  assert (CO : forall j, (j < length pos)%nat -> Rabs (val (nth j (fs_corr s pos) fzero)) <= M).
  { intros j Hj. specialize (HM3 pos HB). rewrite Forall_forall in HM3. apply HM3. apply nth_In. rewrite LC. exact Hj. }
  assert (XR : Rabs (exact_rate (fs_variant s) (fs_kt s) (fs_bw s) pos (map fp_energy ps) (fs_corr s pos) i) <= 640 + 3 * M).
  { assert (S1 : Rabs (centered (length pos) (fun k => ln (exact_density (fs_bw s) pos k) + val (nth k (map fp_energy ps) fzero) / val (fs_kt s)) i) <= 2 * (320 + M)).
    { apply centered_bounded; [exact Hi|]. intros j Hj. eapply Rle_trans; [apply Rabs_triang|]. apply Rplus_le_compat; auto. }
    assert (S2 : Rabs (centered (length pos) (fun k => ln (exact_density (fs_bw s) pos k) + val (nth k (fs_corr s pos) fzero)) i) <= 2 * (320 + M)).
    { apply centered_bounded; [exact Hi|]. intros j Hj. eapply Rle_trans; [apply Rabs_triang|]. apply Rplus_le_compat; auto. }
    unfold exact_rate. destruct (fs_variant s).
    - lra.
    - eapply Rle_trans; [apply Rabs_triang|]. specialize (CO i Hi). lra.
    - lra. }
  assert (N4 : INR (length pos) <= 10000) by (rewrite INR_IZR_INZ; apply IZR_le; exact HX). pose proof (pos_INR (length pos)) as N0.
  assert (B10 : 16384 * bpow radix2 300 <= bpow radix2 310 * 16) by (change 16384 with (bpow radix2 14); change 16 with (bpow radix2 4); rewrite <- !bpow_plus; apply bpow_le; lia).
  assert (B300 : 1000000 <= bpow radix2 300).
  { apply Rle_trans with (bpow radix2 20); [|apply bpow_le; lia]. change (bpow radix2 20) with (IZR (2 ^ 20)). apply IZR_le. lia. }
  replace (val b) with ((val b - exact_rate (fs_variant s) (fs_kt s) (fs_bw s) pos (map fp_energy ps) (fs_corr s pos) i) + exact_rate (fs_variant s) (fs_kt s) (fs_bw s) pos (map fp_energy ps) (fs_corr s pos) i) by lra.
  eapply Rle_trans; [apply Rabs_triang|]. assert (INR (length pos) * (/ 2 ^ 38 + M * / 2 ^ 48) <= 1 + M).
  { apply Rle_trans with (10000 * (/ 2 ^ 38 + M * / 2 ^ 48)); [apply Rmult_le_compat_r; [|exact N4]; apply Rplus_le_le_0_compat; [|apply Rmult_le_pos]; lra|]. lra. }
  lra.
Qed.

Definition f_prob (b : f64) : f64 := f_event_prob fexp (f_bd_dt s) (fs_rate s) b.
Lemma prob_near : near_prob s f_prob.
Proof using OK He.
  intros b [Fb Bb]. unfold f_prob. destruct (bd_dt_fine s OK) as [Fd Pd]. destruct (so_rate s OK) as [Fr [R1 R2]]. pose proof (bpow_gt_0 radix2 (-100)) as P100.
  split; [exact (proj1 (prob_all fexp _ _ b He Fd Pd Fr ltac:(lra) Fb))|].
  destruct (so_dt s OK) as [Fdt [D1 D2]]. pose proof (so_stride s OK) as St. destruct (f_of_Z_val (fs_stride s)) as [Fz Vz]; [lia|].
  assert (Z1 : 1 <= IZR (fs_stride s)) by (apply IZR_le; lia).
  assert (Z2 : IZR (fs_stride s) <= bpow radix2 50) by (rewrite <- (IZR_Zpower radix2 50) by lia; apply IZR_le; exact (proj2 St)).
  set (t := val (fs_dt s) * IZR (fs_stride s)).
  assert (X1 : bpow radix2 (-100) <= t) by (unfold t; rewrite <- (Rmult_1_r (bpow radix2 (-100))); apply Rmult_le_compat; lra).
  assert (X2 : t <= bpow radix2 150) by (unfold t; change 150%Z with (100 + 50)%Z; rewrite bpow_plus; apply Rmult_le_compat; lra).
  assert (R150 : rnd t <= bpow radix2 150) by (destruct (big_pow 150 ltac:(lia)) as [Q _]; rewrite <- Q; now apply rnd_le).
  assert (RE : Rabs (rnd t - t) <= U * t).
  { pose proof (rnd_err_normal t) as E. rewrite (Rabs_pos_eq t) in E by lra. apply E. eapply Rle_trans; [|exact X1]. apply bpow_le. lia. }
  assert (V : val (f_bd_dt s) = rnd t).
  { assert (0 <= rnd t) by (pose proof (rnd_le 0 t ltac:(lra)) as Q; rewrite rnd_0 in Q; exact Q).
    destruct (fmul_val (fs_dt s) (f_of_Z (fs_stride s)) Fdt Fz) as [F V].
    { rewrite Vz. fold t. rewrite Rabs_pos_eq by assumption. eapply Rle_lt_trans; [exact R150|]. apply bpow_lt. lia. }
    unfold f_bd_dt. rewrite V, Vz. reflexivity. }
  set (ab := Rabs (val b)). assert (A0 : 0 <= ab) by apply Rabs_pos. set (r := val (fs_rate s)) in *.
  assert (AB : ab * rnd t * r <= bpow radix2 900).
  { apply Rle_trans with (bpow radix2 310 * bpow radix2 150 * bpow radix2 100); [|rewrite <- !bpow_plus; apply bpow_le; lia].
    rewrite <- V. apply Rmult_le_compat; [apply Rmult_le_pos; lra|lra| |lra]. apply Rmult_le_compat; [lra|lra|exact Bb|]. rewrite V. exact R150. }
  pose proof (prob_accuracy fexp (f_bd_dt s) (fs_rate s) b He Fd Pd Fr Fb (conj R1 R2)) as PA. cbv zeta in PA. fold r in PA. fold ab in PA. rewrite V in PA. specialize (PA AB).
  unfold accept_prob. fold r. fold ab. fold t.
  set (x := ab * t * r). set (y := ab * rnd t * r) in *.
  assert (XY : Rabs (exp (- x) - exp (- y)) <= / 2 ^ 50).
  { assert (U53 : U = / 2 ^ 53) by reflexivity. apply Rabs_le_inv in RE. assert (T0 : 0 <= U * t) by (apply Rmult_le_pos; [rewrite U53; lra|lra]).
    assert (AR : 0 <= ab * r) by (apply Rmult_le_pos; lra). assert (0 <= x) by (unfold x; apply Rmult_le_pos; [apply Rmult_le_pos; lra|lra]).
    assert (UT : U * t <= / 4 * t) by (apply Rmult_le_compat_r; [lra|rewrite U53; lra]).
    assert (0 <= y) by (unfold y; apply Rmult_le_pos; [apply Rmult_le_pos; lra|lra]).
    assert (YX : y - x = (ab * r) * (rnd t - t)) by (unfold x, y; ring).
    destruct (Rle_lt_dec t (rnd t)) as [C | C].
    - pose proof (exp_close x y U ltac:(split; [assumption|]; enough (0 <= y - x) by lra; rewrite YX; apply Rmult_le_pos; lra) ltac:(rewrite U53; lra)) as Q.
      assert (y - x <= U * x). { rewrite YX. replace (U * x) with ((ab * r) * (U * t)) by (unfold x; ring). apply Rmult_le_compat_l; lra. }
      specialize (Q H1). apply Rabs_le. rewrite U53 in Q. lra.
    - pose proof (exp_close y x (2 * U) ltac:(split; [assumption|]; enough (0 <= x - y) by lra; replace (x - y) with ((ab * r) * (t - rnd t)) by (unfold x, y; ring); apply Rmult_le_pos; lra) ltac:(rewrite U53; lra)) as Q.
      assert (x - y <= 2 * U * y).
      { replace (x - y) with ((ab * r) * (t - rnd t)) by (unfold x, y; ring). replace (2 * U * y) with ((ab * r) * (U * (2 * rnd t))) by (unfold y; ring). apply Rmult_le_compat_l; [lra|].
        apply Rle_trans with (U * t); [lra|]. apply Rmult_le_compat_l; [rewrite U53; lra|lra]. }
      specialize (Q H1). apply Rabs_le. rewrite U53 in Q. lra. }
  replace (val (f_event_prob fexp (f_bd_dt s) (fs_rate s) b) - (1 - exp (- x))) with ((val (f_event_prob fexp (f_bd_dt s) (fs_rate s) b) - (1 - exp (- y))) + (exp (- x) - exp (- y))) by ring.
  eapply Rle_trans; [apply Rabs_triang|]. lra.
Qed.

Lemma moves_execute evs : forall ps, Forall (fun ev => (fst ev < length ps)%nat /\ (snd ev < length ps)%nat) evs -> foldM f_move evs ps = Ok (execute ps evs).
Proof using Type.
  induction evs as [|[d k] evs IH]; intros ps V; cbn [foldM execute]; [reflexivity|].
  pose proof (Forall_inv V) as [H1 H2]. pose proof (Forall_inv_tail V) as V'. cbn [fst snd] in H1, H2. unfold f_move. cbn [fst snd].
  destruct (nth_error ps d) as [p|] eqn:E; [|apply nth_error_None in E; lia].
  destruct (Nat.ltb_spec k (length ps)); [|lia]. cbn [bind]. change (replace_nth ps k p) with (set_nth ps k p). apply IH. now rewrite set_nth_length.
Qed.

Lemma f_bulk_loop_events n beta : (2 <= n)%nat -> length beta = n -> Forall finite beta -> forall order dups kills st g,
  Forall (fun i => (i < n)%nat) order -> length dups = length kills ->
  exists d k st' g' evs, f_bulk_loop rng n beta order dups kills st g = Ok (d, k, st', g') /\
    bulk_events n (map val beta) order kills evs /\ combine d k = (combine dups kills ++ evs)%list /\
    dup_attempts st' = dup_attempts st /\ kill_attempts st' = kill_attempts st /\
    (kill_count st' + dup_count st' = kill_count st + dup_count st + length evs)%nat.
Proof using HR.
  intros Hn Lb Fb. induction order as [|i order IH]; intros dups kills st g Hi Hd; cbn [f_bulk_loop].
  { exists dups, kills, st, g, []. rewrite app_nil_r. split; [reflexivity|]. split; [constructor|]. cbn. repeat split; lia. }
  pose proof (Forall_inv Hi) as Hi0. pose proof (Forall_inv_tail Hi) as Hi'. cbv beta in Hi0.
  destruct (memb i kills) eqn:EM.
  { destruct (IH dups kills st g Hi' Hd) as (d & k & st' & g' & evs & E & H1 & H2). exists d, k, st', g', evs. split; [exact E|]. split; [|exact H2].
    apply be_skip; [now apply memb_in|exact H1]. }
  assert (NI : ~ In i kills) by (rewrite <- memb_in; congruence).
  destruct (other_fine rng HR n i g Hn Hi0) as (o & g' & E & Lo & No). rewrite E. cbn [bind]. unfold fat.
  destruct (nth_error beta i) as [b|] eqn:Eb; [|apply nth_error_None in Eb; lia]. cbn [bind].
  assert (Fbb : finite b) by (rewrite Forall_forall in Fb; apply Fb; eapply nth_error_In; exact Eb).
  assert (Vb : nth i (map val beta) 0 = val b) by (apply nth_error_nth; exact (map_nth_error val i beta Eb)).
  destruct (f_pos b) eqn:EP.
  - destruct (IH (dups ++ [o])%list (kills ++ [i])%list (add_kill st) g' Hi') as (d & k & st' & g'' & evs & E2 & H1 & H2 & H3 & H4 & H5); [rewrite !app_length; cbn; lia|].
    rewrite combine_snoc in H2 by exact Hd. rewrite <- app_assoc in H2. exists d, k, st', g'', ((o, i) :: evs). split; [exact E2|].
    split; [|cbn [add_kill dup_attempts kill_attempts kill_count dup_count length] in *; repeat split; auto; lia].
    apply be_kill; auto; [rewrite Vb; unfold f_pos in EP; apply flt_val in EP; [exact EP|reflexivity|exact Fbb]|].
    eapply bulk_events_perm; [|exact H1]. intros x. rewrite in_app_iff. cbn. tauto.
  - destruct (IH (dups ++ [i])%list (kills ++ [o])%list (add_dup st) g' Hi') as (d & k & st' & g'' & evs & E2 & H1 & H2 & H3 & H4 & H5); [rewrite !app_length; cbn; lia|].
    rewrite combine_snoc in H2 by exact Hd. rewrite <- app_assoc in H2. exists d, k, st', g'', ((i, o) :: evs). split; [exact E2|].
    split; [|cbn [add_dup dup_attempts kill_attempts kill_count dup_count length] in *; repeat split; auto; lia].
    apply be_dup; auto; [rewrite Vb; unfold f_pos in EP; apply flt_false in EP; [exact EP|reflexivity|exact Fbb]|].
    eapply bulk_events_perm; [|exact H1]. intros x. rewrite in_app_iff. cbn. tauto.
Qed.

Lemma bulk_valid n beta order killed evs : Forall (fun i => (i < n)%nat) order -> bulk_events n beta order killed evs ->
  Forall (fun ev => (fst ev < n)%nat /\ (snd ev < n)%nat) evs.
Proof using Type.
  intros Ho H. induction H; [constructor|..]; pose proof (Forall_inv Ho) as H0'; pose proof (Forall_inv_tail Ho) as Ho'; cbv beta in *.
  - now apply IHbulk_events.
  - apply Forall_cons; [cbn; lia|now apply IHbulk_events].
  - apply Forall_cons; [cbn; lia|now apply IHbulk_events].
Qed.

Lemma near_finite ps beta : near_rates s M ps beta -> Forall finite beta.
Proof using Type. intros [_ H]. apply Forall_forall. intros b Hb. destruct (In_nth_error _ _ Hb) as [i Hi]. now apply (H i b). Qed.

Lemma bulk_float k ps st g : Forall (healthy s k) ps -> (2 <= length ps)%nat -> (Z.of_nat (length ps) <= 10000)%Z -> fs_recalc s = false ->
  exists ps' st' g' evs beta prob order,
    f_birth_death fexp flog np_sum rng s ps st g = Ok (ps', st', g') /\
    near_rates s M ps beta /\ near_prob s prob /\ NoDup order /\
    (forall i, In i order <-> (i < length ps)%nat /\ val (nth i (fst (fr_random rng (length ps) g)) fzero) <= val (prob (nth i beta fzero))) /\
    bulk_events (length ps) (map val beta) order [] evs /\
    ps' = execute ps evs /\
    (kill_attempts st' + dup_attempts st' = kill_attempts st + dup_attempts st + length ps /\
     kill_attempts st' = kill_attempts st + length (filter (fun b => if Rlt_dec 0 (val b) then true else false) beta) /\
     kill_count st' + dup_count st' = kill_count st + dup_count st + length evs)%nat.
Proof using OK He Hl Hs HR HM.
  intros H Hn Hm HF. unfold f_birth_death. destruct (betas_near k ps H) as (beta & E & NR); [destruct ps; [cbn in Hn; lia|discriminate]|exact Hm|].
  rewrite E. cbn [bind]. destruct (fr_random rng (length ps) g) as [rand g1] eqn:Er.
  pose proof (okf_random rng HR (length ps) g) as [R1 R2]. rewrite Er in R1, R2. cbn [fst] in *. rewrite HF. cbn [negb].
  unfold f_bulk. set (mask := map _ (combine beta rand)). pose proof NR as [Lb _]. pose proof (near_finite _ _ NR) as Fb.
  destruct (fr_shuffle rng (where_true mask) g1) as [order g2] eqn:Es.
  pose proof (okf_shuffle rng HR (where_true mask) g1) as Q. rewrite Es in Q. cbn [fst] in Q.
  assert (Lm : length mask = length ps) by (unfold mask; rewrite map_length, combine_length; lia).
  assert (HO : forall i, In i order <-> (i < length ps)%nat /\ val (nth i rand fzero) <= val (f_prob (nth i beta fzero))).
  { intros i. rewrite <- Lm. transitivity (In i (where_true mask)); [split; apply Permutation_in; [now apply Permutation_sym|exact Q]|].
    rewrite where_true_spec. split; intros [A B]; (split; [exact A|]); rewrite Lm in A.
    all: assert (Eb : nth_error beta i = Some (nth i beta fzero)) by (apply nth_error_nth'; lia).
    all: assert (Err : nth_error rand i = Some (nth i rand fzero)) by (apply nth_error_nth'; lia).
    all: assert (MK : nth i mask false = f_accepted fexp (f_bd_dt s) (fs_rate s) (nth i beta fzero) (nth i rand fzero)) by
      (apply nth_error_nth; unfold mask; exact (map_nth_error _ i _ (nth_error_combine _ _ i _ _ Eb Err))).
    all: destruct (proj2 NR i _ Eb) as [Bb _]; destruct (prob_near _ Bb) as [Fp _].
    all: assert (Fr : finite (nth i rand fzero)) by (rewrite Forall_forall in R2; apply (R2 (nth i rand fzero)); eapply nth_error_In; exact Err).
    - rewrite MK in B. unfold f_accepted in B. now apply fle_val in B.
    - rewrite MK. unfold f_accepted. now apply fle_val. }
  assert (HI : Forall (fun i => (i < length ps)%nat) order) by (apply Forall_forall; intros i Hi; now apply HO in Hi).
  destruct (f_bulk_loop_events (length ps) beta Hn Lb Fb order [] [] (add_attempts st (length ps - length (filter f_pos beta)) (length (filter f_pos beta))) g2 HI eq_refl)
    as (d & k' & st' & g' & evs & E2 & H1 & H2 & H3 & H4 & H5). rewrite E2. cbn [bind]. cbn [combine app] in H2. rewrite H2.
  rewrite (moves_execute evs ps (bulk_valid _ _ _ _ _ HI H1)). cbn [bind].
  exists (execute ps evs), st', g', evs, beta, f_prob, order. split; [reflexivity|]. split; [exact NR|]. split; [exact prob_near|].
  split. { eapply Permutation_NoDup; [exact Q|apply where_true_nodup]. }
  split; [exact HO|]. split; [exact H1|]. split; [reflexivity|].
  assert (FL : filter f_pos beta = filter (fun b => if Rlt_dec 0 (val b) then true else false) beta).
  { clear - Fb. induction beta as [|b beta IH]; [reflexivity|]. cbn [filter]. pose proof (Forall_inv Fb) as F0. rewrite (IH (Forall_inv_tail Fb)).
    unfold f_pos. destruct (flt fzero b) eqn:EE.
    - apply flt_val in EE; [|reflexivity|exact F0]. change (val fzero) with 0 in EE. destruct (Rlt_dec 0 (val b)); [reflexivity|contradiction].
    - apply flt_false in EE; [|reflexivity|exact F0]. change (val fzero) with 0 in EE. destruct (Rlt_dec 0 (val b)); [lra|reflexivity]. }
  assert (LF : (length (filter f_pos beta) <= length ps)%nat).
  { rewrite <- Lb. clear. induction beta as [|b l IH]; cbn; [lia|]. destruct (f_pos b); cbn; lia. }
  cbn [add_attempts dup_attempts kill_attempts kill_count dup_count] in H3, H4, H5. split; [lia|]. split; [rewrite H4, <- FL; reflexivity|exact H5].
Qed.

Lemma recalc_loop_moves k n rand : (2 <= n)%nat -> (Z.of_nat n <= 10000)%Z -> length rand = n -> Forall (fun x => finite x /\ 0 < val x) rand ->
  forall order beta curr ps st g, Forall (fun i => (i < n)%nat) order ->
  Forall (healthy s k) ps -> length ps = n -> near_rates s M ps beta ->
  exists st' g' evs, f_recalc_loop fexp flog np_sum rng s n rand order beta curr ps st g = Ok (execute ps evs, st', g') /\
    recalc_moves n (near_rates s M) f_prob rand order beta curr ps evs /\
    (kill_attempts st <= kill_attempts st' /\ dup_attempts st <= dup_attempts st' /\
     kill_attempts st' + dup_attempts st' <= kill_attempts st + dup_attempts st + length order /\
     kill_count st <= kill_count st' /\ dup_count st <= dup_count st' /\
     kill_count st' + dup_count st' = kill_count st + dup_count st + length evs)%nat.
Proof using OK He Hl Hs HR HM.
  intros Hn Hm Lr Rr. induction order as [|i order IH]; intros beta curr ps st g Hi Hp Lp NR; cbn [f_recalc_loop].
  { exists st, g, []. split; [reflexivity|]. split; [constructor|]. cbn. lia. }
  pose proof (Forall_inv Hi) as Hi0. pose proof (Forall_inv_tail Hi) as Hi'. cbv beta in Hi0. pose proof NR as [Lb HB]. rewrite Lp in Lb. unfold fat.
  destruct (nth_error beta i) as [b|] eqn:Eb; [|apply nth_error_None in Eb; lia]. cbn [bind].
  destruct (nth_error rand i) as [r|] eqn:Er; [|apply nth_error_None in Er; lia]. cbn [bind].
  destruct (HB i b Eb) as [Bb _]. pose proof (proj1 Bb) as Fbb. destruct (prob_near b Bb) as [Fp _].
  assert (Frr : finite r /\ 0 < val r) by (rewrite Forall_forall in Rr; apply Rr; eapply nth_error_In; exact Er).
  pose proof (nth_error_nth _ _ fzero Eb) as Nb. pose proof (nth_error_nth _ _ fzero Er) as Nr.
  assert (FP : f_pos b = true <-> 0 < val b) by (unfold f_pos; rewrite flt_val; [reflexivity|reflexivity|exact Fbb]).
  assert (FN : f_neg b = true <-> val b < 0) by (unfold f_neg; rewrite flt_val; [reflexivity|exact Fbb|reflexivity]).
  assert (NP : ~ (f_pos b = true /\ f_neg b = true)) by (intros [A B]; apply FP in A; apply FN in B; lra).
  set (st1 := if f_pos b then add_attempts st 0 1 else st). set (st2 := if f_neg b then add_attempts st1 1 0 else st1).
  assert (S2 : (kill_attempts st <= kill_attempts st2 /\ dup_attempts st <= dup_attempts st2 /\ kill_attempts st2 + dup_attempts st2 <= kill_attempts st + dup_attempts st + 1 /\
    kill_count st2 = kill_count st /\ dup_count st2 = dup_count st)%nat).
  { unfold st2, st1. destruct (f_pos b) eqn:E1, (f_neg b) eqn:E2; cbn [add_attempts dup_attempts kill_attempts kill_count dup_count]; try lia; exfalso; apply NP; split; first [reflexivity|assumption]. }
  clearbody st2. clear st1.
  destruct (f_accepted fexp (f_bd_dt s) (fs_rate s) b r) eqn:EA.
  - assert (AC : val r <= val (f_prob b)) by (unfold f_accepted in EA; apply fle_val in EA; [exact EA|tauto|exact Fp]).
    assert (NZ : f_pos b = true \/ f_neg b = true).
    { destruct (Rtotal_order (val b) 0) as [C | [C | C]]; [right; now apply FN| |left; now apply FP]. exfalso.
      destruct (bd_dt_fine s OK) as [Fd Pd]. destruct (so_rate s OK) as [Frt [Rt1 Rt2]]. pose proof (bpow_gt_0 radix2 (-100)) as P100.
      destruct (prob_all fexp (f_bd_dt s) (fs_rate s) b He Fd Pd Frt ltac:(lra) Fbb) as (G1 & G2 & G3). specialize (G3 C). unfold f_prob in AC. lra. }
    destruct (other_fine rng HR n i g Hn Hi0) as (o & g' & Eo & Lo & No). rewrite Eo. cbn [bind].
    assert (PE : exists ev st3, (if f_pos b then (Some (i, o), add_kill st2) else if f_neg b then (Some (o, i), add_dup st2) else (curr, st2)) = (Some ev, st3) /\
      (fst ev < n)%nat /\ (snd ev < n)%nat /\ (0 < val b -> fst ev = i /\ snd ev <> i) /\ (val b < 0 -> snd ev = i /\ fst ev <> i) /\
      (kill_attempts st3 = kill_attempts st2 /\ dup_attempts st3 = dup_attempts st2 /\ kill_count st2 <= kill_count st3 /\ dup_count st2 <= dup_count st3 /\
       kill_count st3 + dup_count st3 = kill_count st2 + dup_count st2 + 1)%nat).
    { destruct (f_pos b) eqn:E1 in |- *.
      - pose proof (proj1 FP E1) as QQ. exists (i, o), (add_kill st2). split; [reflexivity|]. cbn [fst snd add_kill dup_attempts kill_attempts kill_count dup_count].
        split; [exact Hi0|]. split; [exact Lo|]. split; [auto|]. split; [intros; exfalso; lra|]. lia.
      - destruct (f_neg b) eqn:E2 in |- *; [|exfalso; destruct NZ; congruence]. pose proof (proj1 FN E2) as QQ. exists (o, i), (add_dup st2).
        split; [reflexivity|]. cbn [fst snd add_dup dup_attempts kill_attempts kill_count dup_count].
        split; [exact Lo|]. split; [exact Hi0|]. split; [intros; exfalso; lra|]. split; [auto|]. lia. }
    destruct PE as (ev & st3 & -> & L1 & L2 & P1 & P2 & S3).
    assert (MV : f_move ps ev = Ok (execute ps [ev])).
    { pose proof (moves_execute [ev] ps) as Q. cbn [foldM] in Q. rewrite Lp in Q. specialize (Q ltac:(apply Forall_cons; [split; assumption|apply Forall_nil])).
      revert Q. clear. destruct (f_move ps ev) as [x|x]; cbn [bind]; auto. }
    rewrite MV. cbn [bind].
    assert (HP' : Forall (healthy s k) (execute ps [ev])).
    { apply Forall_forall. intros w Hw. apply execute_copies in Hw. rewrite Forall_forall in Hp. now apply Hp. }
    assert (LP' : length (execute ps [ev]) = n) by (rewrite execute_length; exact Lp).
    destruct (betas_near k (execute ps [ev]) HP') as (beta' & E2 & NR'); [intros Q; rewrite Q in LP'; cbn in LP'; lia|rewrite LP'; exact Hm|].
    rewrite E2. cbn [bind]. destruct (IH beta' (Some ev) (execute ps [ev]) st3 g' Hi' HP' LP' NR') as (st' & g'' & evs & E3 & MVs & S4).
    exists st', g'', (ev :: evs). split; [|split].
    + rewrite E3. rewrite <- execute_app. reflexivity.
    + apply rm_accept with (beta' := beta'); rewrite ?Nb, ?Nr; try assumption. intros C. destruct NZ as [N | N]; [apply FP in N; lra|apply FN in N; lra].
    + cbn [length]. lia.
  - destruct (IH beta curr ps st2 g Hi' Hp Lp NR) as (st' & g'' & evs & E3 & MVs & S4). exists st', g'', evs. split; [exact E3|]. split.
    + apply rm_reject; [|exact MVs]. rewrite Nb, Nr. destruct (Rlt_le_dec (val (f_prob b)) (val r)) as [C | C]; [exact C|].
      exfalso. assert (f_accepted fexp (f_bd_dt s) (fs_rate s) b r = true) by (unfold f_accepted; apply fle_val; [tauto|exact Fp|exact C]). congruence.
    + cbn [length]. lia.
Qed.

Lemma recalc_float k ps st g : Forall (healthy s k) ps -> (2 <= length ps)%nat -> (Z.of_nat (length ps) <= 10000)%Z -> fs_recalc s = true -> never_zero rng ->
  exists ps' st' g' evs beta prob order,
    f_birth_death fexp flog np_sum rng s ps st g = Ok (ps', st', g') /\
    near_rates s M ps beta /\ near_prob s prob /\ Permutation order (seq 0 (length ps)) /\
    recalc_moves (length ps) (near_rates s M) prob (fst (fr_random rng (length ps) g)) order beta None ps evs /\
    ps' = execute ps evs /\
    (kill_attempts st' + dup_attempts st' <= kill_attempts st + dup_attempts st + length ps /\
     kill_count st' + dup_count st' = kill_count st + dup_count st + length evs)%nat.
Proof using OK He Hl Hs HR HM.
  intros H Hn Hm HF NZ. unfold f_birth_death. destruct (betas_near k ps H) as (beta & E & NR); [destruct ps; [cbn in Hn; lia|discriminate]|exact Hm|].
  rewrite E. cbn [bind]. pose proof (NZ (length ps) g) as Z. destruct (fr_random rng (length ps) g) as [rand g1] eqn:Er.
  pose proof (okf_random rng HR (length ps) g) as [R1 R2]. rewrite Er in R1, R2. cbn [fst] in *. rewrite HF. cbn [negb].
  destruct (fr_shuffle rng (seq 0 (length ps)) g1) as [order g2] eqn:Es.
  pose proof (okf_shuffle rng HR (seq 0 (length ps)) g1) as Q. rewrite Es in Q. cbn [fst] in Q.
  destruct (recalc_loop_moves k (length ps) rand Hn Hm R1) with (order := order) (beta := beta) (curr := @None (nat * nat)) (ps := ps) (st := st) (g := g2) as (st' & g' & evs & E2 & MV & S).
  - rewrite Forall_forall in *. intros x Hx. split; [now apply R2|now apply Z].
  - apply Forall_forall. intros i Hi. apply (Permutation_in _ (Permutation_sym Q)) in Hi. apply in_seq in Hi. lia.
  - exact H.
  - reflexivity.
  - exact NR.
  - exists (execute ps evs), st', g', evs, beta, f_prob, order. split; [exact E2|]. split; [exact NR|]. split; [exact prob_near|].
    split; [now apply Permutation_sym|]. split; [exact MV|]. split; [reflexivity|].
    pose proof (Permutation_length Q) as LQ. rewrite seq_length in LQ. lia.
Qed.
End Sim.
