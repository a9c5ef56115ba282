(** Mueller-Brown potential in float64: statements for positions in the box, scaling, whole simulations, examples *)
From Verif Require Import Model_f64mb Spec_f64mb Proof_f64 Proof_f64b Proof_f64f Proof_f64g Proof_f64k Proof_f64l Proof_f64m Proof_f64r Proof_f64sim2 Proof_f64mb Proof_f64mb2.
From Flocq Require Import Core.Core.
From Coq Require Import Lra Lia.
Open Scope R_scope.
Ltac Zify.zify_post_hook ::= idtac.

Lemma half_val m : (Z.abs m < 2 ^ 53)%Z -> finite (fmake m (-1)) /\ val (fmake m (-1)) = IZR m / 2.
Proof. intros H. destruct (fmake_val m (-1) H) as [F V]; [lia|]. split; [exact F|]. rewrite V. reflexivity. Qed.
Lemma half_inside m n x : (Z.abs m < 2 ^ 53)%Z -> (Z.abs n < 2 ^ 53)%Z -> (m <= n)%Z -> inside (fmake m (-1), fmake n (-1)) x -> finite x /\ IZR m / 2 <= val x <= IZR n / 2.
Proof.
  intros Hm Hn L I. destruct (half_val m Hm) as [F1 V1]. destruct (half_val n Hn) as [F2 V2]. apply IZR_le in L.
  assert (BB : forall k, (Z.abs k < 2 ^ 53)%Z -> Rabs (IZR k / 2) <= bpow radix2 900).
  { intros k Hk. assert (IZR (Z.abs k) <= IZR (2 ^ 53)) as X by (apply IZR_le; lia). rewrite abs_IZR in X. apply Rle_trans with (IZR (2 ^ 53)).
    - pose proof (Rabs_pos (IZR k)). unfold Rdiv. rewrite Rabs_mult, (Rabs_pos_eq (/ 2)) by lra. lra.
    - change (IZR (2 ^ 53)) with (bpow radix2 53). apply bpow_le. lia. }
  assert (RS : range_small (fmake m (-1), fmake n (-1))).
  { unfold range_small. cbn [fst snd]. rewrite V1, V2. split; [exact F1|]. split; [exact F2|]. split; [lra|]. split; now apply BB. }
  pose proof (inside_val _ x RS I) as R.
  cbn [fst snd] in R. rewrite V1, V2 in R. exact R.
Qed.
Lemma F2_two {A B} (P : A -> B -> Prop) a b p : Forall2 P [a; b] p -> exists x y, p = [x; y] /\ P a x /\ P b y.
Proof. intros H. inversion H as [|? x ? p' I1 H1]; subst. inversion H1 as [|? y ? p'' I2 H2]; subst. inversion H2; subst. eauto. Qed.
Lemma box_inv p : in_box fmb_ranges p -> exists x y, p = [x; y] /\ finite x /\ finite y /\ -3/2 <= val x <= 3/2 /\ -1/2 <= val y <= 5/2.
Proof.
  intros H. apply F2_two in H. destruct H as (x & y & -> & I1 & I2).
  apply half_inside in I1; [|lia|lia|lia]. apply half_inside in I2; [|lia|lia|lia]. exists x, y. split; [reflexivity|]. split; [apply I1|]. split; [apply I2|]. split; [exact (proj2 I1)|exact (proj2 I2)].
Qed.

Section Contracts.
Context (fexp fsq : f64 -> f64) (OKe : exp_both_ok fexp) (OKs : square_ok fsq).

Lemma mb_energy_float A1 A2 A3 A4 x y : bounded (bpow radix2 100) A1 -> bounded (bpow radix2 100) A2 -> bounded (bpow radix2 100) A3 -> bounded (bpow radix2 100) A4 ->
  in_box fmb_ranges [x; y] -> let e := f_mb_energy fexp fsq [A1; A2; A3; A4] [x; y] in
  finite e /\ Rabs (val e - (mb_sum (val A1) (val A2) (val A3) (val A4) (val x) (val y) + 30.33319242243656)) <=
    / 2 ^ 40 * (mb_sum (Rabs (val A1)) (Rabs (val A2)) (Rabs (val A3)) (Rabs (val A4)) (val x) (val y) + 1).
Proof using OKe OKs.
  intros B1 B2 B3 B4 HB. destruct (box_inv _ HB) as (x' & y' & E & Fx & Fy & Hx & Hy). injection E as <- <-.
  destruct (energy_all fexp fsq OKe OKs x y Fx Fy Hx Hy A1 A2 A3 A4 B1 B2 B3 B4) as (P & Q & _). split; assumption.
Qed.
Lemma mb_force_float A1 A2 A3 A4 x y : bounded (bpow radix2 100) A1 -> bounded (bpow radix2 100) A2 -> bounded (bpow radix2 100) A3 -> bounded (bpow radix2 100) A4 ->
  in_box fmb_ranges [x; y] -> exists f0 f1 D0 D1, f_mb_force fexp fsq [A1; A2; A3; A4] [x; y] = [f0; f1] /\ finite f0 /\ finite f1 /\
  derivable_pt_lim (fun t => mb_sum (val A1) (val A2) (val A3) (val A4) t (val y)) (val x) D0 /\
  derivable_pt_lim (fun t => mb_sum (val A1) (val A2) (val A3) (val A4) (val x) t) (val y) D1 /\
  let W := mb_sum (Rabs (val A1)) (Rabs (val A2)) (Rabs (val A3)) (Rabs (val A4)) (val x) (val y) in
  Rabs (val f0 - - D0) <= / 2 ^ 34 * W + bpow radix2 (-1000) /\ Rabs (val f1 - - D1) <= / 2 ^ 34 * W + bpow radix2 (-1000).
Proof using OKe OKs.
  intros B1 B2 B3 B4 HB. destruct (box_inv _ HB) as (x' & y' & E & Fx & Fy & Hx & Hy). injection E as <- <-.
  destruct (force_all fexp fsq OKe OKs x y Fx Fy Hx Hy A1 A2 A3 A4 B1 B2 B3 B4) as (f0 & f1 & D0 & D1 & P1 & P2 & P3 & P4 & P5 & P6 & P7 & _).
  exists f0, f1, D0, D1. repeat (split; [assumption|]). exact P7.
Qed.
Lemma mb_evaluate_float A p : f_mb_evaluate fexp fsq A p = (f_mb_energy fexp fsq A p, f_mb_force fexp fsq A p).
Proof. reflexivity. Qed.

Lemma p200 : 2 ^ 150 <= bpow radix2 200.
Proof. replace (2 ^ 150) with (bpow radix2 150) by (rewrite <- (IZR_Zpower radix2 150) by lia; rewrite pow_IZR; reflexivity). apply bpow_le. lia. Qed.
Lemma mb_sim_float A1 A2 A3 A4 s : bounded (bpow radix2 100) A1 -> bounded (bpow radix2 100) A2 -> bounded (bpow radix2 100) A3 -> bounded (bpow radix2 100) A4 ->
  fs_ranges s = fmb_ranges -> fs_force s = f_mb_force fexp fsq [A1; A2; A3; A4] -> fs_energy s = f_mb_energy fexp fsq [A1; A2; A3; A4] ->
  moderate (fs_dt s) -> finite (fs_friction s) /\ 0 <= val (fs_friction s) -> moderate (fs_kt s) -> moderate (fs_mass s) ->
  (1 <= fs_stride s <= 2 ^ 50)%Z -> length (fs_bw s) = 2%nat /\ Forall moderate (fs_bw s) -> moderate (fs_rate s) ->
  (forall pos, Forall (in_box fmb_ranges) pos -> length (fs_corr s pos) = length pos /\ Forall (bounded (bpow radix2 200)) (fs_corr s pos)) ->
  sim_ok s.
Proof using OKe OKs.
  intros B1 B2 B3 B4 ER EF EE Hdt Hfr Hkt Hm Hst Hbw Hra Hco. pose proof p200 as P2.
  split; rewrite ?ER; try assumption.
  - cbn. lia.
  - assert (HB : forall m, (Z.abs m <= 5)%Z -> bounded (bpow radix2 200) (fmake m (-1))).
    { intros m Hm'. destruct (half_val m) as [F V]; [lia|]. split; [exact F|]. rewrite V. assert (X : IZR (Z.abs m) <= 5) by (apply IZR_le; lia). rewrite abs_IZR in X.
      unfold Rdiv. rewrite Rabs_mult, (Rabs_pos_eq (/ 2)) by lra. lra. }
    destruct (half_val (-3)) as [_ V1]; [lia|]. destruct (half_val 3) as [_ V2]; [lia|]. destruct (half_val (-1)) as [_ V3]; [lia|]. destruct (half_val 5) as [_ V4]; [lia|].
    unfold fmb_ranges. apply Forall_cons; [|apply Forall_cons; [|apply Forall_nil]]; cbn [fst snd]; (split; [apply HB; lia|]); (split; [apply HB; lia|]); lra.
  - intros p Hp. destruct (box_inv _ Hp) as (x & y & -> & Fx & Fy & Hx & Hy). rewrite EF.
    destruct (force_all fexp fsq OKe OKs x y Fx Fy Hx Hy A1 A2 A3 A4 B1 B2 B3 B4) as (f0 & f1 & D0 & D1 & P1 & F0 & F1 & _ & _ & _ & _ & Q0 & Q1).
    pose proof (W_pos x y Hx Hy A1 A2 A3 A4 B1 B2 B3 B4) as HW. rewrite P1. split; [reflexivity|]. apply Forall_cons; [|apply Forall_cons; [|apply Forall_nil]]; (split; [assumption|]); lra.
  - intros p Hp. destruct (box_inv _ Hp) as (x & y & -> & Fx & Fy & Hx & Hy). rewrite EE.
    destruct (energy_all fexp fsq OKe OKs x y Fx Fy Hx Hy A1 A2 A3 A4 B1 B2 B3 B4) as (P & _ & Q).
    pose proof (W_pos x y Hx Hy A1 A2 A3 A4 B1 B2 B3 B4) as HW. split; [exact P|]. lra.
Qed.
End Contracts.

(** ** the scaling factor *)
Lemma scaled_val z f : (1 <= Z.abs z <= 200)%Z -> finite f -> bpow radix2 (-100) <= Rabs (val f) <= bpow radix2 90 ->
  bounded (bpow radix2 100) (fmul (f_of_Z z) f) /\ Rabs (val (fmul (f_of_Z z) f) - IZR z * val f) <= U * (IZR (Z.abs z) * Rabs (val f)).
Proof.
  intros Hz F Hf. destruct (of_Z_small z) as [FZ VZ]; [lia|].
  assert (Q : Rabs (val (f_of_Z z) * val f) = IZR (Z.abs z) * Rabs (val f)) by (rewrite Rabs_mult, VZ, abs_IZR; reflexivity).
  assert (HZ : 1 <= IZR (Z.abs z) <= 200) by (split; apply IZR_le; lia).
  assert (L1 : bpow radix2 (-1022) <= bpow radix2 (-100)) by (apply bpow_le; lia).
  assert (L2 : bpow radix2 90 * 256 <= bpow radix2 100 / 2) by (change 256 with (bpow radix2 8); rewrite <- bpow_plus; change (bpow radix2 100 / 2) with (bpow radix2 100 * bpow radix2 (-1)); rewrite <- bpow_plus; apply bpow_le; lia).
  assert (L3 : bpow radix2 100 < bpow radix2 1024) by (apply bpow_lt; lia).
  assert (P0 : 0 < bpow radix2 (-1022)) by apply bpow_gt_0.
  set (p := Rabs (val f)) in *. set (zz := IZR (Z.abs z)) in *.
  assert (M1 : 1 * p <= zz * p <= 200 * p) by (split; apply Rmult_le_compat_r; lra).
  pose proof (rnd_err_normal (val (f_of_Z z) * val f)) as E. rewrite Q in E. assert (E' := E ltac:(lra)). clear E.
  assert (BD : Rabs (rnd (val (f_of_Z z) * val f)) <= bpow radix2 100).
  { pose proof (Rabs_triang_inv (rnd (val (f_of_Z z) * val f)) (val (f_of_Z z) * val f)) as T. rewrite Q in T.
    assert (U * (zz * p) <= 1 * (zz * p)) by (apply Rmult_le_compat_r; [lra|unfold U; lra]). lra. }
  destruct (fmul_val _ _ FZ F ltac:(lra)) as [FF VV]. split; [split; [exact FF|rewrite VV; exact BD]|]. rewrite VV. rewrite <- VZ. exact E'.
Qed.
Lemma feq_zero_false f : finite f -> val f <> 0 -> feq f fzero = false.
Proof.
  intros F N. destruct (feq f fzero) eqn:E; [|reflexivity]. exfalso. apply N. unfold feq in E.
  pose proof (Beqb_correct 53 1024 f fzero F eq_refl) as C. rewrite E in C. symmetry in C. destruct (Req_bool_spec (val f) (val fzero)) as [H | H]; [exact H|discriminate C].
Qed.
Lemma mb_scaled_float fexp fsq : exp_both_ok fexp -> square_ok fsq -> forall f x y, finite f -> bpow radix2 (-100) <= Rabs (val f) <= bpow radix2 90 -> in_box fmb_ranges [x; y] ->
  let e := f_mb_energy fexp fsq (f_mb_init fmb_A0 (Some f)) [x; y] in
  Forall (bounded (bpow radix2 100)) (f_mb_init fmb_A0 (Some f)) /\ finite e /\
  Rabs (val e - (val f * mb_sum (-200) (-100) (-175) 15 (val x) (val y) + 30.33319242243656)) <= / 2 ^ 39 * (Rabs (val f) * mb_sum 200 100 175 15 (val x) (val y) + 1).
Proof.
  intros OKe OKs f x y F Hf HB.
  assert (N : val f <> 0). { intros E. rewrite E, Rabs_R0 in Hf. pose proof (bpow_gt_0 radix2 (-100)). lra. }
  assert (EI : f_mb_init fmb_A0 (Some f) = [fmul (f_of_Z (-200)) f; fmul (f_of_Z (-100)) f; fmul (f_of_Z (-175)) f; fmul (f_of_Z 15) f]).
  { unfold f_mb_init. rewrite (feq_zero_false f F N). reflexivity. }
  rewrite EI. clear EI.
  destruct (scaled_val (-200) f) as [B1 E1]; [lia|exact F|exact Hf|]. destruct (scaled_val (-100) f) as [B2 E2]; [lia|exact F|exact Hf|].
  destruct (scaled_val (-175) f) as [B3 E3]; [lia|exact F|exact Hf|]. destruct (scaled_val 15 f) as [B4 E4]; [lia|exact F|exact Hf|].
  split; [repeat (apply Forall_cons; [assumption|]); apply Forall_nil|].
  destruct (mb_energy_float fexp fsq OKe OKs _ _ _ _ x y B1 B2 B3 B4 HB) as [FF EE]. split; [exact FF|]. clear FF.
  set (e := val (f_mb_energy _ _ _ _)) in *. clearbody e.
  set (a1 := val (fmul (f_of_Z (-200)) f)) in *. set (a2 := val (fmul (f_of_Z (-100)) f)) in *. set (a3 := val (fmul (f_of_Z (-175)) f)) in *. set (a4 := val (fmul (f_of_Z 15) f)) in *.
  clearbody a1 a2 a3 a4. cbn [Z.abs] in E1, E2, E3, E4. unfold mb_sum in *.
  assert (T1 : 0 < mb_term1 (val x) (val y)) by apply exp_pos. assert (T2 : 0 < mb_term2 (val x) (val y)) by apply exp_pos.
  assert (T3 : 0 < mb_term3 (val x) (val y)) by apply exp_pos. assert (T4 : 0 < mb_term4 (val x) (val y)) by apply exp_pos.
  set (w1 := mb_term1 _ _) in *. set (w2 := mb_term2 _ _) in *. set (w3 := mb_term3 _ _) in *. set (w4 := mb_term4 _ _) in *. clearbody w1 w2 w3 w4.
  assert (P0 : 0 <= Rabs (val f)) by apply Rabs_pos.
  assert (K : forall a z w q, Rabs (a - z * val f) <= U * (q * Rabs (val f)) -> Rabs z = q -> 0 < w ->
    Rabs (a * w - val f * (z * w)) <= U * (q * Rabs (val f) * w) /\ Rabs a * w <= (1 + U) * (q * Rabs (val f) * w)).
  { intros a z w q HE Hq Hw. split.
    - replace (a * w - val f * (z * w)) with ((a - z * val f) * w) by ring. rewrite Rabs_mult, (Rabs_pos_eq w) by lra. rewrite <- Rmult_assoc. apply Rmult_le_compat_r; lra.
    - replace ((1 + U) * (q * Rabs (val f) * w)) with ((1 + U) * (q * Rabs (val f)) * w) by ring. apply Rmult_le_compat_r; [lra|].
      pose proof (Rabs_triang (a - z * val f) (z * val f)) as T. replace (a - z * val f + z * val f) with a in T by ring. rewrite Rabs_mult in T. rewrite Hq in T. lra. }
  destruct (K _ _ w1 200 E1) as [X1 Y1]; [rewrite Rabs_left; lra|exact T1|]. destruct (K _ _ w2 100 E2) as [X2 Y2]; [rewrite Rabs_left; lra|exact T2|].
  destruct (K _ _ w3 175 E3) as [X3 Y3]; [rewrite Rabs_left; lra|exact T3|]. destruct (K _ _ w4 15 E4) as [X4 Y4]; [rewrite Rabs_pos_eq; lra|exact T4|].
  clear K E1 E2 E3 E4. apply Rabs_le_inv in EE, X1, X2, X3, X4.
  assert (Q1 : 0 <= Rabs (val f) * w1) by (apply Rmult_le_pos; lra). assert (Q2 : 0 <= Rabs (val f) * w2) by (apply Rmult_le_pos; lra).
  assert (Q3 : 0 <= Rabs (val f) * w3) by (apply Rmult_le_pos; lra). assert (Q4 : 0 <= Rabs (val f) * w4) by (apply Rmult_le_pos; lra).
  set (g1 := Rabs a1 * w1) in *. set (g2 := Rabs a2 * w2) in *. set (g3 := Rabs a3 * w3) in *. set (g4 := Rabs a4 * w4) in *. clearbody g1 g2 g3 g4.
  apply Rabs_le. unfold U in *. split; lra.
Qed.

(** ** the contracts can be met *)
Lemma exp_times n t : exp (INR n * t) = exp t ^ n.
Proof. induction n as [|n IH]; [rewrite Rmult_0_l, exp_0; reflexivity|]. rewrite S_INR, Rmult_plus_distr_r, exp_plus, IH, Rmult_1_l. cbn [pow]. ring. Qed.
Lemma exp_big t : t <= 600 -> exp t <= bpow radix2 1000.
Proof.
  intros H. apply Rle_trans with (exp 600); [destruct H as [H | ->]; [left; now apply exp_increasing|lra]|].
  replace 600 with (INR 100 * (INR 6 * 1)) by (rewrite !INR_IZR_INZ; cbn [Z.of_nat Pos.of_succ_nat Pos.succ]; ring). rewrite !exp_times.
  assert (L : exp 1 ^ 6 <= 1024) by (apply Rle_trans with (3 ^ 6); [apply pow_incr; split; [left; apply exp_pos|exact exp_le_3]|lra]).
  apply Rle_trans with (1024 ^ 100); [apply pow_incr; split; [apply pow_le; left; apply exp_pos|exact L]|].
  right. replace 1024 with (2 ^ 10) by ring. rewrite <- pow_mult. change (10 * 100)%nat with 1000%nat. symmetry. rewrite <- (IZR_Zpower radix2 1000) by lia. rewrite pow_IZR. reflexivity.
Qed.
Lemma exp_low t : - 600 <= t -> bpow radix2 (-1000) <= exp t.
Proof.
  intros H. replace (exp t) with (/ exp (- t)) by (rewrite exp_Ropp, Rinv_inv; reflexivity). change (-1000)%Z with (- (1000))%Z. rewrite bpow_opp.
  apply Rinv_le_contravar; [apply exp_pos|]. apply exp_big. lra.
Qed.
Lemma exp_nearest_ok : exp_ok (fun x => match x with B754_infinity true => fzero | _ => nearest (exp (val x)) end).
Proof.
  split; [|split; reflexivity]. intros x Fx Hx.
  assert (D : match x with B754_infinity true => fzero | _ => nearest (exp (val x)) end = nearest (exp (val x))).
  { destruct x as [s|[]| |s m e b]; try discriminate Fx; reflexivity. }
  rewrite D. clear D. set (t := exp (val x)).
  assert (T0 : 0 < t) by apply exp_pos.
  assert (T1 : t <= 1).
  { unfold t. rewrite <- exp_0. destruct Hx as [Hx | ->]; [left; now apply exp_increasing | right; reflexivity]. }
  assert (R1 : rnd 1 = 1) by (destruct one_val as [_ V1]; rewrite <- V1; apply rnd_val).
  assert (B : 0 <= rnd t <= 1) by (split; [rewrite <- rnd_0; apply rnd_le; lra | apply Rle_trans with (rnd 1); [apply rnd_le; lra|lra]]).
  assert (Big : 1 < bpow radix2 1024) by (change 1 with (bpow radix2 0); apply bpow_lt; lia).
  destruct (nearest_val t) as [F V]; [apply Rabs_lt; lra|]. rewrite V.
  split; [exact F|]. split; [exact B|]. split.
  - intros E. unfold t. rewrite E, exp_0. exact R1.
  - pose proof (rnd_err t) as E. rewrite (Rabs_pos_eq t) in E by lra. eapply Rle_trans; [exact E|].
    assert (ETA <= powerRZ 2 (-1000)).
    { replace (powerRZ 2 (-1000)) with (bpow radix2 (-1000)) by (rewrite bpow_powerRZ; reflexivity). unfold ETA. apply bpow_le. lia. }
    assert (U * t <= / 2 ^ 50 * t) by (apply Rmult_le_compat_r; [lra|unfold U; lra]). lra.
Qed.
Lemma exp_both_inhabited : exists fexp, exp_ok fexp /\ exp_both_ok fexp.
Proof.
  exists (fun x => match x with B754_infinity true => fzero | _ => nearest (exp (val x)) end).
  assert (D : forall x, finite x -> match x with B754_infinity true => fzero | _ => nearest (exp (val x)) end = nearest (exp (val x))).
  { intros x Fx. destruct x as [s|[]| |s m e b]; try discriminate Fx; reflexivity. }
  split; [exact exp_nearest_ok|].
  intros x Fx Hx. rewrite (D x Fx). apply Rabs_le_inv in Hx. set (t := exp (val x)).
  assert (T1 : bpow radix2 (-1000) <= t) by (apply exp_low; lra). assert (T2 : t <= bpow radix2 1000) by (apply exp_big; lra). assert (T0 : 0 < t) by apply exp_pos.
  assert (N : bpow radix2 (-1022) <= bpow radix2 (-1000)) by (apply bpow_le; lia). assert (B : 2 * bpow radix2 1000 < bpow radix2 1024).
  { change 2 with (bpow radix2 1). rewrite <- bpow_plus. apply bpow_lt. lia. }
  pose proof (rnd_err_normal t) as E. rewrite (Rabs_pos_eq t) in E by lra. assert (E' := E ltac:(lra)). clear E. assert (E2 := E'). apply Rabs_le_inv in E2.
  assert (U * t <= 1 * t) by (apply Rmult_le_compat_r; [lra|unfold U; lra]).
  destruct (nearest_val t) as [F V]; [apply Rabs_lt; lra|]. split; [exact F|]. rewrite V. eapply Rle_trans; [exact E'|]. apply Rmult_le_compat_r; [lra|unfold U; lra].
Qed.
Lemma square_inhabited : square_ok (fun x => fmul x x).
Proof.
  intros x F H. assert (Q : Rabs (val x * val x) = val x ^ 2) by (rewrite Rabs_pos_eq; [ring|nra]).
  assert (L : val x ^ 2 <= bpow radix2 200).
  { replace (val x ^ 2) with (Rabs (val x) * Rabs (val x)) by (rewrite <- Rabs_mult; exact Q). change 200%Z with (100 + 100)%Z. rewrite bpow_plus. apply Rmult_le_compat; try apply Rabs_pos; exact H. }
  pose proof (rnd_err (val x * val x)) as E. rewrite Q in E. assert (P : 0 <= val x ^ 2) by apply pow2_ge_0.
  assert (T : ETA <= bpow radix2 (-1000)) by (apply bpow_le; lia). assert (UP : U * val x ^ 2 <= / 2 ^ 51 * val x ^ 2) by (apply Rmult_le_compat_r; [exact P|unfold U; lra]).
  assert (B : bpow radix2 200 * 2 + 1 < bpow radix2 1024).
  { assert (1 <= bpow radix2 200) by (change 1 with (bpow radix2 0); apply bpow_le; lia). assert (bpow radix2 200 * 4 < bpow radix2 1024); [change 4 with (bpow radix2 2); rewrite <- bpow_plus; apply bpow_lt; lia|lra]. }
  assert (T1 : bpow radix2 (-1000) <= 1) by (change 1 with (bpow radix2 0); apply bpow_le; lia).
  destruct (fmul_val x x F F) as [FF VV].
  { pose proof (Rabs_triang_inv (rnd (val x * val x)) (val x * val x)) as TI. rewrite Q in TI. assert (/ 2 ^ 51 * val x ^ 2 <= 1 * val x ^ 2) by (apply Rmult_le_compat_r; [exact P|lra]). lra. }
  split; [exact FF|]. rewrite VV. replace (val x ^ 2) with (val x * val x) at 1 by ring. lra.
Qed.

(** a simulation in the Mueller-Brown potential *)
Definition mb_fsim (fexp : f64 -> f64) : fsim :=
  mkFSim fmb_ranges (f_mb_force fexp (fun x => fmul x x) fmb_A0) (f_mb_energy fexp (fun x => fmul x x) fmb_A0) (fmake 1 (-7)) (f_of_Z 10) (f_of_Z 1) (f_of_Z 1)
    5 [fhalf; fhalf] (f_of_Z 1) true VOrig (map (fun _ => fzero)).
Lemma bounded_100 z : (Z.abs z <= 200)%Z -> bounded (bpow radix2 100) (f_of_Z z).
Proof. intros H. destruct (bounded_Z 8 z) as [F B]; [lia|lia|]. split; [exact F|]. eapply Rle_trans; [exact B|apply bpow_le; lia]. Qed.
Lemma box_half m n : (-3 <= m <= 3)%Z -> (-1 <= n <= 5)%Z -> in_box fmb_ranges [fmake m (-1); fmake n (-1)].
Proof.
  intros Hm Hn. assert (L : forall a b, (Z.abs a <= 5)%Z -> (Z.abs b <= 5)%Z -> (a <= b)%Z -> fle (fmake a (-1)) (fmake b (-1)) = true).
  { intros a b Ha Hb H. destruct (half_val a) as [Fa Va]; [lia|]. destruct (half_val b) as [Fb Vb]; [lia|]. apply fle_val; [exact Fa|exact Fb|]. rewrite Va, Vb. apply IZR_le in H. lra. }
  unfold in_box, fmb_ranges. apply Forall2_cons; [|apply Forall2_cons; [|apply Forall2_nil]]; unfold inside; cbn [fst snd]; split; apply L; lia.
Qed.
Lemma mb_case : exists fexp fsq, exp_ok fexp /\ exp_both_ok fexp /\ square_ok fsq /\ Forall (bounded (bpow radix2 100)) fmb_A0 /\
  in_box fmb_ranges [fmake (-1) (-1); fmake 3 (-1)] /\ bpow radix2 (-100) <= Rabs (val (fmake 1 (-3))) <= bpow radix2 90 /\ sim_ok (mb_fsim fexp).
Proof.
  destruct exp_both_inhabited as (fexp & H1 & H2). exists fexp, (fun x => fmul x x). split; [exact H1|]. split; [exact H2|]. split; [exact square_inhabited|].
  split. { repeat (apply Forall_cons; [apply bounded_100; lia|]). apply Forall_nil. }
  split; [apply box_half; lia|].
  split. { destruct (fmake_val 1 (-3)) as [F V]; [lia|lia|]. rewrite V, Rmult_1_l, Rabs_pos_eq by apply bpow_ge_0. split; apply bpow_le; lia. }
  destruct (of_Z_small 10) as [F10 V10]; [lia|].
  apply (mb_sim_float fexp _ H2 square_inhabited (f_of_Z (-200)) (f_of_Z (-100)) (f_of_Z (-175)) (f_of_Z 15));
    cbn [mb_fsim fs_ranges fs_force fs_energy fs_dt fs_friction fs_kt fs_mass fs_stride fs_bw fs_rate fs_corr]; try (apply bounded_100; lia); try reflexivity.
  - apply moderate_pow. lia.
  - split; [exact F10|]. rewrite V10. lra.
  - apply moderate_Z. lia.
  - apply moderate_Z. lia.
  - lia.
  - split; [reflexivity|]. apply Forall_cons; [apply moderate_pow; lia|]. apply Forall_cons; [apply moderate_pow; lia|apply Forall_nil].
  - apply moderate_Z. lia.
  - intros pos _. split; [apply map_length|]. apply Forall_forall. intros x Hx. apply in_map_iff in Hx. destruct Hx as (? & <- & _). apply bounded_0.
Qed.
