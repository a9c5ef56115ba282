(** Time stamps and acceptance probabilities on float64 numbers (C77, C78) *)
From Verif Require Import Spec_f64 Proof_f64 Proof_f64b Proof_base.
From Flocq Require Import Core.Core.
From Coq Require Import Lia Lra.
Open Scope R_scope.

#[local] Arguments bpow : simpl never.

(** ** C77 *)
Section TIME.
Context (dt : f64) (Fd : finite dt) (Hd : bpow radix2 (-1022) <= val dt).

Lemma dt_pos : 0 < val dt.
Proof using All. pose proof (bpow_gt_0 radix2 (-1022)). lra. Qed.

Lemma time_val k : (1 <= k <= 2 ^ 53)%Z -> IZR k * val dt < bpow radix2 1023 ->
  finite (f_time dt k) /\ Rabs (val (f_time dt k) - IZR k * val dt) <= / 2 ^ 53 * (IZR k * val dt).
Proof using All.
  intros Hk HM. pose proof dt_pos as D0. destruct (f_of_Z_val k) as [Fk Vk]; [lia|].
  assert (K1 : 1 <= IZR k) by (apply IZR_le; lia).
  assert (P0 : val dt <= IZR k * val dt) by (rewrite <- (Rmult_1_l (val dt)) at 1; apply Rmult_le_compat_r; lra).
  assert (P1 : 0 <= IZR k * val dt) by lra.
  pose proof (rnd_err_normal (IZR k * val dt)) as E. rewrite (Rabs_pos_eq _ P1) in E. specialize (E ltac:(lra)).
  assert (E' := E). apply Rabs_le_inv in E'. pose proof U_pos.
  assert (U1 : U * (IZR k * val dt) <= 1 * (IZR k * val dt)) by (apply Rmult_le_compat_r; [lra|unfold U; lra]).
  pose proof MAXV.
  destruct (fmul_val (f_of_Z k) dt Fk Fd) as [F V].
  { rewrite Vk. apply Rabs_lt. lra. }
  rewrite Vk in V. fold (f_time dt k) in F, V. split; [exact F|]. rewrite V. exact E.
Qed.

Lemma time_increasing k k' : (1 <= k < k')%Z -> (k' <= 2 ^ 52)%Z -> IZR k' * val dt < bpow radix2 1023 ->
  flt (f_time dt k) (f_time dt k') = true.
Proof using All.
  intros Hk Hk' HM. pose proof dt_pos as D0.
  assert (K : IZR k + 1 <= IZR k') by (rewrite <- plus_IZR; apply IZR_le; lia).
  assert (K0 : 1 <= IZR k) by (apply IZR_le; lia).
  assert (K2 : IZR k' <= 2 ^ 52) by (replace (2 ^ 52) with (IZR (2 ^ 52)) by (rewrite (pow_IZR 2 52); reflexivity); apply IZR_le; lia).
  assert (M1 : IZR k * val dt <= IZR k' * val dt) by (apply Rmult_le_compat_r; lra).
  destruct (time_val k) as [F1 E1]; [lia|lra|]. destruct (time_val k') as [F2 E2]; [lia|lra|].
  apply flt_val; try assumption. apply Rabs_le_inv in E1. apply Rabs_le_inv in E2.
  assert (Q : 0 < (IZR k' * (1 - / 2 ^ 53) - IZR k * (1 + / 2 ^ 53)) * val dt) by (apply Rmult_lt_0_compat; lra).
  lra.
Qed.
End TIME.

(** ** C78 *)
Definition neg (x : f64) : Prop := (finite x /\ val x <= 0) \/ x = B754_infinity true.

Lemma sign_neg x : finite x -> val x < 0 -> Bsign x = true.
Proof.
  destruct x as [s|s| |s m e b]; intros F H; try discriminate F; cbn [B2R] in H; [lra|].
  destruct s; [reflexivity|]. exfalso. assert (0 < F2R (Float radix2 (Zpos m) e)) by (now apply F2R_gt_0). cbn in H. lra.
Qed.
Lemma sign_pos x : finite x -> 0 < val x -> Bsign x = false.
Proof.
  destruct x as [s|s| |s m e b]; intros F H; try discriminate F; cbn [B2R] in H; [lra|].
  destruct s; [|reflexivity]. exfalso. assert (F2R (Float radix2 (Zneg m) e) < 0) by (now apply F2R_lt_0). cbn in H. lra.
Qed.

Lemma fmul_neg a b : neg a -> finite b -> 0 < val b -> neg (fmul a b).
Proof.
  intros [[Fa Ha] | ->] Fb Hb.
  - assert (P : val a * val b <= 0) by (apply Rmult_le_reg_r with (/ val b); [now apply Rinv_0_lt_compat|]; rewrite Rmult_assoc, Rinv_r; lra).
    destruct (Rlt_or_le (Rabs (rnd (val a * val b))) (bpow radix2 1024)) as [L | L].
    + destruct (fmul_val a b Fa Fb L) as [F V]. left. split; [exact F|]. rewrite V, <- rnd_0. now apply rnd_le.
    + right. pose proof (Bmult_correct 53 1024 prec_53 emax_1024 mode_NE a b) as C. rewrite rnd_eq in C.
      rewrite Rlt_bool_false in C by exact L.
      assert (NZ : val a < 0).
      { destruct Ha as [Ha | Ha]; [exact Ha|]. rewrite Ha, Rmult_0_l, rnd_0, Rabs_R0 in L. pose proof (bpow_gt_0 radix2 1024). lra. }
      rewrite (sign_neg a Fa NZ), (sign_pos b Fb Hb) in C. fold (fmul a b) in C. change (binary_overflow 53 1024 mode_NE (xorb true false)) with (SpecFloat.S754_infinity true) in C.
      destruct (fmul a b) as [s|s| |s m e h]; cbn in C; congruence.
  - right. destruct b as [s|s| |s m e h]; try discriminate Fb; cbn [B2R] in Hb; [lra|].
    destruct s; [|reflexivity]. exfalso. assert (F2R (Float radix2 (Zneg m) e) < 0) by (now apply F2R_lt_0). cbn in Hb. lra.
Qed.

Lemma one_val : finite (f_of_Z 1) /\ val (f_of_Z 1) = 1.
Proof. destruct (f_of_Z_val 1) as [F V]; [lia|]. now split. Qed.

Lemma one_minus e : finite e -> 0 <= val e <= 1 ->
  finite (fsub (f_of_Z 1) e) /\ val (fsub (f_of_Z 1) e) = rnd (1 - val e) /\ 0 <= rnd (1 - val e) <= 1 /\ Rabs (rnd (1 - val e) - (1 - val e)) <= U.
Proof.
  intros F H. destruct one_val as [F1 V1]. assert (R1 : rnd 1 = 1) by (rewrite <- V1; apply rnd_val).
  assert (B : 0 <= rnd (1 - val e) <= 1).
  { split; [rewrite <- rnd_0; apply rnd_le; lra | rewrite <- R1 at 2; apply rnd_le; lra]. }
  assert (Big : 1 < bpow radix2 1024) by (change 1 with (bpow radix2 0); apply bpow_lt; lia).
  destruct (fsub_val (f_of_Z 1) e F1 F) as [G1 G2]; [rewrite V1; apply Rabs_lt; lra|]. rewrite V1 in G2.
  split; [exact G1|]. split; [exact G2|]. split; [exact B|].
  pose proof (rnd_plus_err (f_of_Z 1) (fopp e)) as E. rewrite fopp_val, V1 in E. change (1 + - val e) with (1 - val e) in E.
  rewrite (Rabs_pos_eq (1 - val e)) in E by lra. pose proof U_pos.
  assert (U * (1 - val e) <= U * 1) by (apply Rmult_le_compat_l; lra). lra.
Qed.

Lemma neg_abs beta : finite beta -> neg (fopp (Babs beta)) /\ finite (fopp (Babs beta)) /\ val (fopp (Babs beta)) = - Rabs (val beta).
Proof.
  intros F. assert (G : finite (Babs beta)) by (red; rewrite is_finite_Babs; exact F).
  assert (V : val (fopp (Babs beta)) = - Rabs (val beta)) by (rewrite fopp_val, B2R_Babs; reflexivity).
  split; [|split; [now apply fopp_finite|exact V]]. left. split; [now apply fopp_finite|]. rewrite V. pose proof (Rabs_pos (val beta)). lra.
Qed.

Lemma prob_range fexp dt rate beta : exp_ok fexp -> finite dt -> 0 < val dt -> finite rate -> 0 < val rate -> finite beta ->
  let p := f_event_prob fexp dt rate beta in finite p /\ 0 <= val p <= 1.
Proof.
  intros [H1 [H2 H3]] Fd Hd Fr Hr Fb p. unfold p, f_event_prob.
  destruct (neg_abs beta Fb) as [N _]. pose proof (fmul_neg _ _ (fmul_neg _ _ N Fd Hd) Fr Hr) as [[A1 A2] | A].
  - destruct (H1 _ A1 A2) as (G1 & G2 & _). destruct (one_minus _ G1 G2) as (I1 & I2 & I3 & _). split; [exact I1|]. now rewrite I2.
  - rewrite A. destruct (one_minus _ H2) as (I1 & I2 & I3 & _); [lra|]. split; [exact I1|]. now rewrite I2.
Qed.

Lemma prob_zero_beta fexp dt rate beta : exp_ok fexp -> finite dt -> 0 < val dt -> finite rate -> 0 < val rate -> finite beta ->
  val beta = 0 -> val (f_event_prob fexp dt rate beta) = 0.
Proof.
  intros [H1 _] Fd Hd Fr Hr Fb H0. unfold f_event_prob. destruct (neg_abs beta Fb) as (_ & Fn & Vn).
  rewrite H0, Rabs_R0, Ropp_0 in Vn. pose proof (bpow_gt_0 radix2 1024) as P.
  destruct (fmul_val _ dt Fn Fd) as [F1 V1]; [rewrite Vn, Rmult_0_l, rnd_0, Rabs_R0; exact P|]. rewrite Vn, Rmult_0_l, rnd_0 in V1.
  destruct (fmul_val _ rate F1 Fr) as [F2 V2]; [rewrite V1, Rmult_0_l, rnd_0, Rabs_R0; exact P|]. rewrite V1, Rmult_0_l, rnd_0 in V2.
  destruct (H1 _ F2) as (G1 & G2 & G3 & _); [lra|]. specialize (G3 V2).
  destruct (one_minus _ G1 G2) as (_ & I2 & _). rewrite I2, G3. replace (1 - 1) with 0 by ring. apply rnd_0.
Qed.

Lemma exp_lip a b : 0 <= a -> a <= b -> exp (- a) - exp (- b) <= (b - a) * exp (- a).
Proof.
  intros H0 H. replace (- b) with (- a + - (b - a)) by ring. rewrite exp_plus.
  assert (1 + - (b - a) <= exp (- (b - a))) by apply exp_ineq1_le. pose proof (exp_pos (- a)). nra.
Qed.
Lemma exp_abs a b : 0 <= a -> 0 <= b -> Rabs (exp (- a) - exp (- b)) <= Rabs (a - b) * exp (- Rmin a b).
Proof.
  intros Ha Hb. destruct (Rle_or_lt a b) as [L | L].
  - rewrite Rmin_left by exact L. rewrite (Rabs_minus_sym a b), (Rabs_pos_eq (b - a)) by lra. rewrite Rabs_pos_eq; [now apply exp_lip|].
    assert (exp (- b) <= exp (- a)); [|lra]. destruct L as [L | ->]; [left; apply exp_increasing; lra | right; reflexivity].
  - rewrite Rmin_right by lra. rewrite (Rabs_pos_eq (a - b)) by lra. rewrite Rabs_minus_sym, Rabs_pos_eq; [apply exp_lip; lra|].
    assert (exp (- a) < exp (- b)) by (apply exp_increasing; lra). lra.
Qed.
Lemma texp t : t * exp (- t) <= 1.
Proof.
  pose proof (exp_ineq1_le t). pose proof (exp_pos (- t)). assert (E : exp t * exp (- t) = 1) by (rewrite <- exp_plus, Rplus_opp_r; apply exp_0).
  nra.
Qed.
Lemma exp1_3 : exp 1 <= 3.
Proof. exact exp_le_3. Qed.

Lemma prob_accuracy fexp dt rate beta : exp_ok fexp -> finite dt -> 0 < val dt -> finite rate -> finite beta ->
  bpow radix2 (-100) <= val rate <= bpow radix2 100 ->
  let x := Rabs (val beta) * val dt * val rate in
  x <= bpow radix2 900 ->
  Rabs (val (f_event_prob fexp dt rate beta) - (1 - exp (- x))) <= / 2 ^ 48.
Proof.
  intros [H1 _] Fd Hd Fr Fb Hr x Hx. unfold f_event_prob. destruct (neg_abs beta Fb) as (_ & Fn & Vn).
  pose proof U_pos as HU. pose proof ETA_pos as HE.
  pose proof (bpow_gt_0 radix2 (-100)) as B100. assert (Hr0 : 0 < val rate) by lra.
  set (y := Rabs (val beta) * val dt) in *. assert (Hy0 : 0 <= y) by (apply Rmult_le_pos; [apply Rabs_pos|lra]).
  assert (Hx0 : 0 <= x) by (unfold x; apply Rmult_le_pos; lra).
  (* magnitudes *)
  assert (Hy : y <= bpow radix2 1000).
  { apply Rmult_le_reg_r with (val rate); [lra|]. fold x. apply Rle_trans with (bpow radix2 900); [exact Hx|].
    change 900%Z with (1000 + -100)%Z. rewrite bpow_plus. apply Rmult_le_compat_l; [apply bpow_ge_0|lra]. }
  assert (B1 : bpow radix2 1000 * 4 <= bpow radix2 1024).
  { change 4 with (bpow radix2 2). rewrite <- bpow_plus. apply bpow_le. lia. }
  assert (B2 : bpow radix2 900 * 4 <= bpow radix2 1024).
  { change 4 with (bpow radix2 2). rewrite <- bpow_plus. apply bpow_le. lia. }
  assert (B3 : 1 <= bpow radix2 900) by (change 1 with (bpow radix2 0); apply bpow_le; lia).
  assert (B4 : 1 <= bpow radix2 1000) by (change 1 with (bpow radix2 0); apply bpow_le; lia).
  set (tau := bpow radix2 (-900)). assert (T0 : 0 < tau) by apply bpow_gt_0.
  assert (Tr : ETA * val rate * 4 <= tau).
  { apply Rle_trans with (ETA * bpow radix2 100 * 4).
    - apply Rmult_le_compat_r; [lra|]. apply Rmult_le_compat_l; lra.
    - unfold ETA, tau. change 4 with (bpow radix2 2). rewrite <- !bpow_plus. apply bpow_le. lia. }
  assert (Te : ETA * 4 <= tau) by (unfold ETA, tau; change 4 with (bpow radix2 2); rewrite <- bpow_plus; apply bpow_le; lia).
  assert (TU : tau * 64 <= U).
  { rewrite U_bpow. unfold tau. change 64 with (bpow radix2 6). rewrite <- bpow_plus. apply bpow_le. lia. }
  assert (HU1 : U * 1024 <= 1) by (unfold U; lra).
  (* first product *)
  assert (Q1 : val (fopp (Babs beta)) * val dt = - y) by (rewrite Vn; unfold y; ring).
  pose proof (rnd_err (- y)) as E1. rewrite Rabs_Ropp, (Rabs_pos_eq y Hy0) in E1. apply Rabs_le_inv in E1.
  assert (R1 : rnd (- y) <= 0) by (rewrite <- rnd_0; apply rnd_le; lra).
  assert (Uy : 0 <= U * y <= / 1024 * y) by (split; [apply Rmult_le_pos; lra | apply Rmult_le_compat_r; lra]).
  destruct (fmul_val _ dt Fn Fd) as [F1 V1]; [rewrite Q1; apply Rabs_lt; lra|]. rewrite Q1 in V1.
  set (y1 := - rnd (- y)) in *.
  assert (E1' : y - (U * y + ETA) <= y1 <= y + (U * y + ETA)) by (unfold y1; lra).
  assert (Y1 : 0 <= y1) by (unfold y1; lra).
  (* second product *)
  set (p := fmul (fopp (Babs beta)) dt) in *.
  assert (Q2 : val p * val rate = - (y1 * val rate)) by (rewrite V1; unfold y1; ring).
  set (z := y1 * val rate) in *. assert (Hz0 : 0 <= z) by (apply Rmult_le_pos; lra).
  assert (Ez : x - (U * x + tau / 4) <= z <= x + (U * x + tau / 4)).
  { assert (Lo : (y - (U * y + ETA)) * val rate <= z) by (apply Rmult_le_compat_r; lra).
    assert (Hi : z <= (y + (U * y + ETA)) * val rate) by (apply Rmult_le_compat_r; lra).
    unfold x. lra. }
  assert (Ux : 0 <= U * x <= / 1024 * x) by (split; [apply Rmult_le_pos; lra | apply Rmult_le_compat_r; lra]).
  assert (Uz : U * z <= U * (2 * x + tau)) by (apply Rmult_le_compat_l; lra).
  assert (Uz0 : 0 <= U * z) by (apply Rmult_le_pos; lra).
  assert (Ut : U * tau <= / 1024 * tau) by (apply Rmult_le_compat_r; lra).
  pose proof (rnd_err (- z)) as E2. rewrite Rabs_Ropp, (Rabs_pos_eq z Hz0) in E2. apply Rabs_le_inv in E2.
  assert (R2 : rnd (- z) <= 0) by (rewrite <- rnd_0; apply rnd_le; lra).
  destruct (fmul_val p rate F1 Fr) as [F2 V2]; [rewrite Q2; apply Rabs_lt; lra|]. rewrite Q2 in V2.
  set (w := - rnd (- z)) in *. assert (W0 : 0 <= w) by (unfold w; lra).
  assert (Ew : Rabs (w - x) <= 3 * (U * x) + tau) by (apply Rabs_le; unfold w; lra).
  (* the exponential *)
  assert (V2' : val (fmul p rate) = - w) by (rewrite V2; unfold w; ring).
  destruct (H1 _ F2) as (G1 & G2 & _ & G4); [rewrite V2'; lra|]. rewrite V2' in G4.
  destruct (one_minus _ G1 G2) as (_ & I2 & _ & I4). rewrite I2.
  set (e := val (fexp (fmul p rate))) in *.
  assert (EW : exp (- w) <= 1).
  { rewrite <- exp_0. destruct W0 as [W0 | <-]; [left; apply exp_increasing; lra | right; f_equal; ring]. }
  assert (T1000 : powerRZ 2 (-1000) <= tau).
  { unfold tau. replace (powerRZ 2 (-1000)) with (bpow radix2 (-1000)) by (rewrite bpow_powerRZ; reflexivity). apply bpow_le. lia. }
  assert (D : Rabs (exp (- w) - exp (- x)) <= 20 * U).
  { eapply Rle_trans; [apply exp_abs; assumption|].
    apply Rabs_le_inv in Ew. set (a := Rmin w x).
    assert (A0 : 0 <= a) by (unfold a, Rmin; destruct (Rle_dec w x); lra).
    assert (A1 : x / 2 - 1 <= a) by (unfold a, Rmin; destruct (Rle_dec w x); lra).
    assert (XE : exp (- a) <= 3 * exp (- (x / 2))).
    { apply Rle_trans with (exp (1 + - (x / 2))).
      - destruct (Req_dec (- a) (1 + - (x / 2))) as [-> | NE]; [lra|]. left. apply exp_increasing. lra.
      - rewrite exp_plus. apply Rmult_le_compat_r; [left; apply exp_pos|exact exp1_3]. }
    assert (XA : exp (- a) <= 1).
    { rewrite <- exp_0. destruct A0 as [A0 | A0]; [left; apply exp_increasing; lra | rewrite <- A0; right; f_equal; ring]. }
    assert (T : x * exp (- a) <= 6).
    { apply Rle_trans with (x * (3 * exp (- (x / 2)))); [apply Rmult_le_compat_l; lra|]. pose proof (texp (x / 2)). lra. }
    pose proof (exp_pos (- a)) as EP.
    apply Rle_trans with ((3 * (U * x) + tau) * exp (- a)).
    - apply Rmult_le_compat_r; [lra|]. apply Rabs_le. lra.
    - assert (U * (x * exp (- a)) <= U * 6) by (apply Rmult_le_compat_l; lra).
      assert (tau * exp (- a) <= tau * 1) by (apply Rmult_le_compat_l; lra). lra. }
  apply Rabs_le_inv in D. apply Rabs_le_inv in G4. apply Rabs_le_inv in I4.
  assert (P50 : / 2 ^ 50 = 8 * U) by (unfold U; lra). rewrite P50 in G4.
  assert (UE : 8 * U * exp (- w) <= 8 * U * 1) by (apply Rmult_le_compat_l; lra).
  replace (/ 2 ^ 48) with (32 * U) by (unfold U; lra). apply Rabs_le. lra.
Qed.

(** the random number k / 2^53 *)
Lemma rand_val k : (0 <= k <= 2 ^ 53)%Z -> finite (fmake k (-53)) /\ val (fmake k (-53)) = IZR k * / 2 ^ 53.
Proof.
  intros H. pose proof (binary_normalize_correct 53 1024 prec_53 emax_1024 mode_NE k (-53) false) as C.
  cbv zeta in C. rewrite rnd_eq in C.
  assert (Q : F2R {| Fnum := k; Fexp := -53 |} = IZR k * bpow radix2 (-53)) by reflexivity. rewrite Q in C.
  assert (R : rnd (IZR k * bpow radix2 (-53)) = IZR k * bpow radix2 (-53)).
  { apply round_generic; auto with typeclass_instances.
    destruct (Z.eq_dec k (2 ^ 53)) as [-> | NE].
    - replace (IZR (2 ^ 53) * bpow radix2 (-53)) with (bpow radix2 0).
      + apply generic_format_bpow. unfold FLT_exp. lia.
      + change (2 ^ 53)%Z with (Zpower radix2 53). rewrite IZR_Zpower by discriminate. rewrite <- bpow_plus. reflexivity.
    - apply generic_format_FLT. exists (Float radix2 k (-53)); cbn; [reflexivity|change (Z.pow_pos 2 53) with (2 ^ 53)%Z; rewrite Z.abs_eq; lia|lia]. }
  rewrite R in C. rewrite U_bpow in * || idtac. assert (UB : bpow radix2 (-53) = / 2 ^ 53) by (rewrite <- U_bpow; reflexivity).
  rewrite UB in C. rewrite Rlt_bool_true in C; [destruct C as [C1 [C2 _]]; split; assumption|].
  assert (0 <= IZR k) by (apply IZR_le; lia).
  assert (IZR k <= 2 ^ 53) by (replace (2 ^ 53) with (IZR (2 ^ 53)) by (rewrite (pow_IZR 2 53); reflexivity); apply IZR_le; lia).
  assert (Big : 1 < bpow radix2 1024) by (change 1 with (bpow radix2 0); apply bpow_lt; lia).
  apply Rabs_lt. lra.
Qed.

Lemma accepted_count fexp dt rate beta k : exp_ok fexp -> finite dt -> 0 < val dt -> finite rate -> 0 < val rate -> finite beta ->
  (0 <= k < 2 ^ 53)%Z ->
  (f_accepted fexp dt rate beta (fmake k (-53)) = true <-> IZR k <= 2 ^ 53 * val (f_event_prob fexp dt rate beta)).
Proof.
  intros HX Fd Hd Fr Hr Fb Hk. destruct (prob_range fexp dt rate beta HX Fd Hd Fr Hr Fb) as [Fp Hp].
  destruct (rand_val k) as [Fk Vk]; [lia|]. unfold f_accepted. rewrite (fle_val _ _ Fk Fp), Vk. lra.
Qed.

(** beta = 2^-600 and dt = 2^-600: the product underflows *)
Lemma prob_refuted fexp : exp_ok fexp -> exists dt rate beta, finite dt /\ 0 < val dt /\ val rate = 1 /\ finite beta /\ 0 < val beta /\
  0 < 1 - exp (- (Rabs (val beta) * val dt * val rate)) /\
  val (f_event_prob fexp dt rate beta) = 0 /\
  forall k, (0 < k < 2 ^ 53)%Z -> f_accepted fexp dt rate beta (fmake k (-53)) = false.
Proof.
  intros HX. set (s := fmake 1 (-600)). exists s, (f_of_Z 1), s.
  assert (Fs : finite s) by reflexivity. destruct one_val as [F1 V1].
  assert (Vs : 0 < val s).
  { assert (E : flt fzero s = true) by (vm_compute; reflexivity). apply flt_val in E; [exact E|reflexivity|exact Fs]. }
  assert (P0 : val (f_event_prob fexp s (f_of_Z 1) s) = 0).
  { unfold f_event_prob. assert (Z0 : fmul (fmul (fopp (Babs s)) s) (f_of_Z 1) = B754_zero true) by (vm_compute; reflexivity).
    rewrite Z0. destruct HX as [H1 _]. destruct (H1 (B754_zero true) eq_refl) as (G1 & G2 & G3 & _); [simpl; lra|].
    specialize (G3 eq_refl). destruct (one_minus _ G1 G2) as (_ & I2 & _). rewrite I2, G3.
    replace (1 - 1) with 0 by ring. apply rnd_0. }
  split; [exact Fs|]. split; [exact Vs|]. split; [exact V1|]. split; [exact Fs|]. split; [exact Vs|]. split.
  { rewrite V1, Rmult_1_r, (Rabs_pos_eq (val s)) by lra. assert (0 < val s * val s) by now apply Rmult_lt_0_compat.
    assert (exp (- (val s * val s)) < exp 0) by (apply exp_increasing; lra). rewrite exp_0 in H0. lra. }
  split; [exact P0|]. intros k Hk.
  pose proof (accepted_count fexp s (f_of_Z 1) s k HX Fs Vs F1 ltac:(lra) Fs ltac:(lia)) as A. rewrite P0 in A.
  assert (1 <= IZR k) by (apply IZR_le; lia).
  destruct (f_accepted fexp s (f_of_Z 1) s (fmake k (-53))); [|reflexivity]. destruct A as [A _]. specialize (A eq_refl). lra.
Qed.
