(** Proofs for the equilibrium in a harmonic well (C101): the averages *)
From Coq Require Import Lra Lia.
From Verif Require Import PyBase Model_dyn Model_pot Spec_ld Spec_well Proof_base Proof_ld Proof_well.
Open Scope R_scope.
Ltac Zify.zify_post_hook ::= idtac.

Section Recursion.
Context {W : Type} (mean : (W -> R) -> R) (HM : is_mean mean) (N : nat) (e : nat -> W -> R) (x p : nat -> W -> R).
Context (HW : white mean N e (x 0%nat) (p 0%nat)).
(** two numbers per step *)
Section Two.
Context (a b c A B C D : R)
  (RX : forall n w, x (S n) w = a * x n w + b * p n w + c * e (2 * n)%nat w + 0 * e (2 * n + 1)%nat w)
  (RP : forall n w, p (S n) w = A * x n w + B * p n w + C * e (2 * n)%nat w + D * e (2 * n + 1)%nat w).
Lemma two_uncorrelated : forall n j, (2 * n <= j < N)%nat -> mean (fun w => x n w * e j w) = 0 /\ mean (fun w => p n w * e j w) = 0.
Proof using All.
  destruct HW as (W1 & W2 & W3). induction n as [|n IH]; intros j Hj; [apply W3; lia|].
  destruct (IH j ltac:(lia)) as [I1 I2].
  pose proof (W2 (2 * n)%nat j ltac:(lia) ltac:(lia) ltac:(lia)) as I3. pose proof (W2 (2 * n + 1)%nat j ltac:(lia) ltac:(lia) ltac:(lia)) as I4.
  split.
  - rewrite (mean_ext mean HM _ (fun w => a * (x n w * e j w) + b * (p n w * e j w) + c * (e (2 * n)%nat w * e j w) + 0 * (e (2 * n + 1)%nat w * e j w))) by (intros w; rewrite RX; ring).
    rewrite (mean_lin mean HM), I1, I2, I3, I4. ring.
  - rewrite (mean_ext mean HM _ (fun w => A * (x n w * e j w) + B * (p n w * e j w) + C * (e (2 * n)%nat w * e j w) + D * (e (2 * n + 1)%nat w * e j w))) by (intros w; rewrite RP; ring).
    rewrite (mean_lin mean HM), I1, I2, I3, I4. ring.
Qed.
Lemma two_moments n X Y Z : (2 * n + 2 <= N)%nat ->
  mean (fun w => x n w * x n w) = X -> mean (fun w => x n w * p n w) = Y -> mean (fun w => p n w * p n w) = Z ->
  mean (fun w => x (S n) w * x (S n) w) = a * a * X + 2 * (a * b) * Y + b * b * Z + c * c /\
  mean (fun w => x (S n) w * p (S n) w) = a * A * X + (a * B + b * A) * Y + b * B * Z + c * C /\
  mean (fun w => p (S n) w * p (S n) w) = A * A * X + 2 * (A * B) * Y + B * B * Z + C * C + D * D.
Proof using All.
  intros Hn EX EY EZ. destruct HW as (W1 & W2 & W3).
  destruct (two_uncorrelated n (2 * n)%nat ltac:(lia)) as [U1 U2]. destruct (two_uncorrelated n (2 * n + 1)%nat ltac:(lia)) as [U3 U4].
  pose proof (mean_prod mean HM (x n) (p n) (e (2 * n)%nat) (e (2 * n + 1)%nat) X Y Z EX EY EZ (W1 (2 * n)%nat ltac:(lia)) (W1 (2 * n + 1)%nat ltac:(lia)) (W2 (2 * n)%nat (2 * n + 1)%nat ltac:(lia) ltac:(lia) ltac:(lia)) U1 U3 U2 U4) as P.
  split; [|split].
  - rewrite (mean_ext mean HM _ _ (fun w => f_equal2 Rmult (RX n w) (RX n w))), P. ring.
  - rewrite (mean_ext mean HM _ _ (fun w => f_equal2 Rmult (RX n w) (RP n w))), P. ring.
  - rewrite (mean_ext mean HM _ _ (fun w => f_equal2 Rmult (RP n w) (RP n w))), P. ring.
Qed.
End Two.
(** one number per step, position only *)
Section One.
Context (a b : R) (RX : forall n w, x (S n) w = a * x n w + b * e n w).
Lemma one_uncorrelated : forall n j, (n <= j < N)%nat -> mean (fun w => x n w * e j w) = 0.
Proof using All.
  destruct HW as (W1 & W2 & W3). induction n as [|n IH]; intros j Hj; [apply W3; lia|].
  pose proof (IH j ltac:(lia)) as I1. pose proof (W2 n j ltac:(lia) ltac:(lia) ltac:(lia)) as I3.
  rewrite (mean_ext mean HM _ (fun w => a * (x n w * e j w) + b * (e n w * e j w) + 0 * (e n w * e j w) + 0 * (e n w * e j w))) by (intros w; rewrite RX; ring).
  rewrite (mean_lin mean HM), I1, I3. ring.
Qed.
Lemma one_moments n X : (n < N)%nat -> mean (fun w => x n w * x n w) = X -> mean (fun w => x (S n) w * x (S n) w) = a * a * X + b * b.
Proof using All.
  intros Hn EX. destruct HW as (W1 & W2 & W3). pose proof (one_uncorrelated n n ltac:(lia)) as U1.
  rewrite (mean_ext mean HM _ (fun w => (a * a) * (x n w * x n w) + (2 * a * b) * (x n w * e n w) + (b * b) * (e n w * e n w) + 0 * (e n w * e n w))) by (intros w; rewrite RX; ring).
  rewrite (mean_lin mean HM), EX, U1, (W1 n Hn). ring.
Qed.
End One.
End Recursion.

(** ** convergence of linear recurrences *)
Section Contract.
Context (tau delta : R) (Hd : 0 <= delta < 1) (Ht : Rabs tau < 1 + delta).
Let Q u v := (1 + delta) * (u * u + v * v) - 2 * tau * (u * v).
Lemma Q_lower u v : (1 + delta - Rabs tau) * (u * u + v * v) <= Q u v.
Proof using Hd Ht.
  unfold Q. assert (A : tau * (2 * (u * v)) <= Rabs tau * (u * u + v * v)).
  { apply Rle_trans with (Rabs tau * Rabs (2 * (u * v))); [rewrite <- Rabs_mult; apply Rle_abs|]. apply Rmult_le_compat_l; [apply Rabs_pos|].
    apply Rabs_le. pose proof (Rle_0_sqr (u - v)). pose proof (Rle_0_sqr (u + v)). unfold Rsqr in *. lra. }
  lra.
Qed.
Lemma Q_upper u v : Q u v <= 4 * (u * u + v * v).
Proof using Hd Ht.
  unfold Q. assert (A : - (tau * (2 * (u * v))) <= Rabs tau * (u * u + v * v)).
  { apply Rle_trans with (Rabs tau * Rabs (2 * (u * v))); [rewrite <- Rabs_mult, <- Rabs_Ropp; apply Rle_abs|]. apply Rmult_le_compat_l; [apply Rabs_pos|].
    apply Rabs_le. pose proof (Rle_0_sqr (u - v)). pose proof (Rle_0_sqr (u + v)). unfold Rsqr in *. lra. }
  pose proof (Rle_0_sqr u). pose proof (Rle_0_sqr v). unfold Rsqr in *.
  assert (Rabs tau * (u * u + v * v) <= 2 * (u * u + v * v)) by (apply Rmult_le_compat_r; lra).
  assert ((1 + delta) * (u * u + v * v) <= 2 * (u * u + v * v)) by (apply Rmult_le_compat_r; lra). lra.
Qed.
Let Dl := (1 + delta) * (1 + delta) - tau * tau.
Lemma Dl_pos : 0 < Dl.
Proof using Hd Ht.
  unfold Dl. replace ((1 + delta) * (1 + delta) - tau * tau) with ((1 + delta - tau) * (1 + delta + tau)) by ring.
  apply Rabs_def2 in Ht. apply Rmult_lt_0_compat; lra.
Qed.
Lemma Q_drop u v : let w := tau * v - delta * u in let w2 := tau * w - delta * v in
  Q w w2 = Q u v - (1 - delta) * ((w - u) * (w - u) + (w2 - v) * (w2 - v)).
Proof using. cbv zeta. unfold Q. ring. Qed.
Lemma Q_bound u v : let w := tau * v - delta * u in let w2 := tau * w - delta * v in
  Dl * Dl * Q u v <= 576 * ((w - u) * (w - u) + (w2 - v) * (w2 - v)).
Proof using Hd Ht.
  cbv zeta. set (w := tau * v - delta * u). set (w2 := tau * w - delta * v).
  assert (Hu : Dl * u = - (1 + delta - tau * tau) * (w - u) - tau * (w2 - v)) by (unfold Dl, w2, w; ring).
  assert (Hv : Dl * v = delta * tau * (w - u) - (1 + delta) * (w2 - v)) by (unfold Dl, w2, w; ring).
  assert (B : forall a b s t, -5 <= a <= 5 -> -2 <= b <= 2 -> (a * s + b * t) * (a * s + b * t) <= 50 * (s * s + t * t)).
  { intros a b s t Ha Hb. assert (a * a <= 25) by nra. assert (b * b <= 4) by nra.
    pose proof (Rle_0_sqr (a * s - b * t)). pose proof (Rle_0_sqr s). pose proof (Rle_0_sqr t). unfold Rsqr in *.
    assert (a * a * (s * s) <= 25 * (s * s)) by (apply Rmult_le_compat_r; lra). assert (b * b * (t * t) <= 4 * (t * t)) by (apply Rmult_le_compat_r; lra). lra. }
  assert (T : -2 < tau < 2) by (apply Rabs_def2 in Ht; lra).
  assert (T2 : 0 <= tau * tau <= 4) by nra.
  pose proof (B (- (1 + delta - tau * tau)) (- tau) (w - u) (w2 - v) ltac:(lra) ltac:(lra)) as B1.
  assert (T3 : -2 <= delta * tau <= 2) by nra.
  pose proof (B (delta * tau) (- (1 + delta)) (w - u) (w2 - v) ltac:(lra) ltac:(lra)) as B2.
  replace (- (1 + delta - tau * tau) * (w - u) + - tau * (w2 - v)) with (Dl * u) in B1 by (rewrite Hu; ring).
  replace (delta * tau * (w - u) + - (1 + delta) * (w2 - v)) with (Dl * v) in B2 by (rewrite Hv; ring).
  assert (QU : Dl * Dl * Q u v <= Dl * Dl * (4 * (u * u + v * v))) by (apply Rmult_le_compat_l; [apply Rle_0_sqr|apply Q_upper]).
  clear Hu Hv. pose proof (Rle_0_sqr (w - u)). pose proof (Rle_0_sqr (w2 - v)). unfold Rsqr in *. lra.
Qed.
Let rho := 1 - (1 - delta) * (Dl * Dl / 576).
Lemma rho_range : 0 <= rho < 1.
Proof using Hd Ht.
  pose proof Dl_pos as P. assert (P2 : 0 < Dl * Dl) by (apply Rmult_lt_0_compat; lra).
  assert (D4 : Dl <= 4) by (unfold Dl; assert (0 <= tau * tau) by apply Rle_0_sqr; nra).
  assert (D16 : Dl * Dl <= 16) by nra. unfold rho. nra.
Qed.
Lemma Q_contracts u v : let w := tau * v - delta * u in let w2 := tau * w - delta * v in Q w w2 <= rho * Q u v.
Proof using Hd Ht.
  pose proof (Q_drop u v) as A. pose proof (Q_bound u v) as B. cbv zeta in *. set (w := tau * v - delta * u) in *. set (w2 := tau * w - delta * v) in *.
  set (F := (w - u) * (w - u) + (w2 - v) * (w2 - v)) in *. rewrite A. unfold rho.
  assert (C : Dl * Dl / 576 * Q u v <= F) by lra.
  assert ((1 - delta) * (Dl * Dl / 576 * Q u v) <= (1 - delta) * F) by (apply Rmult_le_compat_l; lra). lra.
Qed.
Lemma recurrence_cv (u : nat -> R) : (forall n, u (S (S n)) = tau * u (S n) - delta * u n) -> Un_cv u 0.
Proof using Hd Ht.
  intros R. pose proof rho_range as HR. set (q := fun n => Q (u n) (u (S n))). set (C := q 0%nat + q 1%nat).
  assert (Qp : forall n, 0 <= q n).
  { intros n. eapply Rle_trans; [|apply Q_lower]. apply Rmult_le_pos; [lra|]. pose proof (Rle_0_sqr (u n)). pose proof (Rle_0_sqr (u (S n))). unfold Rsqr in *. lra. }
  assert (Q2 : forall n, q (S (S n)) <= rho * q n).
  { intros n. unfold q. rewrite (R (S n)), (R n). apply Q_contracts. }
  assert (Q3 : forall n, q (2 * n)%nat <= rho ^ n * C /\ q (S (2 * n)) <= rho ^ n * C).
  { induction n as [|n [I1 I2]].
    - change (2 * 0)%nat with 0%nat. rewrite pow_O. unfold C. pose proof (Qp 0%nat). pose proof (Qp 1%nat). lra.
    - replace (2 * S n)%nat with (S (S (2 * n))) by lia. rewrite <- tech_pow_Rmult. split; (eapply Rle_trans; [apply Q2|]); rewrite Rmult_assoc; apply Rmult_le_compat_l; lra. }
  intros eps He. set (g := 1 + delta - Rabs tau). assert (G : 0 < g) by (unfold g; lra).
  assert (CP : 0 <= C) by (unfold C; pose proof (Qp 0%nat); pose proof (Qp 1%nat); lra).
  destruct (pow_lt_1_zero rho ltac:(rewrite Rabs_right; lra) (g * (eps * eps) / (C + 1))) as (n0 & H0).
  { apply Rdiv_lt_0_compat; [apply Rmult_lt_0_compat; [exact G|apply Rmult_lt_0_compat; lra]|lra]. }
  exists (2 * n0)%nat. intros n Hn. unfold R_dist. rewrite Rminus_0_r.
  assert (K : exists m, (n0 <= m)%nat /\ q n <= rho ^ m * C).
  { destruct (Nat.Even_or_Odd n) as [[m Hm]|[m Hm]]; exists m; (split; [lia|]); destruct (Q3 m) as [J1 J2].
    - rewrite Hm. exact J1.
    - replace n with (S (2 * m)) by lia. exact J2. }
  destruct K as (m & Hm & K). specialize (H0 m ltac:(lia)).
  assert (P0 : 0 <= rho ^ m) by (apply pow_le; lra). rewrite Rabs_right in H0 by lra.
  assert (L : rho ^ m * (C + 1) < g * (eps * eps)).
  { apply Rmult_lt_compat_r with (r := C + 1) in H0; [|lra]. unfold Rdiv in H0. rewrite Rmult_assoc, Rinv_l, Rmult_1_r in H0 by lra. exact H0. }
  pose proof (Q_lower (u n) (u (S n))) as Lo. fold g in Lo. fold (q n) in Lo.
  assert (S1 : u n * u n < eps * eps).
  { apply Rmult_lt_reg_l with g; [exact G|]. pose proof (Rle_0_sqr (u (S n))) as P1. unfold Rsqr in P1.
    assert (0 <= g * (u (S n) * u (S n))) by (apply Rmult_le_pos; lra). lra. }
  rewrite <- (Rabs_right eps) by lra. apply Rsqr_lt_abs_0. exact S1.
Qed.
End Contract.

(** powers of a matrix [[a, b], [c, e]] *)
Fixpoint mpow (a b c e : R) (n : nat) : R * R * R * R :=
  match n with
  | O => (1, 0, 0, 1)
  | S n' => let '(p, q, r, s) := mpow a b c e n' in (a * p + b * r, a * q + b * s, c * p + e * r, c * q + e * s)
  end.
Lemma mpow_cv a b c e : 0 <= a * e - b * c < 1 -> Rabs (a + e) < 1 + (a * e - b * c) ->
  Un_cv (fun n => let '(p, q, r, s) := mpow a b c e n in p) 0 /\ Un_cv (fun n => let '(p, q, r, s) := mpow a b c e n in q) 0 /\
  Un_cv (fun n => let '(p, q, r, s) := mpow a b c e n in r) 0 /\ Un_cv (fun n => let '(p, q, r, s) := mpow a b c e n in s) 0.
Proof.
  intros Hd Ht. repeat split; apply (recurrence_cv _ _ Hd Ht); intros n; cbn [mpow]; destruct (mpow a b c e n) as [[[p q] r] s]; ring.
Qed.

(** ** harmonic well *)
Section Well.
Context {W : Type} (mean : (W -> R) -> R) (rng : rng_if) (ld : ldpar) (friction mass k : R) (d N : nat)
  (p0 : W -> particle) (g : W -> rng_st rng) (walker : W -> nat -> particle).
Context (HM : is_mean mean) (HS : sized rng) (HK : ld_kind ld = BussiParinello friction) (HW : well (ld_pot ld) d k)
  (Hf : 0 <= friction) (Hk : 0 < k) (Hm : 0 < mass) (Ht : 0 < ld_kt ld) (Hdt : 0 < ld_dt ld) (Hst : k * ld_dt ld ^ 2 < 4 * mass)
  (HP : forall w, set_up ld friction mass (p0 w)) (HF : forall w, follows rng ld (p0 w) (g w) (walker w)).
Let nd := pot_ndim (ld_pot ld).
Let dt := ld_dt ld.
Let c1 := ld_c1 friction dt.
Let c2 := ld_c2 c1 mass (ld_kt ld).
Context (HN : white mean N (fun i w => nth d (draw rng nd i (g w)) 0) (fun w => nth d (p_pos (p0 w)) 0) (fun w => nth d (p_mom (p0 w)) 0)).

Lemma walker_0 w : walker w 0%nat = p0 w.
Proof using HF. destruct (HF w 0%nat) as (g' & E). cbn [ld_steps] in E. congruence. Qed.
Lemma c1_range : 0 < c1 <= 1 /\ (0 < friction -> c1 < 1) /\ c2 * c2 = (1 - c1 * c1) * (mass * ld_kt ld).
Proof using Hf Hdt Hm Ht.
  fold dt in Hdt. assert (A : 0 < c1 <= 1).
  { unfold c1, ld_c1. split; [apply exp_pos|]. assert (0 <= friction * dt) by (apply Rmult_le_pos; lra). destruct (Req_dec (friction * dt) 0) as [Q|Q].
    - replace (- (1 / 2) * friction * dt) with (- (1 / 2) * (friction * dt)) by ring. rewrite Q, Rmult_0_r, exp_0. lra.
    - left. apply Rlt_le_trans with (exp 0); [apply exp_increasing; lra|rewrite exp_0; lra]. }
  split; [exact A|]. split.
  - intros P. unfold c1, ld_c1. assert (0 < friction * dt) by (apply Rmult_lt_0_compat; lra). apply Rlt_le_trans with (exp 0); [apply exp_increasing; lra|rewrite exp_0; lra].
  - unfold c2, ld_c2. rewrite sqrt_sqrt; [ring|]. assert (c1 * c1 <= 1 * 1) by (apply Rmult_le_compat; lra).
    apply Rmult_le_pos; [apply Rmult_le_pos; lra|lra].
Qed.
Let al := 1 - k * dt ^ 2 / (2 * mass).
Let be := dt / mass.
Let ga := k * dt * (1 - k * dt ^ 2 / (4 * mass)).
Lemma well_position n w : nth d (p_pos (walker w (S n))) 0 =
  al * nth d (p_pos (walker w n)) 0 + c1 * be * nth d (p_mom (walker w n)) 0 + c2 * be * nth d (draw rng nd (2 * n) (g w)) 0 + 0 * nth d (draw rng nd (2 * n + 1) (g w)) 0.
Proof using HS HK HW HP HF Hm.
  destruct HW as (B & F & D & A). destruct (bp_recursion rng ld friction mass HS HK B F (p0 w) (g w) (walker w) n (HP w) (HF w)) as [S1 Q].
  destruct (Q d D) as [Q1 _]. fold nd dt in Q1. fold c1 in Q1. fold c2 in Q1. rewrite Q1, A by apply S1. unfold bp_position, al, be. field. lra.
Qed.
Lemma well_momentum n w : nth d (p_mom (walker w (S n))) 0 =
  - c1 * ga * nth d (p_pos (walker w n)) 0 + c1 * c1 * al * nth d (p_mom (walker w n)) 0 + c1 * c2 * al * nth d (draw rng nd (2 * n) (g w)) 0 + c2 * nth d (draw rng nd (2 * n + 1) (g w)) 0.
Proof using HS HK HW HP HF Hm.
  pose proof (well_position n w) as P.
  destruct HW as (B & F & D & A). destruct (bp_recursion rng ld friction mass HS HK B F (p0 w) (g w) (walker w) n (HP w) (HF w)) as [S1 Q].
  destruct (bp_recursion rng ld friction mass HS HK B F (p0 w) (g w) (walker w) (S n) (HP w) (HF w)) as [S2 _].
  destruct (Q d D) as [_ Q1]. fold nd dt in Q1. fold c1 in Q1. fold c2 in Q1. rewrite Q1, !A, P by first [apply S1|apply S2]. unfold bp_momentum, al, be, ga. field. lra.
Qed.
Lemma well_moments n X Y Z : (2 * n + 2 <= N)%nat -> moments mean d (fun w => walker w n) X Y Z ->
  let Y1 := c1 * Y in let Z1 := c1 * c1 * Z + c2 * c2 in
  let X2 := al * al * X + 2 * (al * be) * Y1 + be * be * Z1 in
  let Y2 := - (al * ga) * X + (al * al - be * ga) * Y1 + al * be * Z1 in
  let Z2 := ga * ga * X - 2 * (al * ga) * Y1 + al * al * Z1 in
  moments mean d (fun w => walker w (S n)) X2 (c1 * Y2) (c1 * c1 * Z2 + c2 * c2).
Proof using All.
  intros Hn (EX & EY & EZ). cbv zeta.
  assert (HN' : white mean N (fun i w => nth d (draw rng nd i (g w)) 0) (fun w => nth d (p_pos (walker w 0%nat)) 0) (fun w => nth d (p_mom (walker w 0%nat)) 0)).
  { destruct HN as (N1 & N2 & N3). split; [exact N1|]. split; [exact N2|]. intros i Hi. destruct (N3 i Hi) as [M1 M2].
    split; [etransitivity; [|exact M1]|etransitivity; [|exact M2]]; apply (mean_ext mean HM); intros w; rewrite walker_0; reflexivity. }
  destruct (two_moments mean HM N _ (fun n w => nth d (p_pos (walker w n)) 0) (fun n w => nth d (p_mom (walker w n)) 0) HN'
    al (c1 * be) (c2 * be) (- c1 * ga) (c1 * c1 * al) (c1 * c2 * al) c2 well_position well_momentum n X Y Z Hn EX EY EZ) as (A & B & C).
  split; [rewrite A; ring|]. split; [rewrite B; ring|rewrite C; ring].
Qed.
Lemma stable : 0 < 1 - k * dt ^ 2 / (4 * mass) /\ 0 < be /\ 0 < ga /\ al * al + be * ga = 1.
Proof using Hk Hm Hdt Hst.
  assert (A : 0 < 1 - k * dt ^ 2 / (4 * mass)).
  { unfold dt. assert (k * ld_dt ld ^ 2 / (4 * mass) < 1); [|lra]. apply Rmult_lt_reg_r with (4 * mass); [lra|]. unfold Rdiv. rewrite Rmult_assoc, Rinv_l by lra. lra. }
  split; [exact A|]. split; [apply Rdiv_lt_0_compat; [exact Hdt|exact Hm]|]. split.
  - unfold ga. apply Rmult_lt_0_compat; [apply Rmult_lt_0_compat; [exact Hk|exact Hdt]|exact A].
  - unfold al, be, ga. field. lra.
Qed.
Let XS := mean_square_position k mass (ld_kt ld) dt.
Let ZS := mean_square_momentum mass (ld_kt ld).
Lemma ratio : be * ZS = ga * XS.
Proof using Hk Hm Hdt Hst. destruct stable as (A & _). unfold be, ZS, ga, XS, mean_square_position, mean_square_momentum. field. repeat split; try lra.
  intros Q. apply Rmult_eq_compat_r with (r := / (4 * mass)) in Q. unfold Rdiv in A. field_simplify in A; [|lra]. lra. Qed.

Lemma equilibrium_step n : (2 * n + 2 <= N)%nat -> moments mean d (fun w => walker w n) XS 0 ZS -> moments mean d (fun w => walker w (S n)) XS 0 ZS.
Proof using All.
  intros Hn HE. pose proof (well_moments n XS 0 ZS Hn HE) as M. cbv zeta in M.
  destruct c1_range as (_ & _ & C2). destruct stable as (_ & B0 & G0 & AB). pose proof ratio as R.
  assert (Z1 : c1 * c1 * ZS + c2 * c2 = ZS) by (rewrite C2; unfold ZS, mean_square_momentum; ring). rewrite Z1 in M.
  destruct M as (M1 & M2 & M3). split; [rewrite M1|split; [rewrite M2|rewrite M3]].
  - replace (be * be * ZS) with (be * (be * ZS)) by ring. rewrite R. replace (al * al * XS + 2 * (al * be) * (c1 * 0) + be * (ga * XS)) with ((al * al + be * ga) * XS) by ring. rewrite AB. ring.
  - replace (al * be * ZS) with (al * (be * ZS)) by ring. rewrite R. ring.
  - assert (Q : ga * ga * XS = ga * be * ZS) by (replace (ga * ga * XS) with (ga * (ga * XS)) by ring; rewrite <- R; ring). rewrite Q.
    replace (ga * be * ZS - 2 * (al * ga) * (c1 * 0) + al * al * ZS) with ((al * al + be * ga) * ZS) by ring. rewrite AB, Rmult_1_l. exact Z1.
Qed.
Lemma equilibrium_kept n : (2 * n <= N)%nat -> moments mean d p0 XS 0 ZS -> moments mean d (fun w => walker w n) XS 0 ZS.
Proof using All.
  intros Hn H0. induction n as [|n IH].
  - destruct H0 as (A & B & C). split; [|split]; [etransitivity; [|exact A]|etransitivity; [|exact B]|etransitivity; [|exact C]]; apply (mean_ext mean HM); intros w; rewrite walker_0; reflexivity.
  - apply equilibrium_step; [lia|]. apply IH. lia.
Qed.
Lemma deviation_step n u y z : (2 * n + 2 <= N)%nat -> moments mean d (fun w => walker w n) (XS + u) y (ZS + z) ->
  moments mean d (fun w => walker w (S n)) (XS + (al * al * u + 2 * (al * (c1 * be)) * y + c1 * be * (c1 * be) * z))
    (al * (- c1 * ga) * u + (al * (c1 * c1 * al) + c1 * be * (- c1 * ga)) * y + c1 * be * (c1 * c1 * al) * z)
    (ZS + (- c1 * ga * (- c1 * ga) * u + 2 * (- c1 * ga * (c1 * c1 * al)) * y + c1 * c1 * al * (c1 * c1 * al) * z)).
Proof using All.
  intros Hn HE. pose proof (well_moments n _ _ _ Hn HE) as M. cbv zeta in M.
  destruct c1_range as (_ & _ & C2). destruct stable as (_ & B0 & G0 & AB). pose proof ratio as R.
  assert (Z1 : c1 * c1 * ZS + c2 * c2 = ZS) by (rewrite C2; unfold ZS, mean_square_momentum; ring).
  replace (c1 * c1 * (ZS + z) + c2 * c2) with (ZS + c1 * c1 * z) in M by lra.
  assert (Q1 : XS = al * al * XS + be * be * ZS) by (replace (be * be * ZS) with (be * (be * ZS)) by ring; rewrite R; replace (al * al * XS + be * (ga * XS)) with ((al * al + be * ga) * XS) by ring; rewrite AB; ring).
  assert (Q2 : al * ga * XS = al * be * ZS) by (replace (al * ga * XS) with (al * (ga * XS)) by ring; rewrite <- R; ring).
  assert (Q3 : ga * ga * XS + al * al * ZS = ZS).
  { replace (ga * ga * XS) with (ga * (ga * XS)) by ring. rewrite <- R. replace (ga * (be * ZS) + al * al * ZS) with ((al * al + be * ga) * ZS) by ring. rewrite AB. ring. }
  clearbody c1 c2 al be ga XS ZS.
  destruct M as (M1 & M2 & M3). split; [rewrite M1|split; [rewrite M2|rewrite M3]].
  - clear - Q1. lra.
  - replace (c1 * (- (al * ga) * (XS + u) + (al * al - be * ga) * (c1 * y) + al * be * (ZS + c1 * c1 * z))) with
      (c1 * (al * be * ZS - al * ga * XS) + c1 * (- (al * ga) * u + (al * al - be * ga) * (c1 * y) + al * be * (c1 * c1 * z))) by ring.
    rewrite Q2. ring.
  - replace (c1 * c1 * (ga * ga * (XS + u) - 2 * (al * ga) * (c1 * y) + al * al * (ZS + c1 * c1 * z)) + c2 * c2) with
      (c1 * c1 * (ga * ga * XS + al * al * ZS) + c2 * c2 + c1 * c1 * (ga * ga * u - 2 * (al * ga) * (c1 * y) + al * al * (c1 * c1 * z))) by ring.
    rewrite Q3, Z1. ring.
Qed.
Lemma deviations u y z n : (2 * n <= N)%nat -> moments mean d p0 (XS + u) y (ZS + z) ->
  let '(p, q, r, s) := mpow al (c1 * be) (- c1 * ga) (c1 * c1 * al) n in
  moments mean d (fun w => walker w n) (XS + (p * p * u + 2 * (p * q) * y + q * q * z)) (p * r * u + (p * s + q * r) * y + q * s * z) (ZS + (r * r * u + 2 * (r * s) * y + s * s * z)).
Proof using All.
  intros Hn H0. induction n as [|n IH].
  - cbn [mpow]. destruct H0 as (A & B & C). split; [|split]; [etransitivity; [|etransitivity; [exact A|ring]]|etransitivity; [|etransitivity; [exact B|ring]]|etransitivity; [|etransitivity; [exact C|ring]]]; apply (mean_ext mean HM); intros w; rewrite walker_0; reflexivity.
  - specialize (IH ltac:(lia)). cbn [mpow]. destruct (mpow al (c1 * be) (- c1 * ga) (c1 * c1 * al) n) as [[[p q] r] s].
    pose proof (deviation_step n _ _ _ ltac:(lia) IH) as (A & B & C).
    split; [rewrite A; ring|split; [rewrite B; ring|rewrite C; ring]].
Qed.
Lemma equilibrium_only n X Y Z : 0 < friction -> (2 * n + 2 <= N)%nat -> moments mean d (fun w => walker w n) X Y Z -> moments mean d (fun w => walker w (S n)) X Y Z ->
  X = XS /\ Y = 0 /\ Z = ZS.
Proof using All.
  intros Hfr Hn M0 M1. pose proof (well_moments n X Y Z Hn M0) as M. cbv zeta in M.
  destruct M1 as (A1 & A2 & A3). destruct M as (B1 & B2 & B3). rewrite A1 in B1. rewrite A2 in B2. rewrite A3 in B3. clear A1 A2 A3 M0.
  destruct c1_range as (C0 & C1 & C2). specialize (C1 Hfr). destruct stable as (_ & B0 & G0 & AB). pose proof ratio as R.
  assert (Z1 : c1 * c1 * ZS + c2 * c2 = ZS) by (rewrite C2; unfold ZS, mean_square_momentum; ring).
  clearbody c1 c2 al be ga XS ZS.
  (* deviations *)
  assert (exists u, u = X - XS) as [u Hu] by (eexists; reflexivity). assert (exists z, z = Z - ZS) as [z Hz] by (eexists; reflexivity). assert (exists y, y = Y) as [y Hy] by (eexists; reflexivity).
  assert (D1 : u = al * al * u + 2 * (al * be) * (c1 * y) + be * be * (c1 * c1 * z)).
  { rewrite Hu, Hz, Hy. assert (Q : XS = al * al * XS + be * be * ZS) by (replace (be * be * ZS) with (be * (be * ZS)) by ring; rewrite R; replace (al * al * XS + be * (ga * XS)) with ((al * al + be * ga) * XS) by ring; rewrite AB; ring).
    rewrite B1 at 1. rewrite Q at 1. rewrite <- Z1 at 1. ring. }
  assert (D2 : y = c1 * (- (al * ga) * u + (al * al - be * ga) * (c1 * y) + al * be * (c1 * c1 * z))).
  { rewrite Hu, Hz, Hy. assert (Q : al * ga * XS = al * be * ZS) by (replace (al * ga * XS) with (al * (ga * XS)) by ring; rewrite <- R; ring).
    assert (Q' : al * be * ZS = al * be * (c1 * c1 * ZS + c2 * c2)) by (rewrite Z1; reflexivity).
    assert (Q2 : c1 * (al * ga * XS) = c1 * (al * be * (c1 * c1 * ZS + c2 * c2))) by (rewrite Q, Q'; reflexivity). clear - B2 Q2. lra. }
  assert (D3 : z = c1 * c1 * (ga * ga * u - 2 * (al * ga) * (c1 * y) + al * al * (c1 * c1 * z))).
  { rewrite Hu, Hz, Hy. assert (Q : ga * ga * XS + al * al * ZS = ZS).
    { replace (ga * ga * XS) with (ga * (ga * XS)) by ring. rewrite <- R. replace (ga * (be * ZS) + al * al * ZS) with ((al * al + be * ga) * ZS) by ring. rewrite AB. ring. }
    assert (Q2 : c1 * c1 * (ga * ga * XS + al * al * (c1 * c1 * ZS + c2 * c2)) = c1 * c1 * ZS) by (rewrite Z1, Q; reflexivity).
    clear - B3 Q2 Z1. lra. }
  clear B1 B2 B3 Z1 R C2.
  set (q := c1 * c1) in *. assert (q01 : 0 < q < 1) by (unfold q; split; [apply Rmult_lt_0_compat; lra|]; apply Rle_lt_trans with (c1 * 1); [apply Rmult_le_compat_l; lra|lra]).
  (* the energy: ga u + be z / q = ga u + be q z *)
  set (z2 := ga * ga * u - 2 * (al * ga) * (c1 * y) + al * al * (q * z)) in *.
  assert (E1 : ga * u + be * z2 = ga * u + be * (q * z)).
  { unfold z2. rewrite D1 at 1.
    replace (ga * (al * al * u + 2 * (al * be) * (c1 * y) + be * be * (q * z)) + be * (ga * ga * u - 2 * (al * ga) * (c1 * y) + al * al * (q * z)))
      with (ga * u * (al * al + be * ga) + be * (q * z) * (al * al + be * ga)) by ring. rewrite AB. ring. }
  assert (E2 : z2 = q * z) by (apply Rmult_eq_reg_l with be; lra).
  assert (Z0 : z = 0).
  { rewrite E2 in D3. assert (E3 : z * ((1 - q) * (1 + q)) = 0) by (replace (z * ((1 - q) * (1 + q))) with (z - q * (q * z)) by ring; rewrite <- D3; ring).
    apply Rmult_integral in E3. destruct E3 as [E3|E3]; [exact E3|]. exfalso. assert (0 < (1 - q) * (1 + q)) by (apply Rmult_lt_0_compat; lra). lra. }
  rewrite Z0 in *. rewrite Rmult_0_r in E2. unfold z2 in E2.
  (* al * al + be * ga = 1 *)
  assert (F1 : be * ga * u = 2 * (al * be) * (c1 * y)).
  { assert (u = (al * al + be * ga) * u) by (rewrite AB; ring). lra. }
  assert (F2 : ga * u = 2 * al * (c1 * y)) by (apply Rmult_eq_reg_l with be; lra).
  assert (F3 : y = - q * y).
  { unfold q. replace (- (al * ga) * u) with (- al * (ga * u)) in D2 by ring. rewrite F2 in D2. rewrite D2 at 1. 
    replace (c1 * (- al * (2 * al * (c1 * y)) + (al * al - be * ga) * (c1 * y) + al * be * (q * 0))) with (- (c1 * c1) * (al * al + be * ga) * y) by ring. rewrite AB. ring. }
  assert (Y0 : y = 0).
  { assert (E3 : y * (1 + q) = 0) by lra. apply Rmult_integral in E3. destruct E3 as [E3|E3]; [exact E3|lra]. }
  rewrite Y0 in F2. rewrite !Rmult_0_r in F2.
  assert (U0 : u = 0) by (apply Rmult_integral in F2; destruct F2 as [F2|F2]; [lra|exact F2]).
  lra.
Qed.
End Well.

(** ** convergence *)
Lemma quad_cv (f g : nat -> R) (A B C : R) : Un_cv f 0 -> Un_cv g 0 -> Un_cv (fun n => f n * f n * A + 2 * (f n * g n) * B + g n * g n * C) 0.
Proof.
  intros Hf Hg. assert (E : 0 = 0 * 0 * A + 2 * (0 * 0) * B + 0 * 0 * C) by ring. rewrite E. clear E.
  assert (K : forall a, Un_cv (fun _ => a) a) by (intros a eps He; exists 0%nat; intros; unfold R_dist; rewrite Rminus_diag_eq, Rabs_R0 by reflexivity; exact He).
  apply CV_plus; [apply CV_plus|].
  - apply CV_mult; [apply CV_mult; assumption|apply K].
  - apply CV_mult; [apply CV_mult; [apply K|apply CV_mult; assumption]|apply K].
  - apply CV_mult; [apply CV_mult; assumption|apply K].
Qed.
Lemma cross_cv (p q r s : nat -> R) (A B C : R) : Un_cv p 0 -> Un_cv q 0 -> Un_cv r 0 -> Un_cv s 0 ->
  Un_cv (fun n => p n * r n * A + (p n * s n + q n * r n) * B + q n * s n * C) 0.
Proof.
  intros Hp Hq Hr Hs. assert (E : 0 = 0 * 0 * A + (0 * 0 + 0 * 0) * B + 0 * 0 * C) by ring. rewrite E. clear E.
  assert (K : forall a, Un_cv (fun _ => a) a) by (intros a eps He; exists 0%nat; intros; unfold R_dist; rewrite Rminus_diag_eq, Rabs_R0 by reflexivity; exact He).
  apply CV_plus; [apply CV_plus|].
  - apply CV_mult; [apply CV_mult; assumption|apply K].
  - apply CV_mult; [apply CV_plus; apply CV_mult; assumption|apply K].
  - apply CV_mult; [apply CV_mult; assumption|apply K].
Qed.
Lemma equilibrium_reached ld friction mass k d :
  ld_kind ld = BussiParinello friction -> well (ld_pot ld) d k ->
  0 < friction -> 0 < k -> 0 < mass -> 0 < ld_kt ld -> 0 < ld_dt ld -> k * ld_dt ld ^ 2 < 4 * mass ->
  forall X0 Y0 Z0 eps, 0 < eps -> exists n0, forall W (mean : (W -> R) -> R) rng N p0 g walker,
  is_mean mean -> sized rng -> (forall w, set_up ld friction mass (p0 w)) -> (forall w, follows rng ld (p0 w) (g w) (walker w)) ->
  white mean N (fun i w => nth d (draw rng (pot_ndim (ld_pot ld)) i (g w)) 0) (fun w => nth d (p_pos (p0 w)) 0) (fun w => nth d (p_mom (p0 w)) 0) ->
  moments mean d p0 X0 Y0 Z0 ->
  forall n, (n0 <= n)%nat -> (2 * n <= N)%nat -> exists X Y Z, moments mean d (fun w => walker w n) X Y Z /\
    Rabs (X - mean_square_position k mass (ld_kt ld) (ld_dt ld)) < eps /\ Rabs Y < eps /\ Rabs (Z - mean_square_momentum mass (ld_kt ld)) < eps.
Proof.
  intros HK HW Hf Hk Hm Ht Hdt Hst X0 Y0 Z0 eps He.
  destruct (c1_range ld friction mass (Rlt_le _ _ Hf) Hm Ht Hdt) as (C0 & C1 & _). specialize (C1 Hf).
  destruct (stable ld mass k Hk Hm Hdt Hst) as (_ & B0 & G0 & AB).
  set (c1 := ld_c1 friction (ld_dt ld)) in *. set (al := 1 - k * ld_dt ld ^ 2 / (2 * mass)) in *. set (be := ld_dt ld / mass) in *.
  set (ga := k * ld_dt ld * (1 - k * ld_dt ld ^ 2 / (4 * mass))) in *.
  set (XS := mean_square_position k mass (ld_kt ld) (ld_dt ld)). set (ZS := mean_square_momentum mass (ld_kt ld)).
  assert (q01 : 0 < c1 * c1 < 1) by (split; [apply Rmult_lt_0_compat; lra|]; apply Rle_lt_trans with (c1 * 1); [apply Rmult_le_compat_l; lra|lra]).
  assert (ED : al * (c1 * c1 * al) - c1 * be * (- c1 * ga) = c1 * c1) by (replace (al * (c1 * c1 * al) - c1 * be * (- c1 * ga)) with (c1 * c1 * (al * al + be * ga)) by ring; rewrite AB; ring).
  destruct (mpow_cv al (c1 * be) (- c1 * ga) (c1 * c1 * al)) as (V1 & V2 & V3 & V4).
  { rewrite ED. lra. }
  { rewrite ED. replace (al + c1 * c1 * al) with (al * (1 + c1 * c1)) by ring. rewrite Rabs_mult, (Rabs_right (1 + c1 * c1)) by lra.
    rewrite <- (Rmult_1_l (1 + c1 * c1)) at 2. apply Rmult_lt_compat_r; [lra|].
    rewrite <- Rabs_R1. apply Rsqr_lt_abs_0. unfold Rsqr. assert (0 < be * ga) by (apply Rmult_lt_0_compat; lra). lra. }
  set (u := X0 - XS). set (z := Z0 - ZS).
  destruct (quad_cv _ _ u Y0 z V1 V2 eps He) as (n1 & H1). destruct (cross_cv _ _ _ _ u Y0 z V1 V2 V3 V4 eps He) as (n2 & H2).
  destruct (quad_cv _ _ u Y0 z V3 V4 eps He) as (n3 & H3).
  exists (n1 + n2 + n3)%nat. intros W mean rng N p0 g walker HM HS HP HF HN H0 n Hn HnN.
  assert (H0' : moments mean d p0 (XS + u) Y0 (ZS + z)) by (replace (XS + u) with X0 by (unfold u; ring); replace (ZS + z) with Z0 by (unfold z; ring); exact H0).
  pose proof (deviations mean rng ld friction mass k d N p0 g walker HM HS HK HW (Rlt_le _ _ Hf) Hk Hm Ht Hdt Hst HP HF HN u Y0 z n HnN H0') as P.
  specialize (H1 n ltac:(lia)). specialize (H2 n ltac:(lia)). specialize (H3 n ltac:(lia)). unfold R_dist in H1, H2, H3.
  fold c1 al be ga XS ZS in P.
  destruct (mpow al (c1 * be) (- c1 * ga) (c1 * c1 * al) n) as [[[p q] r] s].
  eexists _, _, _. split; [exact P|]. rewrite Rminus_0_r in H1, H2, H3.
  split; [|split].
  - match goal with |- Rabs (XS + ?a - XS) < _ => replace (XS + a - XS) with a by ring end. exact H1.
  - exact H2.
  - match goal with |- Rabs (ZS + ?a - ZS) < _ => replace (ZS + a - ZS) with a by ring end. exact H3.
Qed.

(** ** overdamped dynamics *)
Section Overdamped.
Context {W : Type} (mean : (W -> R) -> R) (rng : rng_if) (ld : ldpar) (k : R) (d N : nat)
  (p0 : W -> particle) (g : W -> rng_st rng) (walker : W -> nat -> particle).
Context (HM : is_mean mean) (HS : sized rng) (HK : ld_kind ld = Overdamped) (HW : well (ld_pot ld) d k)
  (Hk : 0 < k) (Hdt : 0 < ld_dt ld) (Hst : k * ld_dt ld < 2)
  (HP : forall w, right_size (pot_ndim (ld_pot ld)) (p0 w) /\ consistent (ld_pot ld) (p0 w)) (HF : forall w, follows rng ld (p0 w) (g w) (walker w)).
Let nd := pot_ndim (ld_pot ld).
Let dt := ld_dt ld.
Context (HN : white mean N (fun i w => nth d (draw rng nd i (g w)) 0) (fun w => nth d (p_pos (p0 w)) 0) (fun w => nth d (p_mom (p0 w)) 0)).
Let XS := mean_square_overdamped k dt.
Lemma overdamped_square n X0 : (n <= N)%nat ->
  mean (fun w => nth d (p_pos (p0 w)) 0 * nth d (p_pos (p0 w)) 0) = X0 ->
  mean (fun w => nth d (p_pos (walker w n)) 0 * nth d (p_pos (walker w n)) 0) = XS + (1 - k * dt) ^ (2 * n) * (X0 - XS).
Proof using All.
  intros Hn E0.
  assert (W0 : forall w, walker w 0%nat = p0 w) by (intros w; destruct (HF w 0%nat) as (g' & E); cbn [ld_steps] in E; congruence).
  assert (HN' : white mean N (fun i w => nth d (draw rng nd i (g w)) 0) (fun w => nth d (p_pos (walker w 0%nat)) 0) (fun w => nth d (p_mom (walker w 0%nat)) 0)).
  { destruct HN as (N1 & N2 & N3). split; [exact N1|]. split; [exact N2|]. intros i Hi. destruct (N3 i Hi) as [M1 M2].
    split; [etransitivity; [|exact M1]|etransitivity; [|exact M2]]; apply (mean_ext mean HM); intros w; rewrite W0; reflexivity. }
  assert (RX : forall n w, nth d (p_pos (walker w (S n))) 0 = (1 - k * dt) * nth d (p_pos (walker w n)) 0 + sqrt (2 * dt) * nth d (draw rng nd n (g w)) 0).
  { intros m w. destruct HW as (B & F & D & A). destruct (od_recursion rng ld HS HK B F (p0 w) (g w) (walker w) m (HP w) (HF w)) as [S1 Q].
    fold nd dt in Q. rewrite (Q d D), A by apply S1. ring. }
  induction n as [|n IH].
  - change (2 * 0)%nat with 0%nat. rewrite pow_O. etransitivity; [|etransitivity; [exact E0|ring]]. apply (mean_ext mean HM). intros w. rewrite W0. reflexivity.
  - rewrite (one_moments mean HM N _ (fun n w => nth d (p_pos (walker w n)) 0) (fun n w => nth d (p_mom (walker w n)) 0) HN' (1 - k * dt) (sqrt (2 * dt)) RX n _ ltac:(lia) (IH ltac:(lia))).
    fold dt in Hdt, Hst. rewrite sqrt_sqrt by lra. replace (2 * S n)%nat with (S (S (2 * n))) by lia. rewrite <- !tech_pow_Rmult.
    assert (Q : (1 - k * dt) * (1 - k * dt) * XS + 2 * dt = XS).
    { unfold XS, mean_square_overdamped. field. lra. }
    lra.
Qed.
End Overdamped.

Lemma walkers_exist rng ld friction mass p g : sized rng -> ld_kind ld = BussiParinello friction -> pot_bc (ld_pot ld) = None -> force_size (ld_pot ld) ->
  set_up ld friction mass p -> exists walker, follows rng ld p g walker.
Proof.
  intros HS HK HB HF HP.
  exists (fun n => match ld_steps rng ld n [p] g with Ok ([q], _) => q | _ => p end). intros n.
  destruct (bp_walk rng ld friction mass HS HK HB HF p g HP n) as (q & E & _). rewrite E. eexists. reflexivity.
Qed.
Lemma overdamped_exist rng ld p g : sized rng -> ld_kind ld = Overdamped -> pot_bc (ld_pot ld) = None -> force_size (ld_pot ld) ->
  right_size (pot_ndim (ld_pot ld)) p -> consistent (ld_pot ld) p -> exists walker, follows rng ld p g walker.
Proof.
  intros HS HK HB HF HP HC.
  exists (fun n => match ld_steps rng ld n [p] g with Ok ([q], _) => q | _ => p end). intros n.
  destruct (od_walk rng ld HS HK HB HF p g (conj HP HC) n) as (q & E & _). rewrite E. eexists. reflexivity.
Qed.

(** ** the example *)
Lemma coins_ok n : is_mean (coins n).
Proof.
  split; [|split; [|split]].
  - induction n as [|n IH]; intros f g H; cbn [coins]; [apply H|]. rewrite (IH _ _ (fun w => H (1 :: w))), (IH _ _ (fun w => H (-1 :: w))). reflexivity.
  - induction n as [|n IH]; intros a f g; cbn [coins]; [reflexivity|]. rewrite !IH. lra.
  - induction n as [|n IH]; intros f H; cbn [coins]; [apply H|]. pose proof (IH _ (fun w => H (1 :: w))). pose proof (IH _ (fun w => H (-1 :: w))). lra.
  - induction n as [|n IH]; cbn [coins]; [reflexivity|]. rewrite IH. lra.
Qed.
Lemma coins_scale n a f : coins n (fun w => a * f w) = a * coins n f.
Proof.
  pose proof (coins_ok n) as H. rewrite <- (Rplus_0_r (a * coins n f)), <- (mean_zero (coins n) H). destruct H as (E & L & _). rewrite <- L. apply E. intros w. ring.
Qed.
Lemma coins_pair n : forall i j, (i < n)%nat -> (j < n)%nat -> coins n (fun w => nth i w 0 * nth j w 0) = if Nat.eqb i j then 1 else 0.
Proof.
  assert (Z : forall n i, (i < n)%nat -> coins n (fun w => nth i w 0) = 0).
  { clear n. induction n as [|n IH]; intros i Hi; [lia|]. cbn [coins]. destruct i as [|i]; cbn [nth].
    - assert (K : forall a, coins n (fun _ => a) = a).
      { intros a. destruct (coins_ok n) as (E & _ & _ & O). rewrite (E _ (fun _ => a * 1)) by (intros; ring). rewrite coins_scale, O. ring. }
      rewrite !K. lra.
    - rewrite !IH by lia. lra. }
  induction n as [|n IH]; intros i j Hi Hj; [lia|]. cbn [coins].
  destruct (coins_ok n) as (E & _ & _ & O).
  destruct i as [|i], j as [|j]; cbn [nth Nat.eqb].
  - rewrite (E (fun _ => 1 * 1) (fun _ => 1)) by (intros; ring). rewrite (E (fun _ => -1 * -1) (fun _ => 1)) by (intros; ring). rewrite O. lra.
  - rewrite !coins_scale, Z by lia. lra.
  - rewrite (E (fun w => nth i w 0 * 1) (fun w => 1 * nth i w 0)) by (intros; ring). rewrite (E (fun w => nth i w 0 * -1) (fun w => -1 * nth i w 0)) by (intros; ring). rewrite !coins_scale, Z by lia. lra.
  - rewrite IH by lia. destruct (Nat.eqb i j); lra.
Qed.
Lemma coin_sized : sized coin_rng.
Proof. intros n g. cbn. apply repeat_length. Qed.
Lemma coin_draw i w : nth 0 (draw coin_rng 2 i (coin_state w)) 0 = nth (S (S i)) w 0.
Proof.
  unfold draw, coin_state. assert (A : forall i (l : list R), hd 0 (after_draws coin_rng 2 i l) = nth i l 0).
  { induction i0 as [|i0 IH]; intros l; [destruct l; reflexivity|]. cbn [after_draws]. etransitivity; [apply IH|]. destruct l; [destruct i0; reflexivity|reflexivity]. }
  cbn. rewrite A. destruct w as [|a [|b w]]; cbn; [destruct i; reflexivity|destruct i; reflexivity|reflexivity].
Qed.
Lemma coin_white N c2 sx sp ld : white (coins (S (S N))) N (fun i w => nth 0 (draw coin_rng 2 i (coin_state w)) 0)
  (fun w => nth 0 (p_pos (coin_start ld c2 sx sp w)) 0) (fun w => nth 0 (p_mom (coin_start ld c2 sx sp w)) 0).
Proof.
  assert (E : forall f g, (forall w, f w = g w) -> coins (S (S N)) f = coins (S (S N)) g) by apply coins_ok.
  split; [|split].
  - intros i Hi. rewrite (E _ (fun w => nth (S (S i)) w 0 * nth (S (S i)) w 0)) by (intros w; rewrite coin_draw; reflexivity).
    rewrite coins_pair, Nat.eqb_refl by lia. reflexivity.
  - intros i j Hi Hj Q. rewrite (E _ (fun w => nth (S (S i)) w 0 * nth (S (S j)) w 0)) by (intros w; rewrite !coin_draw; reflexivity).
    rewrite coins_pair by lia. destruct (Nat.eqb_spec (S (S i)) (S (S j))); [lia|reflexivity].
  - intros i Hi. split.
    + rewrite (E _ (fun w => sx * (nth 0 w 0 * nth (S (S i)) w 0))) by (intros w; rewrite coin_draw; cbn; ring).
      rewrite coins_scale, coins_pair by lia. cbn [Nat.eqb]. ring.
    + rewrite (E _ (fun w => sp * (nth 1 w 0 * nth (S (S i)) w 0))) by (intros w; rewrite coin_draw; cbn; ring).
      rewrite coins_scale, coins_pair by lia. cbn [Nat.eqb]. ring.
Qed.
Lemma coin_moments N ld c2 X Z : 0 <= X -> 0 <= Z -> moments (coins (S (S N))) 0 (coin_start ld c2 (sqrt X) (sqrt Z)) X 0 Z.
Proof.
  intros HX HZ. pose proof (sqrt_sqrt X HX) as A. pose proof (sqrt_sqrt Z HZ) as B.
  assert (E : forall f g, (forall w, f w = g w) -> coins (S (S N)) f = coins (S (S N)) g) by apply coins_ok.
  split; [|split].
  - rewrite (E _ (fun w => X * (nth 0 w 0 * nth 0 w 0))) by (intros w; cbn -[sqrt]; rewrite <- A at 3; ring). rewrite coins_scale, coins_pair by lia. cbn [Nat.eqb]. ring.
  - rewrite (E _ (fun w => sqrt X * sqrt Z * (nth 0 w 0 * nth 1 w 0))) by (intros w; cbn -[sqrt]; ring). rewrite coins_scale, coins_pair by lia. cbn [Nat.eqb]. ring.
  - rewrite (E _ (fun w => Z * (nth 1 w 0 * nth 1 w 0))) by (intros w; cbn -[sqrt]; rewrite <- B at 3; ring). rewrite coins_scale, coins_pair by lia. cbn [Nat.eqb]. ring.
Qed.
Lemma coin_well : well (demo_pot None) 0 2.
Proof.
  split; [reflexivity|]. split; [intros x H; cbn; rewrite map_length; exact H|]. split; [cbn; lia|].
  intros x H. destruct x as [|x0 x]; [discriminate|]. cbn. lra.
Qed.
Lemma coin_set_up sx sp w : set_up (demo_ld (BussiParinello 1) None) 1 1 (coin_start (demo_ld (BussiParinello 1) None) (ld_c2 (ld_c1 1 (1/10)) 1 1) sx sp w).
Proof. split; [split; [reflexivity|split; reflexivity]|]. split; [split; reflexivity|]. split; reflexivity. Qed.

(** ** the polynomial a + k/2 x^2 *)
Lemma polynomial_well a k rs pot : poly_init (mkArr [3%nat] [a; 0; k / 2]) rs None = Ok pot -> well pot 0 k.
Proof.
  intros H. unfold poly_init in H. cbn in H. apply (f_equal (fun r => match r with Ok p => p | Err _ => pot end)) in H. cbn in H. subst pot.
  split; [reflexivity|]. split; [intros x Hx; unfold poly_force; cbn [pot_ndim pot_force]; rewrite map_length, seq_length; reflexivity|].
  split; [cbn; lia|]. intros x Hx. destruct x as [|x0 [|y x]]; try discriminate. cbn. lra.
Qed.
