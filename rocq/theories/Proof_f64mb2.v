(** Mueller-Brown potential in float64: energy and forces *)
From Verif Require Import Model_f64mb Spec_f64mb Proof_f64 Proof_f64b Proof_f64k Proof_f64l Proof_f64m Proof_f64mb.
From Flocq Require Import Core.Core.
From Coquelicot Require Import Coquelicot.
From Coq Require Import Lra Lia.
Open Scope R_scope.
Ltac Zify.zify_post_hook ::= idtac.

Ltac small := pose proof huge_big; pose proof eta_tiny; unfold U in *; lra.
Lemma four_near B1 B2 B3 B4 e1 e2 e3 e4 t1 t2 t3 t4 x1 x2 x3 x4 S :
  near B1 e1 t1 x1 -> near B2 e2 t2 x2 -> near B3 e3 t3 x3 -> near B4 e4 t4 x4 -> 0 <= B1 -> 0 <= B2 -> 0 <= B3 -> 0 <= B4 -> 0 <= e1 -> 0 <= e2 -> 0 <= e3 -> 0 <= e4 ->
  S = B1 + e1 + (B2 + e2) + (B3 + e3) + (B4 + e4) -> S <= 2 ^ 200 ->
  near (B1 + B2 + B3 + B4) (e1 + e2 + e3 + e4 + 8 * (U * S + ETA)) (fadd (fadd (fadd (fadd fzero t1) t2) t3) t4) (x1 + x2 + x3 + x4).
Proof.
  intros N1 N2 N3 N4 P1 P2 P3 P4 Q1 Q2 Q3 Q4 ES HS.
  assert (N0 : near 0 0 fzero 0) by (apply near_exact; [reflexivity|reflexivity|rewrite Rabs_R0; lra]).
  assert (M1 : near B1 (e1 + 2 * (U * S + ETA)) (fadd fzero t1) x1).
  { replace x1 with (0 + x1) by ring. eapply near_weak; [apply (near_add _ _ _ _ _ _ _ _ N0 N1); small|lra|small]. }
  assert (M2 : near (B1 + B2) (e1 + e2 + 4 * (U * S + ETA)) (fadd (fadd fzero t1) t2) (x1 + x2)) by (eapply near_weak; [apply (near_add _ _ _ _ _ _ _ _ M1 N2); small|lra|small]).
  assert (M3 : near (B1 + B2 + B3) (e1 + e2 + e3 + 6 * (U * S + ETA)) (fadd (fadd (fadd fzero t1) t2) t3) (x1 + x2 + x3)) by (eapply near_weak; [apply (near_add _ _ _ _ _ _ _ _ M2 N3); small|lra|small]).
  eapply near_weak; [apply (near_add _ _ _ _ _ _ _ _ M3 N4); small|lra|small].
Qed.

(** the constants *)
Lemma near_Z z B : (Z.abs z <= 2 ^ 53)%Z -> Rabs (IZR z) <= B -> near B 0 (f_of_Z z) (IZR z).
Proof. intros H HB. destruct (of_Z_small z H) as [F V]. now apply near_exact. Qed.
Lemma near_half m B : (Z.abs m < 2 ^ 53)%Z -> Rabs (IZR m / 2) <= B -> near B 0 (fmake m (-1)) (IZR m / 2).
Proof. intros H HB. destruct (fmake_val m (-1) H) as [F V]; [lia|]. apply near_exact; [exact F|rewrite V; reflexivity|exact HB]. Qed.
Lemma near_53 m v B : (Z.abs m < 2 ^ 53)%Z -> Rabs (IZR m * / 2 ^ 53 - v) <= U -> Rabs v <= B -> near B U (fmake m (-53)) v.
Proof. intros H E HB. destruct (fmake_val m (-53) H) as [F V]; [lia|]. split; [exact F|]. split; [|exact HB]. rewrite V. change (-53)%Z with (- Z.of_nat 53)%Z. rewrite bpow_neg. exact E. Qed.
Lemma near_U B f v : near B 0 f v -> near B U f v.
Proof. intros N. eapply near_weak; [exact N|lra|unfold U; lra]. Qed.
Ltac rabs := unfold Rabs; destruct (Rcase_abs _); lra.
Lemma n07 : near 10 U f07 (7/10). Proof. apply near_53; [lia|unfold U; rabs|rabs]. Qed.
Lemma n06 : near 11 U f06 (6/10). Proof. apply near_53; [lia|unfold U; rabs|rabs]. Qed.
Lemma n0 B : 0 <= B -> near B 0 fzero 0. Proof. intros H. apply near_exact; [reflexivity|reflexivity|rewrite Rabs_R0; lra]. Qed.
Lemma nshift : near 31 (16 * U) fmb_shift 30.33319242243656.
Proof.
  destruct (fmake_val 8538034630665178 (-48)) as [F V]; [lia|lia|]. split; [exact F|]. unfold fmb_shift. rewrite V. change (-48)%Z with (- Z.of_nat 48)%Z. rewrite bpow_neg.
  split; [unfold U; apply Rabs_le; split; lra|rabs].
Qed.

Definition ex (a b c x0 y0 x y : R) : R := a * (x - x0) ^ 2 + b * (x - x0) * (y - y0) + c * (y - y0) ^ 2.
Lemma exp_small t : t <= 9 -> exp t <= 32768.
Proof.
  intros H. apply Rle_trans with (exp 9); [destruct H as [H | ->]; [left; now apply exp_increasing|lra]|].
  replace 9 with (1 + 1 + 1 + 1 + 1 + 1 + 1 + 1 + 1) by ring. rewrite !exp_plus. pose proof exp_le_3 as L. pose proof (exp_pos 1) as P. set (e := exp 1) in *. clearbody e.
  assert (M : forall p n, 0 <= p <= n -> 0 <= p * e <= n * 3) by (intros p n [H1 H2]; split; [apply Rmult_le_pos; lra|apply Rmult_le_compat; lra]).
  pose proof (M _ _ (M _ _ (M _ _ (M _ _ (M _ _ (M _ _ (M _ _ (M _ _ (conj (Rlt_le _ _ P) L))))))))) as [_ X]. lra.
Qed.

Lemma sum_energy W1 W2 W3 W4 t1 t2 t3 t4 x1 x2 x3 x4 : 
  near W1 (kap2 * W1 + ETA) t1 x1 -> near W2 (kap2 * W2 + ETA) t2 x2 -> near W3 (kap2 * W3 + ETA) t3 x3 -> near W4 (kap2 * W4 + ETA) t4 x4 ->
  0 <= W1 <= 2 ^ 100 * 32768 -> 0 <= W2 <= 2 ^ 100 * 32768 -> 0 <= W3 <= 2 ^ 100 * 32768 -> 0 <= W4 <= 2 ^ 100 * 32768 ->
  let e := fadd (fadd (fadd (fadd (fadd fzero t1) t2) t3) t4) fmb_shift in
  finite e /\ Rabs (val e - (x1 + x2 + x3 + x4 + 30.33319242243656)) <= / 2 ^ 40 * (W1 + W2 + W3 + W4 + 1) /\ Rabs (val e) <= 2 * (W1 + W2 + W3 + W4) + 40.
Proof.
  intros E1 E2 E3 E4 S1 S2 S3 S4. pose proof eta_tiny as HE. pose proof huge_big as HH.
  assert (G : near (W1 + W2 + W3 + W4) (103 / 100 / 2 ^ 41 * (W1 + W2 + W3 + W4) + 20 * ETA) (fadd (fadd (fadd (fadd fzero t1) t2) t3) t4) (x1 + x2 + x3 + x4)).
  { eapply near_weak; [eapply (four_near _ _ _ _ _ _ _ _ _ _ _ _ _ _ _ _ _ E1 E2 E3 E4); try reflexivity; unfold kap2; lra|lra|unfold kap2, U; lra]. }
  pose proof (near_add _ _ _ _ _ _ _ _ G nshift) as M. assert (N := M ltac:(unfold U; lra)). clear M G.
  pose proof (near_val _ _ _ _ N) as NV. destruct N as (FF & EE & _). split; [exact FF|]. split.
  - eapply Rle_trans; [exact EE|]. unfold U. lra.
  - eapply Rle_trans; [exact NV|]. unfold U. lra.
Qed.
Lemma sum_force W1 W2 W3 W4 t1 t2 t3 t4 x1 x2 x3 x4 : let k := 80 / 2 ^ 41 in let m := 2 ^ 17 * ETA in
  near (78 * W1) (k * W1 + m) t1 x1 -> near (78 * W2) (k * W2 + m) t2 x2 -> near (78 * W3) (k * W3 + m) t3 x3 -> near (78 * W4) (k * W4 + m) t4 x4 ->
  0 <= W1 <= 2 ^ 100 * 32768 -> 0 <= W2 <= 2 ^ 100 * 32768 -> 0 <= W3 <= 2 ^ 100 * 32768 -> 0 <= W4 <= 2 ^ 100 * 32768 ->
  let e := fadd (fadd (fadd (fadd fzero t1) t2) t3) t4 in
  finite e /\ Rabs (val e - (x1 + x2 + x3 + x4)) <= / 2 ^ 34 * (W1 + W2 + W3 + W4) + bpow radix2 (-1000) /\ Rabs (val e) <= 80 * (W1 + W2 + W3 + W4) + 1.
Proof.
  intros k m E1 E2 E3 E4 S1 S2 S3 S4. pose proof eta_tiny as HE. pose proof huge_big as HH.
  assert (T : 2 ^ 20 * ETA <= bpow radix2 (-1000)).
  { replace (2 ^ 20) with (bpow radix2 20) by (rewrite <- (IZR_Zpower radix2 20) by lia; rewrite pow_IZR; reflexivity). unfold ETA. rewrite <- bpow_plus. apply bpow_le. lia. }
  assert (G : near (78 * (W1 + W2 + W3 + W4)) (100 / 2 ^ 41 * (W1 + W2 + W3 + W4) + 2 ^ 20 * ETA) (fadd (fadd (fadd (fadd fzero t1) t2) t3) t4) (x1 + x2 + x3 + x4)).
  { eapply near_weak; [eapply (four_near _ _ _ _ _ _ _ _ _ _ _ _ _ _ _ _ _ E1 E2 E3 E4); try reflexivity; unfold k, m; lra|lra|unfold k, m, U; lra]. }
  pose proof (near_val _ _ _ _ G) as NV. destruct G as (FF & EE & _). split; [exact FF|]. split.
  - eapply Rle_trans; [exact EE|]. lra.
  - eapply Rle_trans; [exact NV|]. lra.
Qed.

Section Box.
Context (fexp fsq : f64 -> f64) (OKe : exp_both_ok fexp) (OKs : square_ok fsq) (x y : f64).
Context (Fx : finite x) (Fy : finite y) (Hx : -3/2 <= val x <= 3/2) (Hy : -1/2 <= val y <= 5/2).
Context (A1 A2 A3 A4 : f64) (B1 : bounded (bpow radix2 100) A1) (B2 : bounded (bpow radix2 100) A2) (B3 : bounded (bpow radix2 100) A3) (B4 : bounded (bpow radix2 100) A4).
Let X := val x. Let Y := val y.

Lemma t1 : mb_term1 X Y = exp (ex (-1) 0 (-10) 1 0 X Y). Proof. unfold mb_term1, ex. f_equal. ring. Qed.
Lemma t2 : mb_term2 X Y = exp (ex (-1) 0 (-10) 0 (1/2) X Y). Proof. unfold mb_term2, ex. f_equal. ring. Qed.
Lemma t3 : mb_term3 X Y = exp (ex (-13/2) 11 (-13/2) (-1/2) (3/2) X Y). Proof. unfold mb_term3, ex. f_equal. field. Qed.
Lemma t4 : mb_term4 X Y = exp (ex (7/10) (6/10) (7/10) (-1) 1 X Y). Proof. unfold mb_term4, ex. f_equal. field. Qed.
Lemma w1 : 0 < mb_term1 X Y <= 32768. Proof using Hx Hy. split; [apply exp_pos|]. apply exp_small. fold X in Hx. fold Y in Hy. pose proof (pow2_ge_0 (X - 1)). pose proof (pow2_ge_0 Y). lra. Qed.
Lemma w2 : 0 < mb_term2 X Y <= 32768. Proof using Hx Hy. split; [apply exp_pos|]. apply exp_small. pose proof (pow2_ge_0 X). pose proof (pow2_ge_0 (Y - 1/2)). lra. Qed.
Lemma w3 : 0 < mb_term3 X Y <= 32768.
Proof using Hx Hy. split; [apply exp_pos|]. apply exp_small. set (u := X + 1/2). set (v := Y - 3/2). pose proof (pow2_ge_0 (u - v)). pose proof (pow2_ge_0 u). pose proof (pow2_ge_0 v). nra. Qed.
Lemma w4 : 0 < mb_term4 X Y <= 32768.
Proof using Hx Hy.
  split; [apply exp_pos|]. apply exp_small. fold X in Hx. fold Y in Hy. assert (-1/2 <= X + 1 <= 5/2) by lra. assert (-3/2 <= Y - 1 <= 3/2) by lra. set (u := X + 1) in *. set (v := Y - 1) in *.
  assert (u ^ 2 <= 25/4) by nra. assert (v ^ 2 <= 9/4) by nra. assert (u * v <= 15/4) by nra. nra.
Qed.

Definition Wt (A : f64) (w : R) : R := Rabs (val A) * w.
Ltac const := first [exact n07|exact n06|apply near_U, n0; lra|apply n0; lra|apply near_U, near_Z; [lia|rabs]|apply near_Z; [lia|rabs]|apply near_U, near_half; [lia|rabs]|apply near_half; [lia|rabs]].
Ltac term fa fb fc fx0 fy0 a b c x0 y0 B Hw :=
  destruct B as [FA HA];
  assert (Na : near 10 U fa a) by const; assert (Nb : near 11 U fb b) by const; assert (Nc : near 10 U fc c) by const;
  assert (Nx0 : near 2 0 fx0 x0) by const; assert (Ny0 : near 2 0 fy0 y0) by const;
  assert (Hdx : Rabs (X - x0) <= 5/2) by (unfold X; apply Rabs_le; lra);
  assert (Hdy : Rabs (Y - y0) <= 5/2) by (unfold Y; apply Rabs_le; lra);
  pose proof (diff_near x _ _ Fx Nx0 Hdx) as Dx; pose proof (diff_near y _ _ Fy Ny0 Hdy) as Dy;
  destruct (slope_near _ _ _ _ _ _ _ _ Dx Dy Na Nb) as [G1 _]; destruct (slope_near _ _ _ _ _ _ _ _ Dy Dx Nc Nb) as [_ G2];
  pose proof (energy_term fexp fsq OKe OKs _ _ _ _ _ x y _ _ _ _ _ Na Nb Nc Nx0 Ny0 Fx Fy Hdx Hdy _ FA HA Hw) as R1;
  pose proof (force_term fexp fsq OKe OKs _ _ _ _ _ x y _ _ _ _ _ Na Nb Nc Nx0 Ny0 Fx Fy Hdx Hdy _ FA HA Hw _ _ G1) as R2;
  pose proof (force_term fexp fsq OKe OKs _ _ _ _ _ x y _ _ _ _ _ Na Nb Nc Nx0 Ny0 Fx Fy Hdx Hdy _ FA HA Hw _ _ G2) as R3;
  split; [exact R1|split; [exact R2|exact R3]].
Lemma e1 : near (Wt A1 (mb_term1 X Y)) (kap2 * Wt A1 (mb_term1 X Y) + ETA) (fmul A1 (f_mb_exp fexp fsq 0 x y)) (val A1 * mb_term1 X Y) /\
  near (78 * Wt A1 (mb_term1 X Y)) (80 / 2 ^ 41 * Wt A1 (mb_term1 X Y) + 2 ^ 17 * ETA) (f_mb_fx fexp fsq [A1; A2; A3; A4] 0 x y) (- val A1 * (2 * (-1) * (X - 1) + 0 * (Y - 0)) * mb_term1 X Y) /\
  near (78 * Wt A1 (mb_term1 X Y)) (80 / 2 ^ 41 * Wt A1 (mb_term1 X Y) + 2 ^ 17 * ETA) (f_mb_fy fexp fsq [A1; A2; A3; A4] 0 x y) (- val A1 * (0 * (X - 1) + 2 * (-10) * (Y - 0)) * mb_term1 X Y).
Proof using All.
  destruct w1 as [_ Hw]. rewrite t1 in *. term (f_of_Z (-1)) fzero (f_of_Z (-10)) (f_of_Z 1) fzero (-1) 0 (-10) 1 0 B1 Hw.
Qed.
Lemma e2 : near (Wt A2 (mb_term2 X Y)) (kap2 * Wt A2 (mb_term2 X Y) + ETA) (fmul A2 (f_mb_exp fexp fsq 1 x y)) (val A2 * mb_term2 X Y) /\
  near (78 * Wt A2 (mb_term2 X Y)) (80 / 2 ^ 41 * Wt A2 (mb_term2 X Y) + 2 ^ 17 * ETA) (f_mb_fx fexp fsq [A1; A2; A3; A4] 1 x y) (- val A2 * (2 * (-1) * (X - 0) + 0 * (Y - (1/2))) * mb_term2 X Y) /\
  near (78 * Wt A2 (mb_term2 X Y)) (80 / 2 ^ 41 * Wt A2 (mb_term2 X Y) + 2 ^ 17 * ETA) (f_mb_fy fexp fsq [A1; A2; A3; A4] 1 x y) (- val A2 * (0 * (X - 0) + 2 * (-10) * (Y - (1/2))) * mb_term2 X Y).
Proof using All.
  destruct w2 as [_ Hw]. rewrite t2 in *. term (f_of_Z (-1)) fzero (f_of_Z (-10)) fzero (fmake 1 (-1)) (-1) 0 (-10) 0 (1/2) B2 Hw.
Qed.
Lemma e3 : near (Wt A3 (mb_term3 X Y)) (kap2 * Wt A3 (mb_term3 X Y) + ETA) (fmul A3 (f_mb_exp fexp fsq 2 x y)) (val A3 * mb_term3 X Y) /\
  near (78 * Wt A3 (mb_term3 X Y)) (80 / 2 ^ 41 * Wt A3 (mb_term3 X Y) + 2 ^ 17 * ETA) (f_mb_fx fexp fsq [A1; A2; A3; A4] 2 x y) (- val A3 * (2 * (-13/2) * (X - (-1/2)) + 11 * (Y - (3/2))) * mb_term3 X Y) /\
  near (78 * Wt A3 (mb_term3 X Y)) (80 / 2 ^ 41 * Wt A3 (mb_term3 X Y) + 2 ^ 17 * ETA) (f_mb_fy fexp fsq [A1; A2; A3; A4] 2 x y) (- val A3 * (11 * (X - (-1/2)) + 2 * (-13/2) * (Y - (3/2))) * mb_term3 X Y).
Proof using All.
  destruct w3 as [_ Hw]. rewrite t3 in *. term (fmake (-13) (-1)) (f_of_Z 11) (fmake (-13) (-1)) (fmake (-1) (-1)) (fmake 3 (-1)) (-13/2) 11 (-13/2) (-1/2) (3/2) B3 Hw.
Qed.
Lemma e4 : near (Wt A4 (mb_term4 X Y)) (kap2 * Wt A4 (mb_term4 X Y) + ETA) (fmul A4 (f_mb_exp fexp fsq 3 x y)) (val A4 * mb_term4 X Y) /\
  near (78 * Wt A4 (mb_term4 X Y)) (80 / 2 ^ 41 * Wt A4 (mb_term4 X Y) + 2 ^ 17 * ETA) (f_mb_fx fexp fsq [A1; A2; A3; A4] 3 x y) (- val A4 * (2 * (7/10) * (X - (-1)) + (6/10) * (Y - 1)) * mb_term4 X Y) /\
  near (78 * Wt A4 (mb_term4 X Y)) (80 / 2 ^ 41 * Wt A4 (mb_term4 X Y) + 2 ^ 17 * ETA) (f_mb_fy fexp fsq [A1; A2; A3; A4] 3 x y) (- val A4 * ((6/10) * (X - (-1)) + 2 * (7/10) * (Y - 1)) * mb_term4 X Y).
Proof using All.
  destruct w4 as [_ Hw]. rewrite t4 in *. term f07 f06 f07 (f_of_Z (-1)) (f_of_Z 1) (7/10) (6/10) (7/10) (-1) 1 B4 Hw.
Qed.

Let W := mb_sum (Rabs (val A1)) (Rabs (val A2)) (Rabs (val A3)) (Rabs (val A4)) X Y.
Lemma Wt_small A w : bounded (bpow radix2 100) A -> 0 < w <= 32768 -> 0 <= Wt A w <= 2 ^ 100 * 32768.
Proof. intros [_ H] Hw. rewrite p100 in H. unfold Wt. pose proof (Rabs_pos (val A)). split; [apply Rmult_le_pos; lra|apply Rmult_le_compat; lra]. Qed.
Lemma W_pos : 0 <= W <= 2 ^ 102 * 32768.
Proof using Hx Hy B1 B2 B3 B4.
  pose proof (Wt_small _ _ B1 w1). pose proof (Wt_small _ _ B2 w2). pose proof (Wt_small _ _ B3 w3). pose proof (Wt_small _ _ B4 w4). unfold W, mb_sum. unfold Wt in *. lra.
Qed.

Lemma energy_all : let e := f_mb_energy fexp fsq [A1; A2; A3; A4] [x; y] in
  finite e /\ Rabs (val e - (mb_sum (val A1) (val A2) (val A3) (val A4) X Y + 30.33319242243656)) <= / 2 ^ 40 * (W + 1) /\ Rabs (val e) <= 2 * W + 40.
Proof using All.
  destruct e1 as [E1 _]. destruct e2 as [E2 _]. destruct e3 as [E3 _]. destruct e4 as [E4 _].
  exact (sum_energy _ _ _ _ _ _ _ _ _ _ _ _ E1 E2 E3 E4 (Wt_small _ _ B1 w1) (Wt_small _ _ B2 w2) (Wt_small _ _ B3 w3) (Wt_small _ _ B4 w4)).
Qed.
Lemma deriv_x a1 a2 a3 a4 : derivable_pt_lim (fun t => mb_sum a1 a2 a3 a4 t Y) X
  (- (- a1 * (2 * (-1) * (X - 1) + 0 * (Y - 0)) * mb_term1 X Y + - a2 * (2 * (-1) * (X - 0) + 0 * (Y - 1/2)) * mb_term2 X Y +
      - a3 * (2 * (-13/2) * (X - -1/2) + 11 * (Y - 3/2)) * mb_term3 X Y + - a4 * (2 * (7/10) * (X - -1) + 6/10 * (Y - 1)) * mb_term4 X Y)).
Proof.
  clearbody X Y. apply is_derive_Reals. unfold mb_sum, mb_term1, mb_term2, mb_term3, mb_term4. auto_derive; [exact I|]. unfold Rminus, Rdiv. simpl. rewrite ?Rmult_1_r. field.
Qed.
Lemma deriv_y a1 a2 a3 a4 : derivable_pt_lim (fun t => mb_sum a1 a2 a3 a4 X t) Y
  (- (- a1 * (0 * (X - 1) + 2 * (-10) * (Y - 0)) * mb_term1 X Y + - a2 * (0 * (X - 0) + 2 * (-10) * (Y - 1/2)) * mb_term2 X Y +
      - a3 * (11 * (X - -1/2) + 2 * (-13/2) * (Y - 3/2)) * mb_term3 X Y + - a4 * (6/10 * (X - -1) + 2 * (7/10) * (Y - 1)) * mb_term4 X Y)).
Proof.
  clearbody X Y. apply is_derive_Reals. unfold mb_sum, mb_term1, mb_term2, mb_term3, mb_term4. auto_derive; [exact I|]. unfold Rminus, Rdiv. simpl. rewrite ?Rmult_1_r. field.
Qed.
Lemma force_all : exists f0 f1 D0 D1, f_mb_force fexp fsq [A1; A2; A3; A4] [x; y] = [f0; f1] /\ finite f0 /\ finite f1 /\
  derivable_pt_lim (fun t => mb_sum (val A1) (val A2) (val A3) (val A4) t Y) X D0 /\ derivable_pt_lim (fun t => mb_sum (val A1) (val A2) (val A3) (val A4) X t) Y D1 /\
  Rabs (val f0 - - D0) <= / 2 ^ 34 * W + bpow radix2 (-1000) /\ Rabs (val f1 - - D1) <= / 2 ^ 34 * W + bpow radix2 (-1000) /\
  Rabs (val f0) <= 80 * W + 1 /\ Rabs (val f1) <= 80 * W + 1.
Proof using All.
  destruct e1 as (_ & E1 & G1). destruct e2 as (_ & E2 & G2). destruct e3 as (_ & E3 & G3). destruct e4 as (_ & E4 & G4).
  destruct (sum_force _ _ _ _ _ _ _ _ _ _ _ _ E1 E2 E3 E4 (Wt_small _ _ B1 w1) (Wt_small _ _ B2 w2) (Wt_small _ _ B3 w3) (Wt_small _ _ B4 w4)) as (P1 & P2 & P3).
  destruct (sum_force _ _ _ _ _ _ _ _ _ _ _ _ G1 G2 G3 G4 (Wt_small _ _ B1 w1) (Wt_small _ _ B2 w2) (Wt_small _ _ B3 w3) (Wt_small _ _ B4 w4)) as (Q1 & Q2 & Q3).
  eexists _, _, _, _. split; [reflexivity|]. split; [exact P1|]. split; [exact Q1|]. split; [apply deriv_x|]. split; [apply deriv_y|].
  rewrite !Ropp_involutive. split; [exact P2|]. split; [exact Q2|]. split; [exact P3|exact Q3].
Qed.
End Box.
