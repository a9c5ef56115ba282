(** Proofs for diffusion and drift (C104) *)
From Coq Require Import Lra Lia.
From Coquelicot Require Import Coquelicot.
From Verif Require Import PyBase Model_dyn Model_pot Spec_ld Spec_well Spec_diffusion Proof_base Proof_ld Proof_well Proof_well2.
Open Scope R_scope.
Ltac Zify.zify_post_hook ::= idtac.

(** ** hyperbolic functions *)
Lemma grows (f f' : R -> R) : (forall x, 0 <= x -> is_derive f x (f' x)) -> (forall x, 0 <= x -> 0 <= f' x) -> f 0 = 0 -> forall x, 0 <= x -> 0 <= f x.
Proof.
  intros D P Z x Hx. destruct (MVT_gen f 0 x f') as (c & Hc & E).
  - intros y Hy. apply D. rewrite Rmin_left in Hy by exact Hx. lra.
  - intros y Hy. rewrite Rmin_left in Hy by exact Hx. apply continuity_pt_filterlim. apply (ex_derive_continuous f). exists (f' y). apply D. lra.
  - rewrite Rmin_left, Rmax_right in Hc by exact Hx. pose proof (P c ltac:(lra)). rewrite Z in E.
    assert (0 <= f' c * (x - 0)) by (apply Rmult_le_pos; lra). lra.
Qed.
Lemma sinh_lower x : 0 <= x -> 2 * x <= exp x - exp (- x).
Proof.
  intros Hx. pose proof (grows (fun x => exp x - exp (- x) - 2 * x) (fun x => exp x + exp (- x) - 2)) as G. cbv beta in G.
  assert (0 <= exp x - exp (- x) - 2 * x); [|lra]. apply G; [| | |exact Hx]; clear.
  - intros x _. auto_derive; [exact I|ring].
  - intros x _. assert (E : exp x * exp (- x) = 1) by (rewrite <- exp_plus, Rplus_opp_r, exp_0; reflexivity).
    pose proof (exp_pos x). pose proof (exp_pos (- x)). pose proof (Rle_0_sqr (exp x - exp (- x))). unfold Rsqr in *. nra.
  - rewrite Ropp_0. ring.
Qed.
(** x coth x >= 1 *)
Lemma coth_lower x : 0 <= x -> exp x - exp (- x) <= x * (exp x + exp (- x)).
Proof.
  intros Hx. pose proof (grows (fun x => x * (exp x + exp (- x)) - (exp x - exp (- x))) (fun x => x * (exp x - exp (- x)))) as G. cbv beta in G.
  assert (0 <= x * (exp x + exp (- x)) - (exp x - exp (- x))); [|lra]. apply G; [| | |exact Hx]; clear.
  - intros x _. auto_derive; [exact I|ring].
  - intros x Hx. pose proof (sinh_lower x Hx). apply Rmult_le_pos; lra.
  - rewrite Ropp_0. ring.
Qed.
(** x coth x <= 1 + x^2 / 3 *)
Lemma coth_upper x : 0 <= x -> x * (exp x + exp (- x)) <= (1 + x * x / 3) * (exp x - exp (- x)).
Proof.
  intros Hx. 
  pose proof (grows (fun x => (1 + x * x / 3) * (exp x - exp (- x)) - x * (exp x + exp (- x))) (fun x => x * (x * (exp x + exp (- x)) - (exp x - exp (- x))) / 3)) as G. cbv beta in G.
  assert (0 <= (1 + x * x / 3) * (exp x - exp (- x)) - x * (exp x + exp (- x))); [|lra]. apply G; [| | |exact Hx]; clear.
  - intros x _. auto_derive; [exact I|field].
  - intros x Hx. pose proof (coth_lower x Hx). assert (0 <= x * (x * (exp x + exp (- x)) - (exp x - exp (- x)))) by (apply Rmult_le_pos; lra). lra.
  - rewrite Ropp_0. ring.
Qed.
Lemma sinh_pos x : 0 < x -> 0 < exp x - exp (- x). Proof. intros H. pose proof (sinh_lower x). lra. Qed.

Lemma coefficient mass kt friction dt : 0 < friction -> 0 < mass -> 0 < kt -> 0 < dt ->
  kt / (mass * friction) <= diffusion mass kt friction dt <= kt / (mass * friction) * (1 + (friction * dt) ^ 2 / 12).
Proof.
  intros Hf Hm Ht Hd. unfold diffusion. cbv zeta. set (x := friction * dt / 2).
  assert (Hx : 0 < x) by (unfold x; assert (0 < friction * dt) by (apply Rmult_lt_0_compat; lra); lra).
  assert (K : 0 < kt / (mass * friction)) by (apply Rdiv_lt_0_compat; [exact Ht|apply Rmult_lt_0_compat; lra]).
  pose proof (sinh_pos x Hx) as S. pose proof (coth_lower x ltac:(lra)) as L. pose proof (coth_upper x ltac:(lra)) as U.
  replace (1 + (friction * dt) ^ 2 / 12) with (1 + x * x / 3) by (unfold x; field).
  set (s := exp x - exp (- x)) in *. set (c := exp x + exp (- x)) in *. split.
  - rewrite <- (Rmult_1_r (kt / (mass * friction))) at 1. apply Rmult_le_compat_l; [lra|].
    apply Rmult_le_reg_r with s; [exact S|]. unfold Rdiv. rewrite Rmult_assoc, Rmult_assoc, Rinv_l, Rmult_1_r by lra. lra.
  - apply Rmult_le_compat_l; [lra|]. apply Rmult_le_reg_r with s; [exact S|]. unfold Rdiv at 1. rewrite Rmult_assoc, Rmult_assoc, Rinv_l, Rmult_1_r by lra. lra.
Qed.

(** ** Langevin dynamics *)
Section Langevin.
Context {W : Type} (mean : (W -> R) -> R) (rng : rng_if) (ld : ldpar) (friction mass F : R) (d N : nat)
  (p0 : W -> particle) (g : W -> rng_st rng) (walker : W -> nat -> particle).
Context (HM : is_mean mean) (HS : sized rng) (HK : ld_kind ld = BussiParinello friction) (HW : constant_force (ld_pot ld) d F)
  (Hf : 0 < friction) (Hm : 0 < mass) (Ht : 0 < ld_kt ld) (Hdt : 0 < ld_dt ld)
  (HP : forall w, set_up ld friction mass (p0 w)) (HF : forall w, follows rng ld (p0 w) (g w) (walker w)).
Let nd := pot_ndim (ld_pot ld).
Let dt := ld_dt ld.
Let kt := ld_kt ld.
Let c1 := ld_c1 friction dt.
Let c2 := ld_c2 c1 mass kt.
Let be := dt / mass.
Let a := c1 * c1.
Let e i w := nth d (draw rng nd i (g w)) 0.
Let p n w := nth d (p_mom (walker w n)) 0.
Let r n w := displacement d (walker w) n.
Lemma at_0 w : walker w 0%nat = p0 w.
Proof using HF. destruct (HF w 0%nat) as (g' & E). cbn [ld_steps] in E. congruence. Qed.
Lemma cs : 0 < c1 /\ a < 1 /\ c2 * c2 = (1 - a) * (mass * kt) /\ friction * dt * c1 <= 1 - a.
Proof using Hf Hdt Hm Ht.
  destruct (c1_range ld friction mass (Rlt_le _ _ Hf) Hm Ht Hdt) as (A & B & C). specialize (B Hf). fold dt c1 in A, B, C. fold kt c2 in C.
  assert (A1 : a < 1) by (unfold a; apply Rle_lt_trans with (c1 * 1); [apply Rmult_le_compat_l; lra|lra]).
  split; [apply A|]. split; [exact A1|]. split; [exact C|].
  set (x := friction * dt / 2). assert (Hx : 0 < x) by (unfold x; assert (0 < friction * dt) by (apply Rmult_lt_0_compat; assumption); lra).
  assert (E : c1 = exp (- x)) by (unfold c1, ld_c1, x; f_equal; field). pose proof (sinh_lower x ltac:(lra)) as L.
  assert (X : exp x * exp (- x) = 1) by (rewrite <- exp_plus, Rplus_opp_r, exp_0; reflexivity).
  apply Rmult_le_compat_r with (r := c1) in L; [|lra]. unfold a. rewrite E in *. replace (friction * dt) with (2 * x) by (unfold x; field). nra.
Qed.
Let D := diffusion mass kt friction dt.
Lemma D_eq : D = kt * be / 2 * ((1 + a) / (1 - a)).
Proof using Hf Hdt Hm Ht.
  destruct cs as (C0 & A1 & _). unfold D, diffusion. cbv zeta. set (x := friction * dt / 2).
  assert (Hx : 0 < x) by (unfold x; assert (0 < friction * dt) by (apply Rmult_lt_0_compat; assumption); lra).
  assert (E : c1 = exp (- x)) by (unfold c1, ld_c1, x; f_equal; field).
  assert (X : exp x = / c1) by (rewrite E, <- exp_Ropp; f_equal; ring). rewrite X, <- E.
  replace ((/ c1 + c1) / (/ c1 - c1)) with ((1 + a) / (1 - a)) by (assert (A2 : c1 * c1 < 1) by exact A1; unfold a; field; repeat split; lra).
  unfold x, be. field. fold dt in Hdt. repeat split; lra.
Qed.
Lemma r_step n w : r (S n) w = 1 * r n w + c1 * be * p n w + c2 * be * e (2 * n) w + 0 * e (2 * n + 1) w + F * dt * be / 2.
Proof using HS HK HW HP HF Hm.
  destruct HW as (B & FS & DD & A). destruct (bp_recursion rng ld friction mass HS HK B FS (p0 w) (g w) (walker w) n (HP w) (HF w)) as [S1 Q].
  destruct (Q d DD) as [Q1 _]. fold nd dt in Q1. fold c1 in Q1. fold kt in Q1. fold c2 in Q1. unfold r, displacement. rewrite Q1, A by apply S1. unfold bp_position, be, p, e. field. lra.
Qed.
Lemma p_step n w : p (S n) w = 0 * r n w + a * p n w + c1 * c2 * e (2 * n) w + c2 * e (2 * n + 1) w + c1 * F * dt.
Proof using HS HK HW HP HF Hm.
  destruct HW as (B & FS & DD & A). destruct (bp_recursion rng ld friction mass HS HK B FS (p0 w) (g w) (walker w) n (HP w) (HF w)) as [S1 Q].
  destruct (bp_recursion rng ld friction mass HS HK B FS (p0 w) (g w) (walker w) (S n) (HP w) (HF w)) as [S2 _].
  destruct (Q d DD) as [_ Q1]. fold nd dt in Q1. fold c1 in Q1. fold kt in Q1. fold c2 in Q1. unfold p. rewrite Q1, !A by first [apply S1|apply S2]. unfold bp_momentum, a, e. field.
Qed.
Lemma be_c1 : c1 * be / (1 - a) <= 1 / (mass * friction).
Proof using Hf Hdt Hm Ht.
  destruct cs as (C0 & A1 & _ & C3). assert (M : 0 < mass * friction) by (apply Rmult_lt_0_compat; lra). fold dt in Hdt.
  apply Rmult_le_reg_r with ((1 - a) * (mass * friction)); [apply Rmult_lt_0_compat; lra|]. unfold be.
  replace (c1 * (dt / mass) / (1 - a) * ((1 - a) * (mass * friction))) with (friction * dt * c1) by (field; lra).
  replace (1 / (mass * friction) * ((1 - a) * (mass * friction))) with (1 - a) by (field; lra). exact C3.
Qed.
Lemma a_pow n : 0 <= a ^ n <= 1.
Proof using Hf Hdt Hm Ht.
  destruct cs as (C0 & A1 & _). assert (A0 : 0 <= a) by (apply Rle_0_sqr). split; [apply pow_le; exact A0|]. rewrite <- (pow1 n). apply pow_incr. lra.
Qed.
Lemma be_pos : 0 < be. Proof using Hm Hdt. apply Rdiv_lt_0_compat; [exact Hdt|exact Hm]. Qed.

Section Square.
Context (HF0 : F = 0) (HN : white mean N (fun i w => nth d (draw rng nd i (g w)) 0) (fun w => nth d (p_pos (p0 w)) 0) (fun w => nth d (p_mom (p0 w)) 0)).
Lemma squares Z0 : mean (fun w => nth d (p_mom (p0 w)) 0 * nth d (p_mom (p0 w)) 0) = Z0 -> forall n, (2 * n <= N)%nat ->
  mean (fun w => r n w * r n w) = 2 * D * (INR n * dt) - 2 * (mass * kt) * (c1 * be / (1 - a)) ^ 2 * (1 - a ^ n) + (Z0 - mass * kt) * (c1 * be / (1 - a)) ^ 2 * (1 - a ^ n) ^ 2 /\
  mean (fun w => r n w * p n w) = c1 * be / (1 - a) * (mass * kt * (1 - a ^ n) + (Z0 - mass * kt) * a ^ n * (1 - a ^ n)) /\
  mean (fun w => p n w * p n w) = mass * kt + (Z0 - mass * kt) * (a ^ n * a ^ n).
Proof using All.
  intros E0. destruct cs as (C0 & A1 & C2 & _). fold dt in Hdt.
  assert (HN' : white mean N e (r 0%nat) (p 0%nat)).
  { destruct HN as (N1 & N2 & N3). split; [exact N1|]. split; [exact N2|]. intros i Hi. destruct (N3 i Hi) as [M1 M2]. split.
    - rewrite (mean_ext mean HM _ (fun _ => 0)) by (intros w; unfold r, displacement; ring). apply (mean_zero mean HM).
    - etransitivity; [|exact M2]. apply (mean_ext mean HM). intros w. unfold p. rewrite at_0. reflexivity. }
  assert (RX : forall n w, r (S n) w = 1 * r n w + c1 * be * p n w + c2 * be * e (2 * n) w + 0 * e (2 * n + 1) w) by (intros n w; rewrite r_step, HF0; unfold Rdiv; ring).
  assert (RP : forall n w, p (S n) w = 0 * r n w + a * p n w + c1 * c2 * e (2 * n) w + c2 * e (2 * n + 1) w) by (intros n w; rewrite p_step, HF0; ring).
  induction n as [|n IH]; intros Hn.
  - rewrite pow_O. split; [|split].
    + rewrite (mean_ext mean HM _ (fun _ => 0)) by (intros w; unfold r, displacement; ring). rewrite (mean_zero mean HM). change (INR 0) with 0. ring.
    + rewrite (mean_ext mean HM _ (fun _ => 0)) by (intros w; unfold r, displacement; ring). rewrite (mean_zero mean HM). ring.
    + etransitivity; [|etransitivity; [exact E0|ring]]. apply (mean_ext mean HM). intros w. unfold p. rewrite at_0. reflexivity.
  - destruct (IH ltac:(lia)) as (I1 & I2 & I3).
    destruct (two_moments mean HM N e r p HN' _ _ _ _ _ _ _ RX RP n _ _ _ ltac:(lia) I1 I2 I3) as (J1 & J2 & J3).
    rewrite S_INR. replace (a ^ S n) with (a * a ^ n) by reflexivity. set (q := a ^ n) in *. set (T := mass * kt) in *. set (z := Z0 - T) in *.
    split; [rewrite J1|split; [rewrite J2|rewrite J3]].
    + rewrite D_eq. replace (c2 * be * (c2 * be)) with (be * be * (c2 * c2)) by ring. rewrite C2.
      replace (c1 * be * (c1 * be)) with (a * (be * be)) by (unfold a; ring).
      replace ((c1 * be / (1 - a)) ^ 2) with (a * (be * be) / ((1 - a) * (1 - a))) by (assert (A2 : c1 * c1 < 1) by exact A1; unfold a; field; lra).
      replace (2 * (1 * (c1 * be)) * (c1 * be / (1 - a) * (T * (1 - q) + z * q * (1 - q)))) with (2 * (a * (be * be)) / (1 - a) * (T * (1 - q) + z * q * (1 - q))) by (assert (A2 : c1 * c1 < 1) by exact A1; unfold a; field; lra).
      replace kt with (T / mass) by (unfold T; field; lra). replace dt with (be * mass) by (unfold be; field; lra).
      clearbody a be q z T. field. lra.
    + replace (c2 * be * (c1 * c2)) with (c1 * be * (c2 * c2)) by ring. rewrite C2.
      clearbody a be q z T. field. lra.
    + replace (c1 * c2 * (c1 * c2)) with (a * (c2 * c2)) by (unfold a; ring). rewrite C2. clearbody a q z T. ring.
Qed.
Lemma diffuses Z0 n : mean (fun w => nth d (p_mom (p0 w)) 0 * nth d (p_mom (p0 w)) 0) = Z0 -> (2 * n <= N)%nat ->
  Rabs (mean (fun w => displacement d (walker w) n * displacement d (walker w) n) - 2 * D * (INR n * dt)) <= (2 * (mass * kt) + Rabs (Z0 - mass * kt)) / (mass * friction) ^ 2.
Proof using All.
  intros E0 Hn. destruct (squares Z0 E0 n Hn) as (I1 & _). fold (r n). cbv beta in I1. unfold r in I1. rewrite I1. clear I1. destruct cs as (C0 & A1 & C2 & _). pose proof (a_pow n) as AP. pose proof be_c1 as K. pose proof be_pos as B0.
  assert (M : 0 < mass * friction) by (apply Rmult_lt_0_compat; lra).
  assert (K0 : 0 <= c1 * be / (1 - a)) by (apply Rmult_le_pos; [apply Rmult_le_pos; lra|left; apply Rinv_0_lt_compat; lra]).
  set (k := c1 * be / (1 - a)) in *. assert (K2 : 0 <= k ^ 2 <= 1 / (mass * friction) ^ 2).
  { replace (1 / (mass * friction) ^ 2) with (1 / (mass * friction) * (1 / (mass * friction))) by (field; lra). replace (k ^ 2) with (k * k) by ring. split; [apply Rle_0_sqr|apply Rmult_le_compat; lra]. }
  set (T := mass * kt). assert (T0 : 0 < T) by (apply Rmult_lt_0_compat; [exact Hm|exact Ht]). set (z := Z0 - T). set (q := a ^ n) in *.
  replace (2 * D * (INR n * dt) - 2 * T * k ^ 2 * (1 - q) + z * k ^ 2 * (1 - q) ^ 2 - 2 * D * (INR n * dt)) with (k ^ 2 * (z * (1 - q) ^ 2 - 2 * T * (1 - q))) by ring.
  rewrite Rabs_mult, (Rabs_right (k ^ 2)) by lra. replace ((2 * T + Rabs z) / (mass * friction) ^ 2) with (1 / (mass * friction) ^ 2 * (2 * T + Rabs z)) by (field; lra).
  apply Rmult_le_compat; [lra|apply Rabs_pos|lra|]. unfold Rminus at 1. eapply Rle_trans; [apply Rabs_triang|]. rewrite Rabs_Ropp, !Rabs_mult, (Rabs_right ((1 - q) ^ 2)), (Rabs_right 2), (Rabs_right T), (Rabs_right (1 - q)); try lra; [|apply Rle_ge; replace ((1 - q) ^ 2) with ((1 - q) * (1 - q)) by ring; apply Rle_0_sqr].
  assert (Q2 : (1 - q) ^ 2 <= 1) by (replace ((1 - q) ^ 2) with ((1 - q) * (1 - q)) by ring; rewrite <- (Rmult_1_l 1); apply Rmult_le_compat; lra).
  assert (Rabs z * (1 - q) ^ 2 <= Rabs z * 1) by (apply Rmult_le_compat_l; [apply Rabs_pos|exact Q2]).
  assert (2 * T * (1 - q) <= 2 * T * 1) by (apply Rmult_le_compat_l; lra). lra.
Qed.
End Square.

Section Drift.
Context (HN : centered mean N (fun i w => nth d (draw rng nd i (g w)) 0)).
Lemma means P0 : mean (fun w => nth d (p_mom (p0 w)) 0) = P0 -> forall n, (2 * n <= N)%nat ->
  let PS := c1 * F * dt / (1 - a) in
  mean (r n) = F * D / kt * (INR n * dt) + (P0 - PS) * (c1 * be / (1 - a)) * (1 - a ^ n) /\ mean (p n) = PS + (P0 - PS) * a ^ n.
Proof using All.
  intros E0. destruct cs as (C0 & A1 & _). fold dt in Hdt. fold kt in Ht. cbv zeta.
  assert (One : forall k, mean (fun _ => k) = k).
  { intros k. rewrite (mean_ext mean HM _ (fun _ => k * 1 + 0)) by (intros; ring). destruct HM as (_ & L & _ & O). rewrite (L k (fun _ => 1) (fun _ => 0)), O, (mean_zero mean HM). ring. }
  assert (Lin : forall (u v s t : W -> R) A B C E k, mean (fun w => A * u w + B * v w + C * s w + E * t w + k) = A * mean u + B * mean v + C * mean s + E * mean t + k).
  { intros u v s t A B C E k. pose proof HM as (X & L & _). rewrite (X _ (fun w => 1 * (A * u w + B * v w + C * s w + E * t w) + k)) by (intros; ring).
    rewrite (L 1 (fun w => A * u w + B * v w + C * s w + E * t w) (fun _ => k)), (mean_lin mean HM), One. ring. }
  induction n as [|n IH]; intros Hn.
  - rewrite pow_O. split.
    + rewrite (mean_ext mean HM _ (fun _ => 0)) by (intros w; unfold r, displacement; ring). rewrite (mean_zero mean HM). change (INR 0) with 0. ring.
    + etransitivity; [|etransitivity; [exact E0|ring]]. apply (mean_ext mean HM). intros w. unfold p. rewrite at_0. reflexivity.
  - destruct (IH ltac:(lia)) as (I1 & I2). rewrite (mean_ext mean HM (r (S n)) _ (r_step n)), (mean_ext mean HM (p (S n)) _ (p_step n)), !Lin, I1, I2.
    assert (Z1 : mean (e (2 * n)) = 0) by (apply (HN (2 * n)%nat); lia). assert (Z2 : mean (e (2 * n + 1)) = 0) by (apply (HN (2 * n + 1)%nat); lia). rewrite Z1, Z2.
    rewrite S_INR. replace (a ^ S n) with (a * a ^ n) by reflexivity. set (q := a ^ n). rewrite D_eq. split.
    + replace (c1 * be * (c1 * F * dt / (1 - a) + (P0 - c1 * F * dt / (1 - a)) * q)) with (a * (be * F * dt) / (1 - a) + c1 * be * (P0 - c1 * F * dt / (1 - a)) * q) by (assert (A2 : c1 * c1 < 1) by exact A1; unfold a; field; lra).
      set (pd := P0 - c1 * F * dt / (1 - a)). clearbody a be q pd. field. split; lra.
    + clearbody a be q. field. lra.
Qed.
Lemma drifts P0 n : mean (fun w => nth d (p_mom (p0 w)) 0) = P0 -> (2 * n <= N)%nat ->
  Rabs (mean (fun w => displacement d (walker w) n) - F * D / kt * (INR n * dt)) <= (Rabs P0 + Rabs F / friction) / (mass * friction).
Proof using All.
  intros E0 Hn. destruct (means P0 E0 n Hn) as (I1 & _). change (mean (fun w => displacement d (walker w) n)) with (mean (r n)). rewrite I1. clear I1. destruct cs as (C0 & A1 & _ & C3). pose proof (a_pow n) as AP. pose proof be_c1 as K. pose proof be_pos as B0. fold dt in Hdt.
  assert (M : 0 < mass * friction) by (apply Rmult_lt_0_compat; lra).
  assert (K0 : 0 <= c1 * be / (1 - a)) by (apply Rmult_le_pos; [apply Rmult_le_pos; lra|left; apply Rinv_0_lt_compat; lra]).
  set (k := c1 * be / (1 - a)) in *. set (v := F * D / kt * (INR n * dt)). set (PS := c1 * F * dt / (1 - a)).
  replace (v + (P0 - PS) * k * (1 - a ^ n) - v) with ((P0 - PS) * (k * (1 - a ^ n))) by ring. rewrite Rabs_mult.
  assert (K1 : 0 <= k * (1 - a ^ n) <= 1 / (mass * friction)).
  { split; [apply Rmult_le_pos; lra|]. apply Rle_trans with (k * 1); [apply Rmult_le_compat_l; lra|lra]. }
  rewrite (Rabs_right (k * (1 - a ^ n))) by lra. replace ((Rabs P0 + Rabs F / friction) / (mass * friction)) with ((Rabs P0 + Rabs F / friction) * (1 / (mass * friction))) by (unfold Rdiv; ring).
  apply Rmult_le_compat; [apply Rabs_pos|lra| |lra]. unfold Rminus. eapply Rle_trans; [apply Rabs_triang|]. rewrite Rabs_Ropp. apply Rplus_le_compat_l.
  unfold PS. replace (c1 * F * dt / (1 - a)) with (F * (c1 * dt / (1 - a))) by (field; lra). rewrite Rabs_mult.
  assert (Q : 0 <= c1 * dt / (1 - a) <= / friction).
  { split; [apply Rmult_le_pos; [apply Rmult_le_pos; lra|left; apply Rinv_0_lt_compat; lra]|]. apply Rmult_le_reg_r with ((1 - a) * friction); [apply Rmult_lt_0_compat; lra|].
    replace (c1 * dt / (1 - a) * ((1 - a) * friction)) with (friction * dt * c1) by (field; lra). replace (/ friction * ((1 - a) * friction)) with (1 - a) by (field; lra). exact C3. }
  rewrite (Rabs_right (c1 * dt / (1 - a))) by lra. apply Rmult_le_compat_l; [apply Rabs_pos|]. apply Q.
Qed.
End Drift.
End Langevin.

(** ** overdamped dynamics *)
Section Overdamped.
Context {W : Type} (mean : (W -> R) -> R) (rng : rng_if) (ld : ldpar) (F : R) (d N : nat)
  (p0 : W -> particle) (g : W -> rng_st rng) (walker : W -> nat -> particle).
Context (HM : is_mean mean) (HS : sized rng) (HK : ld_kind ld = Overdamped) (HW : constant_force (ld_pot ld) d F) (Hdt : 0 < ld_dt ld)
  (HP : forall w, right_size (pot_ndim (ld_pot ld)) (p0 w) /\ consistent (ld_pot ld) (p0 w)) (HF : forall w, follows rng ld (p0 w) (g w) (walker w)).
Let nd := pot_ndim (ld_pot ld).
Let dt := ld_dt ld.
Let e i w := nth d (draw rng nd i (g w)) 0.
Lemma od_step n w : displacement d (walker w) (S n) = displacement d (walker w) n + F * dt + sqrt (2 * dt) * e n w.
Proof using HS HK HW HP HF.
  destruct HW as (B & FS & DD & A). destruct (od_recursion rng ld HS HK B FS (p0 w) (g w) (walker w) n (HP w) (HF w)) as [S1 Q].
  fold nd dt in Q. unfold displacement. rewrite (Q d DD), A by apply S1. unfold e. ring.
Qed.
Lemma od_drifts n : centered mean N (fun i w => nth d (draw rng nd i (g w)) 0) -> (n <= N)%nat -> mean (fun w => displacement d (walker w) n) = F * (INR n * dt).
Proof using All.
  intros HN. induction n as [|n IH]; intros Hn.
  - rewrite (mean_ext mean HM _ (fun _ => 0)) by (intros w; unfold displacement; ring). rewrite (mean_zero mean HM). change (INR 0) with 0. ring.
  - rewrite (mean_ext mean HM _ (fun w => 1 * displacement d (walker w) n + (F * dt) * 1 + sqrt (2 * dt) * e n w + 0 * 0)) by (intros w; rewrite od_step; ring).
    rewrite (mean_lin mean HM 1 (F * dt) (sqrt (2 * dt)) 0 (fun w => displacement d (walker w) n) (fun _ => 1) (e n) (fun _ => 0)), IH by lia.
    assert (Z1 : mean (e n) = 0) by (apply (HN n); lia). rewrite Z1. destruct HM as (_ & _ & _ & O). rewrite O, S_INR. ring.
Qed.
Lemma od_diffuses n : white mean N (fun i w => nth d (draw rng nd i (g w)) 0) (fun w => nth d (p_pos (p0 w)) 0) (fun w => nth d (p_mom (p0 w)) 0) -> (n <= N)%nat ->
  mean (fun w => (displacement d (walker w) n - F * (INR n * dt)) * (displacement d (walker w) n - F * (INR n * dt))) = 2 * (INR n * dt).
Proof using All.
  intros HN. set (x := fun n w => displacement d (walker w) n - F * (INR n * dt)).
  assert (HN' : white mean N e (x 0%nat) (fun w => nth d (p_mom (p0 w)) 0)).
  { destruct HN as (N1 & N2 & N3). split; [exact N1|]. split; [exact N2|]. intros i Hi. destruct (N3 i Hi) as [M1 M2]. split; [|exact M2].
    rewrite (mean_ext mean HM _ (fun _ => 0)) by (intros w; unfold x, displacement; change (INR 0) with 0; ring). apply (mean_zero mean HM). }
  assert (RX : forall n w, x (S n) w = 1 * x n w + sqrt (2 * dt) * e n w) by (intros m w; unfold x; rewrite od_step, S_INR; ring).
  change (fun w => (displacement d (walker w) n - F * (INR n * dt)) * (displacement d (walker w) n - F * (INR n * dt))) with (fun w => x n w * x n w).
  induction n as [|n IH]; intros Hn.
  - rewrite (mean_ext mean HM _ (fun _ => 0)) by (intros w; unfold x, displacement; change (INR 0) with 0; ring). rewrite (mean_zero mean HM). change (INR 0) with 0. ring.
  - rewrite (one_moments mean HM N e x (fun _ w => nth d (p_mom (p0 w)) 0) HN' 1 (sqrt (2 * dt)) RX n _ ltac:(lia) (IH ltac:(lia))).
    fold dt in Hdt. rewrite sqrt_sqrt, S_INR by lra. ring.
Qed.
End Overdamped.

(** ** the example *)
Lemma tilted_force F : constant_force (tilted F) 0 F.
Proof.
  split; [reflexivity|]. split; [intros x H; cbn; rewrite map_length; exact H|]. split; [cbn; lia|]. intros x H. destruct x as [|x0 x]; [discriminate|]. reflexivity.
Qed.
Lemma polynomial_force a F rs pot : poly_init (mkArr [2%nat] [a; - F]) rs None = Ok pot -> constant_force pot 0 F.
Proof.
  intros H. unfold poly_init in H. cbn in H. apply (f_equal (fun r => match r with Ok p => p | Err _ => pot end)) in H. cbn in H. subst pot.
  split; [reflexivity|]. split; [intros x Hx; unfold poly_force; cbn [pot_ndim pot_force]; rewrite map_length, seq_length; reflexivity|].
  split; [cbn; lia|]. intros x Hx. destruct x as [|x0 [|y x]]; try discriminate. cbn. lra.
Qed.
Lemma coin_centered N : centered (coins (S (S N))) N (fun i w => nth 0 (draw coin_rng 2 i (coin_state w)) 0).
Proof.
  assert (Z : forall n i, (i < n)%nat -> coins n (fun w => nth i w 0) = 0).
  { induction n as [|n IH]; intros i Hi; [lia|]. cbn [coins]. destruct i as [|i]; cbn [nth].
    - assert (K : forall a, coins n (fun _ => a) = a).
      { intros a. destruct (coins_ok n) as (E & _ & _ & O). rewrite (E _ (fun _ => a * 1)) by (intros; ring). rewrite coins_scale, O. ring. }
      rewrite !K. lra.
    - rewrite !IH by lia. lra. }
  intros i Hi. destruct (coins_ok (S (S N))) as (E & _). rewrite (E _ (fun w => nth (S (S i)) w 0)) by (intros w; apply coin_draw). apply Z. lia.
Qed.
Lemma tilted_set_up F c2 sx sp w : c2 = ld_c2 (ld_c1 1 (1/10)) 1 1 -> set_up (mkLD (BussiParinello 1) (tilted F) (1/10) 1) 1 1 (coin_start (mkLD (BussiParinello 1) (tilted F) (1/10) 1) c2 sx sp w).
Proof. intros ->. split; [split; [reflexivity|split; reflexivity]|]. split; [split; reflexivity|]. split; reflexivity. Qed.
