(** Proofs for the equilibrium in a harmonic well (C101) *)
From Coq Require Import Lra Lia.
From Verif Require Import PyBase Model_dyn Spec_ld Spec_well Proof_base Proof_ld.
Open Scope R_scope.
Ltac Zify.zify_post_hook ::= idtac.

(** ** averages of linear combinations *)
Section Mean.
Context {W : Type} (mean : (W -> R) -> R) (HM : is_mean mean).
Lemma mean_ext f g : (forall w, f w = g w) -> mean f = mean g.
Proof using HM. apply HM. Qed.
Lemma mean_zero : mean (fun _ => 0) = 0.
Proof using HM. destruct HM as (E & L & _). pose proof (L (-1) (fun _ => 0) (fun _ => 0)) as H. cbv beta in H.
  rewrite (E (fun _ => -1 * 0 + 0) (fun _ => 0)) in H by (intros; ring). lra. Qed.
Lemma mean_lin a b c d e f g h : mean (fun w => a * e w + b * f w + c * g w + d * h w) = a * mean e + b * mean f + c * mean g + d * mean h.
Proof using HM.
  destruct HM as (E & L & _). rewrite (E _ (fun w => a * e w + (b * f w + (c * g w + (d * h w + 0))))) by (intros; ring).
  rewrite (L a e (fun w => b * f w + (c * g w + (d * h w + 0)))), (L b f (fun w => c * g w + (d * h w + 0))), (L c g (fun w => d * h w + 0)), (L d h (fun _ => 0)), mean_zero. ring.
Qed.
Context (x p e f : W -> R) (X Y Z : R)
  (XX : mean (fun w => x w * x w) = X) (XP : mean (fun w => x w * p w) = Y) (PP : mean (fun w => p w * p w) = Z)
  (EE : mean (fun w => e w * e w) = 1) (FF : mean (fun w => f w * f w) = 1) (EF : mean (fun w => e w * f w) = 0)
  (XE : mean (fun w => x w * e w) = 0) (XF : mean (fun w => x w * f w) = 0) (PE : mean (fun w => p w * e w) = 0) (PF : mean (fun w => p w * f w) = 0).
Lemma mean_prod a1 a2 a3 a4 b1 b2 b3 b4 :
  mean (fun w => (a1 * x w + a2 * p w + a3 * e w + a4 * f w) * (b1 * x w + b2 * p w + b3 * e w + b4 * f w))
  = a1 * b1 * X + (a1 * b2 + a2 * b1) * Y + a2 * b2 * Z + a3 * b3 + a4 * b4.
Proof using All.
  rewrite (mean_ext _ (fun w => a1 * (b1 * (x w * x w) + b2 * (x w * p w) + b3 * (x w * e w) + b4 * (x w * f w))
    + a2 * (b1 * (x w * p w) + b2 * (p w * p w) + b3 * (p w * e w) + b4 * (p w * f w))
    + a3 * (b1 * (x w * e w) + b2 * (p w * e w) + b3 * (e w * e w) + b4 * (e w * f w))
    + a4 * (b1 * (x w * f w) + b2 * (p w * f w) + b3 * (e w * f w) + b4 * (f w * f w)))) by (intros; ring).
  rewrite (mean_lin a1 a2 a3 a4). rewrite !mean_lin. rewrite XX, XP, PP, EE, FF, EF, XE, XF, PE, PF. ring.
Qed.
End Mean.

(** ** the run of one walker *)
Lemma run_single rng ld p g : ld_run rng ld [p] g = do (p', g1) <- ld_update rng ld p g; Ok ([p'], g1).
Proof. cbn [ld_run]. destruct (ld_update rng ld p g) as [[p' g1]|e]; reflexivity. Qed.
Lemma steps_snoc rng ld : forall n ps g, ld_steps rng ld (S n) ps g = do (ps', g') <- ld_steps rng ld n ps g; ld_run rng ld ps' g'.
Proof.
  induction n as [|n IH]; intros ps g.
  - cbn [ld_steps bind]. destruct (ld_run rng ld ps g) as [[ps' g']|e]; reflexivity.
  - change (ld_steps rng ld (S (S n)) ps g) with (do (ps', g') <- ld_run rng ld ps g; ld_steps rng ld (S n) ps' g').
    change (ld_steps rng ld (S n) ps g) with (do (ps', g') <- ld_run rng ld ps g; ld_steps rng ld n ps' g').
    destruct (ld_run rng ld ps g) as [[ps' g']|e]; cbn [bind]; [apply IH|reflexivity].
Qed.
Lemma after_snoc rng n : forall i g, after_draws rng n (S i) g = snd (r_normal rng n (after_draws rng n i g)).
Proof. induction i as [|i IH]; intros g; [reflexivity|]. cbn [after_draws]. rewrite <- IH. reflexivity. Qed.

Section Langevin.
Context (rng : rng_if) (ld : ldpar) (friction mass : R) (HS : sized rng) (HK : ld_kind ld = BussiParinello friction)
  (HB : pot_bc (ld_pot ld) = None) (HF : force_size (ld_pot ld)).
Let nd := pot_ndim (ld_pot ld).
Let c1 := ld_c1 friction (ld_dt ld).
Lemma bp_walk p g : set_up ld friction mass p -> forall n, exists q, ld_steps rng ld n [p] g = Ok ([q], after_draws rng nd (2 * n) g) /\ set_up ld friction mass q.
Proof using All.
  intros HP. induction n as [|n (q & E & SQ)]; [exists p; split; [reflexivity|exact HP]|].
  rewrite steps_snoc, E. cbn [bind]. rewrite run_single. unfold ld_update. rewrite HK. fold nd. fold c1.
  destruct (r_normal rng nd (after_draws rng nd (2 * n) g)) as [n1 g1] eqn:E1. destruct (r_normal rng nd g1) as [n2 g2] eqn:E2.
  destruct SQ as (S1 & S2 & S3 & S4).
  assert (L1 : length n1 = nd) by (pose proof (HS nd (after_draws rng nd (2 * n) g)) as L; rewrite E1 in L; exact L).
  assert (L2 : length n2 = nd) by (pose proof (HS nd g1) as L; rewrite E2 in L; exact L).
  destruct (bp_equations (ld_pot ld) c1 (ld_dt ld) q n1 n2 HB HF S1 L1 L2) as (q' & U1 & U2 & U3 & U4 & U5 & _).
  rewrite U1. cbn [bind]. exists q'. split; [|split; [exact U2|]; split; [exact U5|]; split; [congruence|congruence]].
  replace (2 * S n)%nat with (S (S (2 * n))) by lia. rewrite !after_snoc, E1. cbn [snd]. rewrite E2. reflexivity.
Qed.
Lemma bp_recursion p g walker n : set_up ld friction mass p -> follows rng ld p g walker ->
  set_up ld friction mass (walker n) /\ forall d, (d < nd)%nat ->
  let x := nth d (p_pos (walker n)) 0 in let m := nth d (p_mom (walker n)) 0 in
  let f := nth d (pot_force (ld_pot ld) (p_pos (walker n))) 0 in let f' := nth d (pot_force (ld_pot ld) (p_pos (walker (S n)))) 0 in
  let e := nth d (draw rng nd (2 * n) g) 0 in let e' := nth d (draw rng nd (2 * n + 1) g) 0 in
  let c2 := ld_c2 c1 mass (ld_kt ld) in
  nth d (p_pos (walker (S n))) 0 = bp_position c1 c2 (ld_dt ld) mass x m f e /\
  nth d (p_mom (walker (S n))) 0 = bp_momentum c1 c2 (ld_dt ld) m f f' e e'.
Proof using All.
  intros HP HW. destruct (bp_walk p g HP n) as (q & E & SQ). destruct (HW n) as (g' & E'). rewrite E in E'.
  assert (Q : walker n = q) by congruence. rewrite Q. split; [exact SQ|]. intros d Hd.
  destruct (HW (S n)) as (g'' & E''). rewrite steps_snoc, E in E''. cbn [bind] in E''. rewrite run_single in E''. unfold ld_update in E''. rewrite HK in E''. fold nd in E''. fold c1 in E''.
  cbv zeta. unfold draw. rewrite Nat.add_1_r, after_snoc.
  destruct (r_normal rng nd (after_draws rng nd (2 * n) g)) as [n1 g1] eqn:E1. cbn [fst snd]. destruct (r_normal rng nd g1) as [n2 g2] eqn:E2. cbn [fst snd].
  destruct SQ as (S1 & S2 & S3 & S4).
  assert (L1 : length n1 = nd) by (pose proof (HS nd (after_draws rng nd (2 * n) g)) as L; rewrite E1 in L; exact L).
  assert (L2 : length n2 = nd) by (pose proof (HS nd g1) as L; rewrite E2 in L; exact L).
  destruct (bp_equations (ld_pot ld) c1 (ld_dt ld) q n1 n2 HB HF S1 L1 L2) as (q' & U1 & U2 & U3 & U4 & U5 & U6).
  rewrite U1 in E''. cbn [bind] in E''. assert (Q' : walker (S n) = q') by congruence. rewrite Q'.
  destruct (U6 d Hd) as [A B]. rewrite S3, S4, (proj2 S2) in A. rewrite S4, (proj2 S2), (proj2 U5) in B. split; [exact A|exact B].
Qed.
End Langevin.

Section Overdamped.
Context (rng : rng_if) (ld : ldpar) (HS : sized rng) (HK : ld_kind ld = Overdamped)
  (HB : pot_bc (ld_pot ld) = None) (HF : force_size (ld_pot ld)).
Let nd := pot_ndim (ld_pot ld).
Let started p := right_size nd p /\ consistent (ld_pot ld) p.
Lemma od_walk p g : started p -> forall n, exists q, ld_steps rng ld n [p] g = Ok ([q], after_draws rng nd n g) /\ started q.
Proof using All.
  intros HP. induction n as [|n (q & E & SQ)]; [exists p; split; [reflexivity|exact HP]|].
  rewrite steps_snoc, E. cbn [bind]. rewrite run_single. unfold ld_update. rewrite HK. fold nd.
  destruct (r_normal rng nd (after_draws rng nd n g)) as [n1 g1] eqn:E1. destruct SQ as (S1 & S2).
  assert (L1 : length n1 = nd) by (pose proof (HS nd (after_draws rng nd n g)) as L; rewrite E1 in L; exact L).
  destruct (od_equations (ld_pot ld) (ld_dt ld) q n1 HB HF S1 L1) as (q' & U1 & U2 & U3 & U4 & U5 & _).
  rewrite U1. cbn [bind]. exists q'. split; [|split; [exact U2|exact U5]]. rewrite after_snoc, E1. reflexivity.
Qed.
Lemma od_recursion p g walker n : started p -> follows rng ld p g walker ->
  started (walker n) /\ forall d, (d < nd)%nat ->
  nth d (p_pos (walker (S n))) 0 = nth d (p_pos (walker n)) 0 + nth d (pot_force (ld_pot ld) (p_pos (walker n))) 0 * ld_dt ld + sqrt (2 * ld_dt ld) * nth d (draw rng nd n g) 0.
Proof using All.
  intros HP HW. destruct (od_walk p g HP n) as (q & E & SQ). destruct (HW n) as (g' & E'). rewrite E in E'.
  assert (Q : walker n = q) by congruence. rewrite Q. split; [exact SQ|]. intros d Hd.
  destruct (HW (S n)) as (g'' & E''). rewrite steps_snoc, E in E''. cbn [bind] in E''. rewrite run_single in E''. unfold ld_update in E''. rewrite HK in E''. fold nd in E''.
  unfold draw. destruct (r_normal rng nd (after_draws rng nd n g)) as [n1 g1] eqn:E1. cbn [fst snd]. destruct SQ as (S1 & S2).
  assert (L1 : length n1 = nd) by (pose proof (HS nd (after_draws rng nd n g)) as L; rewrite E1 in L; exact L).
  destruct (od_equations (ld_pot ld) (ld_dt ld) q n1 HB HF S1 L1) as (q' & U1 & U2 & U3 & U4 & U5 & U6).
  rewrite U1 in E''. cbn [bind] in E''. assert (Q' : walker (S n) = q') by congruence. rewrite Q', <- (proj2 S2). exact (U6 d Hd).
Qed.
End Overdamped.
