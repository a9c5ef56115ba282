(** Proofs for areas in the space of positions and momenta (C108) *)
From Coq Require Import Lra Lia.
From Coquelicot Require Import Coquelicot.
From Verif Require Import PyBase Model_dyn Model_pot Spec_grid Spec_pot Spec_rng Spec_ld Spec_well Spec_newton Spec_volume Proof_base Proof_grid Proof_grid2 Proof_pot Proof_ld Proof_well Proof_well2 Proof_newton Proof_newton2.
Open Scope R_scope.
Ltac Zify.zify_post_hook ::= idtac.

(** ** sums *)
Lemma tot_ext {A} (f g : A -> R) l : (forall a, In a l -> f a = g a) -> total (map f l) = total (map g l).
Proof. intros H. rewrite (map_ext_in f g l H). reflexivity. Qed.
Lemma tot_lin {A} (a b : R) (f g : A -> R) l : total (map (fun i => a * f i + b * g i) l) = a * total (map f l) + b * total (map g l).
Proof. induction l as [|c l IH]; cbn [map]; [cbn; ring|]. change (total (?x :: ?y)) with (x + total y). rewrite IH. ring. Qed.
Lemma tot_exchange {A B} (f : A -> B -> R) la lb : total (map (fun a => total (map (f a) lb)) la) = total (map (fun b => total (map (fun a => f a b) la)) lb).
Proof. apply Proof_pot.total_swap. Qed.
Lemma tot_pick n d (u : nat -> R) : (d < n)%nat -> total (map (fun e => (if Nat.eqb e d then 1 else 0) * u e) (seq 0 n)) = u d.
Proof.
  assert (A : forall k a, total (map (fun e => (if Nat.eqb e d then 1 else 0) * u e) (seq a k)) = if andb (Nat.leb a d) (Nat.ltb d (a + k)) then u d else 0).
  { induction k as [|k IH]; intros a; cbn [seq map].
    - destruct (Nat.leb_spec a d), (Nat.ltb_spec d (a + 0)); cbn; try lia; reflexivity.
    - change (total (?x :: ?y)) with (x + total y). rewrite IH. destruct (Nat.eqb_spec a d) as [->|Ne].
      + destruct (Nat.leb_spec (S d) d), (Nat.leb_spec d d), (Nat.ltb_spec d (d + S k)); cbn; try lia; ring.
      + destruct (Nat.leb_spec (S a) d), (Nat.leb_spec a d), (Nat.ltb_spec d (S a + k)), (Nat.ltb_spec d (a + S k)); cbn; try lia; ring. }
  intros Hd. rewrite A. destruct (Nat.leb_spec 0 d), (Nat.ltb_spec d (0 + n)); cbn; try lia; reflexivity.
Qed.

(** ** the tangent of one step *)
Section Tangent.
Context (n : nat) (H H' : nat -> nat -> R) (HH : forall d e, H d e = H e d) (HH' : forall d e, H' d e = H' e d) (c k h : R).
Let push (M : nat -> nat -> R) (u : nat -> R) (d : nat) : R := total (map (fun e => M d e * u e) (seq 0 n)).
Let half (u v : nat -> R) (d : nat) : R := c * v d + h * push H u d.
Definition next_u (u v : nat -> R) (d : nat) : R := u d + k * half u v d.
Definition next_v (u v : nat -> R) (d : nat) : R := c * (half u v d + h * push H' (next_u u v) d).
Lemma push_sym M (u a : nat -> R) : (forall d e, M d e = M e d) -> total (map (fun d => u d * push M a d) (seq 0 n)) = total (map (fun d => a d * push M u d) (seq 0 n)).
Proof using.
  intros S. transitivity (total (map (fun d => total (map (fun e => u d * (M d e * a e)) (seq 0 n))) (seq 0 n))).
  - apply tot_ext. intros d _. unfold push. pose proof (tot_lin (u d) 0 (fun e => M d e * a e) (fun _ => 0) (seq 0 n)) as X. rewrite Rmult_0_l, Rplus_0_r in X. etransitivity; [symmetry; exact X|]. apply tot_ext. intros; ring.
  - rewrite tot_exchange. apply tot_ext. intros e _. unfold push. pose proof (tot_lin (a e) 0 (fun d => M e d * u d) (fun _ => 0) (seq 0 n)) as X. rewrite Rmult_0_l, Rplus_0_r in X. etransitivity; [|exact X]. apply tot_ext. intros d _. rewrite S. ring.
Qed.
Lemma area_step u v a b : area n (next_u u v) (next_v u v) (next_u a b) (next_v a b) = c * c * area n u v a b.
Proof using All.
  unfold area. set (S f := total (map f (seq 0 n))).
  assert (L : forall x y f g, S (fun i => x * f i + y * g i) = x * S f + y * S g) by (intros; apply tot_lin).
  assert (E : forall f g, (forall i, f i = g i) -> S f = S g) by (intros f g Q; apply tot_ext; intros; apply Q).
  assert (P1 : S (fun d => u d * push H a d) = S (fun d => a d * push H u d)) by (apply push_sym; exact HH).
  assert (P2 : S (fun d => next_u u v d * push H' (next_u a b) d) = S (fun d => next_u a b d * push H' (next_u u v) d)) by (apply push_sym; exact HH').
  change (S (fun d => next_u u v d * next_v a b d - next_u a b d * next_v u v d) = c * c * S (fun d => u d * b d - a d * v d)).
  rewrite (E _ (fun d => c * (c * (u d * b d - a d * v d) + h * (u d * push H a d - a d * push H u d)) + c * h * (next_u u v d * push H' (next_u a b) d - next_u a b d * push H' (next_u u v) d))).
  2: { intros d. unfold next_v. generalize (push H' (next_u a b) d) (push H' (next_u u v) d). intros y z. unfold next_u, half. ring. }
  rewrite (L c (c * h) (fun d => c * (u d * b d - a d * v d) + h * (u d * push H a d - a d * push H u d)) (fun d => next_u u v d * push H' (next_u a b) d - next_u a b d * push H' (next_u u v) d)).
  rewrite (L c h (fun d => u d * b d - a d * v d) (fun d => u d * push H a d - a d * push H u d)).
  rewrite (E (fun d => u d * push H a d - a d * push H u d) (fun d => 1 * (u d * push H a d) + -1 * (a d * push H u d))) by (intros; ring).
  rewrite (E (fun d => next_u u v d * push H' (next_u a b) d - next_u a b d * push H' (next_u u v) d) (fun d => 1 * (next_u u v d * push H' (next_u a b) d) + -1 * (next_u a b d * push H' (next_u u v) d))) by (intros; ring).
  rewrite !L, P1, P2. ring.
Qed.
End Tangent.

(** ** runs *)
Section Run.
Context (rng : rng_if) (ld : ldpar) (friction mass : R) (H : vec -> nat -> nat -> R) (HS : sized rng) (HK : ld_kind ld = BussiParinello friction) (HB : pot_bc (ld_pot ld) = None)
  (HF : force_size (ld_pot ld)) (HM : force_matrix (ld_pot ld) H) (g : rng_st rng).
Let nd := pot_ndim (ld_pot ld).
Let c := ld_c1 friction (ld_dt ld).
Lemma dl_ext (f h : R -> R) t a : (forall s, f s = h s) -> derivable_pt_lim f t a -> derivable_pt_lim h t a.
Proof using. intros E D e He. destruct (D e He) as (z & Z). exists z. intros k K1 K2. rewrite <- !E. apply Z; assumption. Qed.
Lemma dl_const a t : derivable_pt_lim (fun _ => a) t 0.
Proof using. apply (derivable_pt_lim_const a). Qed.
Lemma dl_scale a (f : R -> R) t b : derivable_pt_lim f t b -> derivable_pt_lim (fun s => a * f s) t (a * b).
Proof using. apply (derivable_pt_lim_scal f a). Qed.
Lemma changes_step (q : R -> particle) (walker : R -> nat -> particle) n u v : (forall s, set_up ld friction mass (q s)) -> (forall s, follows rng ld (q s) g (walker s)) ->
  changes nd (fun s => walker s n) u v ->
  let k := ld_dt ld / mass in let h := ld_dt ld / 2 in
  changes nd (fun s => walker s (S n)) (next_u nd (H (p_pos (walker 0 n))) c k h u v) (next_v nd (H (p_pos (walker 0 n))) (H (p_pos (walker 0 (S n)))) c k h u v).
Proof using All.
  intros HP HW HC k h. destruct HM as (_ & HD).
  assert (R1 : forall s n, set_up ld friction mass (walker s n)) by (intros s j; apply (bp_recursion rng ld friction mass HS HK HB HF (q s) g (walker s) j (HP s) (HW s))).
  assert (LP : forall s n, length (p_pos (walker s n)) = nd) by (intros s j; destruct (R1 s j) as ((A & _) & _); exact A).
  assert (F1 : forall d, (d < nd)%nat -> derivable_pt_lim (fun s => nth d (pot_force (ld_pot ld) (p_pos (walker s n))) 0) 0 (total (map (fun e => H (p_pos (walker 0 n)) d e * u e) (seq 0 nd)))).
  { intros d Hd. apply (HD (fun s => p_pos (walker s n)) u); [intros s; apply LP|intros e He; apply (HC e He)|exact Hd]. }
  assert (X1 : forall d, (d < nd)%nat -> derivable_pt_lim (fun s => nth d (p_pos (walker s (S n))) 0) 0 (next_u nd (H (p_pos (walker 0 n))) c k h u v d)).
  { intros d Hd. pose proof (fun s => proj1 (proj2 (bp_recursion rng ld friction mass HS HK HB HF (q s) g (walker s) n (HP s) (HW s)) d Hd)) as Q. cbv zeta in Q.
    apply (dl_ext (fun s => nth d (p_pos (walker s n)) 0 + k * ((c * nth d (p_mom (walker s n)) 0 + h * nth d (pot_force (ld_pot ld) (p_pos (walker s n))) 0) + ld_c2 c mass (ld_kt ld) * nth d (draw rng nd (2 * n) g) 0))).
    - intros s. rewrite (Q s). unfold bp_position, k, h, c, nd, Rdiv. ring.
    - unfold next_u. apply dl_plus; [apply (HC d Hd)|]. apply dl_scale. rewrite <- (Rplus_0_r (c * v d + _)). apply dl_plus; [|apply dl_const]. apply dl_plus; apply dl_scale; [apply (HC d Hd)|apply F1; exact Hd]. }
  assert (F2 : forall d, (d < nd)%nat -> derivable_pt_lim (fun s => nth d (pot_force (ld_pot ld) (p_pos (walker s (S n)))) 0) 0
     (total (map (fun e => H (p_pos (walker 0 (S n))) d e * next_u nd (H (p_pos (walker 0 n))) c k h u v e) (seq 0 nd)))).
  { intros d Hd. apply (HD (fun s => p_pos (walker s (S n)))); [intros s; apply LP|exact X1|exact Hd]. }
  intros d Hd. split; [apply X1; exact Hd|].
  pose proof (fun s => proj2 (proj2 (bp_recursion rng ld friction mass HS HK HB HF (q s) g (walker s) n (HP s) (HW s)) d Hd)) as Q. cbv zeta in Q.
  set (e1 := nth d (draw rng nd (2 * n) g) 0) in *. set (e2 := nth d (draw rng nd (2 * n + 1) g) 0) in *.
  apply (dl_ext (fun s => c * ((c * nth d (p_mom (walker s n)) 0 + h * nth d (pot_force (ld_pot ld) (p_pos (walker s n))) 0) + h * nth d (pot_force (ld_pot ld) (p_pos (walker s (S n)))) 0)
     + (c * (ld_c2 c mass (ld_kt ld) * e1) + ld_c2 c mass (ld_kt ld) * e2))).
  - intros s. rewrite (Q s). unfold bp_momentum, h, c, e1, e2, nd, Rdiv. ring.
  - unfold next_v. match goal with |- derivable_pt_lim _ _ ?a => rewrite <- (Rplus_0_r a) end. apply dl_plus; [|apply dl_const]. apply dl_scale. apply dl_plus; [|apply dl_scale; apply F2; exact Hd].
    apply dl_plus; apply dl_scale; [apply (HC d Hd)|apply F1; exact Hd].
Qed.
End Run.
Lemma same_walk rng ld p g w1 w2 n : follows rng ld p g w1 -> follows rng ld p g w2 -> w1 n = w2 n.
Proof. intros A B. destruct (A n) as (g1 & E1). destruct (B n) as (g2 & E2). congruence. Qed.
Lemma area_contracts rng ld friction mass g q q' walker walker' u v u' v' : sized rng -> ld_kind ld = BussiParinello friction -> pot_bc (ld_pot ld) = None ->
  force_size (ld_pot ld) -> smooth_force (ld_pot ld) ->
  (forall s, set_up ld friction mass (q s)) -> (forall s, set_up ld friction mass (q' s)) -> q 0 = q' 0 ->
  (forall s, follows rng ld (q s) g (walker s)) -> (forall s, follows rng ld (q' s) g (walker' s)) ->
  changes (pot_ndim (ld_pot ld)) q u v -> changes (pot_ndim (ld_pot ld)) q' u' v' ->
  forall n, exists un vn un' vn',
    changes (pot_ndim (ld_pot ld)) (fun s => walker s n) un vn /\ changes (pot_ndim (ld_pot ld)) (fun s => walker' s n) un' vn' /\
    area (pot_ndim (ld_pot ld)) un vn un' vn' = exp (- (friction * (INR n * ld_dt ld))) * area (pot_ndim (ld_pot ld)) u v u' v'.
Proof.
  intros HS HK HB HF (H & HM) HP HP' E0 HW HW' C C'. induction n as [|n (un & vn & un' & vn' & A & A' & E)].
  - exists u, v, u', v'.
    assert (Z : forall (p : R -> particle) w, (forall s, follows rng ld (p s) g (w s)) -> forall s, w s 0%nat = p s).
    { intros p w Hw s. destruct (Hw s 0%nat) as (g1 & E1). cbn [ld_steps] in E1. congruence. }
    split; [|split].
    + intros d Hd. destruct (C d Hd) as (X & Y). split; [revert X|revert Y]; apply dl_ext; intros s; rewrite (Z q walker HW); reflexivity.
    + intros d Hd. destruct (C' d Hd) as (X & Y). split; [revert X|revert Y]; apply dl_ext; intros s; rewrite (Z q' walker' HW'); reflexivity.
    + cbn [INR]. rewrite Rmult_0_l, Rmult_0_r, Ropp_0, exp_0. ring.
  - pose proof (changes_step rng ld friction mass H HS HK HB HF HM g q walker n un vn HP HW A) as B. pose proof (changes_step rng ld friction mass H HS HK HB HF HM g q' walker' n un' vn' HP' HW' A') as B'.
    cbv zeta in B, B'. assert (Q : forall j, walker' 0 j = walker 0 j).
    { intros j. apply (same_walk rng ld (q 0) g); [rewrite E0; apply HW'|apply HW]. }
    rewrite !Q in B'. eexists _, _, _, _. split; [exact B|]. split; [exact B'|]. destruct HM as (SY & _). rewrite area_step by apply SY. rewrite E.
    assert (X : ld_c1 friction (ld_dt ld) * ld_c1 friction (ld_dt ld) = exp (- (friction * ld_dt ld))) by (unfold ld_c1; rewrite <- exp_plus; f_equal; lra).
    rewrite X, S_INR. replace (- (friction * ((INR n + 1) * ld_dt ld))) with (- (friction * ld_dt ld) + - (friction * (INR n * ld_dt ld))) by ring. rewrite exp_plus. ring.
Qed.

(** ** forces that come from a smooth energy *)
Definition along (n : nat) (f : vec -> R) (G : vec -> nat -> R) : Prop :=
  forall (y : R -> vec) u, (forall s, length (y s) = n) -> (forall d, (d < n)%nat -> derivable_pt_lim (fun s => nth d (y s) 0) 0 (u d)) ->
  derivable_pt_lim (fun s => f (y s)) 0 (total (map (fun e => G (y 0) e * u e) (seq 0 n))).
Lemma along_const n a : along n (fun _ => a) (fun _ _ => 0).
Proof. intros y u _ _. replace (total _) with 0; [apply dl_const|]. symmetry. apply Proof_pot.total_zero. intros; ring. Qed.
Lemma along_coord n d : (d < n)%nat -> along n (fun x => nth d x 0) (fun _ e => if Nat.eqb e d then 1 else 0).
Proof. intros Hd y u _ HD. rewrite (tot_pick n d u Hd). apply HD. exact Hd. Qed.
Lemma along_plus n f g F G : along n f F -> along n g G -> along n (fun x => f x + g x) (fun x e => F x e + G x e).
Proof.
  intros A B y u L D. replace (total _) with (total (map (fun e => F (y 0) e * u e) (seq 0 n)) + total (map (fun e => G (y 0) e * u e) (seq 0 n))); [apply dl_plus; [apply A|apply B]; assumption|].
  rewrite <- Proof_pot.total_plus. apply tot_ext. intros; ring.
Qed.
Lemma along_mult n f g F G : along n f F -> along n g G -> along n (fun x => f x * g x) (fun x e => F x e * g x + f x * G x e).
Proof.
  intros A B y u L D. replace (total _) with (total (map (fun e => F (y 0) e * u e) (seq 0 n)) * g (y 0) + f (y 0) * total (map (fun e => G (y 0) e * u e) (seq 0 n))).
  - apply (dl_mult (fun s => f (y s)) (fun s => g (y s))); [apply A|apply B]; assumption.
  - rewrite (Rmult_comm (total _) (g (y 0))), <- tot_lin. apply tot_ext. intros; ring.
Qed.
Lemma along_exp n f F : along n f F -> along n (fun x => exp (f x)) (fun x e => exp (f x) * F x e).
Proof.
  intros A y u L D. replace (total _) with (exp (f (y 0)) * total (map (fun e => F (y 0) e * u e) (seq 0 n))).
  - apply (dl_exp (fun s => f (y s))). apply A; assumption.
  - transitivity (exp (f (y 0)) * total (map (fun e => F (y 0) e * u e) (seq 0 n)) + 0 * total (map (fun e => F (y 0) e * u e) (seq 0 n))); [ring|]. rewrite <- tot_lin. apply tot_ext. intros; ring.
Qed.
Lemma along_ext n f g F : (forall x, length x = n -> f x = g x) -> along n f F -> along n g F.
Proof. intros E A y u L D. apply (dl_ext (fun s => f (y s))); [intros s; apply E, L|]. apply A; assumption. Qed.
Lemma elem_matrix n f : elem n f -> exists G H, (forall x d e, H x d e = H x e d) /\ along n f G /\ forall d, (d < n)%nat -> along n (fun x => G x d) (fun x e => H x d e).
Proof.
  induction 1 as [a|d Hd|f g _ (F & HF & S1 & A1 & B1) _ (G & HG & S2 & A2 & B2)|f g _ (F & HF & S1 & A1 & B1) _ (G & HG & S2 & A2 & B2)|f _ (F & HF & S1 & A1 & B1)|f g E _ (F & HF & S1 & A1 & B1)].
  - exists (fun _ _ => 0), (fun _ _ _ => 0). split; [reflexivity|]. split; [apply along_const|]. intros d _. apply along_const.
  - exists (fun _ e => if Nat.eqb e d then 1 else 0), (fun _ _ _ => 0). split; [reflexivity|]. split; [apply along_coord; exact Hd|]. intros e _. apply along_const.
  - exists (fun x e => F x e + G x e), (fun x d e => HF x d e + HG x d e). split; [intros x d e; rewrite S1, S2; reflexivity|]. split; [apply along_plus; assumption|].
    intros d Hd. apply (along_plus n (fun x => F x d) (fun x => G x d)); [apply B1|apply B2]; exact Hd.
  - exists (fun x e => F x e * g x + f x * G x e), (fun x d e => (HF x d e * g x + F x d * G x e) + (F x e * G x d + f x * HG x d e)).
    split; [intros x d e; rewrite (S1 x d e), (S2 x d e); ring|]. split; [apply along_mult; assumption|].
    intros d Hd. apply (along_plus n (fun x => F x d * g x) (fun x => f x * G x d)); [apply (along_mult n (fun x => F x d) g)|apply (along_mult n f (fun x => G x d))]; try assumption; [apply B1|apply B2]; exact Hd.
  - exists (fun x e => exp (f x) * F x e), (fun x d e => exp (f x) * F x e * F x d + exp (f x) * HF x d e).
    split; [intros x d e; rewrite (S1 x d e); ring|]. split; [apply along_exp; assumption|].
    intros d Hd. apply (along_mult n (fun x => exp (f x)) (fun x => F x d)); [apply along_exp; exact A1|apply B1; exact Hd].
  - exists F, HF. split; [exact S1|]. split; [apply (along_ext n f); assumption|exact B1].
Qed.
Lemma moved_size d t : forall x : vec, length (moved x d t) = length x.
Proof. revert t. induction d as [|d IH]; intros t [|a x]; cbn; try reflexivity. rewrite IH. reflexivity. Qed.
Lemma moved_at d t : forall (x : vec) e, (d < length x)%nat -> nth e (moved x d t) 0 = if Nat.eqb e d then t else nth e x 0.
Proof. induction d as [|d IH]; intros [|a x] [|e] Hd; cbn in Hd |- *; try lia; try reflexivity. apply IH. lia. Qed.
Lemma moved_back d : forall x : vec, moved x d (nth d x 0) = x.
Proof. induction d as [|d IH]; intros [|a x]; cbn; try reflexivity. rewrite IH. reflexivity. Qed.
Lemma gradient_force pot : elem (pot_ndim pot) (pot_energy pot) -> (forall x, length x = pot_ndim pot -> is_minus_gradient (pot_energy pot) x (pot_force pot x)) -> smooth_force pot.
Proof.
  intros EL GR. set (n := pot_ndim pot) in *. destruct (elem_matrix n _ EL) as (G & H & S & A & B).
  assert (Q : forall x d, length x = n -> (d < n)%nat -> nth d (pot_force pot x) 0 = - G x d).
  { intros x d Hx Hd. destruct (GR x Hx) as (_ & D). specialize (D d ltac:(lia)).
    pose proof (A (fun s => moved x d (nth d x 0 + s)) (fun e => if Nat.eqb e d then 1 else 0)) as X. cbv beta in X. rewrite Rplus_0_r, moved_back in X.
    assert (Y : derivable_pt_lim (fun s => pot_energy pot (moved x d (nth d x 0 + s))) 0 (G x d)).
    { replace (G x d) with (total (map (fun e => G x e * (if Nat.eqb e d then 1 else 0)) (seq 0 n))).
      - apply X; [intros s; rewrite moved_size; exact Hx|]. intros e He. destruct (Nat.eqb_spec e d) as [->|Ne].
        + apply (dl_ext (fun s => nth d x 0 + s)); [intros s; rewrite moved_at, Nat.eqb_refl by lia; reflexivity|]. rewrite <- (Rplus_0_l 1). apply dl_plus; [apply dl_const|apply derivable_pt_lim_id].
        + apply (dl_ext (fun s => nth e x 0)); [|apply dl_const]. intros s. rewrite moved_at by lia. destruct (Nat.eqb_spec e d); [congruence|reflexivity].
      - rewrite <- (tot_pick n d (G x) Hd). apply tot_ext. intros; ring. }
    assert (Z : derivable_pt_lim (fun s => pot_energy pot (moved x d (nth d x 0 + s))) 0 (- nth d (pot_force pot x) 0 * (0 + 1))).
    { apply (derivable_pt_lim_comp (fun s => nth d x 0 + s) (fun t => pot_energy pot (moved x d t))).
      - apply dl_plus; [apply dl_const|apply derivable_pt_lim_id].
      - rewrite Rplus_0_r. exact D. }
    pose proof (uniqueness_limite _ _ _ _ Y Z). lra. }
  exists (fun x d e => -1 * H x d e). split; [intros x d e; rewrite (S x d e); reflexivity|]. intros y u L D d Hd.
  apply (dl_ext (fun s => -1 * G (y s) d)); [intros s; rewrite (Q (y s) d (L s) Hd); ring|].
  replace (total _) with (-1 * total (map (fun e => H (y 0) d e * u e) (seq 0 n))).
  - apply dl_scale. apply (B d Hd); assumption.
  - transitivity (-1 * total (map (fun e => H (y 0) d e * u e) (seq 0 n)) + 0 * total (map (fun e => H (y 0) d e * u e) (seq 0 n))); [ring|]. rewrite <- tot_lin. apply tot_ext. intros; ring.
Qed.
Lemma poly_smooth c ranges bc pot : poly_init c ranges bc = Ok pot -> smooth_force pot.
Proof.
  intros HI. pose proof HI as HI'. unfold poly_init in HI'. destruct (Nat.ltb 3 (length (a_shape c))) eqn:E3; [discriminate HI'|]. destruct (Nat.eqb (length (a_shape c)) 0) eqn:E0; [discriminate HI'|].
  destruct (existsb (Nat.eqb 0) (a_shape c)) eqn:EX; [discriminate HI'|]. clear HI'. apply Nat.ltb_ge in E3. apply Nat.eqb_neq in E0.
  assert (F : Forall (fun n => (0 < n)%nat) (a_shape c)).
  { apply Forall_forall. intros n Hn. destruct n as [|n]; [|lia]. assert (X : existsb (Nat.eqb 0) (a_shape c) = true) by (apply existsb_exists; exists 0%nat; split; [exact Hn|reflexivity]). congruence. }
  destruct (poly_potential c ranges bc ltac:(lia) F) as (pot' & E & N & _ & _ & P). assert (pot' = pot) by congruence. subst pot'.
  apply gradient_force; [|intros x Hx; apply (P x Hx)]. rewrite N.
  apply (el_ext _ (fun x => total (map (fun idx => entry (a_shape c) (a_flat c) idx * monomial x idx) (indices (a_shape c))))).
  - intros x Hx. rewrite <- N in Hx. destruct (P x Hx) as (PE & _). rewrite PE. unfold polynomial. rewrite nsum_total. reflexivity.
  - apply (elem_total _ (fun x idx => entry (a_shape c) (a_flat c) idx * monomial x idx)). intros idx _. apply el_mult; [apply el_const|]. exact (elem_monomial _ idx 0).
Qed.
Lemma mb_smooth A bc : smooth_force (mb_potential A bc).
Proof.
  apply gradient_force; cbn [pot_ndim pot_energy pot_force mb_potential].
  - unfold mb_energy. cbn [fold_left seq]. elem_auto; apply elem_mb_exp.
  - intros x Hx. destruct x as [|a [|b [|c x]]]; try discriminate Hx. apply mb_gradient.
Qed.

(** ** one dimension *)
Lemma dl_shift (f : R -> R) x a : derivable_pt_lim (fun s => f (x + s)) 0 a -> derivable_pt_lim f x a.
Proof.
  intros D e He. destruct (D e He) as (z & Z). exists z. intros k K1 K2. specialize (Z k K1 K2). rewrite Rplus_0_l, Rplus_0_r in Z. exact Z.
Qed.
Lemma dl_line x : derivable_pt_lim (fun s => x + s) 0 1.
Proof. rewrite <- (Rplus_0_l 1). apply dl_plus; [apply dl_const|apply derivable_pt_lim_id]. Qed.
Lemma determinant rng ld friction mass g start walker : sized rng -> ld_kind ld = BussiParinello friction -> pot_bc (ld_pot ld) = None ->
  force_size (ld_pot ld) -> smooth_force (ld_pot ld) -> pot_ndim (ld_pot ld) = 1%nat ->
  (forall x m, set_up ld friction mass (start x m) /\ p_pos (start x m) = [x] /\ p_mom (start x m) = [m]) ->
  (forall x m, follows rng ld (start x m) g (walker x m)) ->
  forall n x m, exists A B C D,
    derivable_pt_lim (fun t => nth 0 (p_pos (walker t m n)) 0) x A /\ derivable_pt_lim (fun t => nth 0 (p_pos (walker x t n)) 0) m B /\
    derivable_pt_lim (fun t => nth 0 (p_mom (walker t m n)) 0) x C /\ derivable_pt_lim (fun t => nth 0 (p_mom (walker x t n)) 0) m D /\
    A * D - B * C = exp (- (friction * (INR n * ld_dt ld))).
Proof.
  intros HS HK HB HF HM N1 HP HW n x m.
  destruct (area_contracts rng ld friction mass g (fun s => start (x + s) m) (fun s => start x (m + s)) (fun s => walker (x + s) m) (fun s => walker x (m + s))
    (fun _ => 1) (fun _ => 0) (fun _ => 0) (fun _ => 1) HS HK HB HF HM) with (n := n) as (un & vn & un' & vn' & X & Y & E).
  - intros s. apply HP.
  - intros s. apply HP.
  - rewrite !Rplus_0_r. reflexivity.
  - intros s. apply HW.
  - intros s. apply HW.
  - intros d Hd. rewrite N1 in Hd. destruct d as [|d]; [|lia]. split.
    + apply (dl_ext (fun s => x + s)); [|apply dl_line]. intros s. destruct (HP (x + s) m) as (_ & Q & _). rewrite Q. reflexivity.
    + apply (dl_ext (fun s => m)); [|apply dl_const]. intros s. destruct (HP (x + s) m) as (_ & _ & Q). rewrite Q. reflexivity.
  - intros d Hd. rewrite N1 in Hd. destruct d as [|d]; [|lia]. split.
    + apply (dl_ext (fun s => x)); [|apply dl_const]. intros s. destruct (HP x (m + s)) as (_ & Q & _). rewrite Q. reflexivity.
    + apply (dl_ext (fun s => m + s)); [|apply dl_line]. intros s. destruct (HP x (m + s)) as (_ & _ & Q). rewrite Q. reflexivity.
  - rewrite N1 in X, Y, E. destruct (X 0%nat ltac:(lia)) as (X1 & X2). destruct (Y 0%nat ltac:(lia)) as (Y1 & Y2).
    exists (un 0%nat), (un' 0%nat), (vn 0%nat), (vn' 0%nat). cbv beta in *.
    split; [apply dl_shift; exact X1|]. split; [apply dl_shift; exact Y1|]. split; [apply dl_shift; exact X2|]. split; [apply dl_shift; exact Y2|].
    unfold area in E. cbn in E. lra.
Qed.
Lemma double_well_states friction dt kt : exists pot, poly_init (mkArr [5%nat] [0; 0; -2; 0; 1]) None None = Ok pot /\
  let ld := mkLD (BussiParinello friction) pot dt kt in
  pot_bc (ld_pot ld) = None /\ force_size (ld_pot ld) /\ smooth_force (ld_pot ld) /\ pot_ndim (ld_pot ld) = 1%nat /\
  (forall x m, set_up ld friction 1 (state_at ld friction x m) /\ p_pos (state_at ld friction x m) = [x] /\ p_mom (state_at ld friction x m) = [m]) /\
  forall (g : rng_st coin_rng) x m, exists walker, follows coin_rng ld (state_at ld friction x m) g walker.
Proof.
  destruct (poly_init (mkArr [5%nat] [0; 0; -2; 0; 1]) None None) as [pot|e] eqn:E; [|discriminate E]. exists pot. split; [reflexivity|]. intros ld. cbn [ld ld_pot].
  pose proof (poly_smooth _ _ _ _ E) as SM. assert (B : pot_bc pot = None /\ pot_ndim pot = 1%nat /\ force_size pot).
  { unfold poly_init in E. cbn in E. injection E as <-. split; [reflexivity|]. split; [reflexivity|]. intros x Hx. reflexivity. }
  destruct B as (B & N & FS).
  assert (SU : forall x m, set_up ld friction 1 (state_at ld friction x m)).
  { intros x m. split; [split; [cbn; symmetry; exact N|split; [cbn; symmetry; exact N|cbn; rewrite FS; [reflexivity|cbn; symmetry; exact N]]]|]. split; [split; reflexivity|]. split; reflexivity. }
  split; [exact B|]. split; [exact FS|]. split; [exact SM|]. split; [exact N|]. split; [intros x m; split; [apply SU|split; reflexivity]|].
  intros g x m. apply (walkers_exist coin_rng ld friction 1); [exact coin_sized|reflexivity|exact B|exact FS|apply SU].
Qed.
