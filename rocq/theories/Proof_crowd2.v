(** Different walkers are not correlated (C107) *)
From Coq Require Import Lra Lia.
From Verif Require Import PyBase Model_dyn Spec_grid Spec_ld Spec_well Spec_diffusion Spec_crowd Proof_base Proof_ld Proof_well Proof_well2 Proof_diffusion Proof_crowd.
Open Scope R_scope.
Ltac Zify.zify_post_hook ::= idtac.

Section Linear.
Context {W : Type} (mean : (W -> R) -> R) (HM : is_mean mean).
Lemma orth_left a1 a2 a3 a4 (u1 u2 u3 u4 u v : W -> R) : (forall w, u w = a1 * u1 w + a2 * u2 w + a3 * u3 w + a4 * u4 w) ->
  mean (fun w => u1 w * v w) = 0 -> mean (fun w => u2 w * v w) = 0 -> mean (fun w => u3 w * v w) = 0 -> mean (fun w => u4 w * v w) = 0 -> mean (fun w => u w * v w) = 0.
Proof using All.
  intros E H1 H2 H3 H4. transitivity (mean (fun w => a1 * (u1 w * v w) + a2 * (u2 w * v w) + a3 * (u3 w * v w) + a4 * (u4 w * v w))).
  - apply HM. intros w. rewrite E. ring.
  - rewrite (mean_lin mean HM a1 a2 a3 a4 (fun w => u1 w * v w) (fun w => u2 w * v w) (fun w => u3 w * v w) (fun w => u4 w * v w)), H1, H2, H3, H4. ring.
Qed.
Lemma orth_sym (u v : W -> R) : mean (fun w => u w * v w) = 0 -> mean (fun w => v w * u w) = 0.
Proof using All. intros <-. apply HM. intros w. ring. Qed.
End Linear.

(** one step in a harmonic well is linear *)
Lemma well_step ld friction mass k d : ld_kind ld = BussiParinello friction -> well (ld_pot ld) d k -> 0 < mass ->
  exists a1 a2 a3 b1 b2 b3 b4, forall rng p g walker n, sized rng -> set_up ld friction mass p -> follows rng ld p g walker ->
  let x n := nth d (p_pos (walker n)) 0 in let m n := nth d (p_mom (walker n)) 0 in
  let e := nth d (draw rng (pot_ndim (ld_pot ld)) (2 * n) g) 0 in let e' := nth d (draw rng (pot_ndim (ld_pot ld)) (2 * n + 1) g) 0 in
  x (S n) = a1 * x n + a2 * m n + a3 * e + 0 * e' /\ m (S n) = b1 * x n + b2 * m n + b3 * e + b4 * e'.
Proof.
  intros HK (HB & HF & Hd & Hf) Hm. set (c1 := ld_c1 friction (ld_dt ld)). set (c2 := ld_c2 c1 mass (ld_kt ld)). set (h := ld_dt ld).
  set (a1 := 1 - k * h / 2 / mass * h). set (a2 := c1 / mass * h). set (a3 := c2 / mass * h).
  exists a1, a2, a3, (c1 * (- k * h / 2 - k * h / 2 * a1)), (c1 * (c1 - k * h / 2 * a2)), (c1 * (c2 - k * h / 2 * a3)), c2.
  intros rng p g walker n HS HP HW. cbv zeta. destruct (bp_recursion rng ld friction mass HS HK HB HF p g walker n HP HW) as (SU & R). specialize (R d Hd). cbv zeta in R.
  destruct (bp_recursion rng ld friction mass HS HK HB HF p g walker (S n) HP HW) as (SU' & _).
  destruct SU as ((L & _) & _). destruct SU' as ((L' & _) & _). rewrite (Hf _ L), (Hf _ L') in R. fold c1 h in R. fold c2 in R.
  destruct R as (R1 & R2). split; [rewrite R1|rewrite R2, R1]; unfold bp_position, bp_momentum, a1, a2, a3; field; lra.
Qed.

Section Two.
Context {W : Type} (mean : (W -> R) -> R) (rng : rng_if) (ld : ldpar) (friction mass k : R) (d m M : nat) (ps : W -> list particle) (g : W -> rng_st rng) (crowd : W -> nat -> list particle)
  (HM : is_mean mean) (HS : sized rng) (HK : ld_kind ld = BussiParinello friction) (HL : forall w, length (ps w) = m)
  (HP : forall w p, In p (ps w) -> set_up ld friction mass p) (HC : forall w, crowd_follows rng ld (ps w) (g w) (crowd w)) (HW : well (ld_pot ld) d k) (Hm : 0 < mass).
Let noise (k : nat) (w : W) : R := nth d (draw rng (pot_ndim (ld_pot ld)) k (g w)) 0.
Let x (n i : nat) (w : W) : R := nth d (p_pos (walker_of i (crowd w n))) 0.
Let p (n i : nat) (w : W) : R := nth d (p_mom (walker_of i (crowd w n))) 0.
Context (H0 : forall i, (i < m)%nat -> white mean M noise (fun w => nth d (p_pos (walker_of i (ps w))) 0) (fun w => nth d (p_mom (walker_of i (ps w))) 0))
  (HX : forall i j, (i < m)%nat -> (j < m)%nat -> i <> j -> uncorrelated mean d (fun w => walker_of i (ps w)) (fun w => walker_of j (ps w))).

Lemma crowd_start w : crowd w 0%nat = ps w.
Proof using All. destruct (HC w 0%nat) as (g' & E). cbn in E. congruence. Qed.

Lemma noise_at w i n r : (i < m)%nat -> (r < 2)%nat ->
  nth d (draw prepared (pot_ndim (ld_pot ld)) (2 * n + r) (dealt rng ld m i (g w), 0%nat)) 0 = noise (2 * (m * n + i) + r)%nat w.
Proof using All.
  intros Hi Hr. rewrite (dealt_value rng ld m i (g w) d (2 * n + r) HS). unfold noise, place_in_sequence. rewrite HK. cbn [calls].
  assert (D : ((2 * n + r) / 2 = n)%nat) by (rewrite (Nat.mul_comm 2 n), Nat.div_add_l, Nat.div_small by lia; lia).
  assert (Mo : ((2 * n + r) mod 2 = r)%nat) by (rewrite (Nat.add_comm (2 * n)), (Nat.mul_comm 2 n), Nat.mod_add, Nat.mod_small by lia; reflexivity).
  rewrite D, Mo. reflexivity.
Qed.

Lemma pairs n : (2 * m * n <= M)%nat ->
  (forall i, (i < m)%nat -> forall q, (2 * m * n <= q < M)%nat -> mean (fun w => x n i w * noise q w) = 0 /\ mean (fun w => p n i w * noise q w) = 0) /\
  (forall i j, (i < m)%nat -> (j < m)%nat -> i <> j -> mean (fun w => x n i w * x n j w) = 0 /\ mean (fun w => x n i w * p n j w) = 0 /\ mean (fun w => p n i w * p n j w) = 0).
Proof using All.
  assert (E : forall f h, (forall w, f w = h w) -> mean f = mean h) by apply HM.
  destruct (well_step ld friction mass k d HK HW Hm) as (a1 & a2 & a3 & b1 & b2 & b3 & b4 & Step).
  induction n as [|n IH]; intros Hn.
  - split.
    + intros i Hi q Hq. destruct (H0 i Hi) as (_ & _ & Q). destruct (Q q) as (A & B); [lia|].
      split; [etransitivity; [|exact A]|etransitivity; [|exact B]]; apply E; intros w; unfold x, p; rewrite crowd_start; reflexivity.
    + intros i j Hi Hj Ne. destruct (HX i j Hi Hj Ne) as (A & B & _ & C).
      split; [etransitivity; [|exact A]|split; [etransitivity; [|exact B]|etransitivity; [|exact C]]]; apply E; intros w; unfold x, p; rewrite crowd_start; reflexivity.
  - destruct IH as (IN & IP); [lia|].
    set (e := fun i w => noise (2 * (m * n + i) + 0)%nat w). set (f := fun i w => noise (2 * (m * n + i) + 1)%nat w).
    assert (SX : forall i, (i < m)%nat -> forall w, x (S n) i w = a1 * x n i w + a2 * p n i w + a3 * e i w + 0 * f i w /\ p (S n) i w = b1 * x n i w + b2 * p n i w + b3 * e i w + b4 * f i w).
    { intros i Hi w.
      pose proof (Step prepared (walker_of i (ps w)) (dealt rng ld m i (g w), 0%nat) (fun n => walker_of i (crowd w n)) n prepared_sized
        (one_set_up mean rng ld friction mass d m ps g crowd HM HS HK HL HP HC i Hi w) (one_follows mean rng ld friction mass d m ps g crowd HM HS HK HL HP HC i Hi w)) as Q.
      cbv zeta in Q. assert (E0 : (2 * n = 2 * n + 0)%nat) by lia. rewrite E0 in Q at 1. rewrite E0 in Q at 3.
      rewrite !noise_at in Q by lia. exact Q. }
    assert (NN : forall q r, (q < M)%nat -> (r < M)%nat -> q <> r -> (0 < m)%nat -> mean (fun w => noise q w * noise r w) = 0).
    { intros q r Hq Hr Ne Pm. destruct (H0 0%nat Pm) as (_ & Q & _). apply Q; assumption. }
    assert (Bd : forall i r, (i < m)%nat -> (r < 2)%nat -> (2 * m * n <= 2 * (m * n + i) + r < 2 * m * S n)%nat) by (intros; nia).
    split.
    + intros i Hi q Hq. destruct (IN i Hi q) as (A & B); [lia|].
      assert (C1 : mean (fun w => e i w * noise q w) = 0) by (pose proof (Bd i 0%nat Hi ltac:(lia)); apply NN; lia).
      assert (C2 : mean (fun w => f i w * noise q w) = 0) by (pose proof (Bd i 1%nat Hi ltac:(lia)); apply NN; lia).
      split; [apply (orth_left mean HM a1 a2 a3 0 (x n i) (p n i) (e i) (f i))|apply (orth_left mean HM b1 b2 b3 b4 (x n i) (p n i) (e i) (f i))]; try assumption; intros w; apply (SX i Hi w).
    + intros i j Hi Hj Ne. pose proof (Bd i 0%nat Hi ltac:(lia)) as Bi0. pose proof (Bd i 1%nat Hi ltac:(lia)) as Bi1. pose proof (Bd j 0%nat Hj ltac:(lia)) as Bj0. pose proof (Bd j 1%nat Hj ltac:(lia)) as Bj1.
      destruct (IP i j Hi Hj Ne) as (XX & XP & PP). destruct (IP j i Hj Hi ltac:(congruence)) as (_ & PX & _). apply (orth_sym mean HM) in PX.
      destruct (IN i Hi (2 * (m * n + j) + 0)%nat) as (Xie & Pie); [lia|]. destruct (IN i Hi (2 * (m * n + j) + 1)%nat) as (Xif & Pif); [lia|].
      destruct (IN j Hj (2 * (m * n + i) + 0)%nat) as (Xje & Pje); [lia|]. destruct (IN j Hj (2 * (m * n + i) + 1)%nat) as (Xjf & Pjf); [lia|].
      apply (orth_sym mean HM) in Xje, Pje, Xjf, Pjf.
      assert (EE : mean (fun w => e i w * e j w) = 0) by (apply NN; lia). assert (EF : mean (fun w => e i w * f j w) = 0) by (apply NN; lia).
      assert (FE : mean (fun w => f i w * e j w) = 0) by (apply NN; lia). assert (FF : mean (fun w => f i w * f j w) = 0) by (apply NN; lia).
      assert (Any : forall u, mean (fun w => x n i w * u w) = 0 -> mean (fun w => p n i w * u w) = 0 -> mean (fun w => e i w * u w) = 0 -> mean (fun w => f i w * u w) = 0 ->
        mean (fun w => x (S n) i w * u w) = 0 /\ mean (fun w => p (S n) i w * u w) = 0).
      { intros u U1 U2 U3 U4. split; [apply (orth_left mean HM a1 a2 a3 0 (x n i) (p n i) (e i) (f i))|apply (orth_left mean HM b1 b2 b3 b4 (x n i) (p n i) (e i) (f i))]; try assumption; intros w; apply (SX i Hi w). }
      destruct (Any (x n j) XX PX Xje Xjf) as (R1 & R2). destruct (Any (p n j) XP PP Pje Pjf) as (R3 & R4). destruct (Any (e j) Xie Pie EE FE) as (R5 & R6). destruct (Any (f j) Xif Pif EF FF) as (R7 & R8).
      apply (orth_sym mean HM) in R1, R2, R3, R4, R5, R6, R7, R8.
      split; [|split]; apply (orth_sym mean HM).
      * apply (orth_left mean HM a1 a2 a3 0 (x n j) (p n j) (e j) (f j)); try assumption. intros w; apply (SX j Hj w).
      * apply (orth_left mean HM b1 b2 b3 b4 (x n j) (p n j) (e j) (f j)); try assumption. intros w; apply (SX j Hj w).
      * apply (orth_left mean HM b1 b2 b3 b4 (x n j) (p n j) (e j) (f j)); try assumption. intros w; apply (SX j Hj w).
Qed.

Lemma stay_uncorrelated i j n : (2 * m * n <= M)%nat -> (i < m)%nat -> (j < m)%nat -> i <> j ->
  uncorrelated mean d (fun w => walker_of i (crowd w n)) (fun w => walker_of j (crowd w n)).
Proof using All.
  intros Hn Hi Hj Ne. destruct (pairs n Hn) as (_ & P). destruct (P i j Hi Hj Ne) as (A & B & C). destruct (P j i Hj Hi ltac:(congruence)) as (_ & D & _).
  split; [exact A|]. split; [exact B|]. split; [apply (orth_sym mean HM); exact D|exact C].
Qed.
End Two.

(** ** fluctuation of the average over the walkers *)
Lemma total_delta (m i : nat) X : (i < m)%nat -> total (map (fun j => if Nat.eqb i j then X else 0) (seq 0 m)) = X.
Proof.
  assert (A : forall m s, (s <= i)%nat -> total (map (fun j => if Nat.eqb i j then X else 0) (seq s m)) = if Nat.ltb i (s + m) then X else 0).
  { induction m0 as [|m0 IH]; intros s Hs; cbn [seq map].
    - destruct (Nat.ltb_spec i (s + 0)); [lia|reflexivity].
    - change (total (?a :: ?l)) with (a + total l). destruct (Nat.eqb_spec i s) as [->|N].
      + assert (Z : forall l, (forall j, In j l -> s <> j) -> total (map (fun j => if Nat.eqb s j then X else 0) l) = 0).
        { induction l as [|b l IHl]; intros Q; cbn [map]; [reflexivity|]. change (total (?a :: ?l)) with (a + total l). rewrite IHl by (intros; apply Q; now right).
          destruct (Nat.eqb_spec s b); [exfalso; apply (Q b); [now left|assumption]|lra]. }
        rewrite Z by (intros j Hj; apply in_seq in Hj; lia). destruct (Nat.ltb_spec s (s + S m0)); [lra|lia].
      + rewrite IH by lia. destruct (Nat.ltb_spec i (S s + m0)), (Nat.ltb_spec i (s + S m0)); try lia; lra. }
  intros Hi. rewrite A by lia. destruct (Nat.ltb_spec i (0 + m)); [reflexivity|lia].
Qed.
Lemma total_mult_r {A} (f : A -> R) l a : total (map f l) * a = total (map (fun i => f i * a) l).
Proof. induction l as [|b l IH]; cbn [map]; [cbn; ring|]. change (total (?a :: ?l)) with (a + total l). rewrite <- IH. ring. Qed.
Lemma total_same {A} (f h : A -> R) l : (forall a, In a l -> f a = h a) -> total (map f l) = total (map h l).
Proof. intros H. f_equal. now apply map_ext_in. Qed.
Lemma mean_square_sum {W} (mean : (W -> R) -> R) (m : nat) (x : nat -> W -> R) X : is_mean mean -> (0 < m)%nat ->
  (forall i, (i < m)%nat -> mean (fun w => x i w * x i w) = X) -> (forall i j, (i < m)%nat -> (j < m)%nat -> i <> j -> mean (fun w => x i w * x j w) = 0) ->
  mean (fun w => (total (map (fun i => x i w) (seq 0 m)) / INR m) * (total (map (fun i => x i w) (seq 0 m)) / INR m)) = X / INR m.
Proof.
  intros HM Pm H1 H2. assert (E : forall f h, (forall w, f w = h w) -> mean f = mean h) by apply HM. assert (Nm : INR m <> 0) by (apply not_0_INR; lia).
  transitivity (mean (fun w => / (INR m * INR m) * total (map (fun i => total (map (fun j => x j w * x i w) (seq 0 m))) (seq 0 m)))).
  - apply E. intros w. set (T := total (map (fun i => x i w) (seq 0 m))).
    transitivity (/ (INR m * INR m) * (T * T)); [field; exact Nm|]. f_equal. unfold T at 1. rewrite total_mult_r. apply total_same. intros i _.
    rewrite Rmult_comm. unfold T. apply total_mult_r.
  - rewrite (mean_scale mean) by exact HM. rewrite (mean_total mean HM m (fun i w => total (map (fun j => x j w * x i w) (seq 0 m)))).
    rewrite (total_same _ (fun _ => X)).
    + assert (Q : forall l : list nat, total (map (fun _ => X) l) = INR (length l) * X).
      { induction l as [|b l IH]; cbn [map length]; [cbn; ring|]. rewrite S_INR. change (total (?a :: ?l)) with (a + total l). rewrite IH. ring. }
      rewrite Q, seq_length. field. exact Nm.
    + intros i Hi. apply in_seq in Hi. rewrite (mean_total mean HM m (fun j w => x j w * x i w)).
      rewrite (total_same _ (fun j => if Nat.eqb i j then X else 0)); [apply total_delta; lia|].
      intros j Hj. apply in_seq in Hj. destruct (Nat.eqb_spec i j) as [<-|N]; [apply H1; lia|apply H2; [lia|lia|congruence]].
Qed.
Lemma crowd_center W (mean : (W -> R) -> R) rng ld friction mass k d m ps g crowd n :
  is_mean mean -> sized rng -> ld_kind ld = BussiParinello friction -> (forall w, length (ps w) = m) -> (forall w p, In p (ps w) -> set_up ld friction mass p) ->
  (forall w, crowd_follows rng ld (ps w) (g w) (crowd w)) ->
  well (ld_pot ld) d k -> 0 <= friction -> 0 < k -> 0 < mass -> 0 < ld_kt ld -> 0 < ld_dt ld -> k * ld_dt ld ^ 2 < 4 * mass -> (0 < m)%nat ->
  (forall i, (i < m)%nat ->
    white mean (2 * m * n) (fun k w => nth d (draw rng (pot_ndim (ld_pot ld)) k (g w)) 0) (fun w => nth d (p_pos (walker_of i (ps w))) 0) (fun w => nth d (p_mom (walker_of i (ps w))) 0) /\
    moments mean d (fun w => walker_of i (ps w)) (mean_square_position k mass (ld_kt ld) (ld_dt ld)) 0 (mean_square_momentum mass (ld_kt ld))) ->
  (forall i j, (i < m)%nat -> (j < m)%nat -> i <> j -> uncorrelated mean d (fun w => walker_of i (ps w)) (fun w => walker_of j (ps w))) ->
  mean (fun w => over_walkers (fun p => nth d (p_pos p) 0) (crowd w n) * over_walkers (fun p => nth d (p_pos p) 0) (crowd w n)) = mean_square_position k mass (ld_kt ld) (ld_dt ld) / INR m.
Proof.
  intros HM HS HK HL HP HC HW H1 H2 H3 H4 H5 H6 Hm HN HU.
  assert (LC : forall w, length (crowd w n) = m).
  { intros w. destruct (HC w n) as (g' & E). destruct (alone rng ld n (ps w) (g w) _ _ HS E) as (L & _). rewrite L. apply HL. }
  assert (E : forall f h, (forall w, f w = h w) -> mean f = mean h) by apply HM.
  etransitivity; [|apply (mean_square_sum mean m (fun i w => nth d (p_pos (walker_of i (crowd w n))) 0)); try assumption].
  - apply E. intros w. unfold over_walkers. rewrite (map_walkers (fun p => nth d (p_pos p) 0) (crowd w n)), LC. reflexivity.
  - intros i Hi. destruct (HN i Hi) as (N1 & N2). apply (crowd_equilibrium mean rng ld friction mass d m ps g crowd HM HS HK HL HP HC k i n); assumption.
  - intros i j Hi Hj Ne. apply (stay_uncorrelated mean rng ld friction mass k d m (2 * m * n) ps g crowd HM HS HK HL HP HC HW H3 (fun i Hi => proj1 (HN i Hi)) HU i j n); [lia|assumption..].
Qed.

(** ** the example *)
Lemma nth_skip (l : list R) a k : nth k (skipn a l) 0 = nth (a + k) l 0.
Proof. revert l. induction a as [|a IH]; intros l; [reflexivity|]. destruct l as [|b l]; cbn; [destruct k; reflexivity|]. apply IH. Qed.
Lemma toss_draw m k w : nth 0 (draw coin_rng 2 k (toss_state m w)) 0 = nth (2 * m + k) w 0.
Proof.
  unfold draw, toss_state. assert (A : forall i (l : list R), hd 0 (after_draws coin_rng 2 i l) = nth i l 0).
  { induction i as [|i IH]; intros l; [destruct l; reflexivity|]. cbn [after_draws]. etransitivity; [apply IH|]. destruct l; [destruct i; reflexivity|reflexivity]. }
  rewrite <- nth_skip. etransitivity; [|apply A]. reflexivity.
Qed.
Lemma toss_of ld c2 sx sp m i w : (i < m)%nat -> walker_of i (toss_starts ld c2 sx sp m w) = toss_start ld c2 sx sp i w.
Proof. intros Hi. unfold walker_of, toss_starts. rewrite (nth_map_in _ _ _ _ 0%nat) by (rewrite seq_length; exact Hi). rewrite seq_nth by exact Hi. reflexivity. Qed.
Lemma toss_crowd m n :
  let ld := demo_ld (BussiParinello 1) None in
  let ps := toss_starts ld (ld_c2 (ld_c1 1 (1/10)) 1 1) (sqrt (mean_square_position 2 1 1 (1/10))) (sqrt (mean_square_momentum 1 1)) m in
  let mean := coins (2 * m + 2 * m * n) in
  is_mean mean /\ sized coin_rng /\ well (ld_pot ld) 0 2 /\ (forall w, length (ps w) = m) /\ (forall w p, In p (ps w) -> set_up ld 1 1 p) /\
  (forall w, exists crowd, crowd_follows coin_rng ld (ps w) (toss_state m w) crowd) /\
  (forall i, (i < m)%nat ->
    white mean (2 * m * n) (fun k w => nth 0 (draw coin_rng 2 k (toss_state m w)) 0) (fun w => nth 0 (p_pos (walker_of i (ps w))) 0) (fun w => nth 0 (p_mom (walker_of i (ps w))) 0) /\
    moments mean 0 (fun w => walker_of i (ps w)) (mean_square_position 2 1 1 (1/10)) 0 (mean_square_momentum 1 1)) /\
  forall i j, (i < m)%nat -> (j < m)%nat -> i <> j -> uncorrelated mean 0 (fun w => walker_of i (ps w)) (fun w => walker_of j (ps w)).
Proof.
  intros ld. set (sx := sqrt (mean_square_position 2 1 1 (1/10))). set (sp := sqrt (mean_square_momentum 1 1)). set (c2 := ld_c2 (ld_c1 1 (1/10)) 1 1). intros ps mean.
  assert (SX : sx * sx = mean_square_position 2 1 1 (1/10)) by (apply sqrt_sqrt; unfold mean_square_position; lra).
  assert (SP : sp * sp = mean_square_momentum 1 1) by (apply sqrt_sqrt; unfold mean_square_momentum; lra).
  assert (HM : is_mean mean) by apply coins_ok.
  assert (SU : forall w p, In p (ps w) -> set_up ld 1 1 p).
  { intros w p Hp. apply in_map_iff in Hp as (i & <- & _). exact (coin_set_up sx sp [nth (2 * i) w 0; nth (2 * i + 1) w 0]). }
  split; [exact HM|]. split; [exact coin_sized|]. split; [exact coin_well|]. split; [intros w; unfold ps, toss_starts; rewrite map_length; apply seq_length|]. split; [exact SU|]. split.
  { intros w. destruct coin_well as (B & F & _). apply (crowd_runs coin_rng ld 1 1); [exact coin_sized|reflexivity|exact B|exact F|apply SU]. }
  assert (P : forall a b i j f, (i < 2 * m + 2 * m * n)%nat -> (j < 2 * m + 2 * m * n)%nat -> (forall w, f w = (a * nth i w 0) * (b * nth j w 0)) -> mean f = if Nat.eqb i j then a * b else 0).
  { intros a b i j f Hi Hj H. transitivity (mean (fun w => a * b * (nth i w 0 * nth j w 0))); [apply HM; intros w; rewrite H; ring|].
    unfold mean. rewrite coins_scale, coins_pair by assumption. destruct (Nat.eqb i j); ring. }
  assert (VX : forall i w, (i < m)%nat -> nth 0 (p_pos (walker_of i (ps w))) 0 = sx * nth (2 * i) w 0) by (intros i w Hi; unfold ps; rewrite toss_of by exact Hi; reflexivity).
  assert (VP : forall i w, (i < m)%nat -> nth 0 (p_mom (walker_of i (ps w))) 0 = sp * nth (2 * i + 1) w 0) by (intros i w Hi; unfold ps; rewrite toss_of by exact Hi; reflexivity).
  split.
  - intros i Hi. split; [split; [|split]|split; [|split]].
    + intros k Hk. rewrite (P 1 1 (2 * m + k)%nat (2 * m + k)%nat); [rewrite Nat.eqb_refl; ring|lia|lia|]. intros w. rewrite !toss_draw. ring.
    + intros k l Hk Hl Ne. rewrite (P 1 1 (2 * m + k)%nat (2 * m + l)%nat); [destruct (Nat.eqb_spec (2 * m + k) (2 * m + l)); [lia|reflexivity]|lia|lia|]. intros w. rewrite !toss_draw. ring.
    + intros k Hk. split.
      * rewrite (P sx 1 (2 * i)%nat (2 * m + k)%nat); [destruct (Nat.eqb_spec (2 * i) (2 * m + k)); [lia|reflexivity]|lia|lia|]. intros w. rewrite toss_draw, VX by exact Hi. ring.
      * rewrite (P sp 1 (2 * i + 1)%nat (2 * m + k)%nat); [destruct (Nat.eqb_spec (2 * i + 1) (2 * m + k)); [lia|reflexivity]|lia|lia|]. intros w. rewrite toss_draw, VP by exact Hi. ring.
    + rewrite (P sx sx (2 * i)%nat (2 * i)%nat); [rewrite Nat.eqb_refl; exact SX|lia|lia|]. intros w. rewrite VX by exact Hi. ring.
    + rewrite (P sx sp (2 * i)%nat (2 * i + 1)%nat); [destruct (Nat.eqb_spec (2 * i) (2 * i + 1)); [lia|reflexivity]|lia|lia|]. intros w. rewrite VX, VP by exact Hi. ring.
    + rewrite (P sp sp (2 * i + 1)%nat (2 * i + 1)%nat); [rewrite Nat.eqb_refl; exact SP|lia|lia|]. intros w. rewrite VP by exact Hi. ring.
  - intros i j Hi Hj Ne. split; [|split; [|split]].
    + rewrite (P sx sx (2 * i)%nat (2 * j)%nat); [destruct (Nat.eqb_spec (2 * i) (2 * j)); [lia|reflexivity]|lia|lia|]. intros w. rewrite !VX by assumption. ring.
    + rewrite (P sx sp (2 * i)%nat (2 * j + 1)%nat); [destruct (Nat.eqb_spec (2 * i) (2 * j + 1)); [lia|reflexivity]|lia|lia|]. intros w. rewrite VX, VP by assumption. ring.
    + rewrite (P sp sx (2 * i + 1)%nat (2 * j)%nat); [destruct (Nat.eqb_spec (2 * i + 1) (2 * j)); [lia|reflexivity]|lia|lia|]. intros w. rewrite VX, VP by assumption. ring.
    + rewrite (P sp sp (2 * i + 1)%nat (2 * j + 1)%nat); [destruct (Nat.eqb_spec (2 * i + 1) (2 * j + 1)); [lia|reflexivity]|lia|lia|]. intros w. rewrite !VP by assumption. ring.
Qed.
