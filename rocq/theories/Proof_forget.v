(** Proofs for runs that forget their start (C109) *)
From Coq Require Import Lra Lia.
From Verif Require Import PyBase Model_dyn Spec_grid Spec_ld Spec_well Spec_crowd Spec_forget Proof_base Proof_ld Proof_well Proof_well2 Proof_crowd Proof_crowd2 Proof_crowd3 Proof_volume.
Open Scope R_scope.
Ltac Zify.zify_post_hook ::= idtac.

Lemma distance2_pos n x y : 0 <= distance2 n x y.
Proof. unfold distance2. induction (seq 0 n) as [|d l IH]; cbn [map]; [cbn; lra|]. change (total (?a :: ?b)) with (a + total b). pose proof (pow2_ge_0 (nth d x 0 - nth d y 0)). lra. Qed.
Lemma approach_pos k L dt : 0 <= k <= L -> 0 <= approach k L dt.
Proof. intros H. unfold approach. replace (1 - 2 * k * dt + L ^ 2 * dt ^ 2) with ((1 - k * dt) ^ 2 + (L - k) * (L + k) * dt ^ 2) by ring. pose proof (pow2_ge_0 (1 - k * dt)). pose proof (pow2_ge_0 dt). assert (0 <= (L - k) * (L + k)) by (apply Rmult_le_pos; lra). assert (0 <= (L - k) * (L + k) * dt ^ 2) by (apply Rmult_le_pos; lra). lra. Qed.

Section One.
Context (rng : rng_if) (ld : ldpar) (k L : R) (HS : sized rng) (HK : ld_kind ld = Overdamped) (HB : pot_bc (ld_pot ld) = None) (HF : force_size (ld_pot ld))
  (HC : confining (ld_pot ld) k L) (Ht : 0 <= ld_dt ld) (HL : 0 <= k <= L).
Let nd := pot_ndim (ld_pot ld).
Lemma one_forgets p p' g walker walker' : right_size nd p /\ consistent (ld_pot ld) p -> right_size nd p' /\ consistent (ld_pot ld) p' ->
  follows rng ld p g walker -> follows rng ld p' g walker' ->
  forall n, distance2 nd (p_pos (walker n)) (p_pos (walker' n)) <= approach k L (ld_dt ld) ^ n * distance2 nd (p_pos p) (p_pos p').
Proof using All.
  intros HP HP' HW HW'. induction n as [|n IH].
  - destruct (HW 0%nat) as (g1 & E1). destruct (HW' 0%nat) as (g2 & E2). cbn [ld_steps] in E1, E2. injection E1 as <- _. injection E2 as <- _. cbn [pow]. lra.
  - destruct (od_recursion rng ld HS HK HB HF p g walker n HP HW) as (((S1 & _) & _) & R1). destruct (od_recursion rng ld HS HK HB HF p' g walker' n HP' HW') as (((S2 & _) & _) & R2).
    set (x := p_pos (walker n)) in *. set (y := p_pos (walker' n)) in *. destruct (HC x y S1 S2) as (C1 & C2). fold nd in C1, C2, R1, R2.
    set (f := pot_force (ld_pot ld) x) in *. set (h := pot_force (ld_pot ld) y) in *.
    assert (E : distance2 nd (p_pos (walker (S n))) (p_pos (walker' (S n))) = distance2 nd x y + 2 * ld_dt ld * total (map (fun d => (nth d x 0 - nth d y 0) * (nth d f 0 - nth d h 0)) (seq 0 nd)) + ld_dt ld ^ 2 * distance2 nd f h).
    { unfold distance2 at 1. transitivity (total (map (fun d => 1 * (1 * (nth d x 0 - nth d y 0) ^ 2 + 2 * ld_dt ld * ((nth d x 0 - nth d y 0) * (nth d f 0 - nth d h 0))) + ld_dt ld ^ 2 * (nth d f 0 - nth d h 0) ^ 2) (seq 0 nd))).
      - apply tot_ext. intros d Hd. apply in_seq in Hd. rewrite (R1 d), (R2 d) by lia. ring.
      - rewrite (tot_lin 1 (ld_dt ld ^ 2) (fun d => 1 * (nth d x 0 - nth d y 0) ^ 2 + 2 * ld_dt ld * ((nth d x 0 - nth d y 0) * (nth d f 0 - nth d h 0))) (fun d => (nth d f 0 - nth d h 0) ^ 2)).
        rewrite (tot_lin 1 (2 * ld_dt ld) (fun d => (nth d x 0 - nth d y 0) ^ 2) (fun d => (nth d x 0 - nth d y 0) * (nth d f 0 - nth d h 0))). fold (distance2 nd x y). fold (distance2 nd f h). ring. }
    rewrite E. pose proof (approach_pos k L (ld_dt ld) HL) as AP.
    assert (B1 : 2 * ld_dt ld * total (map (fun d => (nth d x 0 - nth d y 0) * (nth d f 0 - nth d h 0)) (seq 0 nd)) <= 2 * ld_dt ld * (- k * distance2 nd x y)) by (apply Rmult_le_compat_l; [lra|exact C1]).
    assert (B2 : ld_dt ld ^ 2 * distance2 nd f h <= ld_dt ld ^ 2 * (L ^ 2 * distance2 nd x y)) by (apply Rmult_le_compat_l; [apply pow2_ge_0|exact C2]).
    apply Rle_trans with (approach k L (ld_dt ld) * distance2 nd x y); [unfold approach; lra|].
    cbn [pow]. rewrite Rmult_assoc. apply Rmult_le_compat_l; [exact AP|exact IH].
Qed.
End One.

(** ** all walkers of a population *)
Lemma crowd_forgets rng ld k L ps ps' g crowd crowd' : sized rng -> ld_kind ld = Overdamped -> pot_bc (ld_pot ld) = None -> force_size (ld_pot ld) ->
  confining (ld_pot ld) k L -> 0 <= k <= L -> 0 <= ld_dt ld -> length ps = length ps' ->
  (forall p, In p ps \/ In p ps' -> right_size (pot_ndim (ld_pot ld)) p /\ consistent (ld_pot ld) p) ->
  crowd_follows rng ld ps g crowd -> crowd_follows rng ld ps' g crowd' ->
  forall n i, (i < length ps)%nat ->
  distance2 (pot_ndim (ld_pot ld)) (p_pos (walker_of i (crowd n))) (p_pos (walker_of i (crowd' n))) <=
    approach k L (ld_dt ld) ^ n * distance2 (pot_ndim (ld_pot ld)) (p_pos (walker_of i ps)) (p_pos (walker_of i ps')).
Proof.
  intros HS HK HB HF HC HL Ht EL HP C C' n i Hi.
  pose proof (crowd_alone rng ld ps g crowd i HS C Hi) as F. assert (Hi' : (i < length ps')%nat) by (rewrite <- EL; exact Hi). pose proof (crowd_alone rng ld ps' g crowd' i HS C' Hi') as F'. rewrite <- EL in F'.
  apply (one_forgets prepared ld k L prepared_sized HK HB HF HC Ht HL _ _ _ _ _) with (4 := F') (3 := F).
  - apply HP. left. apply nth_In. exact Hi.
  - apply HP. right. apply nth_In. exact Hi'.
Qed.
Lemma crowd_meets ld k L : ld_kind ld = Overdamped -> pot_bc (ld_pot ld) = None -> force_size (ld_pot ld) ->
  confining (ld_pot ld) k L -> 0 < k <= L -> 0 < ld_dt ld -> L ^ 2 * ld_dt ld < 2 * k ->
  forall D eps, 0 < eps -> exists n0, forall rng ps ps' g crowd crowd', sized rng -> length ps = length ps' ->
  (forall p, In p ps \/ In p ps' -> right_size (pot_ndim (ld_pot ld)) p /\ consistent (ld_pot ld) p) ->
  crowd_follows rng ld ps g crowd -> crowd_follows rng ld ps' g crowd' ->
  forall n i, (n0 <= n)%nat -> (i < length ps)%nat -> distance2 (pot_ndim (ld_pot ld)) (p_pos (walker_of i ps)) (p_pos (walker_of i ps')) <= D ->
  distance2 (pot_ndim (ld_pot ld)) (p_pos (walker_of i (crowd n))) (p_pos (walker_of i (crowd' n))) < eps.
Proof.
  intros HK HB HF HC HL Ht HD D eps He.
  pose proof (approach_pos k L (ld_dt ld) ltac:(lra)) as AP. set (r := approach k L (ld_dt ld)) in *.
  assert (A1 : r < 1) by (unfold r, approach; assert (ld_dt ld * (L ^ 2 * ld_dt ld) < ld_dt ld * (2 * k)) by (apply Rmult_lt_compat_l; lra); lra).
  destruct (pow_lt_1_zero r ltac:(rewrite Rabs_pos_eq by exact AP; exact A1) (eps / (1 + Rabs D))) as (n0 & H0).
  { apply Rdiv_lt_0_compat; [exact He|]. pose proof (Rabs_pos D). lra. }
  exists n0. intros rng ps ps' g crowd crowd' HS EL HP C C' n i Hn Hi HDi.
  apply Rle_lt_trans with (r ^ n * (1 + Rabs D)).
  - eapply Rle_trans; [apply (crowd_forgets rng ld k L ps ps' g crowd crowd' HS HK HB HF HC ltac:(lra) ltac:(lra) EL HP C C' n i Hi)|]. fold r.
    apply Rmult_le_compat_l; [apply pow_le; exact AP|]. pose proof (Rle_abs D). lra.
  - specialize (H0 n Hn). rewrite Rabs_pos_eq in H0 by (apply pow_le; exact AP). pose proof (Rabs_pos D). apply (Rmult_lt_compat_r (1 + Rabs D)) in H0; [|lra].
    replace (eps / (1 + Rabs D) * (1 + Rabs D)) with eps in H0 by (field; lra). exact H0.
Qed.

(** ** potentials in one dimension *)
Lemma convex_confining pot k L f' : pot_ndim pot = 1%nat -> 0 <= k <= L ->
  (forall t, derivable_pt_lim (fun t => nth 0 (pot_force pot [t]) 0) t (f' t) /\ - L <= f' t <= - k) -> confining pot k L.
Proof.
  intros N HL HD x y Hx Hy. rewrite N in *. destruct x as [|a [|b x]]; try discriminate Hx. destruct y as [|c [|b y]]; try discriminate Hy. clear Hx Hy.
  set (f := fun t => nth 0 (pot_force pot [t]) 0) in *. unfold distance2. cbn [seq map total fold_right nth].
  assert (M : forall s t, s < t -> exists e, f t - f s = e * (t - s) /\ - L <= e <= - k).
  { intros s t Hs. destruct (MVT_cor2 f f' s t Hs) as (z & Z & _); [intros u _; apply HD|]. exists (f' z). split; [exact Z|apply HD]. }
  fold (f a). fold (f c).
  assert (G : exists e, f a - f c = e * (a - c) /\ - L <= e <= - k).
  { destruct (Rtotal_order a c) as [O|[O|O]].
    - destruct (M a c O) as (e & E & B). exists e. split; [lra|exact B].
    - subst c. exists (- k). split; [lra|lra].
    - apply M. exact O. }
  destruct G as (e & E & B). rewrite E.
  assert (P : 0 <= (a - c) ^ 2) by apply pow2_ge_0. split.
  - replace ((a - c) * (e * (a - c)) + 0) with (e * (a - c) ^ 2) by ring. rewrite Rplus_0_r. apply Rmult_le_compat_r; lra.
  - replace ((e * (a - c)) ^ 2 + 0) with (e ^ 2 * (a - c) ^ 2) by ring. rewrite Rplus_0_r. apply Rmult_le_compat_r; [exact P|].
    replace (L ^ 2 - e ^ 2) with ((L - e) * (L + e)) by ring. assert (0 <= (L - e) * (L + e)) by (apply Rmult_le_pos; lra). nra.
Qed.

(** ** the example *)
Lemma demo_confining : confining (demo_pot None) 2 2.
Proof.
  intros x y Hx Hy. cbn in Hx, Hy. destruct x as [|a [|b [|z x]]]; try discriminate Hx. destruct y as [|c [|d [|z y]]]; try discriminate Hy.
  unfold distance2. cbn [pot_ndim pot_force demo_pot seq map total fold_right nth]. split; lra.
Qed.
Lemma demo_forgets x y (g : rng_st coin_rng) : length x = 2%nat -> length y = 2%nat ->
  let ld := demo_ld Overdamped None in
  sized coin_rng /\ pot_bc (ld_pot ld) = None /\ force_size (ld_pot ld) /\ confining (ld_pot ld) 2 2 /\ 2 ^ 2 * ld_dt ld < 2 * 2 /\
  (forall p, In p (pair_at (ld_pot ld) x y) -> right_size (pot_ndim (ld_pot ld)) p /\ consistent (ld_pot ld) p) /\
  exists crowd, crowd_follows coin_rng ld (pair_at (ld_pot ld) x y) g crowd.
Proof.
  intros Hx Hy ld. destruct coin_well as (B & F & _).
  assert (Q : forall p, In p (pair_at (ld_pot ld) x y) -> right_size (pot_ndim (ld_pot ld)) p /\ consistent (ld_pot ld) p).
  { intros p [<-|[<-|[]]]; (split; [split; [assumption|split; [reflexivity|cbn; rewrite map_length; assumption]]|split; reflexivity]). }
  split; [exact coin_sized|]. split; [exact B|]. split; [exact F|]. split; [exact demo_confining|]. split; [cbn; lra|]. split; [exact Q|].
  apply (crowd_od_runs coin_rng ld); [exact coin_sized|reflexivity|exact B|exact F|exact Q].
Qed.
