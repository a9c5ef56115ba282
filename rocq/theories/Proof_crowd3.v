(** Proofs for many walkers: overdamped dynamics (C107) *)
From Coq Require Import Lra Lia.
From Verif Require Import PyBase Model_dyn Spec_grid Spec_ld Spec_well Spec_diffusion Spec_crowd Proof_base Proof_ld Proof_well Proof_well2 Proof_diffusion Proof_crowd Proof_crowd2.
Open Scope R_scope.
Ltac Zify.zify_post_hook ::= idtac.

Section Overdamped.
Context {W : Type} (mean : (W -> R) -> R) (rng : rng_if) (ld : ldpar) (d m : nat) (ps : W -> list particle) (g : W -> rng_st rng) (crowd : W -> nat -> list particle)
  (HM : is_mean mean) (HS : sized rng) (HK : ld_kind ld = Overdamped) (HL : forall w, length (ps w) = m)
  (HP : forall w p, In p (ps w) -> right_size (pot_ndim (ld_pot ld)) p /\ consistent (ld_pot ld) p) (HC : forall w, crowd_follows rng ld (ps w) (g w) (crowd w)).
Let noise (k : nat) (w : W) : R := nth d (draw rng (pot_ndim (ld_pot ld)) k (g w)) 0.
Let start_of (i : nat) (w : W) : particle := walker_of i (ps w).
Lemma od_set_up i : (i < m)%nat -> forall w, right_size (pot_ndim (ld_pot ld)) (start_of i w) /\ consistent (ld_pot ld) (start_of i w).
Proof using All. intros Hi w. apply (HP w). apply nth_In. rewrite HL. exact Hi. Qed.
Lemma od_follows i : (i < m)%nat -> forall w, follows prepared ld (start_of i w) (dealt rng ld m i (g w), 0%nat) (fun n => walker_of i (crowd w n)).
Proof using All. intros Hi w. rewrite <- (HL w). apply (crowd_alone rng ld (ps w) (g w) (crowd w) i HS (HC w)). rewrite HL. exact Hi. Qed.
Lemma od_white i n : (i < m)%nat -> white mean (m * n) noise (fun w => nth d (p_pos (start_of i w)) 0) (fun w => nth d (p_mom (start_of i w)) 0) ->
  white mean n (fun k w => nth d (draw prepared (pot_ndim (ld_pot ld)) k (dealt rng ld m i (g w), 0%nat)) 0) (fun w => nth d (p_pos (start_of i w)) 0) (fun w => nth d (p_mom (start_of i w)) 0).
Proof using All. intros Hi H. pose proof (white_dealt mean HM rng HS ld g d m i Hi n) as X. rewrite HK in X. cbn [calls] in X. rewrite !Nat.mul_1_l in X. apply X. exact H. Qed.
Lemma od_centered i n : (i < m)%nat -> centered mean (m * n) noise ->
  centered mean n (fun k w => nth d (draw prepared (pot_ndim (ld_pot ld)) k (dealt rng ld m i (g w), 0%nat)) 0).
Proof using All. intros Hi H. pose proof (centered_dealt mean HM rng HS ld g d m i Hi n) as X. rewrite HK in X. cbn [calls] in X. rewrite !Nat.mul_1_l in X. apply X. exact H. Qed.

Lemma crowd_od_square k X0 i n : well (ld_pot ld) d k -> 0 < k -> 0 < ld_dt ld -> k * ld_dt ld < 2 -> (i < m)%nat ->
  white mean (m * n) noise (fun w => nth d (p_pos (start_of i w)) 0) (fun w => nth d (p_mom (start_of i w)) 0) ->
  mean (fun w => nth d (p_pos (start_of i w)) 0 * nth d (p_pos (start_of i w)) 0) = X0 ->
  mean (fun w => nth d (p_pos (walker_of i (crowd w n))) 0 * nth d (p_pos (walker_of i (crowd w n))) 0) =
    mean_square_overdamped k (ld_dt ld) + (1 - k * ld_dt ld) ^ (2 * n) * (X0 - mean_square_overdamped k (ld_dt ld)).
Proof using All.
  intros HW H1 H2 H3 Hi HN H0.
  apply (@overdamped_square W mean prepared ld k d n (start_of i) (fun w => (dealt rng ld m i (g w), 0%nat)) (fun w n => walker_of i (crowd w n)));
    try assumption; [exact prepared_sized|apply od_set_up; exact Hi|apply od_follows; exact Hi|apply od_white; assumption|lia].
Qed.
Lemma crowd_od_drift F i n : constant_force (ld_pot ld) d F -> 0 < ld_dt ld -> (i < m)%nat -> centered mean (m * n) noise ->
  mean (fun w => displacement d (fun n => walker_of i (crowd w n)) n) = F * (INR n * ld_dt ld).
Proof using All.
  intros HW H1 Hi HN.
  apply (@od_drifts W mean prepared ld F d n (start_of i) (fun w => (dealt rng ld m i (g w), 0%nat)) (fun w n => walker_of i (crowd w n)));
    try assumption; [exact prepared_sized|apply od_set_up; exact Hi|apply od_follows; exact Hi|apply od_centered; assumption|lia].
Qed.
Lemma crowd_od_diffusion F i n : constant_force (ld_pot ld) d F -> 0 < ld_dt ld -> (i < m)%nat ->
  white mean (m * n) noise (fun w => nth d (p_pos (start_of i w)) 0) (fun w => nth d (p_mom (start_of i w)) 0) ->
  mean (fun w => (displacement d (fun n => walker_of i (crowd w n)) n - F * (INR n * ld_dt ld)) * (displacement d (fun n => walker_of i (crowd w n)) n - F * (INR n * ld_dt ld))) = 2 * (INR n * ld_dt ld).
Proof using All.
  intros HW H1 Hi HN.
  apply (@od_diffuses W mean prepared ld F d n (start_of i) (fun w => (dealt rng ld m i (g w), 0%nat)) (fun w n => walker_of i (crowd w n)));
    try assumption; [exact prepared_sized|apply od_set_up; exact Hi|apply od_follows; exact Hi|apply od_white; assumption|lia].
Qed.
End Overdamped.

(** ** the simulation runs *)
Lemma crowd_od_runs rng ld ps g : sized rng -> ld_kind ld = Overdamped -> pot_bc (ld_pot ld) = None -> force_size (ld_pot ld) ->
  (forall p, In p ps -> right_size (pot_ndim (ld_pot ld)) p /\ consistent (ld_pot ld) p) -> exists crowd, crowd_follows rng ld ps g crowd.
Proof.
  intros HS HK HB HF. set (ok p := right_size (pot_ndim (ld_pot ld)) p /\ consistent (ld_pot ld) p).
  assert (R1 : forall ps g, (forall p, In p ps -> ok p) -> exists ps' g', ld_run rng ld ps g = Ok (ps', g') /\ forall p, In p ps' -> ok p).
  { clear ps g. induction ps as [|p ps IH]; intros g H; [exists [], g; split; [reflexivity|intros p []]|].
    assert (HP : ok p) by (apply H; now left). destruct (od_walk rng ld HS HK HB HF p g HP 1) as (q & E & SQ).
    rewrite steps_snoc in E. cbn [ld_steps bind] in E. rewrite run_single in E. cbn [ld_run].
    destruct (ld_update rng ld p g) as [[p' g1]|e]; cbn [bind] in E |- *; [|discriminate E]. injection E as -> _.
    destruct (IH g1) as (ps' & g' & E' & H'); [intros r Hr; apply H; now right|]. rewrite E'. cbn [bind]. exists (q :: ps'), g'. split; [reflexivity|].
    intros r [<-|Hr]; [exact SQ|apply H'; exact Hr]. }
  intros HP.
  assert (RN : forall n, exists ps' g', ld_steps rng ld n ps g = Ok (ps', g') /\ forall p, In p ps' -> ok p).
  { induction n as [|n (ps' & g' & E & H)]; [exists ps, g; split; [reflexivity|exact HP]|]. rewrite steps_snoc, E. cbn [bind]. apply R1. exact H. }
  exists (fun n => match ld_steps rng ld n ps g with Ok (qs, _) => qs | Err _ => [] end). intros n. destruct (RN n) as (ps' & g' & E & _). rewrite E. eexists. reflexivity.
Qed.

(** ** the example *)
Lemma toss_crowd_od m n :
  let ld := demo_ld Overdamped None in
  let ps := toss_starts ld 0 1 0 m in
  let mean := coins (2 * m + m * n) in
  is_mean mean /\ sized coin_rng /\ well (ld_pot ld) 0 2 /\ (forall w, length (ps w) = m) /\ (forall w p, In p (ps w) -> right_size (pot_ndim (ld_pot ld)) p /\ consistent (ld_pot ld) p) /\
  (forall w, exists crowd, crowd_follows coin_rng ld (ps w) (toss_state m w) crowd) /\
  forall i, (i < m)%nat ->
    white mean (m * n) (fun k w => nth 0 (draw coin_rng 2 k (toss_state m w)) 0) (fun w => nth 0 (p_pos (walker_of i (ps w))) 0) (fun w => nth 0 (p_mom (walker_of i (ps w))) 0) /\
    mean (fun w => nth 0 (p_pos (walker_of i (ps w))) 0 * nth 0 (p_pos (walker_of i (ps w))) 0) = 1.
Proof.
  intros ld ps mean.
  assert (HM : is_mean mean) by apply coins_ok.
  assert (SU : forall w p, In p (ps w) -> right_size (pot_ndim (ld_pot ld)) p /\ consistent (ld_pot ld) p).
  { intros w p Hp. apply in_map_iff in Hp as (i & <- & _). split; [split; [reflexivity|split; reflexivity]|]. split; reflexivity. }
  split; [exact HM|]. split; [exact coin_sized|]. split; [exact coin_well|]. split; [intros w; unfold ps, toss_starts; rewrite map_length; apply seq_length|]. split; [exact SU|]. split.
  { intros w. destruct coin_well as (B & F & _). apply (crowd_od_runs coin_rng ld); [exact coin_sized|reflexivity|exact B|exact F|apply SU]. }
  assert (P : forall a b i j f, (i < 2 * m + m * n)%nat -> (j < 2 * m + m * n)%nat -> (forall w, f w = (a * nth i w 0) * (b * nth j w 0)) -> mean f = if Nat.eqb i j then a * b else 0).
  { intros a b i j f Hi Hj H. transitivity (mean (fun w => a * b * (nth i w 0 * nth j w 0))); [apply HM; intros w; rewrite H; ring|].
    unfold mean. rewrite coins_scale, coins_pair by assumption. destruct (Nat.eqb i j); ring. }
  assert (VX : forall i w, (i < m)%nat -> nth 0 (p_pos (walker_of i (ps w))) 0 = 1 * nth (2 * i) w 0) by (intros i w Hi; unfold ps; rewrite toss_of by exact Hi; reflexivity).
  assert (VP : forall i w, (i < m)%nat -> nth 0 (p_mom (walker_of i (ps w))) 0 = 0 * nth (2 * i + 1) w 0) by (intros i w Hi; unfold ps; rewrite toss_of by exact Hi; reflexivity).
  intros i Hi. split; [split; [|split]|].
  - intros k Hk. rewrite (P 1 1 (2 * m + k)%nat (2 * m + k)%nat); [rewrite Nat.eqb_refl; ring|lia|lia|]. intros w. rewrite !toss_draw. ring.
  - intros k l Hk Hl Ne. rewrite (P 1 1 (2 * m + k)%nat (2 * m + l)%nat); [destruct (Nat.eqb_spec (2 * m + k) (2 * m + l)); [lia|reflexivity]|lia|lia|]. intros w. rewrite !toss_draw. ring.
  - intros k Hk. split.
    + rewrite (P 1 1 (2 * i)%nat (2 * m + k)%nat); [destruct (Nat.eqb_spec (2 * i) (2 * m + k)); [lia|reflexivity]|lia|lia|]. intros w. rewrite toss_draw, VX by exact Hi. ring.
    + rewrite (P 0 1 (2 * i + 1)%nat (2 * m + k)%nat); [destruct (Nat.eqb_spec (2 * i + 1) (2 * m + k)); [lia|reflexivity]|lia|lia|]. intros w. rewrite toss_draw, VP by exact Hi. ring.
  - rewrite (P 1 1 (2 * i)%nat (2 * i)%nat); [rewrite Nat.eqb_refl; ring|lia|lia|]. intros w. rewrite VX by exact Hi. ring.
Qed.
