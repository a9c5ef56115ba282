(** Proofs for many walkers (C107) *)
From Coq Require Import Lra Lia.
From Verif Require Import PyBase Model_dyn Spec_grid Spec_ld Spec_well Spec_diffusion Spec_crowd Proof_base Proof_ld Proof_well Proof_well2 Proof_diffusion.
Open Scope R_scope.
Ltac Zify.zify_post_hook ::= idtac.

Lemma fit_same n x : length x = n -> fit n x = x.
Proof. intros <-. unfold fit. rewrite firstn_app, Nat.sub_diag, firstn_all. cbn. apply app_nil_r. Qed.
Lemma fit_length n x : length (fit n x) = n.
Proof. unfold fit. rewrite firstn_length, app_length, repeat_length. lia. Qed.
Lemma prepared_sized : sized prepared.
Proof. intros n g. apply fit_length. Qed.
Lemma after_add rng n i j g : after_draws rng n (i + j) g = after_draws rng n j (after_draws rng n i g).
Proof. revert g. induction i as [|i IH]; intros g; [reflexivity|]. cbn [Nat.add after_draws]. apply IH. Qed.
Lemma draw_add rng n i j g : draw rng n (i + j) g = draw rng n j (after_draws rng n i g).
Proof. unfold draw. rewrite after_add. reflexivity. Qed.
Lemma after_prepared n i s c : after_draws prepared n i (s, c) = (s, (c + i)%nat).
Proof. revert c. induction i as [|i IH]; intros c; cbn [after_draws]; [rewrite Nat.add_0_r; reflexivity|]. cbn [r_normal prepared snd fst]. rewrite IH. f_equal. lia. Qed.
Lemma draw_prepared n i s c : draw prepared n i (s, c) = fit n (s (c + i)%nat).
Proof. unfold draw. rewrite after_prepared. reflexivity. Qed.

(** ** one step *)
Definition moved_by (ld : ldpar) (p : particle) (noise : nat -> vec) : res particle :=
  match ld_kind ld with
  | BussiParinello friction => bp_update (ld_pot ld) (ld_c1 friction (ld_dt ld)) (ld_dt ld) p (noise 0%nat) (noise 1%nat)
  | Overdamped => od_update (ld_pot ld) (ld_noise_factor (ld_dt ld)) (ld_dt ld) p (noise 0%nat)
  end.
Lemma update_eq rng ld p g : ld_update rng ld p g =
  do p' <- moved_by ld p (fun k => draw rng (pot_ndim (ld_pot ld)) k g); Ok (p', after_draws rng (pot_ndim (ld_pot ld)) (calls (ld_kind ld)) g).
Proof.
  unfold ld_update, moved_by, calls, draw. destruct (ld_kind ld); cbn [after_draws].
  - destruct (r_normal rng (pot_ndim (ld_pot ld)) g) as [n1 g1]. cbn [fst snd]. destruct (r_normal rng (pot_ndim (ld_pot ld)) g1) as [n2 g2]. reflexivity.
  - destruct (r_normal rng (pot_ndim (ld_pot ld)) g) as [n1 g1]. reflexivity.
Qed.
Lemma moved_ext ld p a b : (forall k, (k < calls (ld_kind ld))%nat -> a k = b k) -> moved_by ld p a = moved_by ld p b.
Proof. unfold moved_by, calls. intros H. destruct (ld_kind ld); rewrite !H by lia; reflexivity. Qed.
Lemma run_each rng ld : forall ps g ps' g', ld_run rng ld ps g = Ok (ps', g') ->
  g' = after_draws rng (pot_ndim (ld_pot ld)) (calls (ld_kind ld) * length ps) g /\ length ps' = length ps /\
  forall i p p', nth_error ps i = Some p -> nth_error ps' i = Some p' ->
    moved_by ld p (fun k => draw rng (pot_ndim (ld_pot ld)) (calls (ld_kind ld) * i + k) g) = Ok p'.
Proof.
  set (c := calls (ld_kind ld)). set (nd := pot_ndim (ld_pot ld)).
  induction ps as [|p ps IH]; intros g ps' g' H; cbn [ld_run] in H.
  - injection H as <- <-. cbn [length]. rewrite Nat.mul_0_r. split; [reflexivity|]. split; [reflexivity|]. intros [|i] p p' Q; discriminate Q.
  - rewrite update_eq in H. fold c nd in H. destruct (moved_by ld p (fun k => draw rng nd k g)) as [q|e] eqn:E; cbn [bind] in H; [|discriminate H].
    destruct (ld_run rng ld ps (after_draws rng nd c g)) as [[qs g2]|e] eqn:E2; cbn [bind] in H; [|discriminate H]. injection H as <- <-.
    destruct (IH _ _ _ E2) as (G & L & P). split; [|split].
    + rewrite G, <- after_add. f_equal. cbn [length]. lia.
    + cbn [length]. f_equal. exact L.
    + intros [|i] a b Ha Hb; cbn in Ha, Hb.
      * injection Ha as <-. injection Hb as <-. rewrite <- E. apply moved_ext. intros k _. f_equal. lia.
      * rewrite <- (P i a b Ha Hb). apply moved_ext. intros k _. rewrite <- draw_add. f_equal. lia.
Qed.

(** ** every walker alone *)
Lemma steps_each rng ld : sized rng -> forall n ps g ps' g', ld_steps rng ld n ps g = Ok (ps', g') ->
  g' = after_draws rng (pot_ndim (ld_pot ld)) (calls (ld_kind ld) * length ps * n) g /\ length ps' = length ps /\
  forall i p p', nth_error ps i = Some p -> nth_error ps' i = Some p' ->
    ld_steps prepared ld n [p] (dealt rng ld (length ps) i g, 0%nat) = Ok ([p'], (dealt rng ld (length ps) i g, (calls (ld_kind ld) * n)%nat)).
Proof.
  intros HS. set (c := calls (ld_kind ld)). set (nd := pot_ndim (ld_pot ld)). assert (Pc : (c <> 0)%nat) by (unfold c, calls; destruct (ld_kind ld); lia).
  induction n as [|n IH]; intros ps g ps' g' H.
  - cbn [ld_steps] in H. injection H as <- <-. rewrite !Nat.mul_0_r. split; [reflexivity|]. split; [reflexivity|]. intros i p p' A B. rewrite A in B. injection B as <-. reflexivity.
  - rewrite steps_snoc in H. destruct (ld_steps rng ld n ps g) as [[qs g1]|e] eqn:E; cbn [bind] in H; [|discriminate H].
    destruct (IH _ _ _ _ E) as (G & L & P). destruct (run_each _ _ _ _ _ _ H) as (G' & L' & P'). fold c nd in G', P'. split; [|split].
    + rewrite G', G, <- after_add, L. f_equal. lia.
    + congruence.
    + intros i p p' A B. assert (Hi : (i < length qs)%nat) by (rewrite <- L'; apply nth_error_Some; congruence).
      destruct (nth_error qs i) as [q|] eqn:Q; [|apply nth_error_None in Q; lia].
      rewrite steps_snoc, (P i p q A Q). cbn [bind]. rewrite run_single, update_eq. fold c nd.
      assert (M : moved_by ld q (fun k => draw prepared nd k (dealt rng ld (length ps) i g, (c * n)%nat)) = Ok p').
      { rewrite <- (P' i q p' Q B). apply moved_ext. intros k Hk. fold c in Hk. rewrite draw_prepared, fit_same by apply HS. unfold dealt, place_in_sequence. fold c nd.
        assert (D : ((c * n + k) / c = n)%nat) by (rewrite (Nat.mul_comm c n), Nat.div_add_l, Nat.div_small by lia; lia).
        assert (Mo : ((c * n + k) mod c = k)%nat) by (rewrite (Nat.add_comm (c * n)), (Nat.mul_comm c n), Nat.mod_add, Nat.mod_small by lia; reflexivity).
        rewrite D, Mo, G, <- draw_add. f_equal. lia. }
      rewrite M. cbn [bind]. rewrite after_prepared. f_equal. f_equal. f_equal. lia.
Qed.
Lemma alone rng ld n ps g ps' g' : sized rng -> ld_steps rng ld n ps g = Ok (ps', g') ->
  length ps' = length ps /\ forall i p p', nth_error ps i = Some p -> nth_error ps' i = Some p' ->
    exists s, ld_steps prepared ld n [p] (dealt rng ld (length ps) i g, 0%nat) = Ok ([p'], s).
Proof.
  intros HS H. destruct (steps_each rng ld HS n ps g ps' g' H) as (_ & L & P). split; [exact L|]. intros i p p' A B. eexists. apply (P i p p' A B).
Qed.
Lemma crowd_alone rng ld ps g crowd i : sized rng -> crowd_follows rng ld ps g crowd -> (i < length ps)%nat ->
  follows prepared ld (walker_of i ps) (dealt rng ld (length ps) i g, 0%nat) (fun n => walker_of i (crowd n)).
Proof.
  intros HS HC Hi n. destruct (HC n) as (g' & E). destruct (alone rng ld n ps g _ _ HS E) as (L & P). apply (P i); apply nth_error_nth'; [exact Hi|lia].
Qed.

(** ** random numbers of one walker *)
Lemma place_inj c m i a b : (0 < c)%nat -> (i < m)%nat -> place_in_sequence c m i a = place_in_sequence c m i b -> a = b.
Proof.
  intros Hc Hi H. unfold place_in_sequence in H. pose proof (Nat.mod_upper_bound a c ltac:(lia)). pose proof (Nat.mod_upper_bound b c ltac:(lia)).
  assert (Q : (m * (a / c) + i = m * (b / c) + i /\ a mod c = b mod c)%nat) by (apply (Nat.div_mod_unique c); assumption).
  destruct Q as (Q1 & Q2). assert (Q3 : (a / c = b / c)%nat) by nia. rewrite (Nat.div_mod a c), (Nat.div_mod b c) by lia. congruence.
Qed.
Lemma place_bound c m i n k : (0 < c)%nat -> (i < m)%nat -> (k < c * n)%nat -> (place_in_sequence c m i k < c * m * n)%nat.
Proof.
  intros Hc Hi Hk. unfold place_in_sequence. pose proof (Nat.mod_upper_bound k c ltac:(lia)). assert (D : (k / c < n)%nat) by (apply Nat.div_lt_upper_bound; lia). nia.
Qed.
Lemma calls_pos kind : (0 < calls kind)%nat.
Proof. destruct kind; cbn; lia. Qed.
Lemma dealt_value rng ld m i g d k : sized rng ->
  nth d (draw prepared (pot_ndim (ld_pot ld)) k (dealt rng ld m i g, 0%nat)) 0 = nth d (draw rng (pot_ndim (ld_pot ld)) (place_in_sequence (calls (ld_kind ld)) m i k) g) 0.
Proof. intros HS. rewrite draw_prepared, fit_same by apply HS. reflexivity. Qed.
Section Noise.
Context {W : Type} (mean : (W -> R) -> R) (HM : is_mean mean) (rng : rng_if) (HS : sized rng) (ld : ldpar) (g : W -> rng_st rng) (d m i : nat) (Hi : (i < m)%nat).
Let nd := pot_ndim (ld_pot ld).
Let c := calls (ld_kind ld).
Lemma white_dealt n x0 p0 : white mean (c * m * n) (fun k w => nth d (draw rng nd k (g w)) 0) x0 p0 ->
  white mean (c * n) (fun k w => nth d (draw prepared nd k (dealt rng ld m i (g w), 0%nat)) 0) x0 p0.
Proof using All.
  intros (H1 & H2 & H3). assert (E : forall f h, (forall w, f w = h w) -> mean f = mean h) by apply HM. pose proof (calls_pos (ld_kind ld)) as Pc. fold c in Pc.
  assert (V : forall k w, nth d (draw prepared nd k (dealt rng ld m i (g w), 0%nat)) 0 = nth d (draw rng nd (place_in_sequence c m i k) (g w)) 0) by (intros k w; apply dealt_value; exact HS).
  split; [|split].
  - intros k Hk. etransitivity; [|apply (H1 (place_in_sequence c m i k)); apply place_bound; assumption]. apply E. intros w. cbv beta. rewrite V. reflexivity.
  - intros k l Hk Hl Q. etransitivity; [|apply (H2 (place_in_sequence c m i k) (place_in_sequence c m i l))].
    + apply E. intros w. cbv beta. rewrite !V. reflexivity.
    + apply place_bound; assumption.
    + apply place_bound; assumption.
    + intros A. apply Q. apply (place_inj c m i); assumption.
  - intros k Hk. destruct (H3 (place_in_sequence c m i k)) as (A & B); [apply place_bound; assumption|].
    split; [etransitivity; [|exact A]|etransitivity; [|exact B]]; apply E; intros w; cbv beta; rewrite V; reflexivity.
Qed.
Lemma centered_dealt n : centered mean (c * m * n) (fun k w => nth d (draw rng nd k (g w)) 0) ->
  centered mean (c * n) (fun k w => nth d (draw prepared nd k (dealt rng ld m i (g w), 0%nat)) 0).
Proof using All.
  intros H k Hk. pose proof (calls_pos (ld_kind ld)) as Pc. fold c in Pc. etransitivity; [|apply (H (place_in_sequence c m i k)); apply place_bound; assumption].
  apply HM. intros w. apply dealt_value. exact HS.
Qed.
End Noise.

(** ** equilibrium and diffusion of every walker *)
Section Crowd.
Context {W : Type} (mean : (W -> R) -> R) (rng : rng_if) (ld : ldpar) (friction mass : R) (d m : nat) (ps : W -> list particle) (g : W -> rng_st rng) (crowd : W -> nat -> list particle)
  (HM : is_mean mean) (HS : sized rng) (HK : ld_kind ld = BussiParinello friction) (HL : forall w, length (ps w) = m)
  (HP : forall w p, In p (ps w) -> set_up ld friction mass p) (HC : forall w, crowd_follows rng ld (ps w) (g w) (crowd w)).
Let noise (k : nat) (w : W) : R := nth d (draw rng (pot_ndim (ld_pot ld)) k (g w)) 0.
Let start_of (i : nat) (w : W) : particle := walker_of i (ps w).
Lemma one_set_up i : (i < m)%nat -> forall w, set_up ld friction mass (start_of i w).
Proof using All. intros Hi w. apply (HP w). apply nth_In. rewrite HL. exact Hi. Qed.
Lemma one_follows i : (i < m)%nat -> forall w, follows prepared ld (start_of i w) (dealt rng ld m i (g w), 0%nat) (fun n => walker_of i (crowd w n)).
Proof using All. intros Hi w. rewrite <- (HL w). apply (crowd_alone rng ld (ps w) (g w) (crowd w) i HS (HC w)). rewrite HL. exact Hi. Qed.
Lemma one_white i n : (i < m)%nat -> white mean (2 * m * n) noise (fun w => nth d (p_pos (start_of i w)) 0) (fun w => nth d (p_mom (start_of i w)) 0) ->
  white mean (2 * n) (fun k w => nth d (draw prepared (pot_ndim (ld_pot ld)) k (dealt rng ld m i (g w), 0%nat)) 0) (fun w => nth d (p_pos (start_of i w)) 0) (fun w => nth d (p_mom (start_of i w)) 0).
Proof using All. intros Hi H. pose proof (white_dealt mean HM rng HS ld g d m i Hi n) as X. rewrite HK in X. cbn [calls] in X. apply X. exact H. Qed.

Lemma crowd_equilibrium k i n : well (ld_pot ld) d k -> 0 <= friction -> 0 < k -> 0 < mass -> 0 < ld_kt ld -> 0 < ld_dt ld -> k * ld_dt ld ^ 2 < 4 * mass -> (i < m)%nat ->
  white mean (2 * m * n) noise (fun w => nth d (p_pos (start_of i w)) 0) (fun w => nth d (p_mom (start_of i w)) 0) ->
  moments mean d (start_of i) (mean_square_position k mass (ld_kt ld) (ld_dt ld)) 0 (mean_square_momentum mass (ld_kt ld)) ->
  moments mean d (fun w => walker_of i (crowd w n)) (mean_square_position k mass (ld_kt ld) (ld_dt ld)) 0 (mean_square_momentum mass (ld_kt ld)).
Proof using All.
  intros HW H1 H2 H3 H4 H5 H6 Hi HN H0.
  apply (@equilibrium_kept W mean prepared ld friction mass k d (2 * n) (start_of i) (fun w => (dealt rng ld m i (g w), 0%nat)) (fun w n => walker_of i (crowd w n)));
    try assumption; [exact prepared_sized|apply one_set_up; exact Hi|apply one_follows; exact Hi|apply one_white; assumption|lia].
Qed.
Lemma crowd_diffusion Z0 i n : constant_force (ld_pot ld) d 0 -> 0 < friction -> 0 < mass -> 0 < ld_kt ld -> 0 < ld_dt ld -> (i < m)%nat ->
  white mean (2 * m * n) noise (fun w => nth d (p_pos (start_of i w)) 0) (fun w => nth d (p_mom (start_of i w)) 0) ->
  mean (fun w => nth d (p_mom (start_of i w)) 0 * nth d (p_mom (start_of i w)) 0) = Z0 ->
  Rabs (mean (fun w => displacement d (fun n => walker_of i (crowd w n)) n * displacement d (fun n => walker_of i (crowd w n)) n)
        - 2 * diffusion mass (ld_kt ld) friction (ld_dt ld) * (INR n * ld_dt ld))
    <= (2 * (mass * ld_kt ld) + Rabs (Z0 - mass * ld_kt ld)) / (mass * friction) ^ 2.
Proof using All.
  intros HW H1 H2 H3 H4 Hi HN H0.
  apply (@diffuses W mean prepared ld friction mass 0 d (2 * n) (start_of i) (fun w => (dealt rng ld m i (g w), 0%nat)) (fun w n => walker_of i (crowd w n)));
    try assumption; [exact prepared_sized|apply one_set_up; exact Hi|apply one_follows; exact Hi|reflexivity|apply one_white; assumption|lia].
Qed.
End Crowd.

Lemma crowd_reached ld friction mass k d : ld_kind ld = BussiParinello friction -> well (ld_pot ld) d k ->
  0 < friction -> 0 < k -> 0 < mass -> 0 < ld_kt ld -> 0 < ld_dt ld -> k * ld_dt ld ^ 2 < 4 * mass ->
  forall X0 Y0 Z0 eps, 0 < eps -> exists n0, forall W (mean : (W -> R) -> R) rng m ps g crowd,
  is_mean mean -> sized rng -> (forall w, length (ps w) = m) -> (forall w p, In p (ps w) -> set_up ld friction mass p) -> (forall w, crowd_follows rng ld (ps w) (g w) (crowd w)) ->
  forall i n, (i < m)%nat -> (n0 <= n)%nat ->
  white mean (2 * m * n) (fun k w => nth d (draw rng (pot_ndim (ld_pot ld)) k (g w)) 0) (fun w => nth d (p_pos (walker_of i (ps w))) 0) (fun w => nth d (p_mom (walker_of i (ps w))) 0) ->
  moments mean d (fun w => walker_of i (ps w)) X0 Y0 Z0 ->
  exists X Y Z, moments mean d (fun w => walker_of i (crowd w n)) X Y Z /\
    Rabs (X - mean_square_position k mass (ld_kt ld) (ld_dt ld)) < eps /\ Rabs Y < eps /\ Rabs (Z - mean_square_momentum mass (ld_kt ld)) < eps.
Proof.
  intros HK HW H1 H2 H3 H4 H5 H6 X0 Y0 Z0 eps He. destruct (equilibrium_reached ld friction mass k d HK HW H1 H2 H3 H4 H5 H6 X0 Y0 Z0 eps He) as (n0 & H).
  exists n0. intros W mean rng m ps g crowd HM HS HL HP HC i n Hi Hn HN H0.
  apply (H W mean prepared (2 * n)%nat (fun w => walker_of i (ps w)) (fun w => (dealt rng ld m i (g w), 0%nat)) (fun w n => walker_of i (crowd w n)));
    try assumption; [exact prepared_sized| | | |lia].
  - apply (one_set_up mean rng ld friction mass d m ps g crowd HM HS HK HL HP HC i Hi).
  - apply (one_follows mean rng ld friction mass d m ps g crowd HM HS HK HL HP HC i Hi).
  - apply (one_white mean rng ld friction mass d m ps g crowd HM HS HK HL HP HC i n Hi HN).
Qed.

(** ** averages over the walkers *)
Lemma mean_total {W} (mean : (W -> R) -> R) : is_mean mean -> forall (m : nat) (f : nat -> W -> R), mean (fun w => total (map (fun i => f i w) (seq 0 m))) = total (map (fun i => mean (f i)) (seq 0 m)).
Proof.
  intros (E & L & _ & O). assert (A : forall l f, mean (fun w => total (map (fun i : nat => f i w) l)) = total (map (fun i => mean (f i)) l)).
  { induction l as [|a l IH]; intros f; cbn [map].
    - pose proof (L 0 (fun _ => 1) (fun _ => 0)) as X. pose proof (L 1 (fun _ => 0) (fun _ => 0)) as Y.
      assert (Q : mean (fun _ => 1 * 0 + 0) = mean (fun _ => 0)) by (apply E; intros; ring). change (mean (fun _ => 0) = 0). lra.
    - change (mean (fun w => f a w + total (map (fun i => f i w) l)) = mean (f a) + total (map (fun i => mean (f i)) l)). rewrite <- IH.
      rewrite <- (Rmult_1_l (mean (f a))), <- L. apply E. intros w. ring. }
  intros m f. apply A.
Qed.
Lemma mean_scale {W} (mean : (W -> R) -> R) a f : is_mean mean -> mean (fun w => a * f w) = a * mean f.
Proof.
  intros (E & L & _). pose proof (L 1 (fun _ => 0) (fun _ => 0)) as Y. assert (Q : mean (fun _ => 1 * 0 + 0) = mean (fun _ => 0)) by (apply E; intros; ring).
  pose proof (L a f (fun _ => 0)) as X. rewrite <- (E (fun w => a * f w)) in X by (intros; ring). lra.
Qed.
Lemma map_walkers (f : particle -> R) l : map f l = map (fun i => f (walker_of i l)) (seq 0 (length l)).
Proof.
  apply nth_ext with (d := 0) (d' := 0); [rewrite !map_length, seq_length; reflexivity|]. intros i Hi. rewrite map_length in Hi.
  rewrite (nth_map_in _ _ _ _ nobody) by exact Hi. rewrite (nth_map_in _ _ _ _ 0%nat) by (rewrite seq_length; exact Hi). rewrite seq_nth by exact Hi. reflexivity.
Qed.
Lemma mean_over_walkers {W} (mean : (W -> R) -> R) (m : nat) (f : particle -> R) (ps : W -> list particle) a : is_mean mean -> (0 < m)%nat -> (forall w, length (ps w) = m) ->
  (forall i, (i < m)%nat -> mean (fun w => f (walker_of i (ps w))) = a) -> mean (fun w => over_walkers f (ps w)) = a.
Proof.
  intros HM Hm HL H. assert (E : forall f h, (forall w, f w = h w) -> mean f = mean h) by apply HM.
  assert (Pm : INR m <> 0) by (apply not_0_INR; lia).
  rewrite (E _ (fun w => / INR m * total (map (fun i => f (walker_of i (ps w))) (seq 0 m)))).
  2: { intros w. unfold over_walkers. rewrite map_walkers, HL. unfold Rdiv. ring. }
  rewrite (mean_scale mean (/ INR m)) by exact HM. rewrite (mean_total mean HM m (fun i w => f (walker_of i (ps w)))).
  assert (A : forall l, (forall i, In i l -> (i < m)%nat) -> total (map (fun i => mean (fun w => f (walker_of i (ps w)))) l) = INR (length l) * a).
  { induction l as [|b l IH]; intros Q; cbn [map length]; [cbn; ring|]. rewrite S_INR. change (total (?x :: ?y)) with (x + total y).
    rewrite IH by (intros; apply Q; now right). rewrite H by (apply Q; now left). ring. }
  rewrite A by (intros i Hi; apply in_seq in Hi; lia). rewrite seq_length. field. exact Pm.
Qed.
Lemma crowd_averages W (mean : (W -> R) -> R) rng ld friction mass k d m ps g crowd n :
  is_mean mean -> sized rng -> ld_kind ld = BussiParinello friction -> (forall w, length (ps w) = m) -> (forall w p, In p (ps w) -> set_up ld friction mass p) ->
  (forall w, crowd_follows rng ld (ps w) (g w) (crowd w)) ->
  well (ld_pot ld) d k -> 0 <= friction -> 0 < k -> 0 < mass -> 0 < ld_kt ld -> 0 < ld_dt ld -> k * ld_dt ld ^ 2 < 4 * mass -> (0 < m)%nat ->
  (forall i, (i < m)%nat ->
    white mean (2 * m * n) (fun k w => nth d (draw rng (pot_ndim (ld_pot ld)) k (g w)) 0) (fun w => nth d (p_pos (walker_of i (ps w))) 0) (fun w => nth d (p_mom (walker_of i (ps w))) 0) /\
    moments mean d (fun w => walker_of i (ps w)) (mean_square_position k mass (ld_kt ld) (ld_dt ld)) 0 (mean_square_momentum mass (ld_kt ld))) ->
  mean (fun w => over_walkers (fun p => nth d (p_pos p) 0 * nth d (p_pos p) 0) (crowd w n)) = mean_square_position k mass (ld_kt ld) (ld_dt ld) /\
  mean (fun w => over_walkers (fun p => nth d (p_mom p) 0 * nth d (p_mom p) 0 / (2 * mass)) (crowd w n)) = ld_kt ld / 2.
Proof.
  intros HM HS HK HL HP HC HW H1 H2 H3 H4 H5 H6 Hm HN.
  assert (LC : forall w, length (crowd w n) = m).
  { intros w. destruct (HC w n) as (g' & E). destruct (alone rng ld n (ps w) (g w) _ _ HS E) as (L & _). rewrite L. apply HL. }
  assert (Q : forall i, (i < m)%nat -> moments mean d (fun w => walker_of i (crowd w n)) (mean_square_position k mass (ld_kt ld) (ld_dt ld)) 0 (mean_square_momentum mass (ld_kt ld))).
  { intros i Hi. destruct (HN i Hi) as (N1 & N2). apply (crowd_equilibrium mean rng ld friction mass d m ps g crowd); assumption. }
  split; apply (mean_over_walkers mean m); try assumption; intros i Hi; destruct (Q i Hi) as (A & _ & B); [exact A|].
  assert (E : forall f h, (forall w, f w = h w) -> mean f = mean h) by apply HM.
  rewrite (E _ (fun w => / (2 * mass) * (nth d (p_mom (walker_of i (crowd w n))) 0 * nth d (p_mom (walker_of i (crowd w n))) 0))) by (intros w; unfold Rdiv; ring).
  rewrite (mean_scale mean (/ (2 * mass))) by exact HM. rewrite B. unfold mean_square_momentum. field. lra.
Qed.

(** ** the simulation runs *)
Lemma crowd_runs rng ld friction mass ps g : sized rng -> ld_kind ld = BussiParinello friction -> pot_bc (ld_pot ld) = None -> force_size (ld_pot ld) ->
  (forall p, In p ps -> set_up ld friction mass p) -> exists crowd, crowd_follows rng ld ps g crowd.
Proof.
  intros HS HK HB HF.
  assert (R1 : forall ps g, (forall p, In p ps -> set_up ld friction mass p) -> exists ps' g', ld_run rng ld ps g = Ok (ps', g') /\ forall p, In p ps' -> set_up ld friction mass p).
  { clear ps g. induction ps as [|p ps IH]; intros g H; [exists [], g; split; [reflexivity|intros p []]|].
    assert (HP : set_up ld friction mass p) by (apply H; now left). destruct (bp_walk rng ld friction mass HS HK HB HF p g HP 1) as (q & E & SQ).
    rewrite steps_snoc in E. cbn [ld_steps bind] in E. rewrite run_single in E. cbn [ld_run].
    destruct (ld_update rng ld p g) as [[p' g1]|e]; cbn [bind] in E |- *; [|discriminate E]. injection E as -> _.
    destruct (IH g1) as (ps' & g' & E' & H'); [intros r Hr; apply H; now right|]. rewrite E'. cbn [bind]. exists (q :: ps'), g'. split; [reflexivity|].
    intros r [<-|Hr]; [exact SQ|apply H'; exact Hr]. }
  intros HP.
  assert (RN : forall n, exists ps' g', ld_steps rng ld n ps g = Ok (ps', g') /\ forall p, In p ps' -> set_up ld friction mass p).
  { induction n as [|n (ps' & g' & E & H)]; [exists ps, g; split; [reflexivity|exact HP]|]. rewrite steps_snoc, E. cbn [bind]. apply R1. exact H. }
  exists (fun n => match ld_steps rng ld n ps g with Ok (qs, _) => qs | Err _ => [] end). intros n. destruct (RN n) as (ps' & g' & E & _). rewrite E. eexists. reflexivity.
Qed.
Lemma place_unique c m i j a b : (0 < c)%nat -> (i < m)%nat -> (j < m)%nat -> place_in_sequence c m i a = place_in_sequence c m j b -> i = j /\ a = b.
Proof.
  intros Hc Hi Hj H. assert (E : i = j); [|subst j; split; [reflexivity|]; apply (place_inj c m i); assumption].
  unfold place_in_sequence in H. pose proof (Nat.mod_upper_bound a c ltac:(lia)). pose proof (Nat.mod_upper_bound b c ltac:(lia)).
  assert (Q : (m * (a / c) + i = m * (b / c) + j /\ a mod c = b mod c)%nat) by (apply (Nat.div_mod_unique c); assumption).
  destruct Q as (Q & _). apply (Nat.div_mod_unique m) in Q; [apply Q|exact Hi|exact Hj].
Qed.
