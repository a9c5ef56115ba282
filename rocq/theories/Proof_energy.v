(** Energy conservation of the frictionless integrator in harmonic potentials *)
From Coq Require Import Lia Lra ZifyBool ZifyNat.
From Verif Require Import PyBase Model_dyn Model_bd Spec_grid Spec_rng Spec_ld Spec_energy Proof_base Proof_ld.
Ltac Zify.zify_post_hook ::= idtac.
Open Scope R_scope.

Lemma sum_to_ext n f g : (forall d, (d < n)%nat -> f d = g d) -> sum_to n f = sum_to n g.
Proof. intros H. unfold sum_to. f_equal. apply map_ext_in. intros d Hd. apply H. apply in_seq in Hd. lia. Qed.
Lemma total_map_plus {A} (f g : A -> R) l : total (map (fun x => f x + g x) l) = total (map f l) + total (map g l).
Proof. induction l as [|x l IH]; cbn; [lra|]. unfold total in *. rewrite IH. lra. Qed.
Lemma total_map_scale {A} a (f : A -> R) l : total (map (fun x => a * f x) l) = a * total (map f l).
Proof. induction l as [|x l IH]; cbn; [lra|]. unfold total in *. rewrite IH. lra. Qed.
Lemma sum_to_plus n f g : sum_to n (fun d => f d + g d) = sum_to n f + sum_to n g.
Proof. apply total_map_plus. Qed.
Lemma sum_to_scale n a f : sum_to n (fun d => a * f d) = a * sum_to n f.
Proof. apply total_map_scale. Qed.
Lemma sum_to_le n f g : (forall d, (d < n)%nat -> f d <= g d) -> sum_to n f <= sum_to n g.
Proof.
  intros H. unfold sum_to. assert (forall d, In d (seq 0 n) -> f d <= g d) as H' by (intros d Hd; apply H; apply in_seq in Hd; lia).
  clear H. induction (seq 0 n) as [|d l IH]; cbn; [lra|]. assert (f d <= g d) by (apply H'; now left).
  assert (total (map f l) <= total (map g l)) by (apply IH; intros; apply H'; now right). unfold total in *. lra.
Qed.

(** the quantity conserved exactly: the potential energy is reduced by k dt^2 / (4 m) *)
Definition shadow_term (k c : nat -> R) (dt : R) (p : particle) (d : nat) : R :=
  (nth d (p_mom p) 0) ^ 2 / (2 * p_mass p)
  + k d / 2 * (nth d (p_pos p) 0 - c d) ^ 2 * (1 - k d * dt ^ 2 / (4 * p_mass p)).

Lemma shadow_step pot e0 k c dt p d : pot_bc pot = None -> harmonic pot e0 k c -> frictionless_walker pot p -> (d < pot_ndim pot)%nat ->
  shadow_term k c dt (fl_step pot dt p) d = shadow_term k c dt p d /\ p_mass (fl_step pot dt p) = p_mass p.
Proof.
  intros B H F Hd. assert (force_size pot) as FS by (intros x Hx; apply H; assumption).
  assert (length (repeat 0 (pot_ndim pot)) = pot_ndim pot) as Z by apply repeat_length.
  destruct F as (S & Co & M & C2). destruct (bp_equations pot 1 dt p _ _ B FS S Z Z) as (q & E & Sq & Mq & Cq & Coq & Eq).
  unfold fl_step. rewrite E. split; [|assumption]. destruct (Eq d Hd) as (Hp & Hm). destruct S as (S1 & S2 & S3). destruct Sq as (Sq1 & Sq2 & Sq3).
  rewrite (proj2 Co), (proj2 (proj2 (H _ S1)) d Hd) in Hp. rewrite (proj2 Co), (proj2 Coq), (proj2 (proj2 (H _ S1)) d Hd), (proj2 (proj2 (H _ Sq1)) d Hd) in Hm.
  rewrite C2 in Hp, Hm. unfold shadow_term. rewrite Mq. unfold bp_position in Hp. unfold bp_momentum in Hm. rewrite Hm, Hp. field. assumption.
Qed.

Lemma shadow_steps pot e0 k c dt p n d : pot_bc pot = None -> harmonic pot e0 k c -> frictionless_walker pot p -> (d < pot_ndim pot)%nat ->
  shadow_term k c dt (Nat.iter n (fl_step pot dt) p) d = shadow_term k c dt p d /\ p_mass (Nat.iter n (fl_step pot dt) p) = p_mass p.
Proof.
  intros B H F Hd. assert (force_size pot) as FS by (intros x Hx; apply H; assumption).
  induction n as [|n (IH1 & IH2)]; [split; reflexivity|]. cbn [Nat.iter nat_rect].
  change (nat_rect (fun _ => particle) p (fun _ => fl_step pot dt) n) with (Nat.iter n (fl_step pot dt) p).
  destruct (shadow_step pot e0 k c dt (Nat.iter n (fl_step pot dt) p) d B H (iter_keeps pot dt n p B FS F) Hd) as (A1 & A2). split; congruence.
Qed.

(** one dimension: energy h = kinetic + potential, shadow s; al bounds k dt^2 / (4 m) *)
Lemma energy_split pot e0 k c dt p : harmonic pot e0 k c -> right_size (pot_ndim pot) p -> p_mass p <> 0 ->
  walker_energy pot p = e0 + sum_to (pot_ndim pot) (fun d => shadow_term k c dt p d
     + k d * dt ^ 2 / (4 * p_mass p) * (k d / 2 * (nth d (p_pos p) 0 - c d) ^ 2)).
Proof.
  intros H (S1 & S2 & S3) M. unfold walker_energy, kinetic_energy. rewrite (proj1 (H _ S1)), S2.
  replace (sum_to (pot_ndim pot) (fun d => (nth d (p_mom p) 0) ^ 2 / (2 * p_mass p)) + (e0 + sum_to (pot_ndim pot) (fun d => k d / 2 * (nth d (p_pos p) 0 - c d) ^ 2)))
    with (e0 + (sum_to (pot_ndim pot) (fun d => (nth d (p_mom p) 0) ^ 2 / (2 * p_mass p)) + sum_to (pot_ndim pot) (fun d => k d / 2 * (nth d (p_pos p) 0 - c d) ^ 2))) by ring.
  f_equal. rewrite <- sum_to_plus. apply sum_to_ext. intros d Hd. unfold shadow_term. field. assumption.
Qed.

Lemma energy_bounds pot e0 k c dt p al : harmonic pot e0 k c -> right_size (pot_ndim pot) p -> 0 < p_mass p ->
  0 <= al < 1 -> (forall d, (d < pot_ndim pot)%nat -> 0 <= k d /\ k d * dt ^ 2 <= al * (4 * p_mass p)) ->
  let S := sum_to (pot_ndim pot) (shadow_term k c dt p) in
  S <= walker_energy pot p - e0 /\ (1 - al) * (walker_energy pot p - e0) <= S.
Proof.
  intros H RS M A Hk. cbv zeta. rewrite (energy_split pot e0 k c dt p H RS) by lra.
  assert (forall d, (d < pot_ndim pot)%nat -> 0 <= k d * dt ^ 2 / (4 * p_mass p) <= al) as Q.
  { intros d Hd. destruct (Hk d Hd) as (Hk1 & Hk2). split.
    - apply Rmult_le_pos; [apply Rmult_le_pos; [assumption|apply pow2_ge_0]|]. apply Rlt_le, Rinv_0_lt_compat. lra.
    - apply (Rmult_le_reg_r (4 * p_mass p)); [lra|]. unfold Rdiv. rewrite Rmult_assoc, Rinv_l by lra. lra. }
  assert (forall d, (d < pot_ndim pot)%nat -> 0 <= k d / 2 * (nth d (p_pos p) 0 - c d) ^ 2) as P.
  { intros d Hd. apply Rmult_le_pos; [|apply pow2_ge_0]. destruct (Hk d Hd). lra. }
  split.
  - enough (sum_to (pot_ndim pot) (shadow_term k c dt p) <= sum_to (pot_ndim pot) (fun d => shadow_term k c dt p d + k d * dt ^ 2 / (4 * p_mass p) * (k d / 2 * (nth d (p_pos p) 0 - c d) ^ 2))) by lra.
    apply sum_to_le. intros d Hd. specialize (Q d Hd). specialize (P d Hd).
    assert (0 <= k d * dt ^ 2 / (4 * p_mass p) * (k d / 2 * (nth d (p_pos p) 0 - c d) ^ 2)) by (apply Rmult_le_pos; lra). lra.
  - replace (e0 + sum_to (pot_ndim pot) (fun d => shadow_term k c dt p d + k d * dt ^ 2 / (4 * p_mass p) * (k d / 2 * (nth d (p_pos p) 0 - c d) ^ 2)) - e0)
      with (sum_to (pot_ndim pot) (fun d => shadow_term k c dt p d + k d * dt ^ 2 / (4 * p_mass p) * (k d / 2 * (nth d (p_pos p) 0 - c d) ^ 2))) by ring.
    rewrite <- sum_to_scale. apply sum_to_le. intros d Hd. specialize (Q d Hd). specialize (P d Hd). unfold shadow_term.
    set (x := k d * dt ^ 2 / (4 * p_mass p)) in *. set (V := k d / 2 * (nth d (p_pos p) 0 - c d) ^ 2) in *.
    assert (0 <= (nth d (p_mom p) 0) ^ 2 / (2 * p_mass p)) as T by (apply Rmult_le_pos; [apply pow2_ge_0|apply Rlt_le, Rinv_0_lt_compat; lra]).
    set (K := (nth d (p_mom p) 0) ^ 2 / (2 * p_mass p)) in *.
    assert (0 <= al * K) by (apply Rmult_le_pos; lra). assert (0 <= (al - x) * V) by (apply Rmult_le_pos; lra). nra.
Qed.

Lemma no_drift rng ld n ps g e0 k c al : rng_ok rng -> ld_kind ld = BussiParinello 0 -> pot_bc (ld_pot ld) = None ->
  harmonic (ld_pot ld) e0 k c -> 0 <= al < 1 ->
  Forall (fun p => frictionless_walker (ld_pot ld) p /\ 0 < p_mass p /\
    forall d, (d < pot_ndim (ld_pot ld))%nat -> 0 <= k d /\ k d * (ld_dt ld) ^ 2 <= al * (4 * p_mass p)) ps ->
  exists ps' g', ld_steps rng ld n ps g = Ok (ps', g') /\ length ps' = length ps /\
  forall i p p', nth_error ps i = Some p -> nth_error ps' i = Some p' ->
    e0 + (1 - al) * (walker_energy (ld_pot ld) p - e0) <= walker_energy (ld_pot ld) p' /\
    e0 + (1 - al) * (walker_energy (ld_pot ld) p' - e0) <= walker_energy (ld_pot ld) p.
Proof.
  intros RO K B H A F. assert (force_size (ld_pot ld)) as FS by (intros x Hx; apply H; assumption).
  assert (Forall (frictionless_walker (ld_pot ld)) ps) as F1 by (eapply Forall_impl; [|exact F]; cbv beta; tauto).
  destruct (ld_steps_fl rng ld RO K B FS n ps g F1) as (g' & E). eexists _, g'. split; [exact E|]. split; [apply map_length|].
  intros i p p' Hp Hp'. rewrite nth_error_map, Hp in Hp'. cbn in Hp'. injection Hp' as <-.
  rewrite Forall_forall in F. destruct (F p (nth_error_In _ _ Hp)) as (FW & M & Hk).
  pose proof (iter_keeps (ld_pot ld) (ld_dt ld) n p B FS FW) as FW'.
  assert (forall d, (d < pot_ndim (ld_pot ld))%nat -> shadow_term k c (ld_dt ld) (Nat.iter n (fl_step (ld_pot ld) (ld_dt ld)) p) d = shadow_term k c (ld_dt ld) p d) as Sh
    by (intros d Hd; now apply (shadow_steps (ld_pot ld) e0)).
  assert (p_mass (Nat.iter n (fl_step (ld_pot ld) (ld_dt ld)) p) = p_mass p) as Ma.
  { clear -B FS FW. induction n as [|n IH]; [reflexivity|]. cbn [Nat.iter nat_rect].
    change (nat_rect (fun _ => particle) p (fun _ => fl_step (ld_pot ld) (ld_dt ld)) n) with (Nat.iter n (fl_step (ld_pot ld) (ld_dt ld)) p).
    rewrite <- IH. unfold fl_step at 1. destruct (bp_update _ _ _ _ _ _) as [q|] eqn:Eb; [|reflexivity].
    pose proof (iter_keeps (ld_pot ld) (ld_dt ld) n p B FS FW) as (S & _).
    destruct (bp_equations (ld_pot ld) 1 (ld_dt ld) _ _ _ B FS S (repeat_length 0 (pot_ndim (ld_pot ld))) (repeat_length 0 (pot_ndim (ld_pot ld)))) as (q' & E & _ & Mq & _). congruence. }
  destruct FW as (RS & _). destruct FW' as (RS' & _).
  pose proof (energy_bounds (ld_pot ld) e0 k c (ld_dt ld) p al H RS M A Hk) as (L1 & U1).
  pose proof (energy_bounds (ld_pot ld) e0 k c (ld_dt ld) (Nat.iter n (fl_step (ld_pot ld) (ld_dt ld)) p) al H RS' ltac:(now rewrite Ma) A ltac:(now rewrite Ma)) as (L2 & U2).
  rewrite (sum_to_ext _ _ _ Sh) in L2, U2. split; lra.
Qed.

Lemma demo_harmonic : harmonic (demo_pot None) 0 (fun _ => 2) (fun _ => 0).
Proof.
  intros x Hx. cbn [demo_pot pot_ndim pot_energy pot_force] in *. destruct x as [|x [|y [|]]]; try discriminate. split; [|split].
  - unfold sum_to, total. cbn. lra.
  - reflexivity.
  - intros [|[|d]] Hd; [cbn; lra|cbn; lra|lia].
Qed.

Lemma demo_no_drift : exists ps, add_particle (demo_ld (BussiParinello 0) None) [] [1; 2] 3 (-1) false = Ok ps /\ length ps = 1%nat /\
  Forall (fun p => frictionless_walker (demo_pot None) p /\ 0 < p_mass p /\
    (forall d, (d < 2)%nat -> 0 <= 2 /\ 2 * (1/10) ^ 2 <= 1/600 * (4 * p_mass p)) /\ 0 < walker_energy (demo_pot None) p) ps.
Proof.
  destruct demo_frictionless as (ps & E & L & F). exists ps. split; [assumption|]. split; [assumption|].
  assert (ps = [mkP [1; 2] [0; 0] 3 (pot_energy (demo_pot None) [1; 2]) (pot_force (demo_pot None) [1; 2]) (ld_c2 (ld_c1 0 (1/10)) 3 1)]) as ->
    by (cbn in E; injection E as <-; reflexivity).
  constructor; [|constructor]. split; [now inversion F|]. cbn [p_mass]. split; [lra|]. split; [intros; lra|].
  unfold walker_energy, kinetic_energy, sum_to, total. cbn. lra.
Qed.
