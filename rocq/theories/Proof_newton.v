(** Proofs for the motion without friction (C106) *)
From Coq Require Import Lra Lia.
From Coquelicot Require Import Coquelicot.
From Verif Require Import PyBase Model_dyn Model_pot Spec_ld Spec_well Spec_newton Proof_base Proof_ld Proof_well Proof_well2.
Open Scope R_scope.
Ltac Zify.zify_post_hook ::= idtac.

(** ** local errors *)
Lemma shifted f t s l : derivable_pt_lim f (t + s) l -> derivable_pt_lim (fun u => f (t + u)) s l.
Proof. intros H eps He. destruct (H eps He) as [d Hd]. exists d. intros h H1 H2. rewrite <- Rplus_assoc. apply Hd; assumption. Qed.
Lemma climb (f f' G G' : R -> R) h : f 0 = 0 -> G 0 = 0 ->
  (forall s, 0 <= s <= h -> derivable_pt_lim f s (f' s)) -> (forall s, 0 <= s <= h -> derivable_pt_lim G s (G' s)) ->
  (forall s, 0 <= s <= h -> Rabs (f' s) <= G' s) -> forall s, 0 <= s <= h -> Rabs (f s) <= G s.
Proof.
  intros F0 G0 DF DG B s Hs. destruct (Req_dec s 0) as [->|N]; [rewrite F0, G0, Rabs_R0; lra|].
  assert (P : 0 < s) by lra.
  destruct (MVT_cor2 (fun u => G u - f u) (fun u => G' u - f' u) 0 s P) as (c & Ec & Hc).
  { intros c Hc. apply (derivable_pt_lim_minus G f); [apply DG|apply DF]; lra. }
  destruct (MVT_cor2 (fun u => G u + f u) (fun u => G' u + f' u) 0 s P) as (e & Ee & He).
  { intros e He. apply (derivable_pt_lim_plus G f); [apply DG|apply DF]; lra. }
  assert (Bc : Rabs (f' c) <= G' c) by (apply B; lra). assert (Be : Rabs (f' e) <= G' e) by (apply B; lra).
  assert (X1 : 0 <= (G' c - f' c) * (s - 0)) by (apply Rmult_le_pos; [|lra]; pose proof (Rle_abs (f' c)); lra).
  assert (X2 : 0 <= (G' e + f' e) * (s - 0)) by (apply Rmult_le_pos; [|lra]; pose proof (Rle_abs (- f' e)) as Y; rewrite Rabs_Ropp in Y; lra).
  rewrite F0, G0 in Ec, Ee. apply Rabs_le. lra.
Qed.
Lemma dl_lin c s : derivable_pt_lim (fun u => c * u) s c.
Proof. apply is_derive_Reals. auto_derive; [trivial|ring]. Qed.
Lemma dl_sq c s : derivable_pt_lim (fun u => c * u ^ 2 / 2) s (c * s).
Proof. apply is_derive_Reals. auto_derive; [trivial|field]. Qed.
Lemma dl_cub c s : derivable_pt_lim (fun u => c * u ^ 3 / 6) s (c * s ^ 2 / 2).
Proof. apply is_derive_Reals. auto_derive; [trivial|field]. Qed.
Lemma local_error (q v a j k : R -> R) h J K : 0 <= h ->
  (forall s, 0 <= s <= h -> derivable_pt_lim q s (v s) /\ derivable_pt_lim v s (a s) /\ derivable_pt_lim a s (j s) /\ Rabs (j s) <= J /\
     derivable_pt_lim j s (k s) /\ Rabs (k s) <= K) ->
  Rabs (q h - q 0 - h * v 0 - h ^ 2 / 2 * a 0) <= J * h ^ 3 / 6 /\ Rabs (v h - v 0 - h / 2 * (a 0 + a h)) <= K * h ^ 3 / 12.
Proof.
  intros Hh H. split.
  - assert (E1 : forall s, 0 <= s <= h -> Rabs (a s - a 0) <= J * s).
    { apply (climb (fun s => a s - a 0) j (fun s => J * s) (fun _ => J)); [ring|ring| | |].
      - intros s Hs. replace (j s) with (j s - 0) by ring. apply (derivable_pt_lim_minus a (fun _ => a 0)); [apply H; exact Hs|apply derivable_pt_lim_const].
      - intros s _. apply dl_lin.
      - intros s Hs. apply (H s Hs). }
    assert (E2 : forall s, 0 <= s <= h -> Rabs (v s - v 0 - a 0 * s) <= J * s ^ 2 / 2).
    { apply (climb (fun s => v s - v 0 - a 0 * s) (fun s => a s - a 0) (fun s => J * s ^ 2 / 2) (fun s => J * s)); [ring|field| | |exact E1].
      - intros s Hs. replace (a s) with (a s - 0) by ring. apply (derivable_pt_lim_minus (fun s => v s - v 0) (fun s => a 0 * s)); [|apply dl_lin].
        apply (derivable_pt_lim_minus v (fun _ => v 0)); [apply H; exact Hs|apply derivable_pt_lim_const].
      - intros s _. apply dl_sq. }
    assert (E3 : forall s, 0 <= s <= h -> Rabs (q s - q 0 - v 0 * s - a 0 * s ^ 2 / 2) <= J * s ^ 3 / 6).
    { apply (climb (fun s => q s - q 0 - v 0 * s - a 0 * s ^ 2 / 2) (fun s => v s - v 0 - a 0 * s) (fun s => J * s ^ 3 / 6) (fun s => J * s ^ 2 / 2)); [field|field| | |exact E2].
      - intros s Hs. apply (derivable_pt_lim_minus (fun s => q s - q 0 - v 0 * s) (fun s => a 0 * s ^ 2 / 2)); [|apply dl_sq].
        apply (derivable_pt_lim_minus (fun s => q s - q 0) (fun s => v 0 * s)); [|apply dl_lin].
        replace (v s) with (v s - 0) by ring. apply (derivable_pt_lim_minus q (fun _ => q 0)); [apply H; exact Hs|apply derivable_pt_lim_const].
      - intros s _. apply dl_cub. }
    replace (q h - q 0 - h * v 0 - h ^ 2 / 2 * a 0) with (q h - q 0 - v 0 * h - a 0 * h ^ 2 / 2) by field. apply E3. lra.
  - assert (E1 : forall s, 0 <= s <= h -> Rabs (a s - a 0 - s * j s) <= K * s ^ 2 / 2).
    { apply (climb (fun s => a s - a 0 - s * j s) (fun s => - (s * k s)) (fun s => K * s ^ 2 / 2) (fun s => K * s)); [ring|field| | |].
      - intros s Hs. replace (- (s * k s)) with (j s - 0 - (1 * j s + s * k s)) by ring.
        apply (derivable_pt_lim_minus (fun s => a s - a 0) (fun s => s * j s)).
        + apply (derivable_pt_lim_minus a (fun _ => a 0)); [apply H; exact Hs|apply derivable_pt_lim_const].
        + apply (derivable_pt_lim_mult (fun s => s) j); [apply derivable_pt_lim_id|apply H; exact Hs].
      - intros s _. apply dl_sq.
      - intros s Hs. rewrite Rabs_Ropp, Rabs_mult, (Rabs_right s) by lra. rewrite (Rmult_comm K). apply Rmult_le_compat_l; [lra|]. apply (H s Hs). }
    assert (E2 : forall s, 0 <= s <= h -> Rabs (v s - v 0 - s * ((a 0 + a s) / 2)) <= (K / 2) * s ^ 3 / 6).
    { apply (climb (fun s => v s - v 0 - s * ((a 0 + a s) / 2)) (fun s => (a s - a 0 - s * j s) / 2) (fun s => (K / 2) * s ^ 3 / 6) (fun s => (K / 2) * s ^ 2 / 2)); [field|field| | |].
      - intros s Hs. replace ((a s - a 0 - s * j s) / 2) with (a s - 0 - (1 * ((a 0 + a s) / 2) + s * (/ 2 * (0 + j s)))) by field.
        apply (derivable_pt_lim_minus (fun s => v s - v 0) (fun s => s * ((a 0 + a s) / 2))).
        + apply (derivable_pt_lim_minus v (fun _ => v 0)); [apply H; exact Hs|apply derivable_pt_lim_const].
        + apply (derivable_pt_lim_mult (fun s => s) (fun s => (a 0 + a s) / 2)); [apply derivable_pt_lim_id|].
          apply (derivable_pt_lim_ext (fun s => / 2 * (a 0 + a s))); [intros z; field|].
          apply (derivable_pt_lim_scal (fun s => a 0 + a s)). apply (derivable_pt_lim_plus (fun _ => a 0) a); [apply derivable_pt_lim_const|apply H; exact Hs].
      - intros s _. apply dl_cub.
      - intros s Hs. unfold Rdiv at 1. rewrite Rabs_mult, (Rabs_right (/ 2)) by lra. pose proof (E1 s Hs). lra. }
    replace (h / 2 * (a 0 + a h)) with (h * ((a 0 + a h) / 2)) by field. replace (K * h ^ 3 / 12) with ((K / 2) * h ^ 3 / 6) by field. apply E2. lra.
Qed.

(** ** the recursion of the error *)
Definition rate (l : R) : R := 1 + l + l / 2 * (1 + l / 2).
Definition defect (l J K : R) : R := J / 6 * (1 + l / 2) + K / 12.
Definition bound_after (l J K h : R) (n : nat) : R := defect l J K * h ^ 2 * (((1 + h * rate l) ^ n - 1) / rate l).
Lemma rate_pos l : 0 <= l -> 1 <= rate l.
Proof. intros H. unfold rate. assert (0 <= l / 2 * (1 + l / 2)) by (apply Rmult_le_pos; lra). lra. Qed.
Lemma defect_pos l J K : 0 <= l -> 0 <= J -> 0 <= K -> 0 <= defect l J K.
Proof. intros. unfold defect. assert (0 <= J / 6 * (1 + l / 2)) by (apply Rmult_le_pos; lra). lra. Qed.
Lemma bound_next l J K h n : 0 <= l -> bound_after l J K h (S n) = (1 + h * rate l) * bound_after l J K h n + defect l J K * h ^ 3.
Proof. intros H. pose proof (rate_pos l H). unfold bound_after. cbn [pow]. field. lra. Qed.
Lemma step_bound l J K h X V : 0 <= l -> 0 <= J -> 0 <= K -> 0 < h <= 1 -> 0 <= X -> 0 <= V ->
  let X' := X + h * V + h ^ 2 / 2 * (l * X) + J * h ^ 3 / 6 in
  let V' := V + h / 2 * (l * X + l * X') + K * h ^ 3 / 12 in
  X' + V' <= (1 + h * rate l) * (X + V) + defect l J K * h ^ 3.
Proof.
  intros Hl HJ HK Hh HX HV X' V'. unfold V', X', rate, defect.
  assert (A1 : 0 <= (1 - h) * h * (l * X)) by (repeat apply Rmult_le_pos; lra).
  assert (A2 : 0 <= (1 - h) * h * (l * V)) by (repeat apply Rmult_le_pos; lra).
  assert (A3 : 0 <= (1 - h) * (l * (J * h ^ 3))) by (repeat apply Rmult_le_pos; try lra; apply pow_le; lra).
  assert (A4 : 0 <= (1 - h) * h * (l * l * X)) by (repeat apply Rmult_le_pos; lra).
  assert (A5 : 0 <= (1 - h) * h * h * (l * l * X)) by (repeat apply Rmult_le_pos; lra).
  assert (A6 : 0 <= h * (l * V)) by (repeat apply Rmult_le_pos; lra).
  assert (A7 : 0 <= h * (l * X)) by (repeat apply Rmult_le_pos; lra).
  assert (A8 : 0 <= h * (l * l * V)) by (repeat apply Rmult_le_pos; lra).
  assert (A9 : 0 <= h * X) by (repeat apply Rmult_le_pos; lra).
  ring_simplify in A1. ring_simplify in A2. ring_simplify in A3. ring_simplify in A4. ring_simplify in A5.
  match goal with |- ?a <= ?b => assert (Z : 0 <= b - a); [field_simplify; nra|lra] end.
Qed.
Lemma exp_pow x n : 0 <= x -> (1 + x) ^ n <= exp (INR n * x).
Proof.
  intros H. induction n as [|n IH]; [cbn; rewrite Rmult_0_l, exp_0; lra|].
  rewrite S_INR, Rmult_plus_distr_r, Rmult_1_l, exp_plus. cbn [pow]. rewrite Rmult_comm.
  apply Rmult_le_compat; [apply pow_le; lra|lra|exact IH|]. apply exp_ineq1_le.
Qed.
Lemma bound_final mass T L J K h n : 0 < mass -> 0 <= L -> 0 <= J -> 0 <= K -> 0 < h -> INR n * h <= T -> bound_after (L / mass) J K h n <= error_factor mass T L J K * h ^ 2.
Proof.
  intros Hm HL HJ HK Hh HT. assert (Hl : 0 <= L / mass) by (apply Rmult_le_pos; [exact HL|left; apply Rinv_0_lt_compat; exact Hm]).
  pose proof (rate_pos _ Hl) as HA. pose proof (defect_pos _ J K Hl HJ HK) as HB.
  unfold error_factor. cbv zeta. fold (rate (L / mass)). fold (defect (L / mass) J K). unfold bound_after.
  rewrite (Rmult_comm (_ * _) (h ^ 2)), <- Rmult_assoc, (Rmult_comm (h ^ 2)).
  apply Rmult_le_compat_l; [apply Rmult_le_pos; [exact HB|apply pow_le; lra]|].
  apply Rmult_le_compat_r; [left; apply Rinv_0_lt_compat; lra|]. apply Rplus_le_compat_r.
  eapply Rle_trans; [apply exp_pow; apply Rmult_le_pos; lra|].
  assert (M : INR n * (h * rate (L / mass)) <= rate (L / mass) * T).
  { replace (INR n * (h * rate (L / mass))) with (rate (L / mass) * (INR n * h)) by ring. apply Rmult_le_compat_l; lra. }
  destruct M as [M|M]; [left; apply exp_increasing; exact M|rewrite M; lra].
Qed.

Section Run.
Context (rng : rng_if) (ld : ldpar) (mass T delta L J K : R) (q v : nat -> R -> R) (p : particle) (g : rng_st rng) (walker : nat -> particle)
  (HS : sized rng) (HK : ld_kind ld = BussiParinello 0) (HB : pot_bc (ld_pot ld) = None) (HF : force_size (ld_pot ld))
  (Hm : 0 < mass) (Hdt : 0 < ld_dt ld <= 1) (HL : 0 <= L)
  (HN : newton (ld_pot ld) mass T q v) (HSm : smooth (ld_pot ld) mass T q J K) (HT : tame (ld_pot ld) T q delta L)
  (HP : set_up ld 0 mass p) (HW : follows rng ld p g walker) (H0 : starts (pot_ndim (ld_pot ld)) mass q v p).
Let nd := pot_ndim (ld_pot ld).
Let h := ld_dt ld.
Let l := L / mass.

Lemma plain_step n d : (d < nd)%nat ->
  let x := nth d (p_pos (walker n)) 0 in let m := nth d (p_mom (walker n)) 0 in
  let f := nth d (pot_force (ld_pot ld) (p_pos (walker n))) 0 in let f' := nth d (pot_force (ld_pot ld) (p_pos (walker (S n)))) 0 in
  nth d (p_pos (walker (S n))) 0 = x + h * (m / mass) + h ^ 2 / 2 * (f / mass) /\
  nth d (p_mom (walker (S n))) 0 / mass = m / mass + h / 2 * (f / mass + f' / mass).
Proof using All.
  intros Hd. cbv zeta. destruct (bp_recursion rng ld 0 mass HS HK HB HF p g walker n HP HW) as (_ & R). specialize (R d Hd). cbv zeta in R.
  assert (C1 : ld_c1 0 (ld_dt ld) = 1) by (unfold ld_c1; rewrite Rmult_0_r, Rmult_0_l; apply exp_0).
  assert (C2 : ld_c2 1 mass (ld_kt ld) = 0) by (unfold ld_c2; replace ((1 - 1 * 1) * mass * ld_kt ld) with 0 by ring; apply sqrt_0).
  rewrite C1, C2 in R. destruct R as (R1 & R2). rewrite R1, R2. unfold bp_position, bp_momentum. fold h. split; field; lra.
Qed.

Lemma walker_sizes n : length (p_pos (walker n)) = nd.
Proof using All. destruct (bp_recursion rng ld 0 mass HS HK HB HF p g walker n HP HW) as (((A & _) & _) & _). exact A. Qed.

Lemma error_step n X V : 0 <= X -> 0 <= V -> 0 <= J -> 0 <= K -> INR (S n) * h <= T -> X <= delta ->
  let X' := X + h * V + h ^ 2 / 2 * (l * X) + J * h ^ 3 / 6 in
  let V' := V + h / 2 * (l * X + l * X') + K * h ^ 3 / 12 in
  X' <= delta ->
  (forall d, (d < nd)%nat -> Rabs (nth d (p_pos (walker n)) 0 - q d (INR n * h)) <= X /\ Rabs (nth d (p_mom (walker n)) 0 / mass - v d (INR n * h)) <= V) ->
  forall d, (d < nd)%nat -> Rabs (nth d (p_pos (walker (S n))) 0 - q d (INR (S n) * h)) <= X' /\ Rabs (nth d (p_mom (walker (S n))) 0 / mass - v d (INR (S n) * h)) <= V'.
Proof using All.
  intros HX HV HJ HKp Ht HXd X' V' HXd' IH.
  assert (Hh : 0 < h) by apply Hdt. pose proof (pos_INR n) as Pn. rewrite S_INR in *.
  set (t := INR n * h) in *. assert (Et : (INR n + 1) * h = t + h) by (unfold t; ring). rewrite Et in *.
  assert (Pt : 0 <= t) by (apply Rmult_le_pos; lra).
  destruct HSm as (j & k & Hjk).
  assert (Loc : forall d, (d < nd)%nat -> let a := acceleration (ld_pot ld) mass q d in
     Rabs (q d (t + h) - q d t - h * v d t - h ^ 2 / 2 * a t) <= J * h ^ 3 / 6 /\ Rabs (v d (t + h) - v d t - h / 2 * (a t + a (t + h))) <= K * h ^ 3 / 12).
  { intros d Hd a.
    assert (Hh0 : 0 <= h) by lra.
    pose proof (local_error (fun s => q d (t + s)) (fun s => v d (t + s)) (fun s => a (t + s)) (fun s => j d (t + s)) (fun s => k d (t + s)) h J K Hh0) as E.
    cbv beta in E. rewrite Rplus_0_r in E. apply E. intros s Hs. assert (I : 0 <= t + s <= T) by lra.
    destruct (HN d (t + s) Hd I) as (N1 & N2). destruct (Hjk d (t + s) Hd I) as (J1 & J2 & J3 & J4).
    split; [apply (shifted (q d)); exact N1|]. split; [apply (shifted (v d)); exact N2|]. split; [apply (shifted a); exact J1|].
    split; [exact J2|]. split; [apply (shifted (j d)); exact J3|exact J4]. }
  assert (Force : forall t' y r, 0 <= t' <= T -> length y = nd -> r <= delta -> (forall d, (d < nd)%nat -> Rabs (nth d y 0 - q d t') <= r) ->
    forall d, (d < nd)%nat -> Rabs (nth d (pot_force (ld_pot ld) y) 0 / mass - acceleration (ld_pot ld) mass q d t') <= l * r).
  { intros t' y r I1 I2 I3 I4 d Hd. pose proof (HT t' y r I1 I2 I3 I4 d Hd) as B. unfold acceleration, l.
    replace (nth d (pot_force (ld_pot ld) y) 0 / mass - nth d (pot_force (ld_pot ld) (place (pot_ndim (ld_pot ld)) q t')) 0 / mass)
      with ((nth d (pot_force (ld_pot ld) y) 0 - nth d (pot_force (ld_pot ld) (place (pot_ndim (ld_pot ld)) q t')) 0) * / mass) by (field; lra).
    rewrite Rabs_mult, (Rabs_right (/ mass)) by (left; apply Rinv_0_lt_compat; exact Hm).
    replace (L / mass * r) with (L * r * / mass) by (field; lra). apply Rmult_le_compat_r; [left; apply Rinv_0_lt_compat; exact Hm|exact B]. }
  assert (It : 0 <= t <= T) by lra. assert (It' : 0 <= t + h <= T) by lra.
  assert (F0 := Force t (p_pos (walker n)) X It (walker_sizes n) HXd (fun d Hd => proj1 (IH d Hd))).
  assert (Pos : forall d, (d < nd)%nat -> Rabs (nth d (p_pos (walker (S n))) 0 - q d (t + h)) <= X').
  { intros d Hd. destruct (plain_step n d Hd) as (P1 & _). rewrite P1. destruct (Loc d Hd) as (L1 & _). cbv zeta in L1. destruct (IH d Hd) as (I1 & I2). pose proof (F0 d Hd) as F1.
    set (x := nth d (p_pos (walker n)) 0) in *. set (w := nth d (p_mom (walker n)) 0 / mass) in *. set (f := nth d (pot_force (ld_pot ld) (p_pos (walker n))) 0 / mass) in *.
    set (a := acceleration (ld_pot ld) mass q d t) in *.
    replace (x + h * w + h ^ 2 / 2 * f - q d (t + h)) with ((x - q d t) + h * (w - v d t) + h ^ 2 / 2 * (f - a) + - (q d (t + h) - q d t - h * v d t - h ^ 2 / 2 * a)) by ring.
    assert (H2 : 0 <= h ^ 2 / 2) by (pose proof (pow_lt h 2 Hh); lra).
    unfold X'. repeat (eapply Rle_trans; [apply Rabs_triang|]; apply Rplus_le_compat).
    - exact I1.
    - rewrite Rabs_mult, (Rabs_right h) by lra. apply Rmult_le_compat_l; [lra|exact I2].
    - rewrite Rabs_mult, (Rabs_right (h ^ 2 / 2)) by lra. apply Rmult_le_compat_l; [lra|exact F1].
    - rewrite Rabs_Ropp. exact L1. }
  assert (F1 := Force (t + h) (p_pos (walker (S n))) X' It' (walker_sizes (S n)) HXd' Pos).
  intros d Hd. split; [exact (Pos d Hd)|]. destruct (plain_step n d Hd) as (_ & P2). rewrite P2. destruct (Loc d Hd) as (_ & L2). cbv zeta in L2.
  destruct (IH d Hd) as (_ & I2). pose proof (F0 d Hd) as G0. pose proof (F1 d Hd) as G1.
  set (w := nth d (p_mom (walker n)) 0 / mass) in *. set (f := nth d (pot_force (ld_pot ld) (p_pos (walker n))) 0 / mass) in *.
  set (f' := nth d (pot_force (ld_pot ld) (p_pos (walker (S n)))) 0 / mass) in *.
  set (a := acceleration (ld_pot ld) mass q d t) in *. set (a' := acceleration (ld_pot ld) mass q d (t + h)) in *.
  replace (w + h / 2 * (f + f') - v d (t + h)) with ((w - v d t) + h / 2 * ((f - a) + (f' - a')) + - (v d (t + h) - v d t - h / 2 * (a + a'))) by ring.
  unfold V'. eapply Rle_trans; [apply Rabs_triang|]. apply Rplus_le_compat; [|rewrite Rabs_Ropp; exact L2].
  eapply Rle_trans; [apply Rabs_triang|]. apply Rplus_le_compat; [exact I2|].
  rewrite Rabs_mult, (Rabs_right (h / 2)) by lra. apply Rmult_le_compat_l; [lra|]. eapply Rle_trans; [apply Rabs_triang|]. apply Rplus_le_compat; assumption.
Qed.

Lemma error_bound_run n : INR n * h <= T -> error_factor mass T L J K * h ^ 2 <= delta -> agrees nd mass (error_factor mass T L J K * h ^ 2) q v (INR n * h) (walker n).
Proof using All.
  intros Ht Hde. destruct (Nat.eq_dec nd 0) as [Z|NZ]; [intros d Hd; lia|].
  assert (Hh : 0 < h) by apply Hdt. assert (PT : 0 <= T) by (pose proof (pos_INR n); assert (0 <= INR n * h) by (apply Rmult_le_pos; lra); lra).
  assert (JK : 0 <= J /\ 0 <= K).
  { destruct HSm as (j & k & Hjk). destruct (Hjk 0%nat 0) as (_ & J2 & _ & J4); [lia|lra|]. pose proof (Rabs_pos (j 0%nat 0)). pose proof (Rabs_pos (k 0%nat 0)). lra. }
  destruct JK as (HJ & HKp). assert (Hl : 0 <= l) by (apply Rmult_le_pos; [exact HL|left; apply Rinv_0_lt_compat; exact Hm]).
  set (C := error_factor mass T L J K * h ^ 2) in *.
  assert (Main : exists X V, 0 <= X /\ 0 <= V /\ X + V <= bound_after l J K h n /\
    forall d, (d < nd)%nat -> Rabs (nth d (p_pos (walker n)) 0 - q d (INR n * h)) <= X /\ Rabs (nth d (p_mom (walker n)) 0 / mass - v d (INR n * h)) <= V).
  { assert (B : forall m, INR m * h <= T -> bound_after l J K h m <= C) by (intros m Q; apply bound_final; assumption).
    clearbody C. revert Ht. induction n as [|m IH]; intros Ht.
    - exists 0, 0. split; [lra|]. split; [lra|]. split; [unfold bound_after; cbn [pow]; unfold Rdiv; rewrite Rminus_diag_eq by reflexivity; lra|].
      intros d Hd. destruct (HW 0%nat) as (g' & E). cbn in E. assert (W : walker 0%nat = p) by congruence. rewrite W.
      destruct (H0 d Hd) as (A & A'). cbn [INR]. rewrite Rmult_0_l, A, A'. split; [rewrite Rminus_diag_eq by reflexivity; rewrite Rabs_R0; lra|].
      replace (mass * v d 0 / mass - v d 0) with 0 by (field; lra). rewrite Rabs_R0. lra.
    - assert (Ht' : INR m * h <= T) by (rewrite S_INR in Ht; lra).
      destruct (IH Ht') as (X & V & HX & HV & HE & HI).
      assert (Q1 : 0 < h <= 1) by exact Hdt.
      pose proof (step_bound l J K h X V Hl HJ HKp Q1 HX HV) as SB. cbv zeta in SB.
      set (X' := X + h * V + h ^ 2 / 2 * (l * X) + J * h ^ 3 / 6) in *. set (V' := V + h / 2 * (l * X + l * X') + K * h ^ 3 / 12) in *.
      assert (lX : 0 <= l * X) by (apply Rmult_le_pos; lra). assert (h2 : 0 < h ^ 2) by (apply pow_lt; lra). assert (h3 : 0 < h ^ 3) by (apply pow_lt; lra).
      assert (PX : 0 <= X').
      { unfold X'. assert (0 <= h * V) by (apply Rmult_le_pos; lra). assert (0 <= h ^ 2 / 2 * (l * X)) by (apply Rmult_le_pos; lra). assert (0 <= J * h ^ 3) by (apply Rmult_le_pos; lra). lra. }
      assert (PV : 0 <= V').
      { unfold V'. assert (0 <= l * X') by (apply Rmult_le_pos; lra). assert (0 <= h / 2 * (l * X + l * X')) by (apply Rmult_le_pos; lra). assert (0 <= K * h ^ 3) by (apply Rmult_le_pos; lra). lra. }
      assert (SE : X' + V' <= bound_after l J K h (S m)).
      { rewrite bound_next by exact Hl. eapply Rle_trans; [exact SB|]. apply Rplus_le_compat_r. apply Rmult_le_compat_l; [|exact HE].
        pose proof (rate_pos l Hl). assert (0 <= h * rate l) by (apply Rmult_le_pos; lra). lra. }
      pose proof (B (S m) Ht) as B1. pose proof (B m Ht') as B0.
      exists X', V'. split; [exact PX|]. split; [exact PV|]. split; [exact SE|].
      apply (error_step m X V HX HV HJ HKp Ht); [lra| |exact HI]. fold X'. lra. }
  destruct Main as (X & V & HX & HV & HE & HI). pose proof (bound_final mass T L J K h n Hm HL HJ HKp Hh Ht) as B. fold l in B. fold C in B.
  intros d Hd. destruct (HI d Hd). split; lra.
Qed.
End Run.

Lemma newton_limit pot mass T delta L J K q v eps :
  pot_bc pot = None -> force_size pot -> 0 < mass -> 0 <= L -> 0 < delta -> newton pot mass T q v -> smooth pot mass T q J K -> tame pot T q delta L -> 0 < eps ->
  exists h0, 0 < h0 /\ forall rng ld p g walker n,
    sized rng -> ld_kind ld = BussiParinello 0 -> ld_pot ld = pot -> 0 < ld_dt ld <= h0 ->
    set_up ld 0 mass p -> starts (pot_ndim pot) mass q v p -> follows rng ld p g walker -> INR n * ld_dt ld <= T ->
    agrees (pot_ndim pot) mass eps q v (INR n * ld_dt ld) (walker n).
Proof.
  intros HB HF Hm HL Hd HN HSm HT He. set (C := error_factor mass T L J K). set (m := Rmin delta eps).
  assert (Pm : 0 < m) by (apply Rmin_pos; assumption). assert (PC : 0 < Rabs C + 1) by (pose proof (Rabs_pos C); lra).
  exists (Rmin 1 (m / (Rabs C + 1))). split; [apply Rmin_pos; [lra|apply Rdiv_lt_0_compat; assumption]|].
  intros rng ld p g walker n HS HK EP Hdt HP H0 HW Ht. subst pot.
  assert (D1 : ld_dt ld <= 1) by (eapply Rle_trans; [apply Hdt|apply Rmin_l]).
  assert (D2 : ld_dt ld <= m / (Rabs C + 1)) by (eapply Rle_trans; [apply Hdt|apply Rmin_r]).
  assert (D0 : 0 < ld_dt ld <= 1) by lra. clear Hdt.
  assert (E : C * ld_dt ld ^ 2 <= m).
  { assert (E1 : C * ld_dt ld ^ 2 <= Rabs C * ld_dt ld ^ 2) by (apply Rmult_le_compat_r; [apply pow_le; lra|apply Rle_abs]).
    assert (E2 : ld_dt ld ^ 2 <= ld_dt ld) by (cbn [pow]; rewrite Rmult_1_r; rewrite <- (Rmult_1_r (ld_dt ld)) at 3; apply Rmult_le_compat_l; lra).
    assert (E3 : Rabs C * ld_dt ld ^ 2 <= (Rabs C + 1) * ld_dt ld).
    { apply Rmult_le_compat; [apply Rabs_pos|apply pow_le; lra|lra|exact E2]. }
    assert (E4 : (Rabs C + 1) * ld_dt ld <= (Rabs C + 1) * (m / (Rabs C + 1))) by (apply Rmult_le_compat_l; lra).
    replace ((Rabs C + 1) * (m / (Rabs C + 1))) with m in E4 by (field; lra). lra. }
  assert (M1 : m <= delta) by apply Rmin_l. assert (M2 : m <= eps) by apply Rmin_r.
  intros d Hd'. destruct (error_bound_run rng ld mass T delta L J K q v p g walker HS HK HB HF Hm D0 HL HN HSm HT HP HW H0 n Ht ltac:(fold C; lra) d Hd') as (A1 & A2).
  fold C in A1, A2. split; lra.
Qed.

(** ** the example *)
Lemma round_acc d t : (d < 2)%nat -> acceleration round_well 1 circle d t = - circle d t.
Proof. intros H. unfold acceleration. destruct d as [|[|d]]; [cbn; field|cbn; field|lia]. Qed.
Lemma dl_circle d t : derivable_pt_lim (circle d) t (circle_v d t).
Proof. destruct d; [apply derivable_pt_lim_cos|apply derivable_pt_lim_sin]. Qed.
Lemma dl_circle_v d t : derivable_pt_lim (circle_v d) t (- circle d t).
Proof. destruct d; [apply (derivable_pt_lim_opp sin); apply derivable_pt_lim_sin|apply derivable_pt_lim_cos]. Qed.
Lemma circle_bound d t : Rabs (circle d t) <= 1 /\ Rabs (circle_v d t) <= 1.
Proof. pose proof (COS_bound t). pose proof (SIN_bound t). split; apply Rabs_le; destruct d; cbn; lra. Qed.
Lemma round_motion T delta : newton round_well 1 T circle circle_v /\ smooth round_well 1 T circle 1 1 /\ tame round_well T circle delta 1.
Proof.
  split; [|split].
  - intros d t Hd _. split; [apply dl_circle|]. cbn in Hd. rewrite round_acc by exact Hd. apply dl_circle_v.
  - exists (fun d t => - circle_v d t), circle. intros d t Hd _. cbn in Hd. split; [|split; [|split]].
    + apply (derivable_pt_lim_ext (fun u => - circle d u)); [intros z; symmetry; apply round_acc; exact Hd|]. apply (derivable_pt_lim_opp (circle d)), dl_circle.
    + rewrite Rabs_Ropp. apply circle_bound.
    + replace (circle d t) with (- - circle d t) by ring. apply (derivable_pt_lim_opp (circle_v d)), dl_circle_v.
    + apply circle_bound.
  - intros t y r _ Hy _ H d Hd. cbn in Hd, Hy. destruct y as [|y0 [|y1 [|y2 y]]]; try discriminate Hy. rewrite Rmult_1_l. specialize (H d Hd).
    rewrite <- Rabs_Ropp. destruct d as [|[|d]]; [| |lia]; cbn in H |- *; match goal with |- Rabs ?a <= _ => match type of H with Rabs ?b <= _ => replace a with b by ring end end; exact H.
Qed.
Lemma circle_set_up dt kt : set_up (mkLD (BussiParinello 0) round_well dt kt) 0 1 circle_start /\ starts 2 1 circle circle_v circle_start.
Proof.
  split; [split; [|split; [|split]]|].
  - split; [reflexivity|]. split; reflexivity.
  - split; [cbn; field|cbn]. apply f_equal2; [ring|]. apply f_equal2; [ring|reflexivity].
  - reflexivity.
  - cbn. unfold ld_c2, ld_c1. rewrite Rmult_0_r, Rmult_0_l, exp_0. replace ((1 - 1 * 1) * 1 * kt) with 0 by ring. symmetry. apply sqrt_0.
  - intros d Hd. destruct d as [|[|d]]; [| |lia]; cbn; rewrite ?cos_0, ?sin_0; split; ring.
Qed.
