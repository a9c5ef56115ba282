(** Proofs for free energies from samples (C99) *)
From Coq Require Import Lra Lia.
From Verif Require Import PyBase Model_xr Model_fes Model_deltaf Model_dyn Model_potgrid Spec_fes Spec_consist Proof_fes Proof_debug.
Open Scope R_scope.

Lemma abs_between x y : Rabs x <= y -> - y <= x <= y.
Proof. intro H. unfold Rabs in H. destruct (Rcase_abs x); lra. Qed.
Lemma weight_pos kt e : 0 < weight kt e.
Proof. apply exp_pos. Qed.
Lemma weights_pos kt l : l <> [] -> 0 < fold_right Rplus 0 (map (weight kt) l).
Proof.
  intro H. assert (A : forall l, 0 <= fold_right Rplus 0 (map (weight kt) l)).
  { clear. induction l as [|x l IH]; cbn; [lra|]. pose proof (weight_pos kt x). lra. }
  destruct l as [|x l]; [congruence|]. cbn. pose proof (weight_pos kt x). pose proof (A l). lra.
Qed.

(** the counts divided by a common constant are within the factors 1 - d and 1 + d of the weights *)
Definition scaled_within (d kt : R) (es : list R) (ns : list nat) (c : R) : Prop :=
  length ns = length es /\
  forall i, (i < length es)%nat ->
    (1 - d) * (c * weight kt (nth i es 0)) <= INR (nth i ns 0%nat) <= (1 + d) * (c * weight kt (nth i es 0)).

Lemma within_scaled d kt es ns : es <> [] -> samples_within d kt es ns -> exists c, 0 < c /\ scaled_within d kt es ns c.
Proof.
  intros H (L & N & HN & A). pose proof (weights_pos kt es H) as W.
  set (S := fold_right Rplus 0 (map (weight kt) es)) in *.
  exists (N / S). split; [apply Rdiv_lt_0_compat; assumption|]. split; [exact L|].
  intros i Hi. specialize (A i Hi). cbv zeta in A.
  replace (N / S * weight kt (nth i es 0)) with (N * (weight kt (nth i es 0) / S)) by (field; lra).
  apply abs_between in A. lra.
Qed.

(** ratios *)
Lemma ratio_bound kt d c u v w z : 0 < kt -> 0 <= d < 1 -> 0 < c -> 0 < w -> 0 < z ->
  (1 - d) * (c * w) <= u <= (1 + d) * (c * w) -> (1 - d) * (c * z) <= v <= (1 + d) * (c * z) ->
  Rabs (- kt * ln (u / v) - - kt * ln (w / z)) <= error_bound kt d.
Proof.
  intros K D C W Z [A1 A2] [B1 B2].
  assert (0 < c * w) by (apply Rmult_lt_0_compat; assumption). assert (0 < c * z) by (apply Rmult_lt_0_compat; assumption).
  assert (0 < u) by (apply Rlt_le_trans with ((1 - d) * (c * w)); [apply Rmult_lt_0_compat; lra|assumption]).
  assert (0 < v) by (apply Rlt_le_trans with ((1 - d) * (c * z)); [apply Rmult_lt_0_compat; lra|assumption]).
  assert (M : forall a b, 0 < a -> a <= b -> ln a <= ln b).
  { intros a b Ha [Hb| ->]; [left; apply ln_increasing; assumption|right; reflexivity]. }
  assert (D' : forall a b, 0 < a -> 0 < b -> ln (a / b) = ln a - ln b).
  { intros a b Ha Hb. unfold Rdiv. rewrite ln_mult, ln_Rinv; [lra|assumption..|apply Rinv_0_lt_compat; assumption]. }
  assert (0 < (1 - d) * (c * w)) as P1 by (apply Rmult_lt_0_compat; lra). assert (0 < (1 - d) * (c * z)) as P2 by (apply Rmult_lt_0_compat; lra).
  pose proof (M _ _ P1 A1) as a1. pose proof (M u _ ltac:(assumption) A2) as a2.
  pose proof (M _ _ P2 B1) as b1. pose proof (M v _ ltac:(assumption) B2) as b2.
  rewrite !ln_mult in a1, a2, b1, b2 by lra.
  unfold error_bound. rewrite !D' by lra.
  replace (- kt * (ln u - ln v) - - kt * (ln w - ln z)) with (kt * ((ln v - ln z) - (ln u - ln w))) by ring.
  rewrite Rabs_mult, (Rabs_right kt) by lra. apply Rmult_le_compat_l; [lra|]. apply Rabs_le. lra.
Qed.

(** the FES *)
Lemma surface_close d kt energy bins counts junk : bins <> [] -> 0 < kt -> 0 <= d < 1 -> samples_within d kt (map energy bins) counts ->
  exists fes r, calculate_fes counts kt true junk = Ok fes /\ calculate_reference energy bins true = Ok r /\
    length fes = length bins /\ length r = length bins /\
    forall i, (i < length bins)%nat -> exists f, nth i fes NaN = Fin f /\ Rabs (f - nth i r 0) <= error_bound kt d.
Proof.
  intros HB K D S. destruct (within_scaled d kt (map energy bins) counts) as (c & C & L & A); [destruct bins; [congruence|discriminate]|exact S|].
  rewrite map_length in *.
  assert (HC : counts <> []) by (intros ->; destruct bins; [congruence|discriminate]).
  destruct (calculate_fes_spec counts kt junk HC K) as (fes & _ & E & LF & _ & P & Q & T).
  destruct (reference_zero energy bins HB) as (r & m & R1 & R2 & R3 & R4).
  assert (LR : length r = length bins) by (rewrite R2, map_length; reflexivity).
  exists fes, r. split; [exact E|]. split; [exact R1|]. split; [congruence|]. split; [exact LR|].
  assert (EN : forall i, (i < length bins)%nat -> nth i (map energy bins) 0 = nth i r 0 + m).
  { intros i Hi. rewrite R2. rewrite !nth_indep with (l := map _ bins) (d := 0) (d' := energy [] - m) by (rewrite map_length; exact Hi).
    rewrite nth_indep with (l := map energy bins) (d' := energy []) by (rewrite map_length; exact Hi).
    rewrite (map_nth (fun p => energy p - m)), (map_nth energy). lra. }
  assert (PC : forall i, (i < length bins)%nat -> 0 < INR (nth i counts 0%nat)).
  { intros i Hi. destruct (A i Hi) as [A1 _]. eapply Rlt_le_trans; [|exact A1]. apply Rmult_lt_0_compat; [lra|].
    apply Rmult_lt_0_compat; [exact C|apply weight_pos]. }
  assert (NZ : forall i, (i < length bins)%nat -> nth i counts 0%nat <> 0%nat).
  { intros i Hi Z0. pose proof (PC i Hi) as X. rewrite Z0 in X. cbn in X. lra. }
  destruct Q as (k & Hk & Fk); [exists 0%nat; split; [rewrite L; destruct bins; [congruence|cbn; lia]|apply NZ; destruct bins; [congruence|cbn; lia]]|].
  rewrite L in *.
  destruct (In_nth _ _ 0 R4) as (j & Hj & Ej). rewrite LR in Hj.
  rewrite Forall_forall in R3.
  (* difference of two references as the logarithm of the ratio of the weights *)
  assert (W : forall a b, (a < length bins)%nat -> (b < length bins)%nat ->
    nth a r 0 - nth b r 0 = - kt * ln (weight kt (nth a (map energy bins) 0) / weight kt (nth b (map energy bins) 0))).
  { intros a b Ha Hb. unfold Rdiv. rewrite ln_mult, ln_Rinv; [|apply weight_pos..|apply Rinv_0_lt_compat, weight_pos].
    unfold weight. rewrite !ln_exp, !EN by assumption. field. lra. }
  assert (X : forall a b f g, (a < length bins)%nat -> (b < length bins)%nat -> nth a fes NaN = Fin f -> nth b fes NaN = Fin g ->
    Rabs ((f - g) - (nth a r 0 - nth b r 0)) <= error_bound kt d).
  { intros a b f g Ha Hb Hf Hg. rewrite (T a b f g Ha Hb Hf Hg), (W a b Ha Hb).
    apply (ratio_bound kt d c); try assumption; try apply weight_pos; apply A; assumption. }
  intros i Hi. destruct (P i Hi (NZ i Hi)) as (f & Hf & F0). exists f. split; [exact Hf|].
  destruct (P j Hj (NZ j Hj)) as (g & Hg & G0).
  pose proof (X i k f 0 Hi Hk Hf Fk) as X1. pose proof (X i j f g Hi Hj Hf Hg) as X2.
  assert (0 <= nth k r 0) by (apply R3, nth_In; lia).
  rewrite Ej in X2. apply abs_between in X1, X2. apply Rabs_le. lra.
Qed.

(** free energy differences *)
Lemma state_within d kt c : 0 <= d < 1 -> 0 < c -> forall es ns mask, scaled_within d kt es ns c -> length mask = length es ->
  (1 - d) * (c * weight_in kt es mask) <= INR (count_in ns mask) <= (1 + d) * (c * weight_in kt es mask).
Proof.
  intros D C. induction es as [|e es IH]; intros [|n ns] [|b mask] [L A] M; try discriminate; cbn [weight_in count_in].
  - cbn. lra.
  - rewrite plus_INR.
    pose proof (A 0%nat ltac:(cbn; lia)) as A0. cbn [nth] in A0.
    assert (I : scaled_within d kt es ns c).
    { split; [cbn in L; lia|]. intros i Hi. exact (A (S i) ltac:(cbn; lia)). }
    specialize (IH ns mask I ltac:(cbn in M; lia)). destruct b; cbn [INR]; lra.
Qed.
Lemma weight_in_nonneg kt : forall es mask, 0 <= weight_in kt es mask.
Proof.
  induction es as [|e es IH]; intros [|b mask]; cbn; try lra. pose proof (IH mask). pose proof (weight_pos kt e). destruct b; lra.
Qed.
Lemma weight_in_pos kt : forall es mask, some_bin (length es) mask -> 0 < weight_in kt es mask.
Proof.
  induction es as [|e es IH]; intros [|b mask] [L I]; try discriminate; cbn in *; [contradiction|].
  destruct I as [->|I].
  - pose proof (weight_pos kt e). pose proof (weight_in_nonneg kt es mask). lra.
  - assert (L' : length mask = length es) by lia. pose proof (IH mask (conj L' I)). pose proof (weight_pos kt e). destruct b; lra.
Qed.
Lemma difference_finite kt n n1 : 0 < INR n -> 0 < INR n1 -> free_energy_difference kt n n1 = Fin (- kt * ln (INR n / INR n1)).
Proof. intros A B. destruct n; [cbn in A; lra|]. destruct n1; [cbn in B; lra|]. reflexivity. Qed.

Lemma delta_f_close d kt energies counts junk m1 ms : energies <> [] -> 0 < kt -> 0 <= d < 1 -> samples_within d kt energies counts ->
  Forall (some_bin (length energies)) (m1 :: ms) ->
  exists fes ds, calculate_fes counts kt true junk = Ok fes /\ calculate_delta_f fes kt (m1 :: ms) = Ok (map Fin ds) /\ length ds = length ms /\
    forall j, (j < length ms)%nat ->
      Rabs (nth j ds 0 - - kt * ln (weight_in kt energies (nth j ms []) / weight_in kt energies m1)) <= error_bound kt d.
Proof.
  intros HE K D S M. destruct (within_scaled d kt energies counts HE S) as (c & C & A).
  assert (L : length counts = length energies) by apply A.
  assert (HC : counts <> []) by (intros ->; destruct energies; [congruence|discriminate]).
  destruct (calculate_fes_spec counts kt junk HC K) as (fes & _ & E & _).
  assert (P : forall m, some_bin (length energies) m -> 0 < INR (count_in counts m)).
  { intros m Hm. eapply Rlt_le_trans; [|apply (state_within d kt c D C energies counts m A); apply Hm].
    apply Rmult_lt_0_compat; [lra|]. apply Rmult_lt_0_compat; [exact C|apply weight_in_pos; exact Hm]. }
  inversion M as [|? ? M1 MS]; subst. rewrite Forall_forall in MS.
  exists fes, (map (fun m => - kt * ln (INR (count_in counts m) / INR (count_in counts m1))) ms).
  split; [exact E|]. split; [|split; [apply map_length|]].
  - rewrite (delta_f_value counts kt junk fes (m1 :: ms) HC K); [|apply Forall_forall; intros m Hm; rewrite L; destruct Hm as [<-|Hm]; [apply M1|apply MS, Hm]|exact E].
    f_equal. rewrite map_map. apply map_ext_in. intros m Hm. apply difference_finite; apply P; [apply MS, Hm|exact M1].
  - intros j Hj.
    rewrite nth_indep with (d' := (fun m => - kt * ln (INR (count_in counts m) / INR (count_in counts m1))) []) by (rewrite map_length; exact Hj).
    rewrite (map_nth (fun m => - kt * ln (INR (count_in counts m) / INR (count_in counts m1)))).
    assert (B : some_bin (length energies) (nth j ms [])) by (apply MS, nth_In; exact Hj).
    apply (ratio_bound kt d c); try assumption; try (apply weight_in_pos; assumption);
      apply (state_within d kt c D C energies counts); try assumption; [apply B|apply M1].
Qed.

(** small errors *)
Lemma error_bound_0 kt : error_bound kt 0 = 0.
Proof. unfold error_bound. replace ((1 + 0) / (1 - 0)) with 1 by field. rewrite ln_1. ring. Qed.
Lemma error_small kt eps : 0 < kt -> 0 < eps -> exists d0, 0 < d0 < 1 /\ forall d, 0 <= d <= d0 -> error_bound kt d <= eps.
Proof.
  intros K E. set (q := exp (eps / kt)).
  assert (Q : 1 < q) by (unfold q; rewrite <- exp_0; apply exp_increasing, Rdiv_lt_0_compat; assumption).
  exists ((q - 1) / (q + 1)). split; [split; [apply Rdiv_lt_0_compat; lra|]|].
  - apply Rmult_lt_reg_r with (q + 1); [lra|]. unfold Rdiv. rewrite Rmult_assoc, Rinv_l; lra.
  - intros d [D0 D1].
    assert (D2 : d * (q + 1) <= q - 1).
    { replace (q - 1) with ((q - 1) / (q + 1) * (q + 1)) by (field; lra). apply Rmult_le_compat_r; lra. }
    assert (d < 1) by (apply Rmult_lt_reg_r with (q + 1); lra).
    unfold error_bound. replace eps with (kt * ln q) by (unfold q; rewrite ln_exp; field; lra).
    apply Rmult_le_compat_l; [lra|].
    assert (X : (1 + d) / (1 - d) <= q).
    { apply Rmult_le_reg_r with (1 - d); [lra|]. unfold Rdiv. rewrite Rmult_assoc, Rinv_l by lra. lra. }
    assert (0 < (1 + d) / (1 - d)) by (apply Rdiv_lt_0_compat; lra).
    destruct X as [X|X]; [left; apply ln_increasing; assumption|right; rewrite X; reflexivity].
Qed.
