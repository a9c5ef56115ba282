(** Sums and averages of numbers of both signs in float64 arithmetic (C93) *)
From Verif Require Import Spec_f64bd Proof_base Proof_f64 Proof_f64b Proof_f64s.
From Flocq Require Import Core.Core.
From Coq Require Import Lia Lra.
Open Scope R_scope.
Ltac Zify.zify_post_hook ::= idtac.
#[local] Arguments bpow : simpl never.

(** ** sums *)
Definition asum (l : list f64) : R := fold_right (fun x s => Rabs (val x) + s) 0 l.
Lemma asum_app l1 l2 : asum (l1 ++ l2) = asum l1 + asum l2.
Proof. induction l1 as [|x l1 IH]; simpl; [lra|]. rewrite IH. lra. Qed.
Lemma asum_perm l1 l2 : Permutation l1 l2 -> asum l1 = asum l2.
Proof. induction 1; simpl; lra. Qed.
Lemma asum_zeros k : asum (repeat fzero k) = 0.
Proof. induction k; simpl; [reflexivity|]. rewrite IHk. simpl. rewrite Rabs_R0. lra. Qed.
Lemma asum_nonneg l : 0 <= asum l.
Proof. induction l as [|x l IH]; simpl; [lra|]. pose proof (Rabs_pos (val x)). lra. Qed.
Lemma vsum_asum l : Rabs (vsum l) <= asum l.
Proof. induction l as [|x l IH]; simpl; [rewrite Rabs_R0; lra|]. eapply Rle_trans; [apply Rabs_triang|]. lra. Qed.

Lemma tree_sum_signed t : Forall finite (tree_leaves t) -> asum (tree_leaves t) * (1 + U) ^ nodes t < bpow radix2 1024 ->
  finite (tree_sum t) /\ Rabs (val (tree_sum t) - vsum (tree_leaves t)) <= asum (tree_leaves t) * ((1 + U) ^ nodes t - 1).
Proof.
  pose proof U_pos as HU.
  induction t as [x | a IHa b IHb]; intros HF HM; simpl in *.
  - inversion HF as [|? ? H1 _]; subst. split; [exact H1|].
    replace (val x - (val x + 0)) with 0 by lra. rewrite Rabs_R0. pose proof (Rabs_pos (val x)). lra.
  - apply Forall_app in HF. destruct HF as [Fa Fb]. rewrite vsum_app, asum_app in *.
    pose proof (asum_nonneg (tree_leaves a)) as Ha. pose proof (asum_nonneg (tree_leaves b)) as Hb.
    pose proof (vsum_asum (tree_leaves a)) as Va. pose proof (vsum_asum (tree_leaves b)) as Vb.
    set (A := asum (tree_leaves a)) in *. set (B := asum (tree_leaves b)) in *.
    set (X := vsum (tree_leaves a)) in *. set (Y := vsum (tree_leaves b)) in *.
    assert (P1 : forall n, 1 <= (1 + U) ^ n) by (intros; apply pow_R1_Rle; lra).
    assert (P3 : forall n m, (1 + U) ^ n <= (1 + U) ^ (n + m)).
    { intros n m. rewrite pow_add. pose proof (P1 n). pose proof (P1 m). nra. }
    assert (Qa : (1 + U) ^ nodes a <= (1 + U) ^ (nodes a + nodes b)) by apply P3.
    assert (Qb : (1 + U) ^ nodes b <= (1 + U) ^ (nodes a + nodes b)) by (rewrite Nat.add_comm; apply P3).
    pose proof (P1 (nodes a + nodes b)%nat) as HN.
    set (N := (1 + U) ^ (nodes a + nodes b)) in *.
    set (Na := (1 + U) ^ nodes a) in *. set (Nb := (1 + U) ^ nodes b) in *.
    assert (T0 : (A + B) * N <= (A + B) * ((1 + U) * N)) by (apply Rmult_le_compat_l; [lra|]; nra).
    assert (Ta : A * Na <= A * N) by (apply Rmult_le_compat_l; lra).
    assert (Tb : B * Nb <= B * N) by (apply Rmult_le_compat_l; lra).
    assert (0 <= B * N) by (apply Rmult_le_pos; lra). assert (0 <= A * N) by (apply Rmult_le_pos; lra).
    destruct IHa as [a1 a2]; [exact Fa | lra |]. destruct IHb as [b1 b2]; [exact Fb | lra |].
    set (s := val (tree_sum a)) in *. set (u := val (tree_sum b)) in *.
    pose proof (rnd_plus_err (tree_sum a) (tree_sum b)) as E. fold s u in E.
    assert (S1 : Rabs (s + u - (X + Y)) <= (A + B) * N - (A + B)).
    { replace (s + u - (X + Y)) with ((s - X) + (u - Y)) by lra. eapply Rle_trans; [apply Rabs_triang|]. lra. }
    assert (S2 : Rabs (s + u) <= (A + B) * N).
    { replace (s + u) with ((s + u - (X + Y)) + (X + Y)) by lra. eapply Rle_trans; [apply Rabs_triang|].
      pose proof (Rabs_triang X Y). lra. }
    assert (S3 : U * Rabs (s + u) <= U * ((A + B) * N)) by (apply Rmult_le_compat_l; lra).
    assert (S4 : (A + B) * ((1 + U) * N) = (A + B) * N + U * ((A + B) * N)) by ring.
    assert (S5 : Rabs (rnd (s + u) - (X + Y)) <= (A + B) * ((1 + U) * N - 1)).
    { replace (rnd (s + u) - (X + Y)) with ((rnd (s + u) - (s + u)) + (s + u - (X + Y))) by lra. eapply Rle_trans; [apply Rabs_triang|]. lra. }
    destruct (fadd_val (tree_sum a) (tree_sum b) a1 b1) as [F V].
    { fold s u. replace (rnd (s + u)) with ((rnd (s + u) - (s + u)) + (s + u)) by lra. eapply Rle_lt_trans; [apply Rabs_triang|]. lra. }
    split; [exact F|]. rewrite V. fold s u. exact S5.
Qed.

Lemma np_sum_signed np_sum l B : sums np_sum -> l <> [] -> Forall (bounded B) l -> INR (length l) * U <= / 8 ->
  INR (length l) * B <= bpow radix2 1000 ->
  finite (np_sum l) /\ Rabs (val (np_sum l) - vsum l) <= 4 * (INR (length l) * U) * (INR (length l) * B).
Proof.
  intros HS Hl HF Hn HB. destruct (HS l Hl) as (t & k & Hk & HP & ->).
  assert (Q : vsum (tree_leaves t) = vsum l) by (rewrite (vsum_perm _ _ HP), vsum_app, vsum_zeros; lra).
  assert (QA : asum (tree_leaves t) = asum l) by (rewrite (asum_perm _ _ HP), asum_app, asum_zeros; lra).
  assert (F : Forall finite (tree_leaves t)).
  { rewrite Forall_forall in *. intros x Hx. apply (Permutation_in _ HP) in Hx. apply in_app_or in Hx. destruct Hx as [Hx | Hx].
    - now apply HF.
    - apply repeat_spec in Hx. subst x. reflexivity. }
  assert (L : (nodes t <= 2 * length l)%nat).
  { pose proof (nodes_leaves t) as E. rewrite (Permutation_length HP), app_length, repeat_length in E. lia. }
  assert (SB : asum l <= INR (length l) * B).
  { clear - HF. induction HF as [|x l [_ Hx] HF IH]; [cbn; lra|]. cbn [length asum fold_right]. rewrite S_INR. fold (asum l). lra. }
  pose proof U_pos as HU. pose proof (asum_nonneg l) as H0.
  set (n := INR (length l)) in *. assert (N0 : 0 <= n) by apply pos_INR.
  assert (D0 : 0 <= INR (nodes t) * U) by (apply Rmult_le_pos; [apply pos_INR|lra]).
  assert (D1 : INR (nodes t) * U <= 2 * (n * U)).
  { rewrite <- Rmult_assoc. apply Rmult_le_compat_r; [lra|]. apply le_INR in L. rewrite mult_INR in L. exact L. }
  pose proof (pow_plus_bound U (nodes t) ltac:(unfold U in *; lra) ltac:(lra)) as B2.
  assert (B3 : 1 <= (1 + U) ^ nodes t) by (apply pow_R1_Rle; lra).
  set (W := (1 + U) ^ nodes t) in *. set (z := INR (nodes t) * U) in *.
  assert (B4 : W <= 2) by nra. assert (B5 : W - 1 <= 2 * z) by nra.
  destruct (tree_sum_signed t F) as [G1 G2].
  { rewrite QA. fold W. apply Rle_lt_trans with (bpow radix2 1000 * 2); [apply Rmult_le_compat; lra|].
    change (bpow radix2 1000 * bpow radix2 1 < bpow radix2 1024). rewrite <- bpow_plus. apply bpow_lt. lia. }
  rewrite Q, QA in G2. fold W in G2. split; [exact G1|]. eapply Rle_trans; [exact G2|].
  rewrite Rmult_comm. apply Rmult_le_compat; lra.
Qed.

(** ** the rates minus their average *)
Lemma filter_id {A} (f : A -> bool) l : (forall x, In x l -> f x = true) -> filter f l = l.
Proof. induction l as [|x l IH]; intros H; [reflexivity|]. cbn. rewrite H by (now left). f_equal. apply IH. intros y Hy. apply H. now right. Qed.
Lemma finite_not_minf x : finite x -> feq x (fopp finf) = false.
Proof. destruct x as [s|s| |s m e b]; intros H; try discriminate H; destruct s; reflexivity. Qed.

Lemma center_val np_sum b a A e : sums np_sum -> b <> [] -> (Z.of_nat (length b) <= 1073741824)%Z -> length a = length b ->
  (forall i x, nth_error b i = Some x -> finite x /\ Rabs (val x - nth i a 0) <= e /\ Rabs (nth i a 0) <= A) ->
  1 <= A -> 0 <= e <= A * / 1024 -> A <= bpow radix2 500 ->
  length (f_center np_sum b) = length b /\
  forall i x, nth_error (f_center np_sum b) i = Some x ->
    finite x /\ Rabs (val x - (nth i a 0 - average a)) <= 2 * e + 12 * INR (length b) * U * A.
Proof.
  intros HS Hb Hmax La H HA He HA2. unfold f_center.
  assert (FB : forall x, In x b -> finite x).
  { intros x Hx. destruct (In_nth_error _ _ Hx) as [i Hi]. now apply (H i). }
  rewrite filter_id by (intros x Hx; rewrite finite_not_minf; [reflexivity|now apply FB]).
  rewrite map_length. split; [reflexivity|].
  set (B := A * (1025 / 1024)).
  assert (BB : Forall (bounded B) b).
  { apply Forall_forall. intros x Hx. destruct (In_nth_error _ _ Hx) as [i Hi]. destruct (H i x Hi) as (F & E1 & E2). split; [exact F|].
    replace (val x) with ((val x - nth i a 0) + nth i a 0) by lra. eapply Rle_trans; [apply Rabs_triang|]. unfold B. lra. }
  set (n := INR (length b)).
  assert (N1 : 1 <= n) by (unfold n; change 1 with (INR 1); apply le_INR; destruct b; [congruence|cbn; lia]).
  assert (N2 : n <= 1073741824) by (unfold n; rewrite INR_IZR_INZ; apply IZR_le; exact Hmax).
  pose proof U_pos as HU. pose proof ETA_pos as HE. pose proof U_small as US. assert (US3 : U * 8796093022208 <= 1) by (unfold U; lra).
  assert (NU : n * U <= 1073741824 * U) by (apply Rmult_le_compat_r; lra).
  assert (Hbig : bpow radix2 500 * 2147483648 <= bpow radix2 600).
  { change (bpow radix2 500 * bpow radix2 31 <= bpow radix2 600). rewrite <- bpow_plus. apply bpow_le. lia. }
  assert (Hbig2 : bpow radix2 600 * 2 <= bpow radix2 900).
  { change (bpow radix2 600 * bpow radix2 1 <= bpow radix2 900). rewrite <- bpow_plus. apply bpow_le. lia. }
  pose proof (bpow_gt_0 radix2 500) as P500.
  assert (B0 : 1 <= B) by (unfold B; lra).
  assert (NB : n * B <= 1073741824 * B) by (apply Rmult_le_compat_r; lra).
  assert (NB2 : 1073741824 * B <= bpow radix2 600) by (unfold B; lra).
  destruct (np_sum_signed np_sum b B HS Hb BB) as [Fs Es].
  { fold n. lra. }
  { fold n. assert (bpow radix2 600 <= bpow radix2 1000) by (apply bpow_le; lia). lra. }
  fold n in Es.
  destruct (f_of_Z_val (Z.of_nat (length b))) as [Fn Vn]; [lia|]. rewrite <- INR_IZR_INZ in Vn. fold n in Vn.
  assert (SV : Rabs (vsum b - total a) <= n * e).
  { assert (G : forall (l : list f64) (l' : list R), length l' = length l -> (forall i x, nth_error l i = Some x -> Rabs (val x - nth i l' 0) <= e) ->
       Rabs (vsum l - total l') <= INR (length l) * e).
    { clear. induction l as [|x l IH]; intros [|y l'] L H; try discriminate L.
      - cbn. rewrite Rminus_0_r, Rabs_R0. lra.
      - cbn [length vsum total fold_right]. rewrite S_INR. fold (vsum l). fold (total l').
        pose proof (H O x eq_refl) as H0. cbn [nth] in H0.
        assert (H1 : Rabs (vsum l - total l') <= INR (length l) * e) by (apply IH; [now injection L|]; intros i z Hz; exact (H (S i) z Hz)).
        replace (val x + vsum l - (y + total l')) with ((val x - y) + (vsum l - total l')) by lra.
        eapply Rle_trans; [apply Rabs_triang|]. lra. }
    apply G; [exact La|]. intros i x Hi. now apply (H i x Hi). }
  set (s := val (np_sum b)) in *.
  assert (AV : average a * n = total a) by (unfold average; rewrite La; fold n; field; lra).
  assert (VB : Rabs (vsum b) <= n * B).
  { eapply Rle_trans; [apply vsum_asum|]. clear - BB. subst n. induction BB as [|x l [_ Hx] HF IH]; [cbn; lra|]. cbn [length asum fold_right]. rewrite S_INR. fold (asum l). lra. }
  assert (Q1 : Rabs (s / n - average a) <= e + 4 * (n * U) * B).
  { replace (s / n - average a) with ((s - total a) * / n) by (rewrite <- AV; field; lra).
    rewrite Rabs_mult, (Rabs_pos_eq (/ n)) by (left; apply Rinv_0_lt_compat; lra).
    apply (Rmult_le_reg_r n); [lra|]. rewrite Rmult_assoc, Rinv_l, Rmult_1_r by lra.
    replace (s - total a) with ((s - vsum b) + (vsum b - total a)) by lra. eapply Rle_trans; [apply Rabs_triang|]. lra. }
  assert (HAV : Rabs (average a) <= A).
  { unfold average. rewrite La. fold n. unfold Rdiv. rewrite Rabs_mult, (Rabs_pos_eq (/ n)) by (left; apply Rinv_0_lt_compat; lra).
    apply (Rmult_le_reg_r n); [lra|]. rewrite Rmult_assoc, Rinv_l, Rmult_1_r by lra. rewrite Rmult_comm.
    assert (G : forall l', (forall i, (i < length l')%nat -> Rabs (nth i l' 0) <= A) -> Rabs (total l') <= INR (length l') * A).
    { clear. induction l' as [|y l' IH]; intros H; [cbn; rewrite Rabs_R0; lra|]. cbn [length total fold_right]. rewrite S_INR. fold (total l').
      pose proof (H O ltac:(cbn; lia)) as H0. cbn [nth] in H0.
      assert (Rabs (total l') <= INR (length l') * A) by (apply IH; intros i Hi; apply (H (S i)); cbn; lia).
      eapply Rle_trans; [apply Rabs_triang|]. lra. }
    unfold n. rewrite <- La. apply G. intros i Hi. rewrite La in Hi.
    destruct (nth_error b i) as [x|] eqn:Ex; [|apply nth_error_None in Ex; lia]. now apply (H i x Ex). }
  assert (UB : n * U * B <= 1073741824 * U * B) by (apply Rmult_le_compat_r; lra).
  assert (UB3 : U * 8796093022208 * B <= 1 * B) by (apply Rmult_le_compat_r; lra).
  assert (UB2 : U * 1048576 * B <= 1 * B) by (apply Rmult_le_compat_r; lra).
  assert (UA2 : U * 1048576 * A <= 1 * A) by (apply Rmult_le_compat_r; lra).
  assert (UA0 : 0 < U * A) by (apply Rmult_lt_0_compat; lra).
  assert (UN : U * A * 1 <= U * A * n) by (apply Rmult_le_compat_l; lra).
  assert (EU : ETA <= U * / 1024) by (rewrite U_bpow; change (/ 1024) with (bpow radix2 (-10)); rewrite <- bpow_plus; unfold ETA; apply bpow_le; lia).
  assert (UA1 : U * 1 <= U * A) by (apply Rmult_le_compat_l; lra).
  assert (Q2 : Rabs (s / n) <= 5 / 4 * A).
  { replace (s / n) with ((s / n - average a) + average a) by lra. eapply Rle_trans; [apply Rabs_triang|]. unfold B in *. lra. }
  pose proof (rnd_err (s / n)) as E1.
  assert (U * Rabs (s / n) <= U * (5 / 4 * A)) by (apply Rmult_le_compat_l; lra).
  destruct (fdiv_val (np_sum b) (f_of_Z (Z.of_nat (length b))) Fs Fn) as [Fm Vm].
  { rewrite Vn. lra. }
  { rewrite Vn. fold s. apply small_max. replace (rnd (s / n)) with ((rnd (s / n) - s / n) + s / n) by lra. eapply Rle_trans; [apply Rabs_triang|]. lra. }
  rewrite Vn in Vm. fold s in Vm. set (mf := fdiv _ _) in *. set (m := val mf) in *.
  assert (M1 : Rabs (m - average a) <= e + 4 * (n * U) * B + U * A * (3 / 2)).
  { rewrite Vm. replace (rnd (s / n) - average a) with ((rnd (s / n) - s / n) + (s / n - average a)) by lra. eapply Rle_trans; [apply Rabs_triang|]. lra. }
  intros i r Hi. rewrite nth_error_map in Hi. destruct (nth_error b i) as [x|] eqn:Ex; [|discriminate Hi]. cbn in Hi. injection Hi as <-.
  destruct (H i x Ex) as (Fx & X1 & X2). set (ai := nth i a 0) in *.
  assert (D1 : Rabs ((val x - m) - (ai - average a)) <= 2 * e + 4 * (n * U) * B + U * A * (3 / 2)).
  { replace ((val x - m) - (ai - average a)) with ((val x - ai) - (m - average a)) by lra. eapply Rle_trans; [apply Rabs_triang|]. rewrite Rabs_Ropp. lra. }
  assert (D2 : Rabs (val x - m) <= 9 / 4 * A).
  { replace (val x - m) with (((val x - m) - (ai - average a)) + (ai - average a)) by lra. eapply Rle_trans; [apply Rabs_triang|].
    assert (Rabs (ai - average a) <= 2 * A) by (eapply Rle_trans; [apply Rabs_triang|]; rewrite Rabs_Ropp; lra). unfold B in *. lra. }
  assert (E2 : Rabs (rnd (val x - m) - (val x - m)) <= U * Rabs (val x - m)).
  { pose proof (rnd_plus_err x (fopp mf)) as G. rewrite fopp_val in G. exact G. }
  assert (U * Rabs (val x - m) <= U * (9 / 4 * A)) by (apply Rmult_le_compat_l; lra).
  destruct (fsub_val x mf Fx Fm) as [Fr Vr].
  { fold m. apply small_max. replace (rnd (val x - m)) with ((rnd (val x - m) - (val x - m)) + (val x - m)) by lra. eapply Rle_trans; [apply Rabs_triang|]. lra. }
  split; [exact Fr|]. rewrite Vr. fold m.
  replace (rnd (val x - m) - (ai - average a)) with ((rnd (val x - m) - (val x - m)) + ((val x - m) - (ai - average a))) by lra.
  eapply Rle_trans; [apply Rabs_triang|].
  assert (4 * (n * U) * B = 4 * (1025 / 1024) * (U * A * n)) by (unfold B; ring).
  replace (12 * n * U * A) with (12 * (U * A * n)) by ring. lra.
Qed.
