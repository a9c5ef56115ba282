(** The counts of fractions-pos (C73) *)
From Verif Require Import Spec_f64 Proof_f64 Proof_f64b Proof_base.
From Flocq Require Import Core.Core.
From Coq Require Import Lia Lra.
Open Scope R_scope.

#[local] Arguments bpow : simpl never.

Lemma vsum_in f l : Forall nonneg l -> In f l -> val f <= vsum l.
Proof.
  induction 1 as [|x l [_ Hx] HF IH]; intros Hin; [contradiction|]. simpl.
  pose proof (vsum_nonneg _ HF). destruct Hin as [-> | Hin]; [lra|]. specialize (IH Hin). lra.
Qed.

Lemma Zfloor_tie x c : IZR c <= x < IZR c + 1 -> Int_part x = c.
Proof.
  intros [H1 H2]. unfold Int_part. assert (up x = (c + 1)%Z); [|lia].
  symmetry. apply tech_up; rewrite plus_IZR; lra.
Qed.
Lemma Int_part_spec x : IZR (Int_part x) <= x < IZR (Int_part x) + 1.
Proof. destruct (base_Int_part x). lra. Qed.

Section COUNTS.
Context (np_sum : list f64 -> f64) (fractions : list f64) (N : Z)
  (HS : sums np_sum) (HF : Forall nonneg fractions) (HT : 0 < vsum fractions < bpow radix2 1023)
  (HN : (0 < N)%Z) (HB : (N * Z.of_nat (2 * length fractions + 4) <= 2 ^ 50)%Z).

Definition ideal (f : f64) : R := IZR N * (val f / vsum fractions).
Definition got (f : f64) : f64 := fmul (fdiv f (np_sum fractions)) (f_of_Z N).
Definition dev : R := IZR N * (INR (2 * length fractions + 4) * (2 * U)) + / 2 ^ 100.

Lemma len1 : (1 <= length fractions)%nat.
Proof using All. destruct fractions; simpl in *; [lra|lia]. Qed.

Lemma N_bound : IZR N * INR (2 * length fractions + 4) <= 2 ^ 50.
Proof using All.
  rewrite INR_IZR_INZ, <- mult_IZR. replace (2 ^ 50) with (IZR (2 ^ 50)) by (rewrite (pow_IZR 2 50); reflexivity). now apply IZR_le.
Qed.

Lemma ideal_range f : In f fractions -> 0 <= ideal f <= IZR N.
Proof using All.
  intros Hin. unfold ideal. assert (0 < IZR N) by now apply IZR_lt.
  rewrite Forall_forall in HF. pose proof (HF f Hin) as [_ H0].
  assert (H1 := vsum_in f fractions (proj2 (Forall_forall _ _) HF) Hin).
  assert (0 <= val f / vsum fractions) by (apply Rmult_le_pos; [exact H0|]; left; apply Rinv_0_lt_compat; lra).
  assert (val f / vsum fractions <= 1).
  { apply Rmult_le_reg_r with (vsum fractions); [lra|]. unfold Rdiv. rewrite Rmult_assoc, Rinv_l; lra. }
  split; nra.
Qed.

Lemma got_close f : In f fractions -> nonneg (got f) /\ Rabs (val (got f) - ideal f) <= kappa (length fractions) * ideal f + / 2 ^ 100.
Proof using All.
  intros Hin. pose proof len1 as L1. pose proof U_pos as HU. pose proof N_bound as NB.
  assert (1 <= IZR N) by (apply IZR_le; lia).
  assert (Hd : INR (2 * length fractions) * U <= 1 / 2).
  { assert (INR (2 * length fractions) <= 2 ^ 50).
    { assert (INR (2 * length fractions + 4) = INR (2 * length fractions) + 4) by (rewrite plus_INR; simpl; lra).
      pose proof (pos_INR (2 * length fractions)). nra. }
    apply Rle_trans with (2 ^ 50 * U); [apply Rmult_le_compat_r; lra|]. unfold U. lra. }
  assert (NE : fractions <> []) by (intros E; rewrite E in L1; simpl in L1; lia).
  destruct (np_sum_bounds np_sum fractions HS NE HF (proj2 HT) Hd) as [G1 [G2 G3]].
  apply (count_bounds f (np_sum fractions) (vsum fractions) N (length fractions)); try assumption; try lra.
  - now rewrite Forall_forall in HF; apply HF.
  - now apply vsum_in.
Qed.

Lemma kappa_small : 0 <= kappa (length fractions) /\ kappa (length fractions) * IZR N <= / 4.
Proof using All.
  pose proof N_bound. pose proof U_pos. pose proof (pos_INR (2 * length fractions + 4)). unfold kappa. split; [nra|].
  apply Rle_trans with (2 ^ 50 * (2 * U)); [|unfold U; lra].
  rewrite Rmult_comm, <- Rmult_assoc. apply Rmult_le_compat_r; lra.
Qed.

Lemma Y_small : 0 < / 2 ^ 100 /\ INR (length fractions) * / 2 ^ 100 < / 4 /\ / 2 ^ 100 < / 4.
Proof using All.
  assert (HY : 0 < / 2 ^ 100) by (apply Rinv_0_lt_compat, pow_lt; lra).
  pose proof N_bound as NB. assert (1 <= IZR N) by (apply IZR_le; lia).
  assert (L : 1 <= INR (length fractions)) by (change 1 with (INR 1); apply le_INR, len1).
  assert (E : INR (2 * length fractions + 4) = 2 * INR (length fractions) + 4) by (rewrite plus_INR, mult_INR; simpl; lra).
  assert (B : INR (length fractions) <= 2 ^ 50) by nra.
  assert (Q : 2 ^ 50 * / 2 ^ 100 < / 4).
  { replace (2 ^ 100) with (2 ^ 50 * 2 ^ 50) by (rewrite <- pow_add; reflexivity). rewrite Rinv_mult, <- Rmult_assoc, Rinv_r by lra. lra. }
  assert (INR (length fractions) * / 2 ^ 100 <= 2 ^ 50 * / 2 ^ 100) by (apply Rmult_le_compat_r; lra).
  split; [exact HY|]. split; [lra|]. nra.
Qed.

Lemma got_dev f : In f fractions -> Rabs (val (got f) - ideal f) <= dev /\ Rabs (val (got f) - ideal f) < / 2.
Proof using All.
  intros Hin. destruct (got_close f Hin) as [_ H]. pose proof (ideal_range f Hin) as [_ I1].
  destruct kappa_small as [K0 K1]. destruct Y_small as [_ [_ Y]].
  assert (kappa (length fractions) * ideal f <= kappa (length fractions) * IZR N) by now apply Rmult_le_compat_l.
  unfold dev. fold (kappa (length fractions)). lra.
Qed.

Lemma counts_exist l : incl l fractions -> exists cs,
  mapM (fun f => f_int (fmul f (f_of_Z N))) (map (fun f => fdiv f (np_sum fractions)) l) = Ok cs /\
  Forall2 (fun f c => (0 <= c)%Z /\ IZR c <= val (got f) < IZR c + 1) l cs /\
  IZR (fold_right Z.add 0%Z cs) <= fold_right (fun f s => val (got f) + s) 0 l.
Proof using All.
  induction l as [|f l IH]; intros Hi.
  - exists []. repeat split; [constructor | simpl; lra].
  - destruct IH as (cs & E & F & S); [intros x Hx; apply Hi; now right|].
    destruct (got_close f (Hi f (or_introl eq_refl))) as [[G1 G2] _].
    destruct (f_int_val (got f) G1 G2) as (c & Ec & C0 & C1).
    exists (c :: cs). split; [|split].
    + cbn [map mapM]. unfold got in Ec. rewrite Ec. cbn [bind]. rewrite E. reflexivity.
    + constructor; [split; assumption | exact F].
    + cbn [fold_right]. rewrite plus_IZR. lra.
Qed.

Lemma got_total l : incl l fractions ->
  fold_right (fun f s => val (got f) + s) 0 l <=
  (1 + kappa (length fractions)) * (IZR N * (vsum l / vsum fractions)) + INR (length l) * / 2 ^ 100.
Proof using All.
  induction l as [|f l IH]; intros Hi; cbn [fold_right length].
  - simpl. unfold Rdiv. rewrite Rmult_0_l. lra.
  - specialize (IH ltac:(intros x Hx; apply Hi; now right)).
    destruct (got_close f (Hi f (or_introl eq_refl))) as [_ H]. apply Rabs_le_inv in H. unfold ideal in H.
    change (vsum (f :: l)) with (val f + vsum l). rewrite S_INR. unfold Rdiv in *. rewrite Rmult_plus_distr_r. lra.
Qed.

Lemma counts_main : exists c0 cs, f_fraction_counts np_sum fractions N = Ok (c0 :: cs) /\
  length (c0 :: cs) = length fractions /\ Forall (fun c => (0 <= c)%Z) (c0 :: cs) /\ fold_right Z.add 0%Z (c0 :: cs) = N /\
  Forall2 (fun f c => IZR c <= val (got f) < IZR c + 1) (tl fractions) cs.
Proof using All.
  destruct (counts_exist fractions (incl_refl _)) as (cs & E & F & S).
  pose proof (got_total fractions (incl_refl _)) as G.
  assert (SN : (fold_right Z.add 0 cs <= N)%Z).
  { destruct kappa_small as [K0 K1]. destruct Y_small as [_ [Y _]].
    replace (vsum fractions / vsum fractions) with 1 in G by (field; lra).
    assert (IZR (fold_right Z.add 0%Z cs) < IZR (N + 1)) by (rewrite plus_IZR; lra).
    apply lt_IZR in H. lia. }
  unfold f_fraction_counts. rewrite E. cbn [bind].
  destruct F as [|f c l cs' [P1 P2] F]; [destruct HT; simpl in *; lra|].
  eexists _, cs'. split; [reflexivity|].
  split; [cbn [length]; f_equal; clear -F; induction F; cbn; congruence|].
  assert (NN : Forall (fun c => (0 <= c)%Z) cs') by (clear -F; induction F as [|? ? ? ? [? _]]; constructor; auto).
  split; [|split].
  - constructor; [lia|exact NN].
  - cbn [fold_right]. lia.
  - cbn [tl]. clear -F. induction F as [|? ? ? ? [_ ?]]; constructor; auto.
Qed.
End COUNTS.

Lemma Forall2_tl_nth {A B} (P : A -> B -> Prop) l c0 cs : Forall2 P (tl l) cs -> length (c0 :: cs) = length l ->
  forall i f c, nth_error l (S i) = Some f -> nth_error (c0 :: cs) (S i) = Some c -> P f c.
Proof.
  intros F L i f c. destruct l as [|x l]; [discriminate|]. cbn [tl nth_error] in *. clear L. revert i.
  induction F; intros [|i] H1 H2; cbn in *; try discriminate; [congruence|eauto].
Qed.

(** ** the simplest np.sum *)
Lemma left_sum_sums : sums left_sum.
Proof.
  intros l Hl. set (go := fold_left (fun t x => Node t (Leaf x)) l (Leaf fzero)).
  exists go, 1%nat. split; [destruct l; [congruence|simpl; lia]|].
  assert (G : forall l t, tree_leaves (fold_left (fun t x => Node t (Leaf x)) l t) = tree_leaves t ++ l /\
    tree_sum (fold_left (fun t x => Node t (Leaf x)) l t) = fold_left fadd l (tree_sum t)).
  { clear. induction l as [|x l IH]; intros t; cbn [fold_left]; [now rewrite app_nil_r|].
    destruct (IH (Node t (Leaf x))) as [H1 H2]. split.
    - rewrite H1. cbn [tree_leaves]. now rewrite <- app_assoc.
    - rewrite H2. reflexivity. }
  destruct (G l (Leaf fzero)) as [H1 H2]. split.
  - unfold go. rewrite H1. cbn [tree_leaves repeat]. apply Permutation_app_comm.
  - unfold go. rewrite H2. reflexivity.
Qed.

(** ** the theorems *)
Lemma counts_partial np_sum fractions N : sums np_sum ->
  Forall (fun f => finite f /\ 0 <= val f) fractions -> 0 < vsum fractions < bpow radix2 1023 ->
  (0 < N)%Z -> (N * Z.of_nat (2 * length fractions + 4) <= 2 ^ 50)%Z ->
  exists counts, f_fraction_counts np_sum fractions N = Ok counts /\
    length counts = length fractions /\ Forall (fun c => (0 <= c)%Z) counts /\ fold_right Z.add 0%Z counts = N /\
    forall i f c, nth_error fractions (S i) = Some f -> nth_error counts (S i) = Some c ->
      (Z.abs (c - Int_part (IZR N * (val f / vsum fractions))) <= 1)%Z.
Proof.
  intros HS HF HT HN HB. destruct (counts_main np_sum fractions N HS HF HT HN HB) as (c0 & cs & E & L & NN & S & F).
  exists (c0 :: cs). repeat (split; [assumption|]). intros i f c Hf Hc.
  assert (G : IZR c <= val (got np_sum fractions N f) < IZR c + 1) by (refine (Forall2_tl_nth _ _ _ _ F L i f c Hf Hc)).
  destruct (got_dev np_sum fractions N HS HF HT HN HB f (nth_error_In _ _ Hf)) as [_ D]. unfold ideal in D.
  apply Rabs_lt_inv in D. pose proof (Int_part_spec (IZR N * (val f / vsum fractions))) as I.
  set (k := Int_part _) in *.
  assert (IZR (c - k) < 2) by (rewrite minus_IZR; lra). assert (-2 < IZR (c - k)) by (rewrite minus_IZR; lra).
  assert (c - k < 2)%Z by (now apply lt_IZR). assert (-2 < c - k)%Z by (now apply lt_IZR). lia.
Qed.

Lemma counts_exact np_sum fractions N counts i f c : sums np_sum ->
  Forall (fun f => finite f /\ 0 <= val f) fractions -> 0 < vsum fractions < bpow radix2 1023 ->
  (0 < N)%Z -> (N * Z.of_nat (2 * length fractions + 4) <= 2 ^ 50)%Z ->
  f_fraction_counts np_sum fractions N = Ok counts ->
  nth_error fractions (S i) = Some f -> nth_error counts (S i) = Some c ->
  (forall k, IZR N * INR (2 * length fractions + 4) * / 2 ^ 52 + / 2 ^ 100 < Rabs (IZR N * (val f / vsum fractions) - IZR k)) ->
  c = Int_part (IZR N * (val f / vsum fractions)).
Proof.
  intros HS HF HT HN HB E Hf Hc Far. destruct (counts_main np_sum fractions N HS HF HT HN HB) as (c0 & cs & E' & L & NN & S & F).
  rewrite E in E'. injection E' as ->.
  assert (G : IZR c <= val (got np_sum fractions N f) < IZR c + 1) by (refine (Forall2_tl_nth _ _ _ _ F L i f c Hf Hc)).
  destruct (got_dev np_sum fractions N HS HF HT HN HB f (nth_error_In _ _ Hf)) as [D _]. unfold ideal in D.
  unfold dev in D. rewrite <- (Rmult_assoc (IZR N)) in D.
  replace (2 * U) with (/ 2 ^ 52) in D by (unfold U; lra).
  set (e := IZR N * (val f / vsum fractions)) in *. set (dd := _ + / 2 ^ 100) in *. clearbody dd.
  apply Rabs_le_inv in D. symmetry. apply Zfloor_tie.
  pose proof (Far c) as F1. pose proof (Far (c + 1)%Z) as F2. rewrite plus_IZR in F2.
  unfold Rabs in F1, F2. destruct (Rcase_abs _) in F1; destruct (Rcase_abs _) in F2; lra.
Qed.

(** the fractions 7 and 15, a total of 22 walkers: the second position gets 14 *)
Lemma counts_refuted : exists fractions counts,
  sums left_sum /\ f_fraction_counts left_sum fractions 22 = Ok counts /\
  map (fun f => IZR 22 * (val f / vsum fractions)) fractions = [7; 15] /\ counts = [8; 14]%Z.
Proof.
  exists [f_of_Z 7; f_of_Z 15], [8; 14]%Z. split; [apply left_sum_sums|]. split; [vm_compute; reflexivity|]. split; [|reflexivity].
  cbn [map]. unfold vsum, fold_right.
  destruct (f_of_Z_val 7) as [_ ->]; [lia|]. destruct (f_of_Z_val 15) as [_ ->]; [lia|].
  f_equal; [lra|]. f_equal. lra.
Qed.
