(** Polynomial potentials in float64 arithmetic: any number of dimensions, derivatives *)
From Coq Require Import Lia Lra Reals ZArith.
From Verif Require Import PyBase Model_dyn Model_grid Model_pot Model_f64 Model_f64ld Spec_grid Spec_pot Spec_f64 Proof_base Proof_grid Proof_grid2 Proof_pot.
From Verif Require Import Proof_f64 Proof_f64b Proof_f64d Proof_f64j Proof_f64k Proof_f64m Proof_f64o.
From Flocq Require Import Core.Core IEEE754.BinarySingleNaN.
Open Scope R_scope.
Ltac Zify.zify_post_hook ::= idtac.
#[local] Arguments bpow : simpl never.

Lemma at_of_map' {A} (d : A) s f idx : in_shape s idx -> a_at d (mkArr s (map f (indices s))) idx = f idx.
Proof.
  intros H. unfold a_at. cbn [a_shape a_flat]. rewrite ravel_flat by assumption.
  rewrite (nth_map_in _ _ _ _ []) by (rewrite indices_length; now apply flat_pos_lt). now rewrite nth_indices.
Qed.

Section Pos.
Context (a : Z) (Ha : (0 <= a)%Z).
(** a float64 array with the exact values and their bounds *)
Definition AR (k : nat) (T : R) (e K : Z) (c : arr f64) (v s : arr R) : Prop :=
  a_shape v = a_shape c /\ a_shape s = a_shape c /\
  forall idx, in_shape (a_shape c) idx -> upto e K (a_at fzero c idx) /\ acc k T (a_at fzero c idx) (a_at 0 v idx) (a_at 0 s idx).

Lemma polyval_AR k T e K c v s n sh x : AR k T e K c v s -> a_shape c = n :: sh -> (0 < n)%nat -> finite x -> Rabs (val x) <= bpow radix2 a ->
  (-1000 <= e)%Z -> (0 <= K)%Z -> ETA <= T -> (Z.of_nat n * K < 2 ^ 53)%Z -> (e + Z.of_nat n * a <= 900)%Z ->
  AR (k + 2 * n) (T * bpow radix2 ((a + 3) * Z.of_nat n)) (e + Z.of_nat n * a) (Z.of_nat n * K) (f_polyval c x) (polyval v (val x)) (polyval s (Rabs (val x))) /\
  a_shape (f_polyval c x) = sh.
Proof using All.
  intros (S1 & S2 & H) E Hn Fx Hx He HK HT HL HE. unfold AR, f_polyval, polyval. rewrite S1, S2, E. cbn [a_shape]. split; [|reflexivity].
  split; [reflexivity|]. split; [reflexivity|]. intros idx Hi. rewrite !at_of_map' by exact Hi.
  set (cs := map (fun i => a_at fzero c (i :: idx)) (seq 0 n)).
  set (ps := map (fun i => (a_at 0 v (i :: idx), a_at 0 s (i :: idx))) (seq 0 n)).
  assert (L : length cs = n) by (unfold cs; rewrite map_length, seq_length; reflexivity).
  replace (map (fun i => a_at 0 v (i :: idx)) (seq 0 n)) with (map fst ps) by (unfold ps; rewrite map_map; reflexivity).
  replace (map (fun i => a_at 0 s (i :: idx)) (seq 0 n)) with (map snd ps) by (unfold ps; rewrite map_map; reflexivity).
  assert (I : forall i, In i (seq 0 n) -> in_shape (a_shape c) (i :: idx)) by (intros i Hin; apply in_seq in Hin; rewrite E; constructor; [lia|exact Hi]).
  assert (FU : Forall (upto e K) cs). { apply Forall_forall. intros y Hy. apply in_map_iff in Hy. destruct Hy as (i & <- & Hin). apply H. now apply I. }
  assert (NE : cs <> []) by (intro X; rewrite X in L; cbn in L; lia).
  assert (F2 : Forall2 (fun c p => acc k T c (fst p) (snd p)) cs ps).
  { unfold cs, ps. clear - H I. induction (seq 0 n) as [|i l IH]; cbn [map]; constructor; [apply H; apply I; now left|]. apply IH. intros; apply I; now right. }
  rewrite <- L at 1 2 3 4. split.
  - apply horner_upto; try assumption; rewrite L; assumption.
  - apply (horner_acc x a Fx Ha Hx e K k T cs); try assumption; rewrite L; assumption.
Qed.

Definition total_len (s : list nat) : nat := fold_right Nat.add 0%nat s.
Lemma prod_pos s : Forall (fun n => (0 < n)%nat) s -> (1 <= Z.of_nat (prod_list s))%Z.
Proof using Type. induction 1; cbn; [lia|]. unfold prod_list in IHForall. nia. Qed.
Lemma polyvalnd_AR pos : Forall (fun x => finite x /\ Rabs (val x) <= bpow radix2 a) pos -> forall k T e K c v s, AR k T e K c v s ->
  length pos = length (a_shape c) -> Forall (fun n => (0 < n)%nat) (a_shape c) -> (-1000 <= e)%Z -> (0 <= K)%Z -> ETA <= T ->
  (K * Z.of_nat (prod_list (a_shape c)) < 2 ^ 53)%Z -> (e + Z.of_nat (total_len (a_shape c)) * a <= 900)%Z ->
  upto (e + Z.of_nat (total_len (a_shape c)) * a) (K * Z.of_nat (prod_list (a_shape c))) (f_polyvalnd pos c) /\
  acc (k + 2 * total_len (a_shape c)) (T * bpow radix2 ((a + 3) * Z.of_nat (total_len (a_shape c)))) (f_polyvalnd pos c) (polyvalnd (map val pos) v) (polyvalnd (map Rabs (map val pos)) s).
Proof using All.
  unfold f_polyvalnd, polyvalnd. induction 1 as [|x pos [Fx Hx] HF IH]; intros k T e K c v s A L FN He HK HT HL HE.
  - cbn [length] in L. destruct (a_shape c) as [|n sh] eqn:E; [|discriminate L]. cbn [total_len fold_right prod_list fold_left map].
    destruct A as (_ & _ & A). rewrite E in A. destruct (A [] (Forall2_nil _)) as [A1 A2].
    replace (e + Z.of_nat 0 * a)%Z with e by lia. replace (K * Z.of_nat 1)%Z with K by lia. rewrite Nat.mul_0_r, Nat.add_0_r. replace ((a + 3) * Z.of_nat 0)%Z with 0%Z by lia.
    change (bpow radix2 0) with 1. rewrite Rmult_1_r. now split.
  - destruct (a_shape c) as [|n sh] eqn:E; [discriminate L|]. inversion FN as [|? ? Hn FN']; subst. pose proof (prod_pos sh FN') as PP.
    change (prod_list (n :: sh)) with (n * prod_list sh)%nat in *. change (total_len (n :: sh)) with (n + total_len sh)%nat in *.
    assert (KN : (Z.of_nat n * K <= K * Z.of_nat (n * prod_list sh))%Z). { rewrite Nat2Z.inj_mul. nia. }
    destruct (polyval_AR k T e K c v s n sh x A E Hn Fx Hx He HK HT) as [A' E']; [lia|nia|].
    cbn [fold_left map]. pose proof ETA_pos as EP.
    destruct (IH _ _ _ _ _ _ _ A') as [R1 R2].
    + rewrite E'. cbn [length] in L. lia.
    + now rewrite E'.
    + nia.
    + nia.
    + apply Rle_trans with (1 := HT). rewrite <- (Rmult_1_r T) at 1. apply Rmult_le_compat_l; [lra|]. change 1 with (bpow radix2 0). apply bpow_le. nia.
    + rewrite E'. rewrite Nat2Z.inj_mul in HL. nia.
    + rewrite E'. rewrite Nat2Z.inj_add in HE. nia.
    + rewrite E' in R1, R2. split.
      * replace (e + Z.of_nat (n + total_len sh) * a)%Z with (e + Z.of_nat n * a + Z.of_nat (total_len sh) * a)%Z by lia.
        replace (K * Z.of_nat (n * prod_list sh))%Z with (Z.of_nat n * K * Z.of_nat (prod_list sh))%Z by (rewrite Nat2Z.inj_mul; ring). exact R1.
      * replace (k + 2 * (n + total_len sh))%nat with (k + 2 * n + 2 * total_len sh)%nat by lia.
        replace ((a + 3) * Z.of_nat (n + total_len sh))%Z with ((a + 3) * Z.of_nat n + (a + 3) * Z.of_nat (total_len sh))%Z by lia.
        rewrite bpow_plus, <- Rmult_assoc. exact R2.
Qed.
End Pos.

(** ** the arrays of coefficients *)
Definition vals_arr (c : arr f64) : arr R := mkArr (a_shape c) (map val (a_flat c)).
Definition abs_arr (c : arr f64) : arr R := mkArr (a_shape c) (map Rabs (map val (a_flat c))).
Lemma at_vals c idx : a_at 0 (vals_arr c) idx = val (a_at fzero c idx).
Proof. unfold a_at, vals_arr. cbn [a_shape a_flat]. change 0 with (val fzero) at 1. apply map_nth. Qed.
Lemma at_abs c idx : a_at 0 (abs_arr c) idx = Rabs (val (a_at fzero c idx)).
Proof. unfold a_at, abs_arr. cbn [a_shape a_flat]. rewrite map_map. rewrite <- (map_nth (fun x => Rabs (val x))). f_equal. change (val fzero) with 0. now rewrite Rabs_R0. Qed.

Definition coeffs_ok (e K : Z) (c : arr f64) : Prop := Forall (upto e K) (a_flat c) /\ length (a_flat c) = prod_list (a_shape c).
Lemma coeffs_at e K c idx : coeffs_ok e K c -> in_shape (a_shape c) idx -> upto e K (a_at fzero c idx).
Proof.
  intros [F L] H. rewrite Forall_forall in F. apply F. unfold a_at. rewrite ravel_flat by assumption. apply nth_In. rewrite L. apply flat_pos_lt. assumption.
Qed.
Lemma coeffs_AR e K c : coeffs_ok e K c -> AR 0 ETA e K c (vals_arr c) (abs_arr c).
Proof.
  intros H. split; [reflexivity|]. split; [reflexivity|]. intros idx Hi. split; [now apply coeffs_at|]. rewrite at_vals, at_abs. split; [lra|].
  cbn [pow]. rewrite Rminus_diag_eq, Rabs_R0 by reflexivity. pose proof ETA_pos. lra.
Qed.

Lemma der_entry e K j (c : f64) : (-1000 <= e <= 900)%Z -> (0 <= K)%Z -> upto e K c -> (Z.of_nat j * K < 2 ^ 53)%Z -> (Z.of_nat j <= 2 ^ 53)%Z ->
  upto e (Z.of_nat j * K) (fmul (f_of_Z (Z.of_nat j)) c) /\ acc 1 ETA (fmul (f_of_Z (Z.of_nat j)) c) (INR j * val c) (INR j * Rabs (val c)).
Proof.
  intros He HK [Fc Bc] HL Hj. destruct (f_of_Z_val (Z.of_nat j)) as [Fj Vj]; [lia|]. rewrite <- INR_IZR_INZ in Vj. pose proof (pos_INR j) as J0.
  assert (Up : upto e (Z.of_nat j * K) (fmul (f_of_Z (Z.of_nat j)) c)).
  { apply upto_mul with (a := INR j * (IZR K * bpow radix2 e)); [lia|assumption..|nia| |].
    - rewrite Vj, (Rabs_pos_eq (INR j)) by exact J0. now apply Rmult_le_compat_l.
    - rewrite mult_IZR, <- INR_IZR_INZ. lra. }
  split; [exact Up|]. split; [rewrite Rabs_mult, (Rabs_pos_eq (INR j)) by exact J0; lra|].
  rewrite (fmul_fin _ _ Fj Fc (proj1 Up)), Vj. pose proof (rnd_err (INR j * val c)) as E. rewrite Rabs_mult, (Rabs_pos_eq (INR j)) in E by exact J0.
  replace ((1 + U) ^ 1 - 1) with U by (cbn [pow]; ring). exact E.
Qed.
Lemma nth_shape s d : Forall (fun n => (0 < n)%nat) s -> (d < length s)%nat -> (0 < nth d s 0)%nat.
Proof. intros F H. rewrite Forall_forall in F. apply F. now apply nth_In. Qed.
Lemma in_shape_nth s idx d : in_shape s idx -> (d < length s)%nat -> (nth d idx 0 < nth d s 0)%nat.
Proof. intros H. revert d. induction H; intros d Hd; cbn in Hd; [lia|]. destruct d; cbn [nth]; [assumption|apply IHForall2; lia]. Qed.
Lemma nth_set_nth_eq (l : list nat) d v : (d < length l)%nat -> nth d (set_nth l d v) 0%nat = v.
Proof. revert d. induction l as [|y l IH]; intros [|d] H; cbn in *; try lia. apply IH. lia. Qed.
Lemma der_AR e K c d : (-1000 <= e <= 900)%Z -> (0 <= K)%Z -> coeffs_ok e K c -> Forall (fun n => (0 < n)%nat) (a_shape c) -> (d < length (a_shape c))%nat ->
  (Z.of_nat (nth d (a_shape c) 0%nat) * K < 2 ^ 53)%Z -> (Z.of_nat (nth d (a_shape c) 0%nat) <= 2 ^ 53)%Z ->
  AR 1 ETA e (Z.of_nat (nth d (a_shape c) 0%nat) * K) (f_polyder c d) (polyder (vals_arr c) d) (polyder (abs_arr c) d).
Proof.
  intros He HK Hc FN Hd HL Hn. pose proof (nth_shape _ _ FN Hd) as N0. unfold f_polyder, polyder. cbn [a_shape vals_arr abs_arr].
  destruct (Nat.leb_spec (nth d (a_shape c) 0%nat) 1).
  - split; [reflexivity|]. split; [reflexivity|]. cbn [a_shape]. intros idx Hi.
    assert (LI : (flat_pos (a_shape c) idx < length (a_flat c))%nat) by (destruct Hc as [_ Lc]; rewrite Lc; now apply flat_pos_lt).
    assert (Z0 : finite (fmul (a_at fzero c idx) fzero) /\ val (fmul (a_at fzero c idx) fzero) = 0) by (apply x_zero; now apply (coeffs_at e K)).
    unfold a_at. cbn [a_shape a_flat vals_arr abs_arr]. rewrite !ravel_flat by assumption.
    rewrite (nth_map_in (fun x => fmul x fzero) _ _ _ fzero) by assumption.
    rewrite (nth_map_in (fun x => x * 0) (map val (a_flat c)) _ _ 0) by (rewrite map_length; assumption).
    rewrite (nth_map_in (fun x => x * 0) (map Rabs (map val (a_flat c))) _ _ 0) by (rewrite !map_length; assumption).
    unfold a_at in Z0. rewrite ravel_flat in Z0 by assumption. destruct Z0 as [Z1 Z2]. split.
    + split; [exact Z1|]. rewrite Z2, Rabs_R0. apply Rmult_le_pos; [apply IZR_le; nia|apply bpow_ge_0].
    + rewrite !Rmult_0_r. split; [rewrite Rabs_R0; lra|]. rewrite Z2, Rminus_0_r, Rabs_R0. pose proof ETA_pos. lra.
  - split; [reflexivity|]. split; [reflexivity|]. cbn [a_shape]. intros idx Hi. rewrite !at_of_map' by exact Hi. cbv zeta.
    pose proof (in_shape_inc d (a_shape c) idx Hi Hd) as I. set (j := S (nth d idx 0%nat)) in *.
    assert (J : (j <= nth d (a_shape c) 0)%nat).
    { pose proof (in_shape_nth _ _ d Hi) as Q. rewrite set_nth_length in Q. specialize (Q Hd). rewrite nth_set_nth_eq in Q by assumption. unfold j. lia. }
    change (mkArr (a_shape c) (map val (a_flat c))) with (vals_arr c). change (mkArr (a_shape c) (map Rabs (map val (a_flat c)))) with (abs_arr c).
    rewrite at_vals, at_abs. destruct (der_entry e K j (a_at fzero c (set_nth idx d j)) He HK) as [D1 D2]; [now apply coeffs_at|nia|nia|].
    split; [|exact D2]. apply (upto_mono e _ _ _ D1). nia.
Qed.
