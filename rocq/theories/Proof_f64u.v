(** Walker densities in float64 arithmetic (C93) *)
From Verif Require Import Spec_f64bd Model_f64bd Spec_f64 Spec_f64ld Spec_grid Spec_bd Proof_base Proof_dens Proof_f64 Proof_f64b Proof_f64f Proof_f64n Proof_f64s Proof_f64t.
From Flocq Require Import Core.Core.
From Coq Require Import Lia Lra.
Open Scope R_scope.
Ltac Zify.zify_post_hook ::= idtac.
#[local] Arguments bpow : simpl never.

(** ** products over the dimensions *)
(** a computed factor, the exact one and the maximal one *)
Definition fac (t : f64 * (R * R)) : Prop :=
  let '(g, (G, H)) := t in
  finite g /\ 0 <= val g /\ 0 <= G <= H /\ Rabs (val g - G) <= 128 * U * H /\ bpow radix2 (-102) <= H <= bpow radix2 99.
Definition prodG (l : list (f64 * (R * R))) : R := fold_right (fun t r => fst (snd t) * r) 1 l.
Definition prodH (l : list (f64 * (R * R))) : R := fold_right (fun t r => snd (snd t) * r) 1 l.
Definition acc (m : nat) (p : f64) (P H : R) : Prop :=
  finite p /\ 0 <= val p /\ 0 <= P <= H /\ Rabs (val p - P) <= 256 * INR m * U * H /\
  bpow radix2 (-102 * Z.of_nat m) <= H <= bpow radix2 (99 * Z.of_nat m).

Lemma acc_step m p P H g G K : acc m p P H -> fac (g, (G, K)) -> (m <= 7)%nat -> acc (S m) (fmul p g) (P * G) (H * K).
Proof.
  intros (Fp & p0 & HP & Ep & BH) (Fg & g0 & HG & Eg & BK) Hm. unfold acc. pose proof U_pos as HU. pose proof U_small as HU1. pose proof ETA_pos as HE.
  pose proof (bpow_gt_0 radix2 (-102)) as B0. pose proof (bpow_gt_0 radix2 (-102 * Z.of_nat m)) as B1.
  assert (PK : 0 < K) by lra. assert (PH : 0 < H) by lra.
  assert (BL : bpow radix2 (-102 * Z.of_nat (S m)) <= H * K).
  { replace (-102 * Z.of_nat (S m))%Z with (-102 * Z.of_nat m + -102)%Z by lia. rewrite bpow_plus. apply Rmult_le_compat; lra. }
  assert (BU : H * K <= bpow radix2 (99 * Z.of_nat (S m))).
  { replace (99 * Z.of_nat (S m))%Z with (99 * Z.of_nat m + 99)%Z by lia. rewrite bpow_plus. apply Rmult_le_compat; lra. }
  assert (PHK : 0 < H * K) by (apply Rmult_lt_0_compat; lra).
  assert (M7 : INR m <= 7) by (replace 7 with (INR 7) by (cbn; lra); apply le_INR; exact Hm). pose proof (pos_INR m) as M0.
  set (j := 256 * INR m * U) in *. assert (J0 : 0 <= j <= 1 / 512) by (unfold j; split; [apply Rmult_le_pos; lra|]; assert (INR m * U <= 7 * U) by (apply Rmult_le_compat_r; lra); lra).
  assert (p1 : val p <= H * (1 + j)) by (apply Rabs_le_inv in Ep; lra).
  assert (g1 : val g <= K * (1 + 128 * U)) by (apply Rabs_le_inv in Eg; lra).
  assert (E : Rabs (val p * val g - P * G) <= (j + 129 * U) * (H * K)).
  { replace (val p * val g - P * G) with ((val p - P) * val g + P * (val g - G)) by ring.
    eapply Rle_trans; [apply Rabs_triang|]. rewrite !Rabs_mult, (Rabs_pos_eq (val g)), (Rabs_pos_eq P) by lra.
    assert (Q1 : Rabs (val p - P) * val g <= (j * H) * (K * (1 + 128 * U))) by (apply Rmult_le_compat; [apply Rabs_pos|exact g0|exact Ep|exact g1]).
    assert (Q2 : P * Rabs (val g - G) <= H * (128 * U * K)) by (apply Rmult_le_compat; [lra|apply Rabs_pos|lra|exact Eg]).
    assert (Q3 : j * (128 * U) <= (1 / 512) * (128 * U)) by (apply Rmult_le_compat_r; lra).
    assert (Q4 : j * (128 * U) * (H * K) <= U * (H * K)) by (apply Rmult_le_compat_r; lra). lra. }
  assert (z0 : 0 <= val p * val g) by (apply Rmult_le_pos; lra).
  assert (z1 : val p * val g <= 2 * (H * K)).
  { apply Rabs_le_inv in E. assert ((j + 129 * U) * (H * K) <= 1 / 2 * (H * K)) by (apply Rmult_le_compat_r; lra).
    assert (P * G <= H * K) by (apply Rmult_le_compat; lra). lra. }
  assert (EK : ETA <= U * (H * K)).
  { apply Rle_trans with (bpow radix2 (-53) * bpow radix2 (-102 * Z.of_nat (S m))).
    - unfold ETA. rewrite <- bpow_plus. apply bpow_le. lia.
    - rewrite <- U_bpow. apply Rmult_le_compat_l; lra. }
  pose proof (rnd_err (val p * val g)) as R. rewrite (Rabs_pos_eq _ z0) in R.
  assert (Uz : U * (val p * val g) <= U * (2 * (H * K))) by (apply Rmult_le_compat_l; lra).
  assert (UK : U * (H * K) <= / 1048576 * (H * K)) by (apply Rmult_le_compat_r; lra).
  assert (R0 : 0 <= rnd (val p * val g)) by (rewrite <- rnd_0; apply rnd_le; exact z0).
  assert (MX : bpow radix2 (99 * Z.of_nat (S m)) * 4 <= bpow radix2 900).
  { change 4 with (bpow radix2 2). rewrite <- bpow_plus. apply bpow_le. lia. }
  apply Rabs_le_inv in R.
  destruct (fmul_val p g Fp Fg) as [F V]; [apply small_max; rewrite Rabs_pos_eq; lra|].
  split; [exact F|]. rewrite V. split; [exact R0|]. split.
  { split; [apply Rmult_le_pos; lra|apply Rmult_le_compat; lra]. }
  split; [|split; assumption]. apply Rabs_le_inv in E. rewrite S_INR. fold j in E. apply Rabs_le.
  replace (256 * (INR m + 1) * U * (H * K)) with (j * (H * K) + 256 * U * (H * K)) by (unfold j; ring). lra.
Qed.
Lemma acc_fold l : Forall fac l -> forall m p P H, acc m p P H -> (m + length l <= 8)%nat ->
  acc (m + length l) (fold_left fmul (map fst l) p) (P * prodG l) (H * prodH l).
Proof.
  induction 1 as [|[g [G K]] l Hf _ IH]; intros m p P H A L; cbn [length map fold_left prodG prodH fold_right fst snd] in *.
  - rewrite Nat.add_0_r, !Rmult_1_r. exact A.
  - replace (m + S (length l))%nat with (S m + length l)%nat by lia. fold (prodG l). fold (prodH l).
    rewrite <- !Rmult_assoc. apply IH; [|lia]. apply acc_step; [exact A|exact Hf|lia].
Qed.
Lemma prod_acc l : Forall fac l -> (1 <= length l <= 8)%nat -> acc (length l) (f_prod (map fst l)) (prodG l) (prodH l).
Proof.
  intros HF HL. destruct l as [|[g [G K]] l]; [cbn in HL; lia|]. cbn [f_prod map fst prodG prodH fold_right snd length].
  fold (prodG l). fold (prodH l). inversion HF as [|? ? Hf HF']; subst. change (S (length l)) with (1 + length l)%nat. apply acc_fold; [exact HF'| |cbn in HL; lia].
  destruct Hf as (Fg & g0 & HG & Eg & BK). split; [exact Fg|]. split; [exact g0|]. split; [exact HG|]. cbn [INR].
  pose proof U_pos. pose proof (bpow_gt_0 radix2 (-102)). assert (0 < U * K) by (apply Rmult_lt_0_compat; lra).
  split; [|exact BK]. eapply Rle_trans; [exact Eg|]. lra.
Qed.

(** ** entries of the kernel matrix *)

Lemma pairs_fac fexp bw : exp_ok fexp -> Forall moderate bw -> forall p q, coords_ok bw p -> coords_ok bw q ->
  exists l, Forall fac l /\ map fst l = f_pairs fexp bw p q /\ length l = length bw /\
    prodG l = gauss_kernel (map val bw) (map val p) (map val q) /\ prodH l = gauss_height (map val bw).
Proof.
  intros He. induction 1 as [|b bw Hb _ IH]; intros p q [Lp Fp] [Lq Fq].
  - exists []. destruct p; [|discriminate]. destruct q; [|discriminate]. repeat split. constructor.
  - destruct p as [|x p]; [discriminate|]. destruct q as [|y q]; [discriminate|]. inversion Fp; subst. inversion Fq; subst.
    destruct (IH p q) as (l & A & B & C & D & E); [split; [cbn in Lp; lia|assumption]|split; [cbn in Lq; lia|assumption]|].
    destruct (pair_val b x y Hb ltac:(assumption) ltac:(assumption) fexp He) as (G1 & G2 & G3 & G4).
    destruct (height_val b Hb) as (_ & _ & Bh).
    exists ((f_pair fexp b x y, (HH (val b) * exp (- ((val x - val y) ^ 2 / (2 * val b ^ 2))), HH (val b))) :: l).
    split; [constructor; [|exact A]; split; [exact G1|]; split; [exact G2|]; split; [exact G3|]; split; [exact G4|exact Bh]|].
    cbn [map fst f_pairs length prodG prodH fold_right snd gauss_kernel gauss_height]. fold (prodG l). fold (prodH l).
    rewrite B, C, D, E. repeat split.
Qed.
Lemma heights_fac bw : Forall moderate bw ->
  exists l, Forall fac l /\ map fst l = map f_height bw /\ length l = length bw /\
    prodG l = gauss_height (map val bw) /\ prodH l = gauss_height (map val bw).
Proof.
  induction 1 as [|b bw Hb _ (l & A & B & C & D & E)].
  - exists []. repeat split. constructor.
  - destruct (height_val b Hb) as (Fh & Rh & Bh). pose proof (bpow_gt_0 radix2 (-102)) as B0. pose proof U_pos.
    pose proof (rel_range _ _ _ Rh ltac:(lra) ltac:(lra)) as G. assert (0 < U * HH (val b)) by (apply Rmult_lt_0_compat; lra).
    exists ((f_height b, (HH (val b), HH (val b))) :: l). split.
    + constructor; [|exact A]. split; [exact Fh|]. split; [lra|]. split; [lra|]. split; [|exact Bh]. unfold rel in Rh. eapply Rle_trans; [exact Rh|]. lra.
    + cbn [map fst length prodG prodH fold_right snd gauss_height]. fold (prodG l). fold (prodH l). rewrite B, C, D, E. repeat split.
Qed.

Lemma vsum_close l L e : Forall2 (fun (x : f64) X => Rabs (val x - X) <= e) l L -> Rabs (vsum l - total L) <= INR (length l) * e.
Proof.
  induction 1 as [|x X l L Hx _ IH]; [cbn; rewrite Rminus_0_r, Rabs_R0; lra|].
  cbn [vsum total fold_right length]. fold (vsum l). fold (total L). rewrite S_INR.
  replace (val x + vsum l - (X + total L)) with ((val x - X) + (vsum l - total L)) by ring.
  eapply Rle_trans; [apply Rabs_triang|]. lra.
Qed.
Lemma total_bounds L A B : Forall (fun X => A <= X <= B) L -> INR (length L) * A <= total L <= INR (length L) * B.
Proof.
  induction 1 as [|X L HX _ IH]; [cbn; lra|]. cbn [total fold_right length]. fold (total L). rewrite S_INR. lra.
Qed.

(** ** averages of kernel values that are known up to rounding *)
Section Mean.
Context (np_sum : list f64 -> f64) (Hs : sums np_sum)
  (bw : list f64) (pos : list (list f64)) (Hbw : Forall moderate bw)
  (Hpos : Forall (coords_ok bw) pos) (Hn : pos <> []) (Hmax : (Z.of_nat (length pos) <= 1073741824)%Z).
Let n := length pos.
Let H := gauss_height (map val bw).
Let K (j i : nat) := gauss_kernel (map val bw) (map val (nth j pos [])) (map val (nth i pos [])).
Context (ent : nat -> nat -> f64)
  (Hent : forall i j, (i < n)%nat -> (j < n)%nat ->
    nonneg (ent i j) /\ 0 <= K j i <= H /\ Rabs (val (ent i j) - K j i) <= 768 * U * H /\ bpow radix2 (-306) <= H <= bpow radix2 297).

Lemma nth_ok' i : (i < n)%nat -> coords_ok bw (nth i pos []).
Proof using All. intros L. rewrite Forall_forall in Hpos. apply Hpos, nth_In. exact L. Qed.
Lemma mean_val j : (j < n)%nat ->
  let d := fdiv (np_sum (map (fun i => ent i j) (seq 0 n))) (f_of_Z (Z.of_nat n)) in
  finite d /\ 0 < val d /\ Rabs (val d - exact_density bw pos j) <= INR n * / 2 ^ 43 * exact_density bw pos j /\
  H <= exact_density bw pos j * INR n /\ exact_density bw pos j <= H.
Proof using All.
  intros Lj d. pose proof U_pos as HU. pose proof U_small as HU1. assert (HU3 : U * 8796093022208 <= 1) by (unfold U; lra). pose proof ETA_pos as HE. assert (PH : 0 < H) by (pose proof (bpow_gt_0 radix2 (-306)); destruct (Hent j j Lj Lj) as (_ & _ & _ & Q); lra).
  set (l := map (fun i => ent i j) (seq 0 n)) in *. set (L := map (K j) (seq 0 n)).
  assert (n1 : (1 <= n)%nat) by (unfold n in *; destruct pos; [congruence|cbn; lia]).
  assert (N1 : 1 <= INR n) by (replace 1 with (INR 1) by (cbn; lra); apply le_INR; exact n1).
  assert (NZ : INR n <= 1073741824) by (rewrite INR_IZR_INZ; apply IZR_le; exact Hmax).
  assert (Len : length l = n) by (unfold l; now rewrite map_length, seq_length).
  assert (LenL : length L = n) by (unfold L; now rewrite map_length, seq_length).
  assert (DE : exact_density bw pos j = total L / INR n).
  { unfold exact_density, average. rewrite !map_length. fold n. f_equal. f_equal. unfold L, K.
    apply nth_ext with (d := 0) (d' := 0); [rewrite !map_length, seq_length; reflexivity|]. intros i Hi. rewrite !map_length in Hi.
    rewrite (nth_indep _ 0 (gauss_kernel (map val bw) (map val (nth j pos [])) (map val []))) by (rewrite !map_length; exact Hi).
    rewrite map_nth, map_nth. rewrite (nth_indep (map _ (seq 0 n)) 0 (K j 0)) by (rewrite map_length, seq_length; exact Hi).
    unfold K. rewrite (map_nth (fun i => gauss_kernel (map val bw) (map val (nth j pos [])) (map val (nth i pos [])))).
    rewrite seq_nth by exact Hi. reflexivity. }
  destruct (Hent j j Lj Lj) as (_ & _ & _ & HB). pose proof (bpow_gt_0 radix2 (-306)) as B306.
  assert (F2 : Forall2 (fun (x : f64) X => Rabs (val x - X) <= 768 * U * H) l L).
  { unfold l, L. assert (G : forall i, In i (seq 0 n) -> (i < n)%nat) by (intros i Hi; apply in_seq in Hi; lia).
    clear - G Lj Hent. revert G. generalize (seq 0 n) as is. induction is as [|i s IH]; intros G; cbn [map]; constructor.
    - apply Hent; [apply G; now left|exact Lj].
    - apply IH. intros i' Hi'. apply G. now right. }
  assert (FN : Forall nonneg l).
  { unfold l. apply Forall_map, Forall_forall. intros i Hi. apply in_seq in Hi. apply Hent; [lia|exact Lj]. }
  assert (FL : Forall (fun X => 0 <= X <= H) L).
  { unfold L. apply Forall_map, Forall_forall. intros i Hi. apply in_seq in Hi. apply Hent; [lia|exact Lj]. }
  pose proof (vsum_close l L _ F2) as VS. rewrite Len in VS.
  pose proof (total_bounds L 0 H FL) as TB. rewrite LenL in TB.
  (* the diagonal is in the sum *)
  assert (TL : H <= total L).
  { assert (In H L).
    { unfold L. apply in_map_iff. exists j. split; [unfold K, H; apply gauss_self; rewrite !map_length; now apply nth_ok'|apply in_seq; lia]. }
    clear - H0 FL. induction FL as [|X L HX FL' IH]; [destruct H0|]. cbn [total fold_right]. fold (total L).
    assert (0 <= total L) by (clear - FL'; induction FL' as [|Y L HY _ IH]; [cbn; lra|]; cbn [total fold_right]; fold (total L); lra).
    destruct H0 as [->|H0]; [lra|]. specialize (IH H0). lra. }
  set (S := total L) in *. set (u := INR n * (768 * U)). assert (u0 : 0 <= u <= 1 / 1000) by (unfold u; split; [apply Rmult_le_pos; lra|]; assert (INR n * U <= 1073741824 * U) by (apply Rmult_le_compat_r; lra); unfold U in *; lra).
  assert (VS' : Rabs (vsum l - S) <= u * S).
  { eapply Rle_trans; [exact VS|]. replace (INR n * (768 * U * H)) with (u * H) by (unfold u; ring). apply Rmult_le_compat_l; lra. }
  apply Rabs_le_inv in VS'.
  assert (uS : 0 <= u * S <= 1 / 1000 * S) by (split; [apply Rmult_le_pos; lra|apply Rmult_le_compat_r; lra]).
  assert (PS : 0 < S) by lra.
  assert (MS : S <= bpow radix2 327).
  { apply Rle_trans with (INR n * H); [lra|]. change 327%Z with (30 + 297)%Z. rewrite bpow_plus. change (bpow radix2 30) with 1073741824. apply Rmult_le_compat; lra. }
  assert (M1 : bpow radix2 327 * 4 <= bpow radix2 900) by (change (bpow radix2 327 * bpow radix2 2 <= bpow radix2 900); rewrite <- bpow_plus; apply bpow_le; lia).
  assert (M2 : bpow radix2 900 < bpow radix2 1023) by (apply bpow_lt; lia).
  (* np.sum *)
  assert (dd : INR (2 * length l) * U <= 1 / 2).
  { rewrite Len, mult_INR. change (INR 2) with 2. assert (INR n * U <= 1073741824 * U) by (apply Rmult_le_compat_r; lra). lra. }
  assert (NE : l <> []) by (intros E; rewrite E in Len; cbn in Len; lia). assert (MV : vsum l < bpow radix2 1023) by lra.
  destruct (np_sum_bounds np_sum l Hs NE FN MV dd) as (Fs & S1 & S2).
  rewrite Len, mult_INR in S1, S2. change (INR 2) with 2 in S1, S2. set (c := 2 * INR n * U) in *.
  
  assert (c0 : 0 <= c <= 1 / 1000) by (unfold c; split; [apply Rmult_le_pos; lra|]; assert (INR n * U <= 1073741824 * U) by (apply Rmult_le_compat_r; lra); lra).
  set (s := val (np_sum l)) in *.
  assert (V0 : 0 <= vsum l <= S * (1001 / 1000)) by lra.
  assert (s1 : vsum l - c * vsum l <= s) by lra.
  assert (s2 : s <= vsum l * (1 + 2 * c)).
  { assert (Z1 : s * (1 - c) * (1 + 2 * c) <= vsum l * (1 + 2 * c)) by (apply Rmult_le_compat_r; lra).
    assert (c * vsum l <= vsum l * (1 / 1000)) by (rewrite (Rmult_comm c); apply Rmult_le_compat_l; lra).
    assert (s0 : 0 <= s) by lra.
    assert (Z2 : s * 1 <= s * ((1 - c) * (1 + 2 * c))) by (apply Rmult_le_compat_l; [exact s0|]; nra). lra. }
  assert (cv : 0 <= c * vsum l <= c * (S * (1001 / 1000))) by (split; [apply Rmult_le_pos; lra|apply Rmult_le_compat_l; lra]).
  assert (cS : c * S <= 1 / 1000 * S) by (apply Rmult_le_compat_r; lra).
  assert (Es : Rabs (s - S) <= (u + 3 * c) * S).
  { apply Rabs_le. assert (0 <= c * S) by (apply Rmult_le_pos; lra). split; lra. }
  (* the division *)
  destruct (f_of_Z_val (Z.of_nat n)) as [Fn Vn]; [unfold n; lia|].
  rewrite <- INR_IZR_INZ in Vn. apply Rabs_le_inv in Es.
  assert (D1 : exact_density bw pos j * INR n = S) by (rewrite DE; field; lra).
  set (E := exact_density bw pos j) in *. assert (PE : 0 < E) by (rewrite DE; apply Rdiv_lt_0_compat; lra).
  assert (BE : H <= E * INR n /\ E <= H).
  { split; [rewrite D1; exact TL|]. apply Rmult_le_reg_r with (INR n); [lra|]. rewrite D1. lra. }
  assert (BL : bpow radix2 (-336) <= E).
  { apply Rmult_le_reg_r with (INR n); [lra|]. rewrite D1. apply Rle_trans with (bpow radix2 (-336) * bpow radix2 30).
    - apply Rmult_le_compat_l; [apply bpow_ge_0|]. change (bpow radix2 30) with 1073741824. lra.
    - rewrite <- bpow_plus. apply Rle_trans with (bpow radix2 (-306)); [apply bpow_le; lia|lra]. }
  assert (q1 : Rabs (s / INR n - E) <= (u + 3 * c) * E).
  { replace (s / INR n - E) with ((s - S) / INR n) by (rewrite <- D1; field; lra).
    unfold Rdiv. rewrite Rabs_mult, (Rabs_pos_eq (/ INR n)) by (left; apply Rinv_0_lt_compat; lra).
    apply Rmult_le_reg_r with (INR n); [lra|]. rewrite Rmult_assoc, Rinv_l, Rmult_1_r, Rmult_assoc, D1 by lra. apply Rabs_le. lra. }
  set (q := s / INR n) in *. apply Rabs_le_inv in q1.
  assert (uE : (u + 3 * c) * E <= 1 / 100 * E) by (apply Rmult_le_compat_r; lra).
  assert (EE : ETA <= U * E).
  { apply Rle_trans with (bpow radix2 (-53) * bpow radix2 (-336)); [unfold ETA; rewrite <- bpow_plus; apply bpow_le; lia|].
    rewrite <- U_bpow. apply Rmult_le_compat_l; lra. }
  assert (q0 : 0 <= q) by lra.
  pose proof (rnd_err q) as R. rewrite (Rabs_pos_eq q q0) in R. apply Rabs_le_inv in R.
  assert (Uq : U * q <= U * (2 * E)) by (apply Rmult_le_compat_l; lra).
  assert (UE : 0 <= U * E <= / 1048576 * E) by (split; [apply Rmult_le_pos|apply Rmult_le_compat_r]; lra).
  assert (M3 : bpow radix2 297 * 4 <= bpow radix2 900) by (change (bpow radix2 297 * bpow radix2 2 <= bpow radix2 900); rewrite <- bpow_plus; apply bpow_le; lia).
  assert (Vq : s / val (f_of_Z (Z.of_nat n)) = q) by (rewrite Vn; reflexivity).
  destruct (fdiv_val (np_sum l) (f_of_Z (Z.of_nat n)) Fs Fn) as [Fd Vd]; [rewrite Vn; lra|fold s; rewrite Vq; apply small_max; apply Rabs_le; lra|].
  fold s in Vd. rewrite Vq in Vd. fold d in Fd, Vd. split; [exact Fd|]. rewrite Vd. split; [lra|]. split; [|exact BE].
  assert (FIN : (u + 3 * c + 3 * U) * E <= INR n * / 2 ^ 43 * E).
  { apply Rmult_le_compat_r; [lra|]. replace (/ 2 ^ 43) with (1024 * U) by (unfold U; lra). unfold u, c.
    assert (U * 1 <= U * INR n) by (apply Rmult_le_compat_l; lra). lra. }
  apply Rabs_le. lra.
Qed.

End Mean.

Section Density.
Context (fexp : f64 -> f64) (np_sum : list f64 -> f64) (He : exp_ok fexp) (Hs : sums np_sum)
  (bw : list f64) (pos : list (list f64)) (Hbw : Forall moderate bw) (Hdim : (1 <= length bw <= 3)%nat)
  (Hpos : Forall (coords_ok bw) pos) (Hn : pos <> []) (Hmax : (Z.of_nat (length pos) <= 10000)%Z).
Let n := length pos.
Let H := gauss_height (map val bw).
Let K (j i : nat) := gauss_kernel (map val bw) (map val (nth j pos [])) (map val (nth i pos [])).
(** the exact density at walker j *)

Lemma bw_pos : Forall (fun b => 0 < b) (map val bw).
Proof using All.
  apply Forall_map. eapply Forall_impl; [|exact Hbw]. intros b [_ B]. pose proof (bpow_gt_0 radix2 (-100)). lra.
Qed.
Lemma H_pos : 0 < H.
Proof using All. apply gauss_height_pos. exact bw_pos. Qed.
Lemma nth_ok i : (i < n)%nat -> coords_ok bw (nth i pos []).
Proof using All. intros L. rewrite Forall_forall in Hpos. apply Hpos, nth_In. exact L. Qed.

Lemma entry_val i j : (i < n)%nat -> (j < n)%nat -> let e := f_entry fexp bw pos i j in
  nonneg e /\ 0 <= K j i <= H /\ Rabs (val e - K j i) <= 768 * U * H /\ bpow radix2 (-306) <= H <= bpow radix2 297.
Proof using All.
  intros Li Lj e. pose proof U_pos as HU. pose proof H_pos as PH.
  assert (Q : forall l, Forall fac l -> length l = length bw -> prodH l = H -> let p := f_prod (map fst l) in
    nonneg p /\ 0 <= prodG l <= H /\ Rabs (val p - prodG l) <= 768 * U * H /\ bpow radix2 (-306) <= H <= bpow radix2 297).
  { intros l A B C p. destruct (prod_acc l A ltac:(lia)) as (F & G & I & J & L). fold p in F, G, J. rewrite C in *. rewrite B in J, L.
    split; [split; assumption|]. split; [exact I|]. split.
    - eapply Rle_trans; [exact J|]. assert (INR (length bw) <= 3) by (replace 3 with (INR 3) by (cbn; lra); apply le_INR; lia).
      apply Rmult_le_compat_r; [lra|]. apply Rmult_le_compat_r; lra.
    - destruct L as [L1 L2]. split.
      + eapply Rle_trans; [|exact L1]. apply bpow_le. lia.
      + eapply Rle_trans; [exact L2|]. apply bpow_le. lia. }
  unfold f_entry in e. destruct (Nat.eqb_spec i j) as [->|NE].
  - destruct (heights_fac bw Hbw) as (l & A & B & C & D & E). subst e. rewrite <- B.
    assert (KK : K j j = prodG l).
    { unfold K. rewrite D. apply gauss_self. rewrite !map_length. apply nth_ok. exact Lj. }
    rewrite KK. apply Q; assumption.
  - destruct (pairs_fac fexp bw He Hbw (nth (Nat.min i j) pos []) (nth (Nat.max i j) pos [])) as (l & A & B & C & D & E);
      [apply nth_ok; lia|apply nth_ok; lia|].
    assert (KK : K j i = prodG l).
    { unfold K. rewrite D. destruct (Nat.le_gt_cases i j) as [Le|Gt].
      - rewrite Nat.min_l, Nat.max_r by lia. apply gauss_sym.
      - rewrite Nat.min_r, Nat.max_l by lia. reflexivity. }
    subst e. rewrite <- B, KK. apply Q; assumption.
Qed.

Lemma density_val j : (j < n)%nat ->
  let d := fdiv (np_sum (map (fun i => f_entry fexp bw pos i j) (seq 0 n))) (f_of_Z (Z.of_nat n)) in
  finite d /\ 0 < val d /\ Rabs (val d - exact_density bw pos j) <= INR n * / 2 ^ 43 * exact_density bw pos j /\
  bpow radix2 (-320) <= exact_density bw pos j <= bpow radix2 297.
Proof using All.
  intros Lj d.
  destruct (mean_val np_sum Hs bw pos Hbw Hpos Hn ltac:(lia) (f_entry fexp bw pos) entry_val j Lj) as (A & B & C & D & E). fold n in A, B, C, D.
  split; [exact A|]. split; [exact B|]. split; [exact C|]. destruct (entry_val j j Lj Lj) as (_ & _ & _ & HB). fold H in D, E.
  assert (n1 : (1 <= n)%nat) by (unfold n in *; destruct pos; [congruence|cbn; lia]).
  assert (N1 : 1 <= INR n) by (replace 1 with (INR 1) by (cbn; lra); apply le_INR; exact n1).
  assert (NZ : INR n <= 10000) by (rewrite INR_IZR_INZ; apply IZR_le; exact Hmax).
  split; [|lra]. apply Rmult_le_reg_r with (INR n); [lra|]. apply Rle_trans with (bpow radix2 (-320) * bpow radix2 14).
  - apply Rmult_le_compat_l; [apply bpow_ge_0|]. change (bpow radix2 14) with 16384. lra.
  - rewrite <- bpow_plus. apply Rle_trans with (bpow radix2 (-306)); [apply bpow_le; lia|lra].
Qed.

Lemma density_all : exists d, f_density fexp np_sum bw pos = Ok d /\ length d = n /\
  forall i x, nth_error d i = Some x -> finite x /\ 0 < val x /\ Rabs (val x - exact_density bw pos i) <= INR n * / 2 ^ 43 * exact_density bw pos i /\
    bpow radix2 (-320) <= exact_density bw pos i <= bpow radix2 297.
Proof using All.
  unfold f_density. fold n. destruct (Nat.eqb_spec n 0) as [E|_]; [unfold n in E; destruct pos; [congruence|discriminate]|].
  eexists. split; [reflexivity|]. rewrite map_length, seq_length. split; [reflexivity|]. intros i x Hi.
  assert (Li : (i < n)%nat).
  { assert (nth_error (map (fun j => fdiv (np_sum (map (fun i => f_entry fexp bw pos i j) (seq 0 n))) (f_of_Z (Z.of_nat n))) (seq 0 n)) i <> None) as Q by (rewrite Hi; discriminate).
    apply nth_error_Some in Q. now rewrite map_length, seq_length in Q. }
  rewrite nth_error_map in Hi. rewrite (nth_error_nth' _ 0%nat) in Hi by (rewrite seq_length; exact Li). rewrite seq_nth in Hi by exact Li.
  cbn in Hi. injection Hi as <-. now apply density_val.
Qed.
End Density.
