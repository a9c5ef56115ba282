(** The edges of the bins in float64 numbers *)
From Coq Require Import Lia Lra Reals ZArith Sorted.
From Verif Require Import PyBase Model_f64 Model_f64grid Spec_hist Spec_f64 Spec_f64grid Proof_hist Proof_f64 Proof_f64i.
From Flocq Require Import Core.Core IEEE754.BinarySingleNaN Mult_error.
Open Scope R_scope.
Ltac Zify.zify_post_hook ::= idtac.

Lemma bpow_big : bpow radix2 1001 < bpow radix2 1024. Proof. apply bpow_lt. lia. Qed.
Lemma bpow_1001 : bpow radix2 1001 = 2 * bpow radix2 1000.
Proof. change 1001%Z with (1 + 1000)%Z. rewrite bpow_plus. reflexivity. Qed.
Lemma pow_val k : 2 ^ k = IZR (2 ^ Z.of_nat k).
Proof. rewrite <- pow_IZR. reflexivity. Qed.

(** relative error of a product of (1 + e), with |e| <= U *)
Lemma near_one a b x : 0 <= x -> 0 <= a -> Rabs (a - x) <= 3 * U * x -> Rabs (b - a) <= U * a -> Rabs (b - x) <= 5 * U * x.
Proof.
  intros Hx Ha H1 H2. unfold U in *. apply Rabs_le. apply Rabs_le_inv in H1. apply Rabs_le_inv in H2. lra.
Qed.

Section edges.
Context (lo hi : f64) (n : nat).
Context (Flo : finite lo) (Fhi : finite hi).
Context (Hn : (0 < n)%nat).
Let M := Rabs (val lo) + Rabs (val hi).
Let D := val hi - val lo.
Context (Hlt : val lo < val hi) (HD : bpow radix2 (-900) <= val hi - val lo) (HM : Rabs (val lo) + Rabs (val hi) <= bpow radix2 1000).
Context (Hnar : INR n * (Rabs (val lo) + Rabs (val hi)) <= 2 ^ 49 * (val hi - val lo)).

Lemma edges_D : 0 < D /\ D <= M.
Proof using All.
  unfold D, M. split; [lra|]. pose proof (Rle_abs (val hi)). pose proof (Rle_abs (- val lo)) as X. rewrite Rabs_Ropp in X. lra.
Qed.
Lemma edges_n : 1 <= INR n <= 2 ^ 49.
Proof using All.
  destruct edges_D as [P L]. split; [apply (le_INR 1); lia|].
  apply Rmult_le_reg_r with D; [exact P|]. apply Rle_trans with (INR n * M); [apply Rmult_le_compat_l; [apply pos_INR|exact L]|exact Hnar].
Qed.
Lemma edges_nZ : (Z.of_nat n <= 2 ^ 49)%Z.
Proof using All.
  destruct edges_n as [_ H]. rewrite INR_IZR_INZ in H. replace (2 ^ 49) with (IZR (2 ^ 49)) in H by (rewrite (pow_val 49); reflexivity). apply le_IZR. exact H.
Qed.

Let delta := fsub hi lo.
Lemma delta_val : finite delta /\ val delta = rnd D /\ Rabs (val delta - D) <= U * D /\ 0 < val delta.
Proof using All.
  destruct edges_D as [P L]. pose proof (rnd_plus_err hi (fopp lo)) as E. rewrite fopp_val in E.
  replace (val hi + - val lo) with D in E by (unfold D; lra). rewrite (Rabs_pos_eq D) in E by lra.
  assert (B : Rabs (rnd D) < bpow radix2 1024).
  { apply Rle_lt_trans with (2 * bpow radix2 1000); [|rewrite <- bpow_1001; apply bpow_big].
    apply Rabs_le_inv in E. unfold U in E. pose proof (bpow_gt_0 radix2 1000). apply Rabs_le. fold M in HM. lra. }
  destruct (fsub_val hi lo Fhi Flo B) as [F V]. fold delta in F, V. fold D in V. split; [exact F|]. split; [exact V|]. rewrite V.
  split; [exact E|]. apply Rabs_le_inv in E. unfold U in E. lra.
Qed.

Let step := fdiv delta (f_of_Z (Z.of_nat n)).
Let s := D / INR n.
Lemma s_pos : 0 < s. Proof using All. unfold s. destruct edges_D as [P _]. destruct edges_n as [N _]. apply Rdiv_lt_0_compat; lra. Qed.
Lemma ns : INR n * s = D. Proof using All. unfold s. destruct edges_n as [N _]. field. lra. Qed.
Lemma s_normal : bpow radix2 (-950) <= s.
Proof using All.
  destruct edges_n as [N1 N2]. unfold s. apply Rmult_le_reg_r with (INR n); [lra|]. replace (D / INR n * INR n) with D by (field; lra).
  apply Rle_trans with (bpow radix2 (-900)); [|exact HD].
  apply Rle_trans with (bpow radix2 (-950) * 2 ^ 49); [apply Rmult_le_compat_l; [apply bpow_ge_0|exact N2]|].
  replace (2 ^ 49) with (bpow radix2 49) by (rewrite (pow_val 49); change 49%Z with (Z.of_nat 49) at 1; rewrite <- (IZR_Zpower radix2 (Z.of_nat 49)) by lia; reflexivity).
  rewrite <- bpow_plus. apply bpow_le. lia.
Qed.
Lemma nf_val : finite (f_of_Z (Z.of_nat n)) /\ val (f_of_Z (Z.of_nat n)) = INR n.
Proof using All. rewrite INR_IZR_INZ. apply f_of_Z_val. pose proof edges_nZ. lia. Qed.

Lemma step_val : finite step /\ Rabs (val step - s) <= 3 * U * s /\ 0 < val step.
Proof using All.
  destruct delta_val as (Fd & _ & Ed & Pd). destruct nf_val as [Fn Vn]. destruct edges_n as [N1 N2]. destruct edges_D as [PD LD].
  pose proof s_pos as Ps. pose proof s_normal as Sn. pose proof ns as Ns.
  set (q := val delta / INR n).
  assert (Eq : Rabs (q - s) <= U * s).
  { unfold q, s. replace (val delta / INR n - D / INR n) with ((val delta - D) * / INR n) by (field; lra). rewrite Rabs_mult, (Rabs_pos_eq (/ INR n)).
    - replace (U * (D / INR n)) with (U * D * / INR n) by (field; lra). apply Rmult_le_compat_r; [apply Rlt_le, Rinv_0_lt_compat; lra|exact Ed].
    - apply Rlt_le, Rinv_0_lt_compat. lra. }
  assert (Pq : s / 2 <= q <= 2 * s) by (apply Rabs_le_inv in Eq; unfold U in Eq; lra).
  assert (Er : Rabs (rnd q - q) <= U * q).
  { rewrite <- (Rabs_pos_eq q) at 3 by lra. apply rnd_err_normal. rewrite (Rabs_pos_eq q) by lra.
    apply Rle_trans with (bpow radix2 (-951)); [apply bpow_le; lia|]. change (-951)%Z with (-1 + -950)%Z. rewrite bpow_plus. change (bpow radix2 (-1)) with (/ 2). lra. }
  assert (Es : Rabs (rnd q - s) <= 3 * U * s).
  { unfold U in *. apply Rabs_le_inv in Er. apply Rabs_le_inv in Eq. apply Rabs_le. lra. }
  assert (B : Rabs (rnd (val delta / val (f_of_Z (Z.of_nat n)))) < bpow radix2 1024).
  { rewrite Vn. fold q. apply Rle_lt_trans with (2 * bpow radix2 1000); [|rewrite <- bpow_1001; apply bpow_big].
    assert (s <= bpow radix2 1000). { apply Rle_trans with D; [rewrite <- Ns; rewrite <- (Rmult_1_l s) at 1; apply Rmult_le_compat_r; lra|apply Rle_trans with M; [exact LD|exact HM]]. }
    unfold U in Es. apply Rabs_le_inv in Es. pose proof (bpow_gt_0 radix2 1000). apply Rabs_le. lra. }
  destruct (fdiv_val delta (f_of_Z (Z.of_nat n)) Fd Fn) as [F V]; [rewrite Vn; lra|exact B|]. fold step in F, V. rewrite Vn in V. fold q in V.
  split; [exact F|]. rewrite V. split; [exact Es|]. apply Rabs_le_inv in Es. unfold U in Es. lra.
Qed.

Definition point (i : nat) : f64 := fadd (fmul (f_of_Z (Z.of_nat i)) step) lo.

Lemma point_val i : (i < n)%nat -> finite (point i) /\ Rabs (val (point i) - (val lo + INR i * s)) <= 7 * U * M /\ (i = 0%nat -> val (point i) = val lo).
Proof using All.
  intro Hi. destruct step_val as (Fs & Es & Ps). destruct edges_n as [N1 N2]. destruct edges_D as [PD LD]. pose proof s_pos as Pp. pose proof ns as Ns. pose proof s_normal as Sn.
  pose proof edges_nZ as NZ. destruct (f_of_Z_val (Z.of_nat i)) as [Fi Vi]; [lia|]. rewrite <- INR_IZR_INZ in Vi.
  assert (Li : INR i <= INR n) by (apply le_INR; lia). pose proof (pos_INR i) as Pi.
  set (a := INR i * val step).
  assert (Ea : Rabs (a - INR i * s) <= 3 * U * (INR i * s)).
  { unfold a. replace (INR i * val step - INR i * s) with (INR i * (val step - s)) by ring. rewrite Rabs_mult, (Rabs_pos_eq (INR i)) by exact Pi.
    replace (3 * U * (INR i * s)) with (INR i * (3 * U * s)) by ring. apply Rmult_le_compat_l; assumption. }
  assert (Pa : 0 <= a) by (unfold a; apply Rmult_le_pos; lra).
  assert (Er : Rabs (rnd a - a) <= U * a).
  { destruct i as [|i].
    - unfold a. cbn [INR]. rewrite Rmult_0_l, rnd_0. rewrite Rminus_0_r, Rabs_R0. lra.
    - rewrite <- (Rabs_pos_eq a) at 3 by exact Pa. apply rnd_err_normal. rewrite (Rabs_pos_eq a) by exact Pa.
      assert (1 <= INR (S i)) by (apply (le_INR 1); lia).
      assert (s / 2 <= val step). { apply Rabs_le_inv in Es. unfold U in Es. lra. }
      apply Rle_trans with (s / 2). { apply Rle_trans with (bpow radix2 (-951)); [apply bpow_le; lia|]. change (-951)%Z with (-1 + -950)%Z. rewrite bpow_plus. change (bpow radix2 (-1)) with (/ 2). lra. }
      unfold a. rewrite <- (Rmult_1_l (s / 2)). apply Rmult_le_compat; lra. }
  assert (Is : 0 <= INR i * s <= D). { split; [apply Rmult_le_pos; lra|]. rewrite <- Ns. apply Rmult_le_compat_r; lra. }
  pose proof (near_one a (rnd a) (INR i * s) (proj1 Is) Pa Ea Er) as En.
  assert (BM : 2 * M <= 2 * bpow radix2 1000) by (fold M in HM; lra).
  assert (B : Rabs (rnd a) < bpow radix2 1024).
  { apply Rle_lt_trans with (2 * bpow radix2 1000); [|rewrite <- bpow_1001; apply bpow_big]. unfold U in En. apply Rabs_le_inv in En. apply Rabs_le. pose proof (bpow_gt_0 radix2 1000). lra. }
  destruct (fmul_val (f_of_Z (Z.of_nat i)) step Fi Fs) as [Fm Vm]; [rewrite Vi; exact B|]. rewrite Vi in Vm. fold a in Vm.
  set (y := fmul (f_of_Z (Z.of_nat i)) step) in *.
  pose proof (rnd_plus_err y lo) as Ep. rewrite Vm in Ep.
  assert (Bx : Rabs (val lo + INR i * s) <= M).
  { unfold M. pose proof (Rle_abs (val hi)). pose proof (Rle_abs (- val lo)) as X. rewrite Rabs_Ropp in X. pose proof (Rle_abs (val lo)). pose proof (Rabs_pos (val lo)). pose proof (Rabs_pos (val hi)). unfold D in Is. apply Rabs_le. lra. }
  assert (By : Rabs (rnd a + val lo) <= M + 5 * U * D).
  { replace (rnd a + val lo) with ((val lo + INR i * s) + (rnd a - INR i * s)) by ring. eapply Rle_trans; [apply Rabs_triang|]. apply Rplus_le_compat; [exact Bx|].
    eapply Rle_trans; [exact En|]. apply Rmult_le_compat_l; [unfold U; lra|apply Is]. }
  assert (Et : Rabs (rnd (rnd a + val lo) - (val lo + INR i * s)) <= 6 * U * M + (5 * U * U * M)).
  { replace (rnd (rnd a + val lo) - (val lo + INR i * s)) with ((rnd (rnd a + val lo) - (rnd a + val lo)) + (rnd a - INR i * s)) by ring.
    eapply Rle_trans; [apply Rabs_triang|].
    assert (U * Rabs (rnd a + val lo) <= U * (M + 5 * U * D)) by (apply Rmult_le_compat_l; [unfold U; lra|exact By]).
    assert (Rabs (rnd a - INR i * s) <= 5 * U * D). { eapply Rle_trans; [exact En|]. apply Rmult_le_compat_l; [unfold U; lra|apply Is]. }
    unfold U in *. lra. }
  assert (Bf : Rabs (rnd (val y + val lo)) < bpow radix2 1024).
  { rewrite Vm. apply Rle_lt_trans with (2 * bpow radix2 1000); [|rewrite <- bpow_1001; apply bpow_big].
    apply Rabs_le_inv in Et. apply Rabs_le_inv in Bx. unfold U in Et. apply Rabs_le. lra. }
  destruct (fadd_val y lo Fm Flo Bf) as [Ff Vf]. change (fadd y lo) with (point i) in Ff, Vf. rewrite Vm in Vf. split; [exact Ff|]. rewrite Vf. split.
  - unfold U in *. lra.
  - intros ->. unfold a. cbn [INR]. rewrite Rmult_0_l, rnd_0, Rplus_0_l. apply rnd_val.
Qed.

(** the edges: all of them but the last are points *)
Let edges := map (fun i => if Nat.eqb (S i) (S n) then hi else point i) (seq 0 (S n)).
Lemma linspace_points : f_linspace lo hi (S n) = edges.
Proof using All.
  unfold f_linspace, edges. replace (Z.of_nat (S n) - 1)%Z with (Z.of_nat n) by lia. fold delta. fold step.
  destruct step_val as (Fs & _ & Ps). assert (E : feq step fzero = false).
  { apply Bool.not_true_iff_false. rewrite feq_val by (assumption || reflexivity). cbn [B2R fzero]. change (val fzero) with 0. lra. }
  rewrite E. reflexivity.
Qed.
Lemma edges_nth i : (i <= n)%nat -> nth i edges fzero = if Nat.eqb i n then hi else point i.
Proof using All.
  intro H. unfold edges. set (f := fun i => if Nat.eqb (S i) (S n) then hi else point i). rewrite nth_indep with (d' := f 0%nat) by (rewrite map_length, seq_length; lia).
  rewrite (map_nth f), seq_nth by lia. reflexivity.
Qed.
Lemma edges_length : length edges = S n.
Proof using All. unfold edges. rewrite map_length. apply seq_length. Qed.
Lemma edge_val i : (i <= n)%nat -> finite (nth i edges fzero) /\ Rabs (val (nth i edges fzero) - (val lo + INR i * s)) <= 7 * U * M.
Proof using All.
  intro H. rewrite edges_nth by exact H. destruct (Nat.eqb_spec i n) as [->|N].
  - split; [exact Fhi|]. rewrite ns. replace (val hi - (val lo + D)) with 0 by (unfold D; ring). rewrite Rabs_R0. destruct edges_D. unfold U. lra.
  - destruct (point_val i) as (F & E & _); [lia|]. now split.
Qed.
Lemma small_error : 14 * U * M < s.
Proof using All.
  destruct edges_n as [N1 _]. apply Rmult_lt_reg_l with (INR n); [lra|]. rewrite ns. fold M D in Hnar. unfold U in *.
  replace (INR n * (14 * / 2 ^ 53 * M)) with (14 * / 2 ^ 53 * (INR n * M)) by ring. destruct edges_D. lra.
Qed.
Lemma vals_nth e i : nth i (vals e) 0 = val (nth i e fzero).
Proof using. unfold vals. change 0 with (val fzero). apply (map_nth (fun x => val x)). Qed.
Lemma vals_len e : length (vals e) = length e.
Proof using. unfold vals. apply map_length. Qed.
Lemma edges_correct : f_edges_ok edges.
Proof using All.
  split.
  - apply Forall_forall. intros x Hx. apply In_nth with (d := fzero) in Hx. destruct Hx as (i & Hi & <-). rewrite edges_length in Hi. apply edge_val. lia.
  - split; [|rewrite vals_len, edges_length; lia]. apply sorted_of_nth. rewrite vals_len, edges_length. intros i j Hij.
    rewrite !vals_nth. destruct (edge_val i) as [_ Ei]; [lia|]. destruct (edge_val j) as [_ Ej]; [lia|].
    apply Rabs_le_inv in Ei. apply Rabs_le_inv in Ej. pose proof small_error as Se. pose proof s_pos as Ps.
    assert (INR i * s + s <= INR j * s). { replace (INR i * s + s) with (INR (S i) * s) by (rewrite S_INR; ring). apply Rmult_le_compat_r; [lra|]. apply le_INR. lia. }
    lra.
Qed.
Lemma edges_first : val (nth 0 edges fzero) = val lo.
Proof using All.
  rewrite edges_nth by lia. destruct (Nat.eqb_spec 0 n) as [E|N]; [lia|]. apply point_val; [lia|reflexivity].
Qed.
Lemma edges_last : nth n edges fzero = hi.
Proof using All. rewrite edges_nth by lia. now rewrite Nat.eqb_refl. Qed.

Lemma bin_edges_all : exists e, f_bin_edges n (lo, hi) = Ok e /\ f_edges_ok e /\ length e = S n /\
  val (nth 0 e fzero) = val lo /\ nth n e fzero = hi /\
  forall i, (i <= n)%nat -> Rabs (val (nth i e fzero) - (val lo + INR i * ((val hi - val lo) / INR n))) <= (Rabs (val lo) + Rabs (val hi)) * / 2 ^ 50.
Proof using All.
  exists edges. split; [|split; [apply edges_correct|split; [apply edges_length|split; [apply edges_first|split; [apply edges_last|]]]]].
  - unfold f_bin_edges. rewrite (proj2 (flt_false hi lo Fhi Flo)) by lra. rewrite Flo, Fhi. cbn [negb andb].
    destruct (Nat.eqb_spec n 0) as [E|_]; [lia|].
    replace (feq lo hi) with false by (symmetry; apply Bool.not_true_iff_false; rewrite feq_val by assumption; lra).
    now rewrite linspace_points.
  - intros i Hi. destruct (edge_val i Hi) as [_ E]. fold D. fold s. fold M. eapply Rle_trans; [exact E|]. destruct edges_D. unfold U. lra.
Qed.

(** away from the inner edges the bins are those of the exact edges *)
Lemma same_bins_all e exact x k : f_bin_edges n (lo, hi) = Ok e -> uniform_edges n (val lo, val hi) exact -> finite x ->
  (forall i, (0 < i < n)%nat -> (Rabs (val lo) + Rabs (val hi)) * / 2 ^ 50 < Rabs (val x - (val lo + INR i * ((val hi - val lo) / INR n)))) ->
  in_bin (vals e) k (val x) <-> in_bin exact k (val x).
Proof using All.
  intros He [Le Ue] Fx Hx. destruct bin_edges_all as (e' & E' & Oe & Ln & E0 & En & Ee). rewrite He in E'. injection E' as <-.
  cbn [fst snd] in Ue. unfold in_bin. rewrite !vals_len, Ln, Le.
  assert (C : forall j, (j <= n)%nat -> (nth j (vals e) 0 <= val x <-> nth j exact 0 <= val x) /\ (val x = nth n (vals e) 0 <-> val x = nth n exact 0)).
  { assert (L0 : nth 0 (vals e) 0 = nth 0 exact 0) by (rewrite vals_nth, E0, Ue by lia; cbn [INR]; ring).
    assert (L1 : nth n (vals e) 0 = nth n exact 0). { rewrite vals_nth, En, Ue by lia. destruct edges_n. field. lra. }
    intros j Hj. split; [|rewrite L1; tauto].
    destruct (Nat.eq_dec j 0) as [->|J0]; [rewrite L0; tauto|]. destruct (Nat.eq_dec j n) as [->|Jn]; [rewrite L1; tauto|].
    rewrite vals_nth, Ue by exact Hj. specialize (Ee j Hj). assert (Jr : (0 < j < n)%nat) by lia. specialize (Hx j Jr).
    set (c := val lo + INR j * ((val hi - val lo) / INR n)) in *. set (b := (Rabs (val lo) + Rabs (val hi)) * / 2 ^ 50) in *.
    apply Rabs_le_inv in Ee. unfold Rabs in Hx. destruct (Rcase_abs (val x - c)); lra. }
  split; intros (A & B & Q); (split; [exact A|]); (split; [apply C; [lia|exact B]|]).
  - destruct Q as [Q|[Q1 Q2]]; [left|right; split; [exact Q1|]].
    + apply Rnot_le_lt. intro X. apply (proj1 (C (S k) ltac:(lia))) in X. lra.
    + assert (Ek : S k = n) by lia. rewrite Ek in Q2 |- *. apply (C 0%nat); [lia|exact Q2].
  - destruct Q as [Q|[Q1 Q2]]; [left|right; split; [exact Q1|]].
    + apply Rnot_le_lt. intro X. apply (proj1 (C (S k) ltac:(lia))) in X. lra.
    + assert (Ek : S k = n) by lia. rewrite Ek in Q2 |- *. apply (C 0%nat); [lia|exact Q2].
Qed.
End edges.

(** the centers lie in the bins *)
Lemma rnd_double (a : f64) : rnd (2 * val a) = 2 * val a.
Proof.
  apply round_generic; auto with typeclass_instances. replace (2 * val a) with (val a * bpow radix2 1) by (change (bpow radix2 1) with 2; ring).
  apply mult_bpow_pos_exact_FLT; [|lia]. apply (generic_format_B2R 53 1024).
Qed.
Lemma center_between a b : finite a -> finite b -> val a <= val b -> Rabs (val a) + Rabs (val b) <= bpow radix2 1000 ->
  finite (fdiv (fadd a b) (f_of_Z 2)) /\ val a <= val (fdiv (fadd a b) (f_of_Z 2)) <= val b.
Proof.
  intros Fa Fb H HM.
  assert (L : 2 * val a <= rnd (val a + val b) <= 2 * val b).
  { rewrite <- (rnd_double a), <- (rnd_double b). split; apply rnd_le; lra. }
  pose proof (Rle_abs (val b)). pose proof (Rle_abs (- val a)) as X. rewrite Rabs_Ropp in X. pose proof (Rabs_pos (val a)). pose proof (Rabs_pos (val b)). pose proof bpow_1001. pose proof bpow_big.
  destruct (fadd_val a b Fa Fb) as [F V]; [apply Rle_lt_trans with (2 * bpow radix2 1000); [apply Rabs_le; lra|lra]|].
  destruct (f_of_Z_val 2) as [F2 V2]; [lia|]. pose proof (rnd_val a) as Ra. pose proof (rnd_val b) as Rb.
  assert (L2 : val a <= rnd (val (fadd a b) / 2) <= val b).
  { rewrite V. split; [apply Rle_trans with (rnd (val a)); [lra|apply rnd_le; lra]|apply Rle_trans with (rnd (val b)); [apply rnd_le; lra|lra]]. }
  destruct (fdiv_val (fadd a b) (f_of_Z 2) F F2) as [Fd Vd]; [rewrite V2; lra|rewrite V2; apply Rle_lt_trans with (2 * bpow radix2 1000); [apply Rabs_le; lra|lra]|].
  rewrite V2 in Vd. split; [exact Fd|]. rewrite Vd. exact L2.
Qed.
Lemma centers_between e i a b c : f_edges_ok e -> Forall (fun x => Rabs (val x) <= bpow radix2 999) e ->
  nth_error e i = Some a -> nth_error e (S i) = Some b -> nth_error (f_centers e) i = Some c -> finite c /\ val a <= val c <= val b.
Proof.
  intros [Fe [Se _]]. revert i. induction e as [|x e IH]; intros i Hb Ha Hb' Hc; [destruct i; discriminate|]. destruct e as [|y e]; [destruct i as [|i]; [discriminate|destruct i; discriminate]|].
  change (f_centers (x :: y :: e)) with (fdiv (fadd x y) (f_of_Z 2) :: f_centers (y :: e)) in Hc.
  inversion Fe as [|? ? Fx Fe']; subst. inversion Hb as [|? ? Bx Bb']; subst. cbn [vals map] in Se. apply StronglySorted_inv in Se. destruct Se as [Se Fs].
  destruct i as [|i].
  - cbn in Ha, Hb', Hc. injection Ha as <-. injection Hb' as <-. injection Hc as <-. inversion Fs; subst. inversion Fe'; subst. inversion Bb'; subst.
    apply center_between; try assumption; [lra|]. change 1000%Z with (1 + 999)%Z. rewrite bpow_plus. change (bpow radix2 1) with 2. lra.
  - apply (IH Fe' Se i Bb' Ha Hb' Hc).
Qed.
