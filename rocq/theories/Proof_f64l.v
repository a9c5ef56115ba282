(** Cases for the float64 grids and bins *)
From Coq Require Import Lia Lra Reals ZArith Sorted.
From Verif Require Import PyBase Model_f64 Model_f64grid Spec_box Spec_hist Spec_f64 Spec_f64grid Proof_hist Proof_f64 Proof_f64b Proof_f64i Proof_f64j Proof_f64k.
From Flocq Require Import Core.Core IEEE754.BinarySingleNaN.
Open Scope R_scope.
Ltac Zify.zify_post_hook ::= idtac.

Lemma of_Z_small z : (Z.abs z <= 2 ^ 53)%Z -> finite (f_of_Z z) /\ val (f_of_Z z) = IZR z.
Proof. apply f_of_Z_val. Qed.
Lemma big_1000 : 1000 <= bpow radix2 999 /\ 1000 <= bpow radix2 1000.
Proof. split; (apply Rle_trans with (bpow radix2 10); [change (bpow radix2 10) with 1024; lra|apply bpow_le; lia]). Qed.
Lemma tiny_900 : bpow radix2 (-900) <= 1.
Proof. change 1 with (bpow radix2 0). apply bpow_le. lia. Qed.

(** range (-1, 3), steps of 1.5 *)
Lemma stepsize_case : let lo := f_of_Z (-1) in let hi := f_of_Z 3 in let s := fmake 3 (-1) in
  finite lo /\ finite hi /\ finite s /\ val lo < val hi /\ bpow radix2 (-900) <= val s /\
  Rabs (val lo) + Rabs (val hi) + val s <= bpow radix2 1000 /\ / 2 ^ 50 <= (val hi - val lo) / val s <= 2 ^ 49 /\
  is_ceil ((val hi - val lo) / val s) 3 /\ (forall i, (val hi - val lo) / val s * / 2 ^ 51 < Rabs ((val hi - val lo) / val s - IZR i)) /\
  match f_from_stepsize (lo, hi) s false with Ok (n, (_, last)) => n = 4%Z /\ feq last (fmake 7 (-1)) = true | Err _ => False end.
Proof.
  cbv zeta. destruct (of_Z_small (-1)) as [F1 V1]; [lia|]. destruct (of_Z_small 3) as [F2 V2]; [lia|]. destruct (fmake_val 3 (-1)) as [F3 V3]; [lia..|].
  change (bpow radix2 (-1)) with (/ 2) in V3. rewrite V1, V2, V3. destruct big_1000 as [_ B]. pose proof tiny_900 as T.
  split; [exact F1|]. split; [exact F2|]. split; [exact F3|]. split; [lra|]. split; [lra|].
  split. { rewrite Rabs_left by lra. rewrite Rabs_pos_eq by lra. lra. }
  assert (E : (3 - -1) / (3 * / 2) = 8 / 3) by field. rewrite E. split; [split; [lra|]|].
  { apply Rle_trans with 4; [lra|]. rewrite (pow_val 49). apply IZR_le. lia. }
  split; [unfold is_ceil; lra|]. split.
  - intro i. assert (H : (i <= 2 \/ 3 <= i)%Z) by lia. destruct H as [H|H]; apply IZR_le in H.
    + rewrite Rabs_pos_eq by lra. lra.
    + rewrite Rabs_left by lra. lra.
  - rewrite (from_stepsize_eq (f_of_Z (-1)) (f_of_Z 3) (fmake 3 (-1)) 3); [|vm_compute; reflexivity..]. split; [reflexivity|vm_compute; reflexivity].
Qed.

(** range (-1, 2) with 3 bins; 0.5 is in the second one *)
Lemma bins_case : let lo := f_of_Z (-1) in let hi := f_of_Z 2 in
  finite lo /\ finite hi /\ val lo < val hi /\ bpow radix2 (-900) <= val hi - val lo /\ Rabs (val lo) + Rabs (val hi) <= bpow radix2 1000 /\
  INR 3 * (Rabs (val lo) + Rabs (val hi)) <= 2 ^ 49 * (val hi - val lo) /\
  uniform_edges 3 (val lo, val hi) [-1; 0; 1; 2] /\
  (forall i, (0 < i < 3)%nat -> (Rabs (val lo) + Rabs (val hi)) * / 2 ^ 50 < Rabs (val fhalf - (val lo + INR i * ((val hi - val lo) / INR 3)))) /\
  in_bin [-1; 0; 1; 2] 1 (val fhalf).
Proof.
  cbv zeta. destruct (of_Z_small (-1)) as [F1 V1]; [lia|]. destruct (of_Z_small 2) as [F2 V2]; [lia|]. destruct (fmake_val 1 (-1)) as [F3 V3]; [lia..|].
  change (bpow radix2 (-1)) with (/ 2) in V3. fold fhalf in F3, V3. rewrite V1, V2, V3. destruct big_1000 as [_ B]. pose proof tiny_900 as T.
  assert (A : Rabs (-1) + Rabs 2 = 3) by (rewrite Rabs_left by lra; rewrite Rabs_pos_eq by lra; lra). rewrite A.
  split; [exact F1|]. split; [exact F2|]. split; [lra|]. split; [lra|]. split; [lra|]. cbn [INR].
  split. { replace (2 - -1) with 3 by lra. apply Rle_trans with (2 ^ 4 * 3); [lra|]. apply Rmult_le_compat_r; [lra|]. apply Rle_pow; [lra|lia]. }
  split. { split; [reflexivity|]. cbn [fst snd]. intros i Hi. destruct i as [|[|[|[|i]]]]; [..|lia]; cbn [nth INR]; field. }
  split. { intros i Hi. destruct i as [|[|[|i]]]; [lia| | |lia]; cbn [INR].
    - replace (1 * / 2 - (-1 + 1 * ((2 - -1) / (1 + 1 + 1)))) with (/ 2) by field. rewrite Rabs_pos_eq by lra. lra.
    - replace (1 * / 2 - (-1 + (1 + 1) * ((2 - -1) / (1 + 1 + 1)))) with (- / 2) by field. rewrite Rabs_left by lra. lra. }
  split; [cbn; lia|]. cbn [nth]. split; [lra|left; lra].
Qed.

(** counting four samples, one of them infinite, one a nan *)
Definition demo_edges : list (list f64) := [[f_of_Z (-1); fzero; f_of_Z 2]].
Definition demo_samples : list (list f64) := [[fhalf]; [f_of_Z 2]; [finf]; [B754_nan]].
Lemma demo_edges_ok : Forall f_edges_ok demo_edges.
Proof.
  constructor; [|constructor]. destruct (of_Z_small (-1)) as [F1 V1]; [lia|]. destruct (of_Z_small 2) as [F2 V2]; [lia|].
  split; [repeat constructor; assumption|]. split; [|cbn; lia]. cbn [vals map]. rewrite V1, V2. change (val fzero) with 0. repeat constructor; lra.
Qed.
Lemma add_case : Forall f_edges_ok demo_edges /\ Forall (fun s => length s = length demo_edges) demo_samples /\
  length [f_of_Z 5; f_of_Z 7] = n_cells (map vals demo_edges) /\ cell_ok (map vals demo_edges) [1%nat] /\
  is_count (nth (cell_pos (map vals demo_edges) [1%nat]) [f_of_Z 5; f_of_Z 7] fzero) 7 /\
  counts (f_in_cell demo_edges [1%nat]) demo_samples 2 /\
  match f_hist_add demo_edges [f_of_Z 5; f_of_Z 7] demo_samples with Ok [a; b] => (feq a (f_of_Z 5) && feq b (f_of_Z 9))%bool = true | _ => False end.
Proof.
  split; [exact demo_edges_ok|]. split; [repeat constructor|]. split; [reflexivity|]. split; [repeat constructor|].
  split. { change (nth (cell_pos (map vals demo_edges) [1%nat]) [f_of_Z 5; f_of_Z 7] fzero) with (f_of_Z 7). destruct (of_Z_small 7) as [F V]; [lia|]. split; [exact F|]. rewrite V. cbn [INR]. lra. }
  split.
  - destruct (of_Z_small (-1)) as [F1 V1]; [lia|]. destruct (of_Z_small 2) as [F2 V2]; [lia|]. destruct (fmake_val 1 (-1)) as [F3 V3]; [lia..|].
    change (bpow radix2 (-1)) with (/ 2) in V3. fold fhalf in F3, V3.
    constructor 2. { split; [repeat constructor; exact F3|]. cbn [demo_edges vals map]. rewrite V1, V2, V3. change (val fzero) with 0. constructor; [|constructor]. split; [cbn; lia|]. cbn [nth]. split; [lra|left; lra]. }
    constructor 2. { split; [repeat constructor; exact F2|]. cbn [demo_edges vals map]. rewrite V1, V2. change (val fzero) with 0. constructor; [|constructor]. split; [cbn; lia|]. cbn [nth]. split; [lra|right; split; [reflexivity|lra]]. }
    constructor 3. { intros [F _]. inversion F as [|? ? X _]. discriminate X. }
    constructor 3. { intros [F _]. inversion F as [|? ? X _]. discriminate X. }
    constructor.
  - vm_compute. reflexivity.
Qed.

(** 2^53 counts and one more *)
Lemma saturated : exists data data', data = [f_of_Z (2 ^ 53); fzero] /\ f_hist_add demo_edges data [[f_of_Z (-1)]] = Ok data' /\
  counts (f_in_cell demo_edges [0%nat]) [[f_of_Z (-1)]] 1 /\ val (nth 0 data' fzero) = 2 ^ 53.
Proof.
  exists [f_of_Z (2 ^ 53); fzero], (fmap2 fadd [f_of_Z (2 ^ 53); fzero] [f_of_Z 1; f_of_Z 0]). split; [reflexivity|].
  destruct (of_Z_small (-1)) as [F1 V1]; [lia|]. destruct (of_Z_small 2) as [F2 V2]; [lia|]. destruct (of_Z_small (2 ^ 53)) as [F3 V3]; [lia|].
  split; [|split].
  - unfold f_hist_add. assert (E : f_histogramdd demo_edges [[f_of_Z (-1)]] = Ok (map (fun c => f_of_Z (Z.of_nat c)) [1; 0]%nat)).
    { unfold f_histogramdd. replace (forallb f_increasing demo_edges) with true by (vm_compute; reflexivity). cbn [length forallb demo_edges Nat.eqb negb andb].
      do 2 f_equal. }
    rewrite E. reflexivity.
  - constructor 2; [|constructor]. split; [repeat constructor; exact F1|]. cbn [demo_edges vals map]. rewrite V1, V2. change (val fzero) with 0. constructor; [|constructor]. split; [cbn; lia|]. cbn [nth]. split; [lra|left; lra].
  - cbn [nth fmap2]. replace (2 ^ 53) with (IZR (2 ^ 53)) by (rewrite (pow_val 53); reflexivity). rewrite <- V3. apply feq_val; [vm_compute; reflexivity|exact F3|vm_compute; reflexivity].
Qed.

Lemma centers_case : f_edges_ok [f_of_Z (-1); fzero; f_of_Z 2] /\ Forall (fun x => Rabs (val x) <= bpow radix2 999) [f_of_Z (-1); fzero; f_of_Z 2] /\
  nth_error (f_centers [f_of_Z (-1); fzero; f_of_Z 2]) 1 <> None.
Proof.
  split; [pose proof demo_edges_ok as H; now inversion H|]. split; [|discriminate].
  destruct (of_Z_small (-1)) as [F1 V1]; [lia|]. destruct (of_Z_small 2) as [F2 V2]; [lia|]. destruct big_1000 as [B _].
  constructor; [rewrite V1, Rabs_left by lra; lra|]. constructor; [change (val fzero) with 0; rewrite Rabs_R0; lra|]. constructor; [rewrite V2, Rabs_pos_eq by lra; lra|constructor].
Qed.
