(** Counting in bins of float64 edges *)
From Coq Require Import Lia Lra Reals ZArith Sorted.
From Verif Require Import PyBase Model_f64 Model_f64grid Model_hist Spec_box Spec_hist Spec_f64 Spec_f64grid Proof_hist Proof_f64.
From Flocq Require Import Core.Core IEEE754.BinarySingleNaN.
Open Scope R_scope.
Ltac Zify.zify_post_hook ::= idtac.

Lemma feq_val x y : finite x -> finite y -> (feq x y = true <-> val x = val y).
Proof.
  intros Hx Hy. unfold feq. rewrite Beqb_correct by assumption. split; intros H.
  - destruct (Req_bool_spec (val x) (val y)); [assumption|discriminate].
  - apply Req_bool_true. exact H.
Qed.

Lemma filter_vals e x : Forall finite e -> finite x ->
  length (filter (fun a => fle a x) e) = length (filter (fun a => if Rle_dec a (val x) then true else false) (vals e)).
Proof.
  intros He Hx. induction He as [|a e Ha He IH]; [reflexivity|]. cbn [filter vals map]. fold (vals e).
  pose proof (fle_val a x Ha Hx) as F. destruct (fle a x), (Rle_dec (val a) (val x)) as [H|H]; cbn [length]; rewrite IH; try reflexivity.
  - exfalso. apply H, F. reflexivity.
  - exfalso. assert (X : false = true) by (apply F; exact H). discriminate X.
Qed.

Lemma finite_not_nan x : finite x -> is_nan x = false.
Proof. destruct x; try reflexivity; discriminate. Qed.

Lemma last_vals e : e <> [] -> last (vals e) 0 = val (last e fzero).
Proof.
  intro H. induction e as [|a e IH]; [contradiction|]. destruct e as [|b e]; [reflexivity|].
  change (last (vals (a :: b :: e)) 0) with (last (vals (b :: e)) 0). rewrite IH by discriminate. reflexivity.
Qed.
Lemma last_finite e : Forall finite e -> finite (last e fzero).
Proof. intro H. induction H as [|a e Ha He IH]; [reflexivity|]. destruct e; [exact Ha|exact IH]. Qed.

(** finite numbers are put into the same bins as the real numbers *)
Lemma f_bin_of_vals e x : Forall finite e -> e <> [] -> finite x -> f_bin_of e x = bin_of (vals e) (val x).
Proof.
  intros He Hn Hx. unfold f_bin_of, bin_of, f_searchsorted_right, searchsorted_right.
  rewrite (finite_not_nan x Hx), (filter_vals e x He Hx), (last_vals e Hn).
  pose proof (feq_val x (last e fzero) Hx (last_finite e He)) as F. replace (length (vals e)) with (length e) by (unfold vals; now rewrite map_length).
  replace (if feq x (last e fzero) then _ else _)%nat with
    (if Req_EM_T (val x) (val (last e fzero)) then (length (filter (fun a => if Rle_dec a (val x) then true else false) (vals e)) - 1)%nat
     else length (filter (fun a => if Rle_dec a (val x) then true else false) (vals e))).
  - reflexivity.
  - destruct (feq x (last e fzero)), (Req_EM_T (val x) (val (last e fzero))) as [H|H]; try reflexivity.
    + exfalso. apply H, F. reflexivity.
    + exfalso. assert (X : false = true) by (apply F; exact H). discriminate X.
Qed.
Lemma filter_all {A} (f : A -> bool) l : (forall x, In x l -> f x = true) -> filter f l = l.
Proof. induction l as [|a l IH]; intro H; [reflexivity|]. cbn [filter]. rewrite (H a) by now left. f_equal. apply IH. intros; apply H; now right. Qed.
Lemma filter_none {A} (f : A -> bool) l : (forall x, In x l -> f x = false) -> filter f l = [].
Proof. induction l as [|a l IH]; intro H; [reflexivity|]. cbn [filter]. rewrite (H a) by now left. apply IH. intros; apply H; now right. Qed.
(** infinite numbers and nan into none *)
Lemma f_bin_of_infinite e x : Forall finite e -> ~ finite x -> f_bin_of e x = None.
Proof.
  intros He Hx. unfold f_bin_of, f_searchsorted_right.
  assert (E : feq x (last e fzero) = false).
  { pose proof (last_finite e He) as L. destruct x as [|b| |]; try (exfalso; apply Hx; reflexivity); [|reflexivity].
    destruct (last e fzero); try discriminate L; destruct b; reflexivity. }
  rewrite E. destruct x as [s|s| |s m ex Hb]; try (exfalso; apply Hx; reflexivity).
  - cbn [is_nan]. destruct s.
    + rewrite filter_none; [reflexivity|]. intros a Ha. rewrite Forall_forall in He. specialize (He a Ha). destruct a as [| | |[|] ? ? ?]; try discriminate He; reflexivity.
    + rewrite filter_all; [|intros a Ha; rewrite Forall_forall in He; specialize (He a Ha); destruct a as [| | |[|] ? ? ?]; try discriminate He; reflexivity].
      destruct (Nat.eqb (length e) 0); [reflexivity|]. now rewrite Nat.leb_refl.
  - cbn [is_nan]. destruct (Nat.eqb (length e) 0); [reflexivity|]. now rewrite Nat.leb_refl.
Qed.

Lemma edges_nonempty e : edges_ok (vals e) -> e <> [].
Proof. intros [_ H] ->. cbn in H. lia. Qed.

Lemma f_flat_index_vals edges : Forall f_edges_ok edges -> forall acc s, Forall finite s -> f_flat_index acc edges s = flat_index acc (map vals edges) (vals s).
Proof.
  induction 1 as [|e es [Fe Oe] _ IH]; intros acc s Hs; [reflexivity|]. destruct Hs as [|x s Hx Hs]; [reflexivity|].
  cbn [f_flat_index flat_index map vals]. rewrite (f_bin_of_vals e x Fe (edges_nonempty e Oe) Hx). fold (vals e).
  destruct (bin_of (vals e) (val x)) as [i|]; [|reflexivity]. rewrite IH by exact Hs. replace (length (vals e)) with (length e) by (unfold vals; now rewrite map_length). reflexivity.
Qed.
Lemma finite_dec x : {finite x} + {~ finite x}.
Proof. unfold finite. destruct (is_finite x); [now left|right; discriminate]. Qed.
Lemma f_flat_index_infinite edges : Forall f_edges_ok edges -> forall acc s, length s = length edges -> ~ Forall finite s -> f_flat_index acc edges s = None.
Proof.
  induction 1 as [|e es [Fe Oe] _ IH]; intros acc s Hl Hs.
  - destruct s; [exfalso; apply Hs; constructor|discriminate Hl].
  - destruct s as [|x s]; [discriminate Hl|]. cbn [f_flat_index]. destruct (finite_dec x) as [Hx|Hx].
    + destruct (f_bin_of e x) as [i|]; [|reflexivity]. apply IH; [now injection Hl|]. intro F. apply Hs. now constructor.
    + rewrite (f_bin_of_infinite e x Fe Hx). reflexivity.
Qed.

Lemma f_flat_index_spec edges s k : Forall f_edges_ok edges -> length s = length edges ->
  (f_flat_index 0 edges s = Some k <-> exists idx, f_in_cell edges idx s /\ k = row_major 0 (map vals edges) idx).
Proof.
  intros He Hl. assert (Oe : Forall edges_ok (map vals edges)).
  { apply Forall_forall. intros e Hi. apply in_map_iff in Hi. destruct Hi as (e' & <- & Hi). rewrite Forall_forall in He. apply (He e' Hi). }
  destruct (Forall_dec finite finite_dec s) as [F|N].
  - rewrite (f_flat_index_vals edges He 0 s F), (flat_index_spec (map vals edges) Oe).
    + unfold f_in_cell. split; intros (idx & H & E); exists idx; tauto.
    + unfold vals. now rewrite !map_length.
  - rewrite (f_flat_index_infinite edges He 0 s Hl N). split; [discriminate|]. intros (idx & [F _] & _). contradiction.
Qed.

(** counting *)
Lemma f_bincount_length edges samples d : length (f_bincount edges samples d) = length d.
Proof.
  revert d; induction samples as [|s ss IH]; intros d; cbn; [reflexivity|].
  unfold f_bincount in IH. rewrite IH. destruct (f_flat_index 0 edges s); [apply incr_length|reflexivity].
Qed.
Lemma f_bincount_nth edges samples : forall d j, (j < length d)%nat ->
  exists c, counts (fun s => f_flat_index 0 edges s = Some j) samples c /\ nth j (f_bincount edges samples d) 0%nat = (nth j d 0 + c)%nat.
Proof.
  induction samples as [|s ss IH]; intros d j Hj; cbn [f_bincount fold_left].
  - exists 0%nat. split; [constructor|lia].
  - destruct (f_flat_index 0 edges s) as [k|] eqn:E.
    + destruct (IH (f_incr d k) j) as (c & Hc & Hn); [change f_incr with incr; now rewrite incr_length|].
      change (nth j (f_incr d k) 0%nat) with (nth j (incr d k) 0%nat) in Hn. rewrite incr_nth in Hn by exact Hj. unfold f_bincount in Hn. destruct (Nat.eqb_spec k j) as [->|N].
      * exists (S c). split; [constructor; [exact E|exact Hc]|]. rewrite Hn. lia.
      * exists c. split; [constructor 3; [congruence|exact Hc]|]. rewrite Hn. lia.
    + destruct (IH d j Hj) as (c & Hc & Hn). exists c. split; [constructor 3; [congruence|exact Hc]|exact Hn].
Qed.

Lemma f_increasing_ok e : f_edges_ok e -> f_increasing e = true.
Proof.
  intros [Fe [Se _]]. induction Fe as [|a e Ha Fe IH]; [reflexivity|]. destruct e as [|b e]; [reflexivity|].
  change (f_increasing (a :: b :: e)) with (negb (flt b a) && f_increasing (b :: e))%bool.
  apply StronglySorted_inv in Se. destruct Se as [Se Fa]. rewrite IH by exact Se. rewrite Bool.andb_true_r.
  apply Bool.negb_true_iff. apply Bool.not_true_iff_false. rewrite flt_val; [|now inversion Fe|exact Ha].
  inversion Fa as [|? ? H _]; subst. lra.
Qed.

Lemma f_n_bins_cells edges : fold_right Nat.mul 1%nat (f_n_bins edges) = n_cells (map vals edges).
Proof. induction edges as [|e es IH]; [reflexivity|]. cbn [n_cells map f_n_bins fold_right]. replace (length (vals e)) with (length e) by (unfold vals; now rewrite map_length). f_equal. exact IH. Qed.

Lemma counts_bound {A} (P : A -> Prop) l c : counts P l c -> (c <= length l)%nat.
Proof. induction 1; cbn [length]; lia. Qed.

(** every cell counts its samples, finite or not *)
Lemma f_counting edges samples : Forall f_edges_ok edges -> Forall (fun s => length s = length edges) samples ->
  exists tmp, f_histogramdd edges samples = Ok (map (fun c => f_of_Z (Z.of_nat c)) tmp) /\ length tmp = n_cells (map vals edges) /\
    forall idx, cell_ok (map vals edges) idx -> exists c, counts (f_in_cell edges idx) samples c /\ nth (cell_pos (map vals edges) idx) tmp 0%nat = c.
Proof.
  intros He Hs. unfold f_histogramdd.
  replace (forallb (fun s => Nat.eqb (length s) (length edges)) samples) with true.
  2: { symmetry. apply forallb_forall. intros s Hi. rewrite Forall_forall in Hs. apply Nat.eqb_eq. now apply Hs. }
  replace (forallb f_increasing edges) with true.
  2: { symmetry. apply forallb_forall. intros e Hi. rewrite Forall_forall in He. apply f_increasing_ok. now apply He. }
  cbn [negb]. rewrite f_n_bins_cells. eexists. split; [reflexivity|]. split; [rewrite f_bincount_length; apply repeat_length|].
  intros idx Hi. pose proof (row_major_lt (map vals edges) idx Hi) as L.
  destruct (f_bincount_nth edges samples (repeat 0%nat (n_cells (map vals edges))) (cell_pos (map vals edges) idx)) as (c & Hc & Hn).
  { rewrite repeat_length. exact L. }
  exists c. split.
  - revert Hc. apply counts_ext. intros s Hin. rewrite Forall_forall in Hs. rewrite (f_flat_index_spec edges s _ He (Hs s Hin)). split.
    + intros (idx' & Hc & E). assert (idx' = idx) as ->; [|exact Hc]. apply (row_major_inj (map vals edges)); [|exact Hi|symmetry; exact E].
      destruct Hc as [_ Hc]. eapply in_cell_ok; exact Hc.
    + intro Hc. exists idx. split; [exact Hc|reflexivity].
  - rewrite Hn. rewrite nth_repeat. reflexivity.
Qed.

(** adding is exact as long as there are at most 2^53 counts *)
Lemma fmap2_nth f a b i x y : nth_error a i = Some x -> nth_error b i = Some y -> nth_error (fmap2 f a b) i = Some (f x y).
Proof. revert b i. induction a as [|u a IH]; intros [|v b] [|i]; cbn; try discriminate; [intros [= ->] [= ->]; reflexivity|apply IH]. Qed.
Lemma fmap2_length f a b : length a = length b -> length (fmap2 f a b) = length a.
Proof. revert b. induction a as [|u a IH]; intros [|v b] H; cbn in *; try discriminate; [reflexivity|]. f_equal. apply IH. now injection H. Qed.

Lemma add_counts_exact x y n m : is_count x n -> is_count y m -> (Z.of_nat n + Z.of_nat m <= 2 ^ 53)%Z -> is_count (fadd x y) (n + m).
Proof.
  intros [Fx Vx] [Fy Vy] H. assert (E : val x + val y = IZR (Z.of_nat n + Z.of_nat m)) by (rewrite Vx, Vy, !INR_IZR_INZ, plus_IZR; reflexivity).
  assert (Q : rnd (val x + val y) = IZR (Z.of_nat n + Z.of_nat m)) by (rewrite E; apply rnd_IZR; lia).
  destruct (fadd_val x y Fx Fy) as [F V].
  { rewrite Q. rewrite <- abs_IZR. apply Rle_lt_trans with (IZR (2 ^ 53)); [apply IZR_le; lia|].
    change (2 ^ 53)%Z with (Zpower radix2 53). rewrite IZR_Zpower by discriminate. apply bpow_lt. lia. }
  split; [exact F|]. rewrite V, Q, INR_IZR_INZ. f_equal. lia.
Qed.

Lemma hist_add_exact edges data samples : Forall f_edges_ok edges -> Forall (fun s => length s = length edges) samples ->
  length data = n_cells (map vals edges) ->
  exists data', f_hist_add edges data samples = Ok data' /\ length data' = length data /\
    forall idx n, cell_ok (map vals edges) idx -> is_count (nth (cell_pos (map vals edges) idx) data fzero) n ->
      (Z.of_nat n + Z.of_nat (length samples) <= 2 ^ 53)%Z ->
      exists c, counts (f_in_cell edges idx) samples c /\ is_count (nth (cell_pos (map vals edges) idx) data' fzero) (n + c).
Proof.
  intros He Hs Hd. destruct (f_counting edges samples He Hs) as (tmp & E & Lt & Ht). unfold f_hist_add. rewrite E. cbn [bind].
  eexists. split; [reflexivity|]. split; [apply fmap2_length; rewrite map_length; lia|].
  intros idx n Hi Hn Hb. destruct (Ht idx Hi) as (c & Hc & Ec). exists c. split; [exact Hc|].
  pose proof (row_major_lt (map vals edges) idx Hi) as L. fold (cell_pos (map vals edges) idx) in L. set (k := cell_pos (map vals edges) idx) in *.
  assert (A : nth_error data k = Some (nth k data fzero)) by (apply nth_error_nth'; lia).
  assert (B : nth_error (map (fun c => f_of_Z (Z.of_nat c)) tmp) k = Some (f_of_Z (Z.of_nat c))).
  { erewrite map_nth_error; [reflexivity|]. rewrite <- Ec. apply nth_error_nth'. lia. }
  pose proof (fmap2_nth fadd _ _ k _ _ A B) as C. rewrite (nth_error_nth _ _ _ C).
  pose proof (counts_bound _ _ _ Hc) as Bc. destruct (f_of_Z_val (Z.of_nat c)) as [F V]; [lia|].
  apply add_counts_exact; [exact Hn| |lia]. split; [exact F|]. now rewrite V, INR_IZR_INZ.
Qed.
