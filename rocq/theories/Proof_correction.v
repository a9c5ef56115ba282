(** The grids of the birth-death corrections *)
From Coq Require Import Lia Lra ZifyBool ZifyNat.
From Verif Require Import PyBase Model_dyn Model_grid Model_potgrid Model_corr Model_bd Spec_grid Spec_gridops Spec_bd Spec_smooth Spec_correction
  Proof_base Proof_grid Proof_grid2 Proof_dens Proof_smooth.
Ltac Zify.zify_post_hook ::= idtac.
Open Scope R_scope.

Lemma lookup_exact {A} : griddata_exact (@lookup_griddata A).
Proof.
  intros pts vals qs fill. unfold lookup_griddata. split; [apply map_length|]. intros ND Hl j k d Hj Hk E.
  rewrite (nth_map_in _ _ _ _ []) by assumption. rewrite <- E. clear E Hk k. revert vals j Hl Hj.
  induction ND as [|p pts Hp ND IH]; intros [|v vals] j Hl Hj; cbn in Hl, Hj; try lia.
  cbn [lookup_value]. destruct j as [|j]; cbn [nth].
  - destruct (list_eq_dec _ _ _); [reflexivity|contradiction].
  - destruct (list_eq_dec _ _ _) as [E|_]; [|apply IH; lia]. exfalso. apply Hp. rewrite E. apply nth_In. lia.
Qed.

(** ** distinct points *)
Lemma coordinate_inj r n i j : fst r < snd r -> (2 <= n)%nat -> coordinate r n i = coordinate r n j -> i = j.
Proof.
  intros Hr Hn. unfold coordinate. assert (0 < (snd r - fst r) / (INR n - 1)) as P.
  { apply Rdiv_lt_0_compat; [lra|]. apply le_INR in Hn. cbn in Hn. lra. }
  intros E. apply INR_eq. apply (Rmult_eq_reg_r ((snd r - fst r) / (INR n - 1))); lra.
Qed.
Lemma grid_point_inj ranges : forall ns i j, length ranges = length ns -> increasing ranges -> usable_points ns ->
  in_shape ns i -> in_shape ns j -> grid_point ranges ns i = grid_point ranges ns j -> i = j.
Proof.
  induction ranges as [|r ranges IH]; intros ns i j Hl Hi Hu Ii Ij E.
  - destruct ns; [|cbn in Hl; lia]. inversion Ii; inversion Ij; reflexivity.
  - destruct ns as [|n ns]; [cbn in Hl; lia|]. inversion Ii as [|? a ? i' A1 A2]; inversion Ij as [|? b ? j' B1 B2]; subst.
    inversion Hi; inversion Hu; subst. cbn [grid_point] in E. injection E as E1 E2. f_equal; [now apply (coordinate_inj r n)|].
    apply (IH ns); auto.
Qed.
Lemma points_nodup (g : grid R) : consistent g -> usable_points (g_npoints g) -> (g_ndim g <= 2)%nat -> increasing (g_ranges g) -> NoDup (points g).
Proof.
  intros Hc Hu Hd Hi. apply (NoDup_nth _ []). rewrite points_length by assumption. intros i j Li Lj E.
  destruct (flat_pos_surj _ _ Li) as (a & Ha & <-). destruct (flat_pos_surj _ _ Lj) as (b & Hb & <-).
  rewrite !points_row_major in E by assumption. f_equal. apply (grid_point_inj (g_ranges g) (g_npoints g)); auto. destruct Hc; congruence.
Qed.

(** ** sparsify *)
Fixpoint minimum (ns max_points : list nat) : list nat :=
  match ns, max_points with n :: ns', m :: ms => Nat.min n m :: minimum ns' ms | _, _ => [] end.
Lemma min_points_ok ns : forall ms, length ms = length ns -> min_points ns ms = Ok (minimum ns ms).
Proof.
  induction ns as [|n ns IH]; intros [|m ms] H; cbn in H; try lia; [reflexivity|]. cbn [min_points minimum]. rewrite IH by lia. cbn [bind].
  destruct (Nat.leb_spec n m); do 2 f_equal; lia.
Qed.
Lemma minimum_len ns : forall ms, length ms = length ns -> length (minimum ns ms) = length ns.
Proof. induction ns as [|n ns IH]; intros [|m ms] H; cbn in *; try lia. rewrite IH; lia. Qed.
Lemma minimum_usable ns : forall ms, usable_points ns -> usable_points ms -> usable_points (minimum ns ms).
Proof.
  induction ns as [|n ns IH]; intros [|m ms] H1 H2; cbn; try constructor; inversion H1; inversion H2; subst; [lia|]. now apply IH.
Qed.

Lemma sparsify_ok (gd : griddata_t R) nan g ranges ns v ms : griddata_exact gd -> grid_of g ranges ns v -> (length ns <= 2)%nat ->
  increasing ranges -> length ms = length ns -> usable_points ms ->
  exists h u, sparsify gd nan g ms = Ok h /\ grid_of h ranges (minimum ns ms) u /\
    forall idx idx', in_shape ns idx -> in_shape (minimum ns ms) idx' ->
      grid_point ranges ns idx = grid_point ranges (minimum ns ms) idx' -> entry (minimum ns ms) u idx' = entry ns v idx.
Proof.
  intros X G L2 Hi Lm Um. pose proof G as (Hl & Hu & Er & En & Ed & Es & Esh & Ef & Hv). set (ns' := minimum ns ms).
  assert (length ns' = length ns) as Ln by (apply minimum_len; assumption). assert (usable_points ns') as Hu' by (now apply minimum_usable).
  unfold sparsify. rewrite En, min_points_ok by assumption. cbn [bind]. fold ns'. rewrite Er.
  destruct (@new_grid R ranges ns') as (s & E & Rs & Ns & Ds & Ss); [lia|assumption|]. rewrite E. cbn [bind].
  assert (consistent s) as Cs by (split; congruence). assert (consistent g) as Cg by (split; congruence).
  unfold interpolate. destruct (X (points g) (a_flat (g_data g)) (points s) nan) as (XL & XV).
  destruct (set_data_grid_of ranges ns' s (arr_of_list (gd (points g) (a_flat (g_data g)) (points s) nan)) ltac:(lia) Hu' E) as (h & Eh & Gh).
  { cbn. rewrite XL, points_length by assumption. congruence. }
  cbn [a_flat arr_of_list] in Gh. exists h. eexists. split; [exact Eh|]. split; [exact Gh|]. intros idx idx' H1 H2 Ep.
  unfold entry. rewrite <- Ef. apply XV.
  - apply points_nodup; [assumption|congruence|lia|congruence].
  - rewrite points_length by assumption. congruence.
  - rewrite points_length by assumption. rewrite En. now apply flat_pos_lt.
  - rewrite points_length by assumption. rewrite Ns. now apply flat_pos_lt.
  - pose proof (points_row_major g idx Cg) as P1. pose proof (points_row_major s idx' Cs) as P2. rewrite En, Er, Ed in P1. rewrite Ns, Rs, Ds in P2.
    rewrite P1, P2 by (assumption || lia). exact Ep.
Qed.

(** ** scalar operand *)
Lemma arith_scalar (g : grid R) ranges ns v x op : grid_of g ranges ns v ->
  exists h, perform_arithmetic 0 g (OArr (mkArr [] [x])) op = Ok h /\ grid_of h ranges ns (map (fun y => op y x) v).
Proof.
  intros G. destruct (arith_number 0 g ranges ns v x op G) as (h & E & Gh). exists h. split; [|exact Gh]. rewrite <- E.
  unfold perform_arithmetic. destruct (copy_empty g); [|reflexivity]. cbn [bind].
  pose proof G as (_ & _ & _ & _ & _ & _ & Esh & Ef & Hv).
  unfold broadcast_op. cbn [a_shape rev]. rewrite Esh.
  replace (bcast_rev (rev ns) []) with (Some (rev ns)) by (destruct (rev ns); reflexivity). rewrite rev_involutive. cbn [bind]. do 2 f_equal.
  rewrite Ef. rewrite <- (list_is_indices 0 ns v Hv) at 1. rewrite map_map. apply map_ext_in. intros idx Hin. apply in_indices in Hin.
  rewrite clip_rev_same by now apply in_shape_rev. rewrite rev_involutive. unfold a_at. rewrite Esh, Ef, ravel_flat by assumption. cbn. reflexivity.
Qed.

(** ** positive values of the smoothed density *)
Lemma total_nonneg_in l : Forall (fun x => 0 <= x) l -> 0 <= total l.
Proof. induction 1; cbn; [lra|]. unfold total in *. lra. Qed.
Lemma nsum_nonneg s : forall f, (forall t, in_shape s t -> 0 <= f t) -> 0 <= nsum s f.
Proof.
  induction s as [|n s IH]; intros f H; cbn [nsum]; [apply H; constructor|]. apply total_nonneg_in. apply Forall_forall. intros x Hx.
  apply in_map_iff in Hx as (i & <- & Hi). apply in_seq in Hi. apply IH. intros t Ht. apply H. constructor; [lia|assumption].
Qed.
Lemma nsum_ge s : forall f i, in_shape s i -> (forall t, in_shape s t -> 0 <= f t) -> f i <= nsum s f.
Proof.
  induction s as [|n s IH]; intros f i Hi H.
  - inversion Hi; subst. cbn. lra.
  - inversion Hi as [|? a ? i' A1 A2]; subst. cbn [nsum]. apply Rle_trans with (nsum s (fun t => f (a :: t))).
    + apply (IH (fun t => f (a :: t))); [assumption|]. intros t Ht. apply H. constructor; assumption.
    + apply total_ge_one.
      * apply in_map_iff. exists a. split; [reflexivity|]. apply in_seq. lia.
      * apply Forall_forall. intros x Hx. apply in_map_iff in Hx as (j & <- & Hj). apply in_seq in Hj. apply nsum_nonneg. intros t Ht. apply H. constructor; [lia|assumption].
Qed.
Lemma cut_nonneg bw hi p q : Forall (fun b => 0 < b) bw -> 0 <= cut_kernel bw hi p q.
Proof. intros H. unfold cut_kernel. destruct (within _ _ _ _); [|lra]. left. now apply gauss_pos. Qed.
Lemma entry_pos ns v idx : Forall (fun x => 0 < x) v -> length v = size ns -> in_shape ns idx -> 0 < entry ns v idx.
Proof. intros P L H. unfold entry. rewrite Forall_forall in P. apply P, nth_In. rewrite L. now apply flat_pos_lt. Qed.

Lemma within_self bw : forall st p, length bw = length st -> length p = length st -> Forall (fun b => 0 < b) bw -> Forall (fun s => 0 < s) st ->
  within bw (khi bw st) (displaced (kshift bw st) p) p = true.
Proof.
  induction bw as [|b bw IH]; intros [|s st] [|x p] L1 L2 Hb Hs; cbn in L1, L2; try lia; [reflexivity|].
  inversion Hb as [|? ? B1 B2]; inversion Hs as [|? ? S1 S2]; subst. cbn [khi kshift displaced within].
  destruct (kcount_bounds b s B1 S1) as (K1 & K2). set (K := kcount b s) in *.
  assert (0 <= K / 2 <= K)%Z as (D1 & D2) by (split; [apply Z.div_pos; lia|apply Z.div_le_upper_bound; lia]).
  apply IZR_le in D1, D2. assert (0 <= IZR (K / 2) * s) by (apply Rmult_le_pos; lra). assert (IZR (K / 2) * s <= IZR K * s) by (apply Rmult_le_compat_r; lra).
  destruct (Rle_dec _ _); [|lra]. destruct (Rle_dec _ _); [|lra]. apply IH; auto; lia.
Qed.

Lemma grid_point_len ranges : forall ns i, length ranges = length ns -> in_shape ns i -> length (grid_point ranges ns i) = length ns.
Proof.
  induction ranges as [|r ranges IH]; intros [|n ns] i Hl Hi; cbn in Hl; try lia; [reflexivity|]. inversion Hi; subst. cbn. f_equal. apply IH; [lia|assumption].
Qed.

Lemma smoothing_positive g ranges ns v bw : grid_of g ranges ns v -> (length ns <= 2)%nat -> increasing ranges ->
  length bw = length ns -> Forall (fun b => 0 < b) bw -> Forall (fun x => 0 < x) v ->
  exists h w, dens_kernel_convolution g bw MSame = Ok h /\ grid_of h ranges ns w /\ Forall (fun x => 0 < x) w.
Proof.
  intros G L2 Hi Lb Hb Pv. destruct (smoothing_raw g ranges ns v bw G L2 Hi Lb Hb) as (h & w & E & Gh & Hw). cbv zeta in Hw.
  exists h, w. split; [assumption|]. split; [assumption|]. pose proof G as (Hl & Hu & _ & _ & _ & _ & _ & _ & Lv). pose proof Gh as (_ & _ & _ & _ & _ & _ & _ & _ & Lw).
  apply Forall_forall. intros x Hx. destruct (In_nth _ _ 0 Hx) as (m & Hm & <-). rewrite Lw in Hm. destruct (flat_pos_surj _ _ Hm) as (idx & Hidx & <-).
  change (0 < entry ns w idx). rewrite (Hw idx Hidx). unfold smoothed. apply Rmult_lt_0_compat; [|now apply volume_pos].
  set (f := fun k => entry ns v k * _). apply Rlt_le_trans with (f idx).
  - unfold f. apply Rmult_lt_0_compat; [now apply entry_pos|]. unfold cut_kernel. rewrite within_self; [now apply gauss_pos| | |assumption|].
    + rewrite spacings_len by assumption. assumption.
    + rewrite spacings_len by assumption. now apply grid_point_len.
    + now apply spacings_pos.
  - apply nsum_ge; [assumption|]. intros t Ht. unfold f. apply Rmult_le_pos; [left; now apply entry_pos|]. now apply cut_nonneg.
Qed.

(** ** the additive correction *)
Definition log_terms (w v : list R) : list R := map (fun xy => ln (fst xy / snd xy)) (combine w v).
Lemma log_terms_len w v n : length w = n -> length v = n -> length (log_terms w v) = n.
Proof. intros H1 H2. unfold log_terms. rewrite map_length, combine_length. lia. Qed.
Lemma log_terms_entry ns w v idx : length w = size ns -> length v = size ns -> in_shape ns idx ->
  entry ns (log_terms w v) idx = ln (entry ns w idx / entry ns v idx).
Proof.
  intros H1 H2 Hi. unfold log_terms, entry. rewrite (nth_map_in _ _ _ _ (0, 0)) by (rewrite combine_length, H1, H2, Nat.min_id; now apply flat_pos_lt).
  rewrite combine_nth by lia. reflexivity.
Qed.

Lemma existsb_min ns : existsb (fun n => Nat.ltb 101 n) ns = false -> minimum ns (repeat 101%nat (length ns)) = ns.
Proof.
  induction ns as [|n ns IH]; cbn [existsb]; [reflexivity|]. intros H. apply orb_false_iff in H as (H1 & H2). cbn [length repeat minimum]. rewrite IH by assumption.
  apply Nat.ltb_ge in H1. f_equal. lia.
Qed.
Lemma minimum_repeat ns m : minimum ns (repeat m (length ns)) = map (Nat.min m) ns.
Proof. induction ns as [|n ns IH]; [reflexivity|]. cbn [length repeat minimum map]. rewrite IH, Nat.min_comm. reflexivity. Qed.
Lemma usable_repeat m n : (2 <= m)%nat -> usable_points (repeat m n).
Proof. intros H. induction n; cbn; constructor; auto. Qed.

(** the correction before the number of points is reduced *)
Lemma additive_full g ranges ns v bw : grid_of g ranges ns v -> (length ns <= 2)%nat -> increasing ranges ->
  length bw = length ns -> Forall (fun b => 0 < b) bw -> Forall (fun x => 0 < x) v ->
  exists k w I c, dens_kernel_convolution g bw MSame = Ok k /\ grid_of k ranges ns w /\ Forall (fun x => 0 < x) w /\
    integral_is ns (spacings ranges ns) (map (fun xy => fst xy * snd xy) (combine (log_terms w v) v)) I /\
    grid_of c ranges ns (map (fun y => - y + I) (log_terms w v)) /\
    forall gd nan, calc_additive_correction gd nan g bw MSame =
      if existsb (fun n => Nat.ltb 101 n) ns then sparsify gd nan c (repeat 101%nat (length ns)) else Ok c.
Proof.
  intros G L2 Hi Lb Hb Pv. destruct (smoothing_positive g ranges ns v bw G L2 Hi Lb Hb Pv) as (k & w & E & Gk & Pw).
  pose proof G as (Hl & Hu & Er & En & Ed & Es & Esh & Ef & Hv). pose proof Gk as (_ & _ & Erk & Enk & Edk & Esk & Eshk & Efk & Hvk).
  destruct (arith_grid 0 k g ranges ns w v Rdiv Gk G) as (q & Eq & Gq).
  destruct (arith_self q ranges ns _ ln Gq) as (l & El & Gl). rewrite map_map in Gl. change (map _ (combine w v)) with (log_terms w v) in Gl.
  pose proof Gl as (_ & _ & _ & _ & _ & _ & Eshl & Efl & Hvl).
  destruct (nd_trapz_total ns (spacings ranges ns) (map (fun xy => fst xy * snd xy) (combine (log_terms w v) v))) as (I & HI).
  { now apply spacings_len. } { rewrite map_length, combine_length. lia. }
  destruct (arith_self l ranges ns _ Ropp Gl) as (n & Enn & Gn).
  destruct (arith_scalar n ranges ns _ I Rplus Gn) as (c & Ec & Gc). rewrite map_map in Gc.
  exists k, w, I, c. split; [assumption|]. split; [assumption|]. split; [assumption|]. split; [exact HI|]. split; [exact Gc|].
  intros gd nan. unfold calc_additive_correction. rewrite E. cbn [bind]. rewrite Eq. cbn [bind]. rewrite El. cbn [bind].
  rewrite broadcast_same by congruence. cbn [bind]. rewrite Eshl, Efl, Ef, Esk. unfold integral_is in HI. rewrite HI. cbn [bind].
  rewrite Enn. cbn [bind]. rewrite Ec. cbn [bind]. pose proof Gc as (_ & _ & _ & -> & -> & _). reflexivity.
Qed.

Lemma additive_spec (gd : griddata_t R) nan g ranges ns v bw : griddata_exact gd -> grid_of g ranges ns v -> (length ns <= 2)%nat -> increasing ranges ->
  length bw = length ns -> Forall (fun b => 0 < b) bw -> Forall (fun x => 0 < x) v ->
  exists k w I h u, dens_kernel_convolution g bw MSame = Ok k /\ grid_of k ranges ns w /\ Forall (fun x => 0 < x) w /\
    integral_is ns (spacings ranges ns) (map (fun xy => ln (fst xy / snd xy) * snd xy) (combine w v)) I /\
    calc_additive_correction gd nan g bw MSame = Ok h /\ grid_of h ranges (map (Nat.min 101) ns) u /\
    forall idx idx', in_shape ns idx -> in_shape (map (Nat.min 101) ns) idx' ->
      grid_point ranges ns idx = grid_point ranges (map (Nat.min 101) ns) idx' ->
      entry (map (Nat.min 101) ns) u idx' = - ln (entry ns w idx / entry ns v idx) + I.
Proof.
  intros X G L2 Hi Lb Hb Pv. destruct (additive_full g ranges ns v bw G L2 Hi Lb Hb Pv) as (k & w & I & c & E & Gk & Pw & HI & Gc & Hc).
  pose proof G as (Hl & Hu & _ & _ & _ & _ & _ & _ & Hv). pose proof Gk as (_ & _ & _ & _ & _ & _ & _ & _ & Hw).
  assert (forall idx, in_shape ns idx -> entry ns (map (fun y => - y + I) (log_terms w v)) idx = - ln (entry ns w idx / entry ns v idx) + I) as EN.
  { intros idx Hidx. rewrite <- log_terms_entry by assumption. unfold entry. rewrite (nth_map_in _ _ _ _ 0); [reflexivity|].
    rewrite (log_terms_len _ _ _ Hw Hv). now apply flat_pos_lt. }
  exists k, w, I. rewrite (Hc gd nan). rewrite <- minimum_repeat.
  assert (map (fun xy => ln (fst xy / snd xy) * snd xy) (combine w v) = map (fun xy => fst xy * snd xy) (combine (log_terms w v) v)) as ->.
  { unfold log_terms. clear. revert v. induction w as [|x w IH]; intros [|y v]; cbn; try reflexivity. now rewrite IH. }
  destruct (existsb _ ns) eqn:Ex.
  - destruct (sparsify_ok gd nan c ranges ns _ (repeat 101%nat (length ns)) X Gc L2 Hi) as (h & u & Eh & Gh & Hh); [apply repeat_length|apply usable_repeat; lia|].
    exists h, u. do 5 (split; [assumption|]). split; [exact Gh|]. intros idx idx' H1 H2 Ep. rewrite (Hh idx idx' H1 H2 Ep). now apply EN.
  - rewrite (existsb_min ns Ex). exists c. eexists. do 4 (split; [eassumption|]). split; [reflexivity|]. split; [exact Gc|].
    intros idx idx' H1 H2 Ep. assert (idx = idx') as -> by (now apply (grid_point_inj ranges ns)). now apply EN.
Qed.

Lemma multiplicative_spec (gd : griddata_t R) nan g ranges ns v bw : griddata_exact gd -> grid_of g ranges ns v -> (length ns <= 2)%nat -> increasing ranges ->
  length bw = length ns -> Forall (fun b => 0 < b) bw -> Forall (fun x => 0 < x) v ->
  exists k w h u, dens_kernel_convolution g bw MSame = Ok k /\ grid_of k ranges ns w /\ Forall (fun x => 0 < x) w /\
    multiplicative_grid gd nan g bw = Ok h /\ grid_of h ranges (map (Nat.min 101) ns) u /\
    forall idx idx', in_shape ns idx -> in_shape (map (Nat.min 101) ns) idx' ->
      grid_point ranges ns idx = grid_point ranges (map (Nat.min 101) ns) idx' ->
      entry (map (Nat.min 101) ns) u idx' = - ln (entry ns w idx).
Proof.
  intros X G L2 Hi Lb Hb Pv. destruct (smoothing_positive g ranges ns v bw G L2 Hi Lb Hb Pv) as (k & w & E & Gk & Pw).
  destruct (sparsify_ok gd nan k ranges ns w (repeat 101%nat (length ns)) X Gk L2 Hi) as (s & u & Es & Gs & Hs); [apply repeat_length|apply usable_repeat; lia|].
  rewrite minimum_repeat in *.
  destruct (arith_self s _ _ _ ln Gs) as (l & El & Gl). destruct (arith_self l _ _ _ Ropp Gl) as (h & Eh & Gh). rewrite map_map in Gh.
  exists k, w, h. eexists. split; [assumption|]. split; [assumption|]. split; [assumption|]. split.
  - unfold multiplicative_grid. rewrite E. cbn [bind]. pose proof Gk as (_ & _ & _ & _ & Edk & _). rewrite Edk, Es. cbn [bind]. rewrite El. exact Eh.
  - split; [exact Gh|]. intros idx idx' H1 H2 Ep. rewrite <- (Hs idx idx' H1 H2 Ep). unfold entry. rewrite (nth_map_in _ _ _ _ 0); [reflexivity|].
    pose proof Gs as (_ & _ & _ & _ & _ & _ & _ & _ & Ls). rewrite Ls. now apply flat_pos_lt.
Qed.

(** ** the trapezoidal sum of a positive normalised density is below one *)
Lemma trapz1_total d : forall l x, trapz1 d (x :: l) = d * (total (x :: l) - x / 2 - last (x :: l) 0 / 2).
Proof.
  induction l as [|y l IH]; intros x; [cbn; lra|]. change (trapz1 d (x :: y :: l)) with (d * (x + y) / 2 + trapz1 d (y :: l)). rewrite IH.
  change (last (x :: y :: l) 0) with (last (y :: l) 0). change (total (x :: y :: l)) with (x + total (y :: l)). lra.
Qed.
Lemma last_in {A} (l : list A) d : l <> [] -> In (last l d) l.
Proof. induction l as [|x [|y l] IH]; intros H; [congruence|now left|]. right. apply IH. discriminate. Qed.
Lemma trapz1_bounds d l : 0 < d -> (2 <= length l)%nat -> Forall (fun x => 0 < x) l -> 0 < trapz1 d l < d * total l.
Proof.
  intros Hd Hl Hp. destruct l as [|x l]; [cbn in Hl; lia|]. rewrite trapz1_total. inversion Hp as [|? ? P1 P2]; subst.
  destruct l as [|y l]; [cbn in Hl; lia|]. change (last (x :: y :: l) 0) with (last (y :: l) 0). set (z := last (y :: l) 0).
  assert (In z (y :: l)) as I by (apply last_in; discriminate).
  assert (0 < z) as Q1 by (rewrite Forall_forall in P2; now apply P2).
  assert (z <= total (y :: l)) as Q2 by (apply total_ge_one; [assumption|eapply Forall_impl; [|exact P2]; cbn; intros; lra]).
  change (total (x :: y :: l)) with (x + total (y :: l)). set (t := total (y :: l)) in *. split.
  - apply Rmult_lt_0_compat; lra.
  - apply Rmult_lt_compat_l; lra.
Qed.
Lemma trapz1_mono d (f g : nat -> R) : 0 < d -> forall l, (forall i, In i l -> f i <= g i) -> trapz1 d (map f l) <= trapz1 d (map g l).
Proof.
  intros Hd. induction l as [|i [|j l] IH]; intros H; cbn [map trapz1]; try lra. cbn [map trapz1] in IH.
  assert (f i <= g i) by (apply H; cbn; auto). assert (f j <= g j) by (apply H; cbn; auto). specialize (IH ltac:(intros; apply H; cbn in *; tauto)).
  assert (d * (f i + f j) <= d * (g i + g j)) by (apply Rmult_le_compat_l; lra). lra.
Qed.
Lemma total_scale c l : total (map (fun x => c * x) l) = c * total l.
Proof. induction l as [|x l IH]; cbn; [lra|]. unfold total in *. rewrite IH. lra. Qed.

Lemma nested_bounds s : forall ds f, s <> [] -> length ds = length s -> usable_points s -> Forall (fun d => 0 < d) ds ->
  (forall t, in_shape s t -> 0 < f t) -> 0 < nested s ds f < nsum s f * prod_R ds.
Proof.
  induction s as [|n s IH]; intros ds f Hn Hl Hu Hd Hf; [congruence|]. destruct ds as [|d ds]; [cbn in Hl; lia|].
  inversion Hu as [|? ? U1 U2]; inversion Hd as [|? ? D1 D2]; subst. cbn in Hl. cbn [nested nsum]. change (prod_R (d :: ds)) with (d * prod_R ds).
  assert (0 < prod_R ds) as PP by (clear -D2; induction D2; cbn; [lra|apply Rmult_lt_0_compat; assumption]).
  destruct s as [|m s].
  - destruct ds; [|cbn in Hl; lia]. cbn [nested nsum prod_R fold_right].
    pose proof (trapz1_bounds d (map (fun i => f [i]) (seq 0 n)) D1) as B. rewrite map_length, seq_length in B. specialize (B U1).
    assert (Forall (fun x => 0 < x) (map (fun i => f [i]) (seq 0 n))) as P.
    { apply Forall_forall. intros x Hx. apply in_map_iff in Hx as (i & <- & Hi). apply in_seq in Hi. apply Hf. constructor; [lia|constructor]. }
    specialize (B P). lra.
  - set (s' := m :: s) in *.
    assert (forall i, In i (seq 0 n) -> 0 < nested s' ds (fun t => f (i :: t)) < nsum s' (fun t => f (i :: t)) * prod_R ds) as Q.
    { intros i Hi. apply in_seq in Hi. apply IH; [discriminate|lia|assumption|assumption|]. intros t Ht. apply Hf. constructor; [lia|assumption]. }
    set (F := fun i => nested s' ds (fun t => f (i :: t))) in *. set (N := fun i => nsum s' (fun t => f (i :: t))) in *.
    assert (forall g : nat -> R, (forall i, In i (seq 0 n) -> 0 < g i) -> 0 < trapz1 d (map g (seq 0 n)) < d * total (map g (seq 0 n))) as TB.
    { intros g Hg. apply trapz1_bounds; [assumption|rewrite map_length, seq_length; assumption|]. apply Forall_forall. intros x Hx. apply in_map_iff in Hx as (i & <- & Hi). auto. }
    split; [apply TB; intros i Hi; apply (Q i Hi)|].
    apply Rle_lt_trans with (trapz1 d (map (fun i => N i * prod_R ds) (seq 0 n))).
    + apply trapz1_mono; [assumption|]. intros i Hi. left. apply (Q i Hi).
    + replace (total (map N (seq 0 n)) * (d * prod_R ds)) with (d * total (map (fun i => N i * prod_R ds) (seq 0 n))).
      * apply TB. intros i Hi. destruct (Q i Hi) as (q1 & q2). exact (Rlt_trans _ _ _ q1 q2).
      * rewrite (map_ext (fun i => N i * prod_R ds) (fun i => prod_R ds * N i)) by (intros; lra). rewrite <- (map_map N (fun x => prod_R ds * x)), total_scale. ring.
Qed.

Lemma total_entries ns v : length v = size ns -> nsum ns (entry ns v) = total v.
Proof. intros H. rewrite <- rsum_indices, rsum_total. f_equal. now apply list_is_indices. Qed.

Lemma trapz_below_one ranges ns v : length ranges = length ns -> ns <> [] -> increasing ranges -> usable_points ns -> length v = size ns ->
  Forall (fun x => 0 < x) v -> total v * volume ranges ns = 1 ->
  exists T, integral_is ns (spacings ranges ns) v T /\ 0 < T < 1.
Proof.
  intros Hl Hn Hi Hu Lv Pv Ht. exists (nested ns (spacings ranges ns) (entry ns v)). split; [apply integral_value; [now apply spacings_len|assumption]|].
  rewrite <- Ht, <- prod_spacings, <- (total_entries ns v Lv). apply nested_bounds; [assumption|now apply spacings_len|assumption|now apply spacings_pos|]. intros t H. now apply entry_pos.
Qed.

Lemma additive_average g ranges ns v bw : grid_of g ranges ns v -> (length ns <= 2)%nat -> ns <> [] -> increasing ranges ->
  length bw = length ns -> Forall (fun b => 0 < b) bw -> Forall (fun x => 0 < x) v -> total v * volume ranges ns = 1 ->
  Forall (fun n => (n <= 101)%nat) ns ->
  exists k w I T h u, dens_kernel_convolution g bw MSame = Ok k /\ grid_of k ranges ns w /\
    integral_is ns (spacings ranges ns) (map (fun xy => ln (fst xy / snd xy) * snd xy) (combine w v)) I /\
    integral_is ns (spacings ranges ns) v T /\ 0 < T < 1 /\
    (forall gd nan, calc_additive_correction gd nan g bw MSame = Ok h) /\ grid_of h ranges ns u /\
    integral_is ns (spacings ranges ns) (map (fun xy => fst xy * snd xy) (combine u v)) (- (I * (1 - T))).
Proof.
  intros G L2 Hn Hi Lb Hb Pv Ht Hs. destruct (additive_full g ranges ns v bw G L2 Hi Lb Hb Pv) as (k & w & I & c & E & Gk & Pw & HI & Gc & Hc).
  pose proof G as (Hl & Hu & _ & _ & _ & _ & _ & _ & Hv). pose proof Gk as (_ & _ & _ & _ & _ & _ & _ & _ & Hw).
  destruct (trapz_below_one ranges ns v Hl Hn Hi Hu Hv Pv Ht) as (T & HT & BT).
  exists k, w, I, T, c. eexists. split; [assumption|]. split; [assumption|]. split.
  { assert (map (fun xy => ln (fst xy / snd xy) * snd xy) (combine w v) = map (fun xy => fst xy * snd xy) (combine (log_terms w v) v)) as ->; [|assumption].
    unfold log_terms. clear. revert v. induction w as [|x w IH]; intros [|y v]; cbn; try reflexivity. now rewrite IH. }
  split; [assumption|]. split; [assumption|]. split; [|split; [exact Gc|]].
  - intros gd nan. rewrite Hc. replace (existsb _ ns) with false; [reflexivity|]. symmetry. clear -Hs. induction Hs as [|n ns H _ IH]; [reflexivity|]. cbn [existsb]. rewrite IH, orb_false_r. apply Nat.ltb_ge. assumption.
  - set (L := log_terms w v) in *. assert (length L = size ns) as LL by (now apply log_terms_len).
    pose proof (nd_trapz_linear ns (spacings ranges ns) (-1) I (map (fun xy => fst xy * snd xy) (combine L v)) v I T) as LN.
    assert (map (fun xy => fst xy * snd xy) (combine (map (fun y => - y + I) L) v)
            = map (fun xy => -1 * fst xy + I * snd xy) (combine (map (fun xy => fst xy * snd xy) (combine L v)) v)) as ->.
    { clearbody L. clear. revert v. induction L as [|x L IH]; intros [|y v]; cbn; try reflexivity. rewrite IH. f_equal. lra. }
    replace (- (I * (1 - T))) with (-1 * I + I * T) by lra. apply LN; [now apply spacings_len|rewrite map_length, combine_length; lia|assumption|assumption|assumption].
Qed.

Lemma sparsify_spec (gd : griddata_t R) nan g ranges ns v ms : griddata_exact gd -> grid_of g ranges ns v -> (length ns <= 2)%nat ->
  increasing ranges -> length ms = length ns -> usable_points ms ->
  let ns' := map (fun nm => Nat.min (fst nm) (snd nm)) (combine ns ms) in
  exists h u, sparsify gd nan g ms = Ok h /\ grid_of h ranges ns' u /\
    forall idx idx', in_shape ns idx -> in_shape ns' idx' ->
      grid_point ranges ns idx = grid_point ranges ns' idx' -> entry ns' u idx' = entry ns v idx.
Proof.
  assert (forall ns ms, minimum ns ms = map (fun nm => Nat.min (fst nm) (snd nm)) (combine ns ms)) as E.
  { induction ns0 as [|n ns0 IH]; intros [|m ms0]; cbn; try reflexivity. now rewrite IH. }
  cbv zeta. rewrite <- E. apply sparsify_ok.
Qed.

Lemma common_points ranges : forall ns ms idx', length ranges = length ns -> usable_points ms ->
  Forall2 (fun n m => Nat.divide (m - 1) (n - 1) /\ (2 <= n)%nat) ns ms -> in_shape ms idx' ->
  exists idx, in_shape ns idx /\ grid_point ranges ns idx = grid_point ranges ms idx'.
Proof.
  induction ranges as [|r ranges IH]; intros ns ms idx' Hl Hu H Hi.
  - destruct ns; [|cbn in Hl; lia]. inversion H; subst. inversion Hi; subst. exists []. split; [constructor|reflexivity].
  - destruct ns as [|n ns]; [cbn in Hl; lia|]. inversion H as [|? m ? ms' (D & N2) H']; subst. inversion Hi as [|? i ? is I1 I2]; subst. inversion Hu as [|? ? U1 U2]; subst.
    destruct (IH ns ms' is ltac:(cbn in Hl; lia) U2 H' I2) as (idx & A & B). destruct D as (q & D).
    exists ((q * i)%nat :: idx). split; [constructor; [nia|assumption]|]. cbn [grid_point]. rewrite B. f_equal. unfold coordinate.
    assert (INR n - 1 = INR q * (INR m - 1)) as ->.
    { replace n with (S (q * (m - 1))) by lia. rewrite S_INR, mult_INR, minus_INR by lia. cbn [INR]. lra. }
    rewrite mult_INR. assert (0 < INR m - 1) by (apply le_INR in U1; cbn in U1; lra).
    assert (INR q <> 0) by (intros Z; apply (INR_eq q 0) in Z; lia). field. split; lra.
Qed.

(** sparsify with too few numbers of points *)
Lemma sparsify_short {A} (gd : griddata_t A) nan (g : grid A) max_points :
  (length max_points < length (g_npoints g))%nat -> sparsify gd nan g max_points = Err IndexError.
Proof.
  intro H. unfold sparsify. assert (E : min_points (g_npoints g) max_points = Err IndexError); [|now rewrite E].
  revert max_points H. induction (g_npoints g) as [|n ns IH]; intros [|m ms] H; cbn in H; try lia; [reflexivity|]. cbn [min_points]. rewrite IH by lia. reflexivity.
Qed.
