(** The smoothed density of the birth-death corrections *)
From Coq Require Import Lia Lra ZifyBool ZifyNat.
From Verif Require Import PyBase Model_dyn Model_grid Model_corr Model_bd Spec_grid Spec_gridops Spec_bd Spec_smooth Proof_base Proof_grid Proof_grid2 Proof_dens.
Ltac Zify.zify_post_hook ::= idtac.
Open Scope R_scope.

(** ** exchange of the summation index *)
Lemma total_map_ext {A} (f g : A -> R) l : (forall x, In x l -> f x = g x) -> total (map f l) = total (map g l).
Proof. intros H. f_equal. now apply map_ext_in. Qed.
Lemma total_map_0 {A} (l : list A) : total (map (fun _ => 0) l) = 0.
Proof. induction l as [|x l IH]; cbn; [reflexivity|]. unfold total in *. rewrite IH. lra. Qed.
Lemma total_map_add {A} (f g : A -> R) l : total (map (fun x => f x + g x) l) = total (map f l) + total (map g l).
Proof. induction l as [|x l IH]; cbn; [lra|]. unfold total in *. rewrite IH. lra. Qed.
Lemma total_swap {A B} (f : A -> B -> R) l1 l2 :
  total (map (fun a => total (map (f a) l2)) l1) = total (map (fun b => total (map (fun a => f a b) l1)) l2).
Proof.
  induction l1 as [|a l1 IH]; [cbn; now rewrite total_map_0|]. change (total (map (f a) l2) + total (map (fun a => total (map (f a) l2)) l1) = total (map (fun b => f a b + total (map (fun a => f a b) l1)) l2)).
  rewrite IH, <- total_map_add. reflexivity.
Qed.

(** sum with a single non-zero term *)
Lemma total_pick (G : nat -> R) (t : Z) : forall n a,
  total (map (fun k => if (Z.of_nat k =? t)%Z then G k else 0) (seq a n))
  = if ((Z.of_nat a <=? t)%Z && (t <? Z.of_nat a + Z.of_nat n)%Z)%bool then G (Z.to_nat t) else 0.
Proof.
  induction n as [|n IH]; intros a.
  - cbn [seq map]. destruct (Z.leb_spec (Z.of_nat a) t), (Z.ltb_spec t (Z.of_nat a + Z.of_nat 0)); cbn; try reflexivity. lia.
  - cbn [seq map]. change (total (?x :: ?l)) with (x + total l). rewrite IH. destruct (Z.eqb_spec (Z.of_nat a) t) as [E|E].
    + subst t. rewrite Nat2Z.id. destruct (Z.leb_spec (Z.of_nat (S a)) (Z.of_nat a)); [lia|].
      destruct (Z.leb_spec (Z.of_nat a) (Z.of_nat a)); [|lia]. destruct (Z.ltb_spec (Z.of_nat a) (Z.of_nat a + Z.of_nat (S n))); [|lia]. cbn. lra.
    + replace (Z.of_nat (S a) <=? t)%Z with (Z.of_nat a <=? t)%Z by lia.
      replace (t <? Z.of_nat (S a) + Z.of_nat n)%Z with (t <? Z.of_nat a + Z.of_nat (S n))%Z by lia. lra.
Qed.

Lemma exchange1 (F : nat -> nat -> R) (c : Z) n m :
  total (map (fun b => if ((0 <=? c - Z.of_nat b)%Z && (c - Z.of_nat b <? Z.of_nat n)%Z)%bool then F (Z.to_nat (c - Z.of_nat b)) b else 0) (seq 0 m))
  = total (map (fun k => if ((0 <=? c - Z.of_nat k)%Z && (c - Z.of_nat k <? Z.of_nat m)%Z)%bool then F k (Z.to_nat (c - Z.of_nat k)) else 0) (seq 0 n)).
Proof.
  transitivity (total (map (fun b => total (map (fun k => if (Z.of_nat k =? c - Z.of_nat b)%Z then F k b else 0) (seq 0 n))) (seq 0 m))).
  - apply total_map_ext. intros b _. rewrite (total_pick (fun k => F k b)). reflexivity.
  - rewrite total_swap. apply total_map_ext. intros k _. etransitivity; [|exact (total_pick (fun b => F k b) (c - Z.of_nat k) m 0)].
    apply total_map_ext. intros b _. replace (Z.of_nat k =? c - Z.of_nat b)%Z with (Z.of_nat b =? c - Z.of_nat k)%Z by lia. reflexivity.
Qed.

Lemma nsum_0 s : nsum s (fun _ => 0) = 0.
Proof.
  induction s as [|n s IH]; [reflexivity|]. cbn [nsum]. rewrite (map_ext _ (fun _ => 0)) by (intros; exact IH). apply total_map_0.
Qed.

Lemma exchange nl : forall ms i (F : list nat -> list nat -> R), length ms = length nl -> length i = length nl ->
  nsum ms (fun j => if inside_index nl (centered_partner i ms j) then F (map Z.to_nat (centered_partner i ms j)) j else 0)
  = nsum nl (fun k => if inside_index ms (centered_partner i ms k) then F k (map Z.to_nat (centered_partner i ms k)) else 0).
Proof.
  induction nl as [|n nl IH]; intros [|m ms] [|a i] F H1 H2; cbn in H1, H2; try lia; [reflexivity|].
  cbn [nsum centered_partner inside_index map]. set (c := (Z.of_nat a + (Z.of_nat m - 1) / 2)%Z).
  transitivity (total (map (fun b => if ((0 <=? c - Z.of_nat b)%Z && (c - Z.of_nat b <? Z.of_nat n)%Z)%bool
     then nsum nl (fun k => if inside_index ms (centered_partner i ms k) then F (Z.to_nat (c - Z.of_nat b) :: k) (b :: map Z.to_nat (centered_partner i ms k)) else 0) else 0) (seq 0 m))).
  - apply total_map_ext. intros b _. destruct ((0 <=? c - Z.of_nat b)%Z && (c - Z.of_nat b <? Z.of_nat n)%Z)%bool; cbn [andb]; [|apply nsum_0].
    rewrite <- (IH ms i (fun k j => F (Z.to_nat (c - Z.of_nat b) :: k) (b :: j))) by lia. reflexivity.
  - rewrite (exchange1 (fun k b => nsum nl (fun t => if inside_index ms (centered_partner i ms t) then F (k :: t) (b :: map Z.to_nat (centered_partner i ms t)) else 0)) c n m).
    apply total_map_ext. intros k _. destruct ((0 <=? c - Z.of_nat k)%Z && (c - Z.of_nat k <? Z.of_nat m)%Z)%bool; cbn [andb]; [reflexivity|symmetry; apply nsum_0].
Qed.

(** ** the kernel grid *)
Definition kcount (b s : R) : Z := Rceil ((5 * b - - (5 * b)) / s).
Fixpoint kns (bw st : list R) : list nat :=
  match bw, st with b :: bw', s :: st' => Z.to_nat (kcount b s + 1) :: kns bw' st' | _, _ => [] end.
Fixpoint krs (bw st : list R) : list (R * R) :=
  match bw, st with b :: bw', s :: st' => (- (5 * b), - (5 * b) + s * IZR (kcount b s)) :: krs bw' st' | _, _ => [] end.
Fixpoint kshift (bw st : list R) : list R :=
  match bw, st with b :: bw', s :: st' => IZR (kcount b s / 2) * s - 5 * b :: kshift bw' st' | _, _ => [] end.
Fixpoint khi (bw st : list R) : list R :=
  match bw, st with b :: bw', s :: st' => - (5 * b) + s * IZR (kcount b s) :: khi bw' st' | _, _ => [] end.
Fixpoint kpos (bw st : list R) (j : list nat) : list R :=
  match bw, st, j with b :: bw', s :: st', i :: j' => - (5 * b) + INR i * s :: kpos bw' st' j' | _, _, _ => [] end.

Lemma kcount_bounds b s : 0 < b -> 0 < s -> (1 <= kcount b s)%Z /\ 10 * b <= IZR (kcount b s) * s < 10 * b + s.
Proof.
  intros Hb Hs. unfold kcount. replace (5 * b - - (5 * b)) with (10 * b) by lra.
  pose proof (Rceil_pos (10 * b / s) ltac:(apply Rdiv_lt_0_compat; lra)) as P. pose proof (Rceil_bounds (10 * b / s)) as (B1 & B2).
  set (c := Rceil (10 * b / s)) in *. assert (10 * b / s * s = 10 * b) as Q by (field; lra).
  split; [lia|]. split.
  - rewrite <- Q. apply Rmult_le_compat_r; lra.
  - apply Rlt_le_trans with ((10 * b / s + 1) * s); [apply Rmult_lt_compat_r; lra|]. lra.
Qed.

Lemma kns_length bw : forall st, length bw = length st -> length (kns bw st) = length st.
Proof. induction bw as [|b bw IH]; intros [|s st] H; cbn in *; try lia. rewrite IH; lia. Qed.
Lemma krs_length bw : forall st, length bw = length st -> length (krs bw st) = length st.
Proof. induction bw as [|b bw IH]; intros [|s st] H; cbn in *; try lia. rewrite IH; lia. Qed.

Lemma kernel_stepsizes bw st : length bw = length st -> Forall (fun b => 0 < b) bw -> Forall (fun s => 0 < s) st ->
  exists k0 : grid R, from_stepsizes (map (fun b => (- (5 * b), 5 * b)) bw) (SList st) false = Ok k0 /\
    g_ranges k0 = krs bw st /\ g_npoints k0 = kns bw st /\ g_ndim k0 = length st.
Proof.
  intros L Hb Hs. unfold from_stepsizes. rewrite from_stepsizes_loop_ok by (rewrite ?map_length; assumption). cbn [bind].
  destruct (split _) as [rs ns] eqn:E. eexists. split; [reflexivity|]. cbn [g_ranges g_npoints g_ndim]. rewrite map_length.
  assert (rs = krs bw st /\ map Z.to_nat ns = kns bw st) as (-> & ->); [|auto].
  clear Hb Hs. revert st rs ns L E. induction bw as [|b bw IH]; intros [|s st] rs ns L E; cbn in L; try lia.
  - cbn in E. injection E as <- <-. split; reflexivity.
  - cbn [map combine split fst snd] in E. unfold steps_dim at 1 in E. cbn [fst snd] in E. destruct (split _) as [a c] eqn:E2. injection E as <- <-.
    destruct (IH st a c ltac:(lia) E2) as (-> & E3). cbn [krs kns map]. rewrite E3. unfold kcount. set (cc := Rceil _).
    replace (cc + 1 - 0 - 1)%Z with cc by lia. replace (cc + 1 - 0)%Z with (cc + 1)%Z by lia. split; reflexivity.
Qed.

Lemma kns_usable bw : forall st, length bw = length st -> Forall (fun b => 0 < b) bw -> Forall (fun s => 0 < s) st -> usable_points (kns bw st).
Proof.
  induction bw as [|b bw IH]; intros [|s st] L Hb Hs; cbn in L; try lia; [constructor|]. inversion Hb; inversion Hs; subst.
  constructor; [|apply IH; [lia|assumption|assumption]]. destruct (kcount_bounds b s); [assumption|assumption|]. lia.
Qed.

Lemma kernel_point bw : forall st j, length bw = length st -> Forall (fun b => 0 < b) bw -> Forall (fun s => 0 < s) st ->
  in_shape (kns bw st) j -> grid_point (krs bw st) (kns bw st) j = kpos bw st j.
Proof.
  induction bw as [|b bw IH]; intros [|s st] j L Hb Hs Hj; cbn in L; try lia; [reflexivity|]. inversion Hb; inversion Hs; subst.
  cbn [kns] in Hj. inversion Hj as [|? i ? j' Hi Hj']; subst. cbn [krs kns grid_point kpos]. f_equal; [|now apply IH; [lia| | |]].
  unfold coordinate. cbn [fst snd]. destruct (kcount_bounds b s) as (K & _); [assumption|assumption|].
  assert (INR (Z.to_nat (kcount b s + 1)) - 1 = IZR (kcount b s)) as ->.
  { rewrite INR_IZR_INZ, Z2Nat.id by lia. rewrite plus_IZR. lra. }
  replace (- (5 * b) + s * IZR (kcount b s) - - (5 * b)) with (s * IZR (kcount b s)) by lra. field. apply not_0_IZR. lia.
Qed.

(** ** entries of the kernel for a pair of grid points *)
Lemma kernel_pair : forall bw st ranges ns i k, length bw = length st -> length ranges = length st -> length ns = length st -> st = spacings ranges ns ->
  Forall (fun b => 0 < b) bw -> Forall (fun s => 0 < s) st -> in_shape ns i -> in_shape ns k ->
  let p := displaced (kshift bw st) (grid_point ranges ns i) in let q := grid_point ranges ns k in
  let z := centered_partner i (kns bw st) k in
  inside_index (kns bw st) z = within bw (khi bw st) p q /\
  (inside_index (kns bw st) z = true -> kpos bw st (map Z.to_nat z) = vsub p q) /\ length p = length bw /\ length q = length bw.
Proof.
  induction bw as [|b bw IH]; intros [|s st] ranges ns i k L1 L2 L3 Est Hb Hs Hi Hk; cbn in L1; try lia.
  - destruct ns; [|cbn in L3; lia]. inversion Hi; inversion Hk; subst. destruct ranges; [|cbn in L2; lia]. cbn. auto.
  - destruct ranges as [|r ranges]; [cbn in L2; lia|]. destruct ns as [|n ns]; [cbn in L3; lia|]. cbn in L2, L3. cbn [spacings] in Est. injection Est as Es Est.
    inversion Hb as [|? ? Hb1 Hb2]; inversion Hs as [|? ? Hs1 Hs2]; subst b0 l x l0 || subst; clear Hb Hs.
    inversion Hi as [|? i0 ? i' Hi1 Hi2]; inversion Hk as [|? k0 ? k' Hk1 Hk2]; subst; clear Hi Hk.
    set (s := (snd r - fst r) / (INR n - 1)) in *. set (st := spacings ranges ns) in *.
    specialize (IH st ranges ns i' k' ltac:(lia) ltac:(lia) ltac:(lia) eq_refl Hb2 Hs2 Hi2 Hk2). cbv zeta in IH. destruct IH as (I1 & I2 & I3 & I4).
    cbn [kns kshift khi grid_point displaced centered_partner inside_index within map kpos]. cbv zeta.
    set (K := kcount b s). destruct (kcount_bounds b s Hb1 Hs1) as (KP & KB). fold K in KP, KB.
    replace ((Z.of_nat (Z.to_nat (K + 1)) - 1) / 2)%Z with (K / 2)%Z by (f_equal; lia).
    set (z := (Z.of_nat i0 + K / 2 - Z.of_nat k0)%Z).
    assert (coordinate r n i0 + (IZR (K / 2) * s - 5 * b) - coordinate r n k0 = - (5 * b) + IZR z * s) as Ez.
    { unfold coordinate, z. fold s. rewrite minus_IZR, plus_IZR, <- !INR_IZR_INZ. lra. }
    rewrite Ez. rewrite Z2Nat.id by lia. split; [|split; [|split]].
    + rewrite <- I1. destruct (Z.leb_spec 0 z) as [Z0|Z0].
      * assert (0 <= IZR z * s) by (apply Rmult_le_pos; [now apply IZR_le|lra]). destruct (Rle_dec (- (5 * b)) (- (5 * b) + IZR z * s)); [|lra].
        destruct (Z.ltb_spec z (K + 1)) as [Z1|Z1]; cbn [andb].
        -- destruct (Rle_dec _ _) as [|N]; [reflexivity|]. exfalso. apply N. assert (IZR z <= IZR K) by (apply IZR_le; lia).
           assert (IZR z * s <= IZR K * s) by (apply Rmult_le_compat_r; lra). lra.
        -- destruct (Rle_dec _ _) as [N|]; [|reflexivity]. exfalso. assert (IZR (K + 1) <= IZR z) by (apply IZR_le; lia). rewrite plus_IZR in *.
           assert ((IZR K + 1) * s <= IZR z * s) by (apply Rmult_le_compat_r; lra). lra.
      * cbn [andb]. destruct (Rle_dec _ _) as [N|]; [|reflexivity]. exfalso. assert (IZR z <= -1) by (apply IZR_le; lia).
        assert (IZR z * s <= -1 * s) by (apply Rmult_le_compat_r; lra). lra.
    + intros H. apply andb_true_iff in H as (H1 & H2). specialize (I2 H2). unfold vsub in *. cbn [vmap2]. rewrite Ez, I2. f_equal.
      rewrite INR_IZR_INZ, Z2Nat.id by lia. reflexivity.
    + cbn [length]. now rewrite I3.
    + cbn [length]. now rewrite I4.
Qed.

Lemma spacings_pos ranges : forall ns, length ranges = length ns -> increasing ranges -> usable_points ns -> Forall (fun s => 0 < s) (spacings ranges ns).
Proof.
  induction ranges as [|r ranges IH]; intros [|n ns] L Hi Hu; cbn in L; try lia; [constructor|]. inversion Hi; inversion Hu; subst. cbn. constructor; [|apply IH; [lia|assumption|assumption]].
  apply Rdiv_lt_0_compat; [lra|]. assert (INR 2 <= INR n) by (now apply le_INR). cbn in *. lra.
Qed.

Lemma smoothing_raw g ranges ns v bw : grid_of g ranges ns v -> (length ns <= 2)%nat -> increasing ranges ->
  length bw = length ns -> Forall (fun b => 0 < b) bw ->
  let st := spacings ranges ns in
  exists h w, dens_kernel_convolution g bw MSame = Ok h /\ grid_of h ranges ns w /\
    forall idx, in_shape ns idx -> entry ns w idx = smoothed ranges ns v bw (khi bw st) (kshift bw st) idx.
Proof.
  intros G L2 Hi Lb Hb. cbv zeta. pose proof G as (Hl & Hu & Er & En & Ed & Es & Esh & Ef & Hv). set (st := spacings ranges ns) in *.
  assert (length st = length ns) as Lst by (apply spacings_len; assumption). assert (length bw = length st) as Lbs by lia.
  pose proof (spacings_pos ranges ns Hl Hi Hu) as Hs. fold st in Hs.
  destruct (kernel_stepsizes bw st Lbs Hb Hs) as (k0 & Ek & Rk & Nk & Dk).
  destruct (kernel_grid g bw MSame k0) as (k & E & Ax & Np & St & Sh & Fl & Ln); [now rewrite Es|now rewrite Es, Lbs|].
  rewrite E. rewrite Np, Nk in Sh, Ln. 
  destruct (convolve_same_ok g k ranges ns v (kns bw st) (map (calc_kernel1 bw) (points k0)) G Sh Fl ltac:(now rewrite <- Fl) ltac:(rewrite kns_length; lia) ltac:(now rewrite St, Es)) as (h & w & Eh & Gh & Hw).
  exists h, w. split; [exact Eh|]. split; [exact Gh|]. intros idx Hidx. rewrite (Hw idx Hidx). unfold smoothed. f_equal.
  transitivity (nsum (kns bw st) (fun j => if inside_index ns (centered_partner idx (kns bw st) j)
     then entry ns v (map Z.to_nat (centered_partner idx (kns bw st) j)) * calc_kernel1 bw (kpos bw st j) else 0)).
  - apply nsum_ext. intros j Hj. unfold padded_entry. destruct (inside_index _ _); [|lra]. f_equal. unfold entry.
    assert (length (points k0) = size (kns bw st)) as Lp by (rewrite <- Nk; apply points_length; split; [rewrite Rk, Dk; apply krs_length; assumption|rewrite Nk, Dk; apply kns_length; assumption]).
    rewrite (nth_map_in _ _ _ _ []) by (rewrite Lp; now apply flat_pos_lt). f_equal. rewrite <- Nk. rewrite points_row_major.
    + rewrite Rk, Nk. now apply kernel_point.
    + split; [rewrite Rk, Dk; apply krs_length; assumption|rewrite Nk, Dk; apply kns_length; assumption].
    + rewrite Nk. now apply kns_usable.
    + rewrite Dk. lia.
    + now rewrite Nk.
  - rewrite (exchange ns (kns bw st) idx (fun k j => entry ns v k * calc_kernel1 bw (kpos bw st j))) by (rewrite ?kns_length, ?(in_shape_len _ _ Hidx); lia).
    apply nsum_ext. intros k1 Hk1.
    destruct (kernel_pair bw st ranges ns idx k1 Lbs ltac:(lia) ltac:(lia) eq_refl Hb Hs Hidx Hk1) as (P1 & P2 & P3 & P4). cbv zeta in *.
    unfold cut_kernel. rewrite <- P1. destruct (inside_index (kns bw st) _) eqn:Ei; [|lra]. rewrite (P2 eq_refl). f_equal. now apply calc_kernel1_spec.
Qed.

Lemma kshift_spec b s : 0 < b -> 0 < s -> let d := IZR (kcount b s / 2) * s - 5 * b in
  Rabs d <= s / 2 /\ (d = 0 <-> exists z, 10 * b = 2 * IZR z * s).
Proof.
  intros Hb Hs. cbv zeta. destruct (kcount_bounds b s Hb Hs) as (K1 & K2). set (K := kcount b s) in *.
  assert (IZR K = 2 * IZR (K / 2) \/ IZR K = 2 * IZR (K / 2) + 1) as [E|E].
  { pose proof (Z.div_mod K 2 ltac:(lia)) as D. pose proof (Z.mod_pos_bound K 2 ltac:(lia)) as M. assert (K mod 2 = 0 \/ K mod 2 = 1)%Z as [M0|M1] by lia; [left|right].
    - rewrite D at 1. rewrite plus_IZR, mult_IZR, M0. lra.
    - rewrite D at 1. rewrite plus_IZR, mult_IZR, M1. lra. }
  - rewrite E in K2. split; [apply Rabs_le; lra|]. split; [intros Z; exists (K / 2)%Z; lra|].
    intros (z & Hz). assert (K / 2 = z)%Z as ->; [|lra].
    assert (IZR (z - 1) < IZR (K / 2) < IZR (z + 1)) as (A & B).
    { rewrite minus_IZR, plus_IZR. split; apply (Rmult_lt_reg_r s); try assumption; lra. }
    apply lt_IZR in A, B. lia.
  - rewrite E in K2. split; [apply Rabs_le; lra|]. split; [intros Z; exists (K / 2)%Z; lra|].
    intros (z & Hz). exfalso.
    assert (IZR (K / 2) < IZR z <= IZR (K / 2) + / 2) as (A & B).
    { split; [apply (Rmult_lt_reg_r s)|apply (Rmult_le_reg_r s)]; try assumption; lra. }
    apply lt_IZR in A. assert (K / 2 + 1 <= z)%Z as C by lia. apply IZR_le in C. rewrite plus_IZR in C. lra.
Qed.

Lemma kshift_nth bw : forall st d, length bw = length st -> (d < length st)%nat ->
  nth d (kshift bw st) 0 = IZR (kcount (nth d bw 0) (nth d st 0) / 2) * nth d st 0 - 5 * nth d bw 0 /\
  nth d (khi bw st) 0 = - (5 * nth d bw 0) + nth d st 0 * IZR (kcount (nth d bw 0) (nth d st 0)).
Proof.
  induction bw as [|b bw IH]; intros [|s st] d L Hd; cbn in L, Hd; try lia. destruct d as [|d]; [cbn; auto|]. cbn [kshift khi nth]. apply IH; lia.
Qed.

Lemma smoothing_exact g ranges ns v bw : grid_of g ranges ns v -> (length ns <= 2)%nat -> increasing ranges ->
  length bw = length ns -> Forall (fun b => 0 < b) bw ->
  exists h w hi shift, dens_kernel_convolution g bw MSame = Ok h /\ grid_of h ranges ns w /\
    (forall d, (d < length ns)%nat -> let b := nth d bw 0 in let s := nth d (spacings ranges ns) 0 in
       5 * b <= nth d hi 0 < 5 * b + s /\ Rabs (nth d shift 0) <= s / 2 /\
       (nth d shift 0 = 0 <-> exists z, 10 * b = 2 * IZR z * s)) /\
    forall idx, in_shape ns idx -> entry ns w idx = smoothed ranges ns v bw hi shift idx.
Proof.
  intros G L2 Hi Lb Hb. destruct (smoothing_raw g ranges ns v bw G L2 Hi Lb Hb) as (h & w & E & Gh & Hw). cbv zeta in Hw.
  exists h, w, (khi bw (spacings ranges ns)), (kshift bw (spacings ranges ns)). split; [assumption|]. split; [assumption|]. split; [|assumption].
  pose proof G as (Hl & Hu & _). intros d Hd. cbv zeta. assert (length (spacings ranges ns) = length ns) as Lst by (apply spacings_len; assumption).
  destruct (kshift_nth bw (spacings ranges ns) d ltac:(lia) ltac:(lia)) as (-> & ->).
  pose proof (spacings_pos ranges ns Hl Hi Hu) as Hs. rewrite Forall_forall in Hs, Hb.
  assert (0 < nth d bw 0) as B by (apply Hb, nth_In; lia). assert (0 < nth d (spacings ranges ns) 0) as S by (apply Hs, nth_In; lia).
  destruct (kcount_bounds _ _ B S) as (_ & K). split; [lra|]. exact (kshift_spec _ _ B S).
Qed.

Lemma smoothing_centered g ranges ns v bw : grid_of g ranges ns v -> (length ns <= 2)%nat -> increasing ranges ->
  length bw = length ns -> Forall (fun b => 0 < b) bw ->
  (forall d, (d < length ns)%nat -> exists z, 10 * nth d bw 0 = 2 * IZR z * nth d (spacings ranges ns) 0) ->
  exists h w, dens_kernel_convolution g bw MSame = Ok h /\ grid_of h ranges ns w /\
    forall idx, in_shape ns idx -> entry ns w idx = smoothed ranges ns v bw (map (fun b => 5 * b) bw) (repeat 0 (length ns)) idx.
Proof.
  intros G L2 Hi Lb Hb Hz. destruct (smoothing_raw g ranges ns v bw G L2 Hi Lb Hb) as (h & w & E & Gh & Hw). cbv zeta in Hw.
  exists h, w. split; [assumption|]. split; [assumption|]. intros idx Hidx. rewrite (Hw idx Hidx).
  pose proof G as (Hl & Hu & _). assert (length (spacings ranges ns) = length ns) as Lst by (apply spacings_len; assumption).
  pose proof (spacings_pos ranges ns Hl Hi Hu) as Hs. rewrite Forall_forall in Hs, Hb.
  assert (forall l1 l2 : list R, length l1 = length l2 -> length (kshift l1 l2) = length l2 /\ length (khi l1 l2) = length l2) as LK.
  { induction l1 as [|a l1 IH]; intros [|c l2] H; cbn in *; try lia. destruct (IH l2); lia. }
  destruct (LK bw (spacings ranges ns) ltac:(lia)) as (LK1 & LK2).
  assert (kshift bw (spacings ranges ns) = repeat 0 (length ns)) as Q1.
  { apply (nth_ext _ _ 0 0); [rewrite repeat_length; lia|]. intros d Hd. rewrite nth_repeat. destruct (kshift_nth bw (spacings ranges ns) d ltac:(lia) ltac:(lia)) as (-> & _).
    apply kshift_spec; [apply Hb, nth_In; lia|apply Hs, nth_In; lia|apply Hz; lia]. }
  assert (khi bw (spacings ranges ns) = map (fun b => 5 * b) bw) as Q2.
  { apply (nth_ext _ _ 0 0); [rewrite map_length; lia|]. intros d Hd. rewrite (nth_map_in _ _ _ _ 0) by lia. destruct (kshift_nth bw (spacings ranges ns) d ltac:(lia) ltac:(lia)) as (_ & ->).
    assert (0 < nth d bw 0) as B by (apply Hb, nth_In; lia). assert (0 < nth d (spacings ranges ns) 0) as S by (apply Hs, nth_In; lia).
    destruct (Hz d ltac:(lia)) as (z & Ez). assert (kcount (nth d bw 0) (nth d (spacings ranges ns) 0) = (2 * z)%Z) as ->.
    { unfold kcount. replace ((5 * nth d bw 0 - - (5 * nth d bw 0)) / nth d (spacings ranges ns) 0) with (IZR (2 * z)); [apply Rceil_unique; lra|].
      replace (5 * nth d bw 0 - - (5 * nth d bw 0)) with (2 * IZR z * nth d (spacings ranges ns) 0) by lra. rewrite mult_IZR. field. lra. }
    rewrite mult_IZR. lra. }
  now rewrite Q1, Q2.
Qed.

(** ** a symmetric density whose smoothing is not symmetric *)
Lemma grid_5 : exists g : grid R, grid_of g [(0, 4)] [5%nat] [0; 0; 1; 0; 0].
Proof.
  destruct (from_npoints_ok (A := R) [(0, 4)] [5%nat]) as (g & E & F); [reflexivity|repeat constructor|].
  destruct (set_data_grid_of [(0, 4)] [5%nat] g (mkArr [5%nat] [0; 0; 1; 0; 0]) eq_refl ltac:(repeat constructor) E eq_refl) as (h & _ & H).
  exists h. exact H.
Qed.

Lemma Rle_yes a b : a <= b -> exists p, Rle_dec a b = left p.
Proof. intros H. destruct (Rle_dec a b) as [p|n]; [now exists p|contradiction]. Qed.
Lemma Rle_no a b : ~ a <= b -> exists p, Rle_dec a b = right p.
Proof. intros H. destruct (Rle_dec a b) as [p|n]; [contradiction|now exists n]. Qed.

Lemma asymmetric : exists g h w, grid_of g [(0, 4)] [5%nat] [0; 0; 1; 0; 0] /\
  dens_kernel_convolution g [1/10] MSame = Ok h /\ grid_of h [(0, 4)] [5%nat] w /\
  entry [5%nat] w [1%nat] = 0 /\ 0 < entry [5%nat] w [3%nat] /\
  entry [5%nat] w [3%nat] <> smoothed [(0, 4)] [5%nat] [0; 0; 1; 0; 0] [1/10] [1/2] [0] [3%nat].
Proof.
  destruct grid_5 as (g & G).
  assert (forall (x : Prop), x -> x) as idp by auto.
  destruct (smoothing_raw g [(0, 4)] [5%nat] [0; 0; 1; 0; 0] [1/10] G) as (h & w & E & Gh & Hw);
    [cbn; lia|constructor; [cbn; lra|constructor]|reflexivity|constructor; [lra|constructor]|]. cbv zeta in Hw.
  assert (kshift [1/10] (spacings [(0, 4)] [5%nat]) = [- (1/2)] /\ khi [1/10] (spacings [(0, 4)] [5%nat]) = [1/2]) as (Q1 & Q2).
  { cbn [spacings kshift khi fst snd]. assert ((4 - 0) / (INR 5 - 1) = 1) as -> by (cbn; lra).
    assert (kcount (1/10) 1 = 1%Z) as -> by (apply Rceil_unique; lra). change (1 / 2)%Z with 0%Z. split; f_equal; lra. }
  rewrite Q1, Q2 in Hw. exists g, h, w. split; [exact G|]. split; [exact E|]. split; [exact Gh|].
  assert (volume [(0, 4)] [5%nat] = 1) as V by (cbn; lra).
  assert (forall hi sh i, smoothed [(0, 4)] [5%nat] [0; 0; 1; 0; 0] [1/10] [hi] [sh] [i]
     = cut_kernel [1/10] [hi] [coordinate (0, 4) 5 i + sh] [coordinate (0, 4) 5 2]) as S.
  { intros hi sh i. unfold smoothed. rewrite V. cbn [nsum seq map grid_point displaced]. unfold total, entry. cbn [fold_right flat_pos size nth Nat.mul Nat.add]. lra. }
  assert (forall i, coordinate (0, 4) 5 i = INR i) as Cc by (intros i; unfold coordinate; cbn; lra).
  rewrite (Hw [1%nat]), (Hw [3%nat]) by (repeat constructor; lia). rewrite !S, !Cc. unfold cut_kernel. cbn [within].
  destruct (Rle_no (- (5 * (1 / 10))) (INR 1 + - (1 / 2) - INR 2)) as (p1 & ->); [cbn; lra|].
  destruct (Rle_yes (- (5 * (1 / 10))) (INR 3 + - (1 / 2) - INR 2)) as (p2 & ->); [cbn; lra|].
  destruct (Rle_yes (INR 3 + - (1 / 2) - INR 2) (1/2)) as (p3 & ->); [cbn; lra|].
  destruct (Rle_yes (- (5 * (1 / 10))) (INR 3 + 0 - INR 2)) as (p4 & ->); [cbn; lra|].
  destruct (Rle_no (INR 3 + 0 - INR 2) (1/2)) as (p5 & ->); [cbn; lra|].
  assert (0 < gauss_kernel [1/10] [INR 3 + - (1 / 2)] [INR 2]) by (apply gauss_pos; repeat constructor; lra). split; [reflexivity|]. lra.
Qed.
