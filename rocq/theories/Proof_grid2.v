(** Densities, step sizes, convolution and integration on grids *)
From Coq Require Import Lia Lra ZifyBool ZifyNat.
From Verif Require Import PyBase Model_dyn Model_grid Model_potgrid Model_corr Spec_grid Spec_gridops Proof_base Proof_grid.
Ltac Zify.zify_post_hook ::= idtac.
Open Scope R_scope.

(** ** probability density *)
Lemma rsum_total l : rsum l = total l.
Proof. reflexivity. Qed.

Lemma total_pos l : l <> [] -> Forall (fun x => 0 < x) l -> 0 < total l.
Proof.
  intros Hne H. destruct H as [|x l Hx H]; [congruence|]. clear Hne. cbn.
  assert (0 <= total l) by (induction H; cbn; [lra|]; unfold total in *; lra). unfold total in *. lra.
Qed.

Lemma total_div l c : total (map (fun x => x / c) l) = total l / c.
Proof. induction l as [|x l IH]; cbn; [lra|]. unfold total in *. rewrite IH. lra. Qed.

Lemma volume_pos ranges : forall ns, increasing ranges -> usable_points ns -> 0 < volume ranges ns.
Proof.
  induction ranges as [|r rs IH]; intros [|n ns] Hr Hn; cbn; try lra.
  inversion Hr; inversion Hn; subst. apply Rmult_lt_0_compat; [|now apply IH].
  apply Rdiv_lt_0_compat; [lra|]. assert (2 <= INR n) by (replace 2 with (INR 2) by (cbn; lra); now apply le_INR). lra.
Qed.

Lemma size_pos ns : usable_points ns -> (0 < size ns)%nat.
Proof. intros H; induction H; cbn; [lia|]. nia. Qed.

Lemma map_nth_in {A B} (f : A -> B) l i d d' : (i < length l)%nat -> nth i (map f l) d = f (nth i l d').
Proof. apply nth_map_in. Qed.

Lemma density_spec pot kt ranges ns :
  length ranges = pot_ndim pot -> length ns = pot_ndim pot -> increasing ranges -> usable_points ns -> 0 < kt ->
  exists g Zc, calculate_probability_density pot kt ranges ns = Ok g /\ 0 < Zc /\
    filled g /\ g_npoints g = ns /\ g_ranges g = ranges /\
    Forall (fun x => 0 < x) (a_flat (g_data g)) /\
    total (a_flat (g_data g)) * volume ranges ns = 1 /\
    forall idx, in_shape ns idx ->
      nth (flat_pos (listing ns) (listing idx)) (a_flat (g_data g)) 0
      = exp (- pot_energy pot (grid_point ranges ns idx) / kt) / Zc.
Proof.
  intros Hr Hn Hi Hu Hk. unfold calculate_probability_density. rewrite Hr, Hn, Nat.eqb_refl. cbn [negb].
  destruct (@from_npoints_ok R ranges ns) as (g0 & E0 & R0 & N0 & D0 & _ & S0); [congruence|assumption|].
  rewrite E0. cbn [bind].
  assert (consistent g0) as C0 by (split; rewrite ?R0, ?N0, D0; congruence).
  destruct (set_from_func_ok g0 (pot_energy pot) C0) as (g1 & E1 & G1 & Sh1 & F1). rewrite E1. cbn [bind].
  assert (filled g1) as Fi1.
  { destruct G1 as (A1 & A2 & A3 & A4). unfold filled, consistent. rewrite A1, A2, A3, A4, R0, N0, D0.
    repeat split; try congruence. rewrite F1, map_length, points_length by assumption. congruence. }
  destruct (perform_math_ok g1 Ropp Fi1) as (g2 & E2 & Fi2 & G2 & F2). rewrite E2. cbn [bind].
  destruct (arithmetic_number 0 g2 kt Rdiv Fi2) as (g3 & E3 & Fi3 & G3 & F3). rewrite E3. cbn [bind].
  destruct (perform_math_ok g3 exp Fi3) as (g4 & E4 & Fi4 & G4 & F4). rewrite E4. cbn [bind].
  destruct (arithmetic_number 0 g4 (rsum (a_flat (g_data g4)) * prod_R (g_steps g4)) Rdiv Fi4) as (g5 & E5 & Fi5 & G5 & F5).
  assert (a_flat (g_data g4) = map (fun p => exp (- pot_energy pot p / kt)) (points g0)) as F4'.
  { rewrite F4, F3, F2, F1, !map_map. reflexivity. }
  assert (g_npoints g5 = ns /\ g_ranges g5 = ranges /\ g_steps g4 = g_steps g0) as (N5 & R5 & S4).
  { destruct G1 as (a1 & a2 & a3 & _), G2 as (b1 & b2 & b3 & _), G3 as (c1 & c2 & c3 & _), G4 as (d1 & d2 & d3 & _), G5 as (e1 & e2 & e3 & _).
    repeat split; congruence. }
  assert (prod_R (g_steps g4) = volume ranges ns) as Hv.
  { rewrite S4. destruct (stepsizes_ok ranges ns) as (st & Es & _ & _ & Hv); [congruence|assumption|].
    rewrite Es in S0. injection S0 as <-. exact Hv. }
  pose proof (volume_pos ranges ns Hi Hu) as Pv.
  assert (Forall (fun x => 0 < x) (a_flat (g_data g4))) as Pos4.
  { rewrite F4'. apply Forall_map, Forall_forall. intros; apply exp_pos. }
  assert (length (points g0) = size ns) as Lp by (rewrite points_length by assumption; congruence).
  assert (0 < total (a_flat (g_data g4))) as Pt.
  { apply total_pos; [|assumption]. intros E. apply (f_equal (@length R)) in E. rewrite F4', map_length, Lp in E.
    pose proof (size_pos ns Hu). cbn in E. lia. }
  set (Zc := rsum (a_flat (g_data g4)) * prod_R (g_steps g4)) in *.
  assert (0 < Zc) as Pz by (unfold Zc; rewrite Hv; apply Rmult_lt_0_compat; assumption).
  exists g5, Zc. split; [exact E5|]. split; [assumption|]. split; [assumption|]. split; [assumption|]. split; [assumption|].
  split; [|split].
  - rewrite F5. apply Forall_map. eapply Forall_impl; [|exact Pos4]. intros x Hx. apply Rdiv_lt_0_compat; assumption.
  - rewrite F5, total_div. unfold Zc. rewrite Hv. change rsum with total. field. split; lra.
  - intros idx Hin. rewrite F5, F4', map_map. clear E0 S0. subst ranges ns.
    apply (map_points_at 0 g0 (fun p => exp (- pot_energy pot p / kt) / Zc)); auto.
Qed.

Lemma density_row_major pot kt ranges ns :
  length ranges = pot_ndim pot -> length ns = pot_ndim pot -> increasing ranges -> usable_points ns -> 0 < kt ->
  (pot_ndim pot <= 2)%nat ->
  exists g Zc, calculate_probability_density pot kt ranges ns = Ok g /\ 0 < Zc /\
    filled g /\ g_npoints g = ns /\ g_ranges g = ranges /\
    Forall (fun x => 0 < x) (a_flat (g_data g)) /\
    total (a_flat (g_data g)) * volume ranges ns = 1 /\
    forall idx, in_shape ns idx ->
      entry ns (a_flat (g_data g)) idx = exp (- pot_energy pot (grid_point ranges ns idx) / kt) / Zc.
Proof.
  intros Hr Hn Hi Hu Hk Hd.
  destruct (density_spec pot kt ranges ns) as (g & Zc & E & Pz & F & N & Rr & P & T & V); auto.
  exists g, Zc. split; [assumption|]. split; [assumption|]. split; [assumption|]. split; [assumption|].
  split; [assumption|]. split; [assumption|]. split; [assumption|].
  intros idx Hin. rewrite <- V by assumption. unfold entry.
  rewrite !listing_small; [reflexivity| |lia]. rewrite (in_shape_len _ _ Hin). lia.
Qed.

(** in three dimensions the values are at other indices: the energy z on a 2x2x2 grid *)
Lemma density_3d_wrong : exists pot g idx1 idx2,
  pot_ndim pot = 3%nat /\
  calculate_probability_density pot 1 [(0, 1); (0, 1); (0, 1)] [2; 2; 2]%nat = Ok g /\
  in_shape [2; 2; 2]%nat idx1 /\ in_shape [2; 2; 2]%nat idx2 /\
  pot_energy pot (grid_point [(0, 1); (0, 1); (0, 1)] [2; 2; 2]%nat idx1)
  < pot_energy pot (grid_point [(0, 1); (0, 1); (0, 1)] [2; 2; 2]%nat idx2) /\
  entry [2; 2; 2]%nat (a_flat (g_data g)) idx1 = entry [2; 2; 2]%nat (a_flat (g_data g)) idx2.
Proof.
  set (pot := mkPot 3 [] (fun p => nth 2 p 0) (fun _ => []) None).
  destruct (density_spec pot 1 [(0, 1); (0, 1); (0, 1)] [2; 2; 2]%nat) as (g & Zc & E & Pz & _ & _ & _ & _ & _ & V);
    [reflexivity|reflexivity|repeat constructor; cbn; lra|repeat constructor|lra|].
  exists pot, g, [0;0;0]%nat, [0;0;1]%nat. split; [reflexivity|]. split; [exact E|].
  assert (forall a b c, (a < 2)%nat -> (b < 2)%nat -> (c < 2)%nat -> in_shape [2;2;2]%nat [a;b;c]) as Hs
    by (intros; do 3 (apply Forall2_cons; [assumption|]); apply Forall2_nil).
  split; [apply Hs; lia|]. split; [apply Hs; lia|].
  split.
  { unfold pot, grid_point, coordinate; cbn. lra. }
  pose proof (V [0;0;0]%nat ltac:(apply Hs; lia)) as V0. pose proof (V [0;1;0]%nat ltac:(apply Hs; lia)) as V1.
  unfold entry. cbn [flat_pos size listing rev app Nat.mul Nat.add] in *.
  rewrite V0, V1. unfold pot; cbn [pot_energy grid_point nth]. reflexivity.
Qed.

(** a 3D grid whose points are not in row-major order *)
Lemma points_3d_wrong : exists (g : grid R) idx,
  from_npoints [(0, 1); (0, 1); (0, 1)] (NList [2; 2; 2]%nat) = Ok g /\ in_shape [2; 2; 2]%nat idx /\
  nth (flat_pos [2; 2; 2]%nat idx) (points g) [] <> grid_point [(0, 1); (0, 1); (0, 1)] [2; 2; 2]%nat idx.
Proof.
  destruct (@from_npoints_ok R [(0, 1); (0, 1); (0, 1)] [2; 2; 2]%nat) as (g & E & Rg & N & D & _); [reflexivity|repeat constructor|].
  exists g, [0;0;1]%nat. split; [exact E|]. split; [repeat constructor|].
  pose proof (points_exact g [0;1;0]%nat) as H. rewrite Rg, N in H.
  cbn [flat_pos size listing rev app Nat.mul Nat.add] in *. rewrite H.
  - cbn [grid_point]. intros [= H1 H2]. unfold coordinate in *; cbn in *. lra.
  - split; [rewrite Rg, D|rewrite N, D]; reflexivity.
  - repeat constructor.
  - repeat constructor.
Qed.

(** ** from_stepsizes *)
Lemma Rceil_bounds x : x <= IZR (Rceil x) < x + 1.
Proof.
  unfold Rceil. rewrite opp_IZR. destruct (base_Int_part (- x)) as [H1 H2]. lra.
Qed.
Lemma Rceil_pos x : 0 < x -> (0 < Rceil x)%Z.
Proof. intros H. apply lt_IZR. pose proof (Rceil_bounds x). lra. Qed.
Lemma Rceil_unique x k : x <= IZR k < x + 1 -> Rceil x = k.
Proof.
  intros H. pose proof (Rceil_bounds x). assert (IZR (Rceil x) - 1 < IZR k) as A by lra. assert (IZR k < IZR (Rceil x) + 1) as B by lra.
  rewrite <- minus_IZR in A. rewrite <- plus_IZR in B. apply lt_IZR in A, B. lia.
Qed.

(** range and number of points of one dimension *)
Definition steps_dim (shrink : bool) (r : R * R) (s : R) : (R * R) * Z :=
  let n := (Rceil ((snd r - fst r) / s) + 1 - (if shrink then 1 else 0))%Z in
  ((fst r, fst r + s * IZR (n - 1)), n).

Lemma from_stepsizes_loop_ok shrink : forall ranges steps, length ranges = length steps ->
  Forall (fun s => 0 < s) steps ->
  from_stepsizes_loop ranges steps shrink
  = Ok (split (map (fun rs => steps_dim shrink (fst rs) (snd rs)) (combine ranges steps))).
Proof.
  induction ranges as [|r rs IH]; intros [|s ss] Hl Hs; cbn in Hl; try lia; [reflexivity|].
  inversion Hs; subst. cbn [from_stepsizes_loop]. destruct (Req_EM_T s 0); [lra|]. rewrite IH by (try assumption; lia).
  cbn [bind combine map split]. destruct (split _) as [a b]. reflexivity.
Qed.

Lemma steps_dim_axis (shrink : bool) r s : fst r < snd r -> 0 < s ->
  let a := linspace (fst (fst (steps_dim shrink r s))) (snd (fst (steps_dim shrink r s))) (Z.to_nat (snd (steps_dim shrink r s))) in
  (1 <= length a)%nat /\
  (forall k, (k < length a)%nat -> nth k a 0 = fst r + INR k * s) /\
  last a 0 = fst r + s * IZR (Rceil ((snd r - fst r) / s) - (if shrink then 1 else 0)).
Proof.
  intros Hr Hs. unfold steps_dim; cbn [fst snd].
  set (c := Rceil ((snd r - fst r) / s)). assert (0 < c)%Z as Hc.
  { apply Rceil_pos. apply Rdiv_lt_0_compat; lra. }
  set (n := (c + 1 - (if shrink then 1 else 0))%Z). assert (1 <= n)%Z as Hn by (unfold n; destruct shrink; lia).
  replace (c - (if shrink then 1 else 0))%Z with (n - 1)%Z by (unfold n; lia).
  set (m := Z.to_nat n). cbv zeta.
  assert (length (linspace (fst r) (fst r + s * IZR (n - 1)) m) = m) as Hlen by (unfold linspace; now rewrite map_length, seq_length).
  assert (1 <= m)%nat as Hm by (unfold m; lia).
  assert (IZR (n - 1) = INR (m - 1)) as En.
  { rewrite INR_IZR_INZ. f_equal. unfold m. lia. }
  assert (forall k, (k < m)%nat -> nth k (linspace (fst r) (fst r + s * IZR (n - 1)) m) 0 = fst r + INR k * s) as Hk.
  { intros k Hk. unfold linspace. rewrite (nth_map_in _ _ _ _ 0%nat) by (rewrite seq_length; assumption).
    rewrite seq_nth by assumption. cbn [Nat.add]. rewrite En.
    destruct (Nat.eq_dec m 1) as [E1|N1].
    - assert (k = 0)%nat as -> by lia. cbn. lra.
    - assert (INR (m - 1) <> 0) by (apply not_0_INR; lia).
      replace (fst r + s * INR (m - 1) - fst r) with (s * INR (m - 1)) by lra. field. assumption. }
  rewrite Hlen. split; [assumption|]. split; [assumption|].
  assert (forall (l : list R) d, l <> [] -> last l d = nth (length l - 1) l d) as Hlast.
  { clear. induction l as [|x l IH]; intros d Hl; [congruence|]. destruct l as [|y l]; [reflexivity|].
    change (last (x :: y :: l) d) with (last (y :: l) d). rewrite IH by discriminate.
    cbn [length]. replace (S (S (length l)) - 1)%nat with (S (S (length l) - 1)) by lia. reflexivity. }
  rewrite Hlast by (intros E; rewrite E in Hlen; cbn in Hlen; lia).
  rewrite Hlen, Hk by lia. rewrite En. lra.
Qed.

Lemma from_stepsizes_spec (shrink : bool) ranges steps (ok : R * R -> R -> R -> Prop) :
  length ranges = length steps -> increasing ranges -> Forall (fun s => 0 < s) steps ->
  (forall r s, fst r < snd r -> 0 < s ->
     ok r s (fst r + s * IZR (Rceil ((snd r - fst r) / s) - (if shrink then 1 else 0)))) ->
  exists g : grid R, from_stepsizes ranges (SList steps) shrink = Ok g /\ spaced ranges steps g ok.
Proof.
  intros Hl Hi Hs Hok. unfold from_stepsizes. rewrite from_stepsizes_loop_ok by assumption. cbn [bind].
  destruct (split _) as [rs ns] eqn:Esp. eexists; split; [reflexivity|].
  assert (axes_of rs (map Z.to_nat ns) =
    map (fun rs => linspace (fst (fst (steps_dim shrink (fst rs) (snd rs)))) (snd (fst (steps_dim shrink (fst rs) (snd rs))))
                    (Z.to_nat (snd (steps_dim shrink (fst rs) (snd rs))))) (combine ranges steps)) as Eax.
  { clear -Esp. revert rs ns Esp. induction (combine ranges steps) as [|[r s] l IH]; intros rs ns; cbn [map split].
    - intros [= <- <-]. reflexivity.
    - destruct (split _) as [a b] eqn:E. unfold steps_dim at 1; cbn [fst snd]. intros [= <- <-].
      unfold axes_of in *. cbn [map combine fst snd]. f_equal. now apply IH. }
  split; [reflexivity|]. split; [reflexivity|].
  unfold axes; cbn [g_ranges g_npoints]. rewrite Eax.
  split. { rewrite map_length, combine_length. lia. }
  intros d Hd. cbv zeta.
  rewrite (nth_map_in _ _ _ _ ((0, 0), 0)) by (rewrite combine_length; lia).
  rewrite combine_nth by assumption. cbn [fst snd].
  assert (fst (nth d ranges (0, 0)) < snd (nth d ranges (0, 0))) as H1.
  { unfold increasing in Hi. rewrite Forall_forall in Hi. apply Hi, nth_In. assumption. }
  assert (0 < nth d steps 0) as H2 by (rewrite Forall_forall in Hs; apply Hs, nth_In; lia).
  destruct (steps_dim_axis shrink _ _ H1 H2) as (A1 & A2 & A3). cbv zeta in *.
  split; [assumption|]. split; [assumption|]. rewrite A3. now apply Hok.
Qed.

Lemma div_mul_le x s k : 0 < s -> x / s <= k -> x <= s * k.
Proof. intros Hs H. apply Rmult_le_compat_l with (r := s) in H; [|lra]. replace (s * (x / s)) with x in H by (field; lra). lra. Qed.
Lemma div_mul_lt x s k : 0 < s -> k < x / s + 1 -> s * k < x + s.
Proof. intros Hs H. apply Rmult_lt_compat_l with (r := s) in H; [|lra]. replace (s * (x / s + 1)) with (x + s) in H by (field; lra). lra. Qed.

Lemma from_stepsizes_extend ranges steps :
  length ranges = length steps -> increasing ranges -> Forall (fun s => 0 < s) steps ->
  exists g : grid R, from_stepsizes ranges (SList steps) false = Ok g /\
    spaced ranges steps g (fun r s lst => snd r <= lst < snd r + s).
Proof.
  intros. apply from_stepsizes_spec; auto. intros r s Hr Hs. rewrite Z.sub_0_r.
  pose proof (Rceil_bounds ((snd r - fst r) / s)) as [A B].
  apply div_mul_le in A; [|assumption]. apply div_mul_lt in B; [|assumption]. lra.
Qed.

(** with shrink: the last point is strictly below the maximum, at most one step *)
Lemma from_stepsizes_shrink ranges steps :
  length ranges = length steps -> increasing ranges -> Forall (fun s => 0 < s) steps ->
  exists g : grid R, from_stepsizes ranges (SList steps) true = Ok g /\
    spaced ranges steps g (fun r s lst => snd r - s <= lst < snd r /\
      (lst = snd r - s <-> exists k : Z, snd r - fst r = IZR k * s)).
Proof.
  intros. apply from_stepsizes_spec; auto. intros r s Hr Hs. rewrite minus_IZR.
  pose proof (Rceil_bounds ((snd r - fst r) / s)) as [A B].
  pose proof (div_mul_le _ _ _ Hs A). pose proof (div_mul_lt _ _ _ Hs B).
  split; [lra|]. split.
  - intros E. exists (Rceil ((snd r - fst r) / s)). lra.
  - intros (k & E). assert (Rceil ((snd r - fst r) / s) = k) as ->.
    { apply Rceil_unique. rewrite E. replace (IZR k * s / s) with (IZR k) by (field; lra). lra. }
    lra.
Qed.

Lemma from_stepsizes_shrink_noexact ranges steps :
  length ranges = length steps -> increasing ranges -> Forall (fun s => 0 < s) steps ->
  (forall d, (d < length ranges)%nat -> forall k : Z, snd (nth d ranges (0,0)) - fst (nth d ranges (0,0)) <> IZR k * nth d steps 0) ->
  exists g : grid R, from_stepsizes ranges (SList steps) true = Ok g /\
    spaced ranges steps g (fun r s lst => snd r - s < lst <= snd r).
Proof.
  intros H1 H2 H3 Hne. destruct (from_stepsizes_shrink ranges steps) as (g & E & S1 & S2 & S3 & S4); auto.
  exists g. split; [assumption|]. split; [assumption|]. split; [assumption|]. split; [assumption|].
  intros d Hd. destruct (S4 d Hd) as (A & B & C & D). cbv zeta in *. split; [assumption|]. split; [assumption|].
  split; [|lra]. destruct C as [C _]. destruct (Rle_lt_or_eq_dec _ _ C) as [|E']; [assumption|].
  exfalso. symmetry in E'. apply D in E' as (k & Ek). now apply (Hne d Hd k).
Qed.

Lemma from_stepsizes_shrink_bad : exists g : grid R, from_stepsizes [(0, 2)] (SList [1]) true = Ok g /\
  ~ spaced [(0, 2)] [1] g (fun r s lst => snd r - s < lst <= snd r).
Proof.
  destruct (from_stepsizes_shrink [(0, 2)] [1]) as (g & E & S1 & S2 & S3 & S4);
    [reflexivity|repeat constructor; cbn; lra|repeat constructor; lra|].
  exists g. split; [assumption|]. intros (_ & _ & _ & H).
  destruct (S4 0%nat ltac:(cbn; lia)) as (_ & _ & _ & [_ D]). destruct (H 0%nat ltac:(cbn; lia)) as (_ & _ & C).
  cbv zeta in *. cbn [nth fst snd] in *. rewrite D in C; [lra|]. exists 2%Z. lra.
Qed.

Lemma from_stepsizes_one (ranges : list (R * R)) s shrink :
  @from_stepsizes R ranges (SOne s) shrink = from_stepsizes ranges (SList (repeat s (length ranges))) shrink.
Proof. unfold from_stepsizes. destruct (Nat.eqb_spec (length ranges) 1) as [E|N]; [rewrite E|]; reflexivity. Qed.

(** ** convolution *)
Lemma rsum_app a b : rsum (a ++ b) = rsum a + rsum b.
Proof. unfold rsum. induction a as [|x a IH]; cbn; [lra|]. rewrite IH. lra. Qed.

Lemma rsum_indices f s : rsum (map f (indices s)) = nsum s f.
Proof.
  revert f; induction s as [|n s IH]; intros f; cbn [indices nsum]; [unfold rsum; cbn; lra|].
  induction (seq 0 n) as [|i l IHl]; cbn [flat_map map]; [reflexivity|].
  rewrite map_app, rsum_app, IHl. cbn [total fold_right]. f_equal. rewrite map_map. apply IH.
Qed.

Lemma nsum_ext s f g : (forall t, in_shape s t -> f t = g t) -> nsum s f = nsum s g.
Proof.
  intros H. rewrite <- !rsum_indices. f_equal. apply map_ext_in. intros t Ht. apply H. now apply in_indices.
Qed.

Lemma conv_index_valid nl : forall ns i j,
  Forall2 (fun l s => (s <= l)%nat) nl ns ->
  in_shape (map (fun p => (fst p - snd p + 1)%nat) (combine nl ns)) i -> in_shape ns j ->
  conv_index nl i (map (fun n => (n - 1)%nat) ns) j = Some (partner i ns j) /\ in_shape nl (partner i ns j).
Proof.
  induction nl as [|l nl IH]; intros ns i j Hls Hi Hj; inversion Hls; subst; cbn [combine map fst snd] in Hi.
  - inversion Hi; inversion Hj; subst. split; [reflexivity|constructor].
  - inversion Hi as [|? a ? i' Ha Hi']; subst. inversion Hj as [|? b ? j' Hb Hj']; subst.
    match goal with H : Forall2 _ nl ?ns' |- _ => destruct (IH ns' i' j' H Hi' Hj') as (E & Hin) end.
    cbn [map conv_index partner]. rewrite E.
    replace (Nat.leb b (a + (y - 1)) && Nat.ltb (a + (y - 1) - b) l) with true by lia.
    split; [reflexivity|]. constructor; [lia|assumption].
Qed.

Definition arr_ok (a : arr R) : Prop := length (a_flat a) = size (a_shape a).

Lemma conv_at_valid (a b : arr R) idx :
  Forall2 (fun l s => (s <= l)%nat) (a_shape a) (a_shape b) ->
  in_shape (map (fun p => (fst p - snd p + 1)%nat) (combine (a_shape a) (a_shape b))) idx ->
  conv_at a b (map (fun n => (n - 1)%nat) (a_shape b)) idx
  = nsum (a_shape b) (fun j => entry (a_shape a) (a_flat a) (partner idx (a_shape b) j) * entry (a_shape b) (a_flat b) j).
Proof.
  intros Hls Hi. unfold conv_at. rewrite rsum_indices. apply nsum_ext. intros j Hj.
  destruct (conv_index_valid _ _ _ _ Hls Hi Hj) as (E & Hin). rewrite E.
  unfold a_at, entry. now rewrite !ravel_flat.
Qed.

Lemma all_ge_spec s1 s2 : all_ge s1 s2 = true <-> Forall2 (fun l s => (s <= l)%nat) s1 s2.
Proof.
  unfold all_ge. rewrite andb_true_iff, Nat.eqb_eq. revert s2; induction s1 as [|a s1 IH]; intros [|b s2]; cbn.
  - split; [constructor|auto].
  - split; [intros [H _]; discriminate|inversion 1].
  - split; [intros [H _]; discriminate|inversion 1].
  - rewrite andb_true_iff, Nat.leb_le. split.
    + intros [H1 [H2 H3]]. constructor; [assumption|]. apply IH. split; [congruence|assumption].
    + inversion 1; subst. match goal with H : Forall2 _ _ _ |- _ => apply IH in H as [H ?] end. auto.
Qed.

Lemma valid_geometry : forall rl nl ns st,
  stepsizes_from_npoints rl nl = Ok st -> length rl = length nl ->
  Forall2 (fun l s => (s < l)%nat) nl ns ->
  usable_points nl -> 
  stepsizes_from_npoints (valid_ranges rl ns st) (map (fun p => (fst p - snd p + 1)%nat) (combine nl ns)) = Ok st /\
  length (valid_ranges rl ns st) = length nl /\
  Forall2 (fun r' r => fst r' + snd r' = fst r + snd r) (valid_ranges rl ns st) rl.
Proof.
  induction rl as [|r rl IH]; intros nl ns st Hst Hl Hls Hu.
  - destruct nl; [|discriminate]. inversion Hls; subst. cbn in *. injection Hst as <-. repeat split; constructor.
  - destruct nl as [|l nl]; [discriminate|]. inversion Hls as [|? s ? ns' Hlt Hls']; subst. inversion Hu; subst.
    cbn [stepsizes_from_npoints] in Hst. destruct (Nat.eqb_spec l 1); [lia|].
    destruct (stepsizes_from_npoints rl nl) as [t|] eqn:Et; [|discriminate]. cbn [bind] in Hst. injection Hst as <-.
    destruct (IH nl ns' t Et) as (E & L & F); [cbn in Hl; lia|assumption|assumption|].
    cbn [valid_ranges combine map fst snd stepsizes_from_npoints].
    destruct (Nat.eqb_spec (l - s + 1) 1); [lia|]. rewrite E. cbn [bind].
    assert (2 <= INR l) as Hl2 by (replace 2 with (INR 2) by (cbn; lra); now apply le_INR).
    assert (INR s < INR l) by now apply lt_INR.
    split; [|split; [cbn; lia|constructor; [cbn; lra|assumption]]].
    f_equal. f_equal. rewrite plus_INR, minus_INR by lia. cbn [INR]. field. split; lra.
Qed.

Lemma list_ltb_lt s1 s2 : s1 <> [] -> Forall2 (fun l s => (s < l)%nat) s1 s2 -> list_ltb s2 s1 = true /\ list_ltb s1 s2 = false.
Proof.
  intros Hne H. destruct H as [|l s nl ns Hlt H]; [congruence|]. cbn [list_ltb].
  rewrite (proj2 (Nat.ltb_lt s l) Hlt).
  rewrite (proj2 (Nat.ltb_ge l s)) by lia. rewrite (proj2 (Nat.eqb_neq l s)) by lia. auto.
Qed.

Lemma Forall2_weaken {A B} (P Q : A -> B -> Prop) l1 l2 : (forall a b, P a b -> Q a b) -> Forall2 P l1 l2 -> Forall2 Q l1 l2.
Proof. intros H F; induction F; constructor; auto. Qed.

Lemma size_indices_map {A} (f : list nat -> A) s : length (map f (indices s)) = size s.
Proof. now rewrite map_length, indices_length. Qed.

Lemma usable_diff nl ns : Forall2 (fun l s => (s < l)%nat) nl ns ->
  usable_points (map (fun p => (fst p - snd p + 1)%nat) (combine nl ns)).
Proof. intros H; induction H; cbn; constructor; auto. cbn. lia. Qed.

Lemma combine_len_map nl ns : Forall2 (fun l s : nat => (s < l)%nat) nl ns -> length (map (fun p : nat * nat => (fst p - snd p + 1)%nat) (combine nl ns)) = length nl.
Proof. intros H; rewrite map_length, combine_length; induction H; cbn; lia. Qed.

(** a grid with data, whose spacing is the one of its ranges is not needed (kernel grids) *)
Definition has_data (g : grid R) : Prop := a_shape (g_data g) = g_npoints g /\ length (a_flat (g_data g)) = size (g_npoints g).

Lemma convolve_valid gl gs g1 g2 :
  filled gl -> has_data gs -> g_steps gs = g_steps gl -> g_npoints gl <> [] ->
  Forall2 (fun l s => (s < l)%nat) (g_npoints gl) (g_npoints gs) ->
  (g1 = gl /\ g2 = gs) \/ (g1 = gs /\ g2 = gl) ->
  let ns := map (fun p => (fst p - snd p + 1)%nat) (combine (g_npoints gl) (g_npoints gs)) in
  exists h, convolve g1 g2 MValid = Ok h /\ filled h /\ g_npoints h = ns /\ g_steps h = g_steps gl /\
    Forall2 (fun r' r => fst r' + snd r' = fst r + snd r) (g_ranges h) (g_ranges gl) /\
    forall idx, in_shape ns idx ->
      entry ns (a_flat (g_data h)) idx
      = nsum (g_npoints gs) (fun j => entry (g_npoints gl) (a_flat (g_data gl)) (partner idx (g_npoints gs) j)
                                      * entry (g_npoints gs) (a_flat (g_data gs)) j) * prod_R (g_steps gl).
Proof.
  intros Fl [Hs1 Hs2] Est Hne Hls Hg ns. pose proof Fl as ([C1 C2] & Hu & Hst & Hsh & Hlen).
  assert (Forall2 (fun l s => (s <= l)%nat) (g_npoints gl) (g_npoints gs)) as Hle
    by (eapply Forall2_weaken; [|exact Hls]; cbv beta; lia).
  assert (length (g_npoints gl) = length (g_npoints gs)) as Hlen2 by (clear -Hls; induction Hls; cbn; congruence).
  assert (signal_convolve (g_data g1) (g_data g2) MValid
    = Ok (mkArr ns (map (conv_at (g_data gl) (g_data gs) (map (fun n => (n - 1)%nat) (g_npoints gs))) (indices ns)))) as Ec.
  { unfold signal_convolve. destruct Hg as [[-> ->]|[-> ->]]; rewrite Hs1, Hsh.
    - rewrite Hlen2, Nat.eqb_refl. cbn [negb]. replace (all_ge (g_npoints gl) (g_npoints gs)) with true by (symmetry; now apply all_ge_spec).
      reflexivity.
    - rewrite Hlen2, Nat.eqb_refl. cbn [negb].
      replace (all_ge (g_npoints gs) (g_npoints gl)) with false.
      + replace (all_ge (g_npoints gl) (g_npoints gs)) with true by (symmetry; now apply all_ge_spec). reflexivity.
      + symmetry. apply not_true_iff_false. rewrite all_ge_spec. intros F.
        destruct Hls; [congruence|]. inversion F; subst. lia. }
  destruct (list_ltb_lt _ _ Hne Hls) as [L1 L2].
  destruct (valid_geometry (g_ranges gl) (g_npoints gl) (g_npoints gs) (g_steps gl)) as (V1 & V2 & V3); [assumption|lia|assumption|assumption|].
  assert (usable_points ns) as Hun by now apply usable_diff.
  assert (length ns = length (g_npoints gl)) as Lns by now apply combine_len_map.
  destruct (@from_npoints_ok R (valid_ranges (g_ranges gl) (g_npoints gs) (g_steps gl)) ns) as (n & En & Rn & Nn & Dn & _ & Sn); [lia|assumption|].
  assert (g_steps n = g_steps gl) as Sn' by (fold ns in V1; rewrite V1 in Sn; injection Sn as <-; reflexivity).
  unfold convolve.
  assert (steps_eqb (g_steps g1) (g_steps g2) = true) as ->.
  { unfold steps_eqb. destruct (list_eq_dec _ _ _) as [|N]; [reflexivity|]. exfalso. apply N.
    destruct Hg as [[-> ->]|[-> ->]]; congruence. }
  cbn [negb]. rewrite Ec. cbn [bind a_shape a_flat].
  assert (g_steps g1 = g_steps gl) as Es1 by (destruct Hg as [[-> ->]|[-> ->]]; congruence). rewrite Es1.
  assert ((if list_ltb (g_npoints g2) (g_npoints g1) then (g2, g1) else (g1, g2)) = (gs, gl)) as ->.
  { destruct Hg as [[-> ->]|[-> ->]]; [rewrite L1|rewrite L2]; reflexivity. }
  cbv iota beta zeta. fold ns. rewrite En. cbn [bind].
  rewrite set_data_ok by (cbn; rewrite map_length, size_indices_map; congruence).
  eexists; split; [reflexivity|]. rewrite Nn, Rn, Dn, Sn'. cbn [a_flat].
  split; [|split; [reflexivity|split; [reflexivity|split; [assumption|]]]].
  - split; [split; cbn; congruence|]. split; [assumption|]. split; [assumption|]. split; [reflexivity|].
    cbn. now rewrite map_length, size_indices_map.
  - intros idx Hin. cbn [a_flat g_data]. unfold entry at 1.
    rewrite (nth_map_in _ _ _ _ 0) by (rewrite size_indices_map; now apply flat_pos_lt).
    rewrite (nth_map_in _ _ _ _ []) by (rewrite indices_length; now apply flat_pos_lt).
    rewrite nth_indices by assumption. f_equal.
    rewrite <- Hs1, <- Hsh. apply conv_at_valid; rewrite Hs1, Hsh; assumption.
Qed.

Lemma convolve_spacing g1 g2 m : g_steps g1 <> g_steps g2 -> convolve g1 g2 m = Err ValueError.
Proof. intros N. unfold convolve, steps_eqb. destruct (list_eq_dec _ _ _); [contradiction|reflexivity]. Qed.

(** ** integration *)
Fixpoint nested (ns : list nat) (dx : list R) (f : list nat -> R) : R :=
  match ns, dx with
  | n :: s, d :: ds => trapz1 d (map (fun i => nested s ds (fun t => f (i :: t))) (seq 0 n))
  | _, _ => f []
  end.

Lemma nested_snoc s n d : forall ds f, length ds = length s ->
  nested (s ++ [n]) (ds ++ [d]) f = nested s ds (fun idx => trapz1 d (map (fun c => f (idx ++ [c])) (seq 0 n))).
Proof.
  induction s as [|m s IH]; intros [|e ds] f Hl; cbn in Hl; try lia; [reflexivity|].
  cbn [app nested]. f_equal. apply map_ext. intros i. rewrite IH by lia. reflexivity.
Qed.

Lemma nd_trapz_nested : forall k s ds f, length s = k -> length ds = k ->
  nd_trapz (mkArr s (map f (indices s))) ds = Ok (mkArr [] [nested s ds f]).
Proof.
  induction k as [|k IH]; intros s ds f Hs Hd.
  - destruct s; [|discriminate]. destruct ds; [|discriminate]. reflexivity.
  - destruct (@exists_last _ s) as (s' & n & ->); [intros ->; discriminate|].
    destruct (@exists_last _ ds) as (ds' & d & ->); [intros ->; discriminate|].
    rewrite app_length in *. cbn in Hs, Hd. unfold nd_trapz. rewrite rev_app_distr. cbn [rev app nd_trapz_rev].
    unfold trapz_last. cbn [a_shape a_flat]. rewrite rev_app_distr. cbn [rev app].
    rewrite prod_size, size_rev, rev_involutive, rows_of_indices, map_map. cbn [bind].
    rewrite nested_snoc by lia. specialize (IH s' ds' (fun idx => trapz1 d (map (fun c => f (idx ++ [c])) (seq 0 n)))).
    unfold nd_trapz in IH. rewrite <- IH by lia. reflexivity.
Qed.

Lemma trapz1_lin d a b l : forall f g : nat -> R,
  trapz1 d (map (fun i => a * f i + b * g i) l) = a * trapz1 d (map f l) + b * trapz1 d (map g l).
Proof.
  induction l as [|i [|j l] IH]; intros f g; cbn [map trapz1]; try lra.
  cbn [map trapz1] in IH. rewrite IH. lra.
Qed.
Lemma trapz1_scale d c l (f : nat -> R) : trapz1 d (map (fun i => c * f i) l) = c * trapz1 d (map f l).
Proof. pose proof (trapz1_lin d c 0 l f f) as H. rewrite <- (map_ext (fun i => c * f i + 0 * f i)) by (intros; lra). rewrite H. lra. Qed.

Lemma nested_lin s : forall ds a b f g, nested s ds (fun i => a * f i + b * g i) = a * nested s ds f + b * nested s ds g.
Proof.
  induction s as [|n s IH]; intros [|d ds] a b f g; cbn [nested]; try reflexivity.
  rewrite <- trapz1_lin. f_equal. apply map_ext. intros i. apply IH.
Qed.

Lemma nested_scale s ds c f : nested s ds (fun i => c * f i) = c * nested s ds f.
Proof.
  revert ds f; induction s as [|n s IH]; intros [|d ds] f; cbn [nested]; try reflexivity.
  rewrite <- trapz1_scale. f_equal. apply map_ext. intros i. apply IH.
Qed.

Lemma trapz1_affine a b lo d : forall m k,
  trapz1 d (map (fun i => a + b * (lo + INR i * d)) (seq k (S m)))
  = affine_integral a b (lo + INR k * d) (lo + INR (k + m) * d).
Proof.
  induction m as [|m IH]; intros k.
  - cbn. rewrite Nat.add_0_r. unfold affine_integral. lra.
  - assert (forall f : nat -> R, trapz1 d (map f (seq k (S (S m))))
      = d * (f k + f (S k)) / 2 + trapz1 d (map f (seq (S k) (S m)))) as H by reflexivity.
    rewrite H, IH. unfold affine_integral. replace (S k + m)%nat with (k + S m)%nat by lia. rewrite S_INR. field.
Qed.

Lemma nested_affine : forall fs ns, length fs = length ns -> Forall (fun n => (1 <= n)%nat) ns ->
  nested ns (map (fun q => snd q) fs) (affine_product fs) = affine_product_integral fs ns.
Proof.
  induction fs as [|[[[a b] lo] d] fs IH]; intros [|n ns] Hl Hn; cbn in Hl; try lia; [reflexivity|].
  inversion Hn; subst. cbn [map snd nested affine_product_integral affine_product].
  rewrite <- IH by (try assumption; lia).
  rewrite (map_ext _ (fun i => nested ns (map (fun q => snd q) fs) (affine_product fs) * (a + b * (lo + INR i * d)))).
  2:{ intros i. rewrite nested_scale. lra. }
  rewrite trapz1_scale. destruct n as [|m]; [lia|]. rewrite trapz1_affine. cbn [Nat.add].
  replace (S m - 1)%nat with m by lia. replace (lo + INR 0 * d) with lo by (cbn; lra). lra.
Qed.

(** ** statements for arrays *)
Lemma nd_trapz_total shape dx flat : length dx = length shape -> length flat = size shape ->
  exists v, integral_is shape dx flat v.
Proof.
  intros Hd Hl. exists (nested shape dx (entry shape flat)). unfold integral_is.
  rewrite <- (list_is_indices 0 shape flat Hl) at 1. now apply nd_trapz_nested with (k := length shape).
Qed.

Lemma integral_value shape dx flat : length dx = length shape -> length flat = size shape ->
  integral_is shape dx flat (nested shape dx (entry shape flat)).
Proof.
  intros Hd Hl. unfold integral_is.
  rewrite <- (list_is_indices 0 shape flat Hl) at 1. now apply nd_trapz_nested with (k := length shape).
Qed.

Lemma nd_trapz_linear shape dx a b f g vf vg : length dx = length shape -> length f = size shape -> length g = size shape ->
  integral_is shape dx f vf -> integral_is shape dx g vg ->
  integral_is shape dx (map (fun xy => a * fst xy + b * snd xy) (combine f g)) (a * vf + b * vg).
Proof.
  intros Hd Hf Hg If Ig. unfold integral_is in *.
  rewrite (integral_value shape dx f Hd Hf) in If. rewrite (integral_value shape dx g Hd Hg) in Ig.
  injection If as <-. injection Ig as <-. rewrite <- nested_lin.
  rewrite <- (combine_indices 0 (fun x y => a * x + b * y) shape f g) by assumption.
  exact (nd_trapz_nested (length shape) shape dx (fun i => a * entry shape f i + b * entry shape g i) eq_refl Hd).
Qed.

Lemma nd_trapz_affine shape fs : length fs = length shape -> Forall (fun n => (1 <= n)%nat) shape ->
  forall flat, length flat = size shape ->
  (forall idx, in_shape shape idx -> entry shape flat idx = affine_product fs idx) ->
  integral_is shape (map (fun q => snd q) fs) flat (affine_product_integral fs shape).
Proof.
  intros Hl Hn flat Hf H. assert (flat = map (affine_product fs) (indices shape)) as ->.
  { rewrite <- (list_is_indices 0 shape flat Hf) at 1. apply map_ext_in. intros idx Hin. apply H. now apply in_indices. }
  unfold integral_is. rewrite nd_trapz_nested with (k := length shape); [|reflexivity|rewrite map_length; assumption].
  now rewrite nested_affine.
Qed.

Lemma nd_trapz_const shape dx c : length dx = length shape -> Forall (fun n => (1 <= n)%nat) shape ->
  integral_is shape dx (repeat c (size shape)) (c * box_volume dx shape).
Proof.
  intros Hd Hn. set (fs := map (fun d => (1, 0, 0, d)) dx).
  assert (map (fun q : R * R * R * R => snd q) fs = dx) as Efs.
  { unfold fs. rewrite map_map. cbn. apply map_id. }
  assert (forall idx, affine_product fs idx = 1) as Hone.
  { unfold fs. clear. induction dx as [|d dx IH]; intros [|i idx]; cbn; try reflexivity. rewrite IH. lra. }
  assert (affine_product_integral fs shape = box_volume dx shape) as Hint.
  { unfold fs. clear. revert shape; induction dx as [|d dx IH]; intros [|n shape]; cbn; try reflexivity.
    rewrite IH. unfold affine_integral. lra. }
  unfold integral_is. rewrite integral_value by (try assumption; apply repeat_length).
  repeat f_equal. rewrite <- Hint, <- Efs, <- nested_affine by (try assumption; unfold fs; rewrite map_length; assumption).
  rewrite Efs, <- nested_scale. clear -Hd Hn Hone.
  assert (forall idx, in_shape shape idx -> entry shape (repeat c (size shape)) idx = c * affine_product fs idx) as H.
  { intros idx Hi. rewrite Hone. unfold entry. rewrite (nth_indep _ 0 c) by (rewrite repeat_length; now apply flat_pos_lt). rewrite nth_repeat. lra. }
  revert H. generalize (entry shape (repeat c (size shape))). intros f H.
  pose proof (nd_trapz_nested (length shape) shape dx f eq_refl Hd) as E1.
  pose proof (nd_trapz_nested (length shape) shape dx (fun i => c * affine_product fs i) eq_refl Hd) as E2.
  rewrite (map_ext_in f (fun i => c * affine_product fs i)) in E1 by (intros; apply H; now apply in_indices).
  rewrite E1 in E2. now injection E2.
Qed.

(** ** grid for the birth-death corrections *)
Lemma bd_points_spec r bw : fst r < snd r -> 0 < bw ->
  (501 <= bd_grid_points r bw)%nat /\ Nat.odd (bd_grid_points r bw) = true /\
  19 * ((snd r - fst r) / (INR (bd_grid_points r bw) - 1)) <= 10 * bw.
Proof.
  intros Hr Hb. unfold bd_grid_points. set (q := (snd r - fst r) / (1 / 2 * bw)).
  pose proof (Rceil_bounds q) as [Hq _]. set (c := Rceil q) in *. set (m := Z.max 501 c).
  set (n := (if (m mod 2 =? 0)%Z then m + 1 else m)%Z).
  assert (501 <= n)%Z as H501 by (unfold n, m; destruct (Z.max 501 c mod 2 =? 0)%Z; lia).
  assert (c <= n)%Z as Hc by (unfold n, m; destruct (Z.max 501 c mod 2 =? 0)%Z; lia).
  assert (Z.odd n = true) as Hodd.
  { unfold n. destruct (Z.eqb_spec (m mod 2) 0) as [E|E].
    - rewrite Zmod_odd in E. rewrite Z.add_1_r, Z.odd_succ, <- Z.negb_odd. destruct (Z.odd m); [discriminate|reflexivity].
    - rewrite Zmod_odd in E. destruct (Z.odd m); [reflexivity|contradiction]. }
  split; [lia|]. split.
  { apply Z.odd_spec in Hodd as (h & Hh). apply Nat.odd_spec. exists (Z.to_nat h). lia. }
  assert (INR (Z.to_nat n) = IZR n) as -> by (rewrite INR_IZR_INZ; f_equal; lia).
  assert (501 <= IZR n) as H501' by (apply IZR_le in H501; exact H501).
  assert (q <= IZR n) as Hqn by (apply IZR_le in Hc; lra).
  assert (snd r - fst r <= 1/2 * bw * IZR n) as HL.
  { unfold q in Hqn. apply div_mul_le in Hqn; lra. }
  apply Rmult_le_reg_r with (IZR n - 1); [lra|].
  replace (19 * ((snd r - fst r) / (IZR n - 1)) * (IZR n - 1)) with (19 * (snd r - fst r)) by (field; lra).
  destruct (Rle_lt_dec (IZR n) 501) as [Hsm|Hbig]; nra.
Qed.

Lemma bd_n_points_ok : forall ranges bw, length ranges = length bw -> increasing ranges -> Forall (fun b => 0 < b) bw ->
  exists ns, bd_n_points ranges bw = Ok ns /\ length ns = length ranges /\
    forall d, (d < length ranges)%nat -> nth d ns 0%nat = bd_grid_points (nth d ranges (0,0)) (nth d bw 0).
Proof.
  induction ranges as [|r rs IH]; intros [|b bs] Hl Hi Hb; cbn in Hl; try lia.
  - exists []. repeat split. intros d Hd; cbn in Hd; lia.
  - inversion Hi; inversion Hb; subst. destruct (IH bs) as (ns & E & L & N); [lia|assumption|assumption|].
    cbn [bd_n_points]. rewrite E. cbn [bind]. eexists; split; [reflexivity|]. split; [cbn; lia|].
    intros [|d] Hd; cbn in *; [reflexivity|]. apply N. lia.
Qed.

(** the density grid and the kernel grid of dens_kernel_convolution *)
Lemma bd_density_grids pot bw kt :
  length (pot_ranges pot) = pot_ndim pot -> length bw = pot_ndim pot ->
  increasing (pot_ranges pot) -> Forall (fun b => 0 < b) bw -> 0 < kt ->
  exists g k, bd_prob_density pot bw kt = Ok g /\
    Forall (fun n => (501 <= n)%nat /\ Nat.odd n = true) (g_npoints g) /\
    @from_stepsizes R (map (fun b => (- (5 * b), 5 * b)) bw) (SList (g_steps g)) false = Ok k /\
    length (axes k) = pot_ndim pot /\
    forall d, (d < pot_ndim pot)%nat ->
      (20 <= length (nth d (axes k) []))%nat /\
      forall i, (i < 20)%nat -> - (5 * nth d bw 0) <= nth i (nth d (axes k) []) 0 <= 5 * nth d bw 0.
Proof.
  intros Hr Hb Hi Pb Pk. unfold bd_prob_density.
  destruct (bd_n_points_ok (pot_ranges pot) bw) as (ns & En & Ln & Nn); [congruence|assumption|assumption|].
  rewrite En. cbn [bind].
  assert (Forall (fun n => (501 <= n)%nat /\ Nat.odd n = true) ns) as Hns.
  { apply Forall_nth. intros d dflt Hd. rewrite nth_indep with (d' := 0%nat) by assumption. rewrite Nn by lia.
    destruct (bd_points_spec (nth d (pot_ranges pot) (0,0)) (nth d bw 0)) as (A & B & _); [| |auto].
    - unfold increasing in Hi. rewrite Forall_forall in Hi. apply Hi, nth_In; lia.
    - rewrite Forall_forall in Pb. apply Pb, nth_In; lia. }
  assert (usable_points ns) as Hu by (eapply Forall_impl; [|exact Hns]; cbv beta; lia).
  destruct (density_spec pot kt (pot_ranges pot) ns) as (g & Zc & E & _ & F & N & Rg & _); auto; [congruence|].
  rewrite E.
  assert (stepsizes_from_npoints (pot_ranges pot) ns = Ok (g_steps g)) as Hst by (rewrite <- N, <- Rg; apply F).
  destruct (stepsizes_ok (pot_ranges pot) ns) as (st & Es & Lst & Nst & _); [congruence|assumption|].
  rewrite Es in Hst. injection Hst as Hst.
  assert (forall d, (d < pot_ndim pot)%nat -> 0 < nth d st 0 /\ 19 * nth d st 0 <= 10 * nth d bw 0) as Hd.
  { intros d Hd. rewrite Nst by lia. rewrite Nn by lia.
    assert (fst (nth d (pot_ranges pot) (0,0)) < snd (nth d (pot_ranges pot) (0,0))) as H1
      by (unfold increasing in Hi; rewrite Forall_forall in Hi; apply Hi, nth_In; lia).
    assert (0 < nth d bw 0) as H2 by (rewrite Forall_forall in Pb; apply Pb, nth_In; lia).
    destruct (bd_points_spec _ _ H1 H2) as (A & _ & B). split; [|exact B].
    apply Rdiv_lt_0_compat; [lra|]. apply le_INR in A. replace (INR 501) with 501 in A by (rewrite INR_IZR_INZ; reflexivity). lra. }
  set (kr := map (fun b => (- (5 * b), 5 * b)) bw).
  destruct (from_stepsizes_extend kr st) as (k & Ek & _ & _ & Lk & Ax).
  { unfold kr. rewrite map_length. congruence. }
  { unfold kr. apply Forall_map. eapply Forall_impl; [|exact Pb]. cbn. intros; lra. }
  { apply Forall_nth. intros d dflt Hlt. rewrite nth_indep with (d' := 0) by assumption. apply Hd. lia. }
  exists g, k. split; [reflexivity|]. split; [rewrite N; assumption|]. split; [rewrite <- Hst; exact Ek|].
  split; [rewrite Lk; unfold kr; rewrite map_length; congruence|].
  intros d Hlt. assert (d < length kr)%nat as Hlt' by (unfold kr; rewrite map_length; lia).
  destruct (Ax d Hlt') as (A & B & C). cbv zeta in *.
  assert (nth d kr (0, 0) = (- (5 * nth d bw 0), 5 * nth d bw 0)) as Ekr.
  { unfold kr. now rewrite (nth_map_in _ _ _ _ 0) by lia. }
  rewrite Ekr in *. cbn [fst snd] in *. destruct (Hd d Hlt) as [P19 L19].
  assert (0 < nth d bw 0) as Pbd by (rewrite Forall_forall in Pb; apply Pb, nth_In; lia).
  assert (20 <= length (nth d (axes k) []))%nat as H20.
  { destruct (le_lt_dec 20 (length (nth d (axes k) []))) as [|Hlt20]; [assumption|exfalso].
    assert (last (nth d (axes k) []) 0 = - (5 * nth d bw 0) + INR (length (nth d (axes k) []) - 1) * nth d st 0) as El.
    { rewrite <- B by lia. destruct (nth d (axes k) []) as [|x l] eqn:Ea; [cbn in A; lia|].
      clear. revert x; induction l as [|y l IH]; intros x; [reflexivity|].
      change (last (x :: y :: l) 0) with (last (y :: l) 0). rewrite IH. cbn [length].
      replace (S (S (length l)) - 1)%nat with (S (S (length l) - 1)) by lia. reflexivity. }
    rewrite El in C. assert (INR (length (nth d (axes k) []) - 1) <= 18).
    { replace 18 with (INR 18) by (rewrite INR_IZR_INZ; reflexivity). apply le_INR. lia. }
    nra. }
  split; [assumption|]. intros i Hi20. rewrite B by lia.
  assert (0 <= INR i) by apply pos_INR.
  assert (INR i <= 19). { replace 19 with (INR 19) by (rewrite INR_IZR_INZ; reflexivity). apply le_INR. lia. }
  split; nra.
Qed.

(** ** statements with grid_of *)
Lemma stepsizes_spacings ranges : forall ns, length ranges = length ns -> usable_points ns ->
  stepsizes_from_npoints ranges ns = Ok (spacings ranges ns).
Proof.
  induction ranges as [|r rs IH]; intros [|n ns] Hl Hu; cbn in Hl; try lia; [reflexivity|].
  inversion Hu; subst. cbn [stepsizes_from_npoints spacings]. destruct (Nat.eqb_spec n 1); [lia|].
  rewrite IH by (try assumption; lia). reflexivity.
Qed.

Lemma grid_of_filled {A} (g : grid A) ranges ns v : grid_of g ranges ns v <->
  filled g /\ g_ranges g = ranges /\ g_npoints g = ns /\ a_flat (g_data g) = v.
Proof.
  unfold grid_of, filled, consistent. split.
  - intros (Hl & Hu & Er & En & Ed & Es & Esh & Ef & Hv). subst.
    rewrite stepsizes_spacings, Es, Ed, Esh by assumption.
    split; [split; [split; congruence|auto]|auto].
  - intros (([H1 H2] & Hu & Hs & Hsh & Hln) & <- & <- & <-).
    assert (length (g_ranges g) = length (g_npoints g)) as Hl by congruence.
    rewrite stepsizes_spacings in Hs by assumption. injection Hs as Hs.
    rewrite <- Hs, H2, Hsh. auto 12.
Qed.

Lemma new_grid {A} ranges ns : length ranges = length ns -> usable_points ns ->
  exists g : grid A, from_npoints ranges (NList ns) = Ok g /\
  g_ranges g = ranges /\ g_npoints g = ns /\ g_ndim g = length ns /\ g_steps g = spacings ranges ns.
Proof.
  intros Hl Hu. destruct (@from_npoints_ok A ranges ns Hl Hu) as (g & E & R1 & N1 & D1 & _ & S1). exists g.
  rewrite stepsizes_spacings in S1 by assumption. injection S1 as S1. repeat split; congruence.
Qed.

Lemma set_data_grid_of {A} ranges ns (g0 : grid A) v : length ranges = length ns -> usable_points ns ->
  from_npoints ranges (NList ns) = Ok g0 -> length (a_flat v) = size ns ->
  exists g, set_data g0 v = Ok g /\ grid_of g ranges ns (a_flat v).
Proof.
  intros Hl Hu E Hv. destruct (@new_grid A ranges ns Hl Hu) as (g & E' & R1 & N1 & D1 & S1).
  rewrite E' in E. injection E as <-. rewrite set_data_ok by congruence.
  eexists; split; [reflexivity|]. unfold grid_of; cbn. rewrite R1, N1, D1, S1. auto 12.
Qed.

Lemma set_data_wrong {A} ranges ns (g0 : grid A) v : 
  from_npoints ranges (NList ns) = Ok g0 -> length (a_flat v) <> size ns -> set_data g0 v = Err ValueError.
Proof.
  intros E Hv. apply set_data_err. unfold from_npoints in E. destruct (negb _); [discriminate|].
  destruct (stepsizes_from_npoints _ _); [|discriminate]. cbn in E. injection E as <-. exact Hv.
Qed.

Lemma arith_number {A} (d : A) g ranges ns v x op : grid_of g ranges ns v ->
  exists h, perform_arithmetic d g (ONum x) op = Ok h /\ grid_of h ranges ns (map (fun y => op y x) v).
Proof.
  rewrite grid_of_filled. intros (F & Er & En & Ev). destruct (arithmetic_number d g x op F) as (h & E & Fh & (G1 & G2 & _) & Eh).
  exists h. split; [assumption|]. apply grid_of_filled. repeat split; try apply Fh; congruence.
Qed.
Lemma arith_self {A} (g : grid A) ranges ns v f : grid_of g ranges ns v ->
  exists h, perform_math g f = Ok h /\ grid_of h ranges ns (map f v).
Proof.
  rewrite grid_of_filled. intros (F & Er & En & Ev). destruct (perform_math_ok g f F) as (h & E & Fh & (G1 & G2 & _) & Eh).
  exists h. split; [assumption|]. apply grid_of_filled. repeat split; try apply Fh; congruence.
Qed.
Lemma arith_arr {A} (d : A) g ranges ns v w op : grid_of g ranges ns v -> length w = size ns ->
  exists h, perform_arithmetic d g (OArr (mkArr ns w)) op = Ok h /\ grid_of h ranges ns (map (fun xy => op (fst xy) (snd xy)) (combine v w)).
Proof.
  rewrite grid_of_filled. intros (F & Er & En & Ev) Hw.
  destruct (arithmetic_arr d g (mkArr ns w) op F) as (h & E & Fh & (G1 & G2 & _) & Eh); [cbn; congruence|cbn; congruence|].
  exists h. split; [assumption|]. apply grid_of_filled. cbn in Eh. repeat split; try apply Fh; congruence.
Qed.
Lemma arith_grid {A} (d : A) g g2 ranges ns v w op : grid_of g ranges ns v -> grid_of g2 ranges ns w ->
  exists h, perform_arithmetic d g (OGrid g2) op = Ok h /\ grid_of h ranges ns (map (fun xy => op (fst xy) (snd xy)) (combine v w)).
Proof.
  rewrite !grid_of_filled. intros (F & Er & En & Ev) (F2 & Er2 & En2 & Ev2).
  destruct (arithmetic_grid d g g2 op F F2) as (h & E & Fh & (G1 & G2 & _) & Eh); [congruence|congruence|].
  exists h. split; [assumption|]. apply grid_of_filled. repeat split; try apply Fh; congruence.
Qed.
Lemma arith_grid_reject {A} (d : A) g g2 ranges ns v r2 ns2 w op : grid_of g ranges ns v -> grid_of g2 r2 ns2 w ->
  ns2 <> ns \/ r2 <> ranges -> perform_arithmetic d g (OGrid g2) op = Err ValueError.
Proof.
  rewrite !grid_of_filled. intros (F & Er & En & Ev) (F2 & Er2 & En2 & Ev2) H.
  apply arithmetic_grid_reject; [assumption|]. destruct H; [left|right]; congruence.
Qed.
Lemma arith_other {A} (d : A) g ranges ns v op : grid_of g ranges ns v -> perform_arithmetic d g OOther op = Err ValueError.
Proof. rewrite grid_of_filled. intros (F & _). now apply arithmetic_other. Qed.

Lemma all_equal_spec {A} (eqb : A -> A -> bool) : (forall x y, eqb x y = true <-> x = y) ->
  forall l1 l2, all_equal eqb l1 l2 = true <-> l1 = l2.
Proof.
  intro H. induction l1 as [|x l1 IH]; intros [|y l2]; cbn; try (split; congruence).
  rewrite Bool.andb_true_iff, H, IH. split; [intros [-> ->]; reflexivity|]. intro E. injection E as -> ->. auto.
Qed.
Lemma grid_equality {A} (eqb : A -> A -> bool) g g2 ranges ns v r2 ns2 w : (forall x y, eqb x y = true <-> x = y) ->
  grid_of g ranges ns v -> grid_of g2 r2 ns2 w ->
  (grid_eq eqb g g2 = true <-> ranges = r2 /\ ns = ns2 /\ v = w).
Proof.
  intros H (_ & _ & Gr & Gn & _ & _ & Gs & Gf & _) (_ & _ & Gr2 & Gn2 & _ & _ & Gs2 & Gf2 & _).
  unfold grid_eq, same_points. rewrite !Bool.andb_true_iff, !npoints_eqb_spec, ranges_eqb_spec, all_equal_spec by exact H.
  rewrite Gr, Gn, Gs, Gf, Gr2, Gn2, Gs2, Gf2. tauto.
Qed.

Lemma prod_spacings rs ns : prod_R (spacings rs ns) = volume rs ns.
Proof. revert ns; induction rs as [|r rs IH]; intros [|n ns]; cbn; try reflexivity. unfold prod_R in *. now rewrite IH. Qed.

Lemma convolve_valid_ok gl gs rl nl vl ns vs g1 g2 :
  grid_of gl rl nl vl -> a_shape (g_data gs) = ns -> g_npoints gs = ns -> a_flat (g_data gs) = vs -> length vs = size ns ->
  g_steps gs = spacings rl nl -> nl <> [] -> Forall2 (fun l s => (s < l)%nat) nl ns ->
  (g1 = gl /\ g2 = gs) \/ (g1 = gs /\ g2 = gl) ->
  exists h r v, convolve g1 g2 MValid = Ok h /\
    let n := map (fun p => (fst p - snd p + 1)%nat) (combine nl ns) in
    grid_of h r n v /\ spacings r n = spacings rl nl /\
    Forall2 (fun r' r0 => fst r' + snd r' = fst r0 + snd r0) r rl /\
    forall idx, in_shape n idx ->
      entry n v idx = nsum ns (fun j => entry nl vl (partner idx ns j) * entry ns vs j) * volume rl nl.
Proof.
  intros G Hs1 Hs2 Hs3 Hs4 Est Hne Hls Hg. pose proof G as G'. rewrite grid_of_filled in G'. destruct G' as (F & Er & En & Ev).
  assert (g_steps gl = spacings rl nl) as Esl by apply G.
  rewrite <- Hs2 in *. clear ns Hs2. subst vs vl nl rl.
  destruct (convolve_valid gl gs g1 g2) as (h & E & Fh & Nh & Sh & Ch & Vh); auto.
  { split; assumption. } { congruence. }
  exists h, (g_ranges h), (a_flat (g_data h)). split; [assumption|]. cbv zeta.
  assert (grid_of h (g_ranges h) (map (fun p => (fst p - snd p + 1)%nat) (combine (g_npoints gl) (g_npoints gs))) (a_flat (g_data h))) as Gh
    by (apply grid_of_filled; auto).
  split; [assumption|]. split; [destruct Gh as (_ & _ & _ & _ & _ & <- & _); congruence|]. split; [assumption|].
  intros idx Hin. rewrite Vh by assumption. rewrite Esl, prod_spacings. reflexivity.
Qed.

Lemma valid_ranges_len rl : forall ns st, length rl = length ns -> length st = length ns -> length (valid_ranges rl ns st) = length ns.
Proof. induction rl as [|r rl IH]; intros [|m ns] [|x st] H1 H2; cbn in *; try lia. rewrite IH; lia. Qed.
Lemma spacings_len rl : forall ns, length rl = length ns -> length (spacings rl ns) = length ns.
Proof. induction rl as [|r rl IH]; intros [|m ns] H1; cbn in *; try lia. rewrite IH; lia. Qed.

Lemma from_npoints_equal nl : forall ns d rs, Forall2 (fun l s => (s <= l)%nat) nl ns ->
  (d < length nl)%nat -> nth d nl 0%nat = nth d ns 0%nat -> length rs = length nl ->
  stepsizes_from_npoints rs (map (fun p => (fst p - snd p + 1)%nat) (combine nl ns)) = Err ZeroDivisionError.
Proof.
  induction nl as [|n nl IH]; intros [|m ns] d [|r rs] Hls Hd Hnd Hr; cbn in Hd, Hr; try lia; inversion Hls; subst.
  cbn [combine map fst snd stepsizes_from_npoints]. destruct (Nat.eqb_spec (n - m + 1) 1); [reflexivity|].
  destruct d as [|d]; [cbn in Hnd; lia|]. cbn in Hnd. rewrite (IH ns d); auto; lia.
Qed.

Lemma convolve_equal_size gl gs rl nl vl ns vs :
  grid_of gl rl nl vl -> length (g_ranges gs) = length nl -> a_shape (g_data gs) = ns -> g_npoints gs = ns -> a_flat (g_data gs) = vs -> length vs = size ns ->
  g_steps gs = spacings rl nl -> Forall2 (fun l s => (s <= l)%nat) nl ns ->
  (exists d, (d < length nl)%nat /\ nth d nl 0%nat = nth d ns 0%nat) ->
  convolve gl gs MValid = Err ZeroDivisionError.
Proof.
  intros G Hrs Hs1 Hs2 Hs3 Hs4 Est Hls (d & Hd & Hnd).
  assert (length nl = length ns) as Hlen2 by (clear -Hls; induction Hls; cbn; congruence).
  destruct G as (Hl & Hu & Er & En & Ed & Es & Esh & Ef & Hv).
  unfold convolve. assert (steps_eqb (g_steps gl) (g_steps gs) = true) as ->.
  { unfold steps_eqb. destruct (list_eq_dec _ _ _) as [|N]; [reflexivity|]. exfalso. apply N. congruence. }
  cbn [negb]. unfold signal_convolve. rewrite Esh, Hs1, Hlen2, Nat.eqb_refl. cbn [negb].
  replace (all_ge nl ns) with true by (symmetry; now apply all_ge_spec). cbn [bind].
  assert (forall rs, length rs = length nl -> 
    @from_npoints R rs (NList (map (fun p => (fst p - snd p + 1)%nat) (combine nl ns))) = Err ZeroDivisionError) as H.
  { intros rs Hr. unfold from_npoints. rewrite map_length, combine_length, <- Hlen2, Nat.min_id, Hr, Nat.eqb_refl. cbn [negb].
    rewrite (from_npoints_equal nl ns d); auto. }
  destruct (list_ltb (g_npoints gs) (g_npoints gl)) eqn:Elt.
  - rewrite En, Hs2, H; [reflexivity|]. rewrite Er, Es, valid_ranges_len; [congruence|congruence|]. rewrite spacings_len by assumption. congruence.
  - assert (nl = ns) as Enn.
    { rewrite En, Hs2 in Elt. clear -Hls Elt. induction Hls as [|l s nl ns Hle H IH]; [reflexivity|].
      cbn [list_ltb] in Elt. destruct (Nat.ltb_spec s l); [discriminate|]. assert (s = l) as -> by lia.
      rewrite Nat.eqb_refl in Elt. f_equal. auto. }
    rewrite En, Hs2. rewrite <- Enn in H |- *. rewrite H; [reflexivity|].
    rewrite valid_ranges_len; [reflexivity|assumption|]. rewrite Es. now apply spacings_len.
Qed.


(** ** same mode *)
Lemma conv_index_centered nl : forall ns i j, length ns = length nl -> in_shape nl i -> in_shape ns j ->
  conv_index nl i (map (fun n => ((n - 1) / 2)%nat) ns) j
  = (if inside_index nl (centered_partner i ns j) then Some (map Z.to_nat (centered_partner i ns j)) else None).
Proof.
  induction nl as [|n nl IH]; intros [|m ns] i j Hl Hi Hj; cbn in Hl; try lia; inversion Hi; inversion Hj; subst; [reflexivity|].
  cbn [map conv_index centered_partner inside_index].
  assert (Z.of_nat ((m - 1) / 2) = (Z.of_nat m - 1) / 2)%Z as Eh by (rewrite Nat2Z.inj_div; f_equal; lia).
  rewrite <- Eh. rewrite IH by (try assumption; lia).
  set (h := ((m - 1) / 2)%nat).
  match goal with |- context [Nat.leb ?b (?a + h)] => set (bb := b) in *; set (aa := a) in * end.
  replace (0 <=? Z.of_nat aa + Z.of_nat h - Z.of_nat bb)%Z with (Nat.leb bb (aa + h)) by lia.
  destruct (Nat.leb_spec bb (aa + h)) as [Hle|]; [|reflexivity]. cbn [andb].
  replace (Z.of_nat aa + Z.of_nat h - Z.of_nat bb <? Z.of_nat n)%Z with (Nat.ltb (aa + h - bb) n) by lia.
  destruct (Nat.ltb (aa + h - bb) n); [|reflexivity]. cbn [andb].
  destruct (inside_index nl _); [|reflexivity]. do 2 f_equal. lia.
Qed.

Lemma inside_in_shape s : forall z, inside_index s z = true -> in_shape s (map Z.to_nat z).
Proof.
  induction s as [|n s IH]; intros [|i z] H; cbn in H; try discriminate; [constructor|].
  apply andb_true_iff in H as [H1 H2]. constructor; [lia|now apply IH].
Qed.

Lemma convolve_same_ok gl gs rl nl vl ns vs :
  grid_of gl rl nl vl -> a_shape (g_data gs) = ns -> a_flat (g_data gs) = vs -> length vs = size ns ->
  length ns = length nl -> g_steps gs = spacings rl nl ->
  exists h v, convolve gl gs MSame = Ok h /\ grid_of h rl nl v /\
    forall idx, in_shape nl idx ->
      entry nl v idx = nsum ns (fun j => padded_entry nl vl (centered_partner idx ns j) * entry ns vs j) * volume rl nl.
Proof.
  intros G Hs1 Hs3 Hs4 Hlen Est. pose proof G as (Hl & Hu & Er & En & Ed & Es & Esh & Ef & Hv).
  unfold convolve. assert (steps_eqb (g_steps gl) (g_steps gs) = true) as ->.
  { unfold steps_eqb. destruct (list_eq_dec _ _ _) as [|N]; [reflexivity|]. exfalso. apply N. congruence. }
  cbn [negb]. unfold signal_convolve. rewrite Esh, Hs1, Hlen, Nat.eqb_refl. cbn [negb bind a_flat a_shape].
  unfold copy_empty. rewrite Er, En. destruct (@new_grid R rl nl Hl Hu) as (g0 & E0 & _). rewrite E0. cbn [bind].
  set (v := map _ (map _ _)).
  destruct (set_data_grid_of rl nl g0 (mkArr nl v) Hl Hu E0) as (h & Eh & Gh).
  { cbn. unfold v. now rewrite map_length, size_indices_map. }
  exists h, v. split; [exact Eh|]. split; [exact Gh|]. intros idx Hin. unfold v, entry at 1.
  rewrite (nth_map_in _ _ _ _ 0) by (rewrite size_indices_map; now apply flat_pos_lt).
  rewrite (nth_map_in _ _ _ _ []) by (rewrite indices_length; now apply flat_pos_lt).
  rewrite nth_indices by assumption. rewrite Es, prod_spacings. f_equal.
  unfold conv_at. rewrite rsum_indices, Hs1. apply nsum_ext. intros j Hj. rewrite Esh.
  rewrite conv_index_centered by assumption. unfold padded_entry.
  destruct (inside_index nl _) eqn:Ein.
  - apply inside_in_shape in Ein. unfold a_at. rewrite Esh, Ef, Hs1, Hs3, !ravel_flat by assumption. reflexivity.
  - lra.
Qed.

(** ** kernel grid *)
Lemma from_stepsizes_consistent ranges steps shrink (g : grid R) :
  from_stepsizes ranges (SList steps) shrink = Ok g -> length ranges = length steps -> consistent g.
Proof.
  unfold from_stepsizes. destruct (from_stepsizes_loop ranges steps shrink) as [[rs ns]|] eqn:E; [|discriminate].
  cbn. intros [= <-] Hl. unfold consistent; cbn. rewrite map_length.
  clear -E Hl. revert steps rs ns E Hl. induction ranges as [|r ranges IH]; intros [|s steps] rs ns E Hl; cbn in Hl; try lia.
  - cbn in E. injection E as <- <-. auto.
  - cbn [from_stepsizes_loop] in E. destruct (Req_EM_T s 0); [discriminate|].
    destruct (from_stepsizes_loop ranges steps shrink) as [[rs' ns']|] eqn:E'; [|discriminate]. cbn in E. injection E as <- <-.
    destruct (IH steps rs' ns' E') as [A B]; [lia|]. cbn. lia.
Qed.

Lemma kernel_grid g bw m (k0 : grid R) : 
  from_stepsizes (map (fun b => (- (5 * b), 5 * b)) bw) (SList (g_steps g)) false = Ok k0 ->
  length (g_steps g) = length bw ->
  exists k, dens_kernel_convolution g bw m = convolve g k m /\ axes k = axes k0 /\ g_npoints k = g_npoints k0 /\
    g_steps k = g_steps g /\ a_shape (g_data k) = g_npoints k /\
    a_flat (g_data k) = map (calc_kernel1 bw) (points k0) /\ length (a_flat (g_data k)) = size (g_npoints k).
Proof.
  intros E Hl. unfold dens_kernel_convolution. rewrite E. cbn [bind].
  assert (consistent k0) as Hc by (eapply from_stepsizes_consistent; [exact E|rewrite map_length; congruence]).
  assert (length (calc_kernel (points k0) bw) = size (g_npoints k0)) as Hln
    by (unfold calc_kernel; rewrite map_length; now apply points_length).
  rewrite set_data_ok by (cbn; assumption). cbn [bind].
  eexists; split; [reflexivity|]. cbn. repeat split; auto.
  unfold from_stepsizes in E. destruct (from_stepsizes_loop _ _ _) as [[rs ns]|]; [|discriminate]. cbn in E. now injection E as <-.
Qed.

Lemma kernel_fine_enough pot bw kt :
  length (pot_ranges pot) = pot_ndim pot -> length bw = pot_ndim pot ->
  increasing (pot_ranges pot) -> Forall (fun b => 0 < b) bw -> 0 < kt ->
  exists g, bd_prob_density pot bw kt = Ok g /\
    length (g_npoints g) = pot_ndim pot /\
    Forall (fun n => (501 <= n)%nat /\ Nat.odd n = true) (g_npoints g) /\
    forall m, exists k, dens_kernel_convolution g bw m = convolve g k m /\
      g_steps k = g_steps g /\ length (axes k) = pot_ndim pot /\
      forall d, (d < pot_ndim pot)%nat ->
        (20 <= length (nth d (axes k) []))%nat /\
        forall i, (i < 20)%nat -> - (5 * nth d bw 0) <= nth i (nth d (axes k) []) 0 <= 5 * nth d bw 0.
Proof.
  intros H1 H2 H3 H4 H5. destruct (bd_density_grids pot bw kt H1 H2 H3 H4 H5) as (g & k0 & E & N & Ek & La & Ax).
  exists g. split; [assumption|].
  assert (length (g_npoints g) = pot_ndim pot /\ length (g_steps g) = pot_ndim pot) as [Ln Ls].
  { unfold bd_prob_density in E. destruct (bd_n_points_ok (pot_ranges pot) bw) as (ns & En & Lns & Nn); [congruence|assumption|assumption|].
    rewrite En in E. cbn [bind] in E.
    assert (usable_points ns) as Hu.
    { apply Forall_nth. intros d dflt Hd. rewrite nth_indep with (d' := 0%nat) by assumption. rewrite Nn by lia.
      destruct (bd_points_spec (nth d (pot_ranges pot) (0,0)) (nth d bw 0)) as (A & B & _); [| |lia].
      - unfold increasing in H3. rewrite Forall_forall in H3. apply H3, nth_In; lia.
      - rewrite Forall_forall in H4. apply H4, nth_In; lia. }
    destruct (density_spec pot kt (pot_ranges pot) ns) as (g' & Zc & E' & _ & F & N' & Rg & _); auto; [congruence|].
    rewrite E' in E. injection E as ->. split; [congruence|].
    assert (stepsizes_from_npoints (pot_ranges pot) ns = Ok (g_steps g)) as Hst by (rewrite <- N', <- Rg; apply F).
    destruct (stepsizes_ok (pot_ranges pot) ns) as (st & Es & Lst & _); [congruence|assumption|]. congruence. }
  split; [assumption|]. split; [assumption|]. intros m.
  destruct (kernel_grid g bw m k0 Ek) as (k & E1 & E2 & E3 & E4 & _); [congruence|].
  exists k. rewrite E2. auto.
Qed.

Lemma points_partial {A} (g : grid A) ranges ns v idx : grid_of g ranges ns v -> (length ns <= 2)%nat -> in_shape ns idx ->
  length (points g) = size ns /\
  nth (flat_pos ns idx) (points g) [] = grid_point ranges ns idx.
Proof.
  rewrite grid_of_filled. intros ((Hc & Hu & _) & <- & <- & _) Hd Hi. split; [now apply points_length|].
  apply points_row_major; auto. destruct Hc as [_ H]. lia.
Qed.
Lemma points_any {A} (g : grid A) ranges ns v idx : grid_of g ranges ns v -> in_shape ns idx ->
  length (points g) = size ns /\
  nth (flat_pos (listing ns) (listing idx)) (points g) [] = grid_point ranges ns idx.
Proof.
  rewrite grid_of_filled. intros ((Hc & Hu & _) & <- & <- & _) Hi. split; [now apply points_length|].
  apply points_exact; auto.
Qed.
Lemma set_from_func_grid {A} (f : list R -> A) (dflt : A) ranges ns (g : grid A) : from_npoints ranges (NList ns) = Ok g ->
  length ranges = length ns -> usable_points ns -> (length ns <= 2)%nat ->
  exists h v, set_from_func g f = Ok h /\ grid_of h ranges ns v /\
    forall idx, in_shape ns idx -> nth (flat_pos ns idx) v dflt = f (grid_point ranges ns idx).
Proof.
  intros E Hl Hu Hd. pose proof E as E'. destruct (@from_npoints_ok A ranges ns Hl Hu) as (g' & E0 & R0 & N0 & D0 & _).
  rewrite E0 in E'. injection E' as ->.
  assert (consistent g) as Hc by (split; congruence).
  destruct (set_data_grid_of ranges ns g (arr_of_list (map f (points g))) Hl Hu E) as (h & Eh & Gh).
  { cbn. rewrite map_length, points_length by assumption. congruence. }
  exists h, (map f (points g)). split; [exact Eh|]. split; [exact Gh|]. intros idx Hi. clear E E0. subst ranges ns.
  rewrite <- (map_points_at dflt g f idx) by assumption. rewrite !listing_small; [reflexivity| |lia].
  rewrite (in_shape_len _ _ Hi). lia.
Qed.

Lemma density_any pot kt ranges ns :
  length ranges = pot_ndim pot -> length ns = pot_ndim pot -> increasing ranges -> usable_points ns -> 0 < kt ->
  exists g v Zc, calculate_probability_density pot kt ranges ns = Ok g /\ grid_of g ranges ns v /\
    Forall (fun x => 0 < x) v /\ total v * volume ranges ns = 1 /\ 0 < Zc /\
    forall idx, in_shape ns idx ->
      nth (flat_pos (listing ns) (listing idx)) v 0 = exp (- pot_energy pot (grid_point ranges ns idx) / kt) / Zc.
Proof.
  intros H1 H2 H3 H4 H5. destruct (density_spec pot kt ranges ns H1 H2 H3 H4 H5) as (g & Zc & E & Pz & F & N & Rr & P & T & V).
  exists g, (a_flat (g_data g)), Zc. split; [assumption|]. split; [apply grid_of_filled; auto|]. auto.
Qed.
Lemma density_small pot kt ranges ns :
  length ranges = pot_ndim pot -> length ns = pot_ndim pot -> increasing ranges -> usable_points ns -> 0 < kt ->
  (pot_ndim pot <= 2)%nat ->
  exists g v Zc, calculate_probability_density pot kt ranges ns = Ok g /\ grid_of g ranges ns v /\
    Forall (fun x => 0 < x) v /\ total v * volume ranges ns = 1 /\ 0 < Zc /\
    forall idx, in_shape ns idx ->
      entry ns v idx = exp (- pot_energy pot (grid_point ranges ns idx) / kt) / Zc.
Proof.
  intros H1 H2 H3 H4 H5 H6. destruct (density_row_major pot kt ranges ns H1 H2 H3 H4 H5 H6) as (g & Zc & E & Pz & F & N & Rr & P & T & V).
  exists g, (a_flat (g_data g)), Zc. split; [assumption|]. split; [apply grid_of_filled; auto|]. auto.
Qed.

Lemma density_rejects pot kt ranges ns : length ranges <> pot_ndim pot \/ length ns <> pot_ndim pot ->
  calculate_probability_density pot kt ranges ns = Err ValueError.
Proof.
  intros H. unfold calculate_probability_density.
  destruct (Nat.eqb_spec (length ranges) (pot_ndim pot)); [|reflexivity].
  destruct (Nat.eqb_spec (length ns) (pot_ndim pot)); [|reflexivity]. destruct H; contradiction.
Qed.
Lemma bd_n_points_short : forall ranges bw, (length bw < length ranges)%nat -> bd_n_points ranges bw = Err IndexError.
Proof.
  induction ranges as [|r rs IH]; intros [|b bs] H; cbn [length] in *; try lia; [reflexivity|].
  cbn [bd_n_points]. rewrite IH by lia. reflexivity.
Qed.
Lemma bd_density_short pot bw kt : (length bw < length (pot_ranges pot))%nat -> bd_prob_density pot bw kt = Err IndexError.
Proof. intros H. unfold bd_prob_density. now rewrite bd_n_points_short. Qed.
