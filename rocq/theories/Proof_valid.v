(** Correctness of [get_valid_data] *)
From Coq Require Import Sorted Lia ZifyBool ZifyNat.
From Verif Require Import PyBase Model_valid Spec_times Proof_base.
Ltac Zify.zify_post_hook ::= idtac.


Lemma div_of_mod_mul a us k : 0 < us -> 0 < k -> (a mod (us * k)) / us = (a / us) mod k.
Proof.
  intros Hu Hk. rewrite Z.rem_mul_r by lia.
  rewrite Z.mul_comm, Z.div_add by lia.
  rewrite (Z.div_small (a mod us)); [lia|]. apply Z.mod_pos_bound; lia.
Qed.

Lemma mod_mul_zero us j k : 0 < us -> 0 < k -> ((us * j) mod (us * k) =? 0) = (j mod k =? 0).
Proof.
  intros Hu Hk. rewrite Z.mul_mod_distr_l by lia.
  destruct (Z.eqb_spec (j mod k) 0) as [->|H]; [lia|].
  apply Z.eqb_neq. apply Z.neq_mul_0; lia.
Qed.

(** the row filter of the slice selects the rows of the wanted times *)
Lemma slice_rows_times (L us k q aw e lw step : Z) :
  0 < us -> 0 < k -> 0 <= aw -> aw = (lw - L * us * q) / us ->
  L * us * q <= lw -> e = (step - L * us * q) / us -> 0 <= e <= L ->
  map (fun i => L * us * q + (i + 1) * us)
    (filter (fun i => (aw + (k - 1) - (lw / us) mod k <=? i)
               && ((i - (aw + (k - 1) - (lw / us) mod k)) mod k =? 0) && (i <? e)) (zrange 0 L))
  = times lw step (us * k).
Proof.
  intros Hu Hk Haw Eaw Hlw Ee He.
  set (m := lw / us).
  assert (m = L * q + aw) as Em.
  { unfold m; rewrite Eaw. replace lw with ((lw - L * us * q) + (L * q) * us) at 1 by lia.
    rewrite Z.div_add by lia; lia. }
  pose proof (Z.mod_pos_bound m k Hk) as Hmk.
  assert (Hdiv : forall i, ((i - (aw + (k - 1) - m mod k)) mod k =? 0) = ((L * q + i + 1) mod k =? 0)).
  { intros i.
    replace (i - (aw + (k - 1) - m mod k)) with ((L * q + i + 1) + (- (m / k) - 1) * k).
    - rewrite Z.mod_add by lia; reflexivity.
    - pose proof (Z.div_mod m k ltac:(lia)). lia. }
  apply sorted_lt_ext.
  - apply sorted_map; [intros x y Hxy; assert ((x + 1) * us < (y + 1) * us) by (apply Z.mul_lt_mono_pos_r; lia); lia|]. apply sorted_filter, zrange_sorted.
  - apply times_sorted.
  - intros t; rewrite in_times, in_map_iff; split.
    + intros (i & <- & Hi). rewrite filter_In, in_zrange, !andb_true_iff, Hdiv in Hi.
      destruct Hi as [Hr [[Hge Hmod] Hlt]].
      assert (aw <= i) by lia.
      assert (i + 1 <= e) by lia.
      assert (lw - L * us * q < (aw + 1) * us).
      { rewrite Eaw. pose proof (Z.mul_succ_div_gt (lw - L * us * q) us Hu).
        unfold Z.succ in *. lia. }
      assert (e * us <= step - L * us * q).
      { rewrite Ee. rewrite Z.mul_comm. apply Z.mul_div_le; assumption. }
      assert ((aw + 1) * us <= (i + 1) * us) by (apply Z.mul_le_mono_nonneg_r; lia).
      assert ((i + 1) * us <= e * us) by (apply Z.mul_le_mono_nonneg_r; lia).
      repeat split; [lia|lia|].
      replace (L * us * q + (i + 1) * us) with (us * (L * q + i + 1)) by ring.
      apply Z.eqb_eq; rewrite mod_mul_zero by lia; assumption.
    + intros [[Hlo Hhi] Hmod].
      assert (exists j, t = us * j /\ j mod k = 0) as (j & -> & Hj).
      { apply Z.mod_divide in Hmod; [|apply Z.neq_mul_0; lia]. destruct Hmod as [z Hz].
        exists (k * z); split; [rewrite Hz; ring|]. rewrite Z.mul_comm; apply Z.mod_mul; lia. }
      exists (j - L * q - 1); split; [ring|].
      rewrite filter_In, in_zrange, !andb_true_iff, Hdiv.
      replace (L * q + (j - L * q - 1) + 1) with j by ring.
      assert (m < j) as Hmj.
      { unfold m; apply Z.div_lt_upper_bound; lia. }
      assert (j <= L * q + e) as Hje.
      { rewrite Ee. replace (L * q + (step - L * us * q) / us) with (step / us).
        - apply Z.div_le_lower_bound; lia.
        - replace step with ((step - L * us * q) + (L * q) * us) at 1 by lia.
          rewrite Z.div_add by lia; lia. }
      assert (m - m mod k + k <= j) as Hk2.
      { pose proof (Z.div_mod m k ltac:(lia)) as D1.
        pose proof (Z.div_mod j k ltac:(lia)) as D2.
        assert (m / k < j / k) as Hq.
        { apply Z.div_lt_upper_bound; [lia|]. lia. }
        assert (k * (m / k + 1) <= k * (j / k)) by (apply Z.mul_le_mono_nonneg_l; lia).
        lia. }
      repeat split; try lia.
Qed.

Theorem get_valid_data_correct {A} (data : list A) (f : Z -> A) step stride us lw :
  0 < us -> 0 < stride -> stride mod us = 0 -> data <> [] ->
  let W := Z.of_nat (length data) * us in
  0 <= lw -> cycle_start W step <= lw <= step ->
  (step mod W = 0 \/ us <= step mod W) ->
  buffer_holds data us f step ->
  get_valid_data data step stride us lw = Ok (map f (times lw step stride)).
Proof.
  intros Hu Hs Hdiv Hne W Hlw0 Hlw Hguard Hbuf.
  unfold get_valid_data.
  destruct (Z.eqb_spec step lw) as [->|Hneq]; [rewrite times_nil by lia; reflexivity|].
  set (L := Z.of_nat (length data)) in *.
  assert (0 < L) as HL by (destruct data; [congruence|subst L; cbn [length]; lia]).
  assert (0 < W) as HW by (subst W; apply Z.mul_pos_pos; lia).
  fold W. replace (W =? 0) with false by lia.
  set (q := (step - 1) / W).
  assert (cycle_start W step = W * q) as Ecs by reflexivity.
  assert (step - 1 = W * q + (step - 1) mod W) as Eq by (apply Z.div_mod; lia).
  pose proof (Z.mod_pos_bound (step - 1) W HW) as Hrem.
  assert (exists k, stride = us * k /\ 0 < k) as (k & -> & Hk).
  { apply Z.mod_divide in Hdiv; [|lia]. destruct Hdiv as [k Hk]; exists k; split; [rewrite Hk; ring|].
    rewrite Hk in Hs. destruct (Z_lt_le_dec 0 k); [assumption|]. assert (k * us <= 0 * us) by (apply Z.mul_le_mono_nonneg_r; lia). lia. }
  assert (lw mod W = lw - W * q) as Elw.
  { symmetry; apply Z.mod_unique with q; lia. }
  set (s := step - W * q).
  assert (1 <= s <= W) as Hsr by (subst s; lia).
  assert (Estep : step mod W = if s =? W then 0 else s).
  { destruct (Z.eqb_spec s W) as [E|E].
    - symmetry; apply Z.mod_unique with (q + 1); lia.
    - symmetry; apply Z.mod_unique with q; lia. }
  set (aw := lw mod W / us). set (le := step mod W / us).
  set (e := s / us).
  assert (Hle : (le =? 0) = (s =? W)).
  { unfold le. rewrite Estep in *. destruct (Z.eqb_spec s W) as [E|E].
    - rewrite Z.div_0_l by lia; reflexivity.
    - destruct Hguard as [H0|H0]; [lia|].
      apply Z.eqb_neq. assert (1 <= s / us) by (apply Z.div_le_lower_bound; lia). lia. }
  assert (HeW : s = W -> e = L).
  { intros ->; unfold e, W; rewrite Z.div_mul by lia; reflexivity. }
  assert (Hele : s <> W -> le = e).
  { intros H; unfold le, e; rewrite Estep. destruct (Z.eqb_spec s W); [lia|reflexivity]. }
  assert (0 <= e <= L) as HeL.
  { unfold e; split; [apply Z.div_pos; lia|].
    replace L with (W / us) by (unfold W; rewrite Z.div_mul by lia; reflexivity).
    apply Z.div_le_mono; lia. }
  assert (0 <= aw) as Haw by (unfold aw; rewrite Elw; apply Z.div_pos; lia).
  destruct data as [|d0 data']; [congruence|].
  set (data := d0 :: data') in *.
  set (g := fun i => nth (Z.to_nat i) data d0).
  assert (Edata : data = map g (zrange 0 L)) by apply list_as_map.
  assert (Erow : forall i, 0 <= i < e -> g i = f (L * us * q + (i + 1) * us)).
  { intros i Hi. unfold buffer_holds in Hbuf. fold L in Hbuf; fold W in Hbuf. rewrite Ecs in Hbuf.
    specialize (Hbuf (Z.to_nat i)).
    replace (Z.of_nat (Z.to_nat i)) with i in Hbuf by lia.
    assert (e * us <= s) by (unfold e; rewrite Z.mul_comm; apply Z.mul_div_le; lia).
    assert ((i + 1) * us <= e * us) by (apply Z.mul_le_mono_nonneg_r; lia).
    assert (Hnth : nth_error data (Z.to_nat i) = Some (f (W * q + (i + 1) * us))).
    { apply Hbuf; lia. }
    unfold g. apply nth_error_nth with (d := d0) in Hnth. exact Hnth. }
  assert (Main : forall P, (forall i, In i (zrange 0 L) -> P i = true -> i < e) ->
    map (fun i => L * us * q + (i + 1) * us) (filter P (zrange 0 L)) = times lw step (us * k) ->
    map g (filter P (zrange 0 L)) = map f (times lw step (us * k))).
  { intros P HP E. rewrite <- E, map_map. apply map_ext_in. intros i Hi.
    apply filter_In in Hi as [Hi HPi]. apply Erow. split; [apply in_zrange in Hi; lia|now apply HP]. }
  destruct (((us * k =? us) && (aw =? 0)) && (le =? 0)) eqn:Eshort.
  - apply andb_true_iff in Eshort as [E1 E3]; apply andb_true_iff in E1 as [E1 E2].
    apply Z.eqb_eq in E1, E2, E3. assert (k = 1) by (apply Z.mul_reg_l with us; lia). subst k.
    assert (s = W) as EsW by lia.
    f_equal. rewrite Edata at 1.
    rewrite <- Main with (P := fun _ => true).
    + f_equal. clear. induction (zrange 0 L) as [|x l IH]; cbn; [reflexivity|now f_equal].
    + intros i Hi _; apply in_zrange in Hi. rewrite HeW by assumption; lia.
    + rewrite <- (slice_rows_times L us 1 q aw e lw step).
      * f_equal. apply filter_ext_in. intros i Hi; apply in_zrange in Hi.
        rewrite !Z.mod_1_r. rewrite HeW by assumption. lia.
      * lia.
      * lia.
      * lia.
      * unfold aw; rewrite Elw; reflexivity.
      * fold W; lia.
      * reflexivity.
      * lia.
  - assert (0 < us * k) by (apply Z.mul_pos_pos; lia). replace (us * k =? 0) with false by lia.
    assert (us * k / us = k) as -> by (rewrite Z.mul_comm, Z.div_mul; lia).
    rewrite div_of_mod_mul by lia.
    set (first := aw + (k - 1) - (lw / us) mod k).
    assert (0 <= first) as Hfirst.
    { pose proof (Z.mod_pos_bound (lw / us) k Hk). unfold first; lia. }
    rewrite Hle. destruct (Z.eqb_spec s W) as [EsW|EsW].
    + rewrite Edata at 1. rewrite py_slice_map by lia.
      f_equal. apply Main.
      * intros i Hi _; apply in_zrange in Hi; rewrite HeW; lia.
      * assert (aw = (lw - L * us * q) / us) as Eaw by (unfold aw; rewrite Elw; reflexivity).
        pose proof (slice_rows_times L us k q aw e lw step Hu Hk Haw Eaw) as E.
        rewrite <- E; [|fold W; lia|reflexivity|lia].
        f_equal. apply filter_ext. intros i. rewrite (HeW EsW). reflexivity.
    + rewrite Edata at 1. rewrite (Hele EsW). rewrite py_slice_map by lia.
      f_equal. apply Main.
      * intros i Hi HP. apply andb_true_iff in HP as [_ HP]; lia.
      * apply slice_rows_times; try lia; try reflexivity.
        unfold aw; rewrite Elw; reflexivity.
Qed.

(** In a new cycle before its first update the whole old buffer is returned. *)
Lemma get_valid_data_stale {A} (data : list A) step us lw :
  0 < us -> data <> [] ->
  let W := Z.of_nat (length data) * us in
  cycle_start W step <= lw < step -> 0 < step mod W < us ->
  get_valid_data data step us us lw = Ok data.
Proof.
  intros Hu Hne W Hlw Hm.
  assert (0 < Z.of_nat (length data)) by (destruct data; cbn; [congruence|lia]).
  assert (0 < W) as HW by (apply Z.mul_pos_pos; lia).
  unfold get_valid_data. replace (step =? lw) with false by lia. fold W.
  replace (W =? 0) with false by lia. rewrite Z.eqb_refl. cbn [andb].
  pose proof (Z.div_mod step W ltac:(lia)) as D.
  assert (cycle_start W step = W * (step / W)) as Ec.
  { unfold cycle_start. f_equal. symmetry. apply Z.div_unique with (r := step mod W - 1); lia. }
  assert (lw mod W = lw - W * (step / W)) as El.
  { symmetry. apply Z.mod_unique with (q := step / W); lia. }
  rewrite El, (Z.div_small (lw - _)) by lia. rewrite Z.div_small by lia. reflexivity.
Qed.

Lemma get_valid_data_empty {A} (data : list A) step stride us :
  get_valid_data data step stride us step = Ok [].
Proof. unfold get_valid_data; now rewrite Z.eqb_refl. Qed.

Lemma get_valid_data_stale_times {A} (data : list A) step us lw :
  0 < us -> data <> [] ->
  let W := Z.of_nat (length data) * us in
  cycle_start W step <= lw < step -> 0 < step mod W < us ->
  get_valid_data data step us us lw = Ok data /\ times lw step us = [].
Proof.
  intros Hu Hne W Hlw Hm. split; [apply get_valid_data_stale; assumption|].
  assert (0 < Z.of_nat (length data)) as HL by (destruct data; cbn; [congruence|lia]).
  assert (0 < W) as HW by (apply Z.mul_pos_pos; lia).
  pose proof (Z.div_mod step W ltac:(lia)) as D.
  assert (cycle_start W step = W * (step / W)) as Ec.
  { unfold cycle_start. f_equal. symmetry. apply Z.div_unique with (r := step mod W - 1); lia. }
  apply times_empty. intros t Ht Hmod.
  assert (t mod us = t - us * (Z.of_nat (length data) * (step / W))) as E.
  { symmetry. apply Z.mod_unique with (q := Z.of_nat (length data) * (step / W)).
    - left. unfold W in *. lia.
    - unfold W; ring. }
  unfold W in *. lia.
Qed.
