(** The recording actions: exact content of the file at the end of a simulation *)
From Coq Require Import Lia ZifyBool ZifyNat.
From Verif Require Import PyBase Model_valid Model_rec Spec_times Spec_traj Spec_rec
  Proof_base Proof_valid Proof_ring Proof_trajrun.
Ltac Zify.zify_post_hook ::= idtac.

(** invariant after step k; [f] extends the recorded rows to the junk at times <= 0;
    [B] is the time of the current content if nothing was stored in this cycle *)
Record rec_inv {A} (s W : Z) (rows f : Z -> A) (fn : bool) (r : recorder A) (k : Z) : Prop := {
  ri_stride : rc_stride r = s;
  ri_wstride : rc_wstride r = W;
  ri_len : Z.of_nat (length (rc_rows r)) * s = W;
  ri_ext : forall t, 0 < t -> f t = rows t;
  ri_buf : buffer_holds (rc_rows r) s f k;
  ri_stale : k mod W < s -> rc_rows r = map f (times (W * (k / W) - W) (W * (k / W)) s);
  ri_last : rc_last r = (if fn then W * (k / W) else 0);
  ri_file : rc_file r = (if fn then Some (rec_expected rows s (W * (k / W))) else None) }.

Lemma times_shift lo hi s c : s <> 0 ->
  times (lo + s * c) (hi + s * c) s = map (fun t => t + s * c) (times lo hi s).
Proof.
  intros Hs. apply sorted_lt_ext.
  - apply times_sorted.
  - apply sorted_map; [intros; lia|apply times_sorted].
  - intros t. rewrite in_map_iff, in_times. split.
    + intros [H1 H2]. exists (t - s * c). split; [lia|]. apply in_times. split; [lia|].
      replace (t - s * c) with (t + (- c) * s) by ring. rewrite Z.mod_add; assumption.
    + intros (u & <- & Hu). apply in_times in Hu as [H1 H2]. split; [lia|].
      rewrite Z.mul_comm, Z.mod_add; assumption.
Qed.

(** a full buffer lists the values of its cycle *)
Lemma buffer_full {A} (data : list A) s f q :
  0 < s -> data <> [] ->
  let W := Z.of_nat (length data) * s in
  buffer_holds data s f (W * q) ->
  data = map f (times (W * q - W) (W * q) s).
Proof.
  intros Hs Hne W Hb.
  assert (0 < Z.of_nat (length data)) as HL by (destruct data; cbn; [congruence|lia]).
  assert (0 < W) as HW by (apply Z.mul_pos_pos; lia).
  assert (cycle_start W (W * q) = W * q - W) as Ec.
  { unfold cycle_start.
    replace ((W * q - 1) / W) with (q - 1); [ring|].
    apply Z.div_unique with (r := W - 1); lia. }
  assert (times (W * q - W) (W * q) s
    = map (fun i => (W * q - W) + (i + 1) * s) (zrange 0 (Z.of_nat (length data)))) as Et.
  { apply sorted_lt_ext.
    - apply times_sorted.
    - apply sorted_map; [|apply zrange_sorted].
      intros x y Hxy. assert ((x + 1) * s < (y + 1) * s) by (apply Z.mul_lt_mono_pos_r; lia). lia.
    - intros t. rewrite in_times, in_map_iff. split.
      + intros [H1 H2].
        assert (exists j, t = s * j) as (j & ->).
        { exists (t / s). pose proof (Z.div_mod t s ltac:(lia)). lia. }
        exists (j - 1 - Z.of_nat (length data) * (q - 1)). split; [unfold W; ring|].
        apply in_zrange.
        assert (s * (Z.of_nat (length data) * (q - 1)) < s * j) as A1 by (unfold W in *; lia).
        assert (s * j <= s * (Z.of_nat (length data) * q)) as A2 by (unfold W in *; lia).
        apply Z.mul_lt_mono_pos_l in A1; [|assumption].
        apply Z.mul_le_mono_pos_l in A2; [|assumption]. lia.
      + intros (i & <- & Hi). apply in_zrange in Hi.
        assert (0 < (i + 1) * s) by (apply Z.mul_pos_pos; lia).
        assert ((i + 1) * s <= W) by (apply Z.mul_le_mono_nonneg_r; lia).
        split; [lia|]. unfold W.
        replace (Z.of_nat (length data) * s * q - Z.of_nat (length data) * s + (i + 1) * s)
          with ((Z.of_nat (length data) * (q - 1) + i + 1) * s) by ring.
        apply Z.mod_mul; lia. }
  assert (exists d0 : A, True) as (d0 & _) by (destruct data; [congruence|eauto]).
  rewrite Et, map_map. rewrite (list_as_map d0 data) at 1.
  apply map_ext_in. intros i Hi. apply in_zrange in Hi.
  assert (nth_error data (Z.to_nat i) = Some (f (W * q - W + (i + 1) * s))) as E.
  { unfold buffer_holds in Hb. cbv zeta in Hb. change (Z.of_nat (length data) * s) with W in Hb.
    rewrite Ec in Hb.
    specialize (Hb (Z.to_nat i) ltac:(lia)).
    replace (Z.of_nat (Z.to_nat i)) with i in Hb by lia.
    apply Hb. assert ((i + 1) * s <= W) by (apply Z.mul_le_mono_nonneg_r; lia). lia. }
  apply nth_error_nth with (d := d0) in E. exact E.
Qed.

Lemma rec_run_inv {A} s W (rows f : Z -> A) fn r k :
  0 < s -> 0 < W -> W mod s = 0 -> 0 < k ->
  rec_inv s W rows f fn r (k - 1) ->
  exists r', rec_run (Ok (rows k)) r k = Ok r' /\ rec_inv s W rows f fn r' k.
Proof.
  intros Hs HW HWs Hk [].
  assert (rc_rows r <> []) as Hne by (intros E; rewrite E in ri_len0; cbn in ri_len0; lia).
  pose proof (Z.mod_pos_bound k W HW) as Bk. pose proof (Z.div_mod k W ltac:(lia)) as Dk.
  pose proof (Z.mod_pos_bound (k-1) W HW) as Bk1.
  unfold rec_run. rewrite ri_stride0.
  replace (s =? 0) with false by lia. cbn [negb andb].
  (* the write or no write at the end *)
  assert (Hend : forall d, length d = length (rc_rows r) -> buffer_holds d s f k ->
    (k mod W < s -> k mod W <> 0 -> d = map f (times (W * (k / W) - W) (W * (k / W)) s)) ->
    exists r',
      (if negb (W =? 0) && (k mod W =? 0)
       then rec_write (mkRec s W d (rc_single r) (rc_last r) (rc_file r)) k
       else Ok (mkRec s W d (rc_single r) (rc_last r) (rc_file r))) = Ok r' /\
      rec_inv s W rows f fn r' k).
  { intros d Hld Hbd Hst. replace (W =? 0) with false by lia. cbn [negb andb].
    assert (d <> []) as Hned by (intros ->; destruct (rc_rows r); cbn in Hld; congruence).
    destruct (Z.eqb_spec (k mod W) 0) as [E0|N0].
    - assert (W * (k / W) = k) as Ek by lia.
      assert ((k - 1) / W = k / W - 1) as Ek1.
      { symmetry; apply Z.div_unique with (r := W - 1); lia. }
      assert (d = map f (times (k - W) k s)) as Ed.
      { rewrite <- Ek. replace W with (Z.of_nat (length d) * s) by (rewrite Hld; assumption).
        apply buffer_full; auto. replace (Z.of_nat (length d) * s) with W by (rewrite Hld; auto).
        rewrite Ek; assumption. }
      assert (k mod W < s -> d = map f (times (W * (k / W) - W) (W * (k / W)) s)) as Hst'.
      { intros _. rewrite Ek; exact Ed. }
      unfold rec_write. cbn [rc_file rc_stride rc_rows rc_last rc_wstride rc_single].
      rewrite ri_file0, ri_last0. destruct fn.
      + replace (s =? 0) with false by lia. cbn [negb].
        rewrite (get_valid_data_correct d f); auto.
        * cbn [bind]. eexists; split; [reflexivity|].
          constructor; cbn [rc_stride rc_wstride rc_rows rc_last rc_file rc_single]; auto; try congruence.
          rewrite Ek. f_equal. unfold rec_expected.
          rewrite (map_times_ext rows f) by (assumption || (assert (0 <= (k-1)/W) by (apply Z.div_pos; lia); lia)).
          rewrite <- map_app. f_equal. symmetry; apply times_app.
          assert (0 <= (k-1)/W) by (apply Z.div_pos; lia). split; [lia|].
          rewrite Ek1. lia.
        * apply Z.mod_same; lia.
        * assert (0 <= (k-1)/W) by (apply Z.div_pos; lia). lia.
        * rewrite Hld, ri_len0. unfold cycle_start. split; [lia|]. rewrite Ek1; lia.
        * rewrite Hld, ri_len0. lia.
      + eexists; split; [reflexivity|].
        constructor; cbn [rc_stride rc_wstride rc_rows rc_last rc_file rc_single]; auto; congruence.
    - assert ((k - 1) / W = k / W) as Ek1.
      { symmetry; apply Z.div_unique with (r := k mod W - 1); lia. }
      eexists; split; [reflexivity|].
      constructor; cbn [rc_stride rc_wstride rc_rows rc_last rc_file rc_single]; auto; rewrite ?Ek1 in *; auto; try congruence. }
  destruct (Z.eqb_spec (k mod s) 0) as [Es|Ns].
  - cbn [bind]. rewrite ri_wstride0. rewrite <- (ri_ext0 k) by assumption.
    destruct (buffer_store (rc_rows r) s f k) as (d & Hd & Hld & Hbd); auto.
    rewrite ri_len0 in Hd. rewrite Hd. cbn [bind rc_wstride].
    apply Hend; auto.
    intros H1 H2. exfalso. (* k mod W is a positive multiple of s *)
    assert (exists c, W = s * c) as (c & Ec).
    { exists (W / s). pose proof (Z.div_mod W s ltac:(lia)). lia. }
    assert ((k mod W) mod s = 0) as E2.
    { replace (k mod W) with (k + (- (c * (k / W))) * s) by (rewrite Ec in *; lia).
      rewrite Z.mod_add by lia. assumption. }
    rewrite Z.mod_small in E2 by lia. lia.
  - cbn [bind]. rewrite ri_wstride0.
    replace r with (mkRec s W (rc_rows r) (rc_single r) (rc_last r) (rc_file r))
      by (destruct r; cbn in *; congruence).
    cbn [rc_rows rc_single rc_last rc_file].
    apply Hend; auto.
    + apply buffer_skip; auto.
    + intros H1 H2.
      assert ((k - 1) / W = k / W) as Ek1.
      { symmetry; apply Z.div_unique with (r := k mod W - 1); lia. }
      rewrite <- Ek1. apply ri_stale0.
      assert ((k - 1) mod W = k mod W - 1).
      { symmetry; apply Z.mod_unique with (q := k / W); lia. }
      lia.
Qed.

Lemma rec_init_inv {A} (stride wstride : option Z) (fn : bool) (junk : nat -> list A) single0 rows s W :
  stride = Some s -> 0 < s -> positive_option wstride -> W = option_or wstride (100 * s) ->
  W mod s = 0 -> (wstride <> None -> fn = true) ->
  (forall n, length (junk n) = n) ->
  exists r0 f, rec_init stride wstride fn junk single0 = Ok r0 /\ rec_inv s W rows f fn r0 0 /\
    map f (times (- W) 0 s) = junk (Z.to_nat (W / s)).
Proof.
  intros -> Hs Pw EW HWs Hfn Hj. unfold rec_init. cbn [orZ].
  assert ((s =? 0) = false) as Es0 by lia. rewrite Es0. cbv zeta. rewrite Es0. cbn [negb].
  assert (0 < W) as HW by (subst W; apply option_or_pos; [assumption|lia]).
  assert (truthyZ wstride && negb fn = false) as ->.
  { destruct wstride as [w|]; cbn; [|reflexivity]. rewrite Hfn by discriminate. apply andb_false_r. }
  rewrite option_or_orZ by assumption. rewrite (Z.mul_comm s 100), <- EW.
  rewrite HWs. cbn [Z.eqb negb].
  assert (exists c, W = s * c) as (c & Ec).
  { exists (W / s). pose proof (Z.div_mod W s ltac:(lia)). lia. }
  assert (0 < c). { destruct (Z_lt_le_dec 0 c); [assumption|]. exfalso.
    assert (s * c <= s * 0) by (apply Z.mul_le_mono_nonneg_l; lia). lia. }
  assert (Z.of_nat (length (junk (Z.to_nat (W / s)))) = c) as Hlen.
  { rewrite Hj, Ec, Z.mul_comm, Z.div_mul by lia. lia. }
  destruct (buffer_init (junk (Z.to_nat (W / s))) s rows) as (f & Hf & Hb); auto.
  { intros E; rewrite E in Hlen; cbn in Hlen; lia. }
  assert (junk (Z.to_nat (W / s)) = map f (times (- W) 0 s)) as Hjunk.
  { pose proof (buffer_full (junk (Z.to_nat (W / s))) s f 0 Hs) as Hfull. cbv zeta in Hfull.
    rewrite Hlen in Hfull. rewrite Z.mul_0_r in Hfull.
    replace (c * s) with W in Hfull by lia. rewrite Z.sub_0_l in Hfull.
    apply Hfull; [|assumption]. intros E; rewrite E in Hlen; cbn in Hlen; lia. }
  eexists; exists f; split; [reflexivity|]. split; [|symmetry; assumption].
  constructor; cbn [rc_stride rc_wstride rc_rows rc_last rc_file]; auto; try lia.
  - rewrite Z.div_0_l, Z.mul_0_r, Z.sub_0_l by lia. auto.
  - rewrite Z.div_0_l, Z.mul_0_r by lia. destruct fn; reflexivity.
  - rewrite Z.div_0_l, Z.mul_0_r by lia. unfold rec_expected. rewrite times_nil by lia.
    destruct fn; reflexivity.
Qed.

(** the final write *)
Lemma rec_final_inv {A} s W (rows f : Z -> A) r n row :
  0 < s -> 0 < W -> W mod s = 0 -> 0 <= n ->
  rec_inv s W rows f true r n ->
  exists r', rec_final_run row r n = Ok r' /\
    rc_file r' = Some (
      if (n mod W =? 0) || (s <=? n mod W) then rec_expected rows s n
      else rec_expected rows s (W * (n / W))
           ++ map f (times (W * (n / W) - W) (W * (n / W)) s)).
Proof.
  intros Hs HW HWs Hn [].
  assert (rc_rows r <> []) as Hne by (intros E; rewrite E in ri_len0; cbn in ri_len0; lia).
  pose proof (Z.mod_pos_bound n W HW) as Bn. pose proof (Z.div_mod n W ltac:(lia)) as Dn.
  assert (0 <= W * (n / W)) by (apply Z.mul_nonneg_nonneg; [lia|apply Z.div_pos; lia]).
  unfold rec_final_run. rewrite ri_stride0. replace (s =? 0) with false by lia. cbn [bind].
  unfold rec_write. rewrite ri_file0, ri_stride0, ri_last0. replace (s =? 0) with false by lia.
  cbn [negb].
  destruct (Z.eqb_spec (n mod W) 0) as [E0|N0]; cbn [orb]; [|destruct (Z.leb_spec s (n mod W)) as [Hge|Hlt]].
  - unfold get_valid_data. replace (n =? W * (n / W)) with true by lia. cbn [bind].
    eexists; split; [reflexivity|]. cbn. rewrite app_nil_r. replace (W * (n / W)) with n by lia. reflexivity.
  - rewrite (get_valid_data_correct (rc_rows r) f); auto.
    + cbn [bind]. eexists; split; [reflexivity|]. cbn [rc_file]. f_equal. unfold rec_expected.
      rewrite (map_times_ext rows f) by assumption. rewrite <- map_app. f_equal.
      symmetry. apply times_app. lia.
    + apply Z.mod_same; lia.
    + rewrite ri_len0. rewrite <- cycle_end by assumption. lia.
    + rewrite ri_len0; lia.
  - unfold get_valid_data. replace (n =? W * (n / W)) with false by lia.
    rewrite ri_len0. replace (W =? 0) with false by lia.
    rewrite Z.eqb_refl. cbn [andb].
    rewrite (Z.mul_comm W (n / W)), Z.mod_mul, Z.div_0_l by lia.
    rewrite (Z.div_small (n mod W) s) by lia. cbn [Z.eqb andb bind].
    eexists; split; [reflexivity|]. cbn [rc_file]. rewrite ri_stale0 by assumption.
    rewrite (Z.mul_comm (n / W) W). reflexivity.
Qed.

(** complete run with a file *)
Lemma rec_simulation_file {A} (rows : Z -> A) stride wstride junk single0 s W n :
  stride = Some s -> 0 < s -> positive_option wstride -> W = option_or wstride (100 * s) ->
  W mod s = 0 -> (forall m, length (junk m) = m) -> 0 <= n ->
  exists r0 r, rec_init stride wstride true junk single0 = Ok r0 /\
    rec_simulation rows n r0 = Ok r /\
    rc_file r = Some (
      if (n mod W =? 0) || (s <=? n mod W) then rec_expected rows s n
      else rec_expected rows s (W * (n / W)) ++
           (if n <? W then junk (Z.to_nat (W / s))
            else map rows (times (W * (n / W) - W) (W * (n / W)) s))).
Proof.
  intros Es Hs Pw EW HWs Hj Hn.
  assert (0 < W) as HW by (subst W; apply option_or_pos; [assumption|lia]).
  destruct (rec_init_inv stride wstride true junk single0 rows s W) as (r0 & f & E0 & I0 & Hf); auto.
  destruct (foldM_zrange_ind (fun r k => rec_run (Ok (rows k)) r k) (rec_inv s W rows f true) n r0)
    as (r1 & E1 & I1); auto.
  { intros r k Hk Hi. apply rec_run_inv; auto. lia. }
  destruct (rec_final_inv s W rows f r1 n (Ok (rows n))) as (r2 & E2 & Hfile); auto.
  exists r0, r2. split; [assumption|]. split.
  - unfold rec_simulation. rewrite E1. exact E2.
  - rewrite Hfile. f_equal. destruct ((n mod W =? 0) || (s <=? n mod W)); [reflexivity|].
    f_equal. destruct I1. destruct (Z.ltb_spec n W) as [Hlt|Hge].
    + rewrite (Z.div_small n W) by lia. rewrite Z.mul_0_r, Z.sub_0_l. exact Hf.
    + apply map_times_ext; [|assumption].
      assert (W * 1 <= W * (n / W)).
      { apply Z.mul_le_mono_nonneg_l; [lia|]. apply Z.div_le_lower_bound; lia. }
      lia.
Qed.

(** without stride: one row at the end *)
Lemma rec_simulation_once {A} (rows : Z -> A) wstride junk single0 n :
  0 <= n ->
  exists r0 r, rec_init None wstride true junk single0 = Ok r0 /\
    rec_simulation rows n r0 = Ok r /\ rc_file r = Some [rows n].
Proof.
  intros Hn. eexists; unfold rec_init; cbn [orZ Z.eqb negb].
  set (r0 := mkRec 0 0 [] single0 0 (Some [])).
  destruct (foldM_zrange_ind (fun r k => rec_run (Ok (rows k)) r k) (fun r _ => r = r0) n r0)
    as (r1 & E1 & I1); auto.
  { intros r k Hk ->. exists r0. split; reflexivity. }
  eexists. split; [reflexivity|]. split.
  - unfold rec_simulation. fold r0. rewrite E1. cbn [bind]. subst r1. cbn. reflexivity.
  - reflexivity.
Qed.

(** without filename nothing is written *)
Lemma rec_write_nofile {A} (r : recorder A) k : rc_file r = None -> rec_write r k = Ok r.
Proof. intros H; unfold rec_write; now rewrite H. Qed.

(** ** number of rows in the exceptional case *)
Lemma times_len_aux s c : 0 < s -> 0 <= c ->
  forall k, length (times (s * k) (s * (k + c)) s) = Z.to_nat c.
Proof.
  intros Hs Hc. pattern c; apply natlike_ind; [| |assumption].
  - intros k. rewrite times_nil by lia. reflexivity.
  - intros d Hd IH k. unfold Z.succ.
    assert (0 <= s * d) by (apply Z.mul_nonneg_nonneg; lia).
    rewrite (times_app (s * k) (s * (k + d))) by lia. rewrite app_length, IH.
    assert (times (s * (k + d)) (s * (k + (d + 1))) s = [s * (k + d + 1)]) as ->.
    { apply sorted_lt_ext.
      - apply times_sorted.
      - repeat constructor.
      - intros t. rewrite in_times. cbn [In]. split.
        + intros [H1 H2]. left.
          assert (exists j, t = s * j) as (j & ->).
          { exists (t / s). pose proof (Z.div_mod t s ltac:(lia)). lia. }
          f_equal. destruct H1 as [H1 H3].
          apply Z.mul_lt_mono_pos_l in H1; [|assumption].
          apply Z.mul_le_mono_pos_l in H3; [|assumption]. lia.
        + intros [<-|[]]. split; [lia|]. rewrite Z.mul_comm. apply Z.mod_mul; lia. }
    cbn [length]. lia.
Qed.

Lemma times_len s W q : 0 < s -> 0 < W -> W mod s = 0 ->
  length (times (W * q - W) (W * q) s) = Z.to_nat (W / s).
Proof.
  intros Hs HW Hm. pose proof (Z.div_mod W s ltac:(lia)) as D. rewrite Hm in D.
  set (c := W / s) in *. assert (W = s * c) as E by lia.
  assert (0 < c). { destruct (Z_lt_le_dec 0 c); [assumption|]. exfalso.
    assert (s * c <= s * 0) by (apply Z.mul_le_mono_nonneg_l; lia). lia. }
  replace (W * q - W) with (s * (c * q - c)) by (rewrite E; ring).
  replace (W * q) with (s * ((c * q - c) + c)) by (rewrite E; ring).
  apply times_len_aux; lia.
Qed.

Lemma times_stop s W n : 0 < s -> 0 < W -> W mod s = 0 -> 0 <= n -> 0 < n mod W < s ->
  times 0 n s = times 0 (W * (n / W)) s.
Proof.
  intros Hs HW Hm Hn Hnm. pose proof (Z.div_mod n W ltac:(lia)) as D.
  assert (0 <= W * (n / W)) by (apply Z.mul_nonneg_nonneg; [lia|apply Z.div_pos; lia]).
  rewrite (times_app 0 (W * (n / W)) n) by lia.
  rewrite (times_empty (W * (n / W)) n s); [apply app_nil_r|].
  intros t Ht Htm.
  pose proof (Z.div_mod W s ltac:(lia)) as DW. rewrite Hm in DW.
  assert (t mod s = t - s * (W / s * (n / W))) as E.
  { symmetry. apply Z.mod_unique with (q := W / s * (n / W)); [|ring].
    left. replace (s * (W / s * (n / W))) with (W * (n / W)) by (rewrite DW at 1; ring). lia. }
  replace (s * (W / s * (n / W))) with (W * (n / W)) in E by (rewrite DW at 1; ring). lia.
Qed.

Lemma rec_simulation_stale {A} (rows : Z -> A) stride wstride junk single0 s W n :
  stride = Some s -> 0 < s -> positive_option wstride -> W = option_or wstride (100 * s) ->
  W mod s = 0 -> (forall m, length (junk m) = m) -> 0 <= n -> 0 < n mod W < s ->
  exists r0 r, rec_init stride wstride true junk single0 = Ok r0 /\
    rec_simulation rows n r0 = Ok r /\
    exists extra, rc_file r = Some (map rows (times 0 n s) ++ extra) /\
      Z.of_nat (length extra) = W / s /\ 0 < W / s.
Proof.
  intros Es Hs Pw EW HWs Hj Hn Hm.
  assert (0 < W) as HW by (subst W; apply option_or_pos; [assumption|lia]).
  destruct (rec_simulation_file rows stride wstride junk single0 s W n)
    as (r0 & r & E0 & E1 & Hf); auto.
  exists r0, r. split; [assumption|]. split; [assumption|].
  replace ((n mod W =? 0) || (s <=? n mod W)) with false in Hf by lia.
  unfold rec_expected in Hf. rewrite <- (times_stop s W n) in Hf by assumption.
  eexists. split; [exact Hf|].
  assert (0 < W / s) as Hc.
  { pose proof (Z.div_mod W s ltac:(lia)) as D. rewrite HWs in D.
    destruct (Z_lt_le_dec 0 (W / s)); [assumption|]. exfalso.
    assert (s * (W / s) <= s * 0) by (apply Z.mul_le_mono_nonneg_l; lia). lia. }
  split; [|assumption].
  destruct (n <? W); [rewrite Hj|rewrite map_length, times_len by assumption]; lia.
Qed.
