(** Runs with other contents of uninitialised memory (C52): recorded rows *)
From Coq Require Import Lia Lra.
From Verif Require Import PyBase Model_valid Model_rec Model_xr Spec_times Spec_traj Spec_trajrun Spec_rec Proof_base Proof_traj Proof_trajrun Proof_setup2 Proof_main Proof_whole2 Proof_whole3 Proof_whole5.
Open Scope Z_scope.
Open Scope list_scope.
Ltac Zify.zify_post_hook ::= idtac.

Lemma py_pos_in {A} (l : list A) i j : py_pos (length l) i = Some j -> (j < length l)%nat.
Proof.
  unfold py_pos. destruct ((0 <=? i) && (i <? Z.of_nat (length l)))%bool eqn:E.
  - intro H. injection H as <-. lia.
  - destruct ((- Z.of_nat (length l) <=? i) && (i <? 0))%bool eqn:E2; [|discriminate]. intro H. injection H as <-. lia.
Qed.
Lemma nth_error_set_nth {A} (l : list A) k v : forall i, nth_error (set_nth l k v) i = if Nat.eqb i k then (if Nat.ltb k (length l) then Some v else None) else nth_error l i.
Proof.
  revert k. induction l as [|x l IH]; intros k i.
  - destruct k, i; cbn; try reflexivity. destruct (Nat.eqb i k); reflexivity.
  - destruct k, i; cbn [set_nth nth_error Nat.eqb length]; try reflexivity. rewrite IH. reflexivity.
Qed.

(** two recorders that differ in the rows not written before step k, and in the single row *)
Record rec_rel {A} (s W : Z) (r r' : recorder A) (k : Z) : Prop := {
  rr_stride : rc_stride r = s; rr_stride' : rc_stride r' = s;
  rr_wstride : rc_wstride r = W; rr_wstride' : rc_wstride r' = W;
  rr_len : Z.of_nat (length (rc_rows r)) * s = W; rr_len' : length (rc_rows r') = length (rc_rows r);
  rr_rows : forall i, (Z.of_nat i + 1) * s <= k -> nth_error (rc_rows r) i = nth_error (rc_rows r') i;
  rr_last : rc_last r = rc_last r'; rr_file : rc_file r = rc_file r';
  rr_zero : k < W -> rc_last r = 0 }.

Lemma nth_error_ext {A} : forall l l' : list A, (forall i, nth_error l i = nth_error l' i) -> l = l'.
Proof.
  induction l as [|x l IH]; intros [|y l'] H; [reflexivity|specialize (H 0%nat); discriminate|specialize (H 0%nat); discriminate|].
  f_equal; [specialize (H 0%nat); cbn in H; congruence|]. apply IH. intro i. exact (H (S i)).
Qed.
Lemma rec_rel_full {A} s W (r r' : recorder A) k : 0 < s -> rec_rel s W r r' k -> W <= k -> rc_rows r = rc_rows r'.
Proof.
  intros Hs [] Hk. apply nth_error_ext. intro i. destruct (Nat.ltb_spec i (length (rc_rows r))).
  - apply rr_rows0. assert ((Z.of_nat i + 1) * s <= Z.of_nat (length (rc_rows r)) * s) by (apply Z.mul_le_mono_nonneg_r; lia). lia.
  - transitivity (@None A); [|symmetry]; apply nth_error_None; lia.
Qed.

Lemma rec_run_rel {A} s W row (r r' r1 r1' : recorder A) k : 0 < s -> 0 < W -> 0 < k -> rec_rel s W r r' (k - 1) ->
  rec_run row r k = Ok r1 -> rec_run row r' k = Ok r1' -> rec_rel s W r1 r1' k.
Proof.
  intros Hs HW Hk RR H H'. unfold rec_run in H, H'.
  apply bind_ok in H. destruct H as (a & Ea & H). apply bind_ok in H'. destruct H' as (a' & Ea' & H').
  assert (R1 : rec_rel s W a a' k).
  { destruct RR. rewrite rr_stride0 in Ea. rewrite rr_stride'0 in Ea'. rewrite (proj2 (Z.eqb_neq s 0) ltac:(lia)) in *. cbn [negb andb] in Ea, Ea'.
    destruct (Z.eqb_spec (k mod s) 0) as [E0|N0].
    - apply bind_ok in Ea. destruct Ea as (v & Ev & Ea). apply bind_ok in Ea'. destruct Ea' as (v' & Ev' & Ea').
      rewrite Ev in Ev'. apply ok_inj in Ev'. subst v'. unfold py_set in Ea, Ea'. rewrite rr_wstride0 in Ea. rewrite rr_wstride'0, rr_len'0 in Ea'.
      destruct (py_pos (length (rc_rows r)) (k mod W / s - 1)) as [j|] eqn:Ej; [|discriminate].
      pose proof (py_pos_in _ _ _ Ej) as Hj. cbn [bind] in Ea, Ea'. apply ok_inj in Ea, Ea'. subst a a'.
      constructor; cbn [rc_stride rc_wstride rc_rows rc_last rc_file rc_single]; auto; try lia.
      + rewrite set_nth_length. assumption.
      + rewrite !set_nth_length. assumption.
      + intros i Hi. rewrite !nth_error_set_nth, rr_len'0. destruct (Nat.eqb_spec i j) as [->|Nj]; [reflexivity|].
        destruct (Z.le_gt_cases ((Z.of_nat i + 1) * s) (k - 1)) as [?|Hgt]; [now apply rr_rows0|].
        destruct (Nat.ltb_spec i (length (rc_rows r))) as [Hi'|Hi']; [exfalso|transitivity (@None A); [|symmetry]; apply nth_error_None; lia].
        assert (Ek : k = (Z.of_nat i + 1) * s) by lia. apply Nj.
        assert (Hle : k <= W) by (rewrite Ek, <- rr_len0; apply Z.mul_le_mono_nonneg_r; lia).
        unfold py_pos in Ej. destruct (Z.eq_dec k W) as [Ew|Nw].
        * rewrite Ew, Z.mod_same, Z.div_0_l in Ej by lia. change (0 - 1) with (-1) in Ej. change (0 <=? -1) with false in Ej. cbn [andb] in Ej. cbv zeta iota in Ej.
          rewrite Ew, <- rr_len0 in Ek. apply Z.mul_reg_r in Ek; [|lia].
          destruct ((- Z.of_nat (length (rc_rows r)) <=? -1) && (-1 <? 0))%bool; [|discriminate]. assert (Z.to_nat (-1 + Z.of_nat (length (rc_rows r))) = j) by congruence. lia.
        * rewrite Z.mod_small in Ej by lia. rewrite Ek, Z.div_mul in Ej by lia. replace (Z.of_nat i + 1 - 1) with (Z.of_nat i) in Ej by lia.
          destruct ((0 <=? Z.of_nat i) && (Z.of_nat i <? Z.of_nat (length (rc_rows r))))%bool eqn:Eb; [injection Ej as <-; lia|].
          exfalso. lia.
    - apply ok_inj in Ea, Ea'. subst a a'. constructor; auto; try lia.
      intros i Hi. apply rr_rows0. destruct (Z.le_gt_cases ((Z.of_nat i + 1) * s) (k - 1)) as [?|Hgt]; [assumption|exfalso].
      apply N0. replace k with ((Z.of_nat i + 1) * s) by lia. apply Z.mod_mul. lia. }
  clear Ea Ea' RR. pose proof (rr_wstride _ _ _ _ _ R1) as W1. pose proof (rr_wstride' _ _ _ _ _ R1) as W2. rewrite W1 in H. rewrite W2 in H'.
  rewrite (proj2 (Z.eqb_neq W 0) ltac:(lia)) in *. cbn [negb andb] in H, H'.
  destruct (Z.eqb_spec (k mod W) 0) as [E0|N0]; [|apply ok_inj in H, H'; subst; exact R1].
  assert (Wk : W <= k) by (apply Z.mod_divide in E0; [|lia]; apply Z.divide_pos_le; lia || assumption).
  pose proof (rec_rel_full _ _ _ _ _ Hs R1 Wk) as Er. destruct R1. unfold rec_write in H, H'. rewrite <- rr_file0 in H'.
  destruct (rc_file a) as [file|] eqn:Ef.
  2:{ apply ok_inj in H, H'. subst. constructor; auto. congruence. }
  rewrite rr_stride0 in H. rewrite rr_stride'0 in H'. rewrite (proj2 (Z.eqb_neq s 0) ltac:(lia)) in *. cbn [negb] in H, H'.
  rewrite <- Er, <- rr_last0 in H'. apply bind_ok in H. destruct H as (sv & Es & H). rewrite Es in H'. cbn [bind] in H'. apply ok_inj in H, H'.
  subst. constructor; cbn [rc_stride rc_wstride rc_rows rc_last rc_file rc_single]; auto; try congruence; lia.
Qed.

Lemma rec_loop_rel {A} s W (rows : Z -> res A) n : 0 < s -> 0 < W -> 0 <= n -> forall r r' r1 r1' : recorder A, rec_rel s W r r' 0 ->
  foldM (fun r k => rec_run (rows k) r k) (zrange 1 (n + 1)) r = Ok r1 ->
  foldM (fun r k => rec_run (rows k) r k) (zrange 1 (n + 1)) r' = Ok r1' -> rec_rel s W r1 r1' n.
Proof.
  intros Hs HW Hn r r' r1 r1' R0. revert r1 r1'. pattern n. apply natlike_ind; [| |exact Hn].
  - intros r1 r1' H H'. rewrite zrange_nil in H, H' by lia. cbn [foldM] in H, H'. apply ok_inj in H, H'. now subst.
  - intros k Hk IH r1 r1' H H'. unfold Z.succ in *. rewrite zrange_snoc in H, H' by lia. rewrite foldM_app in H, H'.
    apply bind_ok in H. destruct H as (a & Ea & H). apply bind_ok in H'. destruct H' as (a' & Ea' & H').
    cbn [foldM] in H, H'. apply bind_ok in H. destruct H as (b & Eb & H). apply ok_inj in H. subst b.
    apply bind_ok in H'. destruct H' as (b & Eb' & H'). apply ok_inj in H'. subst b.
    eapply rec_run_rel; [exact Hs|exact HW| | |exact Eb|exact Eb']; [lia|]. replace (k + 1 - 1) with k by lia. auto.
Qed.

Lemma firstn_agree {A} m : forall l l' : list A, length l = length l' -> (forall i, (i < m)%nat -> nth_error l i = nth_error l' i) -> firstn m l = firstn m l'.
Proof.
  induction m as [|m IH]; intros [|x l] [|y l'] L H; cbn in *; try reflexivity; try discriminate.
  f_equal; [specialize (H 0%nat ltac:(lia)); cbn in H; congruence|]. apply IH; [lia|]. intros i Hi. exact (H (S i) ltac:(lia)).
Qed.

(** the files are the same if the run is not shorter than the stride *)
Lemma rec_final_rel {A} s W row (r r' r1 r1' : recorder A) n : 0 < s -> 0 < W -> s <= n -> rec_rel s W r r' n ->
  rec_final_run row r n = Ok r1 -> rec_final_run row r' n = Ok r1' -> rc_file r1 = rc_file r1'.
Proof.
  intros Hs HW Hn RR H H'. unfold rec_final_run in H, H'. pose proof (rec_rel_full _ _ _ _ _ Hs RR) as Full. destruct RR.
  rewrite rr_stride0 in H. rewrite rr_stride'0 in H'. rewrite (proj2 (Z.eqb_neq s 0) ltac:(lia)) in H, H'. cbn [bind] in H, H'.
  unfold rec_write in H, H'. rewrite <- rr_file0 in H'. destruct (rc_file r) as [file|] eqn:Ef; [|apply ok_inj in H, H'; subst; congruence].
  rewrite rr_stride0 in H. rewrite rr_stride'0 in H'. rewrite (proj2 (Z.eqb_neq s 0) ltac:(lia)) in H, H'. cbn [negb] in H, H'.
  assert (G : get_valid_data (rc_rows r) n s s (rc_last r) = get_valid_data (rc_rows r') n s s (rc_last r')).
  { rewrite <- rr_last0. destruct (Z.le_gt_cases W n) as [Hw|Hw]; [rewrite Full by exact Hw; reflexivity|].
    rewrite rr_zero0 by lia. unfold get_valid_data. rewrite rr_len'0, rr_len0. cbv zeta.
    rewrite (proj2 (Z.eqb_neq n 0) ltac:(lia)), (proj2 (Z.eqb_neq W 0) ltac:(lia)), (proj2 (Z.eqb_neq s 0) ltac:(lia)).
    rewrite (Z.mod_small n W) by lia. assert (1 <= n / s) by (apply Z.div_le_lower_bound; lia).
    rewrite (proj2 (Z.eqb_neq (n / s) 0) ltac:(lia)). rewrite Bool.andb_false_r. rewrite !Z.mod_0_l, Z.div_0_l, Z.div_same by lia.
    change (0 + (1 - 1) - 0) with 0. unfold py_slice. change (1 <=? 0) with false. cbv iota. rewrite rr_len'0. f_equal. f_equal.
    unfold slice_bound. change (0 <? 0) with false. cbv iota. rewrite (Z.min_l 0) by lia. change (Z.to_nat 0) with 0%nat. cbn [skipn].
    rewrite (proj2 (Z.ltb_ge (n / s) 0) ltac:(lia)). apply firstn_agree; [now symmetry|]. intros i Hi. apply rr_rows0.
    assert (Z.of_nat i + 1 <= n / s) by lia. assert ((Z.of_nat i + 1) * s <= n / s * s) by (apply Z.mul_le_mono_nonneg_r; lia).
    pose proof (Z.mul_div_le n s Hs). lia. }
  rewrite <- G in H'. apply bind_ok in H. destruct H as (sv & Es & H). rewrite Es in H'. cbn [bind] in H'. apply ok_inj in H, H'. subst. reflexivity.
Qed.

(** without a stride only the last row is written *)
Lemma rec_run_off {A} row (r : recorder A) k : rc_stride r = 0 -> rc_wstride r = 0 -> rec_run row r k = Ok r.
Proof. intros H1 H2. unfold rec_run. rewrite H1. cbn [Z.eqb negb andb bind]. rewrite H2. reflexivity. Qed.
Lemma rec_loop_off {A} (rows : Z -> res A) (r : recorder A) l : rc_stride r = 0 -> rc_wstride r = 0 -> foldM (fun r k => rec_run (rows k) r k) l r = Ok r.
Proof. intros H1 H2. induction l as [|k l IH]; cbn [foldM]; [reflexivity|]. rewrite rec_run_off by assumption. exact IH. Qed.

(** Two recordings of the same rows, other memory.  *)
Lemma rec_same {A} stride wstride fn (junk junk' : nat -> list A) single single' (rows : Z -> res A) last n r0 r0' r r' :
  positive_option stride -> positive_option wstride -> (forall m, length (junk m) = m) -> (forall m, length (junk' m) = m) ->
  rec_init stride wstride fn junk single = Ok r0 -> rec_init stride wstride fn junk' single' = Ok r0' -> 0 <= n ->
  (do r1 <- foldM (fun r k => rec_run (rows k) r k) (zrange 1 (n + 1)) r0; rec_final_run last r1 n) = Ok r ->
  (do r1 <- foldM (fun r k => rec_run (rows k) r k) (zrange 1 (n + 1)) r0'; rec_final_run last r1 n) = Ok r' ->
  (forall s, stride = Some s -> s <= n) -> rc_file r = rc_file r'.
Proof.
  intros Ps Pw J J' I I' Hn H H' Hs. unfold rec_init in I, I'. destruct stride as [s|].
  - pose proof (Ps s eq_refl) as Hs0. cbv zeta in I, I'. rewrite (option_or_orZ _ 0 Ps) in I, I'. cbn [option_or] in I, I'.
    rewrite (proj2 (Z.eqb_neq s 0) ltac:(lia)) in I, I'. cbn [negb] in I, I'.
    destruct (truthyZ wstride && negb fn)%bool; [discriminate|].
    rewrite (option_or_orZ _ (s * 100) Pw) in I, I'. pose proof (option_or_pos wstride (s * 100) Pw ltac:(lia)) as HW.
    set (W := option_or wstride (s * 100)) in *.
    destruct (Z.eqb_spec (W mod s) 0) as [E|]; cbn [negb] in I, I'; [|discriminate]. apply ok_inj in I, I'.
    apply bind_ok in H. destruct H as (a & Ea & H). apply bind_ok in H'. destruct H' as (a' & Ea' & H').
    eapply (rec_final_rel s W last a a' r r' n); [lia|lia|now apply Hs| |exact H|exact H'].
    eapply (rec_loop_rel s W rows n); [lia|lia|exact Hn| |exact Ea|exact Ea'].
    subst r0 r0'. assert (0 <= W / s) by (apply Z.div_pos; lia).
    constructor; cbn [rc_stride rc_wstride rc_rows rc_last rc_file]; auto.
    + rewrite J, Z2Nat.id by assumption. pose proof (Z.div_mod W s ltac:(lia)). lia.
    + rewrite J, J'. reflexivity.
    + intros i Hi. assert (0 < (Z.of_nat i + 1) * s) by (apply Z.mul_pos_pos; lia). lia.
  - cbn [orZ Z.eqb negb] in I, I'. cbv zeta in I, I'. cbn [Z.eqb negb] in I, I'. apply ok_inj in I, I'.
    apply bind_ok in H. destruct H as (a & Ea & H). apply bind_ok in H'. destruct H' as (a' & Ea' & H').
    rewrite rec_loop_off in Ea, Ea' by (subst; reflexivity). apply ok_inj in Ea, Ea'. subst a a' r0 r0'.
    unfold rec_final_run in H, H'. cbn [rc_stride Z.eqb] in H, H'. destruct last as [v|]; cbn [bind] in H, H'; [|discriminate].
    unfold rec_write in H, H'. cbn [rc_file rc_stride rc_wstride rc_last rc_rows rc_single Z.eqb negb] in H, H'.
    destruct fn; apply ok_inj in H, H'; subst; reflexivity.
Qed.
