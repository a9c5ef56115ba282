(** The ring buffer invariant [buffer_holds] is kept by storing a row *)
From Coq Require Import Lia ZifyBool ZifyNat.
From Verif Require Import PyBase Model_valid Spec_times Proof_base.
Ltac Zify.zify_post_hook ::= idtac.

Lemma py_pos_nonneg len i : 0 <= i < Z.of_nat len -> py_pos len i = Some (Z.to_nat i).
Proof. intros H; unfold py_pos; replace ((0 <=? i) && (i <? Z.of_nat len)) with true by lia; reflexivity. Qed.

Lemma py_pos_last len : (0 < len)%nat -> py_pos len (-1) = Some (len - 1)%nat.
Proof.
  intros H; unfold py_pos.
  replace ((0 <=? -1) && (-1 <? Z.of_nat len)) with false by lia.
  replace ((- Z.of_nat len <=? -1) && (-1 <? 0)) with true by lia.
  f_equal; lia.
Qed.

Lemma mod_pred j L : 0 < L -> (j - 1) mod L = if j mod L =? 0 then L - 1 else j mod L - 1.
Proof.
  intros HL. pose proof (Z.mod_pos_bound j L HL) as B. pose proof (Z.div_mod j L ltac:(lia)) as E.
  symmetry. destruct (Z.eqb_spec (j mod L) 0) as [E0|N0].
  - apply Z.mod_unique with (q := j / L - 1); [lia|]. lia.
  - apply Z.mod_unique with (q := j / L); [lia|]. lia.
Qed.

Lemma py_pos_ring L j : (0 < L)%nat ->
  py_pos L (j mod Z.of_nat L - 1) = Some (Z.to_nat ((j - 1) mod Z.of_nat L)).
Proof.
  intros HL. rewrite mod_pred by lia.
  pose proof (Z.mod_pos_bound j (Z.of_nat L) ltac:(lia)) as B.
  destruct (Z.eqb_spec (j mod Z.of_nat L) 0) as [->|N0].
  - rewrite py_pos_last by assumption. f_equal; lia.
  - rewrite py_pos_nonneg by lia. reflexivity.
Qed.

(** storing the row of an update time *)
Lemma buffer_store {A} (data : list A) us (f : Z -> A) step :
  0 < us -> data <> [] -> step mod us = 0 ->
  buffer_holds data us f (step - 1) ->
  exists data',
    py_set data ((step mod (Z.of_nat (length data) * us)) / us - 1) (f step) = Ok data' /\
    length data' = length data /\ buffer_holds data' us f step.
Proof.
  intros Hus Hne Hmod Hb.
  assert (0 < length data)%nat as HL by (destruct data; cbn; [congruence|lia]).
  set (L := length data) in *.
  assert (exists j, step = us * j) as (j & Ej).
  { exists (step / us). pose proof (Z.div_mod step us ltac:(lia)). lia. }
  assert (((step mod (Z.of_nat L * us)) / us) = j mod Z.of_nat L) as Erow.
  { rewrite Ej, (Z.mul_comm (Z.of_nat L) us), Z.mul_mod_distr_l by lia.
    rewrite Z.mul_comm. apply Z.div_mul; lia. }
  unfold py_set. rewrite Erow. fold L. rewrite py_pos_ring by assumption.
  eexists; split; [reflexivity|]. split; [apply set_nth_length|].
  set (q := (j - 1) / Z.of_nat L).
  pose proof (Z.div_mod (j - 1) (Z.of_nat L) ltac:(lia)) as Dj. fold q in Dj.
  pose proof (Z.mod_pos_bound (j - 1) (Z.of_nat L) ltac:(lia)) as Bj.
  assert (cycle_start (Z.of_nat L * us) step = Z.of_nat L * us * q) as Ebase.
  { unfold cycle_start. f_equal. symmetry.
    apply Z.div_unique with (r := us * ((j - 1) mod Z.of_nat L) + us - 1); [|lia].
    left. split; [|].
    - assert (0 <= us * ((j - 1) mod Z.of_nat L)) by (apply Z.mul_nonneg_nonneg; lia). lia.
    - assert (us * ((j - 1) mod Z.of_nat L) <= us * (Z.of_nat L - 1)) by (apply Z.mul_le_mono_nonneg_l; lia). lia. }
  unfold buffer_holds. rewrite set_nth_length. fold L. rewrite Ebase.
  intros r Hr Hle.
  assert (us * (Z.of_nat L * q + Z.of_nat r + 1) <= us * j) as Hle' by lia.
  apply Z.mul_le_mono_pos_l in Hle'; [|assumption].
  destruct (Z.eq_dec (Z.of_nat L * q + Z.of_nat r + 1) j) as [Eq|Ne].
  - replace (Z.to_nat ((j - 1) mod Z.of_nat L)) with r by lia.
    rewrite nth_error_set_nth_eq by (fold L; assumption).
    do 2 f_equal. rewrite Ej, <- Eq. ring.
  - rewrite nth_error_set_nth_neq by lia.
    assert (cycle_start (Z.of_nat L * us) (step - 1) = Z.of_nat L * us * q) as Ebase'.
    { unfold cycle_start. f_equal. symmetry.
      apply Z.div_unique with (r := us * ((j - 1) mod Z.of_nat L) + us - 2); [|lia].
      left. split.
      - assert (us * 1 <= us * ((j - 1) mod Z.of_nat L)) by (apply Z.mul_le_mono_nonneg_l; lia). lia.
      - assert (us * ((j - 1) mod Z.of_nat L) <= us * (Z.of_nat L - 1)) by (apply Z.mul_le_mono_nonneg_l; lia). lia. }
    unfold buffer_holds in Hb. fold L in Hb. rewrite Ebase' in Hb.
    apply Hb; [assumption|].
    assert (us * (Z.of_nat L * q + Z.of_nat r + 1) <= us * (j - 1)) by (apply Z.mul_le_mono_nonneg_l; lia).
    lia.
Qed.

(** a time step without update *)
Lemma buffer_skip {A} (data : list A) us (f : Z -> A) step :
  0 < us -> data <> [] -> step mod us <> 0 ->
  buffer_holds data us f (step - 1) -> buffer_holds data us f step.
Proof.
  intros Hus Hne Hmod Hb. unfold buffer_holds in *.
  assert (0 < length data)%nat as HL by (destruct data; cbn; [congruence|lia]).
  set (L := Z.of_nat (length data)) in *.
  intros r Hr Hle.
  assert (0 < L * us) as HW by (apply Z.mul_pos_pos; lia).
  assert (cycle_start (L * us) (step - 1) = cycle_start (L * us) step) as E.
  { unfold cycle_start in *. f_equal. symmetry.
    apply Z.div_unique with (r := (step - 1) mod (L * us) - 1);
      pose proof (Z.mod_pos_bound (step - 1) (L * us) HW);
      pose proof (Z.div_mod (step - 1) (L * us) ltac:(lia)) as D; [|lia].
    left. assert (0 < us * (Z.of_nat r + 1)) by (apply Z.mul_pos_pos; lia).
    destruct (Z.eq_dec ((step - 1) mod (L * us)) 0) as [Z0|]; [|lia]. exfalso.
    rewrite Z0 in D.
    assert (us * (Z.of_nat r + 1) <= 1) by lia.
    assert (us * 1 <= us * (Z.of_nat r + 1)) by (apply Z.mul_le_mono_nonneg_l; lia).
    assert (us = 1) by lia. apply Hmod; subst us. apply Z.mod_1_r. }
  assert (base_le : cycle_start (L * us) step + (Z.of_nat r + 1) * us <> step).
  { intros Heq. apply Hmod. rewrite <- Heq. unfold cycle_start.
    replace (L * us * ((step - 1) / (L * us)) + (Z.of_nat r + 1) * us)
      with ((L * ((step - 1) / (L * us)) + Z.of_nat r + 1) * us) by ring.
    apply Z.mod_mul; lia. }
  rewrite <- E in *. apply Hb; [assumption|]. lia.
Qed.

(** Before the first time step every content is fine: [buffer_holds] at step 0 only
    speaks about times <= 0, where the recorded function may be chosen freely. *)
Lemma buffer_init {A} (data : list A) us (f : Z -> A) : 0 < us -> data <> [] ->
  exists f', (forall t, 0 < t -> f' t = f t) /\ buffer_holds data us f' 0.
Proof.
  intros Hus Hne. destruct data as [|d0 tl] eqn:Ed; [congruence|]. rewrite <- Ed in *.
  set (L := Z.of_nat (length data)). assert (0 < L) by (subst data; unfold L; cbn; lia).
  assert ((0 - 1) / (L * us) = -1) as E.
  { symmetry; apply Z.div_unique with (r := L * us - 1); [|lia].
    assert (0 < L * us) by (apply Z.mul_pos_pos; lia). lia. }
  exists (fun t => if 0 <? t then f t else nth (Z.to_nat ((t + L * us) / us - 1)) data d0).
  split.
  - intros t Ht; replace (0 <? t) with true by lia; reflexivity.
  - intros r Hr Hle. fold L in Hle |- *. unfold cycle_start in *. rewrite E in *.
    replace (0 <? L * us * -1 + (Z.of_nat r + 1) * us) with false by lia.
    replace (Z.to_nat _) with r.
    + apply nth_error_nth'; assumption.
    + replace (L * us * -1 + (Z.of_nat r + 1) * us + L * us) with ((Z.of_nat r + 1) * us) by ring.
      rewrite Z.div_mul by lia. lia.
Qed.

Lemma map_times_ext {A} (f f' : Z -> A) lo hi s :
  0 <= lo -> (forall t, 0 < t -> f' t = f t) -> map f' (times lo hi s) = map f (times lo hi s).
Proof. intros H0 H; apply map_ext_in; intros t Ht; apply in_times in Ht; apply H; lia. Qed.

(** relation of the start of the current cycle to the last passed multiple of W *)
Lemma cycle_start_le W step : 0 < W -> cycle_start W step <= W * (step / W).
Proof.
  intros HW. unfold cycle_start. apply Z.mul_le_mono_nonneg_l; [lia|].
  apply Z.div_le_mono; lia.
Qed.

Lemma cycle_start_prev W step : 0 < W -> cycle_start W step = W * ((step - 1) / W).
Proof. reflexivity. Qed.

Lemma cycle_end W step : 0 < W -> step mod W <> 0 -> W * (step / W) = cycle_start W step.
Proof.
  intros HW Hm. unfold cycle_start. f_equal.
  pose proof (Z.mod_pos_bound step W HW). pose proof (Z.div_mod step W ltac:(lia)).
  apply Z.div_unique with (r := step mod W - 1); [lia|lia].
Qed.
