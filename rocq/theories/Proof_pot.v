(** Potentials *)
From Coq Require Import Lia Lra ZifyBool ZifyNat.
From Coquelicot Require Import Coquelicot.
From Verif Require Import PyBase Model_dyn Model_grid Model_pot Spec_grid Spec_pot Proof_base Proof_grid Proof_grid2.
Ltac Zify.zify_post_hook ::= idtac.
Open Scope R_scope.

(** ** sums *)
Lemma total_cons x l : total (x :: l) = x + total l.
Proof. reflexivity. Qed.
Lemma total_ext {A} (f g : A -> R) l : (forall a, In a l -> f a = g a) -> total (map f l) = total (map g l).
Proof. intros H. f_equal. now apply map_ext_in. Qed.
Lemma total_scal {A} (f : A -> R) k l : total (map (fun a => k * f a) l) = k * total (map f l).
Proof. induction l as [|a l IH]; cbn [map]; rewrite ?total_cons; [cbn; lra|]. rewrite IH. lra. Qed.
Lemma total_plus {A} (f g : A -> R) l : total (map (fun a => f a + g a) l) = total (map f l) + total (map g l).
Proof. induction l as [|a l IH]; cbn [map]; rewrite ?total_cons; [cbn; lra|]. rewrite IH. lra. Qed.
Lemma total_zero {A} (f : A -> R) l : (forall a, In a l -> f a = 0) -> total (map f l) = 0.
Proof. induction l as [|a l IH]; intros H; cbn [map]; rewrite ?total_cons; [reflexivity|]. rewrite H, IH; [lra|intros; apply H; now right|now left]. Qed.
Lemma total_swap {A B} (f : A -> B -> R) la lb :
  total (map (fun a => total (map (f a) lb)) la) = total (map (fun b => total (map (fun a => f a b) la)) lb).
Proof.
  induction la as [|a la IH]; cbn [map].
  - symmetry. apply total_zero. reflexivity.
  - rewrite total_cons, IH, <- total_plus. apply total_ext. reflexivity.
Qed.
Lemma nsum_total s f : nsum s f = total (map f (indices s)).
Proof. symmetry. apply rsum_indices. Qed.
Lemma nsum_zero s f : (forall t, in_shape s t -> f t = 0) -> nsum s f = 0.
Proof. intros H. rewrite nsum_total. apply total_zero. intros t Ht. apply H. now apply in_indices. Qed.

Lemma at_of_map s f idx : in_shape s idx -> a_at 0 (mkArr s (map f (indices s))) idx = f idx.
Proof.
  intros H. unfold a_at. cbn [a_shape a_flat]. rewrite ravel_flat by assumption.
  rewrite (nth_map_in _ _ _ _ []) by (rewrite indices_length; now apply flat_pos_lt). now rewrite nth_indices.
Qed.
Lemma at_entry c idx : in_shape (a_shape c) idx -> a_at 0 c idx = entry (a_shape c) (a_flat c) idx.
Proof. intros H. unfold a_at, entry. now rewrite ravel_flat. Qed.

Lemma horner_sum x c : c <> [] -> horner x c = total (map (fun i => nth i c 0 * x ^ i) (seq 0 (length c))).
Proof.
  induction c as [|a c IH]; [congruence|]. intros _. destruct c as [|b c]; [cbn; lra|].
  change (horner x (a :: b :: c)) with (a + horner x (b :: c) * x). rewrite IH by discriminate.
  cbn [length seq map]. rewrite !total_cons. cbn [nth pow]. rewrite <- !seq_shift, !map_map.
  set (l := seq 0 (length c)). rewrite !Rmult_1_r. rewrite Rmult_plus_distr_r. f_equal. f_equal.
  rewrite Rmult_comm, <- total_scal. apply total_ext. intros i _. cbn. ring.
Qed.

Lemma polyval_nd pos : forall c, length pos = length (a_shape c) -> Forall (fun n => (0 < n)%nat) (a_shape c) ->
  polyvalnd pos c = nsum (a_shape c) (fun idx => a_at 0 c idx * monomial pos idx).
Proof.
  unfold polyvalnd. induction pos as [|x pos IH]; intros c L F; destruct (a_shape c) as [|n s] eqn:E; cbn in L; try lia.
  - cbn. ring.
  - cbn [fold_left]. inversion F as [|? ? F1 F2]; subst.
    set (col := fun idx => horner x (map (fun i => a_at 0 c (i :: idx)) (seq 0 n))).
    assert (polyval c x = mkArr s (map col (indices s))) as -> by (unfold polyval; rewrite E; reflexivity).
    rewrite IH by (cbn; auto). cbn [a_shape]. rewrite (nsum_ext s _ (fun idx => total (map (fun i => a_at 0 c (i :: idx) * monomial (x :: pos) (i :: idx)) (seq 0 n)))).
    + cbn [nsum]. rewrite nsum_total, total_swap. apply total_ext. intros i _. now rewrite nsum_total.
    + intros t Ht. rewrite at_of_map by assumption. unfold col. rewrite horner_sum by (destruct n; [lia|discriminate]).
      rewrite map_length, seq_length. rewrite Rmult_comm, <- total_scal. apply total_ext. intros i Hi. apply in_seq in Hi.
      rewrite (nth_map_in _ _ _ _ 0%nat) by (rewrite seq_length; lia). rewrite seq_nth by lia. cbn. ring.
Qed.

Lemma polyval_polynomial c pos : length pos = length (a_shape c) -> Forall (fun n => (0 < n)%nat) (a_shape c) ->
  polyvalnd pos c = polynomial (a_shape c) (a_flat c) pos.
Proof.
  intros L F. rewrite polyval_nd by assumption. apply nsum_ext. intros t Ht. now rewrite at_entry.
Qed.

(** ** derivatives *)
Fixpoint dmono (pos : vec) (d : nat) (idx : list nat) : R :=
  match pos, idx, d with
  | x :: pos', i :: idx', O => INR i * x ^ pred i * monomial pos' idx'
  | x :: pos', i :: idx', S d' => x ^ i * dmono pos' d' idx'
  | _, _, _ => 0
  end.

Lemma mono_deriv pos : forall d idx, (d < length pos)%nat -> length idx = length pos ->
  derivable_pt_lim (fun t => monomial (moved pos d t) idx) (nth d pos 0) (dmono pos d idx).
Proof.
  induction pos as [|x pos IH]; intros d idx Hd L; cbn in Hd; [lia|]. destruct idx as [|i idx]; cbn in L; [lia|].
  destruct d as [|d]; cbn [moved monomial nth dmono].
  - apply is_derive_Reals. apply (is_derive_ext (fun t => monomial pos idx * t ^ i)); [intros t; apply Rmult_comm|].
    auto_derive; [exact I|]. ring.
  - apply is_derive_Reals. apply is_derive_scal. apply is_derive_Reals. apply IH; lia.
Qed.

Lemma total_deriv {A} (f : R -> A -> R) f' x l : (forall a, In a l -> derivable_pt_lim (fun t => f t a) x (f' a)) ->
  derivable_pt_lim (fun t => total (map (f t) l)) x (total (map f' l)).
Proof.
  induction l as [|a l IH]; intros H; cbn [map].
  - apply derivable_pt_lim_const.
  - rewrite total_cons. change (fun t => total (f t a :: map (f t) l)) with (fun t => f t a + total (map (f t) l)).
    apply (derivable_pt_lim_plus (fun t => f t a) (fun t => total (map (f t) l))); [apply H; now left|]. apply IH. intros; apply H; now right.
Qed.
Lemma nsum_deriv s (f : R -> list nat -> R) f' x : (forall t, in_shape s t -> derivable_pt_lim (fun u => f u t) x (f' t)) ->
  derivable_pt_lim (fun u => nsum s (f u)) x (nsum s f').
Proof.
  intros H. rewrite nsum_total. apply is_derive_Reals. apply (is_derive_ext (fun u => total (map (f u) (indices s)))); [intros; symmetry; apply nsum_total|].
  apply is_derive_Reals. apply total_deriv. intros a Ha. apply H. now apply in_indices.
Qed.

Lemma polynomial_deriv shape flat pos d : (d < length pos)%nat -> length pos = length shape ->
  derivable_pt_lim (fun t => polynomial shape flat (moved pos d t)) (nth d pos 0)
    (nsum shape (fun idx => entry shape flat idx * dmono pos d idx)).
Proof.
  intros Hd L. unfold polynomial. apply nsum_deriv. intros idx Hi. apply is_derive_Reals, is_derive_scal, is_derive_Reals.
  apply mono_deriv; [assumption|]. apply in_shape_len in Hi. lia.
Qed.

Lemma der_sum d : forall shape pos F, length pos = length shape -> (d < length shape)%nat -> (2 <= nth d shape 0%nat)%nat ->
  nsum (set_nth shape d (nth d shape 0 - 1)%nat)
    (fun idx => INR (S (nth d idx 0%nat)) * F (set_nth idx d (S (nth d idx 0%nat))) * monomial pos idx)
  = nsum shape (fun idx => F idx * dmono pos d idx).
Proof.
  induction d as [|d IH]; intros [|n s] [|x pos] F L Hd Hn; cbn [length] in *; try lia; cbn [nth set_nth nsum] in *.
  - destruct n as [|n]; [lia|]. replace (S n - 1)%nat with n by lia. cbn [seq map]. rewrite total_cons, <- seq_shift, map_map.
    rewrite (nsum_zero s (fun t => F (0%nat :: t) * dmono (x :: pos) 0 (0%nat :: t))) by (intros; cbn; ring).
    rewrite Rplus_0_l. apply total_ext. intros i _. apply nsum_ext. intros t _. cbn [nth monomial dmono set_nth pred]. ring.
  - apply total_ext. intros i _. rewrite <- (nsum_ext s (fun t => (F (i :: t) * x ^ i) * dmono pos d t)) by (intros; cbn [dmono]; ring).
    rewrite <- (IH s pos (fun t => F (i :: t) * x ^ i)) by (auto; lia). apply nsum_ext. intros t _. cbn [nth monomial set_nth]. ring.
Qed.

Lemma dmono_const d : forall shape pos idx, length pos = length shape -> in_shape shape idx -> (d < length shape)%nat -> nth d shape 0%nat = 1%nat ->
  dmono pos d idx = 0.
Proof.
  induction d as [|d IH]; intros [|n s] [|x pos] idx L H Hd Hn; cbn in *; try lia; inversion H as [|? i ? t Hi Ht]; subst.
  - replace i with 0%nat by lia. cbn. ring.
  - rewrite (IH s pos t) by (auto; lia). ring.
Qed.

Lemma set_nth_length {A} (l : list A) k v : length (set_nth l k v) = length l.
Proof. revert k; induction l as [|x l IH]; intros [|k]; cbn; auto. Qed.
Lemma Forall_set_nth' {A} (P : A -> Prop) l k x : Forall P l -> P x -> Forall P (set_nth l k x).
Proof. intros H Hx. revert k. induction H; intros [|k]; cbn; constructor; auto. Qed.
Lemma in_shape_inc d : forall shape idx, in_shape (set_nth shape d (nth d shape 0 - 1)%nat) idx -> (d < length shape)%nat ->
  in_shape shape (set_nth idx d (S (nth d idx 0%nat))).
Proof.
  induction d as [|d IH]; intros [|n s] idx H Hd; cbn in *; try lia; inversion H as [|? i ? t Hi Ht]; subst; cbn.
  - constructor; [lia|assumption].
  - constructor; [assumption|]. apply IH; [assumption|lia].
Qed.

Lemma polyder_value c pos d : length pos = length (a_shape c) -> Forall (fun n => (0 < n)%nat) (a_shape c) -> (d < length pos)%nat ->
  polyvalnd pos (polyder c d) = nsum (a_shape c) (fun idx => entry (a_shape c) (a_flat c) idx * dmono pos d idx).
Proof.
  intros L F Hd. assert (0 < nth d (a_shape c) 0%nat)%nat as Hpos by (rewrite Forall_forall in F; apply F, nth_In; lia).
  unfold polyder. destruct (Nat.leb_spec (nth d (a_shape c) 0%nat) 1).
  - rewrite polyval_nd by assumption. cbn [a_shape]. rewrite !nsum_zero; [reflexivity| |].
    + intros t Ht. rewrite (dmono_const d (a_shape c)) by (auto; lia). ring.
    + intros t Ht. unfold a_at. cbn [a_flat a_shape]. destruct (Nat.lt_ge_cases (ravel 0 (a_shape c) t) (length (a_flat c))) as [Hl|Hl].
      * rewrite (nth_map_in _ _ _ _ 0) by assumption. ring.
      * rewrite nth_overflow by (rewrite map_length; assumption). ring.
  - set (f := fun idx : list nat => let j := S (nth d idx 0%nat) in INR j * a_at 0 c (set_nth idx d j)).
    set (shape := set_nth (a_shape c) d (nth d (a_shape c) 0 - 1)%nat).
    rewrite polyval_nd; cbn [a_shape].
    + rewrite <- (nsum_ext (a_shape c) (fun idx => a_at 0 c idx * dmono pos d idx)) by (intros t Ht; now rewrite at_entry).
      rewrite <- der_sum by (auto; lia). fold shape. apply nsum_ext. intros t Ht. rewrite at_of_map by assumption. reflexivity.
    + unfold shape. rewrite set_nth_length. assumption.
    + unfold shape. apply Forall_set_nth'; [assumption|lia].
Qed.

Definition usable_coeffs (c : arr R) : Prop :=
  (1 <= length (a_shape c) <= 3)%nat /\ Forall (fun n => (0 < n)%nat) (a_shape c).

Lemma poly_potential c ranges bc : (1 <= length (a_shape c) <= 3)%nat -> Forall (fun n => (0 < n)%nat) (a_shape c) ->
  exists pot, poly_init c ranges bc = Ok pot /\ pot_ndim pot = length (a_shape c) /\ pot_bc pot = bc /\
    pot_ranges pot = match ranges with Some r => r | None => [] end /\
    forall pos, length pos = pot_ndim pot ->
      pot_energy pot pos = polynomial (a_shape c) (a_flat c) pos /\
      is_minus_gradient (pot_energy pot) pos (pot_force pot pos) /\
      evaluate pot pos = (pot_energy pot pos, pot_force pot pos).
Proof.
  intros H F. unfold poly_init. destruct (Nat.ltb_spec 3 (length (a_shape c))); [lia|]. destruct (Nat.eqb_spec (length (a_shape c)) 0); [lia|].
  assert (existsb (Nat.eqb 0) (a_shape c) = false) as ->.
  { apply not_true_is_false. intros E. apply existsb_exists in E as (x & Hx & E). apply Nat.eqb_eq in E. rewrite Forall_forall in F. specialize (F x Hx). lia. }
  eexists. split; [reflexivity|]. cbn. split; [reflexivity|]. split; [reflexivity|]. split; [reflexivity|]. intros pos L.
  split; [now apply polyval_polynomial|]. split; [|reflexivity]. split; [unfold poly_force; rewrite map_length, seq_length; lia|].
  intros d Hd. unfold poly_force. rewrite (nth_map_in _ _ _ _ 0%nat) by (rewrite seq_length; lia). rewrite seq_nth by lia. cbn [Nat.add].
  rewrite Ropp_involutive, polyder_value by (auto; lia). apply is_derive_Reals.
  apply (is_derive_ext (fun t => polynomial (a_shape c) (a_flat c) (moved pos d t))).
  - intros t. symmetry. apply polyval_polynomial; [|assumption]. rewrite <- L.
    clear. revert d. induction pos as [|x pos IH]; intros [|d]; cbn; auto.
  - apply is_derive_Reals. now apply polynomial_deriv.
Qed.
Lemma poly_rejected c ranges bc : (3 < length (a_shape c) -> poly_init c ranges bc = Err NotImplementedError)%nat /\
  (length (a_shape c) = 0%nat -> poly_init c ranges bc = Err ValueError).
Proof.
  unfold poly_init. split; intros H.
  - destruct (Nat.ltb_spec 3 (length (a_shape c))); [reflexivity|lia].
  - rewrite H. reflexivity.
Qed.

(** ** Mueller-Brown *)
Definition mb_fx (A : vec) i x y := - nth i A 0 * (2 * nth i mb_a 0 * (x - nth i mb_x0 0) + nth i mb_b 0 * (y - nth i mb_y0 0)) * mb_exp i x y.
Definition mb_fy (A : vec) i x y := - nth i A 0 * (nth i mb_b 0 * (x - nth i mb_x0 0) + 2 * nth i mb_c 0 * (y - nth i mb_y0 0)) * mb_exp i x y.

Lemma mb_energy_sum A x y : mb_energy A [x; y] = total (map (fun i => nth i A 0 * mb_exp i x y) (seq 0 4)) + mb_shift.
Proof. unfold mb_energy, total. cbn [seq map fold_left fold_right nth]. ring. Qed.
Lemma mb_force_sum A x y : mb_force A [x; y] = [total (map (fun i => mb_fx A i x y) (seq 0 4)); total (map (fun i => mb_fy A i x y) (seq 0 4))].
Proof. unfold mb_force, total, mb_fx, mb_fy. cbn [seq map fold_left fold_right]. change (nth 0 [x; y] 0) with x. change (nth 1 [x; y] 0) with y. f_equal; [ring|f_equal; ring]. Qed.
Lemma mb_evaluate_eq A pos : mb_evaluate A pos = (mb_energy A pos, mb_force A pos).
Proof. unfold mb_evaluate, mb_energy, mb_force. cbn [seq fold_left]. reflexivity. Qed.

Lemma mb_exp_dx i x y : derivable_pt_lim (fun t => mb_exp i t y) x ((2 * nth i mb_a 0 * (x - nth i mb_x0 0) + nth i mb_b 0 * (y - nth i mb_y0 0)) * mb_exp i x y).
Proof.
  unfold mb_exp. generalize (nth i mb_a 0) (nth i mb_b 0) (nth i mb_c 0) (nth i mb_x0 0) (nth i mb_y0 0). intros a b c x0 y0.
  apply is_derive_Reals. auto_derive; [exact I|]. unfold Rminus, Rdiv. simpl. rewrite ?Rmult_1_r. ring.
Qed.
Lemma mb_exp_dy i x y : derivable_pt_lim (fun t => mb_exp i x t) y ((nth i mb_b 0 * (x - nth i mb_x0 0) + 2 * nth i mb_c 0 * (y - nth i mb_y0 0)) * mb_exp i x y).
Proof.
  unfold mb_exp. generalize (nth i mb_a 0) (nth i mb_b 0) (nth i mb_c 0) (nth i mb_x0 0) (nth i mb_y0 0). intros a b c x0 y0.
  apply is_derive_Reals. auto_derive; [exact I|]. unfold Rminus, Rdiv. simpl. rewrite ?Rmult_1_r. ring.
Qed.

Lemma mb_gradient A x y : is_minus_gradient (mb_energy A) [x; y] (mb_force A [x; y]).
Proof.
  split; [rewrite mb_force_sum; reflexivity|]. intros d Hd. cbn in Hd. rewrite mb_force_sum.
  assert (forall (g : nat -> R) l, - total (map (fun i => - nth i A 0 * g i) l) = total (map (fun i => nth i A 0 * g i) l)) as Neg.
  { intros g l. rewrite <- (Rmult_1_l (total (map (fun i => - _ * _) l))). rewrite Ropp_mult_distr_l, <- total_scal. apply total_ext. intros; ring. }
  destruct d as [|[|d]]; [| |lia]; cbn [moved nth]; apply is_derive_Reals.
  - apply (is_derive_ext (fun t => total (map (fun i => nth i A 0 * mb_exp i t y) (seq 0 4)) + mb_shift)); [intros; symmetry; apply mb_energy_sum|].
    apply is_derive_Reals. unfold mb_fx. rewrite (total_ext _ (fun i => - nth i A 0 * ((2 * nth i mb_a 0 * (x - nth i mb_x0 0) + nth i mb_b 0 * (y - nth i mb_y0 0)) * mb_exp i x y))) by (intros; ring).
    rewrite Neg. rewrite <- (Rplus_0_r (total _)). apply (derivable_pt_lim_plus (fun t => total (map (fun i => nth i A 0 * mb_exp i t y) (seq 0 4)))); [|apply derivable_pt_lim_const].
    apply (total_deriv (fun t i => nth i A 0 * mb_exp i t y)). intros i _. apply is_derive_Reals, is_derive_scal, is_derive_Reals, mb_exp_dx.
  - apply (is_derive_ext (fun t => total (map (fun i => nth i A 0 * mb_exp i x t) (seq 0 4)) + mb_shift)); [intros; symmetry; apply mb_energy_sum|].
    apply is_derive_Reals. unfold mb_fy. rewrite (total_ext _ (fun i => - nth i A 0 * ((nth i mb_b 0 * (x - nth i mb_x0 0) + 2 * nth i mb_c 0 * (y - nth i mb_y0 0)) * mb_exp i x y))) by (intros; ring).
    rewrite Neg. rewrite <- (Rplus_0_r (total _)). apply (derivable_pt_lim_plus (fun t => total (map (fun i => nth i A 0 * mb_exp i x t) (seq 0 4)))); [|apply derivable_pt_lim_const].
    apply (total_deriv (fun t i => nth i A 0 * mb_exp i x t)). intros i _. apply is_derive_Reals, is_derive_scal, is_derive_Reals, mb_exp_dy.
Qed.

(** *** scaling *)
Lemma nth_vscale s A i : nth i (vscale s A) 0 = s * nth i A 0.
Proof. unfold vscale. destruct (Nat.lt_ge_cases i (length A)). - now apply nth_map_in. - rewrite !nth_overflow by (rewrite ?map_length; assumption). ring. Qed.
Lemma mb_energy_scale A s x y : mb_energy (vscale s A) [x; y] = s * (mb_energy A [x; y] - mb_shift) + mb_shift.
Proof. rewrite !mb_energy_sum. unfold total. cbn [seq map fold_right]. rewrite !nth_vscale. ring. Qed.
Lemma mb_force_scale A s x y : mb_force (vscale s A) [x; y] = vscale s (mb_force A [x; y]).
Proof. rewrite !mb_force_sum. unfold total, mb_fx, mb_fy. cbn [seq map fold_right]. rewrite !(nth_vscale s). unfold vscale. cbn [map]. f_equal; [ring|f_equal; ring]. Qed.

Definition factor_of (f : option R) : R := match f with Some s => if Req_EM_T s 0 then 1 else s | None => 1 end.
Lemma vscale_1 A : vscale 1 A = A.
Proof. unfold vscale. rewrite <- (map_id A) at 2. apply map_ext. intros; ring. Qed.
Lemma vscale_vscale a b A : vscale a (vscale b A) = vscale (a * b) A.
Proof. unfold vscale. rewrite map_map. apply map_ext. intros; ring. Qed.
Lemma mb_init_scale A f : mb_init A f = (factor_of f, vscale (factor_of f) A).
Proof. unfold mb_init, factor_of. destruct f as [s|]; [destruct (Req_EM_T s 0)|]; rewrite ?vscale_1; reflexivity. Qed.
Lemma mb_inits_scale fs : forall A, mb_inits A fs = vscale (fold_right Rmult 1 (map factor_of fs)) A.
Proof.
  unfold mb_inits. induction fs as [|f fs IH]; intros A; cbn [fold_left map fold_right]; [now rewrite vscale_1|].
  rewrite mb_init_scale. cbn [snd]. rewrite IH, vscale_vscale. f_equal. ring.
Qed.

Lemma mb_exact fs x y : let A := mb_inits mb_A0 fs in
  let s := fold_right Rmult 1 (map (fun f => match f with Some s => if Req_EM_T s 0 then 1 else s | None => 1 end) fs) in
  mb_energy A [x; y] = s * (mb_energy mb_A0 [x; y] - mb_shift) + mb_shift /\
  mb_force A [x; y] = map (fun f => s * f) (mb_force mb_A0 [x; y]).
Proof.
  cbv zeta. rewrite mb_inits_scale. split; [apply mb_energy_scale|apply mb_force_scale].
Qed.
Lemma mb_single s p q : s <> 0 -> length p = 2%nat -> length q = 2%nat -> let A := mb_inits mb_A0 [Some s] in
  mb_energy A p - mb_energy A q = s * (mb_energy mb_A0 p - mb_energy mb_A0 q) /\
  mb_force A p = map (fun f => s * f) (mb_force mb_A0 p).
Proof.
  intros Hs Hp Hq. destruct p as [|x [|y [|]]], q as [|u [|v [|]]]; try discriminate. cbv zeta.
  rewrite mb_inits_scale. cbn [map fold_right factor_of]. destruct (Req_EM_T s 0); [contradiction|]. rewrite Rmult_1_r, !mb_energy_scale.
  split; [ring|apply mb_force_scale].
Qed.

Lemma mb_shift_pos : 0 < mb_shift.
Proof. unfold mb_shift. lra. Qed.
(** the constant is not scaled *)
Lemma mb_single_refuted : ~ forall s p, s <> 0 -> length p = 2%nat -> mb_energy (mb_inits mb_A0 [Some s]) p = s * mb_energy mb_A0 p.
Proof.
  intros H. specialize (H 2 [0; 0] ltac:(lra) eq_refl). rewrite mb_inits_scale in H. cbn [map fold_right factor_of] in H.
  destruct (Req_EM_T 2 0); [lra|]. rewrite mb_energy_scale in H. pose proof mb_shift_pos. lra.
Qed.
(** the exponentials of the loop are the documented ones *)
Lemma mb_exp_terms x y : mb_exp 0 x y = mb_term1 x y /\ mb_exp 1 x y = mb_term2 x y /\ mb_exp 2 x y = mb_term3 x y /\ mb_exp 3 x y = mb_term4 x y.
Proof.
  unfold mb_exp, mb_term1, mb_term2, mb_term3, mb_term4. cbn [nth mb_a mb_b mb_c mb_x0 mb_y0].
  repeat split; f_equal; lra.
Qed.
Lemma mb_sum A x y : mb_energy A [x; y] =
  nth 0 A 0 * mb_term1 x y + nth 1 A 0 * mb_term2 x y + nth 2 A 0 * mb_term3 x y + nth 3 A 0 * mb_term4 x y + mb_shift.
Proof.
  rewrite mb_energy_sum. unfold total. cbn [seq map fold_right]. destruct (mb_exp_terms x y) as (-> & -> & -> & ->). ring.
Qed.
Lemma exp_lt_3 x : x <= 1 -> exp x <= 3.
Proof. intros H. pose proof exp_le_3. assert (exp x <= exp 1). { destruct (Req_dec x 1); [subst; lra|]. left. apply exp_increasing. lra. } lra. Qed.
Lemma mb_negative : mb_energy mb_A0 [0; 1/2] < mb_shift.
Proof.
  rewrite mb_sum. cbn [nth mb_A0]. pose proof (exp_pos (- (0 - 1) ^ 2 - 10 * (1/2) ^ 2)). fold (mb_term1 0 (1/2)) in H.
  assert (mb_term2 0 (1/2) = 1) as -> by (unfold mb_term2; replace (- 0 ^ 2 - 10 * (1 / 2 - 1 / 2) ^ 2) with 0 by field; apply exp_0).
  assert (0 < mb_term3 0 (1/2)) by apply exp_pos. assert (mb_term4 0 (1/2) <= 3) by (apply exp_lt_3; lra). lra.
Qed.
(** a second potential changes the first one *)
Lemma mb_shared_refuted : ~ forall s1 s2 p, length p = 2%nat ->
  mb_energy (mb_inits mb_A0 [Some s1; Some s2]) p = mb_energy (mb_inits mb_A0 [Some s1]) p.
Proof.
  intros H. specialize (H 1 2 [0; 1/2] eq_refl). rewrite !mb_inits_scale, !mb_energy_scale in H. cbn [map fold_right factor_of] in H.
  destruct (Req_EM_T 1 0); [lra|]. destruct (Req_EM_T 2 0); [lra|]. pose proof mb_negative. lra.
Qed.
(** factor 0 is ignored *)
Lemma mb_zero p : mb_inits mb_A0 [Some 0] = mb_A0 /\ mb_energy (mb_inits mb_A0 [Some 0]) p = mb_energy mb_A0 p.
Proof.
  rewrite mb_inits_scale. cbn [map fold_right factor_of]. destruct (Req_EM_T 0 0); [|lra]. rewrite Rmult_1_r, vscale_1. auto.
Qed.

(** ** documented sum *)
Lemma mb_documented_refuted : ~ exists k, forall x y, mb_energy mb_A0 [x; y] = mb_documented x y + k.
Proof.
  intros (k & H). pose proof (H (-1/2) (3/2)) as H1. pose proof (H (1/2) (3/2)) as H2. rewrite mb_sum in H1, H2. unfold mb_documented in *. cbn [nth mb_A0] in *.
  assert (mb_term3 (-1/2) (3/2) = 1) as E by (unfold mb_term3; match goal with |- exp ?a = 1 => replace a with 0 by field end; apply exp_0).
  assert (mb_term3 (1/2) (3/2) < 1) as E2. { apply Rlt_le_trans with (exp 0); [apply exp_increasing; lra|rewrite exp_0; lra]. }
  rewrite E in H1. lra.
Qed.
Lemma mb_documented_exact x y : mb_energy mb_A0 [x; y] = mb_documented x y - 5 * mb_term3 x y + 30.33319242243656.
Proof. rewrite mb_sum. unfold mb_documented. cbn [nth mb_A0]. change mb_shift with 30.33319242243656. ring. Qed.

(** ** coefficient files *)
Lemma trunc_INR k : trunc (INR k) = Z.of_nat k.
Proof.
  unfold trunc. pose proof (pos_INR k). destruct (Rlt_dec (INR k) 0); [lra|]. apply Int_part_INR.
Qed.
Lemma col_orders l n i : length (orders l) = n -> (i < n)%nat -> col (line_numbers l) i = Ok (INR (nth i (orders l) 0%nat)).
Proof.
  intros L Hi. unfold col, line_numbers. rewrite nth_error_app1 by (rewrite map_length; lia). rewrite nth_error_map.
  rewrite (nth_error_nth' _ 0%nat) by lia. reflexivity.
Qed.
Lemma col_value l n : length (orders l) = n -> col (line_numbers l) n = Ok (value l).
Proof.
  intros L. unfold col, line_numbers. rewrite nth_error_app2 by (rewrite map_length; lia). rewrite map_length, L, Nat.sub_diag. reflexivity.
Qed.
Lemma mapM_ok {A B} (f : A -> res B) (g : A -> B) l : (forall x, In x l -> f x = Ok (g x)) -> mapM f l = Ok (map g l).
Proof.
  induction l as [|x l IH]; intros H; cbn; [reflexivity|]. rewrite H by now left. cbn. rewrite IH; [reflexivity|]. intros; apply H; now right.
Qed.
Lemma fold_rmax l : forall k, fold_left Rmax (map INR l) (INR k) = INR (Nat.max k (fold_right Nat.max 0%nat l)).
Proof.
  induction l as [|x l IH]; intros k; cbn [map fold_left fold_right]; [f_equal; lia|].
  assert (Rmax (INR k) (INR x) = INR (Nat.max k x)) as ->.
  { unfold Rmax. destruct (Rle_dec (INR k) (INR x)) as [H|H].
    - apply INR_le in H. f_equal. lia.
    - assert (x < k)%nat by (apply INR_lt; lra). f_equal. lia. }
  rewrite IH. f_equal. lia.
Qed.
Lemma rmax_orders l : l <> [] -> rmax_list (map INR l) = Ok (INR (fold_right Nat.max 0%nat l)).
Proof. destruct l as [|x l]; [congruence|]. intros _. cbn. now rewrite fold_rmax. Qed.

Lemma file_shape_lines lines n : lines <> [] -> Forall (fun l => length (orders l) = n) lines ->
  file_shape (map line_numbers lines) n = Ok (map (fun d => S (highest lines d)) (seq 0 n)).
Proof.
  intros Hne F. unfold file_shape. apply mapM_ok. intros i Hi. apply in_seq in Hi.
  assert (mapM (fun r => col r i) (map line_numbers lines) = Ok (map INR (map (fun l => nth i (orders l) 0%nat) lines))) as ->.
  { clear Hne. induction F as [|l ls F1 F IH]; [reflexivity|]. cbn. rewrite (col_orders l n) by (auto; lia). cbn. rewrite IH. reflexivity. }
  cbn [bind]. rewrite rmax_orders by (destruct lines; [congruence|discriminate]). cbn [bind]. rewrite trunc_INR.
  fold (highest lines i). destruct (Z.ltb_spec (Z.of_nat (highest lines i) + 1) 0); [lia|]. f_equal. lia.
Qed.

Lemma nd_pos_in shape idx : in_shape shape idx -> nd_pos shape (map Z.of_nat idx) = Ok idx.
Proof.
  intros H. induction H as [|n i s t Hi _ IH]; cbn; [reflexivity|].
  unfold py_pos. destruct (Z.leb_spec 0 (Z.of_nat i)); [|lia]. destruct (Z.ltb_spec (Z.of_nat i) (Z.of_nat n)); [|lia]. cbn.
  rewrite IH. cbn. now rewrite Nat2Z.id.
Qed.
Lemma flat_pos_inj shape i j : in_shape shape i -> in_shape shape j -> flat_pos shape i = flat_pos shape j -> i = j.
Proof. intros Hi Hj E. rewrite <- (nth_indices shape i Hi), <- (nth_indices shape j Hj). now rewrite E. Qed.
Lemma nth_set_nth' {A} (l : list A) k j v d : (k < length l)%nat -> nth j (set_nth l k v) d = if Nat.eqb k j then v else nth j l d.
Proof.
  revert k j. induction l as [|x l IH]; intros [|k] [|j] H; cbn in *; try lia; try reflexivity. apply IH. lia.
Qed.
Lemma highest_le lines l d : In l lines -> (nth d (orders l) 0 <= highest lines d)%nat.
Proof.
  unfold highest. induction lines as [|a ls IH]; [contradiction|]. intros [->|H]; cbn; [lia|]. specialize (IH H). lia.
Qed.
Lemma in_shape_nth s : forall idx, length idx = length s -> (forall d, (d < length s)%nat -> (nth d idx 0 < nth d s 0)%nat) -> in_shape s idx.
Proof.
  induction s as [|n s IH]; intros [|i t] L H; cbn in L; try lia; constructor.
  - apply (H 0%nat). cbn; lia.
  - apply IH; [lia|]. intros d Hd. apply (H (S d)). cbn; lia.
Qed.

Lemma file_fold n shape lines : forall flat, length flat = size shape ->
  Forall (fun l => length (orders l) = n /\ in_shape shape (orders l)) lines ->
  exists flat', foldM (file_row n) (map line_numbers lines) (mkArr shape flat) = Ok (mkArr shape flat') /\ length flat' = size shape /\
    forall idx, in_shape shape idx -> entry shape flat' idx = match listed lines idx with Some v => v | None => entry shape flat idx end.
Proof.
  induction lines as [|l ls IH]; intros flat L F; cbn [map foldM].
  - exists flat. auto.
  - inversion F as [|? ? [F1 F2] F3]; subst. unfold file_row at 1. rewrite (col_value l _ eq_refl). cbn [bind].
    assert (map trunc (firstn (length (orders l)) (line_numbers l)) = map Z.of_nat (orders l)) as ->.
    { unfold line_numbers. rewrite <- (map_length INR (orders l)), firstn_app, Nat.sub_diag, firstn_O, app_nil_r, firstn_all, map_map.
      apply map_ext. intros; apply trunc_INR. }
    unfold nd_set. cbn [a_shape a_flat]. rewrite nd_pos_in by assumption. cbn [bind]. rewrite ravel_flat by assumption.
    destruct (IH (set_nth flat (flat_pos shape (orders l)) (value l))) as (flat' & E & L' & S); [now rewrite set_nth_length|assumption|].
    exists flat'. split; [exact E|]. split; [assumption|]. intros idx Hi. rewrite S by assumption. cbn [listed].
    destruct (listed ls idx); [reflexivity|]. unfold entry. rewrite nth_set_nth' by (rewrite L; now apply flat_pos_lt).
    destruct (list_eq_dec Nat.eq_dec (orders l) idx) as [->|N]; [now rewrite Nat.eqb_refl|].
    destruct (Nat.eqb_spec (flat_pos shape (orders l)) (flat_pos shape idx)) as [E2|]; [|reflexivity]. apply flat_pos_inj in E2; [contradiction|assumption|assumption].
Qed.

Lemma entry_repeat shape n idx : entry shape (repeat 0 n) idx = 0.
Proof. unfold entry. apply nth_repeat. Qed.

Lemma coefficient_file lines n : (1 <= n)%nat -> (2 <= length lines)%nat ->
  Forall (fun l => length (orders l) = n) lines -> (forall l l', In l lines -> In l' lines -> length (snd l) = length (snd l')) ->
  exists coeffs, coefficients_from_file (map line_numbers lines) n = Ok coeffs /\
    a_shape coeffs = map (fun d => S (highest lines d)) (seq 0 n) /\ length (a_flat coeffs) = size (a_shape coeffs) /\
    (forall l, In l lines -> in_shape (a_shape coeffs) (orders l)) /\
    forall idx, in_shape (a_shape coeffs) idx ->
      entry (a_shape coeffs) (a_flat coeffs) idx = match listed lines idx with Some v => v | None => 0 end.
Proof.
  intros Hn L F C. unfold coefficients_from_file. destruct lines as [|l0 [|l1 ls]]; cbn in L; try lia. set (lines := l0 :: l1 :: ls) in *.
  change (map line_numbers lines) with (line_numbers l0 :: line_numbers l1 :: map line_numbers ls). cbn iota.
  change (line_numbers l0 :: line_numbers l1 :: map line_numbers ls) with (map line_numbers lines).
  assert (forall l, In l lines -> length (line_numbers l) = (n + S (length (snd l0)))%nat) as Len.
  { intros l Hl. unfold line_numbers. rewrite app_length, map_length. cbn. rewrite (C l l0 Hl ltac:(now left)). rewrite Forall_forall in F. now rewrite (F l Hl). }
  assert (forallb (fun r => Nat.eqb (length r) (length (line_numbers l0))) (map line_numbers lines) = true) as ->.
  { apply forallb_forall. intros r Hr. apply in_map_iff in Hr as (l & <- & Hl). rewrite !Len; [apply Nat.eqb_refl|now left|assumption]. }
  rewrite (Len l0) by now left. destruct (Nat.eqb_spec (n + S (length (snd l0))) 1); [lia|]. cbn [negb].
  rewrite file_shape_lines by (assumption || discriminate). cbn [bind]. set (shape := map (fun d => S (highest lines d)) (seq 0 n)).
  assert (forall l, In l lines -> in_shape shape (orders l)) as Ins.
  { intros l Hl. rewrite Forall_forall in F. apply in_shape_nth; [unfold shape; rewrite map_length, seq_length; now apply F|].
    intros d Hd. unfold shape in *. rewrite map_length, seq_length in Hd. rewrite (nth_map_in _ _ _ _ 0%nat) by (rewrite seq_length; lia).
    rewrite seq_nth by lia. pose proof (highest_le lines l d Hl). cbn [Nat.add]. lia. }
  destruct (file_fold n shape lines (repeat 0 (prod_list shape))) as (flat' & E & L' & S).
  - rewrite repeat_length. apply prod_size.
  - rewrite Forall_forall in *. intros l Hl. auto.
  - exists (mkArr shape flat'). split; [exact E|]. cbn [a_shape a_flat]. split; [reflexivity|]. split; [assumption|]. split; [assumption|].
    intros idx Hi. rewrite S by assumption. destruct (listed lines idx); [reflexivity|]. apply entry_repeat.
Qed.
Lemma coefficient_file_single l n : coefficients_from_file [line_numbers l] n = Err IndexError.
Proof. reflexivity. Qed.
Lemma coefficient_file_refuted : ~ forall lines n, (1 <= n)%nat -> (1 <= length lines)%nat ->
  Forall (fun l => length (orders l) = n) lines -> (forall l l', In l lines -> In l' lines -> length (snd l) = length (snd l')) ->
  exists coeffs, coefficients_from_file (map line_numbers lines) n = Ok coeffs.
Proof.
  intros H. destruct (H [([0; 2]%nat, 5, [])] 2%nat) as (c & E); [lia|cbn; lia|repeat constructor| |discriminate].
  intros l l' [<-|[]] [<-|[]]. reflexivity.
Qed.
(** such a polynomial: the energy is the sum over the listed monomials *)
Lemma file_potential lines n ranges bc : (1 <= n <= 3)%nat -> (2 <= length lines)%nat ->
  Forall (fun l => length (orders l) = n) lines -> (forall l l', In l lines -> In l' lines -> length (snd l) = length (snd l')) ->
  exists coeffs pot, coefficients_from_file (map line_numbers lines) n = Ok coeffs /\ poly_init coeffs ranges bc = Ok pot /\
    pot_ndim pot = n /\ forall pos, length pos = n ->
      pot_energy pot pos = nsum (map (fun d => S (highest lines d)) (seq 0 n))
        (fun idx => match listed lines idx with Some v => v | None => 0 end * monomial pos idx) /\
      is_minus_gradient (pot_energy pot) pos (pot_force pot pos).
Proof.
  intros Hn L F C. destruct (coefficient_file lines n ltac:(lia) L F C) as (c & E & Sh & Lf & Ins & En).
  assert (length (a_shape c) = n) as Ld by (rewrite Sh, map_length, seq_length; reflexivity).
  destruct (poly_potential c ranges bc) as (pot & Ep & Nd & _ & _ & P); [lia| |].
  - rewrite Sh. apply Forall_forall. intros x Hx. apply in_map_iff in Hx as (d & <- & _). lia.
  - exists c, pot. split; [assumption|]. split; [assumption|]. split; [lia|]. intros pos Lp. destruct (P pos ltac:(lia)) as (P1 & P2 & _). split; [|assumption].
    rewrite P1. unfold polynomial. rewrite <- Sh. apply nsum_ext. intros t Ht. now rewrite En.
Qed.
