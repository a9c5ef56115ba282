(** Lemmas about the python basics of PyBase.v and the time lists of Spec_times.v *)
From Coq Require Import Sorted Lia ZifyBool ZifyNat Permutation.
From Verif Require Import PyBase Spec_times.
Ltac Zify.zify_post_hook ::= Z.div_mod_to_equations.

Lemma bind_ok {A B} (r : res A) (f : A -> res B) b :
  bind r f = Ok b <-> exists a, r = Ok a /\ f a = Ok b.
Proof.
  destruct r as [a|e]; cbn; split.
  - intros H; exists a; auto.
  - intros (a' & Ha & Hf); congruence.
  - discriminate.
  - intros (a' & Ha & _); discriminate.
Qed.

(** ** ranges *)
Lemma in_zrange a b t : In t (zrange a b) <-> a <= t < b.
Proof.
  unfold zrange; rewrite in_map_iff; split.
  - intros (i & <- & Hi); apply in_seq in Hi; lia.
  - intros H; exists (Z.to_nat (t - a)); split; [lia|apply in_seq; lia].
Qed.

Lemma zrange_length a b : length (zrange a b) = Z.to_nat (b - a).
Proof. unfold zrange; now rewrite map_length, seq_length. Qed.

Lemma zrange_nil a b : b <= a -> zrange a b = [].
Proof. intros H; unfold zrange; replace (Z.to_nat (b - a)) with 0%nat by lia; reflexivity. Qed.

Lemma zrange_cons a b : a < b -> zrange a b = a :: zrange (a + 1) b.
Proof.
  intros H; unfold zrange.
  replace (Z.to_nat (b - a)) with (S (Z.to_nat (b - (a + 1)))) by lia.
  cbn [seq map]; rewrite <- seq_shift, map_map; f_equal; [lia|].
  apply map_ext; intros; lia.
Qed.

Lemma zrange_app a b c : a <= b <= c -> zrange a c = zrange a b ++ zrange b c.
Proof.
  intros H; unfold zrange.
  replace (Z.to_nat (c - a)) with (Z.to_nat (b - a) + Z.to_nat (c - b))%nat by lia.
  rewrite seq_app, map_app; f_equal; cbn [Nat.add].
  replace (Z.to_nat (b - a)) with (0 + Z.to_nat (b - a))%nat at 1 by lia.
  assert (forall n s k, map (fun i => a + Z.of_nat i) (seq (k + s) n)
           = map (fun i => (a + Z.of_nat k) + Z.of_nat i) (seq s n)) as E.
  { induction n as [|n IH]; intros s k; cbn [seq map]; [reflexivity|]. f_equal; [lia|].
    replace (S (k + s)) with (k + S s)%nat by lia; apply IH. }
  specialize (E (Z.to_nat (c - b)) 0%nat (Z.to_nat (b - a))).
  rewrite Nat.add_0_r in E; cbn [Nat.add]; rewrite E.
  apply map_ext; intros; lia.
Qed.

Lemma zrange_snoc a b : a <= b -> zrange a (b + 1) = zrange a b ++ [b].
Proof.
  intros H; rewrite (zrange_app a b (b + 1)) by lia; f_equal.
  rewrite zrange_cons, zrange_nil by lia; reflexivity.
Qed.

Lemma zrange_sorted a b : StronglySorted Z.lt (zrange a b).
Proof.
  destruct (Z_lt_le_dec a b) as [Hab|Hab]; [|rewrite zrange_nil by lia; constructor].
  replace b with (a + Z.of_nat (Z.to_nat (b - a))) by lia; clear Hab.
  generalize (Z.to_nat (b - a)) as n; intros n; clear b.
  revert a; induction n as [|n IH]; intros a.
  - rewrite zrange_nil by lia; constructor.
  - rewrite zrange_cons by lia; constructor.
    + replace (a + Z.of_nat (S n)) with ((a + 1) + Z.of_nat n) by lia; apply IH.
    + apply Forall_forall; intros t Ht; apply in_zrange in Ht; lia.
Qed.

(** two strictly sorted lists with the same members are equal *)
Lemma sorted_lt_ext (l1 l2 : list Z) :
  StronglySorted Z.lt l1 -> StronglySorted Z.lt l2 ->
  (forall x, In x l1 <-> In x l2) -> l1 = l2.
Proof.
  revert l2; induction l1 as [|x l1 IH]; intros l2 H1 H2 E.
  - destruct l2 as [|y l2]; [reflexivity|]. exfalso; apply (proj2 (E y)); now left.
  - destruct l2 as [|y l2]; [exfalso; apply (proj1 (E x)); now left|].
    inversion H1 as [|? ? S1 F1]; inversion H2 as [|? ? S2 F2]; subst.
    rewrite Forall_forall in F1, F2.
    assert (x = y) as ->.
    { destruct (proj1 (E x) (or_introl eq_refl)) as [->|Hx]; [reflexivity|].
      destruct (proj2 (E y) (or_introl eq_refl)) as [->|Hy]; [reflexivity|].
      specialize (F1 y Hy); specialize (F2 x Hx); lia. }
    f_equal; apply IH; [assumption..|].
    intros z; split; intros Hz.
    + destruct (proj1 (E z) (or_intror Hz)) as [->|]; [|assumption].
      specialize (F1 z Hz); lia.
    + destruct (proj2 (E z) (or_intror Hz)) as [->|]; [|assumption].
      specialize (F2 z Hz); lia.
Qed.

Lemma sorted_filter (f : Z -> bool) l : StronglySorted Z.lt l -> StronglySorted Z.lt (filter f l).
Proof.
  induction 1 as [|x l H IH F]; cbn; [constructor|].
  destruct (f x); [|assumption]. constructor; [assumption|].
  rewrite Forall_forall in *; intros y Hy; apply filter_In in Hy; now apply F.
Qed.

Lemma sorted_map (g : Z -> Z) l :
  (forall x y, x < y -> g x < g y) -> StronglySorted Z.lt l -> StronglySorted Z.lt (map g l).
Proof.
  intros M; induction 1 as [|x l H IH F]; cbn; constructor; [assumption|].
  rewrite Forall_forall in *; intros y Hy; apply in_map_iff in Hy as (z & <- & Hz); auto.
Qed.

(** ** time lists *)
Lemma in_times lo hi s t : In t (times lo hi s) <-> lo < t <= hi /\ t mod s = 0.
Proof. unfold times; rewrite filter_In, in_zrange, Z.eqb_eq; lia. Qed.

Lemma times_sorted lo hi s : StronglySorted Z.lt (times lo hi s).
Proof. apply sorted_filter, zrange_sorted. Qed.

Lemma times_app lo mid hi s : lo <= mid <= hi -> times lo hi s = times lo mid s ++ times mid hi s.
Proof.
  intros H; unfold times; rewrite (zrange_app (lo + 1) (mid + 1) (hi + 1)) by lia.
  apply filter_app.
Qed.

Lemma times_nil lo hi s : hi <= lo -> times lo hi s = [].
Proof. intros H; unfold times; rewrite zrange_nil by lia; reflexivity. Qed.

(** no multiple of s inside *)
Lemma times_empty lo hi s : (forall t, lo < t <= hi -> t mod s <> 0) -> times lo hi s = [].
Proof.
  intros H; destruct (times lo hi s) as [|t l] eqn:E; [reflexivity|].
  exfalso. assert (In t (times lo hi s)) as Ht by (rewrite E; now left).
  apply in_times in Ht as [Hr Hm]; now apply (H t).
Qed.

Lemma times_one lo hi : times lo hi 1 = zrange (lo + 1) (hi + 1).
Proof.
  unfold times; assert (forall l : list Z, filter (fun t => t mod 1 =? 0) l = l) as E; [|apply E].
  induction l as [|x l IH]; cbn [filter]; [reflexivity|].
  rewrite Z.mod_1_r, Z.eqb_refl; now f_equal.
Qed.

(** ** arrays *)
Lemma set_nth_length {A} (l : list A) k v : length (set_nth l k v) = length l.
Proof. revert k; induction l as [|x l IH]; intros [|k]; cbn; auto. Qed.

Lemma nth_error_set_nth_eq {A} (l : list A) k v :
  (k < length l)%nat -> nth_error (set_nth l k v) k = Some v.
Proof. revert k; induction l as [|x l IH]; intros [|k] H; cbn in *; try lia; [reflexivity|apply IH; lia]. Qed.

Lemma nth_error_set_nth_neq {A} (l : list A) k j v :
  j <> k -> nth_error (set_nth l k v) j = nth_error l j.
Proof. revert k j; induction l as [|x l IH]; intros [|k] [|j] H; cbn; try congruence; auto. Qed.

Lemma set_nth_map {A B} (g : A -> B) l k v : map g (set_nth l k v) = set_nth (map g l) k (g v).
Proof. revert k; induction l as [|x l IH]; intros [|k]; cbn; f_equal; auto. Qed.

Lemma every_nth_map {A B} (g : A -> B) skip step l :
  every_nth skip step (map g l) = map g (every_nth skip step l).
Proof.
  revert skip; induction l as [|x l IH]; intros skip; cbn; [reflexivity|].
  destruct skip; cbn; now rewrite IH.
Qed.

(** characterisation of the python slice step on an integer interval *)
Lemma every_nth_zrange skip step a b :
  (0 < step)%nat ->
  every_nth skip step (zrange a b)
  = filter (fun i => (a + Z.of_nat skip <=? i) && ((i - a - Z.of_nat skip) mod Z.of_nat step =? 0)) (zrange a b).
Proof.
  intros Hs.
  destruct (Z_lt_le_dec a b) as [Hab|Hab]; [|rewrite zrange_nil by lia; reflexivity].
  replace b with (a + Z.of_nat (Z.to_nat (b - a))) by lia; clear Hab.
  generalize (Z.to_nat (b - a)) as n; intros n; clear b.
  revert a skip; induction n as [|n IH]; intros a skip.
  - rewrite zrange_nil by lia; reflexivity.
  - rewrite zrange_cons by lia; cbn [every_nth filter].
    replace (a + Z.of_nat (S n)) with ((a + 1) + Z.of_nat n) by lia.
    destruct skip as [|skip].
    + replace (a + Z.of_nat 0 <=? a) with true by lia.
      replace ((a - a - Z.of_nat 0)) with 0 by lia; rewrite Z.mod_0_l by lia; cbn [Z.eqb andb].
      f_equal; rewrite IH; apply filter_ext_in; intros i Hi; apply in_zrange in Hi.
      replace (a + Z.of_nat 0 <=? i) with true by lia; cbn [andb].
      replace (i - a - Z.of_nat 0) with ((i - (a + 1) - Z.of_nat (step - 1)) + 1 * Z.of_nat step) by lia.
      rewrite Z.mod_add by lia.
      destruct (Z.leb_spec (a + 1 + Z.of_nat (step - 1)) i); cbn [andb]; [reflexivity|].
      symmetry; apply Z.eqb_neq; intros Hc.
      apply Z.mod_divide in Hc; [|lia]. destruct Hc as [q Hq].
      assert (q = -1 \/ q <= -2 \/ q >= 0) as [->|[|]] by lia; nia.
    + replace (a + Z.of_nat (S skip) <=? a) with false by lia; cbn [andb].
      rewrite IH; apply filter_ext_in; intros i Hi; apply in_zrange in Hi.
      f_equal; [lia|]. f_equal; f_equal; lia.
Qed.

Lemma list_as_map {A} (d : A) (l : list A) :
  l = map (fun i => nth (Z.to_nat i) l d) (zrange 0 (Z.of_nat (length l))).
Proof.
  unfold zrange; rewrite map_map.
  replace (Z.to_nat (Z.of_nat (length l) - 0)) with (length l) by lia.
  induction l as [|x l IH]; [reflexivity|].
  cbn [length seq map]; f_equal.
  rewrite <- seq_shift, map_map, IH at 1.
  apply map_ext; intros i.
  replace (Z.to_nat (0 + Z.of_nat (S i))) with (S (Z.to_nat (0 + Z.of_nat i))) by lia.
  reflexivity.
Qed.

Lemma firstn_zrange k a b : a <= b -> (k <= Z.to_nat (b - a))%nat ->
  firstn k (zrange a b) = zrange a (a + Z.of_nat k).
Proof.
  intros Hab H; rewrite (zrange_app a (a + Z.of_nat k) b) by lia.
  rewrite firstn_app, zrange_length.
  replace (k - Z.to_nat (a + Z.of_nat k - a))%nat with 0%nat by lia.
  rewrite firstn_all2 by (rewrite zrange_length; lia). now rewrite app_nil_r.
Qed.

Lemma skipn_zrange k a b : a <= b -> (k <= Z.to_nat (b - a))%nat ->
  skipn k (zrange a b) = zrange (a + Z.of_nat k) b.
Proof.
  intros Hab H; rewrite (zrange_app a (a + Z.of_nat k) b) by lia.
  rewrite skipn_app, zrange_length.
  replace (k - Z.to_nat (a + Z.of_nat k - a))%nat with 0%nat by lia.
  rewrite skipn_all2 by (rewrite zrange_length; lia). reflexivity.
Qed.

(** python slice of an array given as a function of the row index *)
Lemma py_slice_map {A} (g : Z -> A) n start stop step :
  0 <= start -> 0 < step -> 0 <= n ->
  (match stop with Some e => 0 <= e <= n | None => True end) ->
  py_slice (map g (zrange 0 n)) start stop step
  = Ok (map g (filter (fun i => (start <=? i) && ((i - start) mod step =? 0)
                     && (i <? match stop with Some e => e | None => n end)) (zrange 0 n))).
Proof.
  intros Ha Hs Hn He; unfold py_slice, slice_bound.
  replace (step <=? 0) with false by lia.
  rewrite map_length, zrange_length.
  set (e := match stop with Some e => e | None => n end).
  assert (0 <= e <= n) as He' by (destruct stop; subst e; lia).
  replace (match stop with
           | Some s => Z.to_nat (if s <? 0 then Z.max 0 (s + Z.of_nat (Z.to_nat (n - 0))) else Z.min s (Z.of_nat (Z.to_nat (n - 0))))
           | None => Z.to_nat (n - 0) end) with (Z.to_nat e) by (destruct stop as [z|]; subst e; [destruct (Z.ltb_spec z 0)|]; lia).
  replace (start <? 0) with false by lia.
  replace (Z.of_nat (Z.to_nat (n - 0))) with n by lia.
  f_equal. rewrite skipn_map, firstn_map, every_nth_map; f_equal.
  rewrite skipn_zrange by lia.
  set (a := Z.to_nat (Z.min start n)).
  destruct (Z_lt_le_dec start e) as [Hlt|Hge].
  - rewrite firstn_zrange by lia. replace (0 + Z.of_nat a) with start by lia.
    rewrite every_nth_zrange by lia.
    apply sorted_lt_ext; try (apply sorted_filter, zrange_sorted).
    intros x; rewrite !filter_In, !in_zrange, !andb_true_iff.
    replace (x - start - Z.of_nat 0) with (x - start) by lia.
    replace (Z.of_nat (Z.to_nat step)) with step by lia.
    rewrite Z.eqb_eq. lia.
  - replace (Z.to_nat e - a)%nat with 0%nat by lia; cbn [firstn every_nth].
    symmetry. destruct (filter _ _) as [|x l] eqn:E; [reflexivity|exfalso].
    assert (In x (x :: l)) as Hx by now left.
    rewrite <- E in Hx; apply filter_In in Hx as [_ Hx]. lia.
Qed.

Lemma py_slice_nonneg_ok {A} (l : list A) start stop step :
  0 < step -> exists r, py_slice l start stop step = Ok r.
Proof. intros H; unfold py_slice; replace (step <=? 0) with false by lia; eauto. Qed.

(** ** loops *)
Lemma foldM_app {A S} (f : S -> A -> res S) l1 l2 s :
  foldM f (l1 ++ l2) s = (do s' <- foldM f l1 s; foldM f l2 s').
Proof.
  revert s; induction l1 as [|x l1 IH]; intros s; cbn; [reflexivity|].
  destruct (f s x); cbn; [apply IH|reflexivity].
Qed.

(** induction principle for loops over 1..n *)
Lemma foldM_zrange_ind {S} (f : S -> Z -> res S) (P : S -> Z -> Prop) n s :
  0 <= n -> P s 0 ->
  (forall s k, 0 < k <= n -> P s (k - 1) -> exists s', f s k = Ok s' /\ P s' k) ->
  exists s', foldM f (zrange 1 (n + 1)) s = Ok s' /\ P s' n.
Proof.
  intros Hn. pattern n; apply natlike_ind; [| |assumption].
  - intros H0 _. exists s. rewrite zrange_nil by lia. auto.
  - intros m Hm IH H0 Hs. unfold Z.succ in *.
    destruct IH as (s1 & E1 & P1); [assumption| |].
    { intros s' k Hk; apply Hs; lia. }
    destruct (Hs s1 (m + 1)) as (s2 & E2 & P2); [lia| |].
    { replace (m + 1 - 1) with m by lia; assumption. }
    exists s2. split; [|assumption].
    rewrite (zrange_app 1 (m + 1) (m + 1 + 1)) by lia. rewrite foldM_app, E1. cbn [bind].
    rewrite (zrange_cons (m + 1)), zrange_nil by lia. cbn [foldM]. rewrite E2; reflexivity.
Qed.

Lemma nth_map_in {A B} (f : A -> B) l i d d' : (i < length l)%nat -> nth i (map f l) d = f (nth i l d').
Proof.
  intros H. rewrite nth_indep with (d' := f d') by (rewrite map_length; assumption). apply map_nth.
Qed.
