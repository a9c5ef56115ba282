(** Grids *)
From Coq Require Import Lia Lra ZifyBool ZifyNat.
From Verif Require Import PyBase Model_dyn Model_grid Spec_grid Proof_base.
Ltac Zify.zify_post_hook ::= idtac.
Open Scope R_scope.

(** ** indices and flat positions *)
Lemma prod_size s : prod_list s = size s.
Proof. induction s as [|n s IH]; cbn; [reflexivity|]. now rewrite <- IH. Qed.

Lemma flat_map_len {A B} (f : A -> list B) l k : (forall x, In x l -> length (f x) = k) ->
  length (flat_map f l) = (length l * k)%nat.
Proof.
  induction l as [|x l IH]; intros H; cbn; [reflexivity|]. rewrite app_length, IH, H; cbn; auto. intros; apply H; now right.
Qed.

Lemma indices_length s : length (indices s) = size s.
Proof.
  induction s as [|n s IH]; cbn; [reflexivity|]. rewrite flat_map_len with (k := size s).
  - now rewrite seq_length.
  - intros; now rewrite map_length.
Qed.

Lemma ravel_acc s : forall acc idx, length idx = length s ->
  ravel acc s idx = (acc * size s + flat_pos s idx)%nat.
Proof.
  induction s as [|n s IH]; intros acc [|i idx] H; cbn in *; try lia. rewrite IH by lia. nia.
Qed.
Lemma in_shape_len s idx : in_shape s idx -> length idx = length s.
Proof. intros H; induction H; cbn; congruence. Qed.
Lemma ravel_flat s idx : in_shape s idx -> ravel 0 s idx = flat_pos s idx.
Proof. intros H. rewrite ravel_acc by now apply in_shape_len. lia. Qed.

Lemma flat_pos_lt s idx : in_shape s idx -> (flat_pos s idx < size s)%nat.
Proof. intros H; induction H as [|n i s idx Hi _ IH]; cbn; [lia|]. nia. Qed.

Lemma in_indices s idx : In idx (indices s) <-> in_shape s idx.
Proof.
  revert idx; induction s as [|n s IH]; intros idx; cbn.
  - split; [intros [<-|[]]; constructor|]. inversion 1; auto.
  - rewrite in_flat_map. split.
    + intros (i & Hi & Hm). apply in_map_iff in Hm as (t & <- & Ht). apply in_seq in Hi.
      constructor; [lia|]. now apply IH.
    + inversion 1; subst. eexists; split; [apply in_seq; split; [lia|]; cbn; eassumption|].
      apply in_map. now apply IH.
Qed.

Lemma nth_concat_block {A} (f : nat -> list A) k d : forall n a i j,
  (forall x, length (f x) = k) -> (i < n)%nat -> (j < k)%nat ->
  nth (i * k + j) (flat_map f (seq a n)) d = nth j (f (a + i)%nat) d.
Proof.
  induction n as [|n IH]; intros a i j Hf Hi Hj; [lia|]. cbn [seq flat_map].
  destruct i as [|i].
  - cbn [Nat.mul Nat.add]. rewrite app_nth1 by (rewrite Hf; lia). now rewrite Nat.add_0_r.
  - rewrite app_nth2 by (rewrite Hf; nia). rewrite Hf.
    replace (S i * k + j - k)%nat with (i * k + j)%nat by nia. rewrite IH by (try assumption; lia).
    f_equal. f_equal. lia.
Qed.

Lemma nth_indices s idx : in_shape s idx -> nth (flat_pos s idx) (indices s) [] = idx.
Proof.
  intros H; induction H as [|n i s idx Hi Hs IH]; [reflexivity|]. cbn [flat_pos indices].
  rewrite nth_concat_block with (k := size s).
  - rewrite Nat.add_0_l. rewrite nth_indep with (d' := i :: []) by (rewrite map_length, indices_length; now apply flat_pos_lt).
    rewrite map_nth. now rewrite IH.
  - intros; now rewrite map_length, indices_length.
  - assumption.
  - now apply flat_pos_lt.
Qed.

(** every flat position is the one of an index *)
Lemma flat_pos_surj s m : (m < size s)%nat -> exists idx, in_shape s idx /\ flat_pos s idx = m.
Proof.
  revert m; induction s as [|n s IH]; intros m Hm; cbn in Hm.
  - exists []; split; [constructor|cbn; lia].
  - assert (size s <> 0)%nat by nia. destruct (IH (m mod size s)%nat) as (t & Ht & E).
    { apply Nat.mod_upper_bound; assumption. }
    exists ((m / size s)%nat :: t). split.
    + constructor; [|assumption]. apply Nat.div_lt_upper_bound; [assumption|]. nia.
    + cbn. rewrite E. rewrite Nat.mul_comm. symmetry. apply Nat.div_mod; assumption.
Qed.

Lemma list_is_indices {A} (d : A) s l : length l = size s ->
  map (fun idx => nth (flat_pos s idx) l d) (indices s) = l.
Proof.
  intros Hl. apply nth_ext with (d := d) (d' := d).
  - now rewrite map_length, indices_length.
  - intros m Hm. rewrite map_length, indices_length in Hm.
    destruct (flat_pos_surj s m Hm) as (idx & Hin & E).
    rewrite (nth_map_in _ _ _ _ []) by (rewrite indices_length; assumption).
    rewrite <- E. now rewrite nth_indices.
Qed.

(** ** rows *)
Lemma indices_snoc s d : indices (s ++ [d]) = flat_map (fun idx => map (fun c => idx ++ [c]) (seq 0 d)) (indices s).
Proof.
  induction s as [|n s IH]; cbn [app indices].
  - cbn. rewrite app_nil_r. induction (seq 0 d) as [|x l IH']; cbn; congruence.
  - rewrite IH. induction (seq 0 n) as [|i l IHl]; cbn [flat_map]; [reflexivity|].
    rewrite IHl, flat_map_app. f_equal. clear. induction (indices s) as [|t l IH]; cbn; [reflexivity|].
    rewrite map_app, IH. f_equal. rewrite map_map. apply map_ext. reflexivity.
Qed.

Lemma rows_of_concat {A B} (g : A -> list B) d : forall l,
  (forall x, In x l -> length (g x) = d) -> rows_of (length l) d (flat_map g l) = map g l.
Proof.
  induction l as [|x l IH]; intros H; cbn; [reflexivity|].
  assert (length (g x) = d) as Hx by (apply H; now left).
  rewrite <- Hx, firstn_app, Nat.sub_diag, firstn_O, app_nil_r, firstn_all.
  rewrite skipn_app, Nat.sub_diag, skipn_all. cbn [skipn app]. rewrite Hx. f_equal. apply IH. intros; apply H; now right.
Qed.

Lemma rows_of_indices {B} (f : list nat -> B) s d :
  rows_of (size s) d (map f (indices (s ++ [d]))) = map (fun idx => map (fun c => f (idx ++ [c])) (seq 0 d)) (indices s).
Proof.
  rewrite indices_snoc. rewrite flat_map_concat_map, concat_map, map_map, <- flat_map_concat_map.
  rewrite <- indices_length.
  rewrite (rows_of_concat (fun x => map f (map (fun c => x ++ [c]) (seq 0 d)))).
  - apply map_ext. intros; now rewrite map_map.
  - intros; now rewrite !map_length, seq_length.
Qed.

(** ** points *)
Lemma size_app a b : size (a ++ b) = (size a * size b)%nat.
Proof. induction a as [|n a IH]; cbn; [lia|]. rewrite IH. lia. Qed.
Lemma size_rev a : size (rev a) = size a.
Proof. induction a as [|n a IH]; cbn; [reflexivity|]. rewrite size_app, IH. cbn. lia. Qed.
Lemma size_swap01 a : size (swap01 a) = size a.
Proof. destruct a as [|x [|y a]]; cbn; lia. Qed.
Lemma swap01_len {A} (a : list A) : length (swap01 a) = length a.
Proof. destruct a as [|x [|y a]]; reflexivity. Qed.
Lemma swap01_invol {A} (a : list A) : swap01 (swap01 a) = a.
Proof. destruct a as [|x [|y a]]; reflexivity. Qed.
Lemma listing_swap {A} (a : list A) : listing a = rev (swap01 a).
Proof. reflexivity. Qed.

Lemma Forall2_app_one {A B} (P : A -> B -> Prop) l1 l2 x y : Forall2 P l1 l2 -> P x y -> Forall2 P (l1 ++ [x]) (l2 ++ [y]).
Proof. intros H Hp. induction H; cbn; constructor; auto. Qed.
Lemma in_shape_rev s idx : in_shape s idx -> in_shape (rev s) (rev idx).
Proof. intros H; induction H; cbn; [constructor|]. now apply Forall2_app_one. Qed.
Lemma in_shape_swap s idx : in_shape s idx -> in_shape (swap01 s) (swap01 idx).
Proof.
  intros H; destruct H as [|n i s idx Hi H]; [constructor|]. destruct H as [|m j s idx Hj H]; cbn; repeat constructor; auto.
Qed.
Lemma in_shape_listing s idx : in_shape s idx -> in_shape (listing s) (listing idx).
Proof. intros. rewrite !listing_swap. now apply in_shape_rev, in_shape_swap. Qed.

(** the points are the index tuples in listing order, with the coordinates of the axes *)
Lemma points_of_eq axs ns : map (@length R) axs = ns ->
  points_of axs ns (length axs)
  = map (fun idx => map (fun c => nth (nth c (swap01 (rev idx)) 0%nat) (nth c axs []) 0) (seq 0 (length axs)))
        (indices (listing ns)).
Proof.
  intros Hl. unfold points_of, transpose_shape, meshgrid_shape. cbn [rev].
  rewrite prod_size, <- size_swap01, <- size_rev, Hl. rewrite rows_of_indices. rewrite listing_swap.
  apply map_ext. intros idx. apply map_ext. intros c. unfold transpose_at. rewrite rev_app_distr. reflexivity.
Qed.

Lemma points_of_nth axs ns idx : map (@length R) axs = ns -> in_shape ns idx ->
  nth (flat_pos (listing ns) (listing idx)) (points_of axs ns (length axs)) []
  = map (fun c => nth (nth c idx 0%nat) (nth c axs []) 0) (seq 0 (length axs)).
Proof.
  intros Hl Hi. rewrite points_of_eq by assumption.
  set (f := fun idx => map _ _).
  assert (in_shape (listing ns) (listing idx)) as Hin by now apply in_shape_listing.
  rewrite (nth_map_in f _ _ _ []) by (rewrite indices_length; now apply flat_pos_lt).
  rewrite nth_indices by assumption. unfold f. rewrite listing_swap, rev_involutive, swap01_invol. reflexivity.
Qed.

Lemma points_of_length axs ns : map (@length R) axs = ns -> length (points_of axs ns (length axs)) = size ns.
Proof.
  intros Hl. rewrite points_of_eq by assumption. rewrite map_length, indices_length, listing_swap, size_rev. apply size_swap01.
Qed.

Lemma axes_lengths ranges ns : length ranges = length ns -> map (@length R) (axes_of ranges ns) = ns.
Proof.
  unfold axes_of. rewrite map_map. revert ns; induction ranges as [|r rs IH]; intros [|n ns] H; cbn in *; try lia; [reflexivity|].
  f_equal; [|now apply IH; lia]. unfold linspace. now rewrite map_length, seq_length.
Qed.
Lemma axes_len ranges ns : length ranges = length ns -> length (axes_of ranges ns) = length ns.
Proof. intros H. unfold axes_of. rewrite map_length, combine_length. lia. Qed.

Lemma linspace_coordinate r n i : (i < n)%nat -> (1 < n)%nat -> nth i (linspace (fst r) (snd r) n) 0 = coordinate r n i.
Proof.
  intros Hi Hn. unfold linspace, coordinate.
  rewrite (nth_map_in _ _ _ _ 0%nat) by (rewrite seq_length; assumption).
  rewrite seq_nth by assumption. cbn [Nat.add]. rewrite minus_INR by lia. reflexivity.
Qed.

Lemma map_seq_cons {A} (f : nat -> A) n : map f (seq 0 (S n)) = f 0%nat :: map (fun c => f (S c)) (seq 0 n).
Proof. cbn. now rewrite <- seq_shift, map_map. Qed.

Lemma axes_point ranges ns idx : length ranges = length ns -> usable_points ns -> in_shape ns idx ->
  map (fun c => nth (nth c idx 0%nat) (nth c (axes_of ranges ns) []) 0) (seq 0 (length (axes_of ranges ns)))
  = grid_point ranges ns idx.
Proof.
  intros Hl Hu Hi. rewrite axes_len by assumption. revert ranges idx Hl Hi.
  induction Hu as [|n ns Hn Hu IH]; intros [|r rs] idx Hl Hi; cbn in Hl; try lia.
  - inversion Hi; reflexivity.
  - inversion Hi as [|? i ? is Hlt Hi']; subst. cbn [length]. rewrite map_seq_cons. cbn [nth axes_of grid_point].
    unfold axes_of; cbn [combine map nth fst snd]. rewrite linspace_coordinate by lia. f_equal.
    apply (IH rs is); [lia|assumption].
Qed.

(** a grid with n_dim ranges and point numbers *)
Definition consistent {A} (g : grid A) : Prop :=
  length (g_ranges g) = g_ndim g /\ length (g_npoints g) = g_ndim g.

Lemma points_exact {A} (g : grid A) idx : consistent g -> usable_points (g_npoints g) -> in_shape (g_npoints g) idx ->
  nth (flat_pos (listing (g_npoints g)) (listing idx)) (points g) [] = grid_point (g_ranges g) (g_npoints g) idx.
Proof.
  intros [H1 H2] Hu Hi. unfold points. rewrite <- H2.
  rewrite <- (axes_len (g_ranges g) (g_npoints g)) by lia. change (axes_of (g_ranges g) (g_npoints g)) with (axes g).
  rewrite points_of_nth; [apply axes_point; auto; lia|apply axes_lengths; lia|assumption].
Qed.

Lemma points_length {A} (g : grid A) : consistent g -> length (points g) = size (g_npoints g).
Proof.
  intros [H1 H2]. unfold points. rewrite <- H2. rewrite <- (axes_len (g_ranges g) (g_npoints g)) by lia.
  change (axes_of (g_ranges g) (g_npoints g)) with (axes g). apply points_of_length, axes_lengths. lia.
Qed.

Lemma listing_small {A} (l : list A) : (length l <= 2)%nat -> listing l = l.
Proof. destruct l as [|a [|b [|c l]]]; cbn; intros; try reflexivity; lia. Qed.

Lemma points_row_major {A} (g : grid A) idx : consistent g -> usable_points (g_npoints g) ->
  (g_ndim g <= 2)%nat -> in_shape (g_npoints g) idx ->
  nth (flat_pos (g_npoints g) idx) (points g) [] = grid_point (g_ranges g) (g_npoints g) idx.
Proof.
  intros Hc Hu Hd Hi. rewrite <- points_exact by assumption. destruct Hc as [H1 H2].
  rewrite !listing_small; [reflexivity| |lia]. rewrite (in_shape_len _ _ Hi). lia.
Qed.

(** ** construction *)
Lemma stepsizes_ok ranges : forall ns, length ranges = length ns -> usable_points ns ->
  exists st, stepsizes_from_npoints ranges ns = Ok st /\ length st = length ranges /\
    (forall i, (i < length ranges)%nat -> nth i st 0 = (snd (nth i ranges (0,0)) - fst (nth i ranges (0,0))) / (INR (nth i ns 0%nat) - 1)) /\
    fold_right Rmult 1 st = volume ranges ns.
Proof.
  induction ranges as [|r rs IH]; intros [|n ns] Hl Hu; cbn in Hl; try lia.
  - exists []. repeat split; auto. intros i Hi; cbn in Hi; lia.
  - inversion Hu; subst. destruct (IH ns) as (st & E & Hst & Hn & Hv); [lia|assumption|].
    cbn [stepsizes_from_npoints]. destruct (Nat.eqb_spec n 1); [lia|]. rewrite E. cbn [bind].
    eexists; split; [reflexivity|]. split; [cbn; lia|]. split.
    + intros [|i] Hi; cbn in *; [reflexivity|]. apply Hn. lia.
    + cbn. now rewrite Hv.
Qed.

Lemma from_npoints_ok {A} ranges ns : length ranges = length ns -> usable_points ns ->
  exists g : grid A, from_npoints ranges (NList ns) = Ok g /\ g_ranges g = ranges /\ g_npoints g = ns /\
    g_ndim g = length ranges /\ g_data g = mkArr [0%nat] [] /\
    stepsizes_from_npoints ranges ns = Ok (g_steps g).
Proof.
  intros Hl Hu. unfold from_npoints. rewrite <- Hl, Nat.eqb_refl. cbn [negb].
  destruct (stepsizes_ok ranges ns Hl Hu) as (st & -> & _). cbn [bind]. eexists; split; [reflexivity|]. cbn. auto.
Qed.

Lemma from_npoints_mismatch {A} ranges ns : length ranges <> length ns ->
  @from_npoints A ranges (NList ns) = Err ValueError.
Proof. intros H. unfold from_npoints. destruct (Nat.eqb_spec (length ns) (length ranges)); [congruence|reflexivity]. Qed.

Lemma from_npoints_one {A} ranges n : @from_npoints A ranges (NInt n) = from_npoints ranges (NList (repeat n (length ranges))).
Proof.
  unfold from_npoints. destruct (Nat.eqb_spec (length ranges) 1) as [E|N]; [|reflexivity]. rewrite E. reflexivity.
Qed.

Lemma set_data_ok {A} (g : grid A) v : length (a_flat v) = size (g_npoints g) ->
  set_data g v = Ok (mkGrid (mkArr (g_npoints g) (a_flat v)) (g_ranges g) (g_npoints g) (g_steps g) (g_ndim g)).
Proof. intros H. unfold set_data, reshape. rewrite prod_size, H, Nat.eqb_refl. reflexivity. Qed.
Lemma set_data_err {A} (g : grid A) v : length (a_flat v) <> size (g_npoints g) -> set_data g v = Err ValueError.
Proof. intros H. unfold set_data, reshape. rewrite prod_size. destruct (Nat.eqb_spec (length (a_flat v)) (size (g_npoints g))); [contradiction|reflexivity]. Qed.

(** a filled grid *)
Definition filled {A} (g : grid A) : Prop :=
  consistent g /\ usable_points (g_npoints g) /\ stepsizes_from_npoints (g_ranges g) (g_npoints g) = Ok (g_steps g) /\
  a_shape (g_data g) = g_npoints g /\ length (a_flat (g_data g)) = size (g_npoints g).

Lemma copy_empty_ok {A B} (g : grid A) : filled g -> exists n : grid B, copy_empty g = Ok n /\
  g_ranges n = g_ranges g /\ g_npoints n = g_npoints g /\ g_steps n = g_steps g /\ g_ndim n = g_ndim g.
Proof.
  intros ([H1 H2] & Hu & Hs & _). destruct (@from_npoints_ok B (g_ranges g) (g_npoints g)) as (n & E & Er & En & Ed & _ & Est); [lia|assumption|].
  exists n. unfold copy_empty. rewrite E. repeat split; auto; congruence.
Qed.

Definition same_geometry {A B} (g : grid A) (h : grid B) : Prop :=
  g_ranges h = g_ranges g /\ g_npoints h = g_npoints g /\ g_steps h = g_steps g /\ g_ndim h = g_ndim g.

Lemma filled_of {A B} (g : grid A) (h : grid B) : filled g -> same_geometry g h ->
  a_shape (g_data h) = g_npoints g -> length (a_flat (g_data h)) = size (g_npoints g) -> filled h.
Proof.
  intros ([H1 H2] & Hu & Hs & _) (E1 & E2 & E3 & E4) Hsh Hl. unfold filled, consistent. rewrite E1, E2, E3, E4. auto.
Qed.

Lemma perform_math_ok {A} (g : grid A) f : filled g -> exists h, perform_math g f = Ok h /\ filled h /\ same_geometry g h /\
  a_flat (g_data h) = map f (a_flat (g_data g)).
Proof.
  intros Hf. destruct (@copy_empty_ok A A g Hf) as (n & E & E1 & E2 & E3 & E4). unfold perform_math. rewrite E. cbn [bind].
  pose proof Hf as (_ & _ & _ & Hsh & Hl). rewrite set_data_ok by (cbn; rewrite map_length, E2; assumption).
  eexists; split; [reflexivity|]. cbn. assert (same_geometry g (mkGrid (mkArr (g_npoints n) (map f (a_flat (g_data g)))) (g_ranges n) (g_npoints n) (g_steps n) (g_ndim n))) as G
    by (repeat split; assumption).
  split; [|split; [assumption|reflexivity]]. apply (filled_of g); auto; cbn; now rewrite map_length.
Qed.

(** ** broadcasting of equal shapes *)
Lemma bcast_rev_same s : bcast_rev s s = Some s.
Proof. induction s as [|n s IH]; cbn; [reflexivity|]. now rewrite IH, Nat.eqb_refl. Qed.
Lemma clip_rev_same s idx : in_shape s idx -> clip_rev s idx = idx.
Proof.
  intros H; induction H as [|n i s idx Hi _ IH]; cbn; [reflexivity|]. rewrite IH.
  destruct (Nat.eqb_spec n 1); [f_equal; lia|reflexivity].
Qed.

Lemma combine_indices {A} (d : A) (op : A -> A -> A) s l1 l2 : length l1 = size s -> length l2 = size s ->
  map (fun idx => op (nth (flat_pos s idx) l1 d) (nth (flat_pos s idx) l2 d)) (indices s)
  = map (fun xy => op (fst xy) (snd xy)) (combine l1 l2).
Proof.
  intros H1 H2. rewrite <- (list_is_indices (d, d) s (combine l1 l2)) by (rewrite combine_length; lia).
  rewrite map_map. apply map_ext. intros idx. rewrite combine_nth by lia. reflexivity.
Qed.

Lemma broadcast_same {A} (d : A) op (a b : arr A) : a_shape a = a_shape b ->
  length (a_flat a) = size (a_shape a) -> length (a_flat b) = size (a_shape b) ->
  broadcast_op d op a b = Ok (mkArr (a_shape a) (map (fun xy => op (fst xy) (snd xy)) (combine (a_flat a) (a_flat b)))).
Proof.
  intros Hs Ha Hb. unfold broadcast_op. rewrite <- Hs, bcast_rev_same, rev_involutive. f_equal. f_equal.
  rewrite <- combine_indices with (d := d) (s := a_shape a) by congruence.
  apply map_ext_in. intros idx Hin. apply in_indices in Hin. cbv zeta.
  rewrite clip_rev_same by now apply in_shape_rev.
  unfold a_at. rewrite <- Hs, !rev_involutive, ravel_flat by assumption. reflexivity.
Qed.

Lemma ranges_eqb_refl r : ranges_eqb r r = true.
Proof. unfold ranges_eqb. destruct (list_eq_dec _ r r); congruence. Qed.
Lemma ranges_eqb_spec r1 r2 : ranges_eqb r1 r2 = true <-> r1 = r2.
Proof. unfold ranges_eqb. destruct (list_eq_dec _ r1 r2); split; congruence. Qed.
Lemma npoints_eqb_spec n1 n2 : npoints_eqb n1 n2 = true <-> n1 = n2.
Proof. unfold npoints_eqb. destruct (list_eq_dec _ n1 n2); split; congruence. Qed.

Lemma arithmetic_number {A} (d : A) g x op : filled g -> exists h, perform_arithmetic d g (ONum x) op = Ok h /\ filled h /\
  same_geometry g h /\ a_flat (g_data h) = map (fun y => op y x) (a_flat (g_data g)).
Proof.
  intros Hf. destruct (perform_math_ok g (fun y => op y x) Hf) as (h & E & R). exists h. split; [|exact R].
  exact E.
Qed.

Lemma arithmetic_arr {A} (d : A) g a op : filled g -> a_shape a = g_npoints g -> length (a_flat a) = size (g_npoints g) ->
  exists h, perform_arithmetic d g (OArr a) op = Ok h /\ filled h /\ same_geometry g h /\
    a_flat (g_data h) = map (fun xy => op (fst xy) (snd xy)) (combine (a_flat (g_data g)) (a_flat a)).
Proof.
  intros Hf Hs Hl. destruct (@copy_empty_ok A A g Hf) as (n & E & E1 & E2 & E3 & E4). unfold perform_arithmetic. rewrite E. cbn [bind].
  pose proof Hf as (_ & _ & _ & Hsh & Hlg). rewrite broadcast_same by congruence. cbn [bind].
  assert (length (map (fun xy : A * A => op (fst xy) (snd xy)) (combine (a_flat (g_data g)) (a_flat a))) = size (g_npoints g)) as Hlen
    by (rewrite map_length, combine_length; lia).
  rewrite set_data_ok by (cbn; rewrite E2; assumption). eexists; split; [reflexivity|]. cbn.
  match goal with |- filled ?h /\ _ => assert (same_geometry g h) as G by (repeat split; assumption) end.
  split; [|split; [assumption|reflexivity]]. apply (filled_of g); auto.
Qed.

Lemma arithmetic_grid {A} (d : A) g g2 op : filled g -> filled g2 -> g_npoints g2 = g_npoints g -> g_ranges g2 = g_ranges g ->
  exists h, perform_arithmetic d g (OGrid g2) op = Ok h /\ filled h /\ same_geometry g h /\
    a_flat (g_data h) = map (fun xy => op (fst xy) (snd xy)) (combine (a_flat (g_data g)) (a_flat (g_data g2))).
Proof.
  intros Hf Hf2 En Er. destruct (arithmetic_arr d g (g_data g2) op Hf) as (h & E & R).
  - destruct Hf2 as (_ & _ & _ & -> & _). assumption.
  - destruct Hf2 as (_ & _ & _ & _ & ->). now rewrite En.
  - exists h. split; [|exact R]. rewrite <- E. unfold perform_arithmetic. destruct (copy_empty g); [|reflexivity]. cbn [bind].
    assert (npoints_eqb (g_npoints g) (g_npoints g2) = true) as -> by now apply npoints_eqb_spec.
    assert (ranges_eqb (g_ranges g) (g_ranges g2) = true) as -> by now apply ranges_eqb_spec. reflexivity.
Qed.

Lemma arithmetic_grid_reject {A} (d : A) g g2 op : filled g ->
  g_npoints g2 <> g_npoints g \/ g_ranges g2 <> g_ranges g ->
  perform_arithmetic d g (OGrid g2) op = Err ValueError.
Proof.
  intros Hf Hne. destruct (@copy_empty_ok A A g Hf) as (n & E & _). unfold perform_arithmetic. rewrite E. cbn [bind].
  replace (negb (npoints_eqb (g_npoints g) (g_npoints g2)) || negb (ranges_eqb (g_ranges g) (g_ranges g2))) with true; [reflexivity|].
  symmetry. apply orb_true_iff. destruct Hne as [N|N]; [left|right]; apply negb_true_iff, not_true_iff_false.
  - rewrite npoints_eqb_spec. congruence.
  - rewrite ranges_eqb_spec. congruence.
Qed.

Lemma arithmetic_other {A} (d : A) g op : filled g -> perform_arithmetic d g OOther op = Err ValueError.
Proof. intros Hf. destruct (@copy_empty_ok A A g Hf) as (n & E & _). unfold perform_arithmetic. now rewrite E. Qed.

(** ** set_from_func *)
Lemma set_from_func_ok {A} (g : grid A) f : consistent g -> exists h, set_from_func g f = Ok h /\
  same_geometry g h /\ a_shape (g_data h) = g_npoints g /\ a_flat (g_data h) = map f (points g).
Proof.
  intros Hc. unfold set_from_func. rewrite set_data_ok by (cbn; rewrite map_length; now apply points_length).
  eexists; split; [reflexivity|]. cbn. repeat split.
Qed.

Lemma map_points_at {A} (d : A) (g : grid A) f idx : consistent g -> usable_points (g_npoints g) ->
  in_shape (g_npoints g) idx ->
  nth (flat_pos (listing (g_npoints g)) (listing idx)) (map f (points g)) d
  = f (grid_point (g_ranges g) (g_npoints g) idx).
Proof.
  intros Hc Hu Hi. assert (flat_pos (listing (g_npoints g)) (listing idx) < length (points g))%nat as Hlt.
  { rewrite points_length by assumption. rewrite <- size_swap01, <- size_rev, <- listing_swap. apply flat_pos_lt.
    now apply in_shape_listing. }
  rewrite nth_indep with (d' := f []) by now rewrite map_length. rewrite map_nth. f_equal. now apply points_exact.
Qed.
