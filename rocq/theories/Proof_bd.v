(** Birth-death steps *)
From Coq Require Import Lia Lra ZifyBool ZifyNat Permutation.
From Verif Require Import PyBase Model_dyn Model_grid Model_corr Model_bd Spec_grid Spec_rng Spec_bd Spec_bdrun Proof_base Proof_dens.
Ltac Zify.zify_post_hook ::= idtac.
Open Scope R_scope.

(** ** executing events *)
Lemma replace_set {A} (l : list A) k v : replace_nth l k v = set_nth l k v.
Proof. revert k; induction l as [|x l IH]; intros [|k]; cbn; now rewrite ?IH. Qed.

Definition valid_events (n : nat) (evs : list (nat * nat)) : Prop :=
  Forall (fun ev => (fst ev < n)%nat /\ (snd ev < n)%nat) evs.

Lemma execute_app {A} (ws : list A) e1 e2 : execute ws (e1 ++ e2) = execute (execute ws e1) e2.
Proof. revert ws; induction e1 as [|[d k] e1 IH]; intros ws; cbn; [reflexivity|]. apply IH. Qed.

Lemma execute_length {A} (ws : list A) evs : length (execute ws evs) = length ws.
Proof.
  revert ws; induction evs as [|[d k] evs IH]; intros ws; cbn; [reflexivity|]. rewrite IH.
  destruct (nth_error ws d); [|reflexivity]. now rewrite replace_set, set_nth_length.
Qed.

Lemma execute_unlisted {A} evs : forall (ws : list A) i, ~ In i (map snd evs) -> nth_error (execute ws evs) i = nth_error ws i.
Proof.
  induction evs as [|[d k] evs IH]; intros ws i H; cbn in *; [reflexivity|]. rewrite IH by tauto.
  destruct (nth_error ws d); [|reflexivity]. rewrite replace_set. apply nth_error_set_nth_neq. intuition.
Qed.

Lemma execute_copies {A} evs : forall (ws : list A) w, In w (execute ws evs) -> In w ws.
Proof.
  induction evs as [|[d k] evs IH]; intros ws w H; cbn in *; [assumption|]. apply IH in H.
  destruct (nth_error ws d) as [v|] eqn:E; [|assumption]. rewrite replace_set in H.
  apply nth_error_In in E. clear IH. revert k H. induction ws as [|x ws IHw]; intros [|k] H; cbn in *; auto.
  - destruct H as [->|H]; auto.
  - destruct H as [->|H]; auto. 
    assert (forall (l : list A) k, In w (set_nth l k v) -> w = v \/ In w l) as G.
    { clear. induction l as [|y l IH]; intros [|k]; cbn; auto; intros [->|H]; auto. destruct (IH k H); auto. }
    destruct (G _ _ H) as [->|]; auto.
Qed.

Lemma perform_moves_ok evs : forall ps ps', perform_moves ps evs = Ok ps' -> ps' = execute ps evs /\ valid_events (length ps) evs.
Proof.
  unfold perform_moves. induction evs as [|[d k] evs IH]; intros ps ps' H; cbn in H.
  - inversion H. split; [reflexivity|constructor].
  - unfold perform_move in H. cbn [fst snd] in H. destruct (nth_error ps d) as [p|] eqn:E; [|discriminate].
    destruct (Nat.ltb_spec k (length ps)); [|discriminate]. cbn [bind] in H.
    destruct (IH _ _ H) as [-> V]. cbn. rewrite E. split; [reflexivity|].
    constructor; cbn; [|now rewrite set_nth_length in V]. split; [|assumption]. apply nth_error_Some. congruence.
Qed.

Lemma perform_moves_total evs : forall ps, valid_events (length ps) evs -> perform_moves ps evs = Ok (execute ps evs).
Proof.
  unfold perform_moves. induction evs as [|[d k] evs IH]; intros ps V; cbn; [reflexivity|].
  inversion V as [|? ? [H1 H2] V']; subst. cbn in H1, H2. unfold perform_move. cbn [fst snd].
  apply nth_error_Some in H1. destruct (nth_error ps d) as [p|] eqn:E; [|congruence].
  destruct (Nat.ltb_spec k (length ps)); [|lia]. cbn [bind]. apply IH. now rewrite set_nth_length.
Qed.

(** ** random_other *)
Lemma random_other_ok rng n i g j g' : random_other rng n i g = Ok (j, g') -> (2 <= n)%nat /\ j <> i.
Proof.
  unfold random_other. destruct (Nat.leb_spec n 1); [discriminate|]. destruct (r_integers rng (n - 1) g) as [d g1].
  intros H'. inversion H'; subst. split; [lia|]. destruct (Nat.leb_spec i d); lia.
Qed.
Lemma random_other_lt rng n i g j g' : rng_ok rng -> random_other rng n i g = Ok (j, g') -> (j < n)%nat.
Proof.
  intros R. unfold random_other. destruct (Nat.leb_spec n 1); [discriminate|].
  pose proof (ok_integers rng R (n - 1) g ltac:(lia)) as Hd. destruct (r_integers rng (n - 1) g) as [d g1].
  cbn in Hd. intros H'. inversion H'; subst. destruct (Nat.leb_spec i d); lia.
Qed.
Lemma random_other_total rng n i g : (2 <= n)%nat -> exists j g', random_other rng n i g = Ok (j, g').
Proof. intros H. unfold random_other. destruct (Nat.leb_spec n 1); [lia|]. destruct (r_integers rng (n - 1) g); eauto. Qed.

Lemma random_other_uniform n i : (2 <= n)%nat -> (i < n)%nat ->
  exists f : nat -> nat,
    (forall rng g, random_other rng n i g =
       Ok (f (fst (r_integers rng (n - 1) g)), snd (r_integers rng (n - 1) g))) /\
    (forall d, (d < n - 1)%nat -> (f d < n)%nat /\ f d <> i) /\
    (forall d1 d2, (d1 < n - 1)%nat -> (d2 < n - 1)%nat -> f d1 = f d2 -> d1 = d2) /\
    (forall j, (j < n)%nat -> j <> i -> exists d, (d < n - 1)%nat /\ f d = j).
Proof.
  intros Hn Hi. exists (fun d => if Nat.leb i d then S d else d). split; [|split; [|split]].
  - intros rng g. unfold random_other. destruct (Nat.leb_spec n 1); [lia|]. destruct (r_integers rng (n - 1) g); reflexivity.
  - intros d Hd. destruct (Nat.leb_spec i d); lia.
  - intros d1 d2 H1 H2. destruct (Nat.leb_spec i d1), (Nat.leb_spec i d2); lia.
  - intros j Hj Hne. destruct (Nat.ltb_spec j i).
    + exists j. split; [lia|]. destruct (Nat.leb_spec i j); lia.
    + exists (j - 1)%nat. split; [lia|]. destruct (Nat.leb_spec i (j - 1)); lia.
Qed.
Lemma random_other_fails rng n i g : (n <= 1)%nat <-> random_other rng n i g = Err ValueError.
Proof.
  unfold random_other. destruct (Nat.leb_spec n 1); [tauto|]. destruct (r_integers rng (n - 1) g).
  split; [lia|discriminate].
Qed.

(** ** lengths *)
Lemma center_length l : length (center l) = length l.
Proof. unfold center. apply map_length. Qed.
Lemma vmap2_length f a b : length (vmap2 f a b) = Nat.min (length a) (length b).
Proof. revert b; induction a as [|x a IH]; intros [|y b]; cbn; auto. Qed.

Lemma bind_inv {A B} (r : res A) (f : A -> res B) b : bind r f = Ok b -> exists a, r = Ok a /\ f a = Ok b.
Proof. destruct r; cbn; [eauto|discriminate]. Qed.

Lemma walker_density_length pos bw d : walker_density pos bw = Ok d -> length d = length pos.
Proof.
  unfold walker_density. destruct (_ <=? _)%Z.
  - unfold walker_density_pdist. destruct pos as [|p0 t]; [discriminate|]. destruct (Nat.eqb _ 1); intros H.
    + apply bind_inv in H as (b0 & _ & H). inversion H. unfold column_means. now rewrite map_length, seq_length.
    + apply bind_inv in H as (b0 & _ & H). inversion H. unfold column_means. now rewrite map_length, seq_length.
  - intros H. inversion H. unfold walker_density_manual. now rewrite map_length.
Qed.
Lemma interpolated_length gd par pos c : interpolated gd par pos = Ok c -> length c = length pos.
Proof.
  unfold interpolated. destruct (bd_grid par); [|discriminate]. destruct (Nat.eqb_spec (length (interpolate gd g pos 0)) (length pos)); [|discriminate].
  intros H; inversion H; subst; assumption.
Qed.
Lemma calc_betas_length gd par ps beta : calc_betas gd par ps = Ok beta -> length beta = length ps.
Proof.
  unfold calc_betas. intros H. apply bind_inv in H as (d & Hd & H). apply walker_density_length in Hd. rewrite map_length in Hd.
  destruct (bd_variant par).
  - inversion H. rewrite center_length. unfold vadd. rewrite vmap2_length, !map_length. lia.
  - apply bind_inv in H as (c & Hc & H). apply interpolated_length in Hc. rewrite map_length in Hc. inversion H.
    unfold vadd. rewrite vmap2_length, center_length, vmap2_length, !map_length. lia.
  - apply bind_inv in H as (c & Hc & H). apply interpolated_length in Hc. rewrite map_length in Hc. inversion H.
    rewrite center_length. unfold vadd. rewrite vmap2_length, !map_length. lia.
Qed.

(** ** bulk mode *)
Lemma memb_in i l : memb i l = true <-> In i l.
Proof.
  unfold memb. rewrite existsb_exists. split.
  - intros (x & H & E). apply Nat.eqb_eq in E. now subst.
  - intros H. exists i. split; [assumption|]. now apply Nat.eqb_eq.
Qed.
Lemma at_ok l i x : at_ l i = Ok x -> (i < length l)%nat /\ nth i l 0 = x.
Proof.
  unfold at_. destruct (nth_error l i) eqn:E; [|discriminate]. intros H; inversion H; subst. split.
  - apply nth_error_Some. congruence.
  - now apply nth_error_nth.
Qed.
Lemma at_total l i : (i < length l)%nat -> at_ l i = Ok (nth i l 0).
Proof. intros H. unfold at_. now rewrite (nth_error_nth' l 0). Qed.

Lemma bulk_events_perm n beta order : forall k1 k2 evs, (forall i, In i k1 <-> In i k2) ->
  bulk_events n beta order k1 evs -> bulk_events n beta order k2 evs.
Proof.
  induction order as [|i order IH]; intros k1 k2 evs Hk H; inversion H; subst.
  - constructor.
  - apply be_skip; [now apply Hk|eauto].
  - apply be_kill; auto; [now rewrite <- Hk|]. eapply IH; [|eassumption]. cbn. intros x; rewrite Hk; tauto.
  - apply be_dup; auto; [now rewrite <- Hk|]. eapply IH; [|eassumption]. cbn. intros x; rewrite Hk; tauto.
Qed.

Lemma combine_snoc {A B} (a : list A) (b : list B) x y : length a = length b -> combine (a ++ [x]) (b ++ [y]) = combine a b ++ [(x, y)].
Proof. revert b; induction a as [|u a IH]; intros [|v b] H; cbn in *; try lia; [reflexivity|]. rewrite IH by lia. reflexivity. Qed.

Definition npos (beta : list R) (l : list nat) : nat := length (filter (fun i => gtb (nth i beta 0) 0) l).

Lemma bulk_loop_spec rng n beta : rng_ok rng -> forall order dups kills s g dups' kills' s' g',
  bulk_loop rng n beta order dups kills s g = Ok (dups', kills', s', g') ->
  length dups = length kills ->
  exists evs, bulk_events n beta order kills evs /\
    length dups' = length kills' /\ combine dups' kills' = combine dups kills ++ evs /\
    dup_attempts s' = dup_attempts s /\ kill_attempts s' = kill_attempts s /\
    (kill_count s' <= kill_count s + npos beta order)%nat /\
    (dup_count s' <= dup_count s + (length order - npos beta order))%nat /\
    (kill_count s' + dup_count s' = kill_count s + dup_count s + length evs)%nat.
Proof.
  intros R. induction order as [|i order IH]; intros dups kills s g dups' kills' s' g' H Hl; cbn in H.
  - inversion H; subst. exists []. rewrite app_nil_r. cbn. repeat (split; [constructor || lia|]). lia.
  - assert (npos beta (i :: order) = (if gtb (nth i beta 0%R) 0%R then 1 else 0) + npos beta order)%nat as EN.
    { unfold npos; cbn. destruct (gtb _ _); reflexivity. }
    assert (npos beta order <= length order)%nat as LN.
    { unfold npos. clear. induction order; cbn; [lia|]. destruct (gtb _ _); cbn; lia. }
    rewrite EN. clear EN. cbn [length].
    destruct (memb i kills) eqn:M.
    + apply IH in H; [|assumption]. destruct H as (evs & H1 & H2 & H3 & H4 & H5 & H6 & H7 & H8).
      exists evs. apply memb_in in M. repeat (split; [now constructor || lia|]).
      destruct (gtb _ _); repeat split; auto; lia.
    + apply bind_inv in H as ([j g1] & Hj & H). apply bind_inv in H as (b & Hb & H).
      apply at_ok in Hb as [Hib Hb]. pose proof (random_other_ok _ _ _ _ _ _ Hj) as [_ Hji].
      pose proof (random_other_lt _ _ _ _ _ _ R Hj) as Hjn.
      assert (~ In i kills) as NI by (rewrite <- memb_in; congruence).
      rewrite Hb. destruct (gtb b 0) eqn:G.
      * apply IH in H; [|rewrite !app_length; cbn; lia]. destruct H as (evs & H1 & H2 & H3 & H4 & H5 & H6 & H7 & H8).
        cbn [add_kill add_dup dup_count dup_attempts kill_count kill_attempts] in *. exists ((j, i) :: evs). rewrite combine_snoc in H3 by assumption. rewrite <- app_assoc in H3.
        split; [|cbn [length]; repeat split; auto; lia].
        apply be_kill; auto; [unfold gtb in G; destruct (Rlt_dec 0 b); [rewrite Hb; assumption|discriminate]|].
        eapply bulk_events_perm; [|eassumption]. intros x. rewrite in_app_iff. cbn. tauto.
      * apply IH in H; [|rewrite !app_length; cbn; lia]. destruct H as (evs & H1 & H2 & H3 & H4 & H5 & H6 & H7 & H8).
        cbn [add_kill add_dup dup_count dup_attempts kill_count kill_attempts] in *. exists ((i, j) :: evs). rewrite combine_snoc in H3 by assumption. rewrite <- app_assoc in H3.
        split; [|cbn [length]; repeat split; auto; lia].
        apply be_dup; auto; [unfold gtb in G; destruct (Rlt_dec 0 b); [discriminate|rewrite Hb; lra]|].
        eapply bulk_events_perm; [|eassumption]. intros x. rewrite in_app_iff. cbn. tauto.
Qed.

Lemma bulk_loop_total rng n beta : (2 <= n)%nat -> forall order dups kills s g,
  Forall (fun i => (i < length beta)%nat) order ->
  exists r, bulk_loop rng n beta order dups kills s g = Ok r.
Proof.
  intros Hn. induction order as [|i order IH]; intros dups kills s g F; cbn; [eauto|].
  inversion F; subst. destruct (memb i kills); [auto|].
  destruct (random_other_total rng n i g Hn) as (j & g' & ->). cbn [bind]. rewrite at_total by assumption. cbn [bind].
  destruct (gtb _ _); auto.
Qed.

Lemma bulk_events_valid n beta order killed evs : Forall (fun i => (i < n)%nat) order ->
  bulk_events n beta order killed evs -> valid_events n evs.
Proof.
  intros F H. induction H; inversion F; subst; try constructor; cbn; auto; try (apply IHbulk_events; assumption).
Qed.

Lemma where_true_spec mask i : In i (where_true mask) <-> (i < length mask)%nat /\ nth i mask false = true.
Proof. unfold where_true. rewrite filter_In, in_seq. split; intros [? ?]; split; auto; lia. Qed.
Lemma where_true_nodup mask : NoDup (where_true mask).
Proof. apply NoDup_filter, seq_NoDup. Qed.

Lemma event_prob_eq par b : event_prob par b = accept_prob (bd_dt par) (bd_rate par) b.
Proof. unfold event_prob, accept_prob. f_equal. f_equal. ring. Qed.

Definition accept_mask par beta rand : list bool :=
  map (fun br => leb (snd br) (event_prob par (fst br))) (combine beta rand).

Lemma accept_mask_spec par beta rand i : length beta = length rand ->
  In i (where_true (accept_mask par beta rand)) <->
  (i < length beta)%nat /\ nth i rand 0 <= accept_prob (bd_dt par) (bd_rate par) (nth i beta 0).
Proof.
  intros HL. rewrite where_true_spec. unfold accept_mask. rewrite map_length, combine_length, <- HL, Nat.min_id.
  split; intros [H1 H2]; split; auto.
  - rewrite (nth_map_in _ _ _ _ (0, 0)) in H2 by (rewrite combine_length; lia). rewrite combine_nth in H2 by assumption. cbn in H2.
    rewrite <- event_prob_eq. unfold leb in H2. destruct (Rle_dec _ _); [assumption|discriminate].
  - rewrite (nth_map_in _ _ _ _ (0, 0)) by (rewrite combine_length; lia). rewrite combine_nth by assumption. cbn.
    rewrite event_prob_eq. unfold leb. destruct (Rle_dec _ _); [reflexivity|contradiction].
Qed.

Lemma npos_le n beta (l : list nat) : length beta = n -> NoDup l -> Forall (fun i => (i < n)%nat) l ->
  (npos beta l <= length (filter (fun b => gtb b 0) beta))%nat /\
  (length l - npos beta l <= n - length (filter (fun b => gtb b 0) beta))%nat.
Proof.
  intros Hn Nd F.
  assert (length (filter (fun b => gtb b 0) beta) = npos beta (seq 0 n)) as E.
  { unfold npos. rewrite <- Hn. clear. rewrite <- (seq_nth_map beta 0) at 1. generalize (seq 0 (length beta)). intros l.
    induction l as [|i l IH]; cbn; [reflexivity|]. destruct (gtb _ _); cbn; now rewrite IH. }
  assert (forall l, length l = npos beta l + length (filter (fun i => negb (gtb (nth i beta 0%R) 0%R)) l))%nat as S.
  { clear. intros l; unfold npos; induction l as [|i l IH]; cbn; [reflexivity|]. destruct (gtb _ _); cbn; lia. }
  assert (forall f, length (filter f l) <= length (filter f (seq 0 n)))%nat as I.
  { intros f. apply NoDup_incl_length; [now apply NoDup_filter|]. intros x Hx. apply filter_In in Hx as [Hx Hf]. apply filter_In. split; [|assumption].
    rewrite Forall_forall in F. apply F in Hx. apply in_seq. lia. }
  rewrite E. split; [apply I|]. pose proof (S l) as S1. pose proof (S (seq 0 n)) as S2. rewrite seq_length in S2.
  pose proof (I (fun i => negb (gtb (nth i beta 0) 0))). lia.
Qed.

(** everything about a bulk execution *)
Lemma bulk_full rng gd par st evs st' : rng_ok rng -> bd_recalc par = false ->
  do_birth_death rng gd par st = Ok (evs, st') ->
  exists beta rand order,
    calc_betas gd par (bs_ps st) = Ok beta /\
    rand = fst (r_random rng (length (bs_ps st)) (bs_rng st)) /\
    NoDup order /\
    (forall i, In i order <-> (i < length (bs_ps st))%nat /\
                 nth i rand 0 <= accept_prob (bd_dt par) (bd_rate par) (nth i beta 0)) /\
    bulk_events (length (bs_ps st)) beta order [] evs /\
    bs_ps st' = execute (bs_ps st) evs /\ valid_events (length (bs_ps st)) evs /\
    (let s := bs_stats st in let s' := bs_stats st' in
     let kills := length (filter (fun b => gtb b 0%R) beta) in
     kill_attempts s' = kill_attempts s + kills /\
     dup_attempts s' = dup_attempts s + (length (bs_ps st) - kills) /\
     (kills <= length (bs_ps st)) /\
     kill_count s' <= kill_count s + kills /\
     dup_count s' <= dup_count s + (length (bs_ps st) - kills) /\
     kill_count s' + dup_count s' = kill_count s + dup_count s + length evs)%nat.
Proof.
  intros R Hm H. unfold do_birth_death in H. apply bind_inv in H as (beta & Hb & H).
  pose proof (calc_betas_length _ _ _ _ Hb) as Lb.
  pose proof (ok_random_len rng R (length (bs_ps st)) (bs_rng st)) as Lr.
  destruct (r_random rng (length (bs_ps st)) (bs_rng st)) as [rand g] eqn:Er. cbn [fst] in Lr.
  rewrite Hm in H. cbn [negb] in H. unfold bd_bulk in H. cbn [bs_ps bs_rng bs_stats] in H.
  fold (accept_mask par beta rand) in H.
  pose proof (ok_shuffle rng R (where_true (accept_mask par beta rand)) g) as Pm.
  destruct (r_shuffle rng _ g) as [order g1]. cbn [fst] in Pm.
  apply bind_inv in H as ([[[dups kills] s] g2] & Hl & H).
  apply bind_inv in H as (ps & Hp & H). inversion H; subst; clear H.
  apply (bulk_loop_spec _ _ _ R) in Hl; [|reflexivity]. destruct Hl as (evs & H1 & H2 & H3 & H4 & H5 & H6 & H7 & H8).
  cbn in H3. rewrite H3 in *. apply perform_moves_ok in Hp as [-> V].
  assert (forall i, In i order <-> (i < length (bs_ps st))%nat /\ nth i rand 0 <= accept_prob (bd_dt par) (bd_rate par) (nth i beta 0)) as Ho.
  { intros i. rewrite <- Lb, <- accept_mask_spec by lia. split; apply Permutation_in; [now apply Permutation_sym|assumption]. }
  assert (NoDup order) as Nd by (eapply Permutation_NoDup; [eassumption|apply where_true_nodup]).
  exists beta, rand, order. split; [assumption|]. split; [reflexivity|]. split; [assumption|]. split; [assumption|]. split; [assumption|].
  cbn [bs_ps bs_stats]. split; [reflexivity|]. split; [assumption|].
  destruct (npos_le (length (bs_ps st)) beta order Lb Nd) as [N1 N2].
  { apply Forall_forall. intros i Hi. now apply Ho in Hi. }
  assert (length (filter (fun b => gtb b 0) beta) <= length (bs_ps st))%nat.
  { rewrite <- Lb. clear. induction beta; cbn; [lia|]. destruct (gtb _ _); cbn; lia. }
  cbn in *. lia.
Qed.

Lemma bulk_total rng gd par st beta : rng_ok rng -> bd_recalc par = false ->
  (2 <= length (bs_ps st))%nat -> calc_betas gd par (bs_ps st) = Ok beta ->
  exists evs st', do_birth_death rng gd par st = Ok (evs, st').
Proof.
  intros R Hm Hn Hb. unfold do_birth_death. rewrite Hb. cbn [bind].
  pose proof (calc_betas_length _ _ _ _ Hb) as Lb.
  pose proof (ok_random_len rng R (length (bs_ps st)) (bs_rng st)) as Lr.
  destruct (r_random rng (length (bs_ps st)) (bs_rng st)) as [rand g] eqn:Er. cbn [fst] in Lr.
  rewrite Hm. cbn [negb]. unfold bd_bulk. cbn [bs_ps bs_rng bs_stats]. fold (accept_mask par beta rand).
  pose proof (ok_shuffle rng R (where_true (accept_mask par beta rand)) g) as Pm.
  destruct (r_shuffle rng _ g) as [order g1]. cbn [fst] in Pm.
  assert (Forall (fun i => (i < length beta)%nat) order) as F.
  { apply Forall_forall. intros i Hi. apply (Permutation_in i (Permutation_sym Pm)) in Hi. apply accept_mask_spec in Hi; [apply Hi|lia]. }
  destruct (bulk_loop_total rng (length (bs_ps st)) beta Hn order [] []
     (add_attempts (bs_stats st) (length (bs_ps st) - length (filter (fun b => gtb b 0) beta)) (length (filter (fun b => gtb b 0) beta))) g1 F)
    as ([[[dups kills] s] g2] & Hl).
  rewrite Hl. cbn [bind]. apply (bulk_loop_spec _ _ _ R) in Hl; [|reflexivity]. destruct Hl as (evs & H1 & H2 & H3 & _).
  cbn in H3. rewrite H3. rewrite perform_moves_total; [cbn; eauto|]. eapply bulk_events_valid; [|eassumption].
  eapply Forall_impl; [|exact F]. cbv beta. intros; lia.
Qed.

(** ** recalculate mode *)
Lemma recalc_spec rng gd par n rand : rng_ok rng -> length rand = n -> forall order beta curr events st evs st',
  recalc_loop rng gd par n rand order beta curr events st = Ok (evs, st') ->
  length (bs_ps st) = n -> length beta = n ->
  match curr with Some ev => (fst ev < n)%nat /\ (snd ev < n)%nat | None => True end ->
  exists new, evs = events ++ new /\
    recalc_events n (fun ws b => calc_betas gd par ws = Ok b) (accept_prob (bd_dt par) (bd_rate par)) rand
      order beta curr (bs_ps st) new /\
    bs_ps st' = execute (bs_ps st) new /\ valid_events n new /\
    let s := bs_stats st in let s' := bs_stats st' in
    (kill_attempts s <= kill_attempts s' /\ dup_attempts s <= dup_attempts s' /\
     kill_attempts s' + dup_attempts s' <= kill_attempts s + dup_attempts s + length order /\
     (kill_count s' - kill_count s <= kill_attempts s' - kill_attempts s) /\
     (dup_count s' - dup_count s <= dup_attempts s' - dup_attempts s) /\
     kill_count s <= kill_count s' /\ dup_count s <= dup_count s' /\
     kill_count s' + dup_count s' <= kill_count s + dup_count s + length new)%nat.
Proof.
  intros R HLr. induction order as [|i order IH]; intros beta curr events st evs st' H Hn Hbn Hc; cbn in H.
  - inversion H; subst. exists []. rewrite app_nil_r. split; [reflexivity|]. split; [constructor|]. split; [reflexivity|]. split; [constructor|]. cbn. lia.
  - apply bind_inv in H as (b & Hb & H). apply bind_inv in H as (r & Hr & H). apply at_ok in Hb as [Hib Hb]. apply at_ok in Hr as [_ Hr].
    destruct (leb r (event_prob par b)) eqn:L.
    + assert (nth i rand 0 <= accept_prob (bd_dt par) (bd_rate par) (nth i beta 0)) as Acc.
      { rewrite Hb, Hr, <- event_prob_eq. unfold leb in L. destruct (Rle_dec _ _); [assumption|discriminate]. }
      apply bind_inv in H as ([j g1] & Hj & H). pose proof (random_other_ok _ _ _ _ _ _ Hj) as [_ Hji].
      pose proof (random_other_lt _ _ _ _ _ _ R Hj) as Hjn.
      assert (exists c s, (let '(curr, s) := if gtb b 0 then (Some (i, j), add_kill (if ltb b 0 then add_attempts (if gtb b 0 then add_attempts (bs_stats st) 0 1 else bs_stats st) 1 0 else if gtb b 0 then add_attempts (bs_stats st) 0 1 else bs_stats st))
          else if ltb b 0 then (Some (j, i), add_dup (if ltb b 0 then add_attempts (if gtb b 0 then add_attempts (bs_stats st) 0 1 else bs_stats st) 1 0 else if gtb b 0 then add_attempts (bs_stats st) 0 1 else bs_stats st))
          else (curr, (if ltb b 0 then add_attempts (if gtb b 0 then add_attempts (bs_stats st) 0 1 else bs_stats st) 1 0 else if gtb b 0 then add_attempts (bs_stats st) 0 1 else bs_stats st)) in
          match curr with
          | Some ev => do ps <- perform_moves (bs_ps st) [ev]; do beta0 <- calc_betas gd par ps;
              recalc_loop rng gd par n rand order beta0 curr (events ++ [ev]) (mkBS ps g1 s)
          | None => Err UnboundLocalError end) = (match c with
          | Some ev => do ps <- perform_moves (bs_ps st) [ev]; do beta0 <- calc_betas gd par ps;
              recalc_loop rng gd par n rand order beta0 c (events ++ [ev]) (mkBS ps g1 s)
          | None => Err UnboundLocalError end) /\
          match c with Some ev => (fst ev < n)%nat /\ (snd ev < n)%nat /\ (0 < b -> fst ev = i /\ snd ev <> i) /\ (b < 0 -> snd ev = i /\ fst ev <> i) /\ (b = 0 -> curr = c) | None => True end /\
          ((kill_count s = kill_count (bs_stats st) /\ dup_count s = dup_count (bs_stats st) /\ kill_attempts s = kill_attempts (bs_stats st) /\ dup_attempts s = dup_attempts (bs_stats st)) \/
           (kill_count s = 1 + kill_count (bs_stats st) /\ dup_count s = dup_count (bs_stats st) /\ kill_attempts s = 1 + kill_attempts (bs_stats st) /\ dup_attempts s = dup_attempts (bs_stats st)) \/
           (kill_count s = kill_count (bs_stats st) /\ dup_count s = 1 + dup_count (bs_stats st) /\ kill_attempts s = kill_attempts (bs_stats st) /\ dup_attempts s = 1 + dup_attempts (bs_stats st)))%nat)
        as (c & s & Ec & Hcc & Hs).
      { unfold gtb, ltb. destruct (Rlt_dec 0 b) as [Hp|Hp].
        - destruct (Rlt_dec b 0) as [?|Hq]; [lra|]. eexists (Some (i, j)), _. split; [reflexivity|]. cbn.
          split; [|right; left; lia]. repeat split; try lra; try lia; auto.
        - destruct (Rlt_dec b 0) as [Hq|Hq].
          + eexists (Some (j, i)), _. split; [reflexivity|]. cbn. split; [|right; right; lia].
            repeat split; try lra; try lia; auto.
          + eexists curr, _. split; [reflexivity|]. split; [|left; lia]. destruct curr as [ev|]; [|exact I].
            repeat split; try lra; tauto. }
      apply (eq_trans (eq_sym Ec)) in H. clear Ec. destruct c as [ev|]; [|discriminate].
      apply bind_inv in H as (ps & Hp & H). apply bind_inv in H as (beta' & Hb' & H).
      apply perform_moves_ok in Hp as [-> V].
      destruct Hcc as (V1 & V2 & C1 & C2 & C3).
      apply IH in H; cbn [bs_ps bs_stats] in *;
        [|now rewrite execute_length|now rewrite (calc_betas_length _ _ _ _ Hb'), execute_length|tauto].
      destruct H as (new & -> & Hre & Hex & Hv & Hst).
      exists (ev :: new). split; [now rewrite <- app_assoc|]. split.
      { eapply re_accept; rewrite ?Hb in *; eauto. }
      split; [rewrite Hex; symmetry; apply (execute_app (bs_ps st) [ev] new)|].
      split; [constructor; auto|]. cbn [length]. cbv zeta in *. lia.
    + assert (accept_prob (bd_dt par) (bd_rate par) (nth i beta 0) < nth i rand 0) as Rej.
      { rewrite Hb, Hr, <- event_prob_eq. unfold leb in L. destruct (Rle_dec _ _); [discriminate|lra]. }
      apply IH in H; cbn [bs_ps bs_stats] in *; [|assumption|assumption|assumption].
      destruct H as (new & -> & Hre & Hex & Hv & Hst). exists new. split; [reflexivity|]. split; [now apply re_reject|].
      split; [assumption|]. split; [assumption|]. cbv zeta in *. cbn [length].
      unfold gtb, ltb in Hst. destruct (Rlt_dec 0 b), (Rlt_dec b 0); try lra; cbn in Hst; lia.
Qed.

Lemma recalc_full rng gd par st evs st' : rng_ok rng -> bd_recalc par = true ->
  do_birth_death rng gd par st = Ok (evs, st') ->
  exists beta rand order,
    calc_betas gd par (bs_ps st) = Ok beta /\
    rand = fst (r_random rng (length (bs_ps st)) (bs_rng st)) /\
    Permutation order (seq 0 (length (bs_ps st))) /\
    recalc_events (length (bs_ps st)) (fun ws b => calc_betas gd par ws = Ok b) (accept_prob (bd_dt par) (bd_rate par)) rand
      order beta None (bs_ps st) evs /\
    bs_ps st' = execute (bs_ps st) evs /\ valid_events (length (bs_ps st)) evs /\
    let s := bs_stats st in let s' := bs_stats st' in
    (kill_attempts s <= kill_attempts s' /\ dup_attempts s <= dup_attempts s' /\
     kill_attempts s' + dup_attempts s' <= kill_attempts s + dup_attempts s + length (bs_ps st) /\
     (kill_count s' - kill_count s <= kill_attempts s' - kill_attempts s) /\
     (dup_count s' - dup_count s <= dup_attempts s' - dup_attempts s) /\
     kill_count s <= kill_count s' /\ dup_count s <= dup_count s' /\
     kill_count s' + dup_count s' <= kill_count s + dup_count s + length evs)%nat.
Proof.
  intros R Hm H. unfold do_birth_death in H. apply bind_inv in H as (beta & Hb & H).
  pose proof (calc_betas_length _ _ _ _ Hb) as Lb.
  pose proof (ok_random_len rng R (length (bs_ps st)) (bs_rng st)) as Lr.
  destruct (r_random rng (length (bs_ps st)) (bs_rng st)) as [rand g] eqn:Er. cbn [fst] in Lr.
  rewrite Hm in H. cbn [negb bs_ps bs_rng bs_stats] in H.
  pose proof (ok_shuffle rng R (seq 0 (length (bs_ps st))) g) as Pm.
  destruct (r_shuffle rng _ g) as [order g1]. cbn [fst] in Pm.
  apply (recalc_spec _ _ _ _ _ R Lr) in H; cbn [bs_ps bs_stats] in *; [|reflexivity|assumption|exact I].
  destruct H as (new & E & Hre & Hex & Hv & Hst). cbn in E. subst new.
  exists beta, rand, order. rewrite <- (Permutation_length Pm), seq_length in Hst.
  split; [assumption|]. split; [reflexivity|]. split; [now apply Permutation_sym|]. auto.
Qed.

Lemma bd_conserves rng gd par st evs st' : rng_ok rng -> do_birth_death rng gd par st = Ok (evs, st') ->
  length (bs_ps st') = length (bs_ps st) /\
  bs_ps st' = execute (bs_ps st) evs /\
  Forall (fun ev => (fst ev < length (bs_ps st))%nat /\ (snd ev < length (bs_ps st))%nat) evs /\
  (forall w, In w (bs_ps st') -> In w (bs_ps st)) /\
  (forall i, ~ In i (map snd evs) -> nth_error (bs_ps st') i = nth_error (bs_ps st) i).
Proof.
  intros R H. assert (bs_ps st' = execute (bs_ps st) evs /\ valid_events (length (bs_ps st)) evs) as [E V].
  { destruct (bd_recalc par) eqn:M.
    - destruct (recalc_full _ _ _ _ _ _ R M H) as (? & ? & ? & _ & _ & _ & _ & ? & ? & _). auto.
    - destruct (bulk_full _ _ _ _ _ _ R M H) as (? & ? & ? & _ & _ & _ & _ & _ & ? & ? & _). auto. }
  rewrite E. split; [apply execute_length|]. split; [reflexivity|]. split; [exact V|]. split.
  - intros w. apply execute_copies.
  - intros i. apply execute_unlisted.
Qed.

Lemma bd_reach_stats rng gd par st : rng_ok rng -> bd_reach rng gd par st ->
  (dup_count (bs_stats st) <= dup_attempts (bs_stats st) /\ kill_count (bs_stats st) <= kill_attempts (bs_stats st))%nat.
Proof.
  intros R H. induction H as [ps g|st evs st' H IH E|st ps g H IH]; cbn; [lia| |assumption].
  destruct (bd_recalc par) eqn:M.
  - destruct (recalc_full _ _ _ _ _ _ R M E) as (? & ? & ? & _ & _ & _ & _ & _ & _ & S). cbv zeta in S. lia.
  - destruct (bulk_full _ _ _ _ _ _ R M E) as (? & ? & ? & _ & _ & _ & _ & _ & _ & _ & S). cbv zeta in S. lia.
Qed.

(** ** rates *)
Lemma total_map_plus {A} (f g : A -> R) l : total (map (fun x => f x + g x) l) = total (map f l) + total (map g l).
Proof. induction l as [|x l IH]; cbn; [lra|]. unfold total in *. rewrite IH. lra. Qed.
Lemma total_map_const {A} c (l : list A) : total (map (fun _ => c) l) = INR (length l) * c.
Proof. induction l as [|x l IH]; [cbn; lra|]. cbn [length]. rewrite S_INR. cbn. unfold total in *. rewrite IH. lra. Qed.
Lemma rsum_total l : rsum l = total l. Proof. reflexivity. Qed.

Lemma center_total l : total (center l) = 0.
Proof.
  destruct l as [|x0 l0] eqn:E; [reflexivity|]. rewrite <- E.
  assert (0 < INR (length l)) by (rewrite E; apply lt_0_INR; cbn; lia).
  unfold center. unfold Rminus. rewrite (total_map_plus (fun b => b) (fun _ => - mean l)).
  rewrite map_id, total_map_const. unfold mean. change rsum with total. field. lra.
Qed.
Lemma center_shift l c : center (map (fun x => x + c) l) = center l.
Proof.
  destruct l as [|x0 l0] eqn:E; [reflexivity|]. rewrite <- E.
  assert (0 < INR (length l)) by (rewrite E; apply lt_0_INR; cbn; lia).
  unfold center. rewrite map_map. apply map_ext. intros x. unfold mean. rewrite map_length. change rsum with total.
  rewrite (total_map_plus (fun x => x) (fun _ => c)), map_id, total_map_const. field. lra.
Qed.

(** value of a walker before subtracting the mean *)
Definition log_density (bw : vec) (ps : list particle) (p : particle) : R :=
  ln (average (map (gauss_kernel bw (p_pos p)) (map p_pos ps))).

Lemma vadd_map {A} (f g : A -> R) l : vadd (map f l) (map g l) = map (fun x => f x + g x) l.
Proof. apply vmap2_map. Qed.
Lemma center_map {A} (f : A -> R) l : center (map f l) = map (fun x => f x - average (map f l)) l.
Proof. unfold center. rewrite map_map. reflexivity. Qed.

Lemma density_of n_dim par ps : walkers_ok n_dim (bd_bw par) (map p_pos ps) -> ps <> [] ->
  exists d, walker_density (map p_pos ps) (bd_bw par) = Ok d /\ map ln d = map (log_density (bd_bw par) ps) ps.
Proof.
  intros W Hne. eexists. split; [eapply walker_density_dens; [eassumption|destruct ps; [congruence|discriminate]]|].
  unfold dens. rewrite !map_map. reflexivity.
Qed.

Lemma betas_orig n_dim gd par ps : bd_variant par = VOrig -> walkers_ok n_dim (bd_bw par) (map p_pos ps) -> ps <> [] ->
  calc_betas gd par ps = Ok (center (map (fun p => log_density (bd_bw par) ps p + p_energy p * (1 / bd_kt par)) ps)).
Proof.
  intros V W Hne. unfold calc_betas. destruct (density_of _ _ _ W Hne) as (d & -> & E). cbn [bind]. rewrite V, E, vadd_map. reflexivity.
Qed.
Lemma betas_add n_dim gd par ps c : bd_variant par = VAdd -> walkers_ok n_dim (bd_bw par) (map p_pos ps) -> ps <> [] ->
  interpolated gd par (map p_pos ps) = Ok c ->
  calc_betas gd par ps = Ok (vadd (center (map (fun p => log_density (bd_bw par) ps p + p_energy p * (1 / bd_kt par)) ps)) c).
Proof.
  intros V W Hne Hc. unfold calc_betas. destruct (density_of _ _ _ W Hne) as (d & -> & E). cbn [bind]. rewrite V, E, vadd_map, Hc. reflexivity.
Qed.
Lemma betas_mult n_dim gd par ps c : bd_variant par = VMult -> walkers_ok n_dim (bd_bw par) (map p_pos ps) -> ps <> [] ->
  interpolated gd par (map p_pos ps) = Ok c ->
  calc_betas gd par ps = Ok (center (vadd (map (log_density (bd_bw par) ps) ps) c)).
Proof.
  intros V W Hne Hc. unfold calc_betas. destruct (density_of _ _ _ W Hne) as (d & -> & E). cbn [bind]. rewrite V, E, Hc. reflexivity.
Qed.

Lemma interpolated_pointwise gd par pos : griddata_pointwise gd ->
  match bd_grid par with
  | None => interpolated gd par pos = Err TypeError
  | Some g => exists f, forall pos, interpolated gd par pos = Ok (map f pos)
  end.
Proof.
  intros (f & Hf). unfold interpolated. destruct (bd_grid par) as [g|]; [|reflexivity].
  exists (f (points g) (a_flat (g_data g)) 0). intros pos'. unfold interpolate. rewrite Hf, map_length, Nat.eqb_refl. reflexivity.
Qed.

(** general shape: the rate of a walker is a function of the walker that does not depend on the
    order of the list *)
Lemma total_perm l l' : Permutation l l' -> total l = total l'.
Proof. intros H; induction H; cbn; unfold total in *; lra. Qed.
Lemma average_perm l l' : Permutation l l' -> average l = average l'.
Proof. intros H. unfold average. now rewrite (total_perm _ _ H), (Permutation_length H). Qed.
Lemma log_density_perm bw ps ps' p : Permutation ps ps' -> log_density bw ps p = log_density bw ps' p.
Proof. intros H. unfold log_density. f_equal. apply average_perm. now do 2 apply Permutation_map. Qed.

Lemma combine_map {A B} (f : A -> B) l : combine l (map f l) = map (fun x => (x, f x)) l.
Proof. induction l as [|x l IH]; cbn; [reflexivity|]. now rewrite IH. Qed.

Lemma betas_shape n_dim gd par : griddata_pointwise gd ->
  (bd_variant par = VOrig \/ bd_grid par <> None) ->
  exists rate : list particle -> particle -> R,
    (forall ps ps' p, Permutation ps ps' -> rate ps p = rate ps' p) /\
    (forall ps, walkers_ok n_dim (bd_bw par) (map p_pos ps) -> ps <> [] -> calc_betas gd par ps = Ok (map (rate ps) ps)).
Proof.
  intros G Hg. pose proof (fun pos => interpolated_pointwise gd par pos G) as I.
  destruct (bd_variant par) eqn:V.
  - exists (fun ps x => (log_density (bd_bw par) ps x + p_energy x * (1 / bd_kt par))
            - average (map (fun p => log_density (bd_bw par) ps p + p_energy p * (1 / bd_kt par)) ps)). split.
    + intros ps ps' p Hp. rewrite (log_density_perm _ _ _ p Hp). f_equal. apply average_perm.
      rewrite (map_ext (fun p0 => log_density (bd_bw par) ps p0 + _) (fun p0 => log_density (bd_bw par) ps' p0 + p_energy p0 * (1 / bd_kt par)))
        by (intros; now rewrite (log_density_perm _ _ _ a Hp)). now apply Permutation_map.
    + intros ps W Hne. rewrite (betas_orig n_dim) by assumption. now rewrite center_map.
  - destruct Hg as [?|Hg]; [discriminate|]. destruct (bd_grid par) as [g|]; [|congruence]. destruct (I []) as (f & Hf).
    exists (fun ps x => (log_density (bd_bw par) ps x + p_energy x * (1 / bd_kt par))
            - average (map (fun p => log_density (bd_bw par) ps p + p_energy p * (1 / bd_kt par)) ps) + f (p_pos x)). split.
    + intros ps ps' p Hp. rewrite (log_density_perm _ _ _ p Hp). f_equal. f_equal. apply average_perm.
      rewrite (map_ext (fun p0 => log_density (bd_bw par) ps p0 + _) (fun p0 => log_density (bd_bw par) ps' p0 + p_energy p0 * (1 / bd_kt par)))
        by (intros; now rewrite (log_density_perm _ _ _ a Hp)). now apply Permutation_map.
    + intros ps W Hne. rewrite (betas_add n_dim _ _ _ _ V W Hne (Hf _)). now rewrite center_map, map_map, vadd_map.
  - destruct Hg as [?|Hg]; [discriminate|]. destruct (bd_grid par) as [g|]; [|congruence]. destruct (I []) as (f & Hf).
    exists (fun ps x => (log_density (bd_bw par) ps x + f (p_pos x))
            - average (map (fun p => log_density (bd_bw par) ps p + f (p_pos p)) ps)). split.
    + intros ps ps' p Hp. rewrite (log_density_perm _ _ _ p Hp). f_equal. apply average_perm.
      rewrite (map_ext (fun p0 => log_density (bd_bw par) ps p0 + _) (fun p0 => log_density (bd_bw par) ps' p0 + f (p_pos p0)))
        by (intros; now rewrite (log_density_perm _ _ _ a Hp)). now apply Permutation_map.
    + intros ps W Hne. rewrite (betas_mult n_dim _ _ _ _ V W Hne (Hf _)). now rewrite map_map, vadd_map, center_map.
Qed.
