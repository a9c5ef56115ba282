(** Files of histograms and free energies (C60) *)
From Coq Require Import Lia Lra.
From Verif Require Import PyBase Model_xr Model_input Model_dyn Model_bd Model_traj Model_grid Model_hist Model_histaction Model_fes
  Model_setup Model_main Spec_grid Spec_setup Proof_base Proof_grid Proof_setup2
  Model_files Spec_main Spec_whole Spec_histact Spec_files Proof_main Proof_main2 Proof_whole Proof_whole2 Proof_whole3 Proof_whole4 Proof_files Proof_files2 Proof_files3 Proof_files4 Proof_files5 Proof_files6 Proof_files8.
Open Scope string_scope.
Open Scope Z_scope.
Open Scope list_scope.
Ltac Zify.zify_post_hook ::= idtac.

Lemma sliced_separated s : sliced s = separated (map (map Row) s).
Proof.
  destruct s as [|a s]; [reflexivity|]. revert a. induction s as [|b s IH]; intro a; [cbn; now rewrite app_nil_r|].
  change (sliced (a :: b :: s)) with (map Row a ++ Text "" :: sliced (b :: s)). rewrite IH. reflexivity.
Qed.
Lemma map_seq_from {A} (f : nat -> A) : forall s b, map (fun j => f (s + j)%nat) (seq 0 b) = map f (seq s b).
Proof.
  intros s b. revert s. induction b as [|b IH]; intro s; [reflexivity|]. cbn [seq map]. rewrite Nat.add_0_r. f_equal.
  rewrite <- (IH (S s)), <- seq_shift, map_map. apply map_ext. intro j. f_equal. lia.
Qed.
Lemma rows_of_seq {A} (f : nat -> A) b : forall a s,
  rows_of a b (map f (seq s (a * b))) = map (fun i => map (fun j => f (s + i * b + j)%nat) (seq 0 b)) (seq 0 a).
Proof.
  induction a as [|a IH]; intro s; [reflexivity|]. cbn [rows_of Nat.mul]. rewrite seq_app, map_app.
  rewrite firstn_app, skipn_app, map_length, seq_length, Nat.sub_diag. cbn [firstn skipn]. rewrite app_nil_r.
  rewrite firstn_all2 by (rewrite map_length, seq_length; lia). rewrite skipn_all2 by (rewrite map_length, seq_length; lia).
  cbn [app seq map]. f_equal.
  - rewrite <- (map_seq_from f s b). apply map_ext. intro j. f_equal. lia.
  - rewrite IH. rewrite <- seq_shift, map_map. apply map_ext. intro i. apply map_ext. intro j. f_equal. lia.
Qed.
Lemma combine_seq {A B} (a0 : A) (b0 : B) : forall l m, length l = length m ->
  combine l m = map (fun k => (nth k l a0, nth k m b0)) (seq 0 (length l)).
Proof.
  induction l as [|a l IH]; intros [|b m] H; cbn in H; try discriminate; [reflexivity|]. cbn [combine length seq map nth]. f_equal.
  rewrite (IH m) by lia. rewrite <- seq_shift, map_map. reflexivity.
Qed.
Lemma text_lines l : Forall is_text (map Text l).
Proof. apply Forall_forall. intros x Hx. apply in_map_iff in Hx. destruct Hx as (s & <- & _). now exists s. Qed.

Lemma grid_lines_1d axis np points header data : length axis = length data ->
  grid_lines 1 [axis] points np header data
  = Some (map Text header ++ map (fun i => Row [Fin (nth i axis 0%R); nth i data NaN]) (seq 0 (length data))).
Proof.
  intro H. cbn [grid_lines nth]. rewrite (combine_seq 0%R NaN) by exact H. rewrite map_map, H. reflexivity.
Qed.
Lemma grid_lines_2d ax ay header data : length data = (length ax * length ay)%nat ->
  grid_lines 2 [ax; ay] (points_of [ax; ay] [length ax; length ay] 2) [length ax; length ay] header data
  = Some (map Text header ++ separated (map (fun i => map (fun j =>
      Row [Fin (nth i ax 0%R); Fin (nth j ay 0%R); nth (i * length ay + j) data NaN]) (seq 0 (length ay))) (seq 0 (length ax)))).
Proof.
  intro H. cbn [grid_lines nth]. do 2 f_equal.
  assert (L : length (points_of [ax; ay] [length ax; length ay] 2) = length data).
  { rewrite H. pose proof (points_of_length [ax; ay] [length ax; length ay] eq_refl) as P. cbn [length size] in P. rewrite P. lia. }
  rewrite (combine_seq [] NaN) by exact L. rewrite map_map, L, H.
  rewrite rows_of_seq, sliced_separated, map_map. f_equal.
  apply map_ext_in. intros i Hi. apply in_seq in Hi. rewrite map_map. apply map_ext_in. intros j Hj. apply in_seq in Hj.
  cbn [Nat.add fst snd].
  pose proof (points_of_nth [ax; ay] [length ax; length ay] [i; j] eq_refl ltac:(repeat constructor; lia)) as P.
  unfold listing in P. cbn [rev app flat_pos size length seq map nth] in P.
  replace (i * (length ay * 1) + (j * 1 + 0))%nat with (i * length ay + j)%nat in P by lia. rewrite P. reflexivity.
Qed.

Lemma hist_lines_shows fe o n h counts : (length (h_edges h) = 1 \/ length (h_edges h) = 2)%nat -> length counts = prod_list (n_bins_of (h_edges h)) ->
  exists lines, hist_lines fe o n h counts = Some lines /\ shows (h_edges h) (map (fun c => Fin (INR c)) counts) lines.
Proof.
  intros He Hc. destruct (h_edges h) as [|ex [|ey [|? ?]]] eqn:E; cbn in He; try lia; cbn [n_bins_of map prod_list] in Hc.
  - eexists. unfold hist_lines. cbv zeta. unfold hist_axes. rewrite E. cbn [length map].
    rewrite grid_lines_1d by (rewrite map_length, centers_length; cbn in Hc; lia). split; [reflexivity|]. eexists. split; [apply text_lines|].
    rewrite map_length. cbn in Hc. split; [lia|]. f_equal. replace (length counts) with (length ex - 1)%nat by lia.
    apply map_ext_in. intros i Hi. apply in_seq in Hi. rewrite centers_nth by lia. reflexivity.
  - eexists. unfold hist_lines. cbv zeta. unfold hist_points, hist_axes. rewrite E. cbn [length map n_bins_of].
    rewrite <- (centers_length ex), <- (centers_length ey). rewrite grid_lines_2d by (rewrite map_length, !centers_length; cbn in Hc; lia). split; [reflexivity|].
    eexists. split; [apply text_lines|]. cbv zeta. rewrite map_length. cbn in Hc. split; [lia|]. f_equal. rewrite !centers_length. f_equal.
    apply map_ext_in. intros i Hi. apply in_seq in Hi. apply map_ext_in. intros j Hj. apply in_seq in Hj. rewrite !centers_nth by lia. reflexivity.
Qed.
Lemma hist_lines_3d fe o n h counts : (3 <= length (h_edges h))%nat -> hist_lines fe o n h counts = None.
Proof. intro H. unfold hist_lines. cbv zeta. destruct (h_edges h) as [|? [|? [|? ?]]]; cbn in H; try lia. reflexivity. Qed.
Lemma fes_lines_3d fe n h fes : (3 <= length (h_edges h))%nat -> fes_lines fe n h fes = None.
Proof. intro H. unfold fes_lines. cbv zeta. destruct (h_edges h) as [|? [|? [|? ?]]]; cbn in H; try lia. reflexivity. Qed.

(** the free energies are at the middles of the bins *)
Lemma hd_nth {A} (l : list A) d : hd d l = nth 0 l d.
Proof. destruct l; reflexivity. Qed.
Lemma last_nth {A} (l : list A) d : last l d = nth (length l - 1) l d.
Proof. induction l as [|a [|b l] IH]; [reflexivity|reflexivity|]. cbn [last]. cbn [last] in IH. rewrite IH. cbn [length Nat.sub nth]. now rewrite Nat.sub_0_r. Qed.
Lemma equal_middle lo hi n i : (i < n)%nat ->
  middle (map (fun i => (lo + INR i * ((hi - lo) / INR n))%R) (seq 0 (S n))) i = (lo + (INR i + 1/2) * ((hi - lo) / INR n))%R.
Proof.
  intro Hi. unfold middle. rewrite !(nth_map_in _ _ _ _ 0%nat) by (rewrite seq_length; lia). rewrite !seq_nth by lia. cbn [Nat.add]. rewrite S_INR. lra.
Qed.
Lemma fes_axis ex i : equal_bins ex -> (i < length ex - 1)%nat ->
  nth i (linspace (hd 0%R (centers ex)) (last (centers ex) 0%R) (length ex - 1)) 0%R = middle ex i.
Proof.
  intros (lo & hi & n & Hl & Hn & ->) Hi. rewrite hd_nth, last_nth. rewrite centers_length. rewrite map_length, seq_length in *. replace (S n - 1)%nat with n in * by lia.
  rewrite !centers_nth by (rewrite map_length, seq_length; lia). rewrite !equal_middle by lia. unfold linspace.
  rewrite (nth_map_in _ _ _ _ 0%nat) by (rewrite seq_length; lia). rewrite seq_nth by lia. cbn [Nat.add].
  assert (INR n <> 0)%R by (apply not_0_INR; lia).
  destruct (Nat.eq_dec n 1) as [->|N]; [replace i with 0%nat by lia; cbn; lra|].
  assert (INR (n - 1) <> 0)%R by (apply not_0_INR; lia). rewrite minus_INR in * by lia. cbn [INR] in *. field. auto.
Qed.
Lemma fes_lines_shows fe n h fes : (length (h_edges h) = 1 \/ length (h_edges h) = 2)%nat -> Forall equal_bins (h_edges h) ->
  length fes = prod_list (n_bins_of (h_edges h)) ->
  exists lines, fes_lines fe n h fes = Some lines /\ shows (h_edges h) fes lines.
Proof.
  intros He HE Hc. destruct (h_edges h) as [|ex [|ey [|? ?]]] eqn:E; cbn in He; try lia; cbn [n_bins_of map prod_list] in Hc.
  - apply Forall_inv in HE. eexists. unfold fes_lines. cbv zeta. unfold center_ranges, hist_axes. rewrite E. cbn [length map n_bins_of axes_of combine fst snd].
    rewrite grid_lines_1d by (unfold linspace; rewrite map_length, seq_length; cbn in Hc; lia). split; [reflexivity|]. eexists. split; [apply text_lines|].
    cbn in Hc. split; [lia|]. f_equal. replace (length fes) with (length ex - 1)%nat by lia.
    apply map_ext_in. intros i Hi. apply in_seq in Hi. rewrite fes_axis by (assumption || lia). reflexivity.
  - pose proof (Forall_inv HE) as Hx. pose proof (Forall_inv (Forall_inv_tail HE)) as Hy.
    unfold fes_lines. cbv zeta. unfold center_ranges, hist_axes. rewrite E. cbn [length map n_bins_of axes_of combine fst snd].
    set (ax := linspace (hd 0%R (centers ex)) _ _). set (ay := linspace (hd 0%R (centers ey)) _ _).
    assert (Lx : length ax = (length ex - 1)%nat) by (unfold ax, linspace; now rewrite map_length, seq_length).
    assert (Ly : length ay = (length ey - 1)%nat) by (unfold ay, linspace; now rewrite map_length, seq_length).
    assert (Ax : forall i, (i < length ex - 1)%nat -> nth i ax 0%R = middle ex i) by (intros; unfold ax; now apply fes_axis).
    assert (Ay : forall i, (i < length ey - 1)%nat -> nth i ay 0%R = middle ey i) by (intros; unfold ay; now apply fes_axis).
    clearbody ax ay. rewrite <- Lx, <- Ly. rewrite grid_lines_2d by (rewrite Lx, Ly; cbn in Hc; lia). eexists. split; [reflexivity|].
    eexists. split; [apply text_lines|]. cbv zeta. rewrite Lx, Ly. cbn in Hc. split; [lia|]. f_equal. f_equal.
    apply map_ext_in. intros i Hi. apply in_seq in Hi. apply map_ext_in. intros j Hj. apply in_seq in Hj.
    rewrite Ax, Ay by lia. reflexivity.
Qed.

(** np.histogram makes equal bins *)
Lemma edges_equal n r edges : bin_edges n r = Ok edges -> equal_bins edges /\ length edges = S n.
Proof.
  unfold bin_edges. destruct r as [lo hi]. destruct (Rlt_dec hi lo); [discriminate|]. destruct (Nat.eqb n 0) eqn:En; [discriminate|]. apply Nat.eqb_neq in En.
  assert (E : forall a b, (a < b)%R -> equal_bins (linspace a b (S n)) /\ length (linspace a b (S n)) = S n).
  { intros a b Hab. split; [|unfold linspace; now rewrite map_length, seq_length]. exists a, b, n. split; [exact Hab|]. split; [lia|]. unfold linspace.
    replace (S n - 1)%nat with n by lia. reflexivity. }
  destruct (Req_EM_T lo hi); intro H; apply ok_inj in H; subst edges; apply E; lra.
Qed.
Lemma mapM_edges : forall ns rs edges, mapM (fun nr => bin_edges (fst nr) (snd nr)) (combine ns rs) = Ok edges -> Forall equal_bins edges.
Proof.
  intros ns rs. induction (combine ns rs) as [|[n r] l IH]; intros edges H; cbn [mapM] in H; [apply ok_inj in H; subst; constructor|].
  apply bind_ok in H. destruct H as (e1 & H1 & H). apply bind_ok in H. destruct H as (es & H2 & H). apply ok_inj in H. subst edges.
  constructor; [|now apply IH]. eapply edges_equal. exact H1.
Qed.

(** * Sizes of the arrays in a run *)
Definition hist_size (E : list (list R)) (h : hist) : Prop := h_edges h = E /\ length (h_data h) = prod_list (n_bins_of E).
Definition ha_size (E : list (list R)) (ha : histact) : Prop :=
  hist_size E (ha_hist ha) /\ Forall (fun sd => length (snd sd) = prod_list (n_bins_of E)) (ha_written ha).
Lemma set_nth_len {A} (l : list A) v : forall k, length (set_nth l k v) = length l.
Proof. induction l as [|a l IH]; intros [|k]; cbn; auto. Qed.
Lemma histogramdd_size E s d : histogramdd E s = Ok d -> length d = prod_list (n_bins_of E).
Proof.
  unfold histogramdd. destruct (forallb _ s); [|discriminate]. intro H. apply ok_inj in H. subst d. unfold bincount.
  assert (G : forall z : list nat, length (fold_left (fun d s => match flat_index 0 E s with Some k => incr d k | None => d end) s z) = length z).
  { induction s as [|a s IH]; intro z; [reflexivity|]. cbn [fold_left]. rewrite IH. destruct (flat_index 0 E a); [|reflexivity]. apply set_nth_len. }
  rewrite G. apply repeat_length.
Qed.
Lemma hist_init_size n_bins ranges h : hist_init n_bins ranges = Ok h -> hist_size (h_edges h) h /\ Forall equal_bins (h_edges h).
Proof.
  unfold hist_init. intro H. apply bind_ok in H. destruct H as (u & _ & H). destruct (negb _); [discriminate|].
  apply bind_ok in H. destruct H as (E & HE & H). apply bind_ok in H. destruct H as (d & Hd & H). apply ok_inj in H. subst h. cbn [h_edges].
  split; [split; [reflexivity|]; eapply histogramdd_size; exact Hd|]. eapply mapM_edges. exact HE.
Qed.
Lemma hist_add_size E h s h' : hist_size E h -> hist_add h s = Ok h' -> hist_size E h'.
Proof.
  intros (He & Hl) H. unfold hist_add in H. apply bind_ok in H. destruct H as (d & Hd & H). apply ok_inj in H. subst h'. split; [exact He|]. cbn [h_data].
  rewrite He in Hd. apply histogramdd_size in Hd. rewrite map_length, combine_length. lia.
Qed.
Lemma ha_set_size E ha h : ha_size E ha -> hist_size E h -> ha_size E (ha_set_hist ha h).
Proof. intros (_ & H) Hh. split; assumption. Qed.
Lemma ha_write_size E ha s : ha_size E ha -> ha_size E (ha_write ha s).
Proof. intros (H1 & H2). unfold ha_write. destruct (ha_filename ha); [|split; assumption]. split; [exact H1|]. cbn [ha_written]. apply Forall_app. split; [exact H2|]. repeat constructor. apply H1. Qed.
Lemma ha_run_size E t ha k ha' : ha_size E ha -> ha_run t ha k = Ok ha' -> ha_size E ha'.
Proof.
  intros Hs H. unfold ha_run in H. destruct (_ =? 0); [discriminate|]. apply bind_ok in H. destruct H as (ha1 & H1 & H). cbv zeta in H. apply ok_inj in H.
  assert (S1 : ha_size E ha1).
  { destruct (_ =? 0) in H1; [|apply ok_inj in H1; now subst]. apply bind_ok in H1. destruct H1 as (d & _ & H1). apply bind_ok in H1. destruct H1 as (h & Hh & H1).
    apply ok_inj in H1. subst ha1. apply ha_set_size; [exact Hs|]. eapply hist_add_size; [apply Hs|exact Hh]. }
  set (ha2 := match ha_wstride ha1 with Some _ => _ | None => _ end) in *.
  assert (S2 : ha_size E ha2). { unfold ha2. destruct (ha_wstride ha1) as [ws|]; [|exact S1]. destruct (_ && _); [now apply ha_write_size|exact S1]. }
  subst ha'. destruct (existsb _ _); [|exact S2]. apply ha_set_size; [exact S2|]. destruct S2 as ((A & B) & _). split; [exact A|]. unfold hist_clear. cbn [h_data]. now rewrite map_length.
Qed.
Lemma ha_final_size E t ha k ha' : ha_size E ha -> ha_final_run t ha k = Ok ha' -> ha_size E ha'.
Proof.
  intros Hs H. unfold ha_final_run in H. apply bind_ok in H. destruct H as (d & _ & H). apply bind_ok in H. destruct H as (h & Hh & H). cbv zeta in H. apply ok_inj in H. subst ha'.
  assert (S1 : ha_size E (ha_set_hist ha h)) by (apply ha_set_size; [exact Hs|]; eapply hist_add_size; [apply Hs|exact Hh]).
  destruct (ha_filename ha); [now apply ha_write_size|exact S1].
Qed.
Lemma where_len kt junk : forall d i, length (where_zero kt d (masked_log i d junk)) = length d.
Proof. induction d as [|c d IH]; intro i; [reflexivity|]. cbn [masked_log where_zero length]. now rewrite IH. Qed.
Lemma calculate_len d kt m junk f : calculate_fes d kt m junk = Ok f -> length f = length d.
Proof.
  unfold calculate_fes. cbv zeta. destruct m; intro H.
  - apply bind_ok in H. destruct H as (mn & _ & H). destruct (negb _); [apply bind_ok in H; destruct H as (m2 & _ & H)|]; apply ok_inj in H; subst f; rewrite ?map_length; apply where_len.
  - apply ok_inj in H. subst f. apply where_len.
Qed.
Definition fa_size (N : nat) (fa : fesact) : Prop := length (fa_fes fa) = N /\ Forall (fun sd => length (snd sd) = N) (fa_written fa).
Lemma fa_write_size N fa s : fa_size N fa -> fa_size N (fa_write fa s).
Proof. intros (H1 & H2). unfold fa_write. destruct (fa_filename fa); [|split; assumption]. split; [exact H1|]. cbn [fa_written]. apply Forall_app. split; [exact H2|]. repeat constructor. exact H1. Qed.
Lemma fa_plot_size N fa s : fa_size N fa -> fa_size N (fa_plot fa s).
Proof. intros H. unfold fa_plot. destruct (fa_plotname fa); exact H. Qed.
Lemma fes_run_size N ha junk fa k fa' : fa_size N fa -> length (h_data (ha_hist ha)) = N -> fes_run ha junk fa k = Ok fa' -> fa_size N fa'.
Proof.
  intros Hs HN H. unfold fes_run in H. apply bind_ok in H. destruct H as (fa1 & H1 & H). cbv zeta in H. apply ok_inj in H.
  assert (S1 : fa_size N fa1).
  { destruct (stride_hit _ _) in H1; [|apply ok_inj in H1; now subst]. apply bind_ok in H1. destruct H1 as (f & Hf & H1). apply ok_inj in H1. subst fa1.
    apply calculate_len in Hf. split; [cbn [fa_set_fes fa_fes]; congruence|apply Hs]. }
  subst fa'. destruct (stride_hit (fa_wstride fa1) k); match goal with |- context [if ?b then _ else _] => destruct b end; auto using fa_write_size, fa_plot_size.
Qed.
Lemma fes_final_size N ha junk fa k fa' : fa_size N fa -> length (h_data (ha_hist ha)) = N -> fes_final_run ha junk fa k = Ok fa' -> fa_size N fa'.
Proof.
  intros Hs HN H. unfold fes_final_run in H. apply bind_ok in H. destruct H as (f & Hf & H). apply ok_inj in H. subst fa'.
  apply fa_plot_size, fa_write_size. apply calculate_len in Hf. split; [cbn [fa_set_fes fa_fes]; congruence|apply Hs].
Qed.

Section run.
Context (e : env) (fe : files_env) (cv : conv) (secs : list (string * section)) (acts : list action) (n : Z) (w0 w : world (e_rng e)) (c : config).
Hypothesis HS : set_up e cv secs acts n w0.
Hypothesis HF : main e cv (Some (Ok secs)) = Finished w.
Hypothesis HC : parse_all cv secs = Ok c.

Lemma run_setup_sizes h0 : w_hist w0 = Some h0 -> ha_size (h_edges (ha_hist h0)) h0 /\ Forall equal_bins (h_edges (ha_hist h0)).
Proof.
  intro E0. destruct (run_built e cv secs acts n w0 c HS HC) as (B & _).
  destruct (bu_hist _ _ _ B) as [N|(o & t & h & _ & _ & Hs & Eh)]; [congruence|]. rewrite E0 in Eh. injection Eh as <-.
  unfold setup_histogram in Hs. apply bind_ok in Hs. destruct Hs as ([rs bins] & _ & Hs). binds Hs. unfold ha_init in Hs.
  destruct (negb _); [discriminate|]. destruct (negb _) in Hs; [discriminate|]. apply bind_ok in Hs. destruct Hs as (h & Hh & Hs). destruct (_ && _); [discriminate|].
  apply ok_inj in Hs. subst h0. cbn [ha_hist]. destruct (hist_init_size _ _ _ Hh) as (S1 & S2). split; [|exact S2]. split; [exact S1|constructor].
Qed.
Lemma loop_sizes dt hist E : forall l st st', ha_size E (snd st) -> foldM (hist_step dt hist) l st = Ok st' -> ha_size E (snd st').
Proof.
  induction l as [|k l IH]; intros st st' Hs H; cbn [foldM] in H; [apply ok_inj in H; now subst|]. apply bind_ok in H. destruct H as (st1 & H1 & H).
  eapply IH; [|exact H]. unfold hist_step in H1. apply bind_ok in H1. destruct H1 as (t & _ & H1). apply bind_ok in H1. destruct H1 as (ha & Hr & H1). apply ok_inj in H1. subst st1.
  cbn [snd]. eapply ha_run_size; eassumption.
Qed.
Lemma run_sizes h : w_hist w = Some h ->
  ha_size (h_edges (ha_hist h)) h /\ Forall equal_bins (h_edges (ha_hist h)) /\
  forall f, w_fes w = Some f -> fa_size (prod_list (n_bins_of (h_edges (ha_hist h)))) f.
Proof.
  intro Eh. destruct (run_built e cv secs acts n w0 c HS HC) as (B & _).
  apply (main_composed _ _ _ _ _ _ HS) in HF. destruct HF as (D & hs & fs & _ & _ & _ & _ & _ & _ & Ch & Cf & _).
  destruct (w_hist w0) as [h0|] eqn:E0; [|congruence]. destruct Ch as (t0 & t & _ & _ & Ew & Hk & Hend). rewrite Eh in Ew. injection Ew as ->.
  destruct (run_setup_sizes h0 E0) as (S0 & Q0). set (E := h_edges (ha_hist h0)) in *.
  assert (SK : forall k, 0 <= k <= n -> ha_size E (hs k)).
  { intros k Hkn. destruct (Hk k Hkn) as (tk & Hl). exact (loop_sizes _ _ E _ (t0, h0) _ S0 Hl). }
  assert (SE : ha_size E (hs (n + 1))).
  { unfold hist_simulation in Hend. apply bind_ok in Hend. destruct Hend as ([t1 h1] & H1 & Hend). apply bind_ok in Hend. destruct Hend as (t2 & _ & Hend).
    apply bind_ok in Hend. destruct Hend as (ha & Hr & Hend). apply ok_inj in Hend. injection Hend as _ <-. cbn [fst snd] in Hr.
    eapply ha_final_size; [|exact Hr]. exact (loop_sizes _ _ E _ (t0, h0) _ S0 H1). }
  assert (EE : h_edges (ha_hist (hs (n + 1))) = E) by apply SE. rewrite EE. split; [exact SE|]. split; [exact Q0|].
  intros f Ef. destruct (bu_fes _ _ _ B) as [N|(of & h & f0 & _ & Eh0 & Hs & Ef0)].
  { rewrite N in Cf. congruence. }
  rewrite E0 in Eh0. injection Eh0 as <-. rewrite Ef0 in Cf. destruct Cf as (_ & Ew & _ & Sim). rewrite Ef in Ew. injection Ew as ->.
  set (N := prod_list (n_bins_of E)).
  assert (F0 : fa_size N f0).
  { unfold setup_fes in Hs. binds Hs. unfold fes_init in Hs. apply bind_ok in Hs. destruct Hs as (f & Hf & Hs).
    repeat match type of Hs with (if ?b then _ else _) = _ => destruct b; [discriminate|] end. apply ok_inj in Hs. subst f0.
    split; [|constructor]. cbn [fa_fes]. apply calculate_len in Hf. rewrite Hf. apply S0. }
  unfold fes_simulation in Sim. apply bind_ok in Sim. destruct Sim as (f1 & H1 & H2).
  eapply fes_final_size; [|apply SE|exact H2].
  assert (SZ : forall k, In k (zrange 1 (n + 1)) -> length (h_data (ha_hist (hs k))) = N) by (intros k Hin; apply in_zrange in Hin; apply SK; lia).
  clear - F0 H1 SZ. revert f0 F0 H1. induction (zrange 1 (n + 1)) as [|k l IH]; intros f0 F0 H1; cbn [foldM] in H1; [apply ok_inj in H1; now subst|].
  apply bind_ok in H1. destruct H1 as (f2 & E1 & H1). eapply IH; [intros; apply SZ; now right| |exact H1]. eapply fes_run_size; [exact F0|apply SZ; now left|exact E1].
Qed.

Lemma run_shows_hist h s counts : w_hist w = Some h -> (pot_ndim (ld_pot (w_ld w)) <= 2)%nat -> In (s, counts) (ha_written h) ->
  exists lines, In (stepped (file_opt (opts (c_histogram c)) "filename") s, Some lines) (histogram_files e fe c w) /\
    shows (h_edges (ha_hist h)) (map (fun k => Fin (INR k)) counts) lines.
Proof.
  intros Eh Hd Hin. destruct (run_sizes h Eh) as ((_ & SW) & _ & _). destruct (run_hist_dims e fe cv secs acts n w0 w c HS HF HC) as (HD & L).
  destruct (run_built e cv secs acts n w0 c HS HC) as (_ & D & _). rewrite <- L in D. specialize (HD h Eh).
  rewrite Forall_forall in SW. specialize (SW _ Hin). cbn [snd] in SW.
  destruct (hist_lines_shows fe (opts (c_histogram c)) (pot_ndim (ld_pot (w_ld w))) (ha_hist h) counts) as (lines & El & Sh); [rewrite HD; destruct D as [->|[->| D]]; lia|exact SW|].
  exists lines. split; [|exact Sh]. unfold histogram_files. rewrite Eh. apply in_map_iff. exists (s, counts). cbn [fst snd]. rewrite El. auto.
Qed.
Lemma run_shows_fes h f s fes : w_hist w = Some h -> w_fes w = Some f -> (pot_ndim (ld_pot (w_ld w)) <= 2)%nat -> In (s, fes) (fa_written f) ->
  exists lines, In (stepped (file_opt (opts (c_fes c)) "filename") s, Some lines) (fes_files e fe c w) /\
    shows (h_edges (ha_hist h)) fes lines.
Proof.
  intros Eh Ef Hd Hin. destruct (run_sizes h Eh) as (_ & SQ & SF). destruct (SF f Ef) as (_ & SW). destruct (run_hist_dims e fe cv secs acts n w0 w c HS HF HC) as (HD & L).
  destruct (run_built e cv secs acts n w0 c HS HC) as (_ & D & _). rewrite <- L in D. specialize (HD h Eh).
  rewrite Forall_forall in SW. specialize (SW _ Hin). cbn [snd] in SW.
  destruct (fes_lines_shows fe (pot_ndim (ld_pot (w_ld w))) (ha_hist h) fes) as (lines & El & Sh); [rewrite HD; destruct D as [->|[->| D]]; lia|exact SQ|exact SW|].
  exists lines. split; [|exact Sh]. unfold fes_files. rewrite Eh, Ef. apply in_map_iff. exists (s, fes). cbn [fst snd]. rewrite El. auto.
Qed.
Lemma run_no_files : pot_ndim (ld_pot (w_ld w)) = 3%nat -> forall name lines, In (name, lines) (histogram_files e fe c w ++ fes_files e fe c w) -> lines = None.
Proof.
  intros D name lines H. destruct (run_hist_dims e fe cv secs acts n w0 w c HS HF HC) as (HD & L). apply in_app_or in H. destruct H as [H|H].
  - unfold histogram_files in H. destruct (w_hist w) as [h|] eqn:Eh; [|destruct H]. apply in_map_iff in H. destruct H as (sd & H & _). injection H as _ <-. apply hist_lines_3d. rewrite (HD h Eh). lia.
  - unfold fes_files in H. destruct (w_hist w) as [h|] eqn:Eh; [|destruct H]. destruct (w_fes w); [|destruct H]. apply in_map_iff in H. destruct H as (sd & H & _). injection H as _ <-.
    apply fes_lines_3d. rewrite (HD h Eh). lia.
Qed.
End run.
