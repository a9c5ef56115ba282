(** Histogram counts *)
From Coq Require Import Lia Lra Sorted Permutation.
From Verif Require Import PyBase Model_dyn Model_hist Model_histaction Spec_box Spec_hist Spec_histact Proof_base Proof_pdist.
Ltac Zify.zify_post_hook ::= idtac.
Open Scope R_scope.

(** ** one dimension *)
Lemma searchsorted_spec e x : StronglySorted Rlt e -> forall j, (j < length e)%nat ->
  (nth j e 0 <= x <-> (j < searchsorted_right e x)%nat).
Proof.
  unfold searchsorted_right. induction 1 as [|a e H IH F]; cbn [length]; intros j Hj; [lia|].
  cbn [filter]. destruct (Rle_dec a x) as [Ha|Ha].
  - cbn [length]. destruct j as [|j]; cbn [nth]; [split; intros; [lia|assumption]|].
    rewrite IH by lia. lia.
  - assert (length (filter (fun e0 => if Rle_dec e0 x then true else false) e) = 0%nat) as E0.
    { clear IH H Hj. induction F as [|b e Hb F IHF]; cbn; [reflexivity|].
      destruct (Rle_dec b x); [lra|assumption]. }
    rewrite E0. split; [|lia]. intros Hx. exfalso.
    destruct j as [|j]; cbn [nth] in Hx; [lra|].
    rewrite Forall_forall in F. assert (a < nth j e 0) by (apply F, nth_In; lia). lra.
Qed.

Lemma searchsorted_le e x : (searchsorted_right e x <= length e)%nat.
Proof.
  unfold searchsorted_right. induction e as [|a e IH]; cbn; [lia|].
  destruct (Rle_dec a x); cbn; lia.
Qed.

Lemma last_nth {A} (l : list A) d : last l d = nth (length l - 1) l d.
Proof.
  induction l as [|a l IH]; [reflexivity|]. destruct l as [|b l]; [reflexivity|].
  change (last (a :: b :: l) d) with (last (b :: l) d). rewrite IH.
  cbn [length]. replace (S (S (length l)) - 1)%nat with (S (S (length l) - 1))%nat by lia. reflexivity.
Qed.

Lemma sorted_nth_lt e : StronglySorted Rlt e -> forall i j, (i < j < length e)%nat -> nth i e 0 < nth j e 0.
Proof.
  induction 1 as [|a e H IH F]; cbn [length]; intros i j Hij; [lia|].
  destruct j as [|j]; [lia|]. destruct i as [|i]; cbn [nth].
  - rewrite Forall_forall in F. apply F, nth_In; lia.
  - apply IH; lia.
Qed.

Lemma bin_of_spec e x i : edges_ok e -> (bin_of e x = Some i <-> in_bin e i x).
Proof.
  intros [Hs Hl]. unfold bin_of, in_bin. rewrite last_nth.
  pose proof (searchsorted_spec e x Hs) as SS. pose proof (searchsorted_le e x) as SL.
  set (c := searchsorted_right e x) in *.
  set (n := length e) in *.
  destruct (Req_EM_T x (nth (n - 1) e 0)) as [Ex|Nx].
  - (* on the last edge: all edges are <= x *)
    assert (c = n) as Ec.
    { assert (n - 1 < c)%nat; [|lia]. apply SS; [lia|]. lra. }
    rewrite Ec. replace (Nat.eqb (n - 1) 0) with false by (symmetry; apply Nat.eqb_neq; lia).
    replace (Nat.leb n (n - 1)) with false by (symmetry; apply Nat.leb_gt; lia).
    split.
    + intros [= <-]. split; [lia|]. split.
      * rewrite Ex. apply Rlt_le, sorted_nth_lt; [assumption|fold n; lia].
      * right. split; [lia|]. replace (S (n - 1 - 1)) with (n - 1)%nat by lia. assumption.
    + intros (Hi & H1 & [H2|[H2 _]]).
      * exfalso. assert (nth (S i) e 0 <= x); [|lra]. apply SS; lia.
      * f_equal; lia.
  - destruct (Nat.eqb_spec c 0) as [E0|N0].
    + split; [discriminate|]. intros (Hi & H1 & _). exfalso.
      apply SS in H1; lia.
    + destruct (Nat.leb_spec n c) as [Hc|Hc].
      * split; [discriminate|]. intros (Hi & H1 & [H2|[H2 H3]]); exfalso.
        -- assert (nth (S i) e 0 <= x); [|lra]. apply SS; lia.
        -- apply Nx. rewrite H3. f_equal; lia.
      * split.
        -- intros [= <-]. split; [lia|]. split; [apply SS; lia|]. left.
           apply Rnot_le_lt. intros Hle. apply SS in Hle; lia.
        -- intros (Hi & H1 & [H2|[H2 H3]]).
           ++ f_equal. apply SS in H1; [|lia].
              assert (~ (S i < c)%nat). { intros Hlt. apply SS in Hlt; [lra|lia]. }
              lia.
           ++ exfalso. apply Nx. rewrite H3. f_equal; lia.
Qed.

(** ** cells *)
Lemma flat_index_spec edges : Forall edges_ok edges -> forall acc pos k,
  length pos = length edges ->
  (flat_index acc edges pos = Some k <->
   exists idx, in_cell edges idx pos /\ k = row_major acc edges idx).
Proof.
  induction 1 as [|e es He Hes IH]; intros acc [|x pos] k Hl; cbn in Hl; try lia.
  - cbn. split.
    + intros [= <-]. exists []. split; [constructor|reflexivity].
    + intros (idx & Hi & ->). inversion Hi; subst. reflexivity.
  - cbn [flat_index]. destruct (bin_of e x) as [i|] eqn:Ei.
    + rewrite IH by lia. apply bin_of_spec in Ei; [|assumption]. split.
      * intros (idx & Hi & ->). exists (i :: idx). split; [constructor; assumption|reflexivity].
      * intros (idx & Hi & ->). inversion Hi as [|? ? i' is ? ? Hb Hc]; subst.
        exists is. split; [assumption|]. cbn.
        apply bin_of_spec in Hb; [|assumption]. apply bin_of_spec in Ei; [|assumption]. congruence.
    + split; [discriminate|]. intros (idx & Hi & ->). inversion Hi as [|? ? i' is ? ? Hb Hc]; subst.
      apply bin_of_spec in Hb; [|assumption]. congruence.
Qed.

Lemma in_cell_ok edges idx pos : in_cell edges idx pos -> cell_ok edges idx.
Proof. induction 1 as [|e es i is x xs Hb Hc IH]; constructor; [apply Hb|assumption]. Qed.

Lemma row_major_acc edges : forall acc idx, cell_ok edges idx ->
  row_major acc edges idx = (acc * n_cells edges + row_major 0 edges idx)%nat.
Proof.
  induction edges as [|e es IH]; intros acc idx H; inversion H as [|? i ? is Hi Hr]; subst; cbn.
  - lia.
  - rewrite (IH (acc * (length e - 1) + i)%nat) by assumption. rewrite (IH i) by assumption. lia.
Qed.

Lemma row_major_lt edges : forall idx, cell_ok edges idx -> (row_major 0 edges idx < n_cells edges)%nat.
Proof.
  induction edges as [|e es IH]; intros idx H; inversion H as [|? i ? is Hi Hr]; subst; cbn.
  - lia.
  - rewrite row_major_acc by assumption. specialize (IH is Hr).
    assert ((i + 1) * n_cells es <= (length e - 1) * n_cells es)%nat by (apply Nat.mul_le_mono_r; lia). lia.
Qed.

Lemma row_major_inj edges : forall idx1 idx2, cell_ok edges idx1 -> cell_ok edges idx2 ->
  row_major 0 edges idx1 = row_major 0 edges idx2 -> idx1 = idx2.
Proof.
  induction edges as [|e es IH]; intros idx1 idx2 H1 H2;
    inversion H1 as [|? i ? is Hi Hr]; inversion H2 as [|? j ? js Hj Hs]; subst; cbn; [reflexivity|].
  rewrite (row_major_acc es i), (row_major_acc es j) by assumption. intros E.
  pose proof (row_major_lt es is Hr) as L1. pose proof (row_major_lt es js Hs) as L2.
  assert (i = j) as ->.
  { assert (n_cells es <> 0)%nat by lia.
    assert (i = (i * n_cells es + row_major 0 es is) / n_cells es)%nat as E1.
    { rewrite Nat.div_add_l by assumption. rewrite Nat.div_small by assumption. lia. }
    assert (j = (j * n_cells es + row_major 0 es js) / n_cells es)%nat as E2.
    { rewrite Nat.div_add_l by assumption. rewrite Nat.div_small by assumption. lia. }
    rewrite E1, E2, E; reflexivity. }
  f_equal. apply IH; auto. lia.
Qed.

Lemma row_major_surj edges : Forall edges_ok edges -> forall k, (k < n_cells edges)%nat ->
  exists idx, cell_ok edges idx /\ row_major 0 edges idx = k.
Proof.
  induction 1 as [|e es [_ He] Hes IH]; intros k Hk; cbn in Hk.
  - exists []. split; [constructor|cbn; lia].
  - assert (n_cells es <> 0)%nat by (intros E; rewrite E in Hk; lia).
    destruct (IH (k mod n_cells es)%nat) as (is & Hi & Er); [apply Nat.mod_upper_bound; assumption|].
    exists ((k / n_cells es)%nat :: is). split.
    + constructor; [|assumption].
      assert (k / n_cells es < length e - 1)%nat; [|lia]. apply Nat.div_lt_upper_bound; [assumption|lia].
    + cbn. rewrite row_major_acc, Er by assumption. rewrite Nat.mul_comm. symmetry. apply Nat.div_mod. assumption.
Qed.

Lemma prod_nbins edges : prod_list (n_bins_of edges) = n_cells edges.
Proof. induction edges as [|e es IH]; [reflexivity|]. cbn [n_cells]. rewrite <- IH. reflexivity. Qed.

(** ** bincount *)
Lemma incr_length d k : length (incr d k) = length d.
Proof. apply set_nth_length. Qed.

Lemma incr_nth d k j : (j < length d)%nat ->
  nth j (incr d k) 0%nat = (nth j d 0 + (if Nat.eqb k j then 1 else 0))%nat.
Proof.
  intros Hj. unfold incr. destruct (Nat.eqb_spec k j) as [->|N].
  - erewrite nth_error_nth; [|apply nth_error_set_nth_eq; assumption]. lia.
  - destruct (nth_error d j) as [v|] eqn:E; [|apply nth_error_None in E; lia].
    erewrite nth_error_nth; [|rewrite nth_error_set_nth_neq by congruence; exact E].
    rewrite (nth_error_nth _ _ _ E). lia.
Qed.

Lemma bincount_length edges samples d : length (bincount edges samples d) = length d.
Proof.
  revert d; induction samples as [|s ss IH]; intros d; cbn; [reflexivity|].
  unfold bincount in IH. rewrite IH. destruct (flat_index 0 edges s); [apply incr_length|reflexivity].
Qed.

Lemma bincount_nth edges samples : forall d j, (j < length d)%nat ->
  exists c, counts (fun s => flat_index 0 edges s = Some j) samples c /\
    nth j (bincount edges samples d) 0%nat = (nth j d 0 + c)%nat.
Proof.
  induction samples as [|s ss IH]; intros d j Hj; cbn.
  - exists 0%nat. split; [constructor|lia].
  - destruct (flat_index 0 edges s) as [k|] eqn:Ek.
    + destruct (IH (incr d k) j) as (c & Hc & E); [rewrite incr_length; assumption|].
      unfold bincount in E. rewrite E, incr_nth by assumption.
      destruct (Nat.eqb_spec k j) as [->|N].
      * exists (S c). split; [constructor; assumption|lia].
      * exists c. split; [constructor; [congruence|assumption]|lia].
    + destruct (IH d j Hj) as (c & Hc & E). unfold bincount in E. rewrite E.
      exists c. split; [constructor; [congruence|assumption]|lia].
Qed.

Lemma counts_ext {A} (P Q : A -> Prop) l n :
  (forall x, In x l -> (P x <-> Q x)) -> counts P l n -> counts Q l n.
Proof.
  intros H Hc; induction Hc as [|x l n Px Hc IH|x l n Px Hc IH].
  - constructor.
  - constructor; [apply H; [now left|assumption]|apply IH; intros; apply H; now right].
  - constructor; [intros Qx; apply Px, H; [now left|assumption]|apply IH; intros; apply H; now right].
Qed.

Lemma histogramdd_spec edges samples :
  Forall edges_ok edges -> Forall (fun s => length s = length edges) samples ->
  exists tmp, histogramdd edges samples = Ok tmp /\ length tmp = n_cells edges /\
    forall idx, cell_ok edges idx ->
      counts (in_cell edges idx) samples (nth (cell_pos edges idx) tmp 0%nat).
Proof.
  intros He Hs. unfold histogramdd.
  replace (forallb _ samples) with true.
  2:{ symmetry. apply forallb_forall. intros s Hin. rewrite Forall_forall in Hs.
      apply Nat.eqb_eq. auto. }
  eexists; split; [reflexivity|]. split.
  - rewrite bincount_length, repeat_length. apply prod_nbins.
  - intros idx Hi. pose proof (row_major_lt edges idx Hi) as Hlt.
    destruct (bincount_nth edges samples (repeat 0%nat (prod_list (n_bins_of edges))) (cell_pos edges idx))
      as (c & Hc & ->).
    { rewrite repeat_length, prod_nbins. exact Hlt. }
    rewrite nth_repeat. cbn [Nat.add].
    apply (counts_ext (fun s => flat_index 0 edges s = Some (cell_pos edges idx))); [|assumption].
    intros s Hin. rewrite Forall_forall in Hs.
    rewrite flat_index_spec by auto. split.
    + intros (idx' & Hc' & E). apply row_major_inj in E; auto; [subst; assumption|].
      eapply in_cell_ok; eassumption.
    + intros Hcell. exists idx; auto.
Qed.

(** a sample of wrong dimension is rejected *)
Lemma histogramdd_dim edges samples s :
  In s samples -> length s <> length edges -> histogramdd edges samples = Err ValueError.
Proof.
  intros Hin Hl. unfold histogramdd. replace (forallb _ samples) with false; [reflexivity|].
  symmetry. apply not_true_iff_false. intros H. rewrite forallb_forall in H.
  specialize (H s Hin). apply Nat.eqb_eq in H. congruence.
Qed.

(** ** histograms *)

Lemma sum_combine_nth d tmp k : length d = length tmp -> (k < length d)%nat ->
  nth k (map (fun ab => (fst ab + snd ab)%nat) (combine d tmp)) 0%nat = (nth k d 0 + nth k tmp 0)%nat.
Proof.
  intros Hl Hk. set (g := fun ab : nat * nat => (fst ab + snd ab)%nat).
  change 0%nat with (g (0, 0)%nat) at 1. rewrite map_nth, combine_nth by assumption. reflexivity.
Qed.

Lemma hist_add_spec h samples :
  hist_ok h -> Forall (fun s => length s = length (h_edges h)) samples ->
  exists h', hist_add h samples = Ok h' /\ hist_ok h' /\ h_edges h' = h_edges h /\
    forall idx, cell_ok (h_edges h) idx ->
      exists c, counts (in_cell (h_edges h) idx) samples c /\
        nth (cell_pos (h_edges h) idx) (h_data h') 0%nat
        = (nth (cell_pos (h_edges h) idx) (h_data h) 0 + c)%nat.
Proof.
  intros [He Hl] Hs. destruct (histogramdd_spec (h_edges h) samples) as (tmp & E & Ht & Hc); auto.
  unfold hist_add. rewrite E. cbn [bind]. eexists; split; [reflexivity|]. split; [split|split].
  - exact He.
  - cbn. rewrite map_length, combine_length. lia.
  - reflexivity.
  - intros idx Hi. exists (nth (cell_pos (h_edges h) idx) tmp 0%nat). split; [auto|]. cbn [h_data].
    apply sum_combine_nth; [congruence|]. rewrite Hl. apply row_major_lt; assumption.
Qed.

(** equality of well-formed data from the cells *)
Lemma data_ext edges d1 d2 :
  Forall edges_ok edges -> length d1 = n_cells edges -> length d2 = n_cells edges ->
  (forall idx, cell_ok edges idx -> nth (cell_pos edges idx) d1 0%nat = nth (cell_pos edges idx) d2 0%nat) ->
  d1 = d2.
Proof.
  intros He H1 H2 H. apply nth_ext with (d := 0%nat) (d' := 0%nat); [congruence|].
  intros k Hk. rewrite H1 in Hk. destruct (row_major_surj edges He k Hk) as (idx & Hi & <-).
  apply H; assumption.
Qed.

Lemma counts_app {A} (P : A -> Prop) l1 l2 n1 n2 :
  counts P l1 n1 -> counts P l2 n2 -> counts P (l1 ++ l2) (n1 + n2).
Proof. induction 1; intros; cbn; [assumption| |]; constructor; auto. Qed.

Lemma counts_perm {A} (P : A -> Prop) l1 l2 n : Permutation l1 l2 -> counts P l1 n -> counts P l2 n.
Proof.
  intros Hp; revert n; induction Hp as [|x l1 l2 Hp IH|x y l|l1 l2 l3 H1 IH1 H2 IH2]; intros n Hc; auto.
  - inversion Hc; subst; constructor; auto.
  - inversion Hc; subst; match goal with H : counts _ (_ :: l) _ |- _ => inversion H; subst end;
      repeat first [apply counts_yes; [assumption|] | apply counts_no; [assumption|]]; assumption.
Qed.

Lemma hist_add_app h s1 s2 h1 :
  hist_ok h -> Forall (fun s => length s = length (h_edges h)) s1 ->
  Forall (fun s => length s = length (h_edges h)) s2 ->
  hist_add h s1 = Ok h1 -> hist_add h1 s2 = hist_add h (s1 ++ s2).
Proof.
  intros Hok Hs1 Hs2 E1.
  destruct (hist_add_spec h s1) as (h1' & E1' & Hok1 & Ee1 & Hc1); auto.
  rewrite E1 in E1'; injection E1' as <-.
  destruct (hist_add_spec h1 s2) as (h2 & E2 & Hok2 & Ee2 & Hc2); auto; [rewrite Ee1; assumption|].
  destruct (hist_add_spec h (s1 ++ s2)) as (h3 & E3 & Hok3 & Ee3 & Hc3); auto.
  { apply Forall_app; auto. }
  rewrite E2, E3. f_equal.
  destruct h2 as [e2 d2], h3 as [e3 d3]. cbn in *. subst e3. rewrite Ee1 in Ee2. subst e2. f_equal.
  apply (data_ext (h_edges h)); [apply Hok| | |].
  - apply Hok2.
  - apply Hok3.
  - intros idx Hi. rewrite Ee1 in Hc2.
    destruct (Hc1 idx Hi) as (c1 & C1 & N1). destruct (Hc2 idx Hi) as (c2 & C2 & N2).
    destruct (Hc3 idx Hi) as (c3 & C3 & N3).
    rewrite N2, N3, N1. pose proof (counts_fun _ _ _ _ C3 (counts_app _ _ _ _ _ C1 C2)). lia.
Qed.

Lemma hist_add_perm h s1 s2 :
  hist_ok h -> Forall (fun s => length s = length (h_edges h)) s1 ->
  Permutation s1 s2 -> hist_add h s1 = hist_add h s2.
Proof.
  intros Hok Hs1 Hp.
  assert (Forall (fun s => length s = length (h_edges h)) s2) as Hs2.
  { rewrite Forall_forall in *. intros s Hin. apply Hs1. now apply Permutation_in with (l := s2); [apply Permutation_sym|]. }
  destruct (hist_add_spec h s1) as (h1 & E1 & Hok1 & Ee1 & Hc1); auto.
  destruct (hist_add_spec h s2) as (h2 & E2 & Hok2 & Ee2 & Hc2); auto.
  rewrite E1, E2. f_equal. destruct h1 as [e1 d1], h2 as [e2 d2]. cbn in *. subst e1 e2. f_equal.
  apply (data_ext (h_edges h)); [apply Hok|apply Hok1|apply Hok2|].
  intros idx Hi. destruct (Hc1 idx Hi) as (c1 & C1 & N1). destruct (Hc2 idx Hi) as (c2 & C2 & N2).
  rewrite N1, N2. pose proof (counts_fun _ _ _ _ C2 (counts_perm _ _ _ _ Hp C1)). lia.
Qed.

Lemma hist_clear_spec h : hist_ok h ->
  hist_ok (hist_clear h) /\ h_edges (hist_clear h) = h_edges h /\
  length (h_data (hist_clear h)) = length (h_data h) /\
  forall k, nth k (h_data (hist_clear h)) 0%nat = 0%nat.
Proof.
  intros [He Hl]. unfold hist_clear, hist_ok; cbn. rewrite map_length. repeat split; auto.
  intros k. clear Hl. revert k; induction (h_data h) as [|x l IH]; intros [|k]; cbn; auto.
Qed.

(** ** edges *)
Lemma linspace_length lo hi n : length (linspace lo hi n) = n.
Proof. unfold linspace; now rewrite map_length, seq_length. Qed.

Lemma linspace_nth lo hi n i : (i < n)%nat ->
  nth i (linspace lo hi n) 0 = lo + INR i * ((hi - lo) / INR (n - 1)).
Proof.
  intros Hi. unfold linspace.
  set (f := fun i => lo + INR i * ((hi - lo) / INR (n - 1))).
  rewrite nth_indep with (d' := f 0%nat) by (rewrite map_length, seq_length; assumption).
  rewrite map_nth, seq_nth by assumption. reflexivity.
Qed.

Lemma sorted_of_nth e : (forall i j, (i < j < length e)%nat -> nth i e 0 < nth j e 0) -> StronglySorted Rlt e.
Proof.
  induction e as [|a e IH]; intros H; constructor.
  - apply IH. intros i j Hij. apply (H (S i) (S j)). cbn; lia.
  - apply Forall_forall. intros x Hx. destruct (In_nth e x 0 Hx) as (j & Hj & <-).
    apply (H 0%nat (S j)). cbn; lia.
Qed.

Lemma linspace_ok lo hi n : lo < hi -> (0 < n)%nat -> edges_ok (linspace lo hi (S n)).
Proof.
  intros Hlt Hn. split; [|rewrite linspace_length; lia].
  apply sorted_of_nth. rewrite linspace_length. intros i j Hij.
  rewrite !linspace_nth by lia. replace (S n - 1)%nat with n by lia.
  assert (0 < (hi - lo) / INR n).
  { apply Rdiv_lt_0_compat; [lra|]. now apply lt_0_INR. }
  assert (INR i < INR j) by (apply lt_INR; lia).
  assert (INR i * ((hi - lo) / INR n) < INR j * ((hi - lo) / INR n)) by (apply Rmult_lt_compat_r; assumption).
  lra.
Qed.

Lemma linspace_first lo hi n : (0 < n)%nat -> nth 0 (linspace lo hi n) 0 = lo.
Proof. intros. rewrite linspace_nth by assumption. cbn. lra. Qed.

Lemma linspace_last lo hi n : (1 < n)%nat -> nth (n - 1) (linspace lo hi n) 0 = hi.
Proof.
  intros. rewrite linspace_nth by lia. assert (INR (n - 1) <> 0) by (apply not_0_INR; lia).
  field. assumption.
Qed.

(** [in_range e x]: x is within the outer edges *)
Definition in_range (e : list R) (x : R) : Prop := nth 0 e 0 <= x <= nth (length e - 1) e 0.

Lemma in_range_bin e x : edges_ok e -> in_range e x -> exists i, in_bin e i x.
Proof.
  intros He [H1 H2]. destruct (bin_of e x) as [i|] eqn:E.
  - exists i. apply bin_of_spec; assumption.
  - exfalso. unfold bin_of in E. rewrite last_nth in E. destruct He as [Hs Hl].
    pose proof (searchsorted_spec e x Hs) as SS. pose proof (searchsorted_le e x) as SL.
    set (c := searchsorted_right e x) in *.
    apply SS in H1; [|lia].
    destruct (Req_EM_T x (nth (length e - 1) e 0)) as [Ex|Nx].
    + assert (length e - 1 < c)%nat by (apply SS; [lia|lra]).
      destruct (Nat.eqb_spec (c - 1) 0); [lia|]. destruct (Nat.leb_spec (length e) (c - 1)); [lia|discriminate].
    + destruct (Nat.eqb_spec c 0); [lia|]. destruct (Nat.leb_spec (length e) c); [|discriminate].
      assert (nth (length e - 1) e 0 <= x) by (apply SS; lia). lra.
Qed.

Lemma in_bin_range e i x : edges_ok e -> in_bin e i x -> in_range e x.
Proof.
  intros [Hs Hl] (Hi & H1 & H2). split.
  - destruct i as [|i]; [assumption|]. apply Rle_trans with (nth (S i) e 0); [|assumption].
    apply Rlt_le, sorted_nth_lt; [assumption|lia].
  - assert (x <= nth (S i) e 0) by (destruct H2 as [H2|[_ H2]]; lra).
    destruct (Nat.eq_dec (S i) (length e - 1)) as [E|N]; [rewrite <- E; assumption|].
    assert (nth (S i) e 0 < nth (length e - 1) e 0) by (apply sorted_nth_lt; [assumption|lia]). lra.
Qed.

(** ** construction *)
Lemma Forall2_len {A B} (P : A -> B -> Prop) l1 l2 : Forall2 P l1 l2 -> length l1 = length l2.
Proof. induction 1; cbn; congruence. Qed.

Lemma bin_edges_spec n r : (0 < n)%nat -> fst r < snd r ->
  exists e, bin_edges n r = Ok e /\ edges_ok e /\ uniform_edges n r e.
Proof.
  destruct r as [lo hi]; cbn [fst snd]. intros Hn Hlt. unfold bin_edges.
  destruct (Rlt_dec hi lo); [lra|]. destruct (Nat.eqb_spec n 0); [lia|].
  destruct (Req_EM_T lo hi); [lra|]. eexists; split; [reflexivity|]. split.
  - apply linspace_ok; assumption.
  - split; [apply linspace_length|]. intros i Hi. rewrite linspace_nth by lia.
    replace (S n - 1)%nat with n by lia. reflexivity.
Qed.

Lemma stepsizes_bins ranges : forall n_bins, length n_bins = length ranges -> Forall (fun n => (0 < n)%nat) n_bins ->
  exists l, stepsizes_from_npoints ranges (map S n_bins) = Ok l.
Proof.
  induction ranges as [|r rs IH]; intros [|n ns] Hl Hn; cbn in *; try discriminate; [eauto|].
  inversion Hn; subst. destruct (IH ns) as (l & ->); [congruence|assumption|].
  destruct (Nat.eqb_spec n 0) as [|N]; [lia|]. cbn. eauto.
Qed.

Lemma hist_init_spec n_bins ranges :
  length n_bins = length ranges ->
  Forall (fun n => (0 < n)%nat) n_bins -> Forall (fun r => fst r < snd r) ranges ->
  exists h, hist_init n_bins ranges = Ok h /\ hist_ok h /\
    Forall2 (fun nr e => uniform_edges (fst nr) (snd nr) e) (combine n_bins ranges) (h_edges h) /\
    length (h_edges h) = length ranges /\
    forall idx, cell_ok (h_edges h) idx ->
      counts (in_cell (h_edges h) idx) [repeat 0 (length ranges)]
        (nth (cell_pos (h_edges h) idx) (h_data h) 0%nat).
Proof.
  intros Hl Hn Hr. unfold hist_init. destruct (stepsizes_bins ranges n_bins Hl Hn) as (st & ->). cbn [bind].
  rewrite Hl, Nat.eqb_refl. cbn [negb].
  assert (exists es, mapM (fun nr => bin_edges (fst nr) (snd nr)) (combine n_bins ranges) = Ok es /\
     Forall2 (fun nr e => edges_ok e /\ uniform_edges (fst nr) (snd nr) e) (combine n_bins ranges) es) as (es & E & F).
  { apply mapM_spec. intros [n r] Hin. apply bin_edges_spec; cbn [fst snd].
    - apply in_combine_l in Hin. rewrite Forall_forall in Hn; auto.
    - apply in_combine_r in Hin. rewrite Forall_forall in Hr; auto. }
  rewrite E. cbn [bind].
  assert (length es = length ranges) as Le.
  { apply Forall2_len in F. rewrite combine_length in F. lia. }
  assert (Forall edges_ok es) as Ho.
  { clear -F. induction F as [|? ? ? ? [H _] _ IH]; constructor; assumption. }
  destruct (histogramdd_spec es [repeat 0 (length ranges)]) as (tmp & -> & Ht & Hc); auto.
  { constructor; [|constructor]. rewrite repeat_length; auto. }
  cbn [bind]. eexists; split; [reflexivity|]. split; [split; assumption|]. split.
  - cbn. clear -F. induction F as [|? ? ? ? [_ H] _ IH]; constructor; assumption.
  - split; [exact Le|exact Hc].
Qed.

Lemma in_cell_exists es pos : Forall edges_ok es -> Forall2 in_range es pos ->
  exists idx, in_cell es idx pos.
Proof.
  intros Ho F. induction F as [|e x es pos Hx F IH]; [exists []; constructor|].
  inversion Ho; subst. destruct IH as (idx & Hi); [assumption|].
  destruct (in_range_bin e x) as (i & Hb); auto. exists (i :: idx). constructor; assumption.
Qed.

Lemma in_cell_range es idx pos : Forall edges_ok es -> in_cell es idx pos -> Forall2 in_range es pos.
Proof.
  intros Ho F. induction F as [|e es i is x xs Hb F IH]; constructor.
  - eapply in_bin_range; [|eassumption]. now inversion Ho.
  - apply IH. now inversion Ho.
Qed.

Lemma in_cell_fun es idx1 idx2 pos : Forall edges_ok es -> in_cell es idx1 pos -> in_cell es idx2 pos -> idx1 = idx2.
Proof.
  intros Ho H; revert idx2; induction H as [|e es i is x xs Hb F IH]; intros idx2 H2; inversion H2; subst; [reflexivity|].
  inversion Ho; subst. f_equal; [|auto].
  apply bin_of_spec in Hb; [|assumption].
  match goal with H : in_bin _ _ _ |- _ => apply bin_of_spec in H; [|assumption] end. congruence.
Qed.

Lemma uniform_in_range n r e x : (0 < n)%nat -> uniform_edges n r e ->
  (in_range e x <-> fst r <= x <= snd r).
Proof.
  intros Hn [Hl Hu]. unfold in_range. rewrite Hl. replace (S n - 1)%nat with n by lia.
  rewrite !Hu by lia. replace (fst r + INR n * ((snd r - fst r) / INR n)) with (snd r).
  - cbn [INR]. replace (fst r + 0 * ((snd r - fst r) / INR n)) with (fst r) by lra. reflexivity.
  - field. apply not_0_INR. lia.
Qed.

Lemma uniform_ranges n_bins ranges es :
  length n_bins = length ranges -> Forall (fun n => (0 < n)%nat) n_bins ->
  Forall2 (fun nr e => uniform_edges (fst nr) (snd nr) e) (combine n_bins ranges) es ->
  forall pos, Forall2 in_range es pos <-> in_box ranges pos.
Proof.
  revert ranges es; induction n_bins as [|n ns IH]; intros [|r rs] es Hl Hn F pos; cbn in Hl; try lia.
  - inversion F; subst. unfold in_box. split.
    + intros H; inversion H; subst. split; [reflexivity|]. cbn; intros; lia.
    + intros [H _]. destruct pos; [constructor|cbn in H; lia].
  - cbn [combine] in F. inversion F as [|? e ? es' He F' ]; subst. cbn [fst snd] in He.
    inversion Hn as [|? ? Hn0 Hns]; subst.
    specialize (IH rs es' ltac:(lia) Hns F').
    split.
    + intros H; inversion H as [|? x ? xs Hx H']; subst. apply IH in H' as [L B]. split; [cbn; lia|].
      intros [|d] Hd; cbn [nth]; [apply (uniform_in_range n r e x); assumption|]. apply B. cbn in Hd; lia.
    + intros [L B]. destruct pos as [|x xs]; [cbn in L; lia|]. constructor.
      * apply (uniform_in_range n r e x); auto. apply (B 0%nat). cbn; lia.
      * apply IH. split; [cbn in L; lia|]. intros d Hd. apply (B (S d)). cbn; lia.
Qed.

Lemma counts_one {A} (P : A -> Prop) x n : counts P [x] n -> (P x -> n = 1%nat) /\ (~ P x -> n = 0%nat).
Proof.
  intros H; inversion H as [|? ? ? Px Hc|? ? ? Px Hc]; subst; inversion Hc; subst; split; tauto.
Qed.

(** the counts of a fresh histogram *)
Lemma hist_init_counts n_bins ranges :
  length n_bins = length ranges ->
  Forall (fun n => (0 < n)%nat) n_bins -> Forall (fun r => fst r < snd r) ranges ->
  exists h, hist_init n_bins ranges = Ok h /\ hist_ok h /\
    Forall2 (fun nr e => uniform_edges (fst nr) (snd nr) e) (combine n_bins ranges) (h_edges h) /\
    (in_box ranges (repeat 0 (length ranges)) ->
     exists i0, cell_ok (h_edges h) i0 /\ in_cell (h_edges h) i0 (repeat 0 (length ranges)) /\
       nth (cell_pos (h_edges h) i0) (h_data h) 0%nat = 1%nat /\
       forall idx, cell_ok (h_edges h) idx -> idx <> i0 ->
         nth (cell_pos (h_edges h) idx) (h_data h) 0%nat = 0%nat) /\
    (~ in_box ranges (repeat 0 (length ranges)) ->
     forall k, nth k (h_data h) 0%nat = 0%nat).
Proof.
  intros Hl Hn Hr. destruct (hist_init_spec n_bins ranges) as (h & E & Hok & Hu & Le & Hc); auto.
  exists h. split; [assumption|]. split; [assumption|]. split; [assumption|]. destruct Hok as [Ho Hd]. split.
  - intros Hb. apply (uniform_ranges n_bins ranges (h_edges h)) in Hb; auto.
    destruct (in_cell_exists _ _ Ho Hb) as (i0 & Hi). exists i0.
    pose proof (in_cell_ok _ _ _ Hi) as Hci. split; [assumption|]. split; [assumption|]. split.
    + apply (counts_one _ _ _ (Hc i0 Hci)). assumption.
    + intros idx Hx Hne. apply (counts_one _ _ _ (Hc idx Hx)). intros Hin. apply Hne.
      eapply in_cell_fun; eassumption.
  - intros Hb k. destruct (Nat.lt_ge_cases k (length (h_data h))) as [Hk|Hk].
    + rewrite Hd in Hk. destruct (row_major_surj _ Ho k Hk) as (idx & Hi & <-).
      apply (counts_one _ _ _ (Hc idx Hi)). intros Hin. apply Hb.
      apply (uniform_ranges n_bins ranges (h_edges h)); auto. eapply in_cell_range; eassumption.
    + apply nth_overflow; assumption.
Qed.
