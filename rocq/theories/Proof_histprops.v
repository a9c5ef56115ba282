(** C05, C06, C09: the complete runs *)
From Coq Require Import Lia Lra ZifyBool ZifyNat.
From Verif Require Import PyBase Model_valid Model_dyn Model_traj Model_hist Model_histaction
  Spec_times Spec_box Spec_hist Spec_traj Spec_trajrun Spec_histact
  Proof_base Proof_valid Proof_ring Proof_traj Proof_trajrun Proof_pdist Proof_hist Proof_histact.
Ltac Zify.zify_post_hook ::= idtac.
Open Scope R_scope.

Section Run.
Context (dt : R) (hist : Z -> list particle) (fn : bool) (np : nat) (stride : option Z) (momentum : bool)
  (wstride : option Z) (times0 : list R) (pos0 mom0 : list (list vec)) (n_bins : list nat)
  (ranges : list (R * R)) (hstride : option Z) (reset : option (list Z)) (hfn : bool) (hws : option Z).

Let start := hist_start fn np stride momentum wstride times0 pos0 mom0 n_bins ranges hstride reset hfn hws.
Let W := option_or wstride 100.
Let s := option_or hstride 1.
Let resets := match reset with Some l => l | None => [] end.
Let origin := repeat 0 (length ranges).

Hypothesis Hacc : hist_accepted hist np stride wstride times0 pos0 mom0 n_bins ranges hstride hfn hws.

Lemma hist_loop_exact n : (0 <= n)%Z ->
  exists st0 t ha, start = Ok st0 /\ hist_loop dt hist n st0 = Ok (t, ha) /\
    traj_any fn dt W (option_or stride 1) np momentum hist t n /\
    ha_inv fn W s hist (h_edges (ha_hist ha)) resets hws hfn ha n /\
    Forall edges_ok (h_edges (ha_hist ha)) /\ length (h_edges (ha_hist ha)) = length ranges /\
    bins_of n_bins ranges (h_edges (ha_hist ha)).
Proof.
  intros Hn. destruct Hacc. destruct hy_bins as [Hb1 Hb2].
  set (t0 := traj_init np stride fn momentum wstride times0 pos0 mom0).
  pose proof (option_or_pos wstride 100 hy_wstride ltac:(lia)) as HW.
  pose proof (option_or_pos stride 1 hy_stride ltac:(lia)) as Hst.
  pose proof (option_or_pos hstride 1 hy_hstride ltac:(lia)) as Hs.
  assert (traj_any fn dt W (option_or stride 1) np momentum hist t0 0) as Ht0.
  { apply traj_any_init; auto. }
  destruct (ha_init_inv fn W s hist t0 n_bins ranges hstride reset hfn hws)
    as (ha0 & E0 & Ho & Le & Hu & Hi0); auto.
  { apply Ht0. }
  { apply option_or_orZ; assumption. }
  { intros z Hz. apply (hy_hws z Hz). }
  { destruct hws as [w|]; [intros _; apply (hy_hws w eq_refl)|congruence]. }
  destruct (hist_loop_inv fn dt W (option_or stride 1) s np momentum hist (h_edges (ha_hist ha0)) resets hws hfn t0 ha0 n)
    as (t & ha & E & Ht & Hi); auto.
  { intros j; apply hy_hist. }
  { intros j. rewrite Le. apply hy_hist. }
  exists (t0, ha0), t, ha. split.
  { unfold start, hist_start. fold t0. rewrite E0. reflexivity. }
  split; [assumption|]. split; [assumption|].
  rewrite (hi_edges _ _ _ _ _ _ _ _ _ _ Hi). auto.
Qed.

Lemma hist_during n : (0 <= n)%Z ->
  exists st0 t ha, start = Ok st0 /\ hist_loop dt hist n st0 = Ok (t, ha) /\
    bins_of n_bins ranges (h_edges (ha_hist ha)) /\
    data_holds (h_edges (ha_hist ha)) (content fn W s hist origin resets n n) (h_data (ha_hist ha)) /\
    written_ok fn W s hist origin resets hws (h_edges (ha_hist ha)) n (ha_written ha).
Proof.
  intros Hn. destruct (hist_loop_exact n Hn) as (st0 & t & ha & E0 & E & Ht & [] & Ho & Le & Hu).
  exists st0, t, ha. rewrite Le in *. repeat (split; [assumption|]). unfold written_ok. assumption.
Qed.

Lemma hist_after n : (0 < n)%Z ->
  exists st0 t ha, start = Ok st0 /\ hist_simulation dt hist n st0 = Ok (t, ha) /\
    bins_of n_bins ranges (h_edges (ha_hist ha)) /\
    data_holds (h_edges (ha_hist ha))
      (content fn W s hist origin resets n n ++ sampled hist (final_batch fn W s n)) (h_data (ha_hist ha)) /\
    exists files, written_ok fn W s hist origin resets hws (h_edges (ha_hist ha)) n files /\
      ha_written ha = files ++ (if hfn then [(None, h_data (ha_hist ha))] else []).
Proof.
  intros Hn. destruct (hist_loop_exact n ltac:(lia)) as (st0 & t & ha & E0 & E & Ht & Hi & Ho & Le & Hu).
  destruct Hacc.
  pose proof (option_or_pos wstride 100 hy_wstride ltac:(lia)) as HW.
  pose proof (option_or_pos stride 1 hy_stride ltac:(lia)) as Hst.
  pose proof (option_or_pos hstride 1 hy_hstride ltac:(lia)) as Hs.
  destruct (traj_any_final fn dt W (option_or stride 1) np momentum hist t n) as (t' & E' & Ht' & Hlw); auto; [lia|].
  destruct (hist_final_inv fn dt W (option_or stride 1) s np momentum hist (h_edges (ha_hist ha)) resets hws hfn t' ha n)
    as (ha' & E2 & Ee & D & Hw); auto.
  { intros j. rewrite Le. apply hy_hist. }
  exists st0, t', ha'. split; [assumption|]. split.
  { unfold hist_simulation. rewrite E. cbn [bind fst snd]. rewrite E'. cbn [bind]. rewrite E2. reflexivity. }
  rewrite Ee. split; [assumption|]. rewrite Le in D. split; [assumption|].
  exists (ha_written ha). split; [|assumption]. destruct Hi. rewrite Le in *. assumption.
Qed.

(** without a count for the origin *)
Lemma data_holds_drop edges x l d :
  Forall edges_ok edges -> (forall idx, ~ in_cell edges idx x) ->
  data_holds edges (x :: l) d -> data_holds edges l d.
Proof.
  intros Ho Hx [Hl Hc]. split; [assumption|]. intros idx Hi. specialize (Hc idx Hi).
  inversion Hc; subst; [exfalso; eapply Hx; eassumption|assumption].
Qed.

Lemma origin_outside edges : Forall edges_ok edges -> bins_of n_bins ranges edges ->
  ~ in_box ranges origin -> forall idx, ~ in_cell edges idx origin.
Proof.
  intros Ho Hu Hb idx Hi. apply Hb. destruct Hacc. destruct hy_bins.
  apply (uniform_ranges n_bins ranges edges); auto. eapply in_cell_range; eassumption.
Qed.

(** edges are increasing *)
Lemma bins_of_ok edges : bins_of n_bins ranges edges -> Forall edges_ok edges.
Proof.
  destruct Hacc. destruct hy_bins as [Hb1 Hb2]. unfold bins_of. intros F.
  clear - Hb1 Hb2 hy_ranges F. revert ranges edges Hb1 hy_ranges F. induction n_bins as [|n ns IH]; intros [|r rs] edges Hl Hr F; cbn in Hl; try lia;
    cbn [combine] in F; inversion F as [|? e ? es He F']; subst; constructor.
  - cbn [fst snd] in He. destruct He as [He1 He2]. inversion Hb2; subst. inversion Hr; subst. split; [|lia].
    apply sorted_of_nth. rewrite He1. intros i j Hij. rewrite !He2 by lia.
    assert (0 < (snd r - fst r) / INR n).
    { apply Rdiv_lt_0_compat; [lra|]. apply lt_0_INR; assumption. }
    assert (INR i < INR j) by (apply lt_INR; lia).
    apply Rplus_lt_compat_l, Rmult_lt_compat_r; assumption.
  - inversion Hb2; subst. inversion Hr; subst. apply (IH H2 rs); auto.
Qed.

Lemma hist_during_good n : (0 <= n)%Z -> (fn = true \/ W mod s = 0)%Z -> resets = [] ->
  ~ in_box ranges origin ->
  exists st0 t ha, start = Ok st0 /\ hist_loop dt hist n st0 = Ok (t, ha) /\
    bins_of n_bins ranges (h_edges (ha_hist ha)) /\
    data_holds (h_edges (ha_hist ha)) (sampled hist (times 0 (W * (n / W)) s)) (h_data (ha_hist ha)).
Proof.
  intros Hn Hf Hr Hb. destruct (hist_during n Hn) as (st0 & t & ha & E0 & E & Hu & D & _).
  exists st0, t, ha. repeat (split; [assumption|]). rewrite Hr in D. unfold content in D.
  rewrite resets_nil in D.
  pose proof (bins_of_ok _ Hu) as Ho.
  apply data_holds_drop in D; [|assumption|apply origin_outside; assumption].
  destruct Hacc.
  pose proof (option_or_pos wstride 100 hy_wstride ltac:(lia)) as HW.
  pose proof (option_or_pos hstride 1 hy_hstride ltac:(lia)) as Hs.
  rewrite batches_good in D; auto; [|lia]. rewrite Z.div_0_l, Z.mul_0_r in D by (unfold W; lia). exact D.
Qed.

Lemma hist_after_good n : (0 < n)%Z -> fn = false -> (n mod W <> 0)%Z -> (W mod s = 0 \/ n < W)%Z -> resets = [] ->
  ~ in_box ranges origin ->
  exists st0 t ha, start = Ok st0 /\ hist_simulation dt hist n st0 = Ok (t, ha) /\
    bins_of n_bins ranges (h_edges (ha_hist ha)) /\
    data_holds (h_edges (ha_hist ha)) (sampled hist (times 0 n s)) (h_data (ha_hist ha)).
Proof.
  intros Hn Hf Hm Hd Hr Hb. destruct (hist_after n Hn) as (st0 & t & ha & E0 & E & Hu & D & _).
  exists st0, t, ha. repeat (split; [assumption|]). rewrite Hr in D. unfold content in D.
  rewrite resets_nil in D.
  pose proof (bins_of_ok _ Hu) as Ho. cbn [app] in D.
  apply data_holds_drop in D; [|assumption|apply origin_outside; assumption].
  destruct Hacc.
  pose proof (option_or_pos wstride 100 hy_wstride ltac:(lia)) as HW. fold W in HW.
  pose proof (option_or_pos hstride 1 hy_hstride ltac:(lia)) as Hs. fold s in Hs.
  rewrite Hf, final_batch_good in D by assumption.
  replace (flat_map (batch false W s) (times 0 n W)) with (times 0 (W * (n / W)) s) in D.
  - rewrite <- sampled_app in D. rewrite <- times_app in D; [exact D|].
    pose proof (Z.mul_div_le n W HW). pose proof (Z.div_pos n W ltac:(lia) HW). nia.
  - destruct Hd as [Hd|Hd].
    + rewrite batches_good; auto; [|lia]. rewrite Z.div_0_l, Z.mul_0_r by lia. reflexivity.
    + rewrite Z.div_small, Z.mul_0_r, times_nil by lia.
      rewrite times_empty; [reflexivity|]. intros t' Ht'. rewrite Z.mod_small by lia. lia.
Qed.

Lemma hist_reset_good n r : (0 < r <= n)%Z -> In r resets -> (forall r', In r' resets -> (r' <= r \/ n < r')%Z) ->
  (fn = true \/ W mod s = 0)%Z ->
  exists st0 t ha, start = Ok st0 /\ hist_loop dt hist n st0 = Ok (t, ha) /\
    bins_of n_bins ranges (h_edges (ha_hist ha)) /\
    data_holds (h_edges (ha_hist ha)) (sampled hist (times (W * (r / W)) (W * (n / W)) s)) (h_data (ha_hist ha)).
Proof.
  intros Hn Hr Hl Hf. destruct (hist_during n ltac:(lia)) as (st0 & t & ha & E0 & E & Hu & D & _).
  exists st0, t, ha. repeat (split; [assumption|]). unfold content in D.
  assert (exists rs, resets_upto resets n = r :: rs) as (rs & Er).
  { destruct (resets_upto resets n) as [|r0 rs] eqn:Er.
    - assert (In r (resets_upto resets n)) as Hi by (apply in_resets; split; [lia|assumption]). rewrite Er in Hi. destruct Hi.
    - exists rs. f_equal.
      assert (In r0 (resets_upto resets n)) as Hi0 by (rewrite Er; now left). apply in_resets in Hi0 as [B0 Hi0].
      assert (r0 <= r)%Z by (destruct (Hl r0 Hi0); lia).
      assert (In r (resets_upto resets n)) as Hi by (apply in_resets; split; [lia|assumption]).
      rewrite Er in Hi. destruct Hi as [Hi|Hi]; [assumption|exfalso].
      (* decreasing list *)
      assert (Forall (fun x => x < r0)%Z rs) as Fs.
      { unfold resets_upto in Er. apply (f_equal (@rev Z)) in Er. rewrite rev_involutive in Er. cbn [rev] in Er.
        pose proof (sorted_filter (fun t => existsb (Z.eqb t) resets) _ (zrange_sorted 1 (n + 1))) as S.
        rewrite Er in S. clear - S. apply Forall_forall. intros x Hx. apply in_rev in Hx.
        induction (rev rs) as [|y l IH]; [destruct Hx|]. cbn [app] in S. apply Sorted.StronglySorted_inv in S as [S F].
        destruct Hx as [->|Hx]; [|auto]. rewrite Forall_forall in F. apply F. apply in_or_app. right; now left. }
      rewrite Forall_forall in Fs. specialize (Fs r Hi). lia. }
  rewrite Er in D. destruct Hacc.
  pose proof (option_or_pos wstride 100 hy_wstride ltac:(lia)) as HW. fold W in HW.
  pose proof (option_or_pos hstride 1 hy_hstride ltac:(lia)) as Hs. fold s in Hs.
  rewrite batches_good in D; auto; lia.
Qed.

Lemma hist_reset_aligned n r : (0 < r <= n)%Z -> In r resets -> (forall r', In r' resets -> (r' <= r \/ n < r')%Z) ->
  (fn = true \/ W mod s = 0)%Z -> (r mod W = 0)%Z ->
  exists st0 t ha, start = Ok st0 /\ hist_loop dt hist n st0 = Ok (t, ha) /\
    bins_of n_bins ranges (h_edges (ha_hist ha)) /\
    data_holds (h_edges (ha_hist ha)) (sampled hist (times r (W * (n / W)) s)) (h_data (ha_hist ha)).
Proof.
  intros Hn Hr Hl Hf Hm. destruct (hist_reset_good n r Hn Hr Hl Hf) as (st0 & t & ha & E0 & E & Hu & D).
  exists st0, t, ha. repeat (split; [assumption|]).
  destruct Hacc. pose proof (option_or_pos wstride 100 hy_wstride ltac:(lia)) as HW. fold W in HW.
  pose proof (Z.div_mod r W ltac:(lia)). replace (W * (r / W))%Z with r in D by lia. exact D.
Qed.
End Run.

(** ** counterexamples: one walker resting at 1, one bin from 1/2 to 2 *)
Definition rest : particle := mkP [1] [0] 1 0 [0] 0.
Definition resting (_ : Z) : list particle := [rest].

Lemma rest_in_cell e : bins_of [1%nat] [(1/2, 2)] [e] -> in_cell [e] [0%nat] [1].
Proof.
  intros F. inversion F as [|? ? ? ? [He1 He2] _]; subst. cbn [fst snd] in *.
  constructor; [|constructor]. split; [lia|]. rewrite (He2 0%nat), (He2 1%nat) by lia. cbn. lra.
Qed.

Lemma counts_all {A} (P : A -> Prop) l : (forall x, In x l -> P x) -> counts P l (length l).
Proof. induction l as [|x l IH]; intros H; cbn; constructor; [apply H; now left|apply IH; intros; apply H; now right]. Qed.

Lemma rest_length edges l1 l2 d : bins_of [1%nat] [(1/2, 2)] edges ->
  (forall x, In x l1 -> x = [1]) -> (forall x, In x l2 -> x = [1]) ->
  data_holds edges l1 d -> data_holds edges l2 d -> length l1 = length l2.
Proof.
  intros F H1 H2 [_ C1] [_ C2]. unfold bins_of in F. cbn [combine] in F.
  inversion F as [|? e ? es He F']; subst. inversion F'; subst.
  pose proof (rest_in_cell e F) as Hc. pose proof (in_cell_ok _ _ _ Hc) as Ho.
  specialize (C1 _ Ho). specialize (C2 _ Ho).
  rewrite <- (counts_fun _ _ _ _ C1 (counts_all _ l1 ltac:(intros x Hx; rewrite (H1 x Hx); exact Hc))).
  apply (counts_fun _ _ _ _ C2). apply counts_all. intros x Hx; rewrite (H2 x Hx); exact Hc.
Qed.

Lemma rest_sampled T x : In x (sampled resting T) -> x = [1].
Proof. unfold sampled. rewrite in_flat_map. intros (k & _ & [H|[]]). symmetry; exact H. Qed.

Lemma rest_origin : ~ in_box [(1/2, 2)] (repeat 0 1).
Proof. intros [_ H]. specialize (H 0%nat ltac:(cbn; lia)). cbn in H. lra. Qed.

Lemma rest_accepted W hs : (0 < W)%Z -> (0 < hs)%Z ->
  hist_accepted resting 1 None (Some W) (repeat 0 (Z.to_nat W)) (repeat [] (Z.to_nat W)) (repeat [] (Z.to_nat W))
    [1%nat] [(1/2, 2)] (Some hs) false None.
Proof.
  intros HW Hs. constructor.
  - lia.
  - discriminate.
  - intros z [= <-]; assumption.
  - intros z [= <-]; assumption.
  - discriminate.
  - rewrite repeat_length; lia.
  - rewrite repeat_length; lia.
  - rewrite repeat_length; lia.
  - split; [reflexivity|]. repeat constructor.
  - repeat constructor. cbn; lra.
  - intros k. split; [reflexivity|]. repeat constructor.
Qed.

Definition rest_start fn W hs reset :=
  hist_start fn 1 None false (Some W) (repeat 0 (Z.to_nat W)) (repeat [] (Z.to_nat W)) (repeat [] (Z.to_nat W))
    [1%nat] [(1/2, 2)] (Some hs) reset false None.

(** update every 3 steps, every 2nd step sampled, no trajectory file: steps 2 and 5 instead of 2, 4, 6 *)
Lemma during_refuted :
  exists st0 t ha, rest_start false 3 2 None = Ok st0 /\ hist_loop 1 resting 6 st0 = Ok (t, ha) /\
    bins_of [1%nat] [(1/2, 2)] (h_edges (ha_hist ha)) /\ ~ in_box [(1/2, 2)] (repeat 0 1) /\
    ~ data_holds (h_edges (ha_hist ha)) (sampled resting (times 0 6 2)) (h_data (ha_hist ha)).
Proof.
  destruct (hist_during 1 resting false 1 None false (Some 3%Z) (repeat 0 3) (repeat [] 3) (repeat [] 3)
     [1%nat] [(1/2, 2)] (Some 2%Z) None false None (rest_accepted 3 2 ltac:(lia) ltac:(lia)) 6 ltac:(lia))
    as (st0 & t & ha & E0 & E & Hu & D & _).
  exists st0, t, ha. split; [exact E0|]. split; [exact E|]. split; [exact Hu|]. split; [exact rest_origin|].
  intros D2.
  apply data_holds_drop in D.
  - pose proof (rest_length _ _ _ _ Hu (rest_sampled _) (rest_sampled _) D D2) as H. vm_compute in H. lia.
  - eapply bins_of_ok; [apply (rest_accepted 3 2); lia|exact Hu].
  - eapply origin_outside; [apply (rest_accepted 3 2); lia| |exact Hu|exact rest_origin].
    eapply bins_of_ok; [apply (rest_accepted 3 2); lia|exact Hu].
Qed.

Lemma after_refuted fn n expected :
  (fn = true /\ (n = 4 \/ n = 3)%Z \/ fn = false /\ n = 4%Z) -> expected = times 0 n 1 ->
  exists st0 t ha, rest_start fn 2 1 None = Ok st0 /\ hist_simulation 1 resting n st0 = Ok (t, ha) /\
    bins_of [1%nat] [(1/2, 2)] (h_edges (ha_hist ha)) /\ ~ in_box [(1/2, 2)] (repeat 0 1) /\
    ~ data_holds (h_edges (ha_hist ha)) (sampled resting expected) (h_data (ha_hist ha)).
Proof.
  intros Hn ->.
  destruct (hist_after 1 resting fn 1 None false (Some 2%Z) (repeat 0 2) (repeat [] 2) (repeat [] 2)
     [1%nat] [(1/2, 2)] (Some 1%Z) None false None (rest_accepted 2 1 ltac:(lia) ltac:(lia)) n ltac:(lia))
    as (st0 & t & ha & E0 & E & Hu & D & _).
  exists st0, t, ha. split; [exact E0|]. split; [exact E|]. split; [exact Hu|]. split; [exact rest_origin|].
  intros D2. change (content fn (option_or (Some 2%Z) 100) (option_or (Some 1%Z) 1) resting
          (repeat 0 (length [(1 / 2, 2)])) [] n n) with
     (content fn 2 1 resting (repeat 0 1) [] n n) in D.
  unfold content in D. rewrite resets_nil in D. cbn [app] in D.
  apply data_holds_drop in D.
  - rewrite <- sampled_app in D.
    pose proof (rest_length _ _ _ _ Hu (rest_sampled _) (rest_sampled _) D D2) as H.
    destruct Hn as [[-> [-> | ->]]|[-> ->]]; vm_compute in H; lia.
  - eapply bins_of_ok; [apply (rest_accepted 2 1); lia|exact Hu].
  - change (repeat 0 1) with (repeat 0 (length [(1/2, 2)])). eapply origin_outside; [apply (rest_accepted 2 1); lia| |exact Hu|exact rest_origin].
    eapply bins_of_ok; [apply (rest_accepted 2 1); lia|exact Hu].
Qed.

(** reset at step 1, update every 2 steps: at step 2 the sample of step 1 is included *)
Lemma reset_refuted :
  exists st0 t ha, rest_start true 2 1 (Some [1%Z]) = Ok st0 /\ hist_loop 1 resting 2 st0 = Ok (t, ha) /\
    bins_of [1%nat] [(1/2, 2)] (h_edges (ha_hist ha)) /\
    ~ data_holds (h_edges (ha_hist ha)) (sampled resting (times 1 2 1)) (h_data (ha_hist ha)).
Proof.
  destruct (hist_during 1 resting true 1 None false (Some 2%Z) (repeat 0 2) (repeat [] 2) (repeat [] 2)
     [1%nat] [(1/2, 2)] (Some 1%Z) (Some [1%Z]) false None (rest_accepted 2 1 ltac:(lia) ltac:(lia)) 2 ltac:(lia))
    as (st0 & t & ha & E0 & E & Hu & D & _).
  exists st0, t, ha. split; [exact E0|]. split; [exact E|]. split; [exact Hu|].
  intros D2.
  pose proof (fun H => rest_length _ _ _ _ Hu H (rest_sampled _) D D2) as H.
  vm_compute in H. assert (2 = 1)%nat; [apply H|lia].
  intros x [Hx|[Hx|[]]]; symmetry; exact Hx.
Qed.

(** ** C07, C08 *)
Lemma hist_add_dim h samples s :
  In s samples -> length s <> length (h_edges h) -> hist_add h samples = Err ValueError.
Proof. intros H1 H2. unfold hist_add. now rewrite (histogramdd_dim _ _ s). Qed.

Lemma hist_case : hist_ok (mkH [[0; 1; 3]; [0; 2]] [4; 0]%nat) /\
  Forall (fun s => length s = length (h_edges (mkH [[0; 1; 3]; [0; 2]] [4; 0]%nat))) [[1; 2]; [3; 2]; [5; 1]] /\
  in_cell [[0; 1; 3]; [0; 2]] [1; 0]%nat [3; 2] /\ ~ in_cell [[0; 1; 3]; [0; 2]] [0; 0]%nat [1; 2].
Proof.
  split; [|split; [|split]].
  - split; [|reflexivity]. repeat constructor; cbn; lra || lia.
  - repeat constructor.
  - constructor; [|constructor; [|constructor]].
    + split; [cbn; lia|]. cbn. split; [lra|]. right. auto.
    + split; [cbn; lia|]. cbn. split; [lra|]. right. auto.
  - intros H; inversion H as [|? ? ? ? ? ? Hb]; subst. destruct Hb as (_ & _ & [Hb|[Hb _]]); cbn in Hb; [lra|lia].
Qed.

Lemma hist_init_empty n_bins ranges :
  length n_bins = length ranges ->
  Forall (fun n => (0 < n)%nat) n_bins -> Forall (fun r => fst r < snd r) ranges ->
  ~ in_box ranges (repeat 0 (length ranges)) ->
  exists h, hist_init n_bins ranges = Ok h /\ hist_ok h /\ bins_of n_bins ranges (h_edges h) /\
    forall k, nth k (h_data h) 0%nat = 0%nat.
Proof.
  intros H1 H2 H3 H4. destruct (hist_init_counts n_bins ranges) as (h & E & Hok & Hu & _ & H0); auto.
  exists h. split; [assumption|]. split; [assumption|]. split; [assumption|]. auto.
Qed.

Lemma hist_init_refuted :
  exists n_bins ranges h k, length n_bins = length ranges /\
    Forall (fun n => (0 < n)%nat) n_bins /\ Forall (fun r => fst r < snd r) ranges /\
    hist_init n_bins ranges = Ok h /\ (k < length (h_data h))%nat /\ nth k (h_data h) 0%nat = 1%nat.
Proof.
  assert (Forall (fun n => (0 < n)%nat) [2%nat]) as F1 by repeat constructor.
  assert (Forall (fun r => fst r < snd r) [(-1, 1)]) as F2 by (repeat constructor; cbn; lra).
  destruct (hist_init_counts [2%nat] [(-1, 1)]) as (h & E & [Ho Hl] & Hu & H1 & _); auto.
  destruct H1 as (i0 & Hi & _ & H1 & _).
  { split; [reflexivity|]. intros [|d] Hd; cbn in *; [lra|lia]. }
  exists [2%nat], [(-1, 1)], h, (cell_pos (h_edges h) i0).
  split; [reflexivity|]. split; [assumption|]. split; [assumption|]. split; [assumption|].
  split; [rewrite Hl; now apply row_major_lt|assumption].
Qed.

Lemma hist_init_case : length [3%nat; 2%nat] = length [(1, 2); (-1, 1)] /\
  Forall (fun n => (0 < n)%nat) [3%nat; 2%nat] /\ Forall (fun r => fst r < snd r) [(1, 2); (-1, 1)] /\
  ~ in_box [(1, 2); (-1, 1)] (repeat 0 2).
Proof.
  split; [reflexivity|]. split; [repeat constructor|]. split; [repeat constructor; cbn; lra|].
  intros [_ H]. specialize (H 0%nat ltac:(cbn; lia)). cbn in H. lra.
Qed.

Lemma final_case : (20 mod 6 <> 0)%Z.
Proof. discriminate. Qed.
