(** Sampled histograms *)
From Coq Require Import Lia Lra ZifyBool ZifyNat.
From Verif Require Import PyBase Model_valid Model_dyn Model_traj Model_hist Model_histaction
  Spec_times Spec_box Spec_hist Spec_traj Spec_trajrun Spec_histact
  Proof_base Proof_valid Proof_ring Proof_traj Proof_trajrun Proof_pdist Proof_hist.
Ltac Zify.zify_post_hook ::= idtac.
Open Scope R_scope.

(** ** sample lists *)
Lemma sampled_app hist T1 T2 : sampled hist (T1 ++ T2) = sampled hist T1 ++ sampled hist T2.
Proof. unfold sampled; apply flat_map_app. Qed.

Lemma sampled_concat hist T : concat (map (fun k => map p_pos (hist k)) T) = sampled hist T.
Proof. unfold sampled; now rewrite flat_map_concat_map. Qed.

Lemma sampled_dims hist d T : (forall k, In k T -> Forall (fun p => length (p_pos p) = d) (hist k)) ->
  Forall (fun s => length s = d) (sampled hist T).
Proof.
  intros H. unfold sampled. apply Forall_flat_map. rewrite Forall_forall. intros k Hk.
  apply Forall_map. auto.
Qed.

Lemma data_holds_add h l l2 :
  Forall edges_ok (h_edges h) -> data_holds (h_edges h) l (h_data h) ->
  Forall (fun s => length s = length (h_edges h)) l2 ->
  exists h', hist_add h l2 = Ok h' /\ h_edges h' = h_edges h /\
    data_holds (h_edges h) (l ++ l2) (h_data h').
Proof.
  intros Ho [Hl Hc] Hd. destruct (hist_add_spec h l2) as (h' & E & [Ho' Hl'] & Ee & Hc'); auto.
  { split; assumption. }
  exists h'. split; [assumption|]. split; [assumption|]. split; [congruence|].
  intros idx Hi. destruct (Hc' idx Hi) as (c & C & ->). apply counts_app; auto.
Qed.

Lemma data_holds_clear h : Forall edges_ok (h_edges h) -> length (h_data h) = n_cells (h_edges h) ->
  data_holds (h_edges h) [] (h_data (hist_clear h)).
Proof.
  intros Ho Hl. destruct (hist_clear_spec h) as (_ & Ee & El & H0); [split; assumption|].
  split; [congruence|]. intros idx Hi. rewrite H0. constructor.
Qed.

(** ** the trajectory part *)
Definition traj_any (fn : bool) dt W s np mom hist t k : Prop :=
  traj_buf dt W s np mom hist t k /\
  (if fn then traj_written dt s np mom hist t /\ (W * (k / W) <= tr_last_write t <= k)%Z /\ (0 <= tr_last_write t)%Z
   else tr_files t = None /\ tr_last_write t = 0%Z).

Lemma traj_any_run fn dt W s np mom hist t k :
  (0 < W)%Z -> (0 < s)%Z -> (0 < np)%nat -> (0 < k)%Z -> length (hist k) = np ->
  traj_any fn dt W s np mom hist t (k - 1) ->
  exists t', traj_run dt (hist k) t k = Ok t' /\ traj_any fn dt W s np mom hist t' k.
Proof.
  intros HW Hs Hnp Hk Hl [Hb H]. destruct fn.
  - destruct H as (Hw & Hlw & H0).
    destruct (traj_run_ok dt W s np mom hist t k) as (t' & E & Hb' & Hr); auto.
    exists t'. split; [assumption|]. split; assumption.
  - destruct H as (Hf & Hlw).
    destruct (traj_run_nofile dt W s np mom hist t k) as (t' & E & Hb' & Hf' & Hl'); auto.
    exists t'. split; [assumption|]. split; [assumption|]. split; congruence.
Qed.

Lemma traj_any_final fn dt W s np mom hist t k :
  (0 < W)%Z -> (0 < s)%Z -> (0 < np)%nat -> (0 <= k)%Z ->
  traj_any fn dt W s np mom hist t k ->
  exists t', traj_final_run t k = Ok t' /\ traj_any fn dt W s np mom hist t' k /\
    (fn = true -> tr_last_write t' = k).
Proof.
  intros HW Hs Hnp Hk [Hb H]. unfold traj_final_run. destruct fn.
  - destruct H as (Hw & Hlw & H0).
    destruct (traj_write_inv dt W s np mom hist t k) as (t' & E & Hb' & Hw' & El'); auto.
    pose proof (Z.mul_div_le k W HW).
    exists t'. split; [assumption|]. split; [|auto]. split; [assumption|]. split; [assumption|]. rewrite El'; lia.
  - destruct H as (Hf & Hlw). exists t. split; [now apply traj_write_nofile|]. split; [|discriminate].
    split; [assumption|]. split; assumption.
Qed.

(** get_valid_data only depends on step mod W *)
Lemma gvd_shift {A} (data : list A) s step step' lw :
  step <> lw -> step' <> lw ->
  (step mod Z.of_nat (length data) = step' mod Z.of_nat (length data))%Z ->
  get_valid_data data step s 1 lw = get_valid_data data step' s 1 lw.
Proof.
  intros H1 H2 E. unfold get_valid_data. rewrite Z.mul_1_r.
  replace (step =? lw)%Z with false by lia. replace (step' =? lw)%Z with false by lia.
  destruct (Z.of_nat (length data) =? 0)%Z; [reflexivity|]. now rewrite E.
Qed.

(** with last_write 0 the phase of the samples is that of the buffer cycle *)
Lemma gvd_zero {A} (data : list A) f g W s k :
  (0 < W)%Z -> (0 < s)%Z -> Z.of_nat (length data) = W -> (0 < k)%Z ->
  (forall j, (0 < j)%Z -> f j = g j) -> buffer_holds data 1 f k ->
  get_valid_data data k s 1 0 = Ok (map g (map (Z.add (cycle_start W k)) (times 0 (k - cycle_start W k) s))).
Proof.
  intros HW Hs Hl Hk Hfg Hb.
  assert (0 <= cycle_start W k < k)%Z as Hc.
  { unfold cycle_start. pose proof (Z.mul_div_le (k - 1) W HW).
    assert (0 <= (k - 1) / W)%Z by (apply Z.div_pos; lia). nia. }
  assert (cycle_start W k mod W = 0)%Z as Hm by (unfold cycle_start; rewrite Z.mul_comm; apply Z.mod_mul; lia).
  set (c := cycle_start W k) in *.
  rewrite (gvd_shift data s k (k - c) 0); [|lia|lia|].
  2:{ rewrite Hl. rewrite Zminus_mod, Hm, Z.sub_0_r, Z.mod_mod by lia. reflexivity. }
  assert (k - c <= W)%Z as Hcw.
  { unfold c, cycle_start. pose proof (Z.mod_pos_bound (k - 1) W HW). pose proof (Z.div_mod (k - 1) W ltac:(lia)). lia. }
  assert (cycle_start W (k - c) = 0)%Z as Hc0.
  { unfold cycle_start. rewrite Z.div_small by lia. lia. }
  rewrite (gvd_rows data (fun t => f (c + t)%Z) (fun t => g (c + t)%Z) W s 0 (k - c)); auto.
  - f_equal. now rewrite map_map.
  - intros j Hj. apply Hfg. lia.
  - unfold buffer_holds in *. cbv zeta in *. rewrite Hl, Z.mul_1_r in *. rewrite Hc0.
    intros r Hr Hle. specialize (Hb r Hr). fold c in Hb. rewrite Z.mul_1_r in *.
    rewrite Hb by lia. f_equal; f_equal; lia.
  - lia.
  - rewrite Hc0; lia.
Qed.

Lemma cycle_start_full W k : (0 < W)%Z -> (k mod W = 0)%Z -> cycle_start W k = (k - W)%Z.
Proof.
  intros HW Hk. unfold cycle_start. apply Z.mod_divide in Hk; [|lia]. destruct Hk as [q ->].
  replace (q * W - 1)%Z with ((W - 1) + (q - 1) * W)%Z by lia.
  rewrite Z.div_add by lia. rewrite Z.div_small by lia. lia.
Qed.

(** data taken at an update step *)
Lemma traj_data_update fn dt W s np mom hist sh t ha k :
  (0 < W)%Z -> (0 < sh)%Z -> (0 < k)%Z -> (k mod W = 0)%Z -> ha_stride ha = sh ->
  traj_any fn dt W s np mom hist t k ->
  get_traj_data t ha k = Ok (map (fun j => map p_pos (hist j)) (batch fn W sh k)).
Proof.
  intros HW Hs Hk Hm Hst [Hb H]. unfold get_traj_data. rewrite Hst.
  destruct Hb. destruct tb_pos as (f & Ef & Hf). rewrite tb_wstride.
  pose proof (cycle_start_full W k HW Hm) as Hcs.
  assert (W <= k)%Z as HWk.
  { pose proof (Z.div_mod k W ltac:(lia)). assert (0 < k / W)%Z by nia. nia. }
  destruct fn.
  - destruct H as (Hw & Hlw & H0).
    assert (tr_last_write t = k) as El. { pose proof (Z.div_mod k W ltac:(lia)). lia. }
    rewrite El, Z.eqb_refl. cbn [negb]. apply (gvd_rows _ f _ W); auto; [lia|].
    rewrite Hcs. lia.
  - destruct H as (Hfn & El). rewrite El. replace (0 =? k)%Z with false by lia. cbn [negb].
    rewrite (gvd_zero _ f (fun j => map p_pos (hist j)) W) by auto.
    rewrite Hcs. unfold batch. f_equal. f_equal. f_equal. f_equal. lia.
Qed.


Lemma traj_data_final fn dt W s np mom hist sh t ha n :
  (0 < W)%Z -> (0 < sh)%Z -> (0 < n)%Z -> ha_stride ha = sh ->
  traj_any fn dt W s np mom hist t n -> (fn = true -> tr_last_write t = n) ->
  get_traj_data t ha n = Ok (map (fun j => map p_pos (hist j)) (final_batch fn W sh n)).
Proof.
  intros HW Hs Hn Hst Ht Hlw. unfold final_batch.
  destruct (Z.eqb_spec (n mod W) 0) as [E|N].
  { eapply traj_data_update; eassumption. }
  unfold get_traj_data. rewrite Hst. destruct Ht as [Hb H]. destruct Hb.
  destruct tb_pos as (f & Ef & Hf). rewrite tb_wstride.
  destruct fn.
  - rewrite (Hlw eq_refl), Z.eqb_refl. cbn [negb map].
    (* first element >= already written = last element *)
    unfold get_valid_data. rewrite tb_lpos, Z.mul_1_r, !Z.div_1_r.
    replace (n =? n - W)%Z with false by lia. replace (W =? 0)%Z with false by lia.
    replace ((n - W) mod W)%Z with (n mod W)%Z.
    2:{ replace (n - W)%Z with (n + (-1) * W)%Z by lia. now rewrite Z.mod_add by lia. }
    replace (n mod W =? 0)%Z with false by lia. rewrite Bool.andb_false_r.
    replace (sh =? 0)%Z with false by lia.
    unfold py_slice. replace (sh <=? 0)%Z with false by lia.
    pose proof (Z.mod_pos_bound (n - W) sh Hs) as B1. pose proof (Z.mod_pos_bound n W HW) as B2.
    cbv iota. f_equal.
    set (a := slice_bound (length (tr_pos t)) (n mod W + (sh - 1) - (n - W) mod sh)).
    set (b := slice_bound (length (tr_pos t)) (n mod W)).
    assert (b - a = 0)%nat as ->; [|reflexivity].
    unfold a, b, slice_bound. rewrite tb_lpos.
    replace (n mod W <? 0)%Z with false by lia.
    replace (n mod W + (sh - 1) - (n - W) mod sh <? 0)%Z with false by lia. lia.
  - destruct H as (Hfn & El). rewrite El. replace (0 =? n)%Z with false by lia. cbn [negb].
    rewrite (gvd_zero _ f (fun j => map p_pos (hist j)) W) by auto.
    rewrite <- (cycle_end W n HW N). f_equal. f_equal. f_equal. f_equal.
    pose proof (Z.div_mod n W ltac:(lia)). lia.
Qed.

Lemma in_batch fn W s k t : (0 < W)%Z -> (W <= k)%Z -> In t (batch fn W s k) -> (0 < t <= k)%Z.
Proof.
  intros HW Hk. unfold batch. destruct fn.
  - rewrite in_times. lia.
  - rewrite in_map_iff. intros (u & <- & Hu). apply in_times in Hu. lia.
Qed.

Lemma in_final_batch fn W s k t : (0 < W)%Z -> (0 < k)%Z -> In t (final_batch fn W s k) -> (0 < t <= k)%Z.
Proof.
  intros HW Hk. unfold final_batch. destruct (Z.eqb_spec (k mod W) 0) as [E|N].
  - apply in_batch; [assumption|]. pose proof (Z.div_mod k W ltac:(lia)). assert (0 < k / W)%Z by nia. nia.
  - destruct fn; [intros []|]. rewrite in_map_iff. intros (u & <- & Hu). apply in_times in Hu.
    pose proof (Z.div_mod k W ltac:(lia)). assert (0 <= k / W)%Z by (apply Z.div_pos; lia). nia.
Qed.

(** ** resets *)
Lemma resets_step resets k : (0 < k)%Z ->
  resets_upto resets k = (if existsb (Z.eqb k) resets then [k] else []) ++ resets_upto resets (k - 1).
Proof.
  intros Hk. unfold resets_upto. replace (k - 1 + 1)%Z with k by lia.
  rewrite zrange_snoc by lia. rewrite filter_app, rev_app_distr. cbn [filter].
  destruct (existsb (Z.eqb k) resets); reflexivity.
Qed.

Lemma resets_nil k : resets_upto [] k = [].
Proof. unfold resets_upto. induction (zrange 1 (k + 1)); cbn; auto. Qed.

Lemma resets_zero resets : resets_upto resets 0 = [].
Proof. unfold resets_upto. rewrite zrange_nil by lia. reflexivity. Qed.

Lemma in_resets resets k r : In r (resets_upto resets k) <-> (1 <= r <= k)%Z /\ In r resets.
Proof.
  unfold resets_upto. rewrite <- in_rev, filter_In, in_zrange, existsb_exists. split.
  - intros (Hr & x & Hx & E). apply Z.eqb_eq in E. subst x. split; [lia|assumption].
  - intros (Hr & Hi). split; [lia|]. exists r. split; [assumption|apply Z.eqb_refl].
Qed.

Lemma times_step lo k W : (lo < k)%Z -> times lo k W = times lo (k - 1) W ++ (if (k mod W =? 0)%Z then [k] else []).
Proof.
  intros H. rewrite (times_app lo (k - 1) k) by lia. f_equal.
  unfold times. replace (k - 1 + 1)%Z with k by lia. rewrite zrange_snoc, zrange_nil by lia. cbn [filter app].
  reflexivity.
Qed.

Lemma content_update fn W s hist origin resets k : (0 < k)%Z ->
  content fn W s hist origin resets (k - 1) k
  = content fn W s hist origin resets (k - 1) (k - 1)
    ++ (if (k mod W =? 0)%Z then sampled hist (batch fn W s k) else []).
Proof.
  intros Hk. unfold content. destruct (resets_upto resets (k - 1)) as [|r rs] eqn:E.
  - rewrite (times_step 0 k) by lia. rewrite flat_map_app, sampled_app. cbn [app]. f_equal. f_equal.
    destruct (k mod W =? 0)%Z; cbn; [now rewrite app_nil_r|reflexivity].
  - assert (r <= k - 1)%Z as Hr.
    { assert (In r (resets_upto resets (k - 1))) as Hi by (rewrite E; now left). apply in_resets in Hi. lia. }
    rewrite (times_step r k) by lia. rewrite flat_map_app, sampled_app. f_equal.
    destruct (k mod W =? 0)%Z; cbn; [now rewrite app_nil_r|reflexivity].
Qed.

Lemma content_reset fn W s hist origin resets k : (0 < k)%Z ->
  content fn W s hist origin resets k k
  = if existsb (Z.eqb k) resets then [] else content fn W s hist origin resets (k - 1) k.
Proof.
  intros Hk. unfold content. rewrite resets_step by assumption.
  destruct (existsb (Z.eqb k) resets); [|reflexivity]. cbn [app]. rewrite times_nil by lia. reflexivity.
Qed.

(** ** the loop *)
Record ha_inv (fn : bool) W s hist edges resets ws fnm (ha : histact) (k : Z) : Prop := {
  hi_stride : ha_stride ha = s;
  hi_reset : ha_reset ha = resets;
  hi_ws : ha_wstride ha = ws;
  hi_fn : ha_filename ha = fnm;
  hi_up : ha_update ha = W;
  hi_edges : h_edges (ha_hist ha) = edges;
  hi_data : data_holds edges (content fn W s hist (repeat 0 (length edges)) resets k k) (h_data (ha_hist ha));
  hi_written : match ws with
    | Some w => Forall2 (fun j f => fst f = Some j /\
                   data_holds edges (content fn W s hist (repeat 0 (length edges)) resets (j - 1) j) (snd f))
                  (times 0 k w) (ha_written ha)
    | None => ha_written ha = []
    end }.

Lemma ha_run_inv fn dt W st s np mom hist edges resets ws fnm t ha k :
  (0 < W)%Z -> (0 < s)%Z -> (0 < k)%Z -> Forall edges_ok edges ->
  (forall j, Forall (fun p => length (p_pos p) = length edges) (hist j)) ->
  (forall w, ws = Some w -> (0 < w)%Z /\ fnm = true) ->
  traj_any fn dt W st np mom hist t k ->
  ha_inv fn W s hist edges resets ws fnm ha (k - 1) ->
  exists ha', ha_run t ha k = Ok ha' /\ ha_inv fn W s hist edges resets ws fnm ha' k.
Proof.
  intros HW Hs Hk Ho Hd Hws Ht [].
  unfold ha_run. rewrite hi_up0. replace (W =? 0)%Z with false by lia.
  set (ct := content fn W s hist (repeat 0 (length edges)) resets) in *.
  (* update *)
  assert (exists h1, (if (k mod W =? 0)%Z then
               do data <- get_traj_data t ha k;
               do h <- hist_add (ha_hist ha) (flatten_frames data);
               Ok (ha_set_hist ha h)
             else Ok ha) = Ok (ha_set_hist ha h1) /\ h_edges h1 = edges /\
           data_holds edges (ct (k - 1)%Z k) (h_data h1)) as (h1 & E1 & Ee1 & D1).
  { unfold ct. rewrite content_update by assumption. fold ct.
    destruct (Z.eqb_spec (k mod W) 0) as [E|N].
    - rewrite (traj_data_update fn dt W st np mom hist s) by assumption. cbn [bind].
      unfold flatten_frames. rewrite sampled_concat.
      destruct (data_holds_add (ha_hist ha) (ct (k-1)%Z (k-1)%Z) (sampled hist (batch fn W s k))) as (h' & -> & Ee & D);
        rewrite ?hi_edges0; auto.
      { apply sampled_dims. intros; apply Hd. }
      cbn [bind]. exists h'. rewrite hi_edges0 in *. auto.
    - exists (ha_hist ha). rewrite app_nil_r. split; [destruct ha; reflexivity|]. auto. }
  rewrite E1. cbn [bind]. cbn [ha_wstride ha_set_hist].
  set (ha1 := ha_set_hist ha h1) in *.
  (* write *)
  set (ha2 := match ha_wstride ha with
             | Some ws => if negb (ws =? 0)%Z && (k mod ws =? 0)%Z then ha_write ha1 (Some k) else ha1
             | None => ha1
             end).
  assert (ha_hist ha2 = h1 /\ ha_stride ha2 = s /\ ha_reset ha2 = resets /\ ha_wstride ha2 = ws /\
          ha_filename ha2 = fnm /\ ha_update ha2 = W /\
          match ws with
          | Some w => Forall2 (fun j f => fst f = Some j /\ data_holds edges (ct (j - 1)%Z j) (snd f))
                        (times 0 k w) (ha_written ha2)
          | None => ha_written ha2 = []
          end) as (F1 & F2 & F3 & F4 & F5 & F6 & F7).
  { unfold ha2. rewrite hi_ws0. destruct ws as [w|].
    - destruct (Hws w eq_refl) as [Hw ->]. replace (w =? 0)%Z with false by lia. cbn [negb andb].
      rewrite (times_step 0 k) by lia.
      destruct (k mod w =? 0)%Z.
      + unfold ha_write. cbn [ha1 ha_set_hist ha_filename]. rewrite hi_fn0. cbn.
        replace (k =? 0)%Z with false by lia. cbn [negb].
        repeat (split; [try assumption; reflexivity|]).
        apply Forall2_app; [assumption|]. constructor; [|constructor]. split; [reflexivity|]. exact D1.
      + rewrite app_nil_r. cbn. repeat (split; [try assumption; reflexivity|]). assumption.
    - cbn. repeat (split; [try assumption; reflexivity|]). assumption. }
  clearbody ha2. eexists; split; [reflexivity|]. rewrite F3.
  assert (content fn W s hist (repeat 0 (length edges)) resets k k
          = if existsb (Z.eqb k) resets then [] else ct (k - 1)%Z k) as Ec by now apply content_reset.
  destruct (existsb (Z.eqb k) resets).
  - constructor; cbn [ha_set_hist ha_stride ha_reset ha_wstride ha_filename ha_update ha_hist ha_written]; auto.
    + rewrite F1. exact Ee1.
    + rewrite Ec, F1. rewrite <- Ee1 at 1. apply data_holds_clear; rewrite Ee1; [assumption|apply D1].
  - constructor; auto; [now rewrite F1|]. rewrite Ec, F1. exact D1.
Qed.

Lemma hist_loop_inv fn dt W st s np mom hist edges resets ws fnm t0 ha0 n :
  (0 < W)%Z -> (0 < st)%Z -> (0 < s)%Z -> (0 < np)%nat -> (0 <= n)%Z -> Forall edges_ok edges ->
  (forall j, length (hist j) = np) ->
  (forall j, Forall (fun p => length (p_pos p) = length edges) (hist j)) ->
  (forall w, ws = Some w -> (0 < w)%Z /\ fnm = true) ->
  traj_any fn dt W st np mom hist t0 0 ->
  ha_inv fn W s hist edges resets ws fnm ha0 0 ->
  exists t ha, hist_loop dt hist n (t0, ha0) = Ok (t, ha) /\
    traj_any fn dt W st np mom hist t n /\ ha_inv fn W s hist edges resets ws fnm ha n.
Proof.
  intros HW Hst Hs Hnp Hn Ho Hl Hd Hws Ht0 Hi0.
  destruct (foldM_zrange_ind (hist_step dt hist)
     (fun sth k => traj_any fn dt W st np mom hist (fst sth) k /\
                   ha_inv fn W s hist edges resets ws fnm (snd sth) k) n (t0, ha0))
    as ([t ha] & E & Ht & Hi); auto.
  - intros [t ha] k Hk [Ht Hi]. cbn [fst snd] in *. unfold hist_step. cbn [fst snd].
    destruct (traj_any_run fn dt W st np mom hist t k) as (t' & -> & Ht'); auto; [lia|]. cbn [bind].
    destruct (ha_run_inv fn dt W st s np mom hist edges resets ws fnm t' ha k) as (ha' & -> & Hi'); auto; [lia|].
    cbn [bind]. exists (t', ha'). split; [reflexivity|]. auto.
  - exists t, ha. split; [exact E|]. auto.
Qed.

Lemma hist_final_inv fn dt W st s np mom hist edges resets ws fnm t ha n :
  (0 < W)%Z -> (0 < s)%Z -> (0 < n)%Z -> Forall edges_ok edges ->
  (forall j, Forall (fun p => length (p_pos p) = length edges) (hist j)) ->
  traj_any fn dt W st np mom hist t n -> (fn = true -> tr_last_write t = n) ->
  ha_inv fn W s hist edges resets ws fnm ha n ->
  exists ha', ha_final_run t ha n = Ok ha' /\ h_edges (ha_hist ha') = edges /\
    data_holds edges (content fn W s hist (repeat 0 (length edges)) resets n n
                      ++ sampled hist (final_batch fn W s n)) (h_data (ha_hist ha')) /\
    ha_written ha' = ha_written ha ++ (if fnm then [(None, h_data (ha_hist ha'))] else []).
Proof.
  intros HW Hs Hn Ho Hd Ht Hlw []. unfold ha_final_run.
  rewrite (traj_data_final fn dt W st np mom hist s) by assumption. cbn [bind].
  unfold flatten_frames. rewrite sampled_concat.
  destruct (data_holds_add (ha_hist ha) (content fn W s hist (repeat 0 (length edges)) resets n n)
     (sampled hist (final_batch fn W s n))) as (h' & -> & Ee & D); rewrite ?hi_edges0; auto.
  { apply sampled_dims. intros; apply Hd. }
  cbn [bind]. rewrite hi_fn0. eexists; split; [reflexivity|]. rewrite hi_edges0 in *.
  destruct fnm; cbn; [|rewrite app_nil_r; auto].
  unfold ha_write, ha_set_hist; cbn. rewrite hi_fn0. cbn. auto.
Qed.

(** ** construction *)
Lemma ha_init_inv fn W s hist t n_bins ranges stride reset fnm ws :
  length n_bins = length ranges ->
  Forall (fun n => (0 < n)%nat) n_bins -> Forall (fun r => fst r < snd r) ranges ->
  tr_wstride t = W -> orZ stride 1 = s -> positive_option ws -> (ws <> None -> fnm = true) ->
  exists ha, ha_init t (length ranges) n_bins ranges stride reset fnm ws = Ok ha /\
    Forall edges_ok (h_edges (ha_hist ha)) /\ length (h_edges (ha_hist ha)) = length ranges /\
    Forall2 (fun nr e => uniform_edges (fst nr) (snd nr) e) (combine n_bins ranges) (h_edges (ha_hist ha)) /\
    ha_inv fn W s hist (h_edges (ha_hist ha)) (match reset with Some l => l | None => [] end) ws fnm ha 0.
Proof.
  intros Hl Hn Hr HW Hs Hp Hf. unfold ha_init. rewrite Hl, Nat.eqb_refl. cbn [negb].
  destruct (hist_init_spec n_bins ranges) as (h & E & [Ho Hd] & Hu & Le & Hc); auto.
  rewrite E. cbn [bind].
  replace (truthyZ ws && negb fnm) with false.
  2:{ destruct ws as [w|]; [|reflexivity]. rewrite Hf by discriminate. now rewrite andb_false_r. }
  eexists; split; [reflexivity|]. cbn [ha_hist]. split; [assumption|]. split; [assumption|]. split; [assumption|].
  constructor; cbn [ha_stride ha_reset ha_wstride ha_filename ha_update ha_hist ha_written]; auto.
  - unfold content. rewrite resets_zero, times_nil by lia. cbn [flat_map sampled]. split; [assumption|].
    rewrite Le. exact Hc.
  - destruct ws as [w|]; [|reflexivity]. rewrite times_nil by lia. constructor.
Qed.

Lemma traj_any_init fn dt hist np stride momentum wstride times0 pos0 mom0 :
  positive_option stride -> positive_option wstride ->
  Z.of_nat (length times0) = option_or wstride 100 ->
  Z.of_nat (length pos0) = option_or wstride 100 ->
  Z.of_nat (length mom0) = option_or wstride 100 ->
  traj_any fn dt (option_or wstride 100) (option_or stride 1) np momentum hist
    (traj_init np stride fn momentum wstride times0 pos0 mom0) 0.
Proof.
  intros Ps Pw Lt Lp Lm.
  pose proof (option_or_pos wstride 100 Pw ltac:(lia)) as HW.
  rewrite <- !option_or_orZ in * by assumption. split.
  - apply traj_init_buf; auto.
  - destruct fn.
    + split; [apply traj_init_written|]. cbn [traj_init tr_last_write]. rewrite Z.div_0_l by lia. lia.
    + split; reflexivity.
Qed.

(** ** when the batches are right *)
Lemma batch_good fn W s k : (0 < W)%Z -> (0 < s)%Z -> (fn = true \/ W mod s = 0)%Z -> (k mod W = 0)%Z ->
  batch fn W s k = times (k - W) k s.
Proof.
  intros HW Hs Hf Hk. unfold batch. destruct fn; [reflexivity|]. destruct Hf as [Hf|Hf]; [discriminate|].
  apply sorted_lt_ext.
  - apply sorted_map; [intros; lia|]. apply times_sorted.
  - apply times_sorted.
  - assert ((k - W) mod s = 0)%Z as Hkw.
    { apply Z.mod_divide in Hf; [|lia]. apply Z.mod_divide in Hk; [|lia]. apply Z.mod_divide; [lia|].
      apply Z.divide_sub_r; [|assumption]. eapply Z.divide_trans; eassumption. }
    intros x. rewrite in_map_iff, in_times. split.
    + intros (u & <- & Hu). apply in_times in Hu as [Hu Hm]. split; [lia|].
      rewrite Zplus_mod, Hkw, Hm. now rewrite Z.mod_0_l by lia.
    + intros [Hx Hm]. exists (x - (k - W))%Z. split; [lia|]. apply in_times. split; [lia|].
      rewrite Zminus_mod, Hm, Hkw. now rewrite Z.mod_0_l by lia.
Qed.

Lemma batches_good fn W s r j : (0 < W)%Z -> (0 < s)%Z -> (fn = true \/ W mod s = 0)%Z -> (0 <= r <= j)%Z ->
  flat_map (batch fn W s) (times r j W) = times (W * (r / W)) (W * (j / W)) s.
Proof.
  intros HW Hs Hf [Hr Hj]. pose proof Hj as Hj'. revert j Hj Hj'.
  apply (Zlt_lower_bound_ind (fun j => (r <= j)%Z -> flat_map (batch fn W s) (times r j W) = times (W * (r / W)) (W * (j / W)) s) r).
  intros j IH Hj _. destruct (Z.eq_dec j r) as [->|N].
  - rewrite !times_nil by lia. reflexivity.
  - rewrite times_step by lia. rewrite flat_map_app, IH by lia.
    assert (r / W <= (j - 1) / W)%Z by (apply Z.div_le_mono; lia).
    destruct (Z.eqb_spec (j mod W) 0) as [E|NE].
    + cbn [flat_map]. rewrite app_nil_r, batch_good by assumption.
      pose proof (cycle_start_full W j HW E) as Hc. unfold cycle_start in Hc. rewrite Hc.
      pose proof (Z.div_mod j W ltac:(lia)). replace (W * (j / W))%Z with j by lia.
      symmetry. apply times_app. nia.
    + cbn [flat_map]. rewrite app_nil_r. rewrite (cycle_end W j HW NE). reflexivity.
Qed.

Lemma final_batch_good W s n : (0 < W)%Z -> (0 < s)%Z -> (0 < n)%Z -> (n mod W <> 0)%Z ->
  (W mod s = 0 \/ n < W)%Z -> final_batch false W s n = times (W * (n / W)) n s.
Proof.
  intros HW Hs Hn Hm Hd. unfold final_batch. replace (n mod W =? 0)%Z with false by lia.
  assert ((W * (n / W)) mod s = 0)%Z as Hc.
  { destruct Hd as [Hd|Hd].
    - apply Z.mod_divide in Hd; [|lia]. apply Z.mod_divide; [lia|]. now apply Z.divide_mul_l.
    - rewrite Z.div_small by lia. rewrite Z.mul_0_r. apply Z.mod_0_l. lia. }
  pose proof (Z.div_mod n W ltac:(lia)) as Hdm.
  set (c := (W * (n / W))%Z) in *.
  apply sorted_lt_ext.
  - apply sorted_map; [intros; lia|]. apply times_sorted.
  - apply times_sorted.
  - intros x. rewrite in_map_iff, in_times. split.
    + intros (u & <- & Hu). apply in_times in Hu as [Hu Hu2]. split; [lia|].
      rewrite Zplus_mod, Hc, Hu2. now rewrite Z.mod_0_l by lia.
    + intros [Hx Hu]. exists (x - c)%Z. split; [lia|]. apply in_times. split; [lia|].
      rewrite Zminus_mod, Hu, Hc. now rewrite Z.mod_0_l by lia.
Qed.
