(** Proofs about the setup of the FES and delta-f actions *)
From Coq Require Import Lia Lra.
From Verif Require Import PyBase Model_setup Spec_input Spec_grid Spec_pdist Spec_setup
  Proof_base Proof_input Proof_grid Proof_pdist Proof_fes Proof_setup.
Open Scope string_scope.
Open Scope Z_scope.
Ltac Zify.zify_post_hook ::= idtac.

Lemma state_points l : mapM state_point (map VFloats l) = Ok (map Nums l).
Proof. induction l as [|x l IH]; [reflexivity|]. cbn [map mapM state_point bind]. rewrite IH. reflexivity. Qed.

Lemma state_ranges_given o mins maxs : states_given o mins maxs ->
  state_ranges o = min_max_to_ranges (map Nums mins) (map Nums maxs).
Proof.
  intros [H1 H2]. unfold state_ranges.
  rewrite (numbered_dict_unique _ _ _ _ H1), (numbered_dict_unique _ _ _ _ H2). cbn [bind].
  rewrite !state_points. reflexivity.
Qed.

Lemma centers_length : forall e, length (centers e) = (length e - 1)%nat.
Proof.
  induction e as [|a [|b e] IH]; [reflexivity|reflexivity|]. cbn [centers length] in *. rewrite IH. lia.
Qed.
Lemma centers_nth : forall e i, (i < length e - 1)%nat -> nth i (centers e) 0%R = middle e i.
Proof.
  induction e as [|a [|b e] IH]; intros i H; cbn [length] in H; try lia.
  destruct i as [|i]; [reflexivity|]. cbn [centers]. cbn [nth].
  rewrite IH by (cbn [length]; lia). reflexivity.
Qed.
Lemma hist_axes_lengths h : map (@length R) (hist_axes h) = n_bins_of (h_edges h).
Proof. unfold hist_axes, n_bins_of. rewrite map_map. apply map_ext. apply centers_length. Qed.
Lemma hist_axes_len h : length (hist_axes h) = length (h_edges h).
Proof. apply map_length. Qed.
Lemma hist_points_length h : length (hist_points h) = size (n_bins_of (h_edges h)).
Proof. unfold hist_points. rewrite <- (hist_axes_len h). apply points_of_length, hist_axes_lengths. Qed.
Lemma hist_points_dim h : Forall (fun p => length p = length (h_edges h)) (hist_points h).
Proof.
  unfold hist_points. rewrite <- (hist_axes_len h). rewrite points_of_eq by apply hist_axes_lengths.
  apply Forall_forall. intros p Hp. apply in_map_iff in Hp. destruct Hp as (i & <- & _).
  rewrite map_length, seq_length. reflexivity.
Qed.
Lemma hist_points_1d h e i : h_edges h = [e] -> (i < length e - 1)%nat -> nth i (hist_points h) [] = [middle e i].
Proof.
  intros He Hi. assert (Hin : in_shape (n_bins_of (h_edges h)) [i]).
  { rewrite He. repeat constructor. exact Hi. }
  pose proof (points_of_nth (hist_axes h) _ [i] (hist_axes_lengths h) Hin) as H.
  rewrite (hist_axes_len h) in H. fold (hist_points h) in H.
  unfold hist_axes in H. rewrite He in H. cbn [listing rev app n_bins_of map flat_pos size length seq nth] in H.
  unfold listing in H. cbn [rev app flat_pos size] in H.
  replace (i * 1 + 0)%nat with i in H by lia. rewrite H. rewrite centers_nth by exact Hi. reflexivity.
Qed.

Lemma strides_rec {A} stride wstride file junk (x : A) : strides_fit stride wstride file ->
  exists r, rec_init stride wstride file junk x = Ok r.
Proof.
  unfold strides_fit, rec_init. destruct stride as [s|]; cbn [orZ].
  - intros [Hs H]. destruct (Z.eqb_spec s 0); [lia|]. destruct (Z.eqb_spec s 0); [lia|]. cbn [negb].
    destruct wstride as [w|]; cbn [truthyZ orZ].
    + destruct H as (Hw & -> & Hm). rewrite andb_false_r. destruct (Z.eqb_spec w 0); [lia|].
      rewrite Hm. cbn. eauto.
    + cbn [andb]. replace (s * 100) with (100 * s) by lia. rewrite Z.mod_mul by lia. cbn. eauto.
  - intros _. cbn. eauto.
Qed.

(** one dimension: works *)
Lemma delta_f_1d (e : env) o h edges mins maxs stride wstride file :
  states_given o mins maxs -> (2 <= length mins)%nat -> length maxs = length mins ->
  Forall (fun s => length s = 1%nat) mins -> Forall (fun s => length s = 1%nat) maxs ->
  optional_int o "stride" stride -> optional_int o "write-stride" wstride ->
  v_true (get_dict o "filename") = file -> strides_fit stride wstride file ->
  h_edges h = [edges] ->
  exists masks r, setup_delta_f e o h = Ok (masks, r) /\ length masks = length mins /\
    forall k mask lo hi, nth_error masks k = Some mask -> nth_error mins k = Some [lo] -> nth_error maxs k = Some [hi] ->
      length mask = (length edges - 1)%nat /\
      forall i, (i < length edges - 1)%nat ->
        (nth i mask false = true <-> at_least lo (middle edges i) /\ at_most hi (middle edges i)).
Proof.
  intros Hg H2 Hl D1 D2 Hs Hw Hf Hfit He. unfold setup_delta_f. rewrite (state_ranges_given _ _ _ Hg).
  assert (Hne : mins <> []) by (destruct mins; [cbn in H2; lia|discriminate]).
  assert (Hsd : same_dims mins maxs).
  { clear - Hl D1 D2. unfold same_dims. revert maxs Hl D2. induction D1; intros [|b maxs] Hl D2; try discriminate; constructor.
    - inversion D2; subst. congruence.
    - inversion D2; subst. apply IHD1; [cbn in Hl; lia|assumption]. }
  destruct (ranges_same_dims mins maxs Hne Hsd) as (rs & -> & Lr & Hr). cbn [bind].
  replace (Nat.ltb (length rs) 2) with false by (symmetry; apply Nat.ltb_ge; lia).
  assert (Dr : Forall (fun st => length st = length (h_edges h)) rs).
  { rewrite He. apply Forall_forall. intros st Hst. apply In_nth_error in Hst. destruct Hst as (k & Hk).
    assert (k < length rs)%nat by (apply nth_error_Some; congruence).
    destruct (nth_error mins k) as [a|] eqn:Ea; [|apply nth_error_None in Ea; lia].
    destruct (nth_error maxs k) as [b|] eqn:Eb; [|apply nth_error_None in Eb; lia].
    destruct (Hr k a b Ea Eb) as (r & Hr1 & [Hz _]). rewrite Hk in Hr1. injection Hr1 as ->.
    rewrite <- (map_length fst), Hz. rewrite Forall_forall in D1. apply D1. exact (nth_error_In _ _ Ea). }
  destruct (pos_inside_ranges_spec (length (h_edges h)) (hist_points h) rs Dr (hist_points_dim h)) as (masks & Em & Fm).
  rewrite Em. cbn [bind]. rewrite (v_opt_int_of _ _ _ Hs), (v_opt_int_of _ _ _ Hw), Hf. cbn [bind].
  assert (Lp : length (hist_points h) = (length edges - 1)%nat).
  { rewrite hist_points_length, He. cbn. lia. }
  unfold delta_f_init. replace (n_bins_of (h_edges h)) with [length (hist_points h)] by (rewrite Lp, He; reflexivity).
  rewrite check_shapes_1d.
  2:{ clear - Fm. induction Fm as [|st m rs masks [Hm _] F IH]; constructor; assumption. }
  cbn [bind]. destruct (strides_rec stride wstride file (np_empty (e_junk_df e)) (e_junk_df1 e) Hfit) as (r & ->).
  cbn [bind]. exists masks, r. split; [reflexivity|]. split; [apply f2_len in Fm; lia|].
  intros k mask lo hi Hk Ha Hb. destruct (Hr k _ _ Ha Hb) as (st & Hst & Hz).
  assert (Hkk : length mask = length (hist_points h) /\
       forall j, (j < length (hist_points h))%nat -> (nth j mask false = true <-> in_state st (nth j (hist_points h) []))).
  { clear - Fm Hk Hst. revert k Hk Hst. induction Fm; intros [|k] Hk Hst; try discriminate; cbn in Hk, Hst.
    - injection Hk as <-. injection Hst as <-. assumption.
    - eauto. }
  destruct Hkk as [K1 K2]. split; [congruence|]. intros i Hi. rewrite K2 by lia. rewrite (hist_points_1d h edges i He Hi).
  destruct Hz as [Z1 Z2]. destruct st as [|[a b] [|? ?]]; try discriminate. cbn in Z1, Z2.
  injection Z1 as ->. injection Z2 as ->. unfold in_state. split.
  - intros [_ H]. apply (H 0%nat). cbn. lia.
  - intros H. split; [reflexivity|]. intros [|d] Hd; cbn in Hd; [exact H|lia].
Qed.

(** more dimensions: ValueError *)
Lemma delta_f_nd (e : env) o h mins maxs stride wstride :
  states_given o mins maxs -> (2 <= length mins)%nat ->
  Forall (fun s => length s = length (h_edges h)) mins -> Forall (fun s => length s = length (h_edges h)) maxs ->
  optional_int o "stride" stride -> optional_int o "write-stride" wstride ->
  length (h_edges h) <> 1%nat ->
  setup_delta_f e o h = Err ValueError.
Proof.
  intros Hg H2 D1 D2 Hs Hw He. unfold setup_delta_f. rewrite (state_ranges_given _ _ _ Hg).
  assert (Hne : mins <> []) by (destruct mins; [cbn in H2; lia|discriminate]).
  destruct (Nat.eq_dec (length maxs) (length mins)) as [Hl|Hl].
  2:{ rewrite ranges_exact by exact Hne. replace (Nat.eqb _ _) with false; [reflexivity|]. symmetry. apply Nat.eqb_neq. congruence. }
  assert (Hsd : same_dims mins maxs).
  { clear - Hl D1 D2. unfold same_dims. revert maxs Hl D2. induction D1; intros [|b maxs] Hl D2; try discriminate; constructor.
    - inversion D2; subst. congruence.
    - inversion D2; subst. apply IHD1; [cbn in Hl; lia|assumption]. }
  destruct (ranges_same_dims mins maxs Hne Hsd) as (rs & -> & Lr & Hr). cbn [bind].
  replace (Nat.ltb (length rs) 2) with false by (symmetry; apply Nat.ltb_ge; lia).
  assert (Dr : Forall (fun st => length st = length (h_edges h)) rs).
  { apply Forall_forall. intros st Hst. apply In_nth_error in Hst. destruct Hst as (k & Hk).
    assert (k < length rs)%nat by (apply nth_error_Some; congruence).
    destruct (nth_error mins k) as [a|] eqn:Ea; [|apply nth_error_None in Ea; lia].
    destruct (nth_error maxs k) as [b|] eqn:Eb; [|apply nth_error_None in Eb; lia].
    destruct (Hr k a b Ea Eb) as (r & Hr1 & [Hz _]). rewrite Hk in Hr1. injection Hr1 as ->.
    rewrite <- (map_length fst), Hz. rewrite Forall_forall in D1. apply D1. exact (nth_error_In _ _ Ea). }
  destruct (pos_inside_ranges_spec (length (h_edges h)) (hist_points h) rs Dr (hist_points_dim h)) as (masks & Em & Fm).
  rewrite Em. cbn [bind]. rewrite (v_opt_int_of _ _ _ Hs), (v_opt_int_of _ _ _ Hw). cbn [bind].
  unfold delta_f_init. rewrite check_shapes_nd; [reflexivity| |].
  - apply f2_len in Fm. destruct masks; [cbn in Fm; lia|discriminate].
  - unfold n_bins_of. rewrite map_length. exact He.
Qed.

(** * FES *)
Lemma calculate_is_fes counts kt junk : counts <> [] -> (0 < kt)%R ->
  exists f, calculate_fes counts kt true junk = Ok f /\ is_fes kt counts f.
Proof.
  intros H Hk. destruct (calculate_fes_spec counts kt junk H Hk) as (f & _ & E & Hs). exists f. split; [exact E|exact Hs].
Qed.

Lemma setup_fes_kt (e : env) o ld ha fa : setup_fes e o ld ha = Ok fa -> fa_kt fa = ld_kt ld /\ fa_written fa = [].
Proof.
  unfold setup_fes. destruct (calculate_reference _ _ _); cbn [bind]; [|discriminate].
  destruct (v_opt_int (get_dict o "stride")); cbn [bind]; [|discriminate].
  destruct (v_opt_int (get_dict o "write-stride")); cbn [bind]; [|discriminate].
  destruct (v_opt_int (get_dict o "plot-stride")); cbn [bind]; [|discriminate].
  unfold fes_init. destruct (calculate_fes _ _ _ _); cbn [bind]; [|discriminate].
  repeat match goal with |- (if ?b then _ else _) = _ -> _ => destruct b; [discriminate|] end.
  intro H. injection H as <-. split; reflexivity.
Qed.

Lemma ok_inj {A} (a b : A) : Ok a = Ok b -> a = b.
Proof. congruence. Qed.
Lemma fes_run_kt ha junk fa k fa' : fes_run ha junk fa k = Ok fa' -> fa_kt fa' = fa_kt fa /\ fa_filename fa' = fa_filename fa.
Proof.
  unfold fes_run.
  assert (W : forall f s, fa_kt (fa_write f s) = fa_kt f /\ fa_filename (fa_write f s) = fa_filename f).
  { intros f s. unfold fa_write. destruct (fa_filename f) eqn:E; cbn; auto. }
  assert (Pl : forall f s, fa_kt (fa_plot f s) = fa_kt f /\ fa_filename (fa_plot f s) = fa_filename f).
  { intros f s. unfold fa_plot. destruct (fa_plotname f); cbn; auto. }
  intro H.
  assert (G : forall f, fa_kt (if stride_hit (fa_wstride f) k then fa_write f (Some k) else f) = fa_kt f /\
     fa_filename (if stride_hit (fa_wstride f) k then fa_write f (Some k) else f) = fa_filename f).
  { intro f. destruct (stride_hit (fa_wstride f) k); [apply W|split; reflexivity]. }
  assert (G2 : forall f, fa_kt (if stride_hit (fa_pstride f) k then fa_plot f (Some k) else f) = fa_kt f /\
     fa_filename (if stride_hit (fa_pstride f) k then fa_plot f (Some k) else f) = fa_filename f).
  { intro f. destruct (stride_hit (fa_pstride f) k); [apply Pl|split; reflexivity]. }
  destruct (stride_hit (fa_stride fa) k).
  - destruct (calculate_fes _ _ _ _) as [f|x]; cbn [bind] in H; [|discriminate]. cbv zeta in H. apply ok_inj in H. subst fa'.
    destruct (G2 (if stride_hit (fa_wstride (fa_set_fes fa f)) k then fa_write (fa_set_fes fa f) (Some k) else fa_set_fes fa f)) as [-> ->].
    destruct (G (fa_set_fes fa f)) as [-> ->]. split; reflexivity.
  - cbn [bind] in H. cbv zeta in H. apply ok_inj in H. subst fa'.
    destruct (G2 (if stride_hit (fa_wstride fa) k then fa_write fa (Some k) else fa)) as [-> ->].
    destruct (G fa) as [-> ->]. split; reflexivity.
Qed.

Lemma fes_steps_kt hs junk : forall l fa fa',
  foldM (fun fa k => fes_run (hs k) (junk k) fa k) l fa = Ok fa' -> fa_kt fa' = fa_kt fa /\ fa_filename fa' = fa_filename fa.
Proof.
  induction l as [|k l IH]; intros fa fa' H; cbn [foldM] in H; [injection H as ->; auto|].
  destruct (fes_run (hs k) (junk k) fa k) as [fa1|x] eqn:E; cbn [bind] in H; [|discriminate].
  apply fes_run_kt in E. apply IH in H. intuition congruence.
Qed.

Lemma fes_steps_ok hs junk : (forall k, h_data (ha_hist (hs k)) <> []) -> forall l fa, (0 < fa_kt fa)%R ->
  exists fa', foldM (fun fa k => fes_run (hs k) (junk k) fa k) l fa = Ok fa'.
Proof.
  intro Hne. induction l as [|k l IH]; intros fa Hk; cbn [foldM]; [eauto|].
  assert (exists fa1, fes_run (hs k) (junk k) fa k = Ok fa1) as (fa1 & E).
  { unfold fes_run. destruct (stride_hit (fa_stride fa) k); cbn [bind]; [|eauto].
    destruct (calculate_is_fes (h_data (ha_hist (hs k))) (fa_kt fa) (junk k) (Hne k) Hk) as (f & -> & _). cbn [bind]. eauto. }
  rewrite E. cbn [bind]. apply IH. apply fes_run_kt in E. destruct E as [-> _]. exact Hk.
Qed.

(** the file written at the end *)
Lemma final_fes (e : env) o ld ha fa hs junk n : (0 < ld_kt ld)%R -> (forall k, h_data (ha_hist (hs k)) <> []) ->
  setup_fes e o ld ha = Ok fa ->
  exists fa', fes_simulation hs junk n fa = Ok fa' /\ is_fes (ld_kt ld) (h_data (ha_hist (hs (n + 1)%Z))) (fa_fes fa') /\
    (fa_filename fa = true -> exists before, fa_written fa' = (before ++ [(None, fa_fes fa')])%list).
Proof.
  intros Hk Hne Hs. apply setup_fes_kt in Hs. destruct Hs as [Hkt _]. unfold fes_simulation.
  destruct (fes_steps_ok hs junk Hne (zrange 1 (n + 1)) fa ltac:(rewrite Hkt; exact Hk)) as (fa1 & E). rewrite E. cbn [bind].
  apply fes_steps_kt in E. destruct E as [E1 E2]. unfold fes_final_run. rewrite E1, Hkt.
  destruct (calculate_is_fes (h_data (ha_hist (hs (n + 1)%Z))) (ld_kt ld) (junk (n + 1)) (Hne (n + 1)) Hk) as (f & -> & Hf).
  cbn [bind]. eexists. split; [reflexivity|].
  assert (Pw : forall g s, fa_fes (fa_plot g s) = fa_fes g /\ fa_written (fa_plot g s) = fa_written g).
  { intros g s. unfold fa_plot. destruct (fa_plotname g); auto. }
  destruct (Pw (fa_write (fa_set_fes fa1 f) None) None) as [-> ->].
  unfold fa_write. cbn [fa_filename fa_set_fes]. destruct (fa_filename fa1) eqn:F; cbn [fa_fes fa_written fa_set_fes].
  - split; [exact Hf|]. intros _. exists (fa_written fa1). reflexivity.
  - split; [exact Hf|]. congruence.
Qed.

(** every file holds the FES of the histogram at some step (0: at the setup) *)
Lemma written_fes (e : env) o ld ha fa hs junk n : (0 < ld_kt ld)%R -> (forall k, h_data (ha_hist (hs k)) <> []) -> 0 <= n ->
  hs 0 = ha -> setup_fes e o ld ha = Ok fa ->
  exists fa', fes_simulation hs junk n fa = Ok fa' /\
    forall name f, In (name, f) (fa_written fa') -> exists k, 0 <= k <= n + 1 /\ is_fes (ld_kt ld) (h_data (ha_hist (hs k))) f.
Proof.
  intros Hk Hne Hn H0 Hs. destruct (setup_fes_kt _ _ _ _ _ Hs) as [Hkt Hw].
  set (P := fun (fa : fesact) (k : Z) => fa_kt fa = ld_kt ld /\
    (exists j, 0 <= j <= k /\ is_fes (ld_kt ld) (h_data (ha_hist (hs j))) (fa_fes fa)) /\
    forall name f, In (name, f) (fa_written fa) -> exists j, 0 <= j <= k /\ is_fes (ld_kt ld) (h_data (ha_hist (hs j))) f).
  assert (PW : forall f k s, P f k -> P (fa_write f s) k).
  { intros f k s (A & (j & Hj & B) & C). unfold fa_write. destruct (fa_filename f); [|split; [exact A|split; [eauto|exact C]]].
    split; [exact A|]. split; [exists j; auto|]. cbn [fa_written]. intros name g Hg. apply in_app_or in Hg.
    destruct Hg as [Hg|[Hg|[]]]; [eauto|]. injection Hg as _ <-. exists j. auto. }
  assert (PP : forall f k s, P f k -> P (fa_plot f s) k).
  { intros f k s (A & (j & Hj & B) & C). unfold fa_plot. destruct (fa_plotname f); split; try exact A; split; try exact C; exists j; auto. }
  assert (PS : forall f k g, P f k -> (exists j, 0 <= j <= k + 1 /\ is_fes (ld_kt ld) (h_data (ha_hist (hs j))) g) -> P (fa_set_fes f g) (k + 1)).
  { intros f k g (A & _ & C) Hg. split; [exact A|]. split; [exact Hg|]. cbn. intros name x Hx. destruct (C name x Hx) as (j & Hj & H). exists j. split; [lia|exact H]. }
  assert (PM : forall f k, P f k -> P f (k + 1)).
  { intros f k (A & (j & Hj & B) & C). split; [exact A|]. split; [exists j; split; [lia|exact B]|].
    intros name x Hx. destruct (C name x Hx) as (i & Hi & H). exists i. split; [lia|exact H]. }
  assert (P0 : P fa 0).
  { split; [exact Hkt|]. split; [|rewrite Hw; intros ? ? []]. exists 0. split; [lia|]. rewrite H0.
    specialize (Hne 0). rewrite H0 in Hne. destruct (calculate_is_fes _ (ld_kt ld) (e_junk_fes e 0) Hne Hk) as (f & E & F).
    revert Hs. unfold setup_fes. destruct (calculate_reference _ _ _); cbn [bind]; [|discriminate].
    destruct (v_opt_int (get_dict o "stride")); cbn [bind]; [|discriminate].
    destruct (v_opt_int (get_dict o "write-stride")); cbn [bind]; [|discriminate].
    destruct (v_opt_int (get_dict o "plot-stride")); cbn [bind]; [|discriminate].
    unfold fes_init. rewrite E. cbn [bind].
    repeat match goal with |- (if ?b then _ else _) = _ -> _ => destruct b; [discriminate|] end.
    intro H. apply ok_inj in H. subst fa. exact F. }
  unfold fes_simulation.
  destruct (foldM_zrange_ind (fun fa k => fes_run (hs k) (junk k) fa k) P n fa Hn P0) as (fa1 & -> & P1).
  { intros f k Hkn Pf. unfold fes_run.
    assert (exists f1, (if stride_hit (fa_stride f) k then do g <- calculate_fes (h_data (ha_hist (hs k))) (fa_kt f) true (junk k); Ok (fa_set_fes f g) else Ok f) = Ok f1
       /\ P f1 k) as (f1 & -> & Pf1).
    { destruct (stride_hit (fa_stride f) k).
      - destruct Pf as (A & BC). rewrite A. destruct (calculate_is_fes _ (ld_kt ld) (junk k) (Hne k) Hk) as (g & -> & G). cbn [bind].
        eexists. split; [reflexivity|]. replace k with (k - 1 + 1) at 1 by lia. apply PS; [split; assumption|].
        exists k. split; [lia|exact G].
      - eexists. split; [reflexivity|]. replace k with (k - 1 + 1) by lia. apply PM, Pf. }
    cbn [bind]. cbv zeta. eexists. split; [reflexivity|].
    assert (P2 : P (if stride_hit (fa_wstride f1) k then fa_write f1 (Some k) else f1) k) by (destruct (stride_hit (fa_wstride f1) k); auto).
    destruct (stride_hit (fa_pstride (if stride_hit (fa_wstride f1) k then fa_write f1 (Some k) else f1)) k); auto. }
  cbn [bind]. unfold fes_final_run. destruct P1 as (A & B & C). rewrite A.
  destruct (calculate_is_fes _ (ld_kt ld) (junk (n + 1)) (Hne (n + 1)) Hk) as (g & -> & G). cbn [bind]. eexists. split; [reflexivity|].
  assert (P2 : P (fa_set_fes fa1 g) (n + 1)).
  { apply PS; [split; [exact A|split; [exact B|exact C]]|]. exists (n + 1). split; [lia|exact G]. }
  apply (PP _ _ _ (PW _ _ _ P2)).
Qed.

Lemma fes_kt_ignored (e : env) o ld ha v : setup_fes e (dict_set "kt" v o) ld ha = setup_fes e o ld ha.
Proof.
  assert (G : forall k, k <> "kt" -> get_dict (dict_set "kt" v o) k = get_dict o k).
  { intros k H. unfold get_dict. rewrite assoc_dict_set_ne by exact H. reflexivity. }
  unfold setup_fes. rewrite !G by discriminate. reflexivity.
Qed.

Lemma is_fes_kt kt1 kt2 counts f : (0 < kt1)%R -> (0 < kt2)%R -> is_fes kt1 counts f -> is_fes kt2 counts f ->
  (exists i j, (i < length counts)%nat /\ (j < length counts)%nat /\
    (0 < nth i counts 0%nat)%nat /\ (nth i counts 0%nat < nth j counts 0%nat)%nat) -> kt1 = kt2.
Proof.
  intros K1 K2 (L1 & A1 & B1 & C1 & D1) (L2 & A2 & B2 & C2 & D2) (i & j & Hi & Hj & H0 & H1).
  destruct (B1 i Hi ltac:(lia)) as (x & Ex & _). destruct (B1 j Hj ltac:(lia)) as (y & Ey & _).
  pose proof (D1 i j x y Hi Hj Ex Ey) as P. pose proof (D2 i j x y Hi Hj Ex Ey) as Q.
  set (q := (INR (nth i counts 0%nat) / INR (nth j counts 0%nat))%R) in *.
  assert (Hq : (0 < q < 1)%R).
  { assert (0 < INR (nth i counts 0%nat))%R by (apply lt_0_INR; lia).
    assert (INR (nth i counts 0%nat) < INR (nth j counts 0%nat))%R by (apply lt_INR; lia).
    unfold q. split; [apply Rdiv_lt_0_compat; lra|]. apply Rmult_lt_reg_r with (INR (nth j counts 0%nat)); [lra|].
    unfold Rdiv. rewrite Rmult_assoc, Rinv_l, Rmult_1_r by lra. lra. }
  assert (ln q < 0)%R. { rewrite <- ln_1. apply ln_increasing; lra. }
  assert (E : ((kt1 - kt2) * ln q = 0)%R) by lra. apply Rmult_integral in E. lra.
Qed.

Lemma setup_ld_kt (e : env) o pot ld g : setup_ld e o pot = Ok (ld, g) ->
  ld_pot ld = pot /\
  (assoc "type" o = Some (VStr "overdamped") -> ld_kt ld = 1%R) /\
  (assoc "type" o = Some (VStr "bussi-parinello") -> assoc "kt" o = Some (VFloat (Fin (ld_kt ld)))).
Proof.
  unfold setup_ld, get_dict. intro H.
  destruct (assoc "type" o) as [t|] eqn:Et; [|discriminate H].
  destruct (vstr_is t "bussi-parinello") eqn:E1.
  - assert (t = VStr "bussi-parinello") as -> by (destruct t; cbn in E1; try discriminate; apply String.eqb_eq in E1; congruence).
    destruct (v_float _) as [dt|] in H; cbn [bind] in H; [|discriminate].
    destruct (v_float _) as [fr|] in H; cbn [bind] in H; [|discriminate].
    destruct (assoc "kt" o) as [k|] eqn:Ek; [|discriminate H].
    destruct k as [|?|x|?|?|?|?]; try discriminate H. destruct x as [r| | |]; try discriminate H. cbn [v_float fin bind] in H.
    destruct (v_opt_int _) as [sd|] in H; cbn [bind] in H; [|discriminate].
    destruct (new_rng _ _ _) as [g'|] in H; cbn [bind] in H; [|discriminate].
    injection H as <- <-. cbn. split; [reflexivity|]. split; [discriminate|reflexivity].
  - destruct (vstr_is t "overdamped") eqn:E2; [|discriminate].
    assert (t = VStr "overdamped") as -> by (destruct t; cbn in E2; try discriminate; apply String.eqb_eq in E2; congruence).
    destruct (v_float _) as [dt|] in H; cbn [bind] in H; [|discriminate].
    destruct (v_opt_int _) as [sd|] in H; cbn [bind] in H; [|discriminate].
    destruct (new_rng _ _ _) as [g'|] in H; cbn [bind] in H; [|discriminate].
    injection H as <- <-. cbn. split; [reflexivity|]. split; [reflexivity|discriminate].
Qed.

(** delta-f with states that do not match, with one state or with none *)
Lemma delta_f_few (e : env) o h mins maxs : states_given o mins maxs ->
  (length mins <> length maxs -> setup_delta_f e o h = Err ValueError) /\
  (length mins = 1%nat -> setup_delta_f e o h = Err ValueError) /\
  (mins = [] -> maxs = [] -> setup_delta_f e o h = Err IndexError).
Proof.
  intro Hg. unfold setup_delta_f. rewrite (state_ranges_given _ _ _ Hg).
  assert (U : length mins <> length maxs -> min_max_to_ranges (map Nums mins) (map Nums maxs) = Err ValueError).
  { intro H. unfold min_max_to_ranges. rewrite !map_length. replace (Nat.eqb _ _) with false by (symmetry; now apply Nat.eqb_neq). reflexivity. }
  split; [intro H; now rewrite (U H)|]. split.
  - intro H1. destruct (Nat.eq_dec (length mins) (length maxs)) as [E|E]; [|now rewrite (U E)].
    rewrite ranges_exact by (intros ->; discriminate). rewrite E, Nat.eqb_refl. cbn [negb]. destruct (existsb _ _); [reflexivity|]. cbn [bind].
    rewrite map_length, combine_length, <- E, H1. reflexivity.
  - intros -> ->. reflexivity.
Qed.
