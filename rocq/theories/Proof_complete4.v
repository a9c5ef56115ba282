(** The example of the repository from its text to its output files *)
From Coq Require Import Lia Lra.
From Verif Require Import PyBase Model_xr Model_input Model_dyn Model_pot Model_bd Model_corr Model_traj Model_grid Model_hist Model_histaction Model_fes Model_rec Model_deltaf Model_pdist Model_potgrid
  Model_setup Model_main Model_files Model_ini Spec_times Spec_traj Spec_fes Spec_pdist Spec_input Spec_rng Spec_ld Spec_grid Spec_gridops Spec_setup Spec_pot Spec_bdrun Spec_correction Spec_main Spec_whole Spec_hist Spec_histact
  Spec_files Spec_ini Spec_example Spec_complete Spec_examplerun
  Proof_base Proof_grid Proof_hist Proof_pdist Proof_setup2 Proof_whole Proof_whole2 Proof_whole5 Proof_whole7 Proof_files4 Proof_files6 Proof_files8 Proof_files9 Proof_complete Proof_complete2 Proof_complete3 Proof_repro3 Proof_example.
Open Scope string_scope.
Open Scope Z_scope.
Open Scope list_scope.
Ltac Zify.zify_post_hook ::= idtac.

(** ** Sampled steps *)
Lemma batches m : flat_map (batch true 100 1) (times 0 (100 * Z.of_nat m) 100) = zrange 1 (100 * Z.of_nat m + 1).
Proof.
  induction m as [|m IH]; [reflexivity|]. rewrite Nat2Z.inj_succ. unfold Z.succ.
  rewrite (times_app 0 (100 * Z.of_nat m)), flat_map_app, IH by lia.
  assert (E : times (100 * Z.of_nat m) (100 * (Z.of_nat m + 1)) 100 = [100 * (Z.of_nat m + 1)]).
  { rewrite (times_app _ (100 * (Z.of_nat m + 1) - 1)) by lia. rewrite times_empty.
    - unfold times. replace (100 * (Z.of_nat m + 1) - 1 + 1) with (100 * (Z.of_nat m + 1)) by lia.
      rewrite zrange_cons, zrange_nil by lia. cbn [filter]. rewrite (Z.mul_comm 100), Z.mod_mul by lia. reflexivity.
    - intros t Ht Hm. apply Z.mod_divide in Hm; [|lia]. destruct Hm as (q & ->). nia. }
  rewrite E. cbn [flat_map]. rewrite app_nil_r. unfold batch. rewrite times_one.
  rewrite (zrange_app 1 (100 * Z.of_nat m + 1) (100 * (Z.of_nat m + 1) + 1)) by lia. f_equal. f_equal; lia.
Qed.

Lemma all_sampled W k : 0 <= k -> k mod 100 = 0 -> content true 100 1 W [0%R] [] k k = [0%R] :: sampled W (zrange 1 (k + 1)).
Proof.
  intros Hk Hm. apply Z.mod_divide in Hm; [|lia]. destruct Hm as (q & ->). unfold content, resets_upto.
  assert (E : filter (fun t => existsb (Z.eqb t) []) (zrange 1 (q * 100 + 1)) = []).
  { generalize (zrange 1 (q * 100 + 1)). induction l as [|a l IH]; [reflexivity|exact IH]. }
  rewrite E. cbn [rev]. f_equal. f_equal. replace (q * 100) with (100 * Z.of_nat (Z.to_nat q)) by lia. apply batches.
Qed.

(** ** Bins and states *)
Lemma example_uniform : uniform_edges 200 (-25 / 10, 25 / 10)%R example_edges.
Proof.
  split; [reflexivity|]. intros i Hi. unfold example_edges. rewrite (nth_map_in _ _ _ _ 0%nat) by (rewrite seq_length; lia). rewrite seq_nth by lia. cbn [fst snd].
  replace (INR (0 + i)) with (INR i) by reflexivity. replace (INR 200) with 200%R by (rewrite INR_IZR_INZ; reflexivity). field.
Qed.
Lemma example_center i : (i < 200)%nat -> nth i (centers example_edges) 0%R = (-25 / 10 + INR i * (25 / 1000) + 125 / 10000)%R.
Proof.
  intro Hi. rewrite centers_nth by (cbn; lia). destruct example_uniform as (_ & U). unfold middle. rewrite !U by lia. cbn [fst snd]. rewrite (S_INR i).
  replace (INR 200) with 200%R by (rewrite INR_IZR_INZ; reflexivity). field.
Qed.
Lemma points_line h ex : h_edges h = [ex] -> hist_points h = map (fun x => [x]) (centers ex).
Proof.
  intro E. unfold hist_points, hist_axes. rewrite E. cbn [map length n_bins_of]. rewrite <- centers_length.
  pose proof (points_of_eq [centers ex] [length (centers ex)] eq_refl) as P. cbn [length] in P. rewrite P. clear P.
  assert (E2 : indices (listing [length (centers ex)]) = map (fun i => [i]) (seq 0 (length (centers ex)))).
  { cbn [listing swap01 rev app indices]. generalize (seq 0 (length (centers ex))). induction l as [|a l IH]; [reflexivity|]. cbn in *. now rewrite IH. }
  rewrite E2, map_map. cbn [map seq rev app swap01 nth].
  apply (nth_ext _ _ [] []); rewrite !map_length, seq_length; [reflexivity|]. intros n Hn.
  rewrite (nth_map_in _ _ _ _ 0%nat) by (now rewrite seq_length). rewrite seq_nth by assumption. rewrite (nth_map_in _ _ _ _ 0%R) by assumption. reflexivity.
Qed.

Definition example_states : list (list (xreal * xreal)) := [[(Fin (-25 / 10), Fin 0)]; [(Fin 0, Fin (25 / 10))]]%R.
Lemma example_masks masks : pos_inside_ranges 1 (map (fun x => [x]) (centers example_edges)) example_states = Ok masks ->
  masks = [repeat true 100 ++ repeat false 100; repeat false 100 ++ repeat true 100].
Proof.
  intro H. destruct (pos_inside_ranges_spec 1 (map (fun x => [x]) (centers example_edges)) example_states) as (m & E & F).
  { repeat constructor. }
  { apply Forall_map. apply Forall_forall. intros; reflexivity. }
  rewrite H in E. apply ok_inj in E. subst m. rewrite map_length, centers_length in F. change (length example_edges - 1)%nat with 200%nat in F.
  inversion F as [|s1 m1 ? ms1 (L1 & N1) F1]; subst. inversion F1 as [|s2 m2 ? ms2 (L2 & N2) F2]; subst. inversion F2; subst. clear F F1 F2 H.
  assert (P : forall j, (j < 200)%nat -> nth j (map (fun x => [x]) (centers example_edges)) [] = [(-25 / 10 + INR j * (25 / 1000) + 125 / 10000)%R]).
  { intros j Hj. rewrite (nth_map_in _ _ _ _ 0%R) by (rewrite centers_length; exact Hj). now rewrite example_center. }
  assert (B : forall j, (j < 200)%nat -> if (j <? 100)%nat then (INR j <= 99)%R else (100 <= INR j <= 199)%R).
  { intros j Hj. destruct (Nat.ltb_spec j 100); [replace 99%R with (INR 99) by (rewrite INR_IZR_INZ; reflexivity); apply le_INR; lia|].
    replace 100%R with (INR 100) by (rewrite INR_IZR_INZ; reflexivity). replace 199%R with (INR 199) by (rewrite INR_IZR_INZ; reflexivity). split; apply le_INR; lia. }
  assert (Q : forall j, (0 <= INR j)%R) by (intro; apply pos_INR).
  assert (G : forall (m : list bool) (f : nat -> bool), length m = 200%nat -> (forall j, (j < 200)%nat -> (nth j m false = true <-> f j = true)) -> m = map f (seq 0 200)).
  { intros m f L X. apply (nth_ext _ _ false false); [rewrite map_length, seq_length; exact L|]. intros j Hj. rewrite L in Hj.
    rewrite (nth_map_in _ _ _ _ 0%nat) by (rewrite seq_length; exact Hj). rewrite seq_nth by exact Hj. cbn [Nat.add]. specialize (X j Hj). destruct (nth j m false), (f j); intuition congruence. }
  f_equal; [|f_equal].
  - rewrite (G m1 (fun j => (j <? 100)%nat) L1); [reflexivity|]. intros j Hj. rewrite (N1 j Hj), (P j Hj). specialize (B j Hj). specialize (Q j). unfold in_state. cbn [length].
    destruct (Nat.ltb_spec j 100).
    + split; [reflexivity|intros _]. split; [reflexivity|]. intros d Hd. assert (d = 0%nat) as -> by lia. cbn. lra.
    + split; [|discriminate]. intros (_ & X). specialize (X 0%nat ltac:(lia)). cbn in X. lra.
  - rewrite (G m2 (fun j => negb (j <? 100)%nat) L2); [reflexivity|]. intros j Hj. rewrite (N2 j Hj), (P j Hj). specialize (B j Hj). specialize (Q j). unfold in_state. cbn [length].
    destruct (Nat.ltb_spec j 100).
    + split; [|discriminate]. intros (_ & X). specialize (X 0%nat ltac:(lia)). cbn in X. lra.
    + split; [reflexivity|intros _]. split; [reflexivity|]. intros d Hd. assert (d = 0%nat) as -> by lia. cbn. lra.
Qed.
Lemma count_in_app data m1 m2 : count_in data (m1 ++ m2) = (count_in (firstn (length m1) data) m1 + count_in (skipn (length m1) data) m2)%nat.
Proof.
  revert data. induction m1 as [|b m IH]; intro data; cbn [length app firstn skipn]; [destruct data; reflexivity|].
  destruct data as [|x data]; [destruct m2; reflexivity|]. cbn [count_in firstn skipn]. rewrite IH. lia.
Qed.
Lemma count_in_false data k : count_in data (repeat false k) = 0%nat.
Proof. revert data. induction k; intros [|x data]; cbn; auto. Qed.
Lemma count_in_true data k : (length data <= k)%nat -> count_in data (repeat true k) = fold_right Nat.add 0%nat data.
Proof. revert data. induction k; intros [|x data] H; cbn in *; auto; try lia. rewrite IHk by lia. reflexivity. Qed.
Lemma example_difference counts : length counts = 200%nat ->
  differences 1 [repeat true 100 ++ repeat false 100; repeat false 100 ++ repeat true 100] counts = [free_energy_difference 1 (right_half counts) (left_half counts)].
Proof.
  intro L. unfold differences. cbn [map]. rewrite !count_in_app, !repeat_length, !count_in_false, !count_in_true.
  - unfold right_half, left_half. now rewrite Nat.add_0_r.
  - rewrite firstn_length. lia.
  - rewrite skipn_length. lia.
Qed.

(** ** The objects of the example *)
Section example.
Context (e : env) (acts : list action) (n : Z) (w0 : world (e_rng e)).
Hypothesis HS : set_up e py_conv (meaning example_document) acts n w0.
Hypothesis G1 : griddata_exact (e_gd e).
Hypothesis G2 : griddata_pointwise (e_gd e).

Lemma example_ld : n = 10000 /\ ld_dt (w_ld w0) = (5 / 1000)%R /\ ld_kt (w_ld w0) = 1%R /\ pot_ndim (ld_pot (w_ld w0)) = 1%nat /\ length (pot_ranges (ld_pot (w_ld w0))) = 1%nat /\ built e example_config w0.
Proof using All.
  destruct HS as (c & w1 & Hp & H1 & H2 & Hn). rewrite example_accepted in Hp. apply ok_inj in Hp. subst c. cbn in Hn. injection Hn as <-.
  destruct (set_up_built _ _ _ _ _ H1 H2) as (B & L & _). split; [reflexivity|]. rewrite L. clear B0 HS H2 L || clear H2 L HS.
  destruct (example_sensible e G1 G2) as (Sp & _). destruct (potential_ok e _ _ Sp) as (pot & Epot & Nd & Rg & _).
  unfold setup_dynamics in H1. cbn [c_ld c_potential example_config] in H1. cbn [c_potential example_config] in Epot. rewrite Epot in H1. cbn [bind] in H1.
  apply bind_ok in H1. destruct H1 as ((ld & g) & E & H1). apply bind_ok in H1. destruct H1 as (ps & _ & H1). apply ok_inj in H1. subst w1. cbn [w_ld].
  unfold setup_ld in E. cbn -[new_rng] in E. apply bind_ok in E. destruct E as (g' & _ & E). apply ok_inj in E. injection E as <- <-. cbn [ld_dt ld_kt ld_pot].
  rewrite Nd, Rg. split; [reflexivity|]. split; [reflexivity|]. split; [reflexivity|]. split; [reflexivity|exact B].
Qed.

Lemma example_bins h : w_hist w0 = Some h -> h_edges (ha_hist h) = [example_edges].
Proof using All.
  intro Eh. destruct example_ld as (_ & _ & _ & Nd & _ & B). destruct (bu_hist _ _ _ B) as [X|(o & t & h' & Ec & _ & E & Eh')]; [congruence|].
  rewrite Eh in Eh'. injection Eh' as <-. cbn in Ec. injection Ec as <-. rewrite Nd in E. unfold setup_histogram in E. cbn -[ha_init Z.to_nat] in E.
  unfold ha_init in E. cbn [length Nat.eqb negb] in E. apply bind_ok in E. destruct E as (hh & E & E'). cbn [truthyZ andb] in E'. apply ok_inj in E'. subst h. cbn [ha_hist].
  destruct (hist_init_spec [Z.to_nat 200] [(-25 / 10, 25 / 10)%R] eq_refl) as (h2 & E2 & _ & F & _).
  { repeat constructor; lia. }
  { repeat constructor; cbn; lra. }
  rewrite E2 in E. apply ok_inj in E. subst hh. cbn [combine] in F. inversion F as [|? ex ? es U F']; subst. inversion F'; subst. f_equal. exact (uniform_unique _ _ _ _ U example_uniform).
Qed.

Lemma example_df masks r h : w_df w0 = Some (masks, r) -> w_hist w0 = Some h ->
  masks = [repeat true 100 ++ repeat false 100; repeat false 100 ++ repeat true 100].
Proof using All.
  intros Ed Eh. destruct example_ld as (_ & _ & _ & Nd & _ & B). destruct (bu_df _ _ _ B) as [X|(o & h' & d & Ec & Eh' & _ & E & Ed')]; [congruence|].
  rewrite Eh in Eh'. injection Eh' as <-. rewrite Ed in Ed'. injection Ed' as <-. injection Ec as <-.
  unfold setup_delta_f in E. assert (Es : state_ranges [("stride", VInt 100); ("filename", VStr "delta_f"); ("write-stride", VNone); ("fmt", VNone);
           ("state1-min", VFloats [Fin (-25 / 10)]); ("state1-max", VFloats [Fin 0]);
           ("state2-min", VFloats [Fin 0]); ("state2-max", VFloats [Fin (25 / 10)])]%R = Ok example_states) by reflexivity.
  rewrite Es in E. cbn [bind length Nat.ltb Nat.leb example_states] in E. apply bind_ok in E. destruct E as (m & E & E').
  apply bind_ok in E'. destruct E' as (s & _ & E'). apply bind_ok in E'. destruct E' as (ws & _ & E'). apply bind_ok in E'. destruct E' as (r' & _ & E'). apply ok_inj in E'. injection E' as -> _.
  pose proof (example_bins h Eh) as Hb. rewrite (points_line _ _ Hb), Hb in E. exact (example_masks _ E).
Qed.
End example.
