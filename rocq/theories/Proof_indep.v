(** Independence of the actions and of the number of steps (C67, C68) *)
From Coq Require Import Lia Lra.
From Verif Require Import PyBase Model_xr Model_input Spec_input Spec_rng Model_dyn Model_bd Model_traj Model_histaction Model_fes Model_deltaf
  Model_pdist Model_setup Model_main Spec_times Spec_traj Spec_trajrun Spec_histact Spec_setup Spec_fes Spec_pdist Spec_ld Spec_bdrun Spec_main Spec_whole
  Spec_files Spec_indep Proof_base Proof_input Proof_main Proof_main2 Proof_whole Proof_whole2 Proof_whole4 Proof_whole5 Proof_whole6 Proof_files10 Proof_repro3.
Open Scope string_scope.
Open Scope Z_scope.
Ltac Zify.zify_post_hook ::= idtac.

(** * Leaving out output actions *)
Record keep := mkKeep { k_traj : bool; k_hist : bool; k_fes : bool; k_df : bool; k_pd : bool }.
Definition closed (k : keep) : Prop :=
  (k_hist k = true -> k_traj k = true) /\ (k_fes k = true -> k_hist k = true) /\ (k_df k = true -> k_fes k = true).
Definition kept {A} (b : bool) (o : option A) : option A := if b then o else None.
Definition mask {rng} (k : keep) (w : world rng) : world rng :=
  mkWorld (w_ld w) (w_ps w) (w_rng w) (w_bd w) (kept (k_traj k) (w_traj w)) (kept (k_hist k) (w_hist w)) (kept (k_fes k) (w_fes w))
    (kept (k_df k) (w_df w)) (kept (k_pd k) (w_pd w)).
Definition cmask (k : keep) (c : config) : config :=
  mkConfig (c_ld c) (c_potential c) (c_particles c) (c_birth_death c) (kept (k_traj k) (c_trajectories c)) (kept (k_hist k) (c_histogram c))
    (kept (k_fes k) (c_fes c)) (kept (k_df k) (c_delta_f c)) (kept (k_pd k) (c_particle_distribution c)).

Lemma composed_mask e n w0 w k : closed k -> composed e n w0 w -> composed e n (mask k w0) (mask k w).
Proof.
  intros (K1 & K2 & K3) (D & hs & fs & Hh & Cl & Cp & Cg & Cb & Ct & Ch & Cf & Cd & Cq).
  exists D, hs, fs. cbv zeta. unfold mask. cbn [w_ld w_ps w_rng w_bd w_traj w_hist w_fes w_df w_pd].
  split; [exact Hh|]. split; [exact Cl|]. split; [exact Cp|]. split; [exact Cg|]. split; [exact Cb|].
  destruct k as [kt kh kf kd kp]. cbn [k_traj k_hist k_fes k_df k_pd] in *. unfold kept.
  split; [destruct kt; [exact Ct|reflexivity]|].
  split; [destruct kh; [rewrite K1 by reflexivity; exact Ch|reflexivity]|].
  split; [destruct kf; [rewrite K2 by reflexivity; exact Cf|reflexivity]|].
  split; [destruct kd; [rewrite K3 by reflexivity; exact Cd|reflexivity]|].
  destruct kp; [exact Cq|reflexivity].
Qed.

Lemma composed_fun e n w0 w w' : 0 < n -> composed e n w0 w -> composed e n w0 w' -> w = w'.
Proof. intros Hn H H'. apply composed_loop in H, H'; try exact Hn. rewrite H in H'. now apply ok_inj in H'. Qed.

(** the setup without these actions *)
Lemma when_step e (b : bool) (M : world (e_rng e) -> world (e_rng e)) o a f l s s' :
  when e o a f s = Ok s' ->
  (forall d w w', f d w = Ok w' -> if b then f d (M w) = Ok (M w') else M w' = M w) ->
  exists l', when e (kept b o) a f (l, M (snd s)) = Ok (l', M (snd s')).
Proof.
  intros H Hf. unfold when in H. destruct o as [[|kv d]|].
  - apply ok_inj in H. subst. destruct b; cbn; eauto.
  - apply bind_ok in H. destruct H as (w & E & H). apply ok_inj in H. subst s'. cbn [snd]. specialize (Hf _ _ _ E). destruct b; cbn [kept when snd fst].
    + rewrite Hf. cbn [bind]. eauto.
    + rewrite Hf. eauto.
  - apply ok_inj in H. subst. destruct b; cbn; eauto.
Qed.

Lemma setup_mask e c w acts w' k : closed k -> setup_actions e c w = Ok (acts, w') ->
  exists acts', setup_actions e (cmask k c) (mask k w) = Ok (acts', mask k w').
Proof.
  intros (K1 & K2 & K3) H. unfold setup_actions in *. cbv zeta in *.
  apply bind_ok in H. destruct H as (s1 & H1 & H). apply bind_ok in H. destruct H as (s2 & H2 & H).
  apply bind_ok in H. destruct H as (s3 & H3 & H). apply bind_ok in H. destruct H as (s4 & H4 & H).
  apply bind_ok in H. destruct H as (s5 & H5 & H6).
  cbn [cmask c_birth_death c_trajectories c_histogram c_fes c_delta_f c_particle_distribution].
  apply (when_step e true (mask k) _ _ _ [ALd]) in H1; [|intros d v v' E; binds E; apply ok_inj in E; subst v'; cbn [mask w_ld]; rewrite E0; reflexivity].
  cbn [kept snd] in H1. destruct H1 as (l1 & ->). cbn [bind].
  apply (when_step e (k_traj k) (mask k) _ _ _ l1) in H2.
  2: { intros d v v' E. binds E. apply ok_inj in E. subst v'. destruct k as [[] kh kf kd kp]; unfold mask; cbn [w_ps k_traj]; [rewrite E0|]; reflexivity. }
  destruct H2 as (l2 & ->). cbn [bind].
  apply (when_step e (k_hist k) (mask k) _ _ _ l2) in H3.
  2: { intros d v v' E. binds E. apply ok_inj in E. subst v'. destruct k as [kt [] kf kd kp]; unfold mask; cbn [k_hist k_traj] in *; [|reflexivity].
       rewrite K1 by reflexivity. cbn [kept w_traj w_ld]. rewrite E0. cbn [bind]. rewrite E1. reflexivity. }
  destruct H3 as (l3 & ->). cbn [bind].
  apply (when_step e (k_fes k) (mask k) _ _ _ l3) in H4.
  2: { intros d v v' E. binds E. apply ok_inj in E. subst v'. destruct k as [kt kh [] kd kp]; unfold mask; cbn [k_hist k_fes] in *; [|reflexivity].
       rewrite K2 by reflexivity. cbn [kept w_hist w_ld]. rewrite E0. cbn [bind]. rewrite E1. reflexivity. }
  destruct H4 as (l4 & ->). cbn [bind].
  apply (when_step e (k_df k) (mask k) _ _ _ l4) in H5.
  2: { intros d v v' E. binds E. apply ok_inj in E. subst v'. destruct k as [kt kh kf [] kp]; unfold mask; cbn [k_hist k_fes k_df] in *; [|reflexivity].
       rewrite (K2 (K3 eq_refl)), K3 by reflexivity. cbn [kept w_hist w_fes w_ld]. rewrite E0. cbn [bind]. rewrite E1. cbn [bind]. rewrite E2. reflexivity. }
  destruct H5 as (l5 & ->). cbn [bind].
  apply (when_step e (k_pd k) (mask k) _ _ _ l5) in H6.
  2: { intros d v v' E. binds E. apply ok_inj in E. subst v'. destruct k as [kt kh kf kd []]; unfold mask; cbn [k_pd] in *; [|reflexivity].
       rewrite E0. reflexivity. }
  exact H6.
Qed.

Lemma dynamics_blank e c w k : setup_dynamics e c = Ok w -> mask k w = w.
Proof. intro H. unfold setup_dynamics in H. binds H. apply ok_inj in H. subst w. destruct k as [[] [] [] [] []]; reflexivity. Qed.

(** * Parsing *)
Lemma optional_same secs secs' name f : assoc name secs = assoc name secs' -> optional_section secs name f = optional_section secs' name f.
Proof. intro H. unfold optional_section. rewrite H. reflexivity. Qed.

Record parts (cv : conv) (secs : list (string * section)) (c : config) : Prop := {
  pa_ld : exists s, assoc "ld" secs = Some s /\ parse_ld cv s = Ok (c_ld c);
  pa_pot : exists s, assoc "potential" secs = Some s /\ parse_potential cv s = Ok (c_potential c);
  pa_part : exists s, assoc "particles" secs = Some s /\ parse_particles cv s = Ok (c_particles c);
  pa_bd : optional_section secs "birth-death" (parse_birth_death cv (c_potential c)) = Ok (c_birth_death c);
  pa_traj : optional_section secs "trajectories" (parse_trajectories cv) = Ok (c_trajectories c);
  pa_hist : optional_section secs "histogram" (parse_histogram cv (c_potential c)) = Ok (c_histogram c);
  pa_fes : optional_section secs "fes" (parse_fes cv (c_histogram c)) = Ok (c_fes c);
  pa_df : optional_section secs "delta-f" (parse_delta_f cv (c_fes c)) = Ok (c_delta_f c);
  pa_pd : optional_section secs "particle-distribution" (parse_particle_distribution cv) = Ok (c_particle_distribution c) }.
Lemma parse_parts cv secs c : parse_all cv secs = Ok c -> parts cv secs c.
Proof.
  unfold parse_all. destruct (negb _); [discriminate|].
  destruct (assoc "ld" secs) as [s1|] eqn:A1; [|discriminate]. destruct (assoc "potential" secs) as [s2|] eqn:A2; [|discriminate].
  destruct (assoc "particles" secs) as [s3|] eqn:A3; [|discriminate].
  intro H. binds H. apply ok_inj in H. subst c. constructor; cbn [c_ld c_potential c_particles c_birth_death c_trajectories c_histogram c_fes c_delta_f c_particle_distribution]; eauto.
Qed.

Lemma parse_mask cv secs secs' c c' k : closed k -> parse_all cv secs = Ok c -> parse_all cv secs' = Ok c' ->
  same_sections secs secs' simulation_sections ->
  (k_traj k = true -> same_sections secs secs' ["trajectories"]) ->
  (k_hist k = true -> same_sections secs secs' ["histogram"]) ->
  (k_fes k = true -> same_sections secs secs' ["fes"]) ->
  (k_df k = true -> same_sections secs secs' ["delta-f"]) ->
  (k_pd k = true -> same_sections secs secs' ["particle-distribution"]) ->
  cmask k c = cmask k c'.
Proof.
  intros (K1 & K2 & K3) H H' S St Sh Sf Sd Sp. apply parse_parts in H, H'. destruct H as [(l & L1 & L2) (p & P1 & P2) (q & Q1 & Q2) B T Hi F Df Pd].
  destruct H' as [(l' & L1' & L2') (p' & P1' & P2') (q' & Q1' & Q2') B' T' Hi' F' Df' Pd'].
  rewrite (S "ld"), L1' in L1 by (cbn; auto). injection L1 as <-. rewrite L2 in L2'. apply ok_inj in L2'.
  rewrite (S "potential"), P1' in P1 by (cbn; auto). injection P1 as <-. rewrite P2 in P2'. apply ok_inj in P2'.
  rewrite (S "particles"), Q1' in Q1 by (cbn; auto). injection Q1 as <-. rewrite Q2 in Q2'. apply ok_inj in Q2'.
  rewrite (optional_same secs secs') in B by (apply S; cbn; auto). rewrite P2', B' in B. apply ok_inj in B.
  rewrite P2' in Hi. destruct k as [kt kh kf kd kp]. unfold cmask. cbn [k_traj k_hist k_fes k_df k_pd] in *. rewrite L2', P2', Q2', B.
  assert (ET : kept kt (c_trajectories c) = kept kt (c_trajectories c')).
  { destruct kt; [|reflexivity]. cbn [kept]. rewrite (optional_same secs secs') in T by (apply St; cbn; auto). rewrite T in T'. now apply ok_inj in T'. }
  assert (EH : kept kh (c_histogram c) = kept kh (c_histogram c')).
  { destruct kh; [|reflexivity]. cbn [kept]. rewrite (optional_same secs secs') in Hi by (apply Sh; cbn; auto). rewrite Hi in Hi'. now apply ok_inj in Hi'. }
  assert (EF : kept kf (c_fes c) = kept kf (c_fes c')).
  { destruct kf; [|reflexivity]. rewrite K2 in EH by reflexivity. cbn [kept] in *. rewrite (optional_same secs secs'), EH in F by (apply Sf; cbn; auto). rewrite F in F'. now apply ok_inj in F'. }
  assert (ED : kept kd (c_delta_f c) = kept kd (c_delta_f c')).
  { destruct kd; [|reflexivity]. rewrite K3 in EF by reflexivity. cbn [kept] in *. rewrite (optional_same secs secs'), EF in Df by (apply Sd; cbn; auto). rewrite Df in Df'. now apply ok_inj in Df'. }
  assert (EP : kept kp (c_particle_distribution c) = kept kp (c_particle_distribution c')).
  { destruct kp; [|reflexivity]. cbn [kept] in *. rewrite (optional_same secs secs') in Pd by (apply Sp; cbn; auto). rewrite Pd in Pd'. now apply ok_inj in Pd'. }
  rewrite ET, EH, EF, ED, EP. reflexivity.
Qed.

Lemma finished_mask e cv secs secs' w w' k : closed k ->
  main e cv (Some (Ok secs)) = Finished w -> main e cv (Some (Ok secs')) = Finished w' ->
  same_sections secs secs' simulation_sections ->
  (k_traj k = true -> same_sections secs secs' ["trajectories"]) ->
  (k_hist k = true -> same_sections secs secs' ["histogram"]) ->
  (k_fes k = true -> same_sections secs secs' ["fes"]) ->
  (k_df k = true -> same_sections secs secs' ["delta-f"]) ->
  (k_pd k = true -> same_sections secs secs' ["particle-distribution"]) ->
  mask k w = mask k w'.
Proof.
  intros K H H' S St Sh Sf Sd Sp.
  destruct (finished_set_up _ _ _ _ H) as (s1 & acts & n & w0 & Es & HS & Hn & _). injection Es as <-.
  destruct (finished_set_up _ _ _ _ H') as (s2 & acts' & n' & w0' & Es' & HS' & _ & _). injection Es' as <-.
  apply (main_composed _ _ _ _ _ _ HS) in H. apply (main_composed _ _ _ _ _ _ HS') in H'.
  destruct HS as (c & w1 & Hp & H1 & Ha & N). destruct HS' as (c' & w1' & Hp' & H1' & Ha' & N').
  pose proof (parse_mask _ _ _ _ _ _ K Hp Hp' S St Sh Sf Sd Sp) as EC.
  assert (EL : c_ld c = c_ld c') by exact (f_equal c_ld EC). rewrite EL, N' in N. injection N as <-.
  assert (E1 : w1 = w1').
  { assert (X : setup_dynamics e (cmask k c) = setup_dynamics e (cmask k c')) by now rewrite EC.
    change (setup_dynamics e c = setup_dynamics e c') in X. rewrite X, H1' in H1. now apply ok_inj in H1. }
  subst w1'. destruct (setup_mask _ _ _ _ _ _ K Ha) as (l & X). destruct (setup_mask _ _ _ _ _ _ K Ha') as (l' & X').
  rewrite EC, X' in X. apply ok_inj in X. apply (f_equal snd) in X. cbn [snd] in X. rename X into E0.
  apply (composed_mask _ _ _ _ _ K) in H, H'. rewrite <- E0 in H. eapply composed_fun; eassumption.
Qed.

Theorem outputs_independent e cv secs secs' w w' :
  main e cv (Some (Ok secs)) = Finished w -> main e cv (Some (Ok secs')) = Finished w' ->
  same_sections secs secs' simulation_sections ->
  w_ps w = w_ps w' /\ w_rng w = w_rng w' /\ w_bd w = w_bd w' /\
  (same_sections secs secs' ["particle-distribution"] -> w_pd w = w_pd w') /\
  (same_sections secs secs' ["trajectories"] -> w_traj w = w_traj w') /\
  (same_sections secs secs' ["trajectories"; "histogram"] -> w_hist w = w_hist w') /\
  (same_sections secs secs' ["trajectories"; "histogram"; "fes"] -> w_fes w = w_fes w') /\
  (same_sections secs secs' ["trajectories"; "histogram"; "fes"; "delta-f"] -> w_df w = w_df w').
Proof.
  intros H H' S.
  assert (X := fun k K => finished_mask e cv secs secs' w w' k K H H' S).
  assert (sub : forall l m, (forall x, In x m -> In x l) -> same_sections secs secs' l -> same_sections secs secs' m) by (intros l m I J x Hx; apply J, I, Hx).
  assert (D := X (mkKeep false false false false false)). unfold closed in D. cbn [k_traj k_hist k_fes k_df k_pd] in D.
  specialize (D ltac:(auto) ltac:(discriminate) ltac:(discriminate) ltac:(discriminate) ltac:(discriminate) ltac:(discriminate)).
  split; [exact (f_equal w_ps D)|]. split; [exact (f_equal w_rng D)|]. split; [exact (f_equal w_bd D)|].
  split; [intro A; refine (f_equal w_pd (X (mkKeep false false false false true) _ _ _ _ _ _))|
  split; [intro A; refine (f_equal w_traj (X (mkKeep true false false false false) _ _ _ _ _ _))|
  split; [intro A; refine (f_equal w_hist (X (mkKeep true true false false false) _ _ _ _ _ _))|
  split; [intro A; refine (f_equal w_fes (X (mkKeep true true true false false) _ _ _ _ _ _))|
  intro A; refine (f_equal w_df (X (mkKeep true true true true false) _ _ _ _ _ _))]]]];
  unfold closed; cbn [k_traj k_hist k_fes k_df k_pd]; auto; try discriminate; intros _; revert A; apply sub; cbn; intuition.
Qed.

(** * Longer runs *)
Lemma get_ld c c' key : same_but_steps c c' -> key <> "n_steps" -> get_dict (c_ld c) key = get_dict (c_ld c') key.
Proof. intros S H. unfold get_dict. rewrite (sb_ld _ _ S key H). reflexivity. Qed.
Lemma dynamics_steps e c c' : same_but_steps c c' -> setup_dynamics e c = setup_dynamics e c'.
Proof.
  intro S. unfold setup_dynamics. rewrite (sb_potential _ _ S), (sb_particles _ _ S).
  destruct (setup_potential e (c_potential c')) as [pot|]; [cbn [bind]|reflexivity].
  assert (E : setup_ld e (c_ld c) pot = setup_ld e (c_ld c') pot); [|rewrite E; reflexivity].
  unfold setup_ld. rewrite !(get_ld c c' _ S) by discriminate. reflexivity.
Qed.
Lemma actions_steps e c c' w : same_but_steps c c' -> setup_actions e c w = setup_actions e c' w.
Proof.
  intro S. unfold setup_actions. rewrite (sb_birth_death _ _ S), (sb_trajectories _ _ S), (sb_histogram _ _ S), (sb_fes _ _ S), (sb_delta_f _ _ S),
    (sb_particle_distribution _ _ S). reflexivity.
Qed.

Lemma times_more n n' s : 0 <= n <= n' -> times 0 n' s = (times 0 n s ++ times n n' s)%list.
Proof.
  intro H. unfold times. rewrite <- filter_app. f_equal. rewrite (zrange_app (0 + 1) (n + 1) (n' + 1)) by lia. reflexivity.
Qed.
Lemma times_in n s k : In k (times 0 n s) -> 0 < k <= n.
Proof. unfold times. rewrite filter_In, in_zrange. lia. Qed.

Theorem longer_run e cv secs secs' c c' n n' w w' :
  parse_all cv secs = Ok c -> parse_all cv secs' = Ok c' -> same_but_steps c c' ->
  assoc "n_steps" (c_ld c) = Some (VInt n) -> assoc "n_steps" (c_ld c') = Some (VInt n') -> n <= n' ->
  main e cv (Some (Ok secs)) = Finished w -> main e cv (Some (Ok secs')) = Finished w' -> rng_ok (e_rng e) -> w_ps w <> [] ->
  (exists w0 D, set_up e cv secs (configured secs) n w0 /\ history e w0 n' D /\
     w_ps w = walkers D n /\ w_rng w = snd (fst (D n)) /\ w_ps w' = walkers D n' /\ w_rng w' = snd (fst (D n'))) /\
  match w_traj w, w_traj w' with
  | Some t, Some t' =>
      match tr_files t, tr_files t' with
      | Some f, Some f' => Forall2 (fun rows rows' => exists more, rows' = rows ++ more)%list f f'
      | None, None => True
      | _, _ => False
      end
  | None, None => True
  | _, _ => False
  end.
Proof.
  intros Hp Hp' S Ns Ns' Hl H H' R Hw.
  destruct (finished_set_up _ _ _ _ H) as (s1 & acts & n1 & w0 & Es & HS & Hn & _). injection Es as <-.
  destruct (finished_set_up _ _ _ _ H') as (s2 & acts' & n2 & w0' & Es' & HS' & Hn' & _). injection Es' as <-.
  pose proof HS as HS0. pose proof HS' as HS0'.
  destruct HS as (c1 & w1 & P1 & H1 & Ha & N). destruct HS' as (c1' & w1' & P1' & H1' & Ha' & N').
  rewrite Hp in P1. apply ok_inj in P1. subst c1. rewrite Hp' in P1'. apply ok_inj in P1'. subst c1'.
  rewrite Ns in N. injection N as <-. rewrite Ns' in N'. injection N' as <-.
  assert (Eact : acts = configured secs) by (eapply main_of_setup; exact HS0).
  rewrite (dynamics_steps e c c' S), H1' in H1. apply ok_inj in H1. subst w1'.
  rewrite (actions_steps e c c' w1 S), Ha' in Ha. apply ok_inj in Ha. injection Ha as <- <-.
  pose proof H as F. pose proof H' as F'. apply (main_composed _ _ _ _ _ _ HS0) in H. apply (main_composed _ _ _ _ _ _ HS0') in H'.
  destruct H as (D & hs & fs & Hh & Cl & Cp & Cg & _ & Ct & _). destruct H' as (D' & hs' & fs' & Hh' & Cl' & Cp' & Cg' & _ & Ct' & _).
  assert (Hd : forall k, 0 <= k -> k <= n -> D k = D' k).
  { apply (history_det e w0'); [exact Hh|]. destruct Hh' as [X Y]. split; [exact X|]. intros k Hk. apply Y. lia. }
  assert (Hw0 : w_ps w0' <> []).
  { rewrite Cp in Hw. intro E0. assert (L : length (walkers (clamped n D) n) = 0%nat).
    { unfold walkers. apply (clamped_ind (fun d => length (fst (fst d)) = 0%nat)); [lia|destruct Hh as [-> _]; unfold dyn_of; cbn [fst]; rewrite E0; reflexivity|].
      intros j Hj IH. destruct Hh as [_ Hh]. rewrite (step_keeps _ _ _ _ _ R (Hh j Hj)). exact IH. }
    unfold walkers in L. rewrite clamped_in in L by lia. unfold walkers in Hw. destruct (fst (fst (D n))); [congruence|discriminate]. }
  split.
  { exists w0', D'. split; [rewrite <- Eact; exact HS0|]. split; [exact Hh'|]. unfold walkers in *. rewrite <- !Hd by lia. auto. }
  destruct (w_traj w0') as [t0|] eqn:Et; [|rewrite Ct, Ct'; exact I].
  assert (O : exists o, c_trajectories c = Some o).
  { destruct (set_up_built _ _ _ _ _ H1' Ha') as (B & _). destruct (bu_traj _ _ _ B) as [?|(o & t1 & Hc & _)]; [congruence|]. exists o. rewrite (sb_trajectories _ _ S). exact Hc. }
  destruct O as (o & Ho). pose proof Ho as Ho'. rewrite (sb_trajectories _ _ S) in Ho'.
  destruct (finished_trajectories _ _ _ _ _ _ _ HS0 F R Hw0 _ _ Hp Ho ltac:(congruence)) as (D1 & t & G1 & _ & _ & -> & E1).
  destruct (finished_trajectories _ _ _ _ _ _ _ HS0' F' R Hw0 _ _ Hp' Ho' ltac:(congruence)) as (D2 & t' & G2 & _ & _ & -> & E2).
  rewrite E1, E2. destruct (opt_set o "filename"); [|exact I].
  assert (Gd : forall k, 0 <= k -> k <= n -> D1 k = D2 k).
  { apply (history_det e w0'); [exact G1|]. destruct G2 as [X Y]. split; [exact X|]. intros k Hk. apply Y. lia. }
  unfold traj_files. induction (seq 0 (length (w_ps w0'))) as [|i l IH]; cbn [map]; constructor; [|exact IH].
  unfold traj_file. rewrite (times_more n n') by lia. rewrite map_app.
  eexists. f_equal. apply map_ext_in. intros k Hk. apply times_in in Hk. unfold walkers. rewrite Gd by lia. reflexivity.
Qed.
