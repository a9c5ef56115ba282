(** The file operations of the program (C48, C61): results, and what is recorded *)
From Coq Require Import Lia Lra.
From Verif Require Import PyBase Model_xr Model_input Model_dyn Model_bd Model_traj Model_hist Model_histaction Model_fes Model_deltaf Model_pdist
  Model_rec Model_setup Model_main Proof_base Proof_input Proof_main Proof_main2 Proof_whole Proof_whole2 Model_files Spec_main Spec_files Proof_files Proof_files2.
Open Scope string_scope.
Open Scope Z_scope.
Open Scope list_scope.
Ltac Zify.zify_post_hook ::= idtac.

(** * The results do not depend on the files *)
Lemma wbind_snd {A B} (m : wio A) (f : A -> wio B) : snd (wbind m f) = (do a <- snd m; snd (f a)).
Proof. destruct m as [ops [a|x]]; cbn; [|reflexivity]. destruct (f a). reflexivity. Qed.
Lemma foldW_snd {A S} (f : S -> A -> wio S) (g : S -> A -> res S) : (forall s a, snd (f s a) = g s a) ->
  forall l s, snd (foldW f l s) = foldM g l s.
Proof.
  intro H. induction l as [|a l IH]; intro s; [reflexivity|]. cbn [foldW foldM]. rewrite wbind_snd, H.
  destruct (g s a); cbn [bind]; [apply IH|reflexivity].
Qed.
Lemma run_w_snd e fe c a k w : snd (run_action_w e fe c a k w) = run_action e a k w.
Proof. unfold run_action_w. destruct (run_action e a k w); reflexivity. Qed.
Lemma final_w_snd e fe c a k w : snd (final_run_action_w e fe c a k w) = final_run_action e a k w.
Proof. unfold final_run_action_w. destruct (final_run_action e a k w); reflexivity. Qed.
Lemma main_loop_snd e fe c acts n w :
  snd (main_loop_w e fe c acts n w) = main_loop (run_action e) (final_run_action e) acts n w.
Proof.
  unfold main_loop_w, main_loop. rewrite wbind_snd.
  rewrite (foldW_snd _ (fun w step => foldM (fun w a => run_action e a step w) acts w)).
  2:{ intros s k. apply foldW_snd. intros. apply run_w_snd. }
  destruct (foldM _ _ w); cbn [bind]; [|reflexivity]. apply foldW_snd. intros. apply final_w_snd.
Qed.

Definition dims_ok (n : nat) : Prop := n = 1%nat \/ n = 2%nat \/ n = 3%nat.
Lemma setup_dims e c w : setup_dynamics e c = Ok w -> dims_ok (pot_ndim (ld_pot (w_ld w))).
Proof.
  intro H. unfold setup_dynamics in H. binds H. apply ok_inj in H. subst w. cbn [w_ld].
  rewrite (setup_ld_pot _ _ _ _ _ E0). clear - E.
  assert (P : forall co r bc p, poly_init co r bc = Ok p -> dims_ok (pot_ndim p)).
  { intros co r bc p H. unfold poly_init in H. destruct (Nat.ltb 3 _) eqn:E1; [discriminate|].
    destruct (Nat.eqb_spec (length (a_shape co)) 0); [discriminate|]. destruct (existsb _ _); [discriminate|].
    apply ok_inj in H. subst p. cbn [pot_ndim]. apply Nat.ltb_ge in E1. unfold dims_ok. lia. }
  unfold setup_potential in E. binds E. destruct (vstr_is _ "polynomial").
  - destruct (vint_is _ 1); binds E; eapply P; exact E.
  - destruct (vstr_is _ "mueller-brown"); [|discriminate]. binds E. apply ok_inj in E. subst x. right. left. reflexivity.
Qed.
Lemma fields_ok n : dims_ok n -> get_fields n = Ok (firstn n ["x"; "y"; "z"]).
Proof. intros [-> | [-> | -> ]]; reflexivity. Qed.

(** * The setup initialises the tables *)
Definition is_init (op : fop) : Prop := match op with OInit _ _ _ => True | _ => False end.
Definition wspec {A} (m : wio A) (r : res A) (Q : A -> list fop -> Prop) : Prop :=
  snd m = r /\ Forall is_init (fst m) /\ forall a, r = Ok a -> Q a (fst m).
Lemma wspec_bind {A B} (m : wio A) r Q (f : A -> wio B) (g : A -> res B) Q' : wspec m r Q ->
  (forall a ops, r = Ok a -> Q a ops -> wspec (f a) (g a) (fun b ops' => Q' b (ops ++ ops'))) ->
  wspec (wbind m f) (do a <- r; g a) Q'.
Proof.
  intros (H1 & H2 & H3) Hf. destruct m as [ops [a|x]]; cbn [snd fst wbind] in *; subst r; cbn [bind].
  - destruct (Hf a ops eq_refl (H3 a eq_refl)) as (F1 & F2 & F3). destruct (f a) as [ops' rb]. cbn [fst snd] in *.
    split; [exact F1|]. split; [apply Forall_app; auto|]. exact F3.
  - split; [reflexivity|]. split; [exact H2|]. discriminate.
Qed.
Lemma wspec_lift {A} (r : res A) : wspec (lift r) r (fun _ ops => ops = []).
Proof. split; [reflexivity|]. split; [constructor|auto]. Qed.
Lemma wspec_tell {A} ops (a : A) : Forall is_init ops -> wspec (tell ops a) (Ok a) (fun b ops' => b = a /\ ops' = ops).
Proof. intro H. split; [reflexivity|]. split; [exact H|]. intros b Hb. apply ok_inj in Hb. auto. Qed.
Lemma wspec_weaken {A} (m : wio A) r (Q Q' : A -> list fop -> Prop) : wspec m r Q -> (forall a ops, r = Ok a -> Q a ops -> Q' a ops) -> wspec m r Q'.
Proof. intros (H1 & H2 & H3) H. split; [exact H1|]. split; [exact H2|]. intros a Ha. apply H; auto. Qed.
Lemma wspec_eq {A} (m : wio A) r r' Q : r = r' -> wspec m r' Q -> wspec m r Q.
Proof. now intros ->. Qed.
Lemma bind_ret {A} (r : res A) : (do a <- r; Ok a) = r.
Proof. destruct r; reflexivity. Qed.

Definition header (fields : list string) (constants : list (string * string)) : list line :=
  match fields with [] => [] | _ => header_of fields constants end.
Definition inits (ops : list fop) (T : list (string * option (list line))) : Prop :=
  Forall2 (fun op t => exists f k, op = OInit (fst t) f k /\ snd t = Some (header f k)) ops T.
Lemma inits_app o1 o2 t1 t2 : inits o1 t1 -> inits o2 t2 -> inits (o1 ++ o2) (t1 ++ t2).
Proof. apply Forall2_app. Qed.

Section setup.
Context (e : env) (fe : files_env) (c : config).
Notation stats_files := (stats_files e fe c). Notation trajectory_files := (trajectory_files e c).
Notation histogram_files := (histogram_files e fe c). Notation fes_files := (fes_files e fe c).
Notation plot_files := (plot_files e c). Notation delta_f_files := (delta_f_files e fe c).
Notation distribution_files := (distribution_files e fe c).
Notation output_files := (output_files e fe c).

Lemma bd_init_attrs gd nan dt stride bw kt rate recalc var eqd ss tf par :
  bd_init gd nan dt stride bw kt rate recalc var eqd ss tf = Ok par ->
  bd_dt par = (dt * IZR stride)%R /\ bd_bw par = bw /\ bd_kt par = kt /\ bd_to_file par = tf.
Proof.
  unfold bd_init. destruct (Req_EM_T kt 0); [discriminate|]. cbv zeta.
  destruct (match var with Some v => v | None => VOrig end); [| destruct eqd; [|discriminate]..]; intro H; binds H;
    apply ok_inj in H; subst par; auto.
Qed.
Lemma bd_spec o ld : wspec (setup_birth_death_w e fe o ld) (setup_birth_death e o ld) (fun pg ops =>
  ops = if bd_to_file (fst pg)
        then [OInit (file_opt o "stats-filename") stats_fields
                [("timestep", fe_float fe (bd_dt (fst pg))); ("kernel_bandwidth", fe_array fe (bd_bw (fst pg)));
                 ("kt", fe_float fe (bd_kt (fst pg)))]] else []).
Proof.
  unfold setup_birth_death_w, setup_birth_death.
  eapply wspec_bind; [apply wspec_lift|]. intros bw o1 _ ->. eapply wspec_bind; [apply wspec_lift|]. intros var o2 _ ->.
  eapply wspec_bind; [apply wspec_lift|]. intros eqd o3 _ ->. eapply wspec_bind; [apply wspec_lift|]. intros stride o4 _ ->.
  eapply wspec_bind; [apply wspec_lift|]. intros rate o5 _ ->. eapply wspec_bind; [apply wspec_lift|]. intros seed o6 _ ->.
  eapply wspec_bind; [apply wspec_lift|]. intros ss o7 _ ->. eapply wspec_bind; [apply wspec_lift|]. intros g o8 _ ->.
  cbn [app].
  set (b := bd_init _ _ _ _ _ _ _ _ _ _ _ _).
  apply (wspec_eq _ _ (do _ <- (if Req_EM_T (ld_kt ld) 0 then Err ZeroDivisionError else Ok tt); do _ <- Ok tt; do par <- b; Ok (par, g))).
  { unfold b, bd_init. destruct (Req_EM_T (ld_kt ld) 0); reflexivity. }
  eapply wspec_bind; [apply wspec_lift|]. intros [] o9 _ ->.
  eapply wspec_bind with (Q := fun _ ops => ops = if v_true (get_dict o "stats-filename")
     then [OInit (file_opt o "stats-filename") stats_fields
                         [("timestep", fe_float fe (ld_dt ld * IZR stride)%R); ("kernel_bandwidth", fe_array fe bw);
                          ("kt", fe_float fe (ld_kt ld))]] else []).
  { clear b. destruct (v_true (get_dict o "stats-filename")).
    - eapply wspec_weaken; [apply wspec_tell; repeat constructor|]. intros [] ops _ [_ H]. exact H.
    - eapply wspec_weaken; [apply wspec_tell; constructor|]. intros [] ops _ [_ H]. exact H. }
  intros [] o10 _ ->. eapply wspec_bind; [apply wspec_lift|]. intros par o11 Hb ->.
  eapply wspec_weaken; [apply wspec_tell; constructor|]. intros [par' g'] ops _ [Hp ->]. injection Hp as -> ->.
  cbn [fst]. destruct (bd_init_attrs _ _ _ _ _ _ _ _ _ _ _ _ _ Hb) as (-> & -> & -> & Htf). rewrite Htf. cbn [app]. rewrite !app_nil_r. reflexivity.
Qed.

Definition others_none (w : world (e_rng e)) (l : list action) : Prop := Forall (fun a => is_set w a = false) l.
Definition set_state (ld : ldpar) (ps : list particle) (later : list action) (s : list action * world (e_rng e)) (ops : list fop) : Prop :=
  w_ld (snd s) = ld /\ w_ps (snd s) = ps /\ inits ops (output_files (snd s)) /\ others_none (snd s) later.

Lemma when_spec o a setup_w setup ld ps a' later s0 ops0 : a' = a -> set_state ld ps (a' :: later) s0 ops0 ->
  (forall d w ops, o = Some d -> set_state ld ps (a :: later) (fst s0, w) ops ->
     wspec (setup_w d w) (setup d w) (fun w' ops' => w_ld w' = ld /\ w_ps w' = ps /\ inits (ops ++ ops') (output_files w') /\ others_none w' later)) ->
  wspec (when_w e o a setup_w s0) (when e o a setup s0) (fun s ops => set_state ld ps later s (ops0 ++ ops)).
Proof.
  intros -> Hs H. assert (Same : wspec (tell [] s0) (Ok s0) (fun s ops => set_state ld ps later s (ops0 ++ ops))).
  { eapply wspec_weaken; [apply wspec_tell; constructor|]. intros s ops _ (-> & ->). rewrite app_nil_r.
    destruct Hs as (H1 & H2 & H3 & H4). split; [exact H1|]. split; [exact H2|]. split; [exact H3|]. now inversion H4. }
  unfold when_w, when. destruct o as [[|kv d]|]; try exact Same.
  destruct s0 as [l w]. cbn [fst snd] in *. eapply wspec_bind; [exact (H (kv :: d) w ops0 eq_refl Hs)|].
  intros w' ops' _ (H1 & H2 & H3 & H4). eapply wspec_weaken; [apply wspec_tell; constructor|]. intros s ops _ (-> & ->).
  rewrite app_nil_r. split; [exact H1|]. split; [exact H2|]. split; [exact H3|exact H4].
Qed.

Lemma some_false {A} (o : option A) : some o = false -> o = None.
Proof. destruct o; [discriminate|reflexivity]. Qed.

Ltac none H := unfold others_none in H; repeat match type of H with
  | Forall _ (_ :: _) => let E := fresh "N" in apply Forall_cons_iff in H; destruct H as [E H]; cbn [is_set] in E; apply some_false in E
  end; clear H.
Ltac out_cbn := unfold Spec_files.output_files, output_parts, Spec_files.stats_files, Spec_files.trajectory_files, Spec_files.histogram_files,
  Spec_files.fes_files, Spec_files.plot_files, Spec_files.delta_f_files, Spec_files.distribution_files, traj_columns, coordinates in *;
  cbn [set_bd set_traj set_hist set_fes set_df set_pd w_ld w_ps w_bd w_traj w_hist w_fes w_df w_pd] in *.

Lemma inits_nil ops : inits ops [] -> ops = [].
Proof. intro H. now inversion H. Qed.

Lemma traj_inits name (fields : list string) mom n :
  inits (map (fun i => OInit (walker_file name i) (traj_fields fields mom i) []) (seq 0 n))
    (map (fun ir => table (name ++ "." ++ string_of_nat (fst ir))%string
            ("time" :: map (fun x => "pos_" ++ x ++ "." ++ string_of_nat (fst ir))%string fields
              ++ (if mom then map (fun x => "mom_" ++ x ++ "." ++ string_of_nat (fst ir))%string fields else [])) []
            (map (fun r => Row (map Fin r)) (snd ir)))
      (combine (seq 0 (length (repeat (@nil vec) n))) (repeat [] n))).
Proof.
  rewrite repeat_length. generalize 0%nat. induction n as [|n IH]; intro k; cbn [seq map repeat combine]; [constructor|].
  constructor; [|apply IH]. cbn [fst snd map]. eexists. eexists. split; [reflexivity|]. cbn [snd table]. now rewrite app_nil_r.
Qed.

Lemma check_spec {A} d n (a : A) : dims_ok n -> wspec (check_fields d n a) (Ok a) (fun b ops => b = a /\ ops = []).
Proof.
  intro H. unfold check_fields. rewrite (fields_ok _ H). destruct (v_true _); split; try reflexivity; (split; [constructor|]);
    intros b Hb; apply ok_inj in Hb; auto.
Qed.
Lemma ha_init_written t nd nb rs st re fn ws h : ha_init t nd nb rs st re fn ws = Ok h -> ha_written h = [].
Proof.
  unfold ha_init. destruct (negb _); [discriminate|]. destruct (negb _); [discriminate|]. intro H. binds H.
  destruct (_ && _); [discriminate|]. apply ok_inj in H. now subst h.
Qed.
Lemma fes_init_written kt h st fn ws pst pfn junk f : fes_init kt h st fn ws pst pfn junk = Ok f -> fa_written f = [] /\ fa_plotted f = [].
Proof.
  unfold fes_init. intro H. binds H. destruct (_ && _); [discriminate|]. do 4 (destruct (_ && _); [discriminate|]).
  apply ok_inj in H. subst f. auto.
Qed.
Lemma rec_init_file {A} st ws fn (junk : nat -> list A) s r : rec_init st ws fn junk s = Ok r -> rc_file r = if fn then Some [] else None.
Proof.
  unfold rec_init. destruct (negb _).
  - destruct (_ && _); [discriminate|]. destruct (negb _); [discriminate|]. intro H. apply ok_inj in H. now subst r.
  - intro H. apply ok_inj in H. now subst r.
Qed.
Lemma mapM_length {A B} (f : A -> res B) : forall l l', mapM f l = Ok l' -> length l' = length l.
Proof.
  induction l as [|a l IH]; cbn [mapM]; intros l' H; [apply ok_inj in H; now subst|]. binds H. apply ok_inj in H. subst l'. cbn. f_equal. auto.
Qed.
Lemma setup_df_file o h masks r : setup_delta_f e o h = Ok (masks, r) ->
  rc_file r = (if v_true (get_dict o "filename") then Some [] else None) /\ (2 <= length masks)%nat.
Proof.
  unfold setup_delta_f. intro H. binds H. destruct (Nat.ltb _ 2) eqn:E2; [discriminate|]. binds H. apply ok_inj in H. injection H as <- <-.
  unfold delta_f_init in E4. binds E4. split; [eapply rec_init_file; exact E4|].
  apply Nat.ltb_ge in E2. unfold pos_inside_ranges in E0. rewrite (mapM_length _ _ _ E0). exact E2.
Qed.
Lemma setup_pd_file o states r : setup_particle_distribution e o = Ok (states, r) ->
  rc_file r = (if v_true (get_dict o "filename") then Some [] else None).
Proof.
  unfold setup_particle_distribution. intro H. binds H. apply ok_inj in H. injection H as <- <-. unfold pdist_init in *. eapply rec_init_file; eassumption.
Qed.

Lemma setup_spec w0 : setup_dynamics e c = Ok w0 ->
  wspec (setup_actions_w e fe c w0) (setup_actions e c w0) (set_state (w_ld w0) (w_ps w0) []).
Proof.
  intro H0. pose proof (setup_dims _ _ _ H0) as Hd. pose proof (fields_ok _ Hd) as Hf.
  assert (B : set_state (w_ld w0) (w_ps w0) [ABirthDeath; ATrajectories; AHistogram; AFes; ADeltaF; AParticleDistribution] ([ALd], w0) []).
  { unfold setup_dynamics in H0. binds H0. apply ok_inj in H0. subst w0. split; [reflexivity|]. split; [reflexivity|].
    split; [constructor|]. repeat constructor. }
  clear H0. unfold setup_actions_w, setup_actions. cbv zeta.
  set (ld := w_ld w0) in *. set (ps := w_ps w0) in *.
  eapply wspec_bind.
  { eapply when_spec; [reflexivity|exact B|]. intros d w ops Ed (L & P & I & N). cbn [snd] in *.
    eapply wspec_bind; [apply bd_spec|]. intros [par g] ops' _ Hops. cbn [fst] in Hops.
    eapply wspec_weaken; [apply wspec_tell; constructor|]. intros w' ops2 _ (-> & ->). rewrite app_nil_r.
    none N. split; [exact L|]. split; [exact P|]. split; [|repeat constructor; cbn [is_set set_bd w_traj w_hist w_fes w_df w_pd]; now rewrite ?N1, ?N2, ?N3, ?N4, ?N5].
    out_cbn. rewrite N0, N1, N2, N3, N4, N5 in *. cbn [concat app] in *. apply inits_nil in I. subst ops ops'. cbn [app].
    destruct (bd_to_file par); [|constructor]. constructor; [|constructor].
    rewrite Ed. eexists. eexists. split; [reflexivity|]. unfold table. cbn [snd map app]. unfold stats_fields, header. now rewrite ?app_nil_r. }
  intros s1 o1 _ S1. cbn [app] in S1. clear B. eapply wspec_bind.
  { eapply when_spec; [reflexivity|exact S1|]. intros d w ops Ed (L & P & I & N). cbn [snd] in *.
    unfold setup_trajectories_w.
    eapply wspec_eq; [|eapply wspec_bind with (Q := fun t ops' => inits ops' (trajectory_files (set_traj e w t)) /\ others_none (set_traj e w t) [AHistogram; AFes; ADeltaF; AParticleDistribution])].
    - reflexivity.
    - eapply wspec_eq; [symmetry; apply bind_ret|]. eapply wspec_bind; [apply wspec_lift|]. intros t o2 Ht ->. cbn [app].
      assert (N' : others_none (set_traj e w t) [AHistogram; AFes; ADeltaF; AParticleDistribution]).
      { none N. repeat constructor; cbn [is_set set_traj w_traj w_hist w_fes w_df w_pd]; now rewrite ?N1, ?N2, ?N3, ?N4. }
      unfold setup_trajectories in Ht. binds Ht. apply ok_inj in Ht. destruct (v_true (get_dict d "filename")) eqn:Ef.
      + apply (wspec_eq _ _ (do _ <- get_fields (pot_ndim (ld_pot ld)); Ok t)). { now rewrite Hf. }
        eapply wspec_bind; [apply wspec_lift|].
        intros fields o3 Hfi ->. rewrite Hf in Hfi. apply ok_inj in Hfi. subst fields. cbn [app].
        eapply wspec_weaken; [apply wspec_tell|]. { apply Forall_forall. intros op Hop. apply in_map_iff in Hop. destruct Hop as (i & <- & _). exact Logic.I. }
        intros t' ops' _ (-> & ->). split; [|exact N'].
        unfold Spec_files.trajectory_files, traj_columns, coordinates. rewrite <- Ht. cbn [set_traj w_traj w_ld traj_init tr_files tr_mom].
        rewrite L, Ed. unfold opts. rewrite P.
        destruct (v_true (get_dict d "momentum")); apply traj_inits.
      + eapply wspec_weaken; [apply wspec_tell; constructor|]. intros t' ops' _ (-> & ->). split; [|exact N'].
        unfold Spec_files.trajectory_files. rewrite <- Ht. cbn [set_traj w_traj traj_init tr_files]. constructor.
    - intros t o2 Ht (It & Nt). eapply wspec_weaken; [apply wspec_tell; constructor|]. intros w' ops2 _ (-> & ->). rewrite app_nil_r.
      split; [exact L|]. split; [exact P|]. split; [|exact Nt].
      none N. out_cbn. rewrite N0, N1, N2, N3, N4 in *. cbn [concat] in *. rewrite ?app_nil_r in *. apply inits_app; assumption. }
  intros s2 o2 _ S2. clear S1. eapply wspec_bind.
  { eapply when_spec; [reflexivity|exact S2|]. intros d w ops Ed (L & P & I & N). cbn [snd] in *.
    eapply wspec_bind; [apply wspec_lift|]. intros t o3 Ht ->. rewrite L.
    eapply wspec_bind; [apply wspec_lift|]. intros h o4 Hh ->. cbn [app].
    apply (wspec_eq _ _ (do h' <- Ok h; Ok (set_hist e w h'))); [reflexivity|].
    eapply wspec_bind; [exact (check_spec d _ h Hd)|]. intros h' o5 _ (-> & ->).
    eapply wspec_weaken; [apply wspec_tell; constructor|]. intros w' ops2 _ (-> & ->). cbn [app]. rewrite app_nil_r.
    none N. split; [exact L|]. split; [exact P|]. split.
    2:{ repeat constructor; cbn [is_set set_hist w_fes w_df w_pd]; now rewrite ?N1, ?N2, ?N3. }
    assert (W : ha_written h = []). { unfold setup_histogram in Hh. binds Hh. eapply ha_init_written; exact Hh. }
    out_cbn. rewrite W. rewrite N0, N1, N2, N3 in *. cbn [map concat app] in *. rewrite ?app_nil_r in *. exact I. }
  intros s3 o3 _ S3. clear S2. eapply wspec_bind.
  { eapply when_spec; [reflexivity|exact S3|]. intros d w ops Ed (L & P & I & N). cbn [snd] in *.
    eapply wspec_bind; [apply wspec_lift|]. intros h o4 Hh ->.
    eapply wspec_bind; [apply wspec_lift|]. intros f o5 Hfe ->. cbn [app].
    apply (wspec_eq _ _ (do f' <- Ok f; Ok (set_fes e w f'))); [reflexivity|].
    eapply wspec_bind; [exact (check_spec d _ f Hd)|]. intros f' o6 _ (-> & ->).
    eapply wspec_weaken; [apply wspec_tell; constructor|]. intros w' ops2 _ (-> & ->). cbn [app]. rewrite app_nil_r.
    none N. split; [exact L|]. split; [exact P|]. split.
    2:{ repeat constructor; cbn [is_set set_fes w_df w_pd]; now rewrite ?N1, ?N2. }
    assert (W : fa_written f = [] /\ fa_plotted f = []). { unfold setup_fes in Hfe. binds Hfe. eapply fes_init_written; exact Hfe. }
    apply need_ok in Hh. out_cbn. destruct W as (W1 & W2). rewrite W1, W2. rewrite Hh, N0, N1, N2 in *. cbn [map concat app] in *. rewrite ?app_nil_r in *. exact I. }
  intros s4 o4 _ S4. clear S3. eapply wspec_bind.
  { eapply when_spec; [reflexivity|exact S4|]. intros d w ops Ed (L & P & I & N). cbn [snd] in *.
    eapply wspec_bind; [apply wspec_lift|]. intros f o5 Hfe ->.
    eapply wspec_bind; [apply wspec_lift|]. intros h o6 Hh ->. cbn [app].
    eapply wspec_bind with (Q := fun d' ops' => inits ops' (delta_f_files (set_df e w d'))).
    { unfold setup_delta_f_w. eapply wspec_eq; [symmetry; apply bind_ret|]. eapply wspec_bind; [apply wspec_lift|].
      intros [masks r] o7 Hdf ->. cbn [app fst]. destruct (setup_df_file _ _ _ _ Hdf) as (Hrf & Hm). cbn [fst snd] in *.
      destruct (v_true (get_dict d "filename")).
      - eapply wspec_weaken; [apply wspec_tell; repeat constructor|]. intros d' ops' _ (-> & ->).
        unfold Spec_files.delta_f_files. cbn [set_df w_df w_ld]. rewrite Hrf, Ed. constructor; [|constructor].
        rewrite L. eexists. eexists. split; [reflexivity|]. unfold table. cbn [snd map]. rewrite app_nil_r. reflexivity.
      - eapply wspec_weaken; [apply wspec_tell; constructor|]. intros d' ops' _ (-> & ->).
        unfold Spec_files.delta_f_files. cbn [set_df w_df w_ld]. rewrite Hrf. constructor. }
    intros d' o7 _ Hd'. eapply wspec_weaken; [apply wspec_tell; constructor|]. intros w' ops2 _ (-> & ->). cbn [app]. rewrite app_nil_r.
    none N. split; [exact L|]. split; [exact P|]. split.
    2:{ repeat constructor; cbn [is_set set_df w_pd]; now rewrite ?N1. }
    apply need_ok in Hh, Hfe.
    replace (output_files (set_df e w d')) with (output_files w ++ delta_f_files (set_df e w d')); [now apply inits_app|].
    out_cbn. rewrite Hh, Hfe, N0, N1. cbn [concat]. rewrite ?app_nil_r, <- ?app_assoc. reflexivity. }
  intros s5 o5 _ S5. clear S4.
  eapply wspec_weaken; [eapply when_spec; [reflexivity|exact S5|]|].
  { intros d w ops Ed (L & P & I & N). cbn [snd] in *.
    eapply wspec_bind with (Q := fun d' ops' => inits ops' (distribution_files (set_pd e w d'))).
    { unfold setup_particle_distribution_w. eapply wspec_eq; [symmetry; apply bind_ret|]. eapply wspec_bind; [apply wspec_lift|].
      intros [states r] o7 Hpd ->. cbn [app fst]. pose proof (setup_pd_file _ _ _ Hpd) as Hrf. cbn [fst snd] in *.
      destruct (v_true (get_dict d "filename")).
      - eapply wspec_weaken; [apply wspec_tell; repeat constructor|]. intros d' ops' _ (-> & ->).
        unfold Spec_files.distribution_files. cbn [set_pd w_pd w_ld]. rewrite Hrf, Ed. constructor; [|constructor].
        eexists. eexists. split; [reflexivity|]. unfold table. cbn [snd map]. rewrite app_nil_r. reflexivity.
      - eapply wspec_weaken; [apply wspec_tell; constructor|]. intros d' ops' _ (-> & ->).
        unfold Spec_files.distribution_files. cbn [set_pd w_pd w_ld]. rewrite Hrf. constructor. }
    intros d' o7 _ Hd'. eapply wspec_weaken; [apply wspec_tell; constructor|]. intros w' ops2 _ (-> & ->). rewrite app_nil_r.
    none N. split; [exact L|]. split; [exact P|]. split; [|constructor].
    replace (output_files (set_pd e w d')) with (output_files w ++ distribution_files (set_pd e w d')); [now apply inits_app|].
    out_cbn. rewrite N0. cbn [concat]. rewrite ?app_nil_r, <- ?app_assoc. reflexivity. }
  cbn beta. intros s ops _ Hs. rewrite <- !app_assoc in Hs. exact Hs.
Qed.
End setup.
