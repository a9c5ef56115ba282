(** The files of the whole program (C48, C61) *)
From Coq Require Import Lia Lra.
From Verif Require Import PyBase Model_xr Model_input Model_dyn Model_bd Model_traj Model_hist Model_histaction Model_fes Model_deltaf Model_pdist
  Model_rec Model_setup Model_main Proof_base Proof_input Proof_main Proof_main2 Proof_whole Proof_whole2 Model_files Spec_main Spec_files Proof_files Proof_files2
  Proof_files3 Proof_files4 Proof_files5.
Open Scope string_scope.
Open Scope Z_scope.
Open Scope list_scope.
Ltac Zify.zify_post_hook ::= idtac.

Section tame.
Context (e : env) (fe : files_env) (c : config).
Notation W := (world (e_rng e)).
Notation out := (output_files e fe c).

(** ** which operations an action makes *)
Definition tables (w : W) : contents :=
  stats_files e fe c w ++ trajectory_files e c w ++ delta_f_files e fe c w ++ distribution_files e fe c w.
Definition hist_dims (w : W) : Prop := forall h, w_hist w = Some h -> length (h_edges (ha_hist h)) = pot_ndim (ld_pot (w_ld w)).
Definition writes_grids (w : W) : Prop :=
  (exists h, w_hist w = Some h /\ ha_written h <> []) \/ (exists f, w_fes w = Some f /\ fa_written f <> []).
Definition tame (w : W) (op : fop) : Prop :=
  match op with
  | OInit _ _ _ => False
  | OAppend n _ => In n (map fst (tables w))
  | OWrite _ l => ((1 <= pot_ndim (ld_pot (w_ld w)) <= 2)%nat -> l <> None) /\ (pot_ndim (ld_pot (w_ld w)) = 3%nat -> l = None) /\ writes_grids w
  | OPlot n f => exists s fa, w_fes w = Some fa /\ fa_plotname fa = true /\ In (s, f) (fa_plotted fa) /\
                   n = stepped (file_opt (opts (c_fes c)) "plot-filename") s
  end.
Lemma tables_names w w' : grows w w' -> map fst (tables w') = map fst (tables w).
Proof.
  intros [L B T H F D P]. unfold tables. rewrite !map_app. f_equal; [|f_equal; [|f_equal]].
  - unfold stats_files. destruct (w_bd w) as [[[[par g] st] o]|], (w_bd w') as [[[[par' g'] st'] o']|]; cbn in B; try contradiction; [|reflexivity].
    destruct B as (B & _). cbn in B. subst par'. destruct (bd_to_file par); reflexivity.
  - unfold trajectory_files. destruct (w_traj w) as [t|], (w_traj w') as [t'|]; cbn in T; try contradiction; [|reflexivity].
    destruct T as (_ & T). destruct (tr_files t) as [f|], (tr_files t') as [f'|]; cbn in T; try contradiction; [|reflexivity].
    rewrite !map_map. cbn [table fst]. rewrite !(combine_seq_names (fun i => (file_opt (opts (c_trajectories c)) "filename" ++ "." ++ string_of_nat i)%string)).
    rewrite <- (Forall2_length _ _ _ T). reflexivity.
  - unfold delta_f_files. destruct (w_df w) as [[m r]|], (w_df w') as [[m' r']|]; cbn in D; try contradiction; [|reflexivity].
    destruct D as (_ & D). cbn in D. destruct (rc_file r), (rc_file r'); cbn in D; try contradiction; reflexivity.
  - unfold distribution_files. destruct (w_pd w) as [[m r]|], (w_pd w') as [[m' r']|]; cbn in P; try contradiction; [|reflexivity].
    destruct P as (_ & P). cbn in P. destruct (rc_file r), (rc_file r'); cbn in P; try contradiction; reflexivity.
Qed.
Lemma tame_grow w w' op : grows w w' -> tame w op -> tame w' op.
Proof.
  intros G. destruct op; cbn [tame]; [tauto| | |].
  - rewrite (tables_names _ _ G). tauto.
  - rewrite (gr_ld _ _ G). intros (A & B & C). split; [exact A|]. split; [exact B|]. destruct C as [(h & Eh & Nh)|(f & Ef & Nf)].
    + left. pose proof (gr_hist _ _ G) as T. rewrite Eh in T. destruct (w_hist w') as [h'|]; cbn in T; [|contradiction]. destruct T as (_ & (d & T)).
      exists h'. split; [reflexivity|]. rewrite T. destruct (ha_written h); [congruence|discriminate].
    + right. pose proof (gr_fes _ _ G) as T. rewrite Ef in T. destruct (w_fes w') as [f'|]; cbn in T; [|contradiction]. destruct T as (_ & (d & T) & _).
      exists f'. split; [reflexivity|]. rewrite T. destruct (fa_written f); [congruence|discriminate].
  - intros (s & fa & Hf & Hp & Hin & ->). pose proof (gr_fes _ _ G) as T. rewrite Hf in T. destruct (w_fes w') as [fa'|]; cbn in T; [|contradiction].
    destruct T as (T1 & _ & (d & T3) & _). exists s, fa'. split; [reflexivity|]. split; [congruence|]. split; [|reflexivity]. rewrite T3. apply in_or_app. auto.
Qed.
Lemma hist_dims_grow w w' : grows w w' -> hist_dims w -> hist_dims w'.
Proof.
  intros G H h' Hh'. pose proof (gr_hist _ _ G) as T. rewrite Hh' in T. destruct (w_hist w) as [h|] eqn:E; cbn in T; [|contradiction].
  destruct T as (T & _). rewrite T, (gr_ld _ _ G). now apply H.
Qed.

Lemma grid_lines_some n axes points np header data : (1 <= n <= 2)%nat -> grid_lines n axes points np header data <> None.
Proof. intro H. destruct n as [|[|[|n]]]; try lia; discriminate. Qed.

Lemma grid_lines_none n axes points np header data : n = 3%nat -> grid_lines n axes points np header data = None.
Proof. intros ->. reflexivity. Qed.

Lemma action_tame b a k w w' : acted e b a k w w' -> hist_dims w -> Forall (tame w') (action_ops e fe c b a k w w').
Proof.
  intros H HD. pose proof (acted_grows _ _ _ _ _ _ H) as G. apply Forall_forall. intros op Hop.
  destruct a; unfold action_ops in Hop; cbv zeta in Hop; [destruct Hop| | | | | |].
  - apply (tame_grow w w' op G).
    destruct (w_bd w) as [[[[par g] st] o]|] eqn:E, (w_bd w') as [[[[par' g'] st'] o']|]; try (now destruct Hop).
    destruct (bd_to_file par) eqn:Ef; [|destruct Hop]. apply in_map_iff in Hop. destruct Hop as (r & <- & _).
    cbn [tame]. unfold tables, stats_files. rewrite E, Ef. left. reflexivity.
  - apply (tame_grow w w' op G). pose proof (gr_traj _ _ G) as T.
    destruct (w_traj w) as [t|] eqn:E, (w_traj w') as [t'|]; try (now destruct Hop); cbn [opt_rel] in T.
    destruct (_ || _); [|destruct Hop]. destruct T as (_ & T).
    destruct (tr_files t) as [f|] eqn:Ef, (tr_files t') as [f'|]; try (now destruct Hop); cbn [opt_rel] in T.
    pose proof (Forall2_length _ _ _ T) as HL.
    pose proof (proj1 (Forall_forall _ _) (traj_appends_is (file_opt (opts (c_trajectories c)) "filename") f f' 0) op Hop) as Ia.
    apply (in_map op_file) in Hop. rewrite traj_appends_files in Hop by exact HL. destruct op; try destruct Ia. cbn [op_file tame] in *.
    unfold tables, trajectory_files. rewrite E, Ef, !map_app, !in_app_iff. right. left. rewrite map_map. cbn [table fst].
    rewrite (combine_seq_names (fun i => (file_opt (opts (c_trajectories c)) "filename" ++ "." ++ string_of_nat i)%string)). exact Hop.
  - pose proof (gr_hist _ _ G) as T. destruct (w_hist w) as [h|] eqn:E, (w_hist w') as [h'|] eqn:E'; try (now destruct Hop). cbn [opt_rel] in T.
    destruct T as (_ & (d & T)). apply in_map_iff in Hop. destruct Hop as (sd & <- & Hin). rewrite T, added_app in Hin. cbn [tame]. rewrite (gr_ld _ _ G).
    split; [|split]; [intro Hn; apply grid_lines_some; rewrite (HD h E); exact Hn|intro Hn; apply grid_lines_none; rewrite (HD h E); exact Hn|].
    left. exists h'. split; [exact E'|]. rewrite T. destruct d; [destruct Hin|]. intro X. apply app_eq_nil in X. now destruct X.
  - pose proof (gr_fes _ _ G) as T. pose proof (gr_ld _ _ G) as L.
    destruct (w_hist w) as [h|] eqn:E; [|destruct Hop]. destruct (w_fes w) as [f|] eqn:Ef, (w_fes w') as [f'|] eqn:Ef'; try (now destruct Hop); cbn [opt_rel] in T.
    destruct T as (T1 & (d2 & T2) & (d & T3) & T4). apply in_app_or in Hop. destruct Hop as [Hop|Hop]; apply in_map_iff in Hop.
    + destruct Hop as (sd & <- & Hin). rewrite T2, added_app in Hin. cbn [tame]. rewrite L.
      split; [|split]; [intro Hn; apply grid_lines_some; rewrite (HD h E); exact Hn|intro Hn; apply grid_lines_none; rewrite (HD h E); exact Hn|].
      right. exists f'. split; [exact Ef'|]. rewrite T2. destruct d2; [destruct Hin|]. intro X. apply app_eq_nil in X. now destruct X.
    + destruct Hop as ([s x] & <- & Hin). cbn [tame fst snd]. exists s, f'. split; [exact Ef'|]. rewrite T3 in Hin. rewrite added_app in Hin.
      split; [|split; [rewrite T3; apply in_or_app; auto|reflexivity]].
      destruct (fa_plotname f) eqn:Ep; [congruence|]. exfalso. rewrite T3 in T4. specialize (T4 eq_refl).
      rewrite <- app_nil_r in T4. apply app_inv_head in T4. subst d. destruct Hin.
  - apply (tame_grow w w' op G). destruct (w_df w) as [[m r]|] eqn:E, (w_df w') as [[m' r']|]; try (now destruct Hop).
    destruct (_ || _); [|destruct Hop]. destruct (rc_file r) as [f|] eqn:Ef, (rc_file r'); try (now destruct Hop).
    destruct Hop as [<-|[]]. cbn [tame]. unfold tables, delta_f_files. rewrite E, Ef, !map_app, !in_app_iff. right. right. left. left. reflexivity.
  - apply (tame_grow w w' op G). destruct (w_pd w) as [[m r]|] eqn:E, (w_pd w') as [[m' r']|]; try (now destruct Hop).
    destruct (_ || _); [|destruct Hop]. destruct (rc_file r) as [f|] eqn:Ef, (rc_file r'); try (now destruct Hop).
    destruct Hop as [<-|[]]. cbn [tame]. unfold tables, distribution_files. rewrite E, Ef, !map_app, !in_app_iff. right. right. right. left. reflexivity.
Qed.

(** ** several actions *)
Definition good_end (w : W) (m : wio W) : Prop :=
  exists w', good_step e fe c w w' (fst m) /\ Forall (tame w') (fst m) /\ hist_dims w' /\ forall w2, snd m = Ok w2 -> w2 = w'.
Lemma good_run (b : bool) (a : action) (k : Z) (w : W) : hist_dims w -> good_end w (if b then final_run_action_w e fe c a k w else run_action_w e fe c a k w).
Proof.
  intro HD. assert (H : forall w', acted e b a k w w' -> good_end w (tell (action_ops e fe c b a k w w') w')).
  { intros w' H. exists w'. cbn [tell fst snd]. split; [now apply action_good|]. split; [now apply action_tame|].
    split; [eapply hist_dims_grow; [eapply acted_grows; exact H|exact HD]|]. intros w2 E. now apply ok_inj in E. }
  assert (N : forall x, good_end w (lift (Err x) : wio W)).
  { intro x. exists w. split; [apply good_refl|]. split; [constructor|]. split; [exact HD|discriminate]. }
  destruct b; [unfold final_run_action_w; destruct (final_run_action e a k w) eqn:E|unfold run_action_w; destruct (run_action e a k w) eqn:E].
  - now apply H.
  - apply N.
  - now apply H.
  - apply N.
Qed.
Lemma good_bind (w : W) (m : wio W) (f : W -> wio W) : good_end w m -> (forall w', snd m = Ok w' -> hist_dims w' -> good_end w' (f w')) -> good_end w (wbind m f).
Proof.
  intros (w1 & G1 & T1 & D1 & E1) Hf. destruct m as [ops [a|x]]; cbn [wbind fst snd] in *.
  - rewrite (E1 a eq_refl) in *. destruct (Hf w1 eq_refl D1) as (w2 & G2 & T2 & D2 & E2). destruct (f w1) as [ops' r]. cbn [fst snd] in *.
    exists w2. cbn [fst snd]. split; [eapply good_trans; eassumption|]. split; [|auto].
    apply Forall_app. split; [|exact T2]. eapply Forall_impl; [|exact T1]. intros op. apply tame_grow. apply G2.
  - exists w1. auto.
Qed.
Lemma good_tell w : hist_dims w -> good_end w (tell [] w).
Proof. intro HD. exists w. split; [apply good_refl|]. split; [constructor|]. split; [exact HD|]. intros w2 E. now apply ok_inj in E. Qed.
Lemma good_fold {A} (f : W -> A -> wio W) : (forall w a, hist_dims w -> good_end w (f w a)) -> forall l w, hist_dims w -> good_end w (foldW f l w).
Proof.
  intro H. induction l as [|a l IH]; intros w HD; cbn [foldW]; [now apply good_tell|]. apply good_bind; [now apply H|]. intros w' _ HD'. now apply IH.
Qed.
Lemma good_loop acts n w : hist_dims w -> good_end w (main_loop_w e fe c acts n w).
Proof.
  intro HD. unfold main_loop_w. apply good_bind.
  - apply good_fold; [|exact HD]. intros w1 k HD1. apply good_fold; [|exact HD1]. intros w2 a HD2. exact (good_run false a k w2 HD2).
  - intros w1 _ HD1. apply good_fold; [|exact HD1]. intros w2 a HD2. exact (good_run true a n w2 HD2).
Qed.
End tame.

(** ** the dimensions of the histogram *)
Lemma mapM_len {A B} (f : A -> res B) l l' : mapM f l = Ok l' -> length l' = length l.
Proof. apply mapM_length. Qed.
Lemma setup_histogram_dims o n t h : setup_histogram o n t = Ok h -> length (h_edges (ha_hist h)) = n.
Proof.
  unfold setup_histogram. intro H. apply bind_ok in H. destruct H as ([rs bins] & _ & H). binds H. unfold ha_init in H.
  destruct (Nat.eqb_spec n (length (map Z.to_nat bins))) as [Q1|]; [|discriminate]. destruct (Nat.eqb_spec n (length rs)) as [Q2|]; [|discriminate]. cbn [negb] in H.
  apply bind_ok in H. destruct H as (h0 & Hh & H). destruct (_ && _); [discriminate|]. apply ok_inj in H. subst h. cbn [ha_hist].
  unfold hist_init in Hh. apply bind_ok in Hh. destruct Hh as (u & _ & Hh). destruct (negb _); [discriminate|].
  apply bind_ok in Hh. destruct Hh as (ed & Hed & Hh). apply bind_ok in Hh. destruct Hh as (dt & _ & Hh). apply ok_inj in Hh. subst h0. cbn [h_edges].
  apply mapM_len in Hed. rewrite Hed, combine_length. lia.
Qed.
Lemma set_up_hist_dims e c w0 acts w : setup_dynamics e c = Ok w0 -> setup_actions e c w0 = Ok (acts, w) -> hist_dims e w.
Proof.
  intros H0 H h Hh. destruct (set_up_built _ _ _ _ _ H0 H) as (B & _). destruct (bu_hist _ _ _ B) as [E|(o & t & h' & _ & _ & Hs & E)]; [congruence|].
  rewrite E in Hh. injection Hh as <-. eapply setup_histogram_dims; exact Hs.
Qed.

(** ** the operations of the program *)
Lemma ops_outcome e fe cv file : snd (main_ops e fe cv file) = main e cv file.
Proof.
  unfold main_ops, main. destruct (read_input cv file) as [c|x]; [|destruct x; reflexivity].
  destruct (setup_dynamics e c) as [w|x] eqn:E0; [|reflexivity].
  destruct (setup_spec e fe c w E0) as (S & _). destruct (setup_actions_w e fe c w) as [ops r]. cbn [snd] in S. subst r.
  destruct (setup_actions e c w) as [[acts w1]|x]; [|destruct x; reflexivity].
  pose proof (wbind_snd (lift (v_int (get_dict (c_ld c) "n_steps"))) (fun n_steps => main_loop_w e fe c acts n_steps w1)) as E.
  destruct (wbind _ _) as [ops' r]. cbn [snd lift] in E. subst r.
  replace (do a <- v_int (get_dict (c_ld c) "n_steps"); snd (main_loop_w e fe c acts a w1))
    with (do n_steps <- v_int (get_dict (c_ld c) "n_steps"); main_loop (run_action e) (final_run_action e) acts n_steps w1).
  - destruct (do n_steps <- _; _); reflexivity.
  - destruct (v_int _); [|reflexivity]. cbn [bind]. symmetry. apply main_loop_snd.
Qed.
Lemma ops_shape e fe cv file ops o : main_ops e fe cv file = (ops, o) ->
  ops = [] /\ (forall w, o <> Finished w) \/
  exists c w0, read_input cv file = Ok c /\ setup_dynamics e c = Ok w0 /\
   (Forall is_init ops /\ (forall w, o <> Finished w) \/
    exists acts w1 w' ops1 ops2, setup_actions e c w0 = Ok (acts, w1) /\ ops = ops1 ++ ops2 /\ inits ops1 (output_files e fe c w1) /\
      good_step e fe c w1 w' ops2 /\ Forall (tame e fe c w') ops2 /\ forall w2, o = Finished w2 -> w2 = w').
Proof.
  unfold main_ops.
  assert (U : forall x (w : world (e_rng e)), uncaught x <> Finished w) by (intros []; discriminate).
  destruct (read_input cv file) as [c|x]; [|destruct x; intro H; injection H as <- <-; left; split; try reflexivity; try discriminate; auto].
  destruct (setup_dynamics e c) as [w0|x] eqn:E0; [|intro H; injection H as <- <-; left; auto].
  destruct (setup_spec e fe c w0 E0) as (S & I & Q). destruct (setup_actions_w e fe c w0) as [ops1 r]. cbn [fst snd] in S, I, Q. subst r.
  destruct (setup_actions e c w0) as [[acts w1]|x] eqn:E1.
  2:{ intro H. right. exists c, w0. split; [reflexivity|]. split; [exact E0|]. left. destruct x; injection H as <- <-; split; auto; discriminate. }
  destruct (Q _ eq_refl) as (L & P & In1 & _). cbn [snd] in *. pose proof (set_up_hist_dims _ _ _ _ _ E0 E1) as HD.
  assert (G : good_end e fe c w1 (wdo n_steps <- lift (v_int (get_dict (c_ld c) "n_steps")); main_loop_w e fe c acts n_steps w1)).
  { destruct (v_int _) as [n|x].
    - cbn [lift wbind]. pose proof (good_loop e fe c acts n w1 HD) as G. destruct (main_loop_w e fe c acts n w1). exact G.
    - exists w1. split; [apply good_refl|]. split; [constructor|]. split; [exact HD|discriminate]. }
  destruct (wbind _ _) as [ops2 r]. destruct G as (w' & G & T & _ & E2). cbn [fst snd] in *.
  intro H. right. exists c, w0. split; [reflexivity|]. split; [exact E0|]. right. exists acts, w1, w', ops1, ops2. split; [exact E1|].
  split; [destruct r; congruence|]. split; [exact In1|]. split; [exact G|]. split; [exact T|].
  destruct r as [a|x]; injection H as <- <-.
  - intros w2 H. injection H as ->. auto.
  - intros w2 H. destruct (U _ _ H).
Qed.

Lemma inits_writes ops T : inits ops T -> Forall2 writes ops T.
Proof. unfold inits. induction 1 as [|op [n l] ops T (f & k & -> & E) _ IH]; constructor; [|exact IH]. split; [reflexivity|exact E]. Qed.
Lemma inits_can_plot fe ops T : inits ops T -> Forall (can_plot fe) ops.
Proof. unfold inits. induction 1 as [|op t ops T (f & k & -> & E) _ IH]; constructor; [exact I|exact IH]. Qed.
Lemma inits_names ops T : inits ops T -> map op_file ops = map fst T.
Proof. unfold inits. induction 1 as [|op t ops T (f & k & -> & E) _ IH]; [reflexivity|]. cbn [map op_file]. now rewrite IH. Qed.

Lemma main_writes e fe cv secs c w fs stdin : writable fe -> main e cv (Some (Ok secs)) = Finished w -> parse_all cv secs = Ok c ->
  NoDup (map fst (output_files e fe c w)) ->
  (forall fa s f, w_fes w = Some fa -> In (s, f) (fa_plotted fa) -> plottable fe (stepped (file_opt (opts (c_fes c)) "plot-filename") s)) ->
  exists fs', main_files e fe cv (Some (Ok secs)) fs stdin = (fs', stdin, Finished w) /\
    (forall name lines, In (name, Some lines) (output_files e fe c w) -> fs_get fs' name = Some lines) /\
    (forall f content, fs_get fs f = Some content -> ~ In f (map fst (output_files e fe c w)) -> fs_get fs' f = Some content).
Proof.
  intros Hw Hm Hc Hd Hp. unfold main_files. pose proof (ops_outcome e fe cv (Some (Ok secs))) as Ho.
  destruct (main_ops e fe cv (Some (Ok secs))) as [ops o] eqn:Em. cbn [snd] in Ho. rewrite Hm in Ho. subst o.
  apply ops_shape in Em. destruct Em as [(_ & N)|(c' & w0 & Hc' & E0 & [(_ & N)|(acts & w1 & w' & ops1 & ops2 & E1 & -> & In1 & G & T & Ew)])];
    [destruct (N w eq_refl)|destruct (N w eq_refl)|].
  cbn [read_input bind] in Hc'. rewrite Hc in Hc'. apply ok_inj in Hc'. subst c'. rewrite <- (Ew w eq_refl) in *. clear Ew w'.
  assert (Hcp : Forall (can_plot fe) ops2).
  { eapply Forall_impl; [|exact T]. intros []; cbn [can_plot tame]; try tauto. intros (s & fa & Hf & _ & Hin & ->). eapply Hp; eassumption. }
  pose proof (inits_can_plot fe _ _ In1) as Hcp1.
  destruct (ops_ok fe ops1 Hw Hcp1 fs stdin) as (fs1 & A1). destruct (ops_ok fe ops2 Hw Hcp fs1 stdin) as (fs2 & A2).
  rewrite apply_app, A1, A2. exists fs2. split; [reflexivity|].
  destruct G as (G & Gn & Gh). split.
  - apply (Gh Hw Hcp Hd fs1 stdin fs2 stdin (Ok tt)); [|exact A2].
    apply (writes_holds fe Hw ops1 [] (output_files e fe c w1) fs stdin fs1 stdin (Ok tt) Hcp1 (inits_writes _ _ In1)); [|intros n l []|exact A1].
    cbn [map app]. eapply nodup_grow; eassumption.
  - intros f content Hf Hn. eapply (other_chunk fe Hw ops2); [exact Hcp| |exact A2|eapply (other_chunk fe Hw ops1); [exact Hcp1| |exact A1|exact Hf]].
    + eapply Forall_impl; [|exact Gn]. cbn beta. intros op Hop E. subst f. contradiction.
    + apply Forall_forall. intros op Hop E. apply (in_map op_file) in Hop. rewrite (inits_names _ _ In1), E in Hop. apply Hn. eapply names_grow; eassumption.
Qed.

(** ** content that was there before the run *)
Lemma appends_after_inits ops1 ops2 T : inits ops1 T ->
  Forall (fun op => match op with OAppend n _ => In n (map fst T) | _ => True end) ops2 -> appends_initialised (ops1 ++ ops2).
Proof.
  intros I H pre name rows post E.
  assert (Hs : forall ops1 pre, ops1 ++ ops2 = pre ++ OAppend name rows :: post -> Forall is_init ops1 -> exists pre', pre = ops1 ++ pre' /\ ops2 = pre' ++ OAppend name rows :: post).
  { clear. induction ops1 as [|o l IH]; intros pre E F; [exists pre; auto|]. destruct pre as [|p pre]; cbn [app] in E; injection E as -> E.
    - inversion F as [|? ? Hx]. destruct Hx.
    - inversion F; subst. destruct (IH pre E) as (pre' & -> & E'); [assumption|]. exists pre'. auto. }
  destruct (Hs ops1 pre E) as (pre' & -> & E2).
  { unfold inits in I. clear - I. induction I as [|op t ops T (f & k & -> & _) _ IH]; constructor; [exact Logic.I|exact IH]. }
  rewrite E2 in H. apply Forall_app in H. destruct H as (_ & H). inversion H as [|? ? Hin _]; subst. clear - I Hin.
  unfold inits in I. induction I as [|op [n l] ops T (f & k & -> & _) _ IH]; [destruct Hin|]. cbn [map fst] in Hin. destruct Hin as [->|Hin].
  - exists f, k. left. reflexivity.
  - destruct (IH Hin) as (f' & k' & Hx). exists f', k'. right. exact Hx.
Qed.
Lemma tables_in e fe c w n : In n (map fst (tables e fe c w)) -> In n (map fst (output_files e fe c w)).
Proof. unfold tables, output_files, output_parts. cbn [concat]. rewrite !map_app, !in_app_iff. tauto. Qed.

Lemma no_plot_name e c w0 acts w1 w' : setup_dynamics e c = Ok w0 -> setup_actions e c w0 = Ok (acts, w1) -> grows w1 w' ->
  v_true (get_dict (opts (c_fes c)) "plot-filename") = false -> forall fa, w_fes w' = Some fa -> fa_plotname fa = false.
Proof.
  intros H0 H G Hp fa Hf. pose proof (gr_fes _ _ G) as T. rewrite Hf in T. destruct (w_fes w1) as [f1|] eqn:E; cbn in T; [|contradiction].
  destruct T as (T & _). rewrite T. destruct (set_up_built _ _ _ _ _ H0 H) as (B & _). destruct (bu_fes _ _ _ B) as [E'|(o & h & f & Hc & _ & Hs & E')]; [congruence|].
  rewrite E' in E. injection E as <-. rewrite Hc in Hp. cbn [opts] in Hp. unfold setup_fes in Hs. binds Hs.
  unfold fes_init in Hs. apply bind_ok in Hs. destruct Hs as (fes & _ & Hs).
  repeat match type of Hs with (if ?b then _ else _) = _ => destruct b; [discriminate|] end. apply ok_inj in Hs. subst f. exact Hp.
Qed.
