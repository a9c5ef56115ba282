(** The plots of a run (C57) *)
From Coq Require Import Lia Lra Permutation.
From Verif Require Import PyBase Model_xr Model_input Model_dyn Model_bd Model_traj Model_hist Model_histaction Model_fes Model_deltaf Model_pdist
  Model_rec Model_setup Model_main Proof_base Proof_input Proof_main Proof_main2 Proof_whole Proof_whole2 Model_files Spec_main Spec_whole Spec_files Proof_files Proof_files2
  Proof_files3 Proof_files4 Proof_files5 Proof_files6 Proof_files7.
Open Scope string_scope.
Open Scope Z_scope.
Open Scope list_scope.
Ltac Zify.zify_post_hook ::= idtac.

Definition plots_of (ops : list fop) : list (string * list xreal) :=
  flat_map (fun op => match op with OPlot n f => [(n, f)] | _ => [] end) ops.
Lemma plots_of_app a b : plots_of (a ++ b) = plots_of a ++ plots_of b.
Proof. apply flat_map_app. Qed.
Lemma plots_none ops : Forall (fun op => ~ is_plot op) ops -> plots_of ops = [].
Proof. induction 1 as [|op ops H _ IH]; [reflexivity|]. unfold plots_of in *. cbn [flat_map]. rewrite IH. destruct op; try reflexivity. destruct H. exact I. Qed.

Section plots.
Context (e : env) (fe : files_env) (c : config).
Notation W := (world (e_rng e)).
Lemma action_plots b a k (w w' : W) : acted e b a k w w' -> plots e c w' = plots e c w ++ plots_of (action_ops e fe c b a k w w').
Proof.
  intro H. pose proof (acted_grows _ _ _ _ _ _ H) as G.
  assert (N : a <> AFes -> Forall (fun op => ~ is_plot op) (action_ops e fe c b a k w w') -> plots e c w' = plots e c w ++ plots_of (action_ops e fe c b a k w w')).
  { intros Ha F. rewrite (plots_none _ F), app_nil_r. destruct (acted_frame _ _ _ _ _ _ H) as (_ & _ & _ & _ & _ & _ & F5 & _ & _). unfold plots.
    now rewrite (F5 Ha). }
  destruct a; try (apply N; [discriminate|]; unfold action_ops; cbv zeta).
  - constructor.
  - destruct (w_bd w) as [[[[par g] st] o]|], (w_bd w') as [[[[par' g'] st'] o']|]; try constructor. destruct (bd_to_file par); [|constructor].
    apply Forall_forall. intros op Hop. apply in_map_iff in Hop. destruct Hop as (r & <- & _). exact (fun x => x).
  - destruct (w_traj w) as [t|], (w_traj w') as [t'|]; try constructor. destruct (_ || _); [|constructor]. destruct (tr_files t), (tr_files t'); try constructor.
    eapply Forall_impl; [|apply traj_appends_is]. intros []; cbn; tauto.
  - destruct (w_hist w), (w_hist w'); try constructor. apply Forall_forall. intros op Hop. apply in_map_iff in Hop. destruct Hop as (r & <- & _). exact (fun x => x).
  - assert (Hh : exists h, w_hist w = Some h).
    { unfold acted in H. destruct b; cbn in H; destruct (w_hist w); cbn in H; try discriminate; eauto. }
    destruct Hh as (h & Eh). unfold plots, action_ops. cbv zeta. rewrite Eh. pose proof (gr_fes _ _ G) as T.
    destruct (w_fes w) as [f|], (w_fes w') as [f'|]; cbn [opt_rel] in T; try contradiction; [|reflexivity].
    destruct T as (_ & _ & (d & T) & _). rewrite plots_of_app, T, added_app, map_app. f_equal. rewrite plots_none.
    2:{ apply Forall_forall. intros op Hop. apply in_map_iff in Hop. destruct Hop as (r & <- & _). exact (fun x => x). }
    cbn [app]. clear. induction d as [|x d IH]; [reflexivity|]. cbn [map]. unfold plots_of in *. cbn [flat_map app]. now rewrite <- IH.
  - destruct (w_df w) as [[m r]|], (w_df w') as [[m' r']|]; try constructor. destruct (_ || _); [|constructor]. destruct (rc_file r), (rc_file r'); try constructor; [exact (fun x => x)|constructor].
  - destruct (w_pd w) as [[m r]|], (w_pd w') as [[m' r']|]; try constructor. destruct (_ || _); [|constructor]. destruct (rc_file r), (rc_file r'); try constructor; [exact (fun x => x)|constructor].
Qed.
Definition plotted_by (w : W) (m : wio W) : Prop := forall w', snd m = Ok w' -> plots e c w' = plots e c w ++ plots_of (fst m).
Lemma plotted_bind w (m : wio W) f : plotted_by w m -> (forall w', plotted_by w' (f w')) -> plotted_by w (wbind m f).
Proof.
  intros H1 H2. destruct m as [ops [a|x]]; cbn [wbind]; [|intros w' E; discriminate]. specialize (H1 a eq_refl). specialize (H2 a). unfold plotted_by in *.
  destruct (f a) as [ops' r]. cbn [fst snd] in *. intros w' E. rewrite (H2 _ E), H1, plots_of_app, app_assoc. reflexivity.
Qed.
Lemma plotted_fold {A} (f : W -> A -> wio W) : (forall w a, plotted_by w (f w a)) -> forall l w, plotted_by w (foldW f l w).
Proof.
  intro H. induction l as [|a l IH]; intro w; cbn [foldW]; [intros w' E; apply ok_inj in E; subst w'; cbn; now rewrite app_nil_r|]. now apply plotted_bind.
Qed.
Lemma plotted_loop acts n w : plotted_by w (main_loop_w e fe c acts n w).
Proof.
  unfold main_loop_w. apply plotted_bind.
  - apply plotted_fold. intros w1 k. apply plotted_fold. intros w2 a. unfold plotted_by, run_action_w. destruct (run_action e a k w2) eqn:E; [|discriminate].
    intros w' E'. apply ok_inj in E'. subst w'. exact (action_plots false a k _ _ E).
  - intro w1. apply plotted_fold. intros w2 a. unfold plotted_by, final_run_action_w. destruct (final_run_action e a n w2) eqn:E; [|discriminate].
    intros w' E'. apply ok_inj in E'. subst w'. exact (action_plots true a n _ _ E).
Qed.
Lemma setup_no_plots w0 acts (w : W) : setup_dynamics e c = Ok w0 -> setup_actions e c w0 = Ok (acts, w) -> plots e c w = [].
Proof.
  intros H0 H. destruct (set_up_built _ _ _ _ _ H0 H) as (B & _). unfold plots. destruct (bu_fes _ _ _ B) as [->|(o & h & f & _ & _ & Hs & ->)]; [reflexivity|].
  unfold setup_fes in Hs. binds Hs. unfold fes_init in Hs. apply bind_ok in Hs. destruct Hs as (fes & _ & Hs).
  repeat match type of Hs with (if ?b then _ else _) = _ => destruct b; [discriminate|] end. apply ok_inj in Hs. subst f. reflexivity.
Qed.
End plots.

Lemma main_plots e fe cv secs c ops w : parse_all cv secs = Ok c -> main_ops e fe cv (Some (Ok secs)) = (ops, Finished w) -> plots_of ops = plots e c w.
Proof.
  intros Hc. unfold main_ops, read_input. cbn [bind]. rewrite Hc.
  assert (U : forall x (w : world (e_rng e)), uncaught x <> Finished w) by (intros []; discriminate).
  destruct (setup_dynamics e c) as [w0|x] eqn:E0; [|intro H; injection H as _ H; destruct (U _ _ H)].
  destruct (setup_spec e fe c w0 E0) as (S & I & _). destruct (setup_actions_w e fe c w0) as [ops1 r]. cbn [fst snd] in S, I. subst r.
  destruct (setup_actions e c w0) as [[acts w1]|x] eqn:E1; [|destruct x; intro H; injection H as _ H; discriminate || destruct (U _ _ H)].
  pose proof (setup_no_plots _ _ _ _ _ E0 E1) as N.
  destruct (v_int (get_dict (c_ld c) "n_steps")) as [n|x]; cbn [lift wbind]; [|intro H; injection H as _ H; destruct (U _ _ H)].
  pose proof (plotted_loop e fe c acts n w1) as P. unfold plotted_by in P. destruct (main_loop_w e fe c acts n w1) as [ops2 [w2|x]]; cbn [app fst snd] in *; intro H; injection H as <- H; [|destruct (U _ _ H)].
  subst w2. rewrite (P _ eq_refl), N, plots_of_app. cbn [app]. rewrite plots_none; [reflexivity|].
  eapply Forall_impl; [|exact I]. intros op. apply is_init_writes.
Qed.

(** * Answers at the prompt *)
Lemma plottable_dec fe n : {plottable fe n} + {~ plottable fe n}.
Proof. unfold plottable. apply in_dec, string_dec. Qed.
Fixpoint prompts (fe : files_env) (l : list (string * list xreal)) : nat :=
  match l with [] => 0%nat | p :: l => ((if plottable_dec fe (fst p) then 0 else 1) + prompts fe l)%nat end.
Lemma op_other fe fs stdin op : writable fe -> ~ is_plot op -> exists fs', apply_op fe (fs, stdin) op = (fs', stdin, Ok tt).
Proof. intros Hw H. destruct (op_ok fe fs stdin op Hw) as (fs' & E & _); [destruct op; cbn in *; tauto|eauto]. Qed.
(** an empty line for every prompt *)
Lemma ops_answered fe ops : writable fe -> forall fs rest, exists fs',
  apply_ops fe ops (fs, repeat "" (prompts fe (plots_of ops)) ++ rest) = (fs', rest, Ok tt).
Proof.
  intro Hw. induction ops as [|op ops IH]; intros fs rest; [exists fs; reflexivity|]. cbn [apply_ops].
  assert (Q : ~ is_plot op \/ exists n f, op = OPlot n f) by (destruct op; cbn; eauto). destruct Q as [Q|(n & f & ->)].
  - assert (P : plots_of (op :: ops) = plots_of ops) by (destruct op; try reflexivity; destruct Q; exact I). rewrite P.
    destruct (op_other fe fs (repeat "" (prompts fe (plots_of ops)) ++ rest) op Hw Q) as (fs1 & ->). apply IH.
  - change (plots_of (OPlot n f :: ops)) with ((n, f) :: plots_of ops). cbn [prompts fst apply_op]. destruct (plottable_dec fe n) as [P|P].
    + cbn [Nat.add]. destruct (plot_overwrites fe fs (repeat "" (prompts fe (plots_of ops)) ++ rest) n f Hw P) as (fs1 & -> & _). apply IH.
    + rewrite (plot_prompts fe fs _ n f P). cbn [Nat.add repeat app save_interactive String.eqb]. apply IH.
Qed.
(** too few lines *)
Lemma ops_unanswered fe ops : writable fe -> forall fs k, (k < prompts fe (plots_of ops))%nat -> exists fs',
  apply_ops fe ops (fs, repeat "" k) = (fs', [], Err EOFError).
Proof.
  intro Hw. induction ops as [|op ops IH]; intros fs k Hk; [cbn in Hk; lia|]. cbn [apply_ops].
  assert (Q : ~ is_plot op \/ exists n f, op = OPlot n f) by (destruct op; cbn; eauto). destruct Q as [Q|(n & f & ->)].
  - assert (P : plots_of (op :: ops) = plots_of ops) by (destruct op; try reflexivity; destruct Q; exact I). rewrite P in Hk.
    destruct (op_other fe fs (repeat "" k) op Hw Q) as (fs1 & ->). apply IH. exact Hk.
  - change (plots_of (OPlot n f :: ops)) with ((n, f) :: plots_of ops) in Hk. cbn [prompts fst apply_op] in *. destruct (plottable_dec fe n) as [P|P].
    + destruct (plot_overwrites fe fs (repeat "" k) n f Hw P) as (fs1 & -> & _). apply IH. lia.
    + rewrite (plot_prompts fe fs _ n f P). destruct k as [|k]; cbn [repeat app save_interactive String.eqb]; [eauto|]. apply IH. lia.
Qed.
Lemma unsaved_prompts fe l n : unsaved fe l n -> prompts fe l = n.
Proof.
  intros (good & bad & P & G & B & <-).
  assert (E : prompts fe l = prompts fe (good ++ bad)).
  { clear - P. induction P; cbn [prompts] in *; lia. }
  rewrite E. clear E P. induction G as [|p g Hp _ IH]; cbn [app prompts].
  - induction B as [|p b Hp _ IH]; [reflexivity|]. cbn [prompts length]. destruct (plottable_dec fe (fst p)); [contradiction|]. lia.
  - destruct (plottable_dec fe (fst p)); [|contradiction]. exact IH.
Qed.

Lemma answered e fe cv secs c w fs rest n : writable fe -> main e cv (Some (Ok secs)) = Finished w -> parse_all cv secs = Ok c -> unsaved fe (plots e c w) n ->
  (exists fs', main_files e fe cv (Some (Ok secs)) fs (repeat "" n ++ rest) = (fs', rest, Finished w)) /\
  forall k, (k < n)%nat -> exists fs', main_files e fe cv (Some (Ok secs)) fs (repeat "" k) = (fs', [], Traceback EOFError).
Proof.
  intros Hw Hm Hc Hu. apply unsaved_prompts in Hu. subst n. pose proof (ops_outcome e fe cv (Some (Ok secs))) as Ho. unfold main_files.
  destruct (main_ops e fe cv (Some (Ok secs))) as [ops o] eqn:Em. cbn [snd] in Ho. rewrite Hm in Ho. subst o.
  rewrite <- (main_plots _ _ _ _ _ _ _ Hc Em). split.
  - destruct (ops_answered fe ops Hw fs rest) as (fs' & ->). eauto.
  - intros k Hk. destruct (ops_unanswered fe ops Hw fs k Hk) as (fs' & ->). eauto.
Qed.
