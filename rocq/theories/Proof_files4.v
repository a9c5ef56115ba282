(** The files written by the actions (C61) *)
From Coq Require Import Lia Lra.
From Verif Require Import PyBase Model_xr Model_input Model_dyn Model_bd Model_traj Model_hist Model_histaction Model_fes Model_deltaf Model_pdist
  Model_rec Model_setup Model_main Proof_base Proof_input Proof_main Proof_main2 Proof_whole Proof_whole2 Model_files Spec_main Spec_files Proof_files Proof_files2
  Proof_files3.
Open Scope string_scope.
Open Scope Z_scope.
Open Scope list_scope.
Ltac Zify.zify_post_hook ::= idtac.

Definition prefix_of {A} (l l' : list A) : Prop := exists d, l' = l ++ d.
Lemma prefix_refl {A} (l : list A) : prefix_of l l.
Proof. exists []. now rewrite app_nil_r. Qed.
Lemma prefix_app {A} (l d : list A) : prefix_of l (l ++ d).
Proof. now exists d. Qed.
Lemma prefix_trans {A} (l m k : list A) : prefix_of l m -> prefix_of m k -> prefix_of l k.
Proof. intros (d & ->) (d' & ->). exists (d ++ d'). now rewrite app_assoc. Qed.
Lemma added_app {A} (l d : list A) : added l (l ++ d) = d.
Proof. unfold added. rewrite skipn_app, skipn_all, Nat.sub_diag. reflexivity. Qed.
Lemma prefix_added {A} (l l' : list A) : prefix_of l l' -> l' = l ++ added l l'.
Proof. intros (d & ->). now rewrite added_app. Qed.
Lemma prefix_forall2_refl {A} (l : list (list A)) : Forall2 prefix_of l l.
Proof. induction l; constructor; auto using prefix_refl. Qed.
Lemma prefix_map {A B} (f : A -> B) l l' : prefix_of l l' -> prefix_of (map f l) (map f l').
Proof. intros (d & ->). rewrite map_app. apply prefix_app. Qed.

(** * What an action adds to the records *)
Definition opt_rel {A} (R : A -> A -> Prop) (o o' : option A) : Prop :=
  match o, o' with Some a, Some a' => R a a' | None, None => True | _, _ => False end.
Lemma opt_rel_refl {A} (R : A -> A -> Prop) o : (forall a, R a a) -> opt_rel R o o.
Proof. destruct o; cbn; auto. Qed.
Lemma opt_rel_trans {A} (R : A -> A -> Prop) o1 o2 o3 : (forall a b c, R a b -> R b c -> R a c) ->
  opt_rel R o1 o2 -> opt_rel R o2 o3 -> opt_rel R o1 o3.
Proof. destruct o1, o2, o3; cbn; try tauto. intros H. apply H. Qed.

Definition bd_grows {G} (a b : bdpar * G * stats * list report) : Prop :=
  fst (fst (fst b)) = fst (fst (fst a)) /\ prefix_of (snd a) (snd b).
Definition traj_grows (t t' : traj) : Prop :=
  some (tr_mom t') = some (tr_mom t) /\ opt_rel (Forall2 prefix_of) (tr_files t) (tr_files t').
Definition hist_grows (h h' : histact) : Prop :=
  h_edges (ha_hist h') = h_edges (ha_hist h) /\ prefix_of (ha_written h) (ha_written h').
Definition fes_grows (f f' : fesact) : Prop :=
  fa_plotname f' = fa_plotname f /\ prefix_of (fa_written f) (fa_written f') /\ prefix_of (fa_plotted f) (fa_plotted f') /\
  (fa_plotname f = false -> fa_plotted f' = fa_plotted f).
Definition rec_grows {M A} (a b : M * recorder A) : Prop :=
  fst b = fst a /\ opt_rel prefix_of (rc_file (snd a)) (rc_file (snd b)).
Record grows {rng} (w w' : world rng) : Prop := {
  gr_ld : w_ld w' = w_ld w;
  gr_bd : opt_rel bd_grows (w_bd w) (w_bd w');
  gr_traj : opt_rel traj_grows (w_traj w) (w_traj w');
  gr_hist : opt_rel hist_grows (w_hist w) (w_hist w');
  gr_fes : opt_rel fes_grows (w_fes w) (w_fes w');
  gr_df : opt_rel rec_grows (w_df w) (w_df w');
  gr_pd : opt_rel rec_grows (w_pd w) (w_pd w') }.

Lemma bd_grows_refl {G} (a : bdpar * G * stats * list report) : bd_grows a a.
Proof. split; [reflexivity|apply prefix_refl]. Qed.
Lemma traj_grows_refl t : traj_grows t t.
Proof. split; [reflexivity|apply opt_rel_refl, prefix_forall2_refl]. Qed.
Lemma hist_grows_refl h : hist_grows h h.
Proof. split; [reflexivity|apply prefix_refl]. Qed.
Lemma fes_grows_refl f : fes_grows f f.
Proof. repeat split; auto using prefix_refl. Qed.
Lemma rec_grows_refl {M A} (a : M * recorder A) : rec_grows a a.
Proof. split; [reflexivity|apply opt_rel_refl, prefix_refl]. Qed.
Lemma bd_grows_trans {G} (a b c : bdpar * G * stats * list report) : bd_grows a b -> bd_grows b c -> bd_grows a c.
Proof. intros (H1 & H2) (H3 & H4). split; [congruence|eapply prefix_trans; eassumption]. Qed.
Lemma traj_grows_trans t t' t'' : traj_grows t t' -> traj_grows t' t'' -> traj_grows t t''.
Proof.
  intros (H1 & H2) (H3 & H4). split; [congruence|]. eapply opt_rel_trans; [|exact H2|exact H4].
  intros a b c Hab. revert c. induction Hab; intros c Hbc; inversion Hbc; subst; constructor; eauto using prefix_trans.
Qed.
Lemma hist_grows_trans t t' t'' : hist_grows t t' -> hist_grows t' t'' -> hist_grows t t''.
Proof. intros (H1 & H2) (H3 & H4). split; [congruence|eapply prefix_trans; eassumption]. Qed.
Lemma fes_grows_trans t t' t'' : fes_grows t t' -> fes_grows t' t'' -> fes_grows t t''.
Proof.
  intros (H1 & H2 & H3 & H4) (H5 & H6 & H7 & H8). split; [congruence|]. split; [eapply prefix_trans; eassumption|].
  split; [eapply prefix_trans; eassumption|]. intro H. rewrite H8; auto. congruence.
Qed.
Lemma rec_grows_trans {M A} (a b c : M * recorder A) : rec_grows a b -> rec_grows b c -> rec_grows a c.
Proof. intros (H1 & H2) (H3 & H4). split; [congruence|]. eapply opt_rel_trans; [|exact H2|exact H4]. intros. eapply prefix_trans; eassumption. Qed.
Lemma grows_refl {rng} (w : world rng) : grows w w.
Proof.
  constructor; [reflexivity|apply opt_rel_refl..]; auto using bd_grows_refl, traj_grows_refl, hist_grows_refl, fes_grows_refl, rec_grows_refl.
Qed.
Lemma grows_trans {rng} (a b c : world rng) : grows a b -> grows b c -> grows a c.
Proof.
  intros [] []. constructor; [congruence| |..]; eapply opt_rel_trans; try eassumption.
  - apply bd_grows_trans. - apply traj_grows_trans. - apply hist_grows_trans. - apply fes_grows_trans.
  - apply rec_grows_trans. - apply rec_grows_trans.
Qed.

(** ** the objects *)
Lemma bd_run_out rng gd par k s out b out' : bd_run rng gd par k (s, out) = Ok (b, out') -> prefix_of out out'.
Proof.
  unfold bd_run. destruct (_ =? 0); [discriminate|]. intro H. apply bind_ok in H. destruct H as (x & _ & H). revert H. destruct (bd_stats_stride par) as [j|].
  - destruct (j =? 0); [intro H; apply ok_inj in H; injection H as _ <-; apply prefix_refl|].
    destruct (k mod j =? 0); intro H; apply ok_inj in H; injection H as _ <-; [apply prefix_app|apply prefix_refl].
  - intro H. apply ok_inj in H. injection H as _ <-. apply prefix_refl.
Qed.
Lemma bd_final_out rng par k s out : prefix_of out (snd (bd_final_run rng par k (s, out))).
Proof. unfold bd_final_run. destruct (truthyZ _); cbn [snd]; [apply prefix_refl|apply prefix_app]. Qed.

Lemma append_files_grow ts ps ms : forall files i, Forall2 prefix_of files (append_files i files ts ps ms).
Proof. induction files as [|f files IH]; intro i; cbn [append_files]; constructor; auto using prefix_app. Qed.
Lemma traj_write_grows t k t' : traj_write t k = Ok t' -> traj_grows t t'.
Proof.
  unfold traj_write. destruct (tr_files t) as [[|f fs]|] eqn:E; intro H; [apply ok_inj in H; subst; apply traj_grows_refl| |apply ok_inj in H; subst; apply traj_grows_refl].
  apply bind_ok in H. destruct H as (ts & _ & H). apply bind_ok in H. destruct H as (ps & _ & H). apply bind_ok in H. destruct H as (ms & _ & H).
  apply ok_inj in H. subst t'. split; [reflexivity|]. rewrite E. cbn [opt_rel tr_files]. apply append_files_grow.
Qed.
Lemma traj_run_grows dt ps t k t' : traj_run dt ps t k = Ok t' ->
  traj_grows t t' /\ tr_wstride t' = tr_wstride t /\ ((k mod tr_wstride t =? 0) = false -> tr_files t' = tr_files t).
Proof.
  unfold traj_run. destruct (_ =? 0); [discriminate|]. cbv zeta. intro H. apply bind_ok in H. destruct H as (ts & _ & H).
  destruct (negb _); [discriminate|]. apply bind_ok in H. destruct H as (pos & _ & H). apply bind_ok in H. destruct H as (mom & Em & H).
  assert (Hm : some mom = some (tr_mom t)).
  { destruct (tr_mom t); [|apply ok_inj in Em; now subst]. binds Em. apply ok_inj in Em. now subst. }
  set (t1 := mkTraj _ _ _ _ _ _ _ _) in H.
  assert (G : traj_grows t t1). { split; [exact Hm|]. apply opt_rel_refl, prefix_forall2_refl. }
  destruct (k mod tr_wstride t =? 0).
  - split; [eapply traj_grows_trans; [exact G|]; eapply traj_write_grows; exact H|]. split; [|discriminate].
    unfold traj_write in H. destruct (tr_files t1) as [[|]|]; [apply ok_inj in H; now subst t'| |apply ok_inj in H; now subst t'].
    apply bind_ok in H. destruct H as (? & _ & H). apply bind_ok in H. destruct H as (? & _ & H). apply bind_ok in H. destruct H as (? & _ & H).
    apply ok_inj in H. now subst t'.
  - apply ok_inj in H. subst t'. auto.
Qed.

Lemma rec_write_grows {A} (r : recorder A) k r' : rec_write r k = Ok r' -> opt_rel prefix_of (rc_file r) (rc_file r') /\ rc_wstride r' = rc_wstride r.
Proof.
  unfold rec_write. destruct (rc_file r) as [f|] eqn:E.
  - destruct (negb _); intro H; binds H; apply ok_inj in H; subst r'; cbn [rc_file opt_rel rc_wstride]; auto using prefix_app.
  - intro H. apply ok_inj in H. subst r'. rewrite E. cbn. auto.
Qed.
Lemma rec_run_grows {A} row (r : recorder A) k r' : rec_run row r k = Ok r' -> opt_rel prefix_of (rc_file r) (rc_file r') /\
  (negb (rc_wstride r =? 0) && (k mod rc_wstride r =? 0) = false -> rc_file r' = rc_file r).
Proof.
  unfold rec_run. intro H. apply bind_ok in H. destruct H as (r1 & E & H).
  assert (E1 : rc_file r1 = rc_file r /\ rc_wstride r1 = rc_wstride r).
  { destruct (_ && _) in E; [|apply ok_inj in E; now subst]. binds E. apply ok_inj in E. now subst. }
  destruct E1 as (E1 & E2). rewrite E2 in H. destruct (_ && _) in H |- *.
  - apply rec_write_grows in H. rewrite <- E1. split; [apply H|discriminate].
  - apply ok_inj in H. subst r1. rewrite E1. split; [apply opt_rel_refl, prefix_refl|reflexivity].
Qed.
Lemma rec_final_grows {A} row (r : recorder A) k r' : rec_final_run row r k = Ok r' -> opt_rel prefix_of (rc_file r) (rc_file r').
Proof.
  unfold rec_final_run. intro H. apply bind_ok in H. destruct H as (r1 & E & H).
  assert (E1 : rc_file r1 = rc_file r). { destruct (_ =? _) in E; [|apply ok_inj in E; now subst]. binds E. apply ok_inj in E. now subst. }
  rewrite <- E1. apply rec_write_grows in H. apply H.
Qed.

Lemma hist_add_edges h s h' : hist_add h s = Ok h' -> h_edges h' = h_edges h.
Proof. unfold hist_add. intro H. binds H. apply ok_inj in H. now subst h'. Qed.
Lemma ha_write_grows h s : hist_grows h (ha_write h s).
Proof. unfold ha_write. destruct (ha_filename h); [|apply hist_grows_refl]. split; [reflexivity|]. cbn [ha_written]. apply prefix_app. Qed.
Lemma ha_set_grows h x : h_edges x = h_edges (ha_hist h) -> hist_grows h (ha_set_hist h x).
Proof. intro H. split; [exact H|]. cbn. apply prefix_refl. Qed.
Lemma ha_run_grows t h k h' : ha_run t h k = Ok h' -> hist_grows h h'.
Proof.
  unfold ha_run. destruct (_ =? 0); [discriminate|]. intro H. apply bind_ok in H. destruct H as (h1 & E & H). apply ok_inj in H. subst h'.
  assert (G1 : hist_grows h h1).
  { destruct (_ =? 0); [|apply ok_inj in E; subst; apply hist_grows_refl]. binds E. apply ok_inj in E. subst h1.
    apply ha_set_grows. eapply hist_add_edges; eassumption. }
  assert (G2 : forall h2, hist_grows h h2 -> hist_grows h (if existsb (Z.eqb k) (ha_reset h2) then ha_set_hist h2 (hist_clear (ha_hist h2)) else h2)).
  { intros h2 G2. destruct (existsb _ _); [|exact G2]. eapply hist_grows_trans; [exact G2|]. now apply ha_set_grows. }
  apply G2. destruct (ha_wstride h1); [|exact G1]. destruct (_ && _); [|exact G1]. eapply hist_grows_trans; [exact G1|apply ha_write_grows].
Qed.
Lemma ha_final_grows t h k h' : ha_final_run t h k = Ok h' -> hist_grows h h'.
Proof.
  unfold ha_final_run. intro H. binds H. apply ok_inj in H. subst h'.
  assert (G1 : hist_grows h (ha_set_hist h x0)) by (apply ha_set_grows; eapply hist_add_edges; eassumption).
  destruct (ha_filename h); [|exact G1]. eapply hist_grows_trans; [exact G1|apply ha_write_grows].
Qed.

Lemma fa_write_grows f s : fes_grows f (fa_write f s).
Proof. unfold fa_write. destruct (fa_filename f); [|apply fes_grows_refl]. repeat split; cbn; auto using prefix_refl, prefix_app. Qed.
Lemma fa_plot_grows f s : fes_grows f (fa_plot f s).
Proof. unfold fa_plot. destruct (fa_plotname f) eqn:E; [|apply fes_grows_refl]. repeat split; cbn; auto using prefix_refl, prefix_app. congruence. Qed.
Lemma fa_set_grows f x : fes_grows f (fa_set_fes f x).
Proof. repeat split; cbn; auto using prefix_refl. Qed.
Lemma fes_run_grows h junk f k f' : fes_run h junk f k = Ok f' -> fes_grows f f'.
Proof.
  unfold fes_run. intro H. apply bind_ok in H. destruct H as (f1 & E & H). apply ok_inj in H. subst f'.
  assert (G1 : fes_grows f f1).
  { destruct (stride_hit _ _); [|apply ok_inj in E; subst; apply fes_grows_refl]. binds E. apply ok_inj in E. subst f1. apply fa_set_grows. }
  assert (G2 : fes_grows f (if stride_hit (fa_wstride f1) k then fa_write f1 (Some k) else f1)).
  { destruct (stride_hit (fa_wstride f1) k); [|exact G1]. eapply fes_grows_trans; [exact G1|apply fa_write_grows]. }
  destruct (stride_hit (fa_pstride _) _); [|exact G2]. eapply fes_grows_trans; [exact G2|apply fa_plot_grows].
Qed.
Lemma fes_final_grows h junk f k f' : fes_final_run h junk f k = Ok f' -> fes_grows f f'.
Proof.
  unfold fes_final_run. intro H. binds H. apply ok_inj in H. subst f'.
  eapply fes_grows_trans; [apply fa_set_grows|]. eapply fes_grows_trans; [apply fa_write_grows|apply fa_plot_grows].
Qed.

(** ** all actions *)
Ltac unframe := cbn [set_dyn set_bd set_traj set_hist set_fes set_df set_pd w_ld w_ps w_bd w_traj w_hist w_fes w_df w_pd] in *.
Ltac others := first [reflexivity | apply opt_rel_refl, bd_grows_refl | apply opt_rel_refl, traj_grows_refl | apply opt_rel_refl, hist_grows_refl
  | apply opt_rel_refl, fes_grows_refl | apply opt_rel_refl, rec_grows_refl | idtac].
Lemma run_grows e a k w w' : run_action e a k w = Ok w' -> grows w w'.
Proof.
  destruct a; cbn [run_action]; intro H.
  - binds H. apply ok_inj in H. subst w'. constructor; unframe; others.
  - apply bind_ok in H. destruct H as ([[[par g] st] out] & E & H). apply bind_ok in H. destruct H as ([b out'] & E1 & H). apply ok_inj in H. subst w'.
    apply need_ok in E. constructor; unframe; others. rewrite E. split; [reflexivity|]. cbn [snd]. eapply bd_run_out; exact E1.
  - binds H. apply ok_inj in H. subst w'. apply need_ok in E. constructor; unframe; others. rewrite E. eapply traj_run_grows; eassumption.
  - binds H. apply ok_inj in H. subst w'. apply need_ok in E, E0. constructor; unframe; others. rewrite E0. eapply ha_run_grows; eassumption.
  - binds H. apply ok_inj in H. subst w'. apply need_ok in E, E0. constructor; unframe; others. rewrite E0. eapply fes_run_grows; eassumption.
  - apply bind_ok in H. destruct H as (f & _ & H). apply bind_ok in H. destruct H as ([m r] & E & H). binds H. apply ok_inj in H. subst w'. apply need_ok in E.
    constructor; unframe; others. rewrite E. split; [reflexivity|]. eapply rec_run_grows; eassumption.
  - apply bind_ok in H. destruct H as ([m r] & E & H). binds H. apply ok_inj in H. subst w'. apply need_ok in E.
    constructor; unframe; others. rewrite E. split; [reflexivity|]. eapply rec_run_grows; eassumption.
Qed.
Lemma final_grows e a k w w' : final_run_action e a k w = Ok w' -> grows w w'.
Proof.
  destruct a; cbn [final_run_action]; intro H.
  - apply ok_inj in H. subst w'. apply grows_refl.
  - apply bind_ok in H. destruct H as ([[[par g] st] out] & E & H). apply need_ok in E.
    pose proof (bd_final_out (e_rng e) par k (mkBS (w_ps w) g st) out) as P.
    destruct (bd_final_run _ _ _ _) as [b out']. apply ok_inj in H. subst w'.
    constructor; unframe; others. rewrite E. split; [reflexivity|exact P].
  - binds H. apply ok_inj in H. subst w'. apply need_ok in E. constructor; unframe; others. rewrite E. eapply traj_write_grows; eassumption.
  - binds H. apply ok_inj in H. subst w'. apply need_ok in E, E0. constructor; unframe; others. rewrite E0. eapply ha_final_grows; eassumption.
  - binds H. apply ok_inj in H. subst w'. apply need_ok in E, E0. constructor; unframe; others. rewrite E0. eapply fes_final_grows; eassumption.
  - apply bind_ok in H. destruct H as (f & _ & H). apply bind_ok in H. destruct H as ([m r] & E & H). binds H. apply ok_inj in H. subst w'. apply need_ok in E.
    constructor; unframe; others. rewrite E. split; [reflexivity|]. eapply rec_final_grows; eassumption.
  - apply bind_ok in H. destruct H as ([m r] & E & H). binds H. apply ok_inj in H. subst w'. apply need_ok in E.
    constructor; unframe; others. rewrite E. split; [reflexivity|]. eapply rec_final_grows; eassumption.
Qed.
