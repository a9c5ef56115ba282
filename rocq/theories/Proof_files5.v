(** The files on disk after a run (C61, C48) *)
From Coq Require Import Lia Lra.
From Verif Require Import PyBase Model_xr Model_input Model_dyn Model_bd Model_traj Model_hist Model_histaction Model_fes Model_deltaf Model_pdist
  Model_rec Model_setup Model_main Proof_base Proof_input Proof_main Proof_main2 Proof_whole Proof_whole2 Model_files Spec_main Spec_files Proof_files Proof_files2
  Proof_files3 Proof_files4.
Open Scope string_scope.
Open Scope Z_scope.
Open Scope list_scope.
Ltac Zify.zify_post_hook ::= idtac.

Definition contents : Type := list (string * option (list line)).
Definition holds (T : contents) (fs : fsys) : Prop := forall n c, In (n, Some c) T -> fs_get fs n = Some c.

Lemma in_names (T : contents) n x : In (n, x) T -> In n (map fst T).
Proof. intro H. change n with (fst (n, x)). now apply in_map. Qed.
Lemma nodup_parts {A} (l m : list A) x : NoDup (l ++ m) -> In x l -> In x m -> False.
Proof.
  induction l as [|a l IH]; cbn; [tauto|]. intros H [->|Hl] Hm; inversion H; subst.
  - apply H2. apply in_or_app. auto.
  - auto.
Qed.
Lemma nodup_unique (T : contents) n x y : NoDup (map fst T) -> In (n, x) T -> In (n, y) T -> x = y.
Proof.
  induction T as [|[m z] T IH]; cbn; [tauto|]. intros H H1 H2. inversion H; subst.
  destruct H1 as [H1|H1], H2 as [H2|H2].
  - congruence.
  - injection H1 as <- <-. apply in_names in H2. contradiction.
  - injection H2 as <- <-. apply in_names in H1. contradiction.
  - auto.
Qed.

Section chunks.
Context (fe : files_env) (Hw : writable fe).

Definition is_append (op : fop) : Prop := match op with OAppend _ _ => True | _ => False end.
Lemma append_chunk ops fs stdin fs' stdin' r : Forall is_append ops -> apply_ops fe ops (fs, stdin) = (fs', stdin', r) ->
  forall x c, fs_get fs x = Some c -> fs_get fs' x = Some (c ++ appended x ops).
Proof.
  intros Ha H x c Hc. eapply append_only; [exact Hw| | |exact Hc|exact H].
  - eapply Forall_impl; [|exact Ha]. intros []; cbn; tauto.
  - eapply Forall_impl; [|exact Ha]. intros []; cbn; try tauto. intros _ ->. eauto.
Qed.
Lemma appended_other ops x : Forall (fun op => op_file op <> x) ops -> appended x ops = [].
Proof.
  induction 1 as [|op ops Ho _ IH]; [reflexivity|]. unfold appended in *. cbn [flat_map]. rewrite IH, app_nil_r.
  destruct op; try reflexivity. cbn [op_file] in Ho. destruct (String.eqb_spec name x); [contradiction|reflexivity].
Qed.
Lemma other_chunk ops fs stdin fs' stdin' r x c : Forall (can_plot fe) ops -> Forall (fun op => op_file op <> x) ops ->
  apply_ops fe ops (fs, stdin) = (fs', stdin', r) -> fs_get fs x = Some c -> fs_get fs' x = Some c.
Proof.
  intros Hp Hx H Hc. rewrite <- (app_nil_r c), <- (appended_other _ _ Hx). eapply append_only; [exact Hw|exact Hp| |exact Hc|exact H].
  eapply Forall_impl; [|exact Hx]. cbn beta. intros op Ho E. contradiction.
Qed.

(** a part whose tables get more rows *)
Lemma append_holds A S S' B ops fs stdin fs' stdin' r : Forall is_append ops ->
  (forall n c, In (n, Some c) S' -> exists c0, In (n, Some c0) S /\ c = c0 ++ appended n ops) ->
  Forall (fun op => In (op_file op) (map fst S')) ops ->
  NoDup (map fst (A ++ S' ++ B)) -> holds (A ++ S ++ B) fs ->
  apply_ops fe ops (fs, stdin) = (fs', stdin', r) -> holds (A ++ S' ++ B) fs'.
Proof.
  intros Ha HS Hn Hd Hh H n c Hin.
  assert (O : ~ In n (map fst S') -> fs_get fs n = Some c -> fs_get fs' n = Some c).
  { intros Hx Hc. eapply other_chunk; [| |exact H|exact Hc].
    - eapply Forall_impl; [|exact Ha]. intros []; cbn; tauto.
    - eapply Forall_impl; [|exact Hn]. cbn beta. intros op Hi E. subst n. contradiction. }
  rewrite !map_app in Hd. apply in_app_or in Hin. destruct Hin as [Hin|Hin]; [|apply in_app_or in Hin; destruct Hin as [Hin|Hin]].
  - apply O; [|apply Hh, in_or_app; auto]. intro Hi. eapply nodup_parts; [exact Hd|eapply in_names; exact Hin|apply in_or_app; auto].
  - destruct (HS n c Hin) as (c0 & Hc0 & ->). eapply append_chunk; [exact Ha|exact H|]. apply Hh, in_or_app. right. apply in_or_app. auto.
  - apply O; [|apply Hh, in_or_app; right; apply in_or_app; auto]. intro Hi.
    assert (Hd2 : NoDup (map fst S' ++ map fst B)).
    { clear - Hd. induction (map fst A); [exact Hd|]. inversion Hd. auto. }
    eapply nodup_parts; [exact Hd2|exact Hi|eapply in_names; exact Hin].
Qed.

(** a part with new files *)
Definition writes (op : fop) (t : string * option (list line)) : Prop :=
  op_file op = fst t /\
  match op with OWrite _ l => snd t = l | OPlot _ f => snd t = Some [Image f] | OInit _ f k => snd t = Some (header f k) | OAppend _ _ => False end.
Lemma writes_holds ops : forall T D fs stdin fs' stdin' r, Forall (can_plot fe) ops -> Forall2 writes ops D ->
  NoDup (map fst T ++ map fst D) -> holds T fs -> apply_ops fe ops (fs, stdin) = (fs', stdin', r) -> holds (T ++ D) fs'.
Proof.
  induction ops as [|op ops IH]; intros T D fs stdin fs' stdin' r Hp HD Hd Hh H; inversion HD as [|? [n l] ? D' [Ho Hc] HD']; subst.
  - rewrite app_nil_r. cbn in H. injection H as <- <- <-. exact Hh.
  - apply Forall_cons_iff in Hp. destruct Hp as (Hp1 & Hp2). cbn [apply_ops] in H.
    destruct (op_ok fe fs stdin op Hw Hp1) as (fs1 & E & Hother & Hthis). rewrite E in H.
    replace (T ++ (n, l) :: D') with ((T ++ [(n, l)]) ++ D') by now rewrite <- app_assoc.
    eapply IH; [exact Hp2|exact HD'| | |exact H].
    + rewrite map_app, <- app_assoc. exact Hd.
    + cbn [fst snd] in *. intros m c Hin. apply in_app_or in Hin. destruct Hin as [Hin|[Heq|[]]].
      * rewrite Hother; [now apply Hh| |rewrite (Hh _ _ Hin); discriminate]. rewrite Ho. intros ->. eapply nodup_parts; [exact Hd|eapply in_names; exact Hin|now left].
      * injection Heq as <- ->. destruct op; cbn [op_file] in Ho; subst; try contradiction; rewrite Hthis; try congruence. rewrite Hc. reflexivity.
Qed.
Lemma writes_part A S D B ops fs stdin fs' stdin' r : Forall (can_plot fe) ops -> Forall2 writes ops D ->
  NoDup (map fst (A ++ (S ++ D) ++ B)) -> holds (A ++ S ++ B) fs ->
  apply_ops fe ops (fs, stdin) = (fs', stdin', r) -> holds (A ++ (S ++ D) ++ B) fs'.
Proof.
  intros Hp HD Hd Hh H. assert (P : holds ((A ++ S ++ B) ++ D) fs').
  { eapply writes_holds; [exact Hp|exact HD| |exact Hh|exact H].
    rewrite !map_app in *. clear - Hd. rewrite <- !app_assoc in Hd. rewrite <- !app_assoc.
    eapply Permutation.Permutation_NoDup; [|exact Hd]. do 2 apply Permutation.Permutation_app_head. apply Permutation.Permutation_app_comm. }
  intros n c Hin. apply P. rewrite !in_app_iff in *. tauto.
Qed.
End chunks.

Lemma hist_lines_edges fe o n h h' d : h_edges h' = h_edges h -> hist_lines fe o n h' d = hist_lines fe o n h d.
Proof. intro H. unfold hist_lines, hist_axes, hist_points, hist_axes. now rewrite H. Qed.
Lemma fes_lines_edges fe n h h' d : h_edges h' = h_edges h -> fes_lines fe n h' d = fes_lines fe n h d.
Proof. intro H. unfold fes_lines, center_ranges, hist_axes. now rewrite H. Qed.

Lemma combine_seq_names {A B} (f : nat -> B) (l : list A) : forall k, map (fun ir => f (fst ir)) (combine (seq k (length l)) l) = map f (seq k (length l)).
Proof. induction l as [|a l IH]; intro k; [reflexivity|]. cbn [length seq combine map fst]. now rewrite IH. Qed.

Lemma Forall2_length {A B} (R : A -> B -> Prop) l l' : Forall2 R l l' -> length l = length l'.
Proof. induction 1; cbn; congruence. Qed.

Lemma appended_cons x n rows ops : appended x (OAppend n rows :: ops) = (if String.eqb n x then rows else []) ++ appended x ops.
Proof. reflexivity. Qed.

Section step.
Context (e : env) (fe : files_env) (c : config).
Notation parts := (output_parts e fe c).
Notation out := (output_files e fe c).
Notation W := (world (e_rng e)).

Lemma parts_grow (w w' : W) : grows w w' -> Forall2 prefix_of (map (map fst) (parts w)) (map (map fst) (parts w')).
Proof.
  intros [L B T H F D P]. unfold output_parts. cbn [map]. repeat constructor.
  - unfold stats_files. destruct (w_bd w) as [[[[par g] st] o]|], (w_bd w') as [[[[par' g'] st'] o']|]; cbn in B; try contradiction; [|apply prefix_refl].
    destruct B as (B & _). cbn in B. subst par'. destruct (bd_to_file par); apply prefix_refl.
  - unfold trajectory_files. destruct (w_traj w) as [t|], (w_traj w') as [t'|]; cbn in T; try contradiction; [|apply prefix_refl].
    destruct T as (_ & T). destruct (tr_files t) as [f|], (tr_files t') as [f'|]; cbn in T; try contradiction; [|apply prefix_refl].
    rewrite !map_map. cbn [table fst]. rewrite !(combine_seq_names (fun i => (file_opt (opts (c_trajectories c)) "filename" ++ "." ++ string_of_nat i)%string)).
    rewrite <- (Forall2_length _ _ _ T). apply prefix_refl.
  - unfold histogram_files. destruct (w_hist w) as [h|], (w_hist w') as [h'|]; cbn in H; try contradiction; [|apply prefix_refl].
    destruct H as (_ & H). rewrite !map_map. cbn [fst]. now apply prefix_map.
  - unfold fes_files. destruct (w_hist w) as [h|], (w_hist w') as [h'|]; cbn in H; try contradiction; [|apply prefix_refl].
    destruct (w_fes w) as [f|], (w_fes w') as [f'|]; cbn in F; try contradiction; [|apply prefix_refl].
    destruct F as (_ & F & _). rewrite !map_map. cbn [fst]. now apply prefix_map.
  - unfold plot_files. destruct (w_fes w) as [f|], (w_fes w') as [f'|]; cbn in F; try contradiction; [|apply prefix_refl].
    destruct F as (_ & _ & F & _). rewrite !map_map. cbn [fst]. now apply prefix_map.
  - unfold delta_f_files. destruct (w_df w) as [[m r]|], (w_df w') as [[m' r']|]; cbn in D; try contradiction; [|apply prefix_refl].
    destruct D as (_ & D). cbn in D. destruct (rc_file r), (rc_file r'); cbn in D; try contradiction; apply prefix_refl.
  - unfold distribution_files. destruct (w_pd w) as [[m r]|], (w_pd w') as [[m' r']|]; cbn in P; try contradiction; [|apply prefix_refl].
    destruct P as (_ & P). cbn in P. destruct (rc_file r), (rc_file r'); cbn in P; try contradiction; apply prefix_refl.
Qed.

Lemma concat_prefix_nodup {A} (l l' : list (list A)) : Forall2 prefix_of l l' -> NoDup (concat l') -> NoDup (concat l).
Proof.
  assert (I : forall l l' : list (list A), Forall2 prefix_of l l' -> forall x, In x (concat l) -> In x (concat l')).
  { induction 1 as [|a b l0 l0' (d & ->) _ IH]; cbn [concat]; [auto|]. intros x Hx. rewrite !in_app_iff in *. destruct Hx; auto. }
  induction 1 as [|a b l0 l0' (d & ->) HF IH]; cbn [concat]; [auto|]. intro H. rewrite <- app_assoc in H.
  apply NoDup_app_intro.
  - clear - H. induction a as [|x a IH]; [constructor|]. cbn in H. inversion H; subst. constructor; [|auto]. intro Hx. apply H2, in_or_app. auto.
  - apply IH. clear - H. induction a as [|x a IH]; [|cbn in H; inversion H; auto]. cbn in H. induction d as [|x d IHd]; [exact H|]. cbn in H. inversion H. auto.
  - intros x Hx Hy. eapply nodup_parts; [exact H|exact Hx|]. apply in_or_app. right. eapply I; eassumption.
Qed.
Lemma names_out (w : W) : map fst (out w) = concat (map (map fst) (parts w)).
Proof. unfold output_files. apply concat_map. Qed.
Lemma nodup_grow (w w' : W) : grows w w' -> NoDup (map fst (out w')) -> NoDup (map fst (out w)).
Proof. intro H. rewrite !names_out. apply concat_prefix_nodup, parts_grow, H. Qed.
Lemma names_grow (w w' : W) x : grows w w' -> In x (map fst (out w)) -> In x (map fst (out w')).
Proof.
  intros H. rewrite !names_out. generalize (parts_grow _ _ H). generalize (map (map fst) (parts w)) (map (map fst) (parts w')).
  induction 1 as [|a b l0 l0' (d & ->) _ IH]; cbn [concat]; [auto|]. intros Hx. rewrite !in_app_iff in *. destruct Hx; auto.
Qed.

(** a step of the program with its file operations *)
Definition good_step (w w' : W) (ops : list fop) : Prop :=
  grows w w' /\ Forall (fun op => In (op_file op) (map fst (out w'))) ops /\
  (writable fe -> Forall (can_plot fe) ops -> NoDup (map fst (out w')) -> forall fs stdin fs' stdin' r, holds (out w) fs ->
   apply_ops fe ops (fs, stdin) = (fs', stdin', r) -> holds (out w') fs').
Lemma good_refl w : good_step w w [].
Proof.
  split; [apply grows_refl|]. split; [constructor|]. intros _ _ _ fs stdin fs' stdin' r Hh H. cbn in H. injection H as <- <- <-. exact Hh.
Qed.
Lemma good_trans w1 w2 w3 o1 o2 : good_step w1 w2 o1 -> good_step w2 w3 o2 -> good_step w1 w3 (o1 ++ o2).
Proof.
  intros (G1 & N1 & H1) (G2 & N2 & H2). split; [eapply grows_trans; eassumption|]. split.
  - apply Forall_app. split; [|exact N2]. eapply Forall_impl; [|exact N1]. cbn beta. intros op Hop. eapply names_grow; eassumption.
  - intros Hw Hp Hd fs stdin fs' stdin' r Hh H. apply Forall_app in Hp. destruct Hp as (Hp1 & Hp2).
    rewrite apply_app in H. destruct (ops_ok fe o1 Hw Hp1 fs stdin) as (fs1 & E1). rewrite E1 in H.
    eapply H2; [exact Hw|exact Hp2|exact Hd| |exact H]. eapply H1; [exact Hw|exact Hp1| |exact Hh|exact E1].
    eapply nodup_grow; eassumption.
Qed.

(** one call of one action *)
Definition acted (final : bool) (a : action) (k : Z) (w w' : W) : Prop :=
  (if final then final_run_action e a k w else run_action e a k w) = Ok w'.
Lemma acted_grows b a k w w' : acted b a k w w' -> grows w w'.
Proof. destruct b; [apply final_grows|apply run_grows]. Qed.
Lemma acted_frame b a k w w' : acted b a k w w' -> frame a w w'.
Proof. destruct b; intro H; [now apply final_frame in H|now apply run_frame in H]. Qed.

Lemma traj_appends_is name : forall f f' i, Forall is_append (traj_appends name i f f').
Proof. induction f as [|x f IH]; intros f' i; cbn [traj_appends]; [constructor|]. destruct f' as [|x' f']; constructor; [exact I|apply IH]. Qed.
Lemma walker_file_inj name i j : walker_file name i = walker_file name j -> i = j.
Proof. unfold walker_file. intro H. apply append_inj_l, append_inj_l in H. now apply string_of_nat_inj. Qed.
Lemma traj_appends_files name : forall f f' i, length f = length f' ->
  map op_file (traj_appends name i f f') = map (walker_file name) (seq i (length f)).
Proof.
  induction f as [|x f IH]; intros [|x' f'] i H; try discriminate; [reflexivity|]. cbn [traj_appends map length seq op_file].
  rewrite IH by (cbn in H; lia). reflexivity.
Qed.
Lemma traj_appended name : forall f f' i j, Forall2 prefix_of f f' -> (i <= j < i + length f)%nat ->
  nth (j - i) f' [] = nth (j - i) f [] ++ added (nth (j - i) f []) (nth (j - i) f' []) /\
  appended (walker_file name j) (traj_appends name i f f') =
  map (fun r => Row (map Fin r)) (added (nth (j - i) f []) (nth (j - i) f' [])).
Proof.
  induction f as [|x f IH]; intros f' i j HF Hj; [cbn in Hj; lia|]. inversion HF as [|? x' ? f1 Hx HF']; subst. cbn [length] in Hj.
  cbn [traj_appends]. rewrite appended_cons.
  destruct (Nat.eq_dec i j) as [<-|Hn].
  - rewrite Nat.sub_diag, String.eqb_refl. cbn [nth]. split; [now apply prefix_added|].
    rewrite (appended_other (traj_appends name (S i) f f1)) by
      (apply Forall_forall; intros op Hop; apply (in_map op_file) in Hop; rewrite traj_appends_files in Hop by exact (Forall2_length _ _ _ HF');
       apply in_map_iff in Hop; destruct Hop as (k & <- & Hk); apply in_seq in Hk; intro E; apply walker_file_inj in E; lia).
    apply app_nil_r.
  - replace (j - i)%nat with (S (j - S i)) by lia. cbn [nth]. destruct (String.eqb_spec (walker_file name i) (walker_file name j)) as [E|_].
    + apply walker_file_inj in E. contradiction.
    + cbn [app]. apply IH; [exact HF'|lia].
Qed.

(** ** the parts of the other actions are the same *)
Lemma stats_same (w w' : W) : w_bd w' = w_bd w -> stats_files e fe c w' = stats_files e fe c w.
Proof. intro H. unfold stats_files. now rewrite H. Qed.
Lemma traj_same (w w' : W) : w_ld w' = w_ld w -> w_traj w' = w_traj w -> trajectory_files e c w' = trajectory_files e c w.
Proof. intros H1 H2. unfold trajectory_files, traj_columns, coordinates. now rewrite H1, H2. Qed.
Lemma hist_same (w w' : W) : w_ld w' = w_ld w -> w_hist w' = w_hist w -> histogram_files e fe c w' = histogram_files e fe c w.
Proof. intros H1 H2. unfold histogram_files. now rewrite H1, H2. Qed.
Lemma fes_same (w w' : W) : w_ld w' = w_ld w -> opt_rel hist_grows (w_hist w) (w_hist w') -> w_fes w' = w_fes w ->
  fes_files e fe c w' = fes_files e fe c w.
Proof.
  intros H1 H2 H3. unfold fes_files. rewrite H1, H3. destruct (w_hist w) as [h|], (w_hist w') as [h'|]; cbn in H2; try contradiction; [|reflexivity].
  destruct H2 as (H2 & _). destruct (w_fes w) as [f|]; [|reflexivity]. apply map_ext. intros sd. now rewrite (fes_lines_edges _ _ _ _ _ H2).
Qed.
Lemma plot_same (w w' : W) : w_fes w' = w_fes w -> plot_files e c w' = plot_files e c w.
Proof. intro H. unfold plot_files. now rewrite H. Qed.
Lemma df_same (w w' : W) : w_ld w' = w_ld w -> w_df w' = w_df w -> delta_f_files e fe c w' = delta_f_files e fe c w.
Proof. intros H1 H2. unfold delta_f_files. now rewrite H1, H2. Qed.
Lemma pd_same (w w' : W) : w_pd w' = w_pd w -> distribution_files e fe c w' = distribution_files e fe c w.
Proof. intro H. unfold distribution_files. now rewrite H. Qed.

Lemma same_good (w w' : W) : grows w w' -> out w' = out w -> good_step w w' [].
Proof.
  intros G E. split; [exact G|]. split; [constructor|]. intros _ _ _ fs stdin fs' stdin' r Hh H. cbn in H. injection H as <- <- <-. now rewrite E.
Qed.

Definition pieces (P1 : list contents) (S : contents) (P2 : list contents) (w : W) : Prop := parts w = P1 ++ S :: P2.
Lemma pieces_out P1 S P2 w : pieces P1 S P2 w -> out w = concat P1 ++ S ++ concat P2.
Proof. unfold pieces, output_files. intros ->. now rewrite concat_app. Qed.
Lemma append_good (w w' : W) P1 S S' P2 ops : grows w w' -> pieces P1 S P2 w -> pieces P1 S' P2 w' -> Forall is_append ops ->
  (forall n c, In (n, Some c) S' -> exists c0, In (n, Some c0) S /\ c = c0 ++ appended n ops) ->
  Forall (fun op => In (op_file op) (map fst S')) ops -> good_step w w' ops.
Proof.
  intros G E E' Ha HS Hn. apply pieces_out in E, E'. split; [exact G|]. rewrite E, E'. split.
  - eapply Forall_impl; [|exact Hn]. cbn beta. intros op Hop. rewrite !map_app, !in_app_iff. auto.
  - intros Hw _ Hd fs stdin fs' stdin' r Hh H. eapply append_holds; eassumption.
Qed.
Lemma write_good (w w' : W) P1 S D P2 ops : grows w w' -> pieces P1 S P2 w -> pieces P1 (S ++ D) P2 w' -> Forall2 writes ops D ->
  good_step w w' ops.
Proof.
  intros G E E' HD. apply pieces_out in E, E'. split; [exact G|]. rewrite E, E'. split.
  - clear - HD. assert (Q : Forall (fun op => In (op_file op) (map fst D)) ops).
    { induction HD as [|op t ops D' (Ho & _) _ IH]; constructor; [left; now rewrite Ho|]. eapply Forall_impl; [|exact IH]. cbn; auto. }
    eapply Forall_impl; [|exact Q]. cbn beta. intros op Hop. rewrite !map_app, !in_app_iff. auto.
  - intros Hw Hp Hd fs stdin fs' stdin' r Hh H. eapply writes_part; eassumption.
Qed.

Lemma frame_parts b a k w w' : acted b a k w w' ->
  (a <> ABirthDeath -> stats_files e fe c w' = stats_files e fe c w) /\
  (a <> ATrajectories -> trajectory_files e c w' = trajectory_files e c w) /\
  (a <> AHistogram -> histogram_files e fe c w' = histogram_files e fe c w) /\
  (a <> AFes -> fes_files e fe c w' = fes_files e fe c w /\ plot_files e c w' = plot_files e c w) /\
  (a <> ADeltaF -> delta_f_files e fe c w' = delta_f_files e fe c w) /\
  (a <> AParticleDistribution -> distribution_files e fe c w' = distribution_files e fe c w).
Proof.
  intro H. pose proof (acted_grows _ _ _ _ _ H) as G. destruct (acted_frame _ _ _ _ _ H) as (F0 & _ & _ & F2 & F3 & F4 & F5 & F6 & F7).
  split; [intro N; apply stats_same; auto|]. split; [intro N; apply traj_same; auto|]. split; [intro N; apply hist_same; auto|].
  split; [intro N; split; [apply fes_same; [auto|apply G|auto]|apply plot_same; auto]|]. split; [intro N; apply df_same; auto|intro N; apply pd_same; auto].
Qed.

Lemma ld_good b k w w' : acted b ALd k w w' -> good_step w w' (action_ops e fe c b ALd k w w').
Proof.
  intro H. apply same_good; [eapply acted_grows; exact H|].
  destruct (frame_parts _ _ _ _ _ H) as (F2 & F3 & F4 & F5 & F6 & F7).
  unfold output_files, output_parts. rewrite F2, F3, F4, F6, F7 by discriminate. destruct F5 as [-> ->]; [discriminate|]. reflexivity.
Qed.

Lemma bd_good b k w w' : acted b ABirthDeath k w w' -> good_step w w' (action_ops e fe c b ABirthDeath k w w').
Proof.
  intro H. pose proof (acted_grows _ _ _ _ _ H) as G. destruct (frame_parts _ _ _ _ _ H) as (_ & F3 & F4 & F5 & F6 & F7).
  destruct F5 as [F5 F5']; [discriminate|]. specialize (F3 ltac:(discriminate)). specialize (F4 ltac:(discriminate)).
  specialize (F6 ltac:(discriminate)). specialize (F7 ltac:(discriminate)).
  assert (P : pieces [] (stats_files e fe c w') (tl (parts w)) w').
  { unfold pieces, output_parts. cbn [tl app]. now rewrite F3, F4, F5, F5', F6, F7. }
  assert (Q : pieces [] (stats_files e fe c w) (tl (parts w)) w) by reflexivity.
  unfold action_ops. cbv zeta. pose proof (gr_bd _ _ G) as B. unfold stats_files in P, Q.
  destruct (w_bd w) as [[[[par g] st] o]|], (w_bd w') as [[[[par' g'] st'] o']|]; cbn in B; try contradiction.
  - destruct B as (B & (d & Hd)). cbn in B, Hd. subst par' o'. rewrite added_app. destruct (bd_to_file par).
    + eapply append_good; [exact G|exact Q|exact P| | |].
      * apply Forall_forall. intros op Hop. apply in_map_iff in Hop. destruct Hop as (r & <- & _). exact I.
      * intros n l [Heq|[]]. injection Heq as <- <-.
        assert (E : forall x, appended x (map (fun r => OAppend x [stats_row r]) d) = map stats_row d).
        { intro x. clear. induction d as [|r d IH]; [reflexivity|]. cbn [map]. rewrite appended_cons, String.eqb_refl, IH. reflexivity. }
        rewrite E, map_app. eexists. split; [left; reflexivity|reflexivity].
      * apply Forall_forall. intros op Hop. apply in_map_iff in Hop. destruct Hop as (r & <- & _). left. reflexivity.
    + apply same_good; [exact G|]. apply pieces_out in P, Q. congruence.
  - apply same_good; [exact G|]. apply pieces_out in P, Q. congruence.
Qed.

Lemma traj_unhit b k w w' t t' : acted b ATrajectories k w w' -> w_traj w = Some t -> w_traj w' = Some t' ->
  b || (k mod tr_wstride t =? 0) = false -> tr_files t' = tr_files t.
Proof.
  destruct b; cbn [orb acted run_action]; [discriminate|]. intros H Ht Ht' Hk. unfold acted in H. cbn [run_action] in H. rewrite Ht in H. cbn [need bind] in H.
  binds H. apply ok_inj in H. subst w'. cbn [set_traj w_traj] in Ht'. injection Ht' as <-. eapply traj_run_grows; eassumption.
Qed.
Lemma seq_combine_in {A} (l : list A) : forall k i x, In (i, x) (combine (seq k (length l)) l) -> (k <= i < k + length l)%nat /\ nth_error l (i - k) = Some x.
Proof.
  induction l as [|a l IH]; intros k i x H; [destruct H|]. cbn [length seq combine] in H. destruct H as [H|H].
  - injection H as <- <-. rewrite Nat.sub_diag. cbn [length nth_error]. split; [lia|reflexivity].
  - apply IH in H. destruct H as (Hi & Hx). cbn [length]. split; [lia|]. replace (i - k)%nat with (S (i - S k)) by lia. exact Hx.
Qed.
Lemma in_seq_combine {A} (l : list A) : forall k i x, nth_error l i = Some x -> In ((k + i)%nat, x) (combine (seq k (length l)) l).
Proof.
  induction l as [|a l IH]; intros k [|i] x H; try discriminate; cbn [length seq combine].
  - injection H as <-. left. f_equal. lia.
  - right. replace (k + S i)%nat with (S k + i)%nat by lia. apply IH. exact H.
Qed.
Lemma traj_good b k w w' : acted b ATrajectories k w w' -> good_step w w' (action_ops e fe c b ATrajectories k w w').
Proof.
  intro H. pose proof (acted_grows _ _ _ _ _ H) as G. destruct (frame_parts _ _ _ _ _ H) as (F2 & _ & F4 & F5 & F6 & F7).
  destruct F5 as [F5 F5']; [discriminate|]. specialize (F2 ltac:(discriminate)). specialize (F4 ltac:(discriminate)).
  specialize (F6 ltac:(discriminate)). specialize (F7 ltac:(discriminate)).
  assert (P : pieces [stats_files e fe c w] (trajectory_files e c w') (tl (tl (parts w))) w').
  { unfold pieces, output_parts. cbn [tl app]. now rewrite F2, F4, F5, F5', F6, F7. }
  assert (Q : pieces [stats_files e fe c w] (trajectory_files e c w) (tl (tl (parts w))) w) by reflexivity.
  pose proof (gr_ld _ _ G) as L. pose proof (gr_traj _ _ G) as T.
  assert (S0 : trajectory_files e c w' = trajectory_files e c w -> good_step w w' []).
  { intro E. apply same_good; [exact G|]. apply pieces_out in P, Q. congruence. }
  unfold action_ops. cbv zeta. pose proof (fun t t' => traj_unhit b k w w' t t' H) as U.
  unfold trajectory_files, traj_columns, coordinates in P, Q, S0. rewrite L in P, S0.
  destruct (w_traj w) as [t|], (w_traj w') as [t'|]; cbn [opt_rel] in T; try contradiction; [|now apply S0].
  specialize (U t t' eq_refl eq_refl). destruct T as (Tm & T).
  assert (Em : match tr_mom t' with Some _ => true | None => false end = match tr_mom t with Some _ => true | None => false end)
    by (destruct (tr_mom t), (tr_mom t'); cbn in Tm; congruence).
  rewrite Em in P, S0. destruct (b || (k mod tr_wstride t =? 0)).
  - destruct (tr_files t) as [f|], (tr_files t') as [f'|]; cbn [opt_rel] in T; try contradiction; [|now apply S0].
    pose proof (Forall2_length _ _ _ T) as HL.
    eapply append_good; [exact G|exact Q|exact P|apply traj_appends_is| |].
    + intros n l Hin. apply in_map_iff in Hin. destruct Hin as ([i rows'] & Heq & Hin). unfold table in Heq. cbn [fst snd] in Heq.
      injection Heq as <- <-. apply seq_combine_in in Hin. destruct Hin as (Hi & Hx).
      destruct (traj_appended (file_opt (opts (c_trajectories c)) "filename") f f' 0 i T ltac:(lia)) as (E1 & E2).
      rewrite Nat.sub_0_r in *. change (file_opt (opts (c_trajectories c)) "filename" ++ "." ++ string_of_nat i)%string with (walker_file (file_opt (opts (c_trajectories c)) "filename") i).
      destruct (nth_error f i) as [rows|] eqn:Ef; [|apply nth_error_None in Ef; lia].
      assert (E3 : nth i f' [] = rows') by now apply nth_error_nth.
      assert (E4 : nth i f [] = rows) by now apply nth_error_nth.
      rewrite E3, E4 in E1, E2.
      eexists. split.
      * apply in_map_iff. exists (i, rows). split; [|apply (in_seq_combine f 0 i rows Ef)]. unfold table. cbn [fst snd]. reflexivity.
      * match goal with |- _ = _ ++ ?x => change x with (appended (walker_file (file_opt (opts (c_trajectories c)) "filename") i) (traj_appends (file_opt (opts (c_trajectories c)) "filename") 0 f f')) end.
        rewrite E2, E1, map_app. rewrite <- E1. cbn [app map]. do 2 f_equal; now rewrite <- ?app_assoc.
    + apply Forall_forall. intros op Hop. apply (in_map op_file) in Hop. rewrite traj_appends_files in Hop by exact HL.
      rewrite map_map. unfold table. cbn [fst].
      rewrite (combine_seq_names (fun i => (file_opt (opts (c_trajectories c)) "filename" ++ "." ++ string_of_nat i)%string)). rewrite <- HL. exact Hop.
  - apply S0. rewrite U by reflexivity. reflexivity.
Qed.

Lemma write_good_perm (w w' : W) D ops : grows w w' -> Permutation.Permutation (out w') (out w ++ D) -> Forall2 writes ops D -> good_step w w' ops.
Proof.
  intros G P HD. split; [exact G|]. split.
  - apply Forall_forall. intros op Hop. apply Permutation.Permutation_sym in P.
    eapply Permutation.Permutation_in; [apply Permutation.Permutation_map; exact P|]. rewrite map_app. apply in_or_app. right.
    clear - HD Hop. induction HD as [|o d ops D (E & _) _ IH]; [destruct Hop|]. destruct Hop as [->|Hop]; [left; now symmetry|right; auto].
  - intros Hw Hp Hd fs stdin fs' stdin' r Hh H. intros n l Hin.
    eapply (writes_holds fe Hw ops (out w) D); [exact Hp|exact HD| |exact Hh|exact H|eapply Permutation.Permutation_in; eassumption].
    rewrite <- map_app. eapply Permutation.Permutation_NoDup; [apply Permutation.Permutation_map; exact P|exact Hd].
Qed.

Lemma hist_good b k w w' : acted b AHistogram k w w' -> good_step w w' (action_ops e fe c b AHistogram k w w').
Proof.
  intro H. pose proof (acted_grows _ _ _ _ _ H) as G. destruct (frame_parts _ _ _ _ _ H) as (F2 & F3 & _ & F5 & F6 & F7).
  destruct F5 as [F5 F5']; [discriminate|]. specialize (F2 ltac:(discriminate)). specialize (F3 ltac:(discriminate)).
  specialize (F6 ltac:(discriminate)). specialize (F7 ltac:(discriminate)).
  assert (S0 : histogram_files e fe c w' = histogram_files e fe c w -> good_step w w' []).
  { intro E. apply same_good; [exact G|]. unfold output_files, output_parts. now rewrite F2, F3, E, F5, F5', F6, F7. }
  pose proof (gr_ld _ _ G) as L. pose proof (gr_hist _ _ G) as T. unfold action_ops. cbv zeta.
  destruct (w_hist w) as [h|] eqn:Eh, (w_hist w') as [h'|] eqn:Eh'; cbn [opt_rel] in T; try contradiction;
    [|apply S0; unfold histogram_files; now rewrite Eh, Eh'].
  destruct T as (Te & (d & Td)). rewrite Td, added_app.
  set (D := map (fun sd => (stepped (file_opt (opts (c_histogram c)) "filename") (fst sd),
                            hist_lines fe (opts (c_histogram c)) (pot_ndim (ld_pot (w_ld w))) (ha_hist h) (snd sd))) d).
  assert (E : histogram_files e fe c w' = histogram_files e fe c w ++ D).
  { unfold histogram_files, D. rewrite Eh, Eh', L, Td, <- map_app. apply map_ext. intro sd. now rewrite (hist_lines_edges _ _ _ _ _ _ Te). }
  apply (write_good_perm w w' D); [exact G| |].
  - unfold output_files, output_parts. rewrite F2, F3, E, F5, F5', F6, F7. cbn [concat]. rewrite !app_nil_r, <- !app_assoc.
    do 3 apply Permutation.Permutation_app_head. rewrite (Permutation.Permutation_app_comm D). now rewrite <- !app_assoc.
  - unfold D. clear. induction d as [|sd d IH]; cbn [map]; constructor; [split; reflexivity|exact IH].
Qed.

Lemma fes_good b k w w' : acted b AFes k w w' -> good_step w w' (action_ops e fe c b AFes k w w').
Proof.
  intro H. pose proof (acted_grows _ _ _ _ _ H) as G. destruct (frame_parts _ _ _ _ _ H) as (F2 & F3 & F4 & _ & F6 & F7).
  pose proof (acted_frame _ _ _ _ _ H) as FR. destruct FR as (_ & _ & _ & _ & _ & Fh & _ & _ & _). specialize (Fh ltac:(discriminate)).
  specialize (F2 ltac:(discriminate)). specialize (F3 ltac:(discriminate)). specialize (F4 ltac:(discriminate)).
  specialize (F6 ltac:(discriminate)). specialize (F7 ltac:(discriminate)).
  assert (S0 : fes_files e fe c w' = fes_files e fe c w -> plot_files e c w' = plot_files e c w -> good_step w w' []).
  { intros E E'. apply same_good; [exact G|]. unfold output_files, output_parts. now rewrite F2, F3, F4, E, E', F6, F7. }
  pose proof (gr_ld _ _ G) as L. pose proof (gr_fes _ _ G) as T. unfold action_ops. cbv zeta.
  destruct (w_hist w) as [h|] eqn:Eh.
  2:{ unfold acted in H. destruct b; cbn [run_action final_run_action] in H; rewrite Eh in H; cbn [need bind] in H; discriminate. }
  destruct (w_fes w) as [f|] eqn:Ef, (w_fes w') as [f'|] eqn:Ef'; cbn [opt_rel] in T; try contradiction.
  2:{ apply S0; [unfold fes_files|unfold plot_files]; now rewrite Ef, Ef', ?Fh, ?Eh. }
  destruct T as (_ & (d & Td) & (d' & Td') & _). rewrite Td, Td', !added_app.
  set (D := map (fun sd => (stepped (file_opt (opts (c_fes c)) "filename") (fst sd),
                            fes_lines fe (pot_ndim (ld_pot (w_ld w))) (ha_hist h) (snd sd))) d).
  set (D' := map (fun sd : option Z * list xreal => (plot_file (stepped (file_opt (opts (c_fes c)) "plot-filename") (fst sd)), Some [Image (snd sd)])) d').
  assert (E : fes_files e fe c w' = fes_files e fe c w ++ D).
  { unfold fes_files, D. rewrite Fh, Eh, Ef, Ef', L, Td, <- map_app. reflexivity. }
  assert (E' : plot_files e c w' = plot_files e c w ++ D').
  { unfold plot_files, D'. rewrite Ef, Ef', Td', <- map_app. reflexivity. }
  apply (write_good_perm w w' (D ++ D')); [exact G| |].
  - unfold output_files, output_parts. rewrite F2, F3, F4, E, E', F6, F7. cbn [concat]. rewrite !app_nil_r, <- !app_assoc.
    do 4 apply Permutation.Permutation_app_head.
    rewrite (Permutation.Permutation_app_comm D). rewrite <- !app_assoc. apply Permutation.Permutation_app_head.
    rewrite (Permutation.Permutation_app_comm D'). now rewrite <- !app_assoc.
  - apply Forall2_app; unfold D, D'; clear.
    + induction d as [|sd d IH]; cbn [map]; constructor; [split; reflexivity|exact IH].
    + induction d' as [|sd d IH]; cbn [map]; constructor; [split; reflexivity|exact IH].
Qed.

Lemma df_unhit b k w w' m r m' r' : acted b ADeltaF k w w' -> w_df w = Some (m, r) -> w_df w' = Some (m', r') ->
  b || negb (rc_wstride r =? 0) && (k mod rc_wstride r =? 0) = false -> rc_file r' = rc_file r.
Proof.
  destruct b; cbn [orb]; [discriminate|]. intros H Ht Ht' Hk. unfold acted in H. cbn [run_action] in H. rewrite Ht in H.
  binds H. cbn [need] in *. repeat match goal with E : Ok _ = Ok _ |- _ => apply ok_inj in E; subst | E : (_, _) = (_, _) |- _ => injection E as <- <- end.
  cbn [set_df w_df] in Ht'. injection Ht' as <- <-. eapply rec_run_grows; eassumption.
Qed.
Lemma pd_unhit b k w w' m r m' r' : acted b AParticleDistribution k w w' -> w_pd w = Some (m, r) -> w_pd w' = Some (m', r') ->
  b || negb (rc_wstride r =? 0) && (k mod rc_wstride r =? 0) = false -> rc_file r' = rc_file r.
Proof.
  destruct b; cbn [orb]; [discriminate|]. intros H Ht Ht' Hk. unfold acted in H. cbn [run_action] in H. rewrite Ht in H.
  binds H. cbn [need] in *. repeat match goal with E : Ok _ = Ok _ |- _ => apply ok_inj in E; subst | E : (_, _) = (_, _) |- _ => injection E as <- <- end.
  cbn [set_pd w_pd] in Ht'. injection Ht' as <- <-. eapply rec_run_grows; eassumption.
Qed.

(** one table that may get more rows *)
Lemma table_good {A} (w w' : W) P1 P2 name fields constants (row : A -> line) old new : grows w w' -> prefix_of old new ->
  pieces P1 [table name fields constants (map row old)] P2 w -> pieces P1 [table name fields constants (map row new)] P2 w' ->
  good_step w w' [OAppend name (map row (added old new))].
Proof.
  intros G (d & ->) Q P. rewrite added_app. eapply append_good; [exact G|exact Q|exact P|repeat constructor| |repeat constructor].
  intros n l [Heq|[]]. injection Heq as <- <-. eexists. split; [left; reflexivity|].
  unfold appended. cbn [flat_map]. rewrite String.eqb_refl, app_nil_r, map_app, app_assoc. reflexivity.
Qed.

Lemma df_good b k w w' : acted b ADeltaF k w w' -> good_step w w' (action_ops e fe c b ADeltaF k w w').
Proof.
  intro H. pose proof (acted_grows _ _ _ _ _ H) as G. destruct (frame_parts _ _ _ _ _ H) as (F2 & F3 & F4 & F5 & _ & F7).
  destruct F5 as [F5 F5']; [discriminate|]. specialize (F2 ltac:(discriminate)). specialize (F3 ltac:(discriminate)). specialize (F4 ltac:(discriminate)).
  specialize (F7 ltac:(discriminate)).
  assert (P : pieces (firstn 5 (parts w)) (delta_f_files e fe c w') [distribution_files e fe c w] w').
  { unfold pieces, output_parts. cbn [firstn app]. now rewrite F2, F3, F4, F5, F5', F7. }
  assert (Q : pieces (firstn 5 (parts w)) (delta_f_files e fe c w) [distribution_files e fe c w] w) by reflexivity.
  assert (S0 : delta_f_files e fe c w' = delta_f_files e fe c w -> good_step w w' []).
  { intro E. apply same_good; [exact G|]. apply pieces_out in P, Q. congruence. }
  pose proof (gr_ld _ _ G) as L. pose proof (gr_df _ _ G) as T. unfold action_ops. cbv zeta.
  pose proof (fun m r m' r' => df_unhit b k w w' m r m' r' H) as U. unfold delta_f_files in P, Q, S0. rewrite L in P, S0.
  destruct (w_df w) as [[m r]|], (w_df w') as [[m' r']|]; cbn [opt_rel] in T; try contradiction; [|now apply S0].
  specialize (U m r m' r' eq_refl eq_refl). destruct T as (Tm & T). cbn [fst snd] in Tm, T. subst m'.
  destruct (b || _).
  - destruct (rc_file r) as [f|], (rc_file r') as [f'|]; cbn [opt_rel] in T; try contradiction; [|now apply S0].
    eapply table_good; eassumption.
  - rewrite U in S0 by reflexivity. apply S0. reflexivity.
Qed.
Lemma pd_good b k w w' : acted b AParticleDistribution k w w' -> good_step w w' (action_ops e fe c b AParticleDistribution k w w').
Proof.
  intro H. pose proof (acted_grows _ _ _ _ _ H) as G. destruct (frame_parts _ _ _ _ _ H) as (F2 & F3 & F4 & F5 & F6 & _).
  destruct F5 as [F5 F5']; [discriminate|]. specialize (F2 ltac:(discriminate)). specialize (F3 ltac:(discriminate)). specialize (F4 ltac:(discriminate)).
  specialize (F6 ltac:(discriminate)).
  assert (P : pieces (firstn 6 (parts w)) (distribution_files e fe c w') [] w').
  { unfold pieces, output_parts. cbn [firstn app]. now rewrite F2, F3, F4, F5, F5', F6. }
  assert (Q : pieces (firstn 6 (parts w)) (distribution_files e fe c w) [] w) by reflexivity.
  assert (S0 : distribution_files e fe c w' = distribution_files e fe c w -> good_step w w' []).
  { intro E. apply same_good; [exact G|]. apply pieces_out in P, Q. congruence. }
  pose proof (gr_pd _ _ G) as T. unfold action_ops. cbv zeta.
  pose proof (fun m r m' r' => pd_unhit b k w w' m r m' r' H) as U. unfold distribution_files in P, Q, S0.
  destruct (w_pd w) as [[m r]|], (w_pd w') as [[m' r']|]; cbn [opt_rel] in T; try contradiction; [|now apply S0].
  specialize (U m r m' r' eq_refl eq_refl). destruct T as (Tm & T). cbn [fst snd] in Tm, T. subst m'.
  destruct (b || _).
  - destruct (rc_file r) as [f|], (rc_file r') as [f'|]; cbn [opt_rel] in T; try contradiction; [|now apply S0].
    eapply table_good; eassumption.
  - rewrite U in S0 by reflexivity. apply S0. reflexivity.
Qed.

Lemma action_good b a k w w' : acted b a k w w' -> good_step w w' (action_ops e fe c b a k w w').
Proof.
  destruct a; [apply ld_good|apply bd_good|apply traj_good|apply hist_good|apply fes_good|apply df_good|apply pd_good].
Qed.
End step.
