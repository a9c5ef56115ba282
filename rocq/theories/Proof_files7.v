(** Existing files after a run (C48) and saving plots (C57) *)
From Coq Require Import Lia Lra DecimalString.
From Verif Require Import PyBase Model_xr Model_input Model_dyn Model_bd Model_traj Model_hist Model_histaction Model_fes Model_deltaf Model_pdist
  Model_rec Model_setup Model_main Proof_base Proof_input Proof_main Proof_main2 Proof_whole Proof_whole2 Model_files Spec_main Spec_whole Spec_files Proof_files Proof_files2
  Proof_files3 Proof_files4 Proof_files5 Proof_files6.
Open Scope string_scope.
Open Scope Z_scope.
Open Scope list_scope.
Ltac Zify.zify_post_hook ::= idtac.

Lemma is_init_writes op : is_init op -> always_writes op /\ ~ is_plot op.
Proof. destruct op; cbn; tauto. Qed.
Lemma inits_init ops T : inits ops T -> Forall is_init ops.
Proof. unfold inits. induction 1 as [|op t ops T (f & k & -> & _) _ IH]; constructor; [exact I|exact IH]. Qed.
Lemma set_opt o k : opt_set o k = v_true (get_dict o k).
Proof. unfold opt_set, get_dict. destruct (assoc k o) as [[]|]; reflexivity. Qed.

Section kept.
Context (e : env) (fe : files_env) (cv : conv) (file : option (res (list (string * section)))).
Hypothesis no_plots : forall c, read_input cv file = Ok c -> forall o, c_fes c = Some o -> opt_set o "plot-filename" = false.

Lemma main_no_plot ops o : main_ops e fe cv file = (ops, o) -> Forall (fun op => ~ is_plot op) ops.
Proof.
  intro H. apply ops_shape in H. destruct H as [(-> & _)|(c & w0 & Hc & E0 & [(I & _)|(acts & w1 & w' & ops1 & ops2 & E1 & -> & In1 & G & T & _)])]; [constructor| |].
  - eapply Forall_impl; [|exact I]. intros op. apply is_init_writes.
  - apply Forall_app. split; [eapply Forall_impl; [|apply (inits_init _ _ In1)]; intro op; apply is_init_writes|].
    assert (V : v_true (get_dict (opts (c_fes c)) "plot-filename") = false).
    { specialize (no_plots c Hc). destruct (c_fes c) as [o'|]; [|reflexivity]. cbn [opts]. rewrite <- set_opt. now apply no_plots. }
    destruct G as (G & _ & _). pose proof (no_plot_name _ _ _ _ _ _ E0 E1 G V) as N.
    eapply Forall_impl; [|exact T]. intros op Hop. destruct op; cbn [is_plot]; try tauto. intros _. destruct Hop as (s & fa & Hf & Hp & _). rewrite (N fa Hf) in Hp. discriminate.
Qed.
Lemma run_keeps_prefix fs stdin fs' stdin' o : main_files e fe cv file fs stdin = (fs', stdin', o) ->
  forall content, available_prefix fs content -> available_prefix fs' content.
Proof.
  unfold main_files. destruct (main_ops e fe cv file) as [ops o1] eqn:E. destruct (apply_ops fe ops (fs, stdin)) as [[fs1 stdin1] r] eqn:A.
  intros H content. assert (fs1 = fs') as <- by (destruct r; congruence). eapply ops_prefix; [eapply main_no_plot; exact E|exact A].
Qed.
Lemma run_keeps_exact fs stdin fs' stdin' o :
  (forall c w0, read_input cv file = Ok c -> setup_dynamics e c = Ok w0 -> (pot_ndim (ld_pot (w_ld w0)) <= 2)%nat) ->
  main_files e fe cv file fs stdin = (fs', stdin', o) ->
  forall content, available fs content -> available fs' content.
Proof.
  intro Hd. unfold main_files. destruct (main_ops e fe cv file) as [ops o1] eqn:E. destruct (apply_ops fe ops (fs, stdin)) as [[fs1 stdin1] r] eqn:A.
  intros H content Ha. assert (fs1 = fs') as <- by (destruct r; congruence). pose proof (main_no_plot _ _ E) as NP.
  apply ops_shape in E. eapply ops_unchanged; [| |exact Ha|exact A].
  - destruct E as [(-> & _)|(c & w0 & Hc & E0 & [(I & _)|(acts & w1 & w' & ops1 & ops2 & E1 & -> & In1 & G & T & _)])]; [constructor| |].
    + eapply Forall_impl; [|exact I]. intros op. apply is_init_writes.
    + apply Forall_app in NP. destruct NP as (_ & NP).
      apply Forall_app. split; [eapply Forall_impl; [|apply (inits_init _ _ In1)]; intro op; apply is_init_writes|].
      apply Forall_forall. intros op Hop. rewrite Forall_forall in T, NP. specialize (T op Hop). specialize (NP op Hop).
      destruct op as [| |n [l|]|]; cbn [always_writes is_plot tame] in *; try tauto. apply (proj1 T); [|reflexivity].
      destruct G as (G & _). rewrite (gr_ld _ _ G). destruct (set_up_built _ _ _ _ _ E0 E1) as (_ & L & _). rewrite L.
      specialize (Hd c w0 Hc E0). pose proof (setup_dims _ _ _ E0) as D. unfold dims_ok in D. lia.
  - destruct E as [(-> & _)|(c & w0 & Hc & E0 & [(I & _)|(acts & w1 & w' & ops1 & ops2 & E1 & -> & In1 & G & T & _)])].
    + intros pre name rows post Eq. destruct pre; discriminate.
    + intros pre name rows post Eq. rewrite Eq in I. apply Forall_app in I. destruct I as (_ & I). inversion I as [|? ? X]. destruct X.
    + eapply appends_after_inits; [exact In1|]. eapply Forall_impl; [|exact T]. intros op Hop. destruct op; try exact I. cbn [tame] in Hop.
      destruct G as (G & _). rewrite (tables_names _ _ _ _ _ G) in Hop. now apply tables_in.
Qed.
End kept.

(** * Plots *)
Lemma plot_overwrites fe fs stdin name f : writable fe -> plottable fe name ->
  exists fs', plot_fes fe name f (fs, stdin) = (fs', stdin, Ok tt) /\ fs_get fs' (plot_file name) = Some [Image f] /\
    unchanged_except [plot_file name] fs fs'.
Proof.
  intros Hw Hp. unfold plot_fes, savefig, plottable, plot_file in *. cbn [fst snd].
  assert (W : forall file, write_file fe fs file [Image f] = (fs_set fs file [Image f], Ok tt)) by (intro file; unfold write_file; now rewrite Hw).
  destruct (String.eqb (extension name) ""); rewrite (existsb_eqb_in _ _ Hp), W; eexists; (split; [reflexivity|]); (split; [apply get_set_same|]);
    intros g Hg; apply get_set_other; intros ->; apply Hg; left; reflexivity.
Qed.
Lemma existsb_false s l : ~ In s l -> existsb (String.eqb s) l = false.
Proof.
  induction l as [|a l IH]; intro H; [reflexivity|]. cbn [existsb]. rewrite IH by (intro; apply H; now right). destruct (String.eqb_spec s a) as [->|]; [|reflexivity].
  destruct H. now left.
Qed.
Lemma plot_prompts fe fs stdin name f : ~ plottable fe name -> plot_fes fe name f (fs, stdin) = save_interactive fe f stdin fs.
Proof.
  intros Hp. unfold plot_fes, savefig, plottable in *. cbn [fst snd].
  destruct (String.eqb (extension name) ""); rewrite (existsb_false _ _ Hp); reflexivity.
Qed.

Lemma has_char_last a s : has_char a s = true -> exists p, s = (p ++ String a (after_last a s))%string /\ has_char a (after_last a s) = false.
Proof.
  induction s as [|c s IH]; [discriminate|]. cbn [after_last]. intro H. rewrite H. cbn [has_char] in H.
  destruct (has_char a s) eqn:E.
  - destruct (IH eq_refl) as (p & Hs & Hn). exists (String c p). cbn. split; [now rewrite <- Hs|exact Hn].
  - rewrite orb_false_r in H. apply Ascii.eqb_eq in H. subst c. rewrite after_last_none by exact E. exists "". split; [reflexivity|exact E].
Qed.
Lemma after_last_app a s t : has_char a t = false -> after_last a (s ++ t) = (after_last a s ++ t)%string.
Proof.
  intro Ht. destruct (has_char a s) eqn:E.
  - destruct (has_char_last a s E) as (p & Hs & Hn). rewrite Hs at 1. rewrite str_app_assoc. cbn [append]. apply after_last_sep. rewrite has_char_app, Hn, Ht. reflexivity.
  - rewrite (after_last_none a s E). apply after_last_none. rewrite has_char_app, E, Ht. reflexivity.
Qed.
Lemma length_app a b : String.length (a ++ b) = (String.length a + String.length b)%nat.
Proof. induction a; cbn; congruence. Qed.
Lemma drop_sep p f : drop_end (S (String.length f)) (p ++ String "." f) = p.
Proof. exact (drop_end_app p (String "." f)). Qed.
Lemma extension_app name s : extension name <> "" -> has_char "." s = false -> has_char "/" s = false ->
  extension (name ++ s) = (extension name ++ s)%string.
Proof.
  intros He Hd Hs. unfold extension in *. rewrite (after_last_app "/" name s Hs). set (f := after_last "/" name) in *.
  rewrite has_char_app. destruct (has_char "." f) eqn:E; [|destruct He; reflexivity]. cbn [orb].
  rewrite (after_last_app "." f s Hd). destruct (has_char_last "." f E) as (p & Hf & Hn). set (x := after_last "." f) in *.
  assert (D : drop_end (S (String.length (x ++ s))) (f ++ s) = drop_end (S (String.length x)) f).
  { rewrite Hf at 1 2. rewrite str_app_assoc. cbn [append]. rewrite !drop_sep. reflexivity. }
  cbv zeta in *. rewrite D. destruct (rstrip "." (drop_end (S (String.length x)) f)); [destruct He; reflexivity|reflexivity].
Qed.
Lemma digits_chars d a : Ascii.eqb a "." = true \/ Ascii.eqb a "/" = true -> has_char a (NilEmpty.string_of_uint d) = false.
Proof. intros [H|H]; apply Ascii.eqb_eq in H; subst a; induction d; cbn; assumption || reflexivity. Qed.
Lemma number_chars z a : a = "."%char \/ a = "/"%char -> has_char a (string_of_Z z) = false.
Proof.
  intro H. assert (H' : Ascii.eqb a "." = true \/ Ascii.eqb a "/" = true) by (destruct H; subst; auto).
  assert (N : forall d, has_char a (NilZero.string_of_uint d) = false).
  { intros d. destruct d; try exact (digits_chars _ a H'). destruct H; subst; reflexivity. }
  unfold string_of_Z, NilZero.string_of_int. destruct (Z.to_int z) as [d|d]; [apply N|]. cbn [has_char]. rewrite N. destruct H; subst; reflexivity.
Qed.
Lemma stepped_extension name k : extension name <> "" -> extension (stepped name (Some k)) = (extension name ++ "_" ++ string_of_Z k)%string.
Proof.
  intro H. unfold stepped. apply extension_app; [exact H| |]; cbn [append has_char]; rewrite number_chars by auto; reflexivity.
Qed.
Lemma lower_app a b : lower (a ++ b) = (lower a ++ lower b)%string.
Proof. induction a as [|c a IH]; [reflexivity|]. cbn. now rewrite IH. Qed.
Lemma stepped_prompts fe name k f fs stdin : extension name <> "" -> (forall fmt, In fmt (fe_formats fe) -> has_char "_" fmt = false) ->
  plot_fes fe (stepped name (Some k)) f (fs, stdin) = save_interactive fe f stdin fs.
Proof.
  intros He Hf. apply plot_prompts. unfold plottable. rewrite (stepped_extension name k He).
  destruct (String.eqb_spec (extension name ++ "_" ++ string_of_Z k) "") as [E|_].
  - destruct (extension name); [congruence|discriminate].
  - intro H. apply Hf in H. rewrite lower_app, has_char_app in H. apply orb_false_iff in H. destruct H as (_ & H). cbn in H. discriminate.
Qed.
Lemma after_last_char a b s : has_char b s = false -> has_char b (after_last a s) = false.
Proof.
  induction s as [|c s IH]; [reflexivity|]. intro H. cbn [after_last]. destruct (has_char a (String c s)); [|exact H]. apply IH. cbn [has_char] in H.
  apply orb_false_iff in H. apply H.
Qed.
Lemma plain_plottable fe name s : has_char "." (after_last "/" name) = false -> In "png" (fe_formats fe) -> plottable fe (stepped name s).
Proof.
  intros H Hp. unfold plottable. assert (E : extension (stepped name s) = "").
  { unfold extension. destruct s as [k|]; cbn [stepped].
    - rewrite after_last_app by (cbn [append has_char]; rewrite number_chars by auto; reflexivity).
      rewrite has_char_app, H. cbn [append has_char]. rewrite number_chars by auto. reflexivity.
    - rewrite H. reflexivity. }
  rewrite E. exact Hp.
Qed.
