(** The files of a finished run can be read back, property C91 *)
From Coq Require Import Lia Lra DecimalString.
From Verif Require Import PyBase Model_xr Model_input Model_ini Model_dyn Model_bd Model_traj Model_grid Model_hist Model_histaction Model_fes Model_deltaf Model_pdist
  Model_rec Model_setup Model_main Spec_rng Spec_setup Model_files Model_text Spec_main Spec_files Spec_ini Spec_text
  Proof_base Proof_files3 Proof_ini Proof_ini3 Proof_text Proof_text2 Proof_text3.
From Verif Require Proof_files8.
Open Scope string_scope.
Open Scope Z_scope.
Open Scope list_scope.
Ltac Zify.zify_post_hook ::= idtac.

Lemma single_app a b : single_line (a ++ b)%string <-> single_line a /\ single_line b.
Proof. apply every_app. Qed.
Lemma single_concat l : Forall single_line l -> single_line (String.concat " " l).
Proof.
  induction 1 as [|s l H F IH]; [exact I|]. destruct l as [|t l]; [assumption|]. change (single_line (s ++ " " ++ String.concat " " (t :: l)%list)%string).
  apply single_app. split; [assumption|]. split; [|assumption]. intros [C|[C|[]]]; discriminate C.
Qed.
Lemma single_check s : forallb (fun c => negb (Ascii.eqb c LF) && negb (Ascii.eqb c CR)) (list_ascii_of_string s) = true -> single_line s.
Proof.
  induction s as [|c s IH]; intros H; [exact I|]. cbn in H. apply andb_prop in H as [H1 H2]. split; [|now apply IH].
  intros [<-|[<-|[]]]; discriminate H1.
Qed.
Ltac single := apply single_check; reflexivity.
Ltac singles := repeat (apply Forall_cons; [single|]); apply Forall_nil.
Lemma single_uint u : single_line (NilEmpty.string_of_uint u).
Proof.
  induction u; cbn [NilEmpty.string_of_uint]; [exact I|..]; (split; [intros [C|[C|[]]]; discriminate C|assumption]).
Qed.
Lemma single_nat n : single_line (string_of_nat n).
Proof. unfold string_of_nat, NilZero.string_of_uint. destruct (Nat.to_uint n); [single|apply (single_uint)..]. Qed.

Lemma remark_hash t : single_line t -> remark (String "#"%char t).
Proof.
  intros H. split; [split; [intros [C|[C|[]]]; discriminate C|assumption]|]. right. eexists _, _. split; [reflexivity|left; reflexivity].
Qed.
Lemma header_remarks fields constants : Forall single_line fields -> Forall (fun c => single_line (fst c) /\ single_line (snd c)) constants ->
  Forall remark (header_lines fields constants).
Proof.
  intros F C. constructor.
  - cbn [String.append]. apply remark_hash. apply (proj2 (single_app "! FIELDS " _)). split; [single|now apply single_concat].
  - apply Forall_forall. intros s Hs. apply in_map_iff in Hs as (c & <- & Hc). rewrite Forall_forall in C. destruct (C c Hc).
    cbn [String.append]. apply remark_hash. apply (proj2 (single_app "! SET " _)). split; [single|]. apply single_app. split; [assumption|].
    apply (proj2 (single_app " " _)). split; [single|assumption].
Qed.
Lemma header_of_lines fields constants : header_of fields constants = map Text (header_lines fields constants).
Proof. unfold header_of, header_lines. cbn [map]. now rewrite map_map. Qed.

Definition text_ok (l : line) : Prop := match l with Text s => remark s | Row r => r <> [] | Image _ => False end.
Lemma texts_ok l : Forall remark l -> Forall text_ok (map Text l).
Proof. induction 1; constructor; assumption. Qed.
Lemma table_ok name fields constants rows n lines : table name fields constants rows = (n, Some lines) ->
  Forall single_line fields -> Forall (fun c => single_line (fst c) /\ single_line (snd c)) constants -> Forall text_ok rows -> Forall text_ok lines.
Proof.
  intros H F C R. unfold table in H. injection H as _ <-. apply Forall_app. split; [|assumption].
  destruct fields; [constructor|]. rewrite header_of_lines. apply texts_ok, header_remarks; assumption.
Qed.
Lemma table_in name fields constants rows n lines l : table name fields constants rows = (n, Some lines) -> In l rows -> In l lines.
Proof. intros H Hl. unfold table in H. injection H as _ <-. apply in_or_app. now right. Qed.
Lemma sliced_ok slices : Forall (Forall (fun r => r <> [])) slices -> Forall text_ok (sliced slices).
Proof.
  assert (forall s, Forall (fun r : list xreal => r <> []) s -> Forall text_ok (map Row s)) as M by (induction 1; constructor; assumption).
  induction 1 as [|s t Hs F IH]; [constructor|]. destruct t as [|t ts]; [now apply M|].
  change (Forall text_ok (map Row s ++ Text "" :: sliced (t :: ts))). apply Forall_app. split; [now apply M|]. constructor; [|assumption].
  split; [exact I|left; reflexivity].
Qed.
Lemma rows_of_in {A} a b (rows : list A) : forall s r, In s (rows_of a b rows) -> In r s -> In r rows.
Proof.
  revert rows. induction a as [|a IH]; intros rows s r Hin Hr; [destruct Hin|]. cbn [rows_of] in Hin. rewrite <- (firstn_skipn b rows). apply in_or_app.
  destruct Hin as [<-|Hin]; [now left|]. right. eapply IH; eassumption.
Qed.
Lemma grid_ok n axes points np header data lines : grid_lines n axes points np header data = Some lines -> Forall remark header -> Forall text_ok lines.
Proof.
  intros H R. unfold grid_lines in H. destruct n as [|[|[|n]]]; try discriminate; injection H as <-; apply Forall_app; (split; [now apply texts_ok|]).
  - apply Forall_forall. intros l Hl. apply in_map_iff in Hl as (xy & <- & _). discriminate.
  - apply sliced_ok. apply Forall_forall. intros s Hs. apply Forall_forall. intros r Hr.
    apply (rows_of_in _ _ _ _ _ Hs) in Hr. apply in_map_iff in Hr as (pv & <- & _). destruct (map Fin (fst pv)); discriminate.
Qed.
Lemma single_range fe fields ranges np : plain_texts fe -> Forall single_line fields ->
  Forall (fun c => single_line (fst c) /\ single_line (snd c)) (range_constants fe fields ranges np).
Proof.
  intros [Hf _] F. apply Forall_forall. intros c Hc. unfold range_constants in Hc. apply in_flat_map in Hc as ([f [r n]] & Hin & Hc).
  apply in_combine_l in Hin. rewrite Forall_forall in F. specialize (F f Hin).
  destruct Hc as [<-|[<-|[<-|[]]]]; cbn [fst snd]; (split; [apply single_app; split; [assumption|single]|auto using single_nat]).
Qed.
Lemma single_fields n : Forall single_line (match get_fields n with Ok f => f | Err _ => [] end).
Proof. destruct n as [|[|[|[|n]]]]; cbn; singles. Qed.
Lemma hist_ok fe o n h counts lines : plain_texts fe -> hist_lines fe o n h counts = Some lines -> Forall text_ok lines.
Proof.
  intros P H. unfold hist_lines in H. eapply grid_ok; [exact H|]. pose proof (single_fields n). apply header_remarks; [|now apply single_range].
  apply Forall_app. split; [assumption|]. constructor; [single|constructor].
Qed.
Lemma fes_ok fe n h fes lines : plain_texts fe -> fes_lines fe n h fes = Some lines -> Forall text_ok lines.
Proof.
  intros P H. unfold fes_lines in H. eapply grid_ok; [exact H|]. pose proof (single_fields n). apply header_remarks; [|now apply single_range].
  apply Forall_app. split; [assumption|]. constructor; [single|constructor].
Qed.
Lemma single_coordinates n : Forall single_line (firstn n ["x"; "y"; "z"]).
Proof. destruct n as [|[|[|n]]]; cbn [firstn]; try singles. destruct n; singles. Qed.
Lemma single_traj e w m i : Forall single_line (traj_columns e w m i).
Proof.
  unfold traj_columns, coordinates. pose proof (single_coordinates (pot_ndim (ld_pot (w_ld w)))) as F. rewrite Forall_forall in F.
  assert (forall pre, single_line pre -> Forall single_line (map (fun x => pre ++ x ++ "." ++ string_of_nat i)%string (firstn (pot_ndim (ld_pot (w_ld w))) ["x"; "y"; "z"]))) as P.
  { intros pre Hp. apply Forall_forall. intros s Hs. apply in_map_iff in Hs as (x & <- & Hx). apply single_app. split; [assumption|]. apply single_app. split; [now apply F|].
    apply single_app. split; [single|apply single_nat]. }
  constructor; [single|]. apply Forall_app. split; [apply P; single|]. destruct m; [apply P; single|constructor].
Qed.
Lemma columns_fun lines k k' : names_columns lines k -> names_columns lines k' -> k = k'.
Proof. intros (a & Ha & <-) (b & Hb & <-). congruence. Qed.

Section run.
Context (e : env) (fe : files_env) (cv : conv) (secs : list (string * section)) (acts : list action) (n : Z) (w0 w : world (e_rng e)) (c : config).
Hypothesis HS : set_up e cv secs acts n w0.
Hypothesis HF : main e cv (Some (Ok secs)) = Finished w.
Hypothesis HC : parse_all cv secs = Ok c.
Hypothesis HR : rng_ok (e_rng e).
Hypothesis HW : w_ps w0 <> [].
Hypothesis Hbc : pot_bc (ld_pot (w_ld w0)) = None \/ length (pot_ranges (ld_pot (w_ld w0))) = pot_ndim (ld_pot (w_ld w0)).
Hypothesis HA : array_shapes e w0.
Hypothesis HP : plain_texts fe.

Lemma rows_nonempty {A} (f : A -> list xreal) l lines k : has_columns lines (S k) -> (forall x, In x l -> In (Row (f x)) lines) -> Forall text_ok (map (fun x => Row (f x)) l).
Proof.
  intros K H. apply Forall_forall. intros r Hr. apply in_map_iff in Hr as (x & <- & Hx). specialize (K _ (H x Hx)). cbn. destruct (f x); [discriminate|discriminate].
Qed.
Lemma run_table name lines : In (name, Some lines) (trajectory_files e c w ++ histogram_files e fe c w ++ fes_files e fe c w ++ delta_f_files e fe c w ++ distribution_files e fe c w) ->
  (exists k, has_columns lines k) /\ Forall text_ok lines.
Proof using All.
  intros H. apply in_app_or in H as [H|H].
  - destruct (Proof_files8.run_traj_columns e fe cv secs acts n w0 w c HS HF HC HR HW Hbc name lines H) as (k & K1 & K2). split; [eauto|].
    unfold trajectory_files in H. destruct (w_traj w) as [t|]; [|destruct H]. destruct (tr_files t) as [walkers|]; [|destruct H].
    apply in_map_iff in H as ([i rows] & H & _). cbn [fst snd] in H.
    set (m := match tr_mom t with Some _ => true | None => false end) in *.
    assert (k = S (length (tl (traj_columns e w m i)))) as ->.
    { eapply columns_fun; [exact K1|]. change (S (length (tl (traj_columns e w m i)))) with (length (traj_columns e w m i)). eapply Proof_files8.table_names; [| |exact H]; [discriminate|]. constructor; [split; [discriminate|reflexivity]|]. apply Forall_app. split.
      - apply (Proof_files8.prefixed_plain "p" "os_"); [reflexivity|reflexivity|apply Proof_files8.coordinates_plain].
      - destruct m; [|constructor]. apply (Proof_files8.prefixed_plain "m" "om_"); [reflexivity|reflexivity|apply Proof_files8.coordinates_plain]. }
    eapply table_ok; [exact H|apply single_traj|constructor|]. eapply (rows_nonempty (map Fin)); [exact K2|].
    intros x Hx. apply (table_in _ _ _ _ _ _ _ H). apply (in_map (fun r => Row (map Fin r))). assumption.
  - apply in_app_or in H as [H|H]; [|apply in_app_or in H as [H|H]; [|apply in_app_or in H as [H|H]]].
    + destruct (Proof_files8.run_grid_columns e fe cv secs acts n w0 w c HS HF HC name lines ltac:(apply in_or_app; left; exact H)) as (k & _ & K2). split; [eauto|].
      unfold histogram_files in H. destruct (w_hist w) as [h|]; [|destruct H]. apply in_map_iff in H as (sd & H & _). injection H as _ H. eapply hist_ok; [exact HP|exact H].
    + destruct (Proof_files8.run_grid_columns e fe cv secs acts n w0 w c HS HF HC name lines ltac:(apply in_or_app; right; exact H)) as (k & _ & K2). split; [eauto|].
      unfold fes_files in H. destruct (w_hist w) as [h|]; [|destruct H]. destruct (w_fes w) as [f|]; [|destruct H]. apply in_map_iff in H as (sd & H & _). injection H as _ H. eapply fes_ok; [exact HP|exact H].
    + destruct (w_df w) as [[masks r]|] eqn:Ed; [|unfold delta_f_files in H; rewrite Ed in H; destruct H].
      destruct (Proof_files8.run_df_file e fe cv secs acts n w0 w c HS HF HC _ _ _ _ HA Ed H) as (_ & K2).
      destruct (Proof_files8.run_df_columns e cv secs acts n w0 w c HS HF HC _ _ HA Ed) as (L & _). split; [eauto|].
      unfold delta_f_files in H. rewrite Ed in H. destruct (rc_file r) as [rows|]; [|destruct H]. destruct H as [H|[]].
      eapply table_ok; [exact H| | |].
      * apply Forall_forall. intros s Hs. apply in_map_iff in Hs as (i & <- & _). apply (proj2 (single_app "delta_f.1-" _)). split; [single|apply single_nat].
      * constructor; [split; [single|apply HP]|constructor].
      * destruct masks as [|m0 ms]; [cbn in L; lia|]. eapply (rows_nonempty (fun x => x)); [exact K2|]. intros x Hx. apply (table_in _ _ _ _ _ _ _ H). now apply (in_map Row).
    + destruct (w_pd w) as [[states r]|] eqn:Ed; [|unfold distribution_files in H; rewrite Ed in H; destruct H].
      pose proof (Proof_files8.run_pd_columns e cv secs acts n w0 w c HS HF HC _ _ HA Ed) as (_ & _ & Hf).
      unfold distribution_files in H. rewrite Ed in H. destruct (rc_file r) as [rows|]; [|destruct H]. destruct H as [H|[]].
      assert (has_columns lines (S (length states))) as K2.
      { intros x Hx. apply (Proof_files8.table_rows _ _ _ _ _ _ _ H) in Hx. apply in_map_iff in Hx as (y & Hx & Hy). injection Hx as <-. rewrite map_length. rewrite Forall_forall in Hf. auto. }
      split; [eauto|]. eapply table_ok; [exact H| | |].
      * apply Forall_forall. intros s Hs. apply in_map_iff in Hs as (i & <- & _). apply (proj2 (single_app "n_particles_" _)). split; [single|apply single_nat].
      * apply Forall_forall. intros s Hs. apply in_map_iff in Hs as (i & <- & _). cbn [fst snd]. split; [apply (proj2 (single_app "state_" _)); split; [single|apply single_nat]|apply HP].
      * eapply (rows_nonempty (map (fun z => Fin (IZR z)))); [exact K2|]. intros x Hx. apply (table_in _ _ _ _ _ _ _ H). apply (in_map (fun l => Row (map (fun z => Fin (IZR z)) l))). assumption.
Qed.
Lemma good_lines (good : xreal -> Prop) lines : Forall text_ok lines -> Forall (Forall good) (file_rows lines) -> Forall (line_good good) lines.
Proof.
  intros T G. apply Forall_forall. intros l Hl. rewrite Forall_forall in T, G. specialize (T l Hl). destruct l as [s|r|im]; cbn in *; [assumption| |assumption].
  split; [assumption|]. apply G. unfold file_rows. apply in_flat_map. exists (Row r). split; [assumption|left; reflexivity].
Qed.
Lemma run_read_back name lines wd p : In (name, Some lines) (trajectory_files e c w ++ histogram_files e fe c w ++ fes_files e fe c w ++ delta_f_files e fe c w ++ distribution_files e fe c w) ->
  Forall (Forall moderate) (file_rows lines) ->
  exists text rows, file_text (Fixed wd p) lines = Ok text /\ genfromtxt text = Ok rows /\ Forall2 (Forall2 (near p)) (file_rows lines) rows.
Proof using All.
  intros H M. destruct (run_table _ _ H) as ((k & K) & T). eapply file_read_fixed; [|exact K]. apply (good_lines moderate); assumption.
Qed.
End run.

Lemma stats_read_back e fe c (w : world (e_rng e)) name lines : plain_texts fe ->
  (forall par rng0 x y, w_bd w = Some (par, rng0, x, y) -> single_line (fe_array fe (bd_bw par))) ->
  In (name, Some lines) (stats_files e fe c w) -> Forall (Forall (fun x => exists n, x = Fin (IZR n) /\ 0 <= n <= 10 ^ 300)) (file_rows lines) ->
  exists text, file_text Integer lines = Ok text /\ genfromtxt text = Ok (file_rows lines).
Proof.
  intros P A H G. destruct (Proof_files8.stats_columns _ _ _ _ _ _ H) as (_ & K). eapply file_read_whole; [|exact K]. apply good_lines; [|exact G].
  unfold stats_files in H. destruct (w_bd w) as [[[[par r0] x0] reports]|]; [|destruct H]. destruct (bd_to_file par); [|destruct H]. destruct H as [H|[]].
  eapply table_ok; [exact H| | |].
  - singles.
  - destruct P as [P _]. repeat (apply Forall_cons; [cbn [fst snd]; split; [single|]; eauto|]). apply Forall_nil.
  - apply Forall_forall. intros l Hl. apply in_map_iff in Hl as (r & <- & _). discriminate.
Qed.
