(** Names of columns (C49) *)
From Coq Require Import Lia Lra DecimalString.
From Verif Require Import PyBase Model_xr Model_input Model_dyn Model_bd Model_traj Model_grid Model_hist Model_histaction Model_fes Model_deltaf Model_pdist
  Model_rec Model_setup Model_main Spec_rng Spec_ld Spec_traj Spec_times Spec_fes Spec_pdist Spec_grid Spec_setup Proof_base Proof_grid Proof_ld Proof_setup2 Proof_input Proof_main Proof_main2
  Proof_whole Proof_whole2 Proof_whole3 Proof_whole4 Proof_whole5
  Model_files Spec_main Spec_whole Spec_files Proof_files Proof_files2 Proof_files3 Proof_files4 Proof_files5 Proof_files6.
Open Scope string_scope.
Open Scope Z_scope.
Open Scope list_scope.
Ltac Zify.zify_post_hook ::= idtac.

Definition plain (s : string) : Prop := s <> "" /\ has_char " " s = false.
Lemma plain_cons a s : Ascii.eqb a " " = false -> has_char " " s = false -> plain (String a s).
Proof. intros Ha Hs. split; [discriminate|]. cbn [has_char]. now rewrite Ha, Hs. Qed.

Lemma words_plain s t : plain s -> words (s ++ String " " t) = s :: words t.
Proof.
  intros [Hne Hs]. destruct s as [|a s]; [congruence|]. clear Hne. revert a Hs. induction s as [|b s IH]; intros a Hs.
  - cbn [has_char] in Hs. rewrite orb_false_r in Hs. cbn [append words]. rewrite Hs. reflexivity.
  - cbn [has_char] in Hs. apply orb_false_iff in Hs. destruct Hs as (Ha & Hs). specialize (IH b Hs).
    change ((String a (String b s) ++ String " " t)%string) with (String a (String b s ++ String " " t)).
    cbn [words]. rewrite Ha. change ((String b s ++ String " " t)%string) with (String b (s ++ String " " t)) in *. cbn [has_char] in Hs. apply orb_false_iff in Hs. destruct Hs as (Hb & _).
    rewrite Hb, IH. reflexivity.
Qed.
Lemma words_single s : plain s -> words s = [s].
Proof.
  intros [Hne Hs]. destruct s as [|a s]; [congruence|]. clear Hne. revert a Hs. induction s as [|b s IH]; intros a Hs.
  - cbn [has_char] in Hs. rewrite orb_false_r in Hs. cbn [words]. rewrite Hs. reflexivity.
  - cbn [has_char] in Hs. apply orb_false_iff in Hs. destruct Hs as (Ha & Hs). specialize (IH b Hs).
    cbn [words]. rewrite Ha. cbn [words] in IH. cbn [has_char] in Hs. apply orb_false_iff in Hs. destruct Hs as (Hb & _).
    rewrite Hb in *. rewrite IH. reflexivity.
Qed.
Lemma words_concat l : Forall plain l -> words (String.concat " " l) = l.
Proof.
  induction 1 as [|s l Hs Hl IH]; [reflexivity|]. destruct l as [|s' l]; [now apply words_single|].
  change (String.concat " " (s :: s' :: l)) with (s ++ String " " (String.concat " " (s' :: l)))%string. rewrite words_plain by exact Hs. now rewrite IH.
Qed.
Lemma header_names fields constants rest : Forall plain fields -> names_columns (header_of fields constants ++ rest) (length fields).
Proof.
  intro H. exists fields. split; [|reflexivity]. unfold header_of. cbn [app column_names].
  change ("#! FIELDS " ++ String.concat " " fields)%string with ("#!" ++ String " " ("FIELDS" ++ String " " (String.concat " " fields)))%string.
  rewrite !words_plain by (split; [discriminate|reflexivity]). now rewrite words_concat.
Qed.
Lemma header_no_rows fields constants r : ~ In (Row r) (header_of fields constants).
Proof. intros [H|H]; [discriminate|]. apply in_map_iff in H. destruct H as (c & H & _). discriminate. Qed.
Lemma table_rows name fields constants rows lines n l : table name fields constants rows = (n, Some lines) -> In (Row l) lines -> In (Row l) rows.
Proof.
  unfold table. intro H. injection H as <- <-. intro Hin. apply in_app_or in Hin. destruct Hin as [Hin|Hin]; [|exact Hin].
  destruct fields; [destruct Hin|]. destruct (header_no_rows _ _ _ Hin).
Qed.
Lemma table_names name fields constants rows lines n : fields <> [] -> Forall plain fields -> table name fields constants rows = (n, Some lines) ->
  names_columns lines (length fields).
Proof. unfold table. intros Hn Hp H. injection H as <- <-. destruct fields; [congruence|]. now apply header_names. Qed.

Lemma number_plain n : has_char " " (string_of_nat n) = false.
Proof.
  unfold string_of_nat, NilZero.string_of_uint. assert (D : forall d, has_char " " (NilEmpty.string_of_uint d) = false) by (induction d; cbn; assumption || reflexivity).
  destruct (Nat.to_uint n); try exact (D _). reflexivity.
Qed.
Lemma coordinates_plain n : Forall plain (firstn n ["x"; "y"; "z"]).
Proof. destruct n as [|[|[|[|n]]]]; repeat constructor; discriminate. Qed.
Lemma prefixed_plain a pre i l : Ascii.eqb a " " = false -> has_char " " pre = false -> Forall plain l ->
  Forall plain (map (fun x => String a (pre ++ x ++ "." ++ string_of_nat i)) l).
Proof.
  intros Ha Hp H. apply Forall_forall. intros x Hx. apply in_map_iff in Hx. destruct Hx as (y & <- & Hy). rewrite Forall_forall in H. destruct (H y Hy) as (_ & Hy').
  apply plain_cons; [exact Ha|]. rewrite !has_char_app, Hp, Hy'. cbn. apply number_plain.
Qed.
Lemma numbered_plain a pre l : Ascii.eqb a " " = false -> has_char " " pre = false ->
  Forall plain (map (fun i => String a (pre ++ string_of_nat i)) l).
Proof.
  intros Ha Hp. apply Forall_forall. intros x Hx. apply in_map_iff in Hx. destruct Hx as (i & <- & _).
  apply plain_cons; [exact Ha|]. rewrite has_char_app, Hp. apply number_plain.
Qed.

(** * statistics *)
Lemma stats_columns e fe c w name lines : In (name, Some lines) (stats_files e fe c w) -> names_columns lines 5 /\ has_columns lines 5.
Proof.
  unfold stats_files. destruct (w_bd w) as [[[[par g] st] o]|]; [|intros []]. destruct (bd_to_file par); [|intros []]. intros [H|[]]. split.
  - refine (table_names _ _ _ _ _ _ _ _ H); [discriminate|]. repeat constructor; discriminate.
  - intros r Hr. apply (table_rows _ _ _ _ _ _ _ H) in Hr. apply in_map_iff in Hr. destruct Hr as (rp & Hr & _). injection Hr as <-. reflexivity.
Qed.

(** * grids *)
Lemma grid_columns n axes points np fields constants data lines : Forall plain (fields : list string) -> length fields = S n ->
  Forall (fun p => length p = n) points ->
  grid_lines n axes points np (header_lines fields constants) data = Some lines ->
  names_columns lines (S n) /\ has_columns lines (S n).
Proof.
  intros Hp Hl HF H.
  assert (Ht : map Text (header_lines fields constants) = header_of fields constants).
  { unfold header_lines, header_of. cbn [map]. now rewrite map_map. }
  assert (R : forall body, lines = map Text (header_lines fields constants) ++ body -> (forall r, In (Row r) body -> length r = S n) ->
              names_columns lines (S n) /\ has_columns lines (S n)).
  { intros body -> Hb. rewrite Ht, <- Hl. split; [now apply header_names|]. intros r Hr. apply in_app_or in Hr. destruct Hr as [Hr|Hr]; [destruct (header_no_rows _ _ _ Hr)|].
    rewrite Hl. auto. }
  destruct n as [|[|[|n]]]; cbn [grid_lines] in H; try discriminate; injection H as H; symmetry in H; apply (R _ H); intros r Hr.
  - apply in_map_iff in Hr. destruct Hr as (xy & Hr & _). injection Hr as <-. reflexivity.
  - assert (S1 : forall sl, In (Row r) (sliced sl) -> exists s, In s sl /\ In r s).
    { induction sl as [|s [|s2 sl] IH]; cbn [sliced]; [intros []| |].
      - intro Hin. apply in_map_iff in Hin. destruct Hin as (r' & Hin & Hr'). injection Hin as ->. exists s. split; [now left|exact Hr'].
      - intro Hin. apply in_app_or in Hin. destruct Hin as [Hin|[Hin|Hin]]; [|discriminate|].
        + apply in_map_iff in Hin. destruct Hin as (r' & Hin & Hr'). injection Hin as ->. exists s. split; [now left|exact Hr'].
        + destruct (IH Hin) as (s' & Hs' & Hr'). exists s'. split; [now right|exact Hr']. }
    destruct (S1 _ Hr) as (s & Hs & Hrs).
    assert (S2 : forall a b (rows : list (list xreal)) s r, In s (rows_of a b rows) -> In r s -> In r rows).
    { induction a as [|a IHa]; intros b rows s0 r0 Hin Hr0; [destruct Hin|]. cbn [rows_of] in Hin. rewrite <- (firstn_skipn b rows). apply in_or_app. destruct Hin as [<-|Hin]; [now left|].
      right. eapply IHa; eassumption. }
    apply (S2 _ _ _ _ _ Hs) in Hrs. apply in_map_iff in Hrs. destruct Hrs as ([p v] & <- & Hpv). apply in_combine_l in Hpv.
    rewrite Forall_forall in HF. specialize (HF p Hpv). rewrite app_length, map_length. cbn [fst length] in *. rewrite HF. reflexivity.
Qed.
Lemma fields_firstn n : (n = 1 \/ n = 2 \/ n = 3)%nat -> match get_fields n with Ok f => f | Err _ => [] end = firstn n ["x"; "y"; "z"].
Proof. intros [->|[->| ->]]; reflexivity. Qed.
Lemma hist_columns fe o n h counts lines : (n = 1 \/ n = 2 \/ n = 3)%nat -> length (h_edges h) = n -> hist_lines fe o n h counts = Some lines ->
  names_columns lines (S n) /\ has_columns lines (S n).
Proof.
  intros Hn He H. unfold hist_lines in H. cbv zeta in H. rewrite (fields_firstn _ Hn), He in H.
  eapply grid_columns; [| | |exact H].
  - apply Forall_app. split; [apply coordinates_plain|repeat constructor; discriminate].
  - rewrite app_length. destruct Hn as [->|[->| ->]]; reflexivity.
  - rewrite <- He. apply hist_points_dim.
Qed.
Lemma fes_columns fe n h fes lines : (n = 1 \/ n = 2 \/ n = 3)%nat -> length (h_edges h) = n -> fes_lines fe n h fes = Some lines ->
  names_columns lines (S n) /\ has_columns lines (S n).
Proof.
  intros Hn He H. unfold fes_lines in H. cbv zeta in H. rewrite (fields_firstn _ Hn), He in H.
  eapply grid_columns; [| | |exact H].
  - apply Forall_app. split; [apply coordinates_plain|repeat constructor; discriminate].
  - rewrite app_length. destruct Hn as [->|[->| ->]]; reflexivity.
  - assert (L : length (center_ranges h) = length (n_bins_of (h_edges h))) by (unfold center_ranges, hist_axes, n_bins_of; now rewrite !map_length).
    assert (L2 : length (axes_of (center_ranges h) (n_bins_of (h_edges h))) = n).
    { rewrite axes_len by exact L. unfold n_bins_of. now rewrite map_length. }
    rewrite <- L2. rewrite points_of_eq by now apply axes_lengths.
    apply Forall_forall. intros p Hp. apply in_map_iff in Hp. destruct Hp as (i & <- & _). now rewrite map_length, seq_length.
Qed.

(** * recorders *)
Lemma every_nth_in {A} k (l : list A) : forall i x, In x (every_nth i k l) -> In x l.
Proof. induction l as [|a l IH]; intros i x H; [destruct i; exact H|]. destruct i; cbn in H; [destruct H as [->|H]; [now left|]|]; right; eapply IH; exact H. Qed.
Lemma valid_in {A} (data : list A) step stride us lw l : get_valid_data data step stride us lw = Ok l -> forall x, In x l -> In x data.
Proof.
  assert (S : forall a b k l, py_slice data a b k = Ok l -> forall x, In x l -> In x data).
  { intros a b k l0 H x Hx. unfold py_slice in H. destruct (k <=? 0); [discriminate|]. apply ok_inj in H. subst l0. apply every_nth_in in Hx.
    set (s := slice_bound (length data) a) in *. rewrite <- (firstn_skipn s data). apply in_or_app. right.
    rewrite <- (firstn_skipn (match b with Some s0 => slice_bound (length data) s0 | None => length data end - s) (skipn s data)). apply in_or_app. now left. }
  unfold get_valid_data. cbv zeta. intro H. repeat match type of H with (if ?b then _ else _) = _ => destruct b end;
    try discriminate; try (apply ok_inj in H; subst l; intros x Hx; try destruct Hx; exact Hx); eapply S; exact H.
Qed.
Lemma set_nth_in {A} (l : list A) v x : forall k, In x (set_nth l k v) -> x = v \/ In x l.
Proof. induction l as [|a l IH]; intros [|k]; cbn; intros H; try tauto; destruct H as [->|H]; auto. destruct (IH _ H); auto. Qed.
Lemma py_set_in {A} (l l' : list A) i v x : py_set l i v = Ok l' -> In x l' -> x = v \/ In x l.
Proof. unfold py_set. destruct (py_pos (length l) i); [|discriminate]. intro H. apply ok_inj in H. subst l'. apply set_nth_in. Qed.

Definition all_rows {A} (P : A -> Prop) (r : recorder A) : Prop :=
  Forall P (rc_rows r) /\ P (rc_single r) /\ match rc_file r with Some f => Forall P f | None => True end.
Lemma all_write {A} (P : A -> Prop) r k r' : all_rows P r -> rec_write r k = Ok r' -> all_rows P r'.
Proof.
  intros (H1 & H2 & H3) H. unfold rec_write in H. destruct (rc_file r) as [f|] eqn:E; [|apply ok_inj in H; subst r'; split; [exact H1|split; [exact H2|now rewrite E]]].
  destruct (negb _).
  - apply bind_ok in H. destruct H as (sv & Hs & H). apply ok_inj in H. subst r'. split; [exact H1|]. split; [exact H2|]. cbn [rc_file]. apply Forall_app. split; [exact H3|].
    rewrite Forall_forall in *. intros x Hx. apply H1. eapply valid_in; eassumption.
  - apply ok_inj in H. subst r'. split; [exact H1|]. split; [exact H2|]. cbn [rc_file]. apply Forall_app. split; [exact H3|]. repeat constructor. exact H2.
Qed.
Lemma all_run {A} (P : A -> Prop) row r k r' : all_rows P r -> (forall v, row = Ok v -> P v) -> rec_run row r k = Ok r' -> all_rows P r'.
Proof.
  intros Hr Hv H. unfold rec_run in H. apply bind_ok in H. destruct H as (r1 & E & H).
  assert (H1 : all_rows P r1).
  { destruct (_ && _) in E; [|apply ok_inj in E; now subst]. apply bind_ok in E. destruct E as (v & Ev & E). apply bind_ok in E. destruct E as (rows' & Es & E).
    apply ok_inj in E. subst r1. destruct Hr as (A1 & A2 & A3). split; [|split; [exact A2|exact A3]]. cbn [rc_rows]. rewrite Forall_forall in *. intros x Hx.
    destruct (py_set_in _ _ _ _ _ Es Hx) as [->|Hx']; auto. }
  destruct (_ && _) in H; [eapply all_write; eassumption|apply ok_inj in H; now subst].
Qed.
Lemma all_final {A} (P : A -> Prop) row r k r' : all_rows P r -> (forall v, row = Ok v -> P v) -> rec_final_run row r k = Ok r' -> all_rows P r'.
Proof.
  intros Hr Hv H. unfold rec_final_run in H. apply bind_ok in H. destruct H as (r1 & E & H). eapply all_write; [|exact H].
  destruct (_ =? _) in E; [|apply ok_inj in E; now subst]. apply bind_ok in E. destruct E as (v & Ev & E). apply ok_inj in E. subst r1.
  destruct Hr as (A1 & A2 & A3). split; [exact A1|]. split; [exact (Hv v Ev)|exact A3].
Qed.
Lemma all_fold {A} (P : A -> Prop) (row : Z -> res A) : (forall k v, row k = Ok v -> P v) -> forall l r r', all_rows P r ->
  foldM (fun r k => rec_run (row k) r k) l r = Ok r' -> all_rows P r'.
Proof.
  intros Hv. induction l as [|k l IH]; intros r r' Hr H; cbn [foldM] in H; [apply ok_inj in H; now subst|].
  apply bind_ok in H. destruct H as (r1 & E & H). eapply IH; [|exact H]. eapply all_run; [exact Hr|apply Hv|exact E].
Qed.
Lemma all_init {A} (P : A -> Prop) st ws fn (junk : nat -> A) s r : (forall i, P (junk i)) -> P s -> rec_init st ws fn (np_empty junk) s = Ok r -> all_rows P r.
Proof.
  intros Hj Hs H. unfold rec_init in H. cbv zeta in H.
  repeat match type of H with (if ?b then _ else _) = _ => destruct b end; try discriminate; apply ok_inj in H; subst r; unfold all_rows; cbn [rc_rows rc_single rc_file];
    (split; [|split; [exact Hs|destruct fn; [constructor|exact I]]]).
  - unfold np_empty. apply Forall_forall. intros x Hx. apply in_map_iff in Hx. destruct Hx as (i & <- & _). apply Hj.
  - constructor.
Qed.
Lemma delta_f_row_length fes kt dt masks k row : masks <> [] -> delta_f_row fes kt dt masks k = Ok row -> length row = length masks.
Proof.
  intros Hm H. unfold delta_f_row in H. apply bind_ok in H. destruct H as (d & E & H). apply ok_inj in H. subst row. unfold calculate_delta_f in E. cbv zeta in E.
  apply bind_ok in E. destruct E as (ps & Ep & E). apply mapM_length in Ep. destruct ps as [|p0 ps]; [destruct masks; [congruence|discriminate]|].
  apply ok_inj in E. subst d. cbn [length] in *. rewrite map_length. exact Ep.
Qed.
Lemma pdist_row_length nd parts states k row : pdist_row nd parts states k = Ok row -> length row = S (length states).
Proof.
  intro H. unfold pdist_row in H. apply bind_ok in H. destruct H as (cs & E & H). apply ok_inj in H. subst row. cbn [length]. rewrite map_length. f_equal.
  unfold count_particles in E. destruct parts as [|p ps].
  - destruct states; [|discriminate]. apply ok_inj in E. now subst.
  - apply bind_ok in E. destruct E as (bs & Eb & E). apply ok_inj in E. subst cs. rewrite map_length. unfold pos_inside_ranges in Eb. now apply mapM_length in Eb.
Qed.

Section run.
Context (e : env) (fe : files_env) (cv : conv) (secs : list (string * section)) (acts : list action) (n : Z) (w0 w : world (e_rng e)) (c : config).
Hypothesis HS : set_up e cv secs acts n w0.
Hypothesis HF : main e cv (Some (Ok secs)) = Finished w.
Hypothesis HC : parse_all cv secs = Ok c.

Lemma run_built : built e c w0 /\ dims_ok (pot_ndim (ld_pot (w_ld w0))) /\ hist_dims e w0.
Proof.
  destruct HS as (c' & w1 & Hp & H1 & Ha & _). rewrite HC in Hp. apply ok_inj in Hp. subst c'.
  destruct (set_up_built _ _ _ _ _ H1 Ha) as (B & L & _). split; [exact B|]. split; [rewrite L; now apply setup_dims in H1|]. eapply set_up_hist_dims; eassumption.
Qed.
Lemma run_grows0 : grows w0 w.
Proof.
  pose proof (ops_outcome e fe cv (Some (Ok secs))) as Ho. destruct (main_ops e fe cv (Some (Ok secs))) as [ops o] eqn:Em. cbn [snd] in Ho. rewrite HF in Ho. subst o.
  apply ops_shape in Em.
  destruct Em as [(_ & N)|(c' & w1 & Hc' & E0 & [(_ & N)|(acts' & w2 & w' & o1 & o2 & E1 & _ & _ & G & _ & Ew)])]; [destruct (N w eq_refl)|destruct (N w eq_refl)|].
  specialize (Ew w eq_refl). subst w'. destruct HS as (c2 & w3 & P2 & S2 & A2 & _). change (parse_all cv secs = Ok c') in Hc'. rewrite P2 in Hc'. apply ok_inj in Hc'. subst c'.
  rewrite S2 in E0. apply ok_inj in E0. subst w3. rewrite A2 in E1. apply ok_inj in E1. injection E1 as <- <-. apply G.
Qed.
Lemma run_hist_dims : hist_dims e w /\ w_ld w = w_ld w0.
Proof. destruct run_built as (_ & _ & HD). pose proof run_grows0 as G. split; [eapply hist_dims_grow; eassumption|apply G]. Qed.
Lemma run_grid_columns name lines : In (name, Some lines) (histogram_files e fe c w ++ fes_files e fe c w) ->
  exists k, names_columns lines k /\ has_columns lines k.
Proof.
  destruct run_built as (_ & D & _). destruct run_hist_dims as (HD & L). rewrite <- L in D. intro H. exists (S (pot_ndim (ld_pot (w_ld w)))).
  apply in_app_or in H. destruct H as [H|H].
  - unfold histogram_files in H. destruct (w_hist w) as [h|] eqn:Eh; [|destruct H]. apply in_map_iff in H. destruct H as (sd & H & _). injection H as _ H.
    eapply hist_columns; [exact D|exact (HD h Eh)|exact H].
  - unfold fes_files in H. destruct (w_hist w) as [h|] eqn:Eh; [|destruct H]. destruct (w_fes w) as [f|]; [|destruct H].
    apply in_map_iff in H. destruct H as (sd & H & _). injection H as _ H. eapply fes_columns; [exact D|exact (HD h Eh)|exact H].
Qed.

Lemma run_df_columns masks r : array_shapes e w0 -> w_df w = Some (masks, r) -> (2 <= length masks)%nat /\ all_rows (fun x => length x = length masks) r.
Proof.
  intros (A & _) Hd. destruct run_built as (B & _). apply (main_composed _ _ _ _ _ _ HS) in HF. destruct HF as (D & hs & fs & _ & _ & _ & _ & _ & _ & _ & _ & Cd & _).
  destruct (w_df w0) as [[m r0]|] eqn:E0; [|congruence]. destruct Cd as (r' & _ & Ed & Sim). rewrite Hd in Ed. injection Ed as <- <-.
  destruct (A masks r0 eq_refl) as (J1 & J2). destruct (bu_df _ _ _ B) as [N|(o & h & d & _ & _ & _ & Hs & Y)]; [congruence|]. rewrite E0 in Y. injection Y as <-.
  destruct (setup_df_file _ _ _ _ _ Hs) as (_ & Hm). split; [exact Hm|].
  assert (Hne : masks <> []) by (intros ->; cbn in Hm; lia).
  unfold setup_delta_f in Hs. binds Hs. destruct (Nat.ltb _ _); [discriminate|]. binds Hs. apply ok_inj in Hs. injection Hs as <- <-.
  match goal with H : delta_f_init _ _ _ _ _ _ _ = Ok _ |- _ => unfold delta_f_init in H; apply bind_ok in H; destruct H as (u & _ & Hi) end.
  unfold delta_f_simulation in Sim. apply bind_ok in Sim. destruct Sim as (r1 & Er & Ef).
  unfold delta_f_final_run in Ef. refine (all_final _ _ _ _ _ _ (fun v => delta_f_row_length _ _ _ _ _ v Hne) Ef).
  eapply (all_fold _ (fun k => delta_f_row (fa_fes (fs k)) (ld_kt (w_ld w0)) (ld_dt (w_ld w0)) _ k)); [|eapply all_init; [exact J1|exact J2|exact Hi]|exact Er].
  intros k v. exact (delta_f_row_length _ _ _ _ _ v Hne).
Qed.
Lemma run_pd_columns states r : array_shapes e w0 -> w_pd w = Some (states, r) -> all_rows (fun x => length x = S (length states)) r.
Proof.
  intros (_ & A) Hd. destruct run_built as (B & _). apply (main_composed _ _ _ _ _ _ HS) in HF. destruct HF as (D & hs & fs & _ & _ & _ & _ & _ & _ & _ & _ & _ & Cd).
  destruct (w_pd w0) as [[m r0]|] eqn:E0; [|congruence]. destruct Cd as (r' & Ed & Sim). rewrite Hd in Ed. injection Ed as <- <-.
  destruct (A states r0 eq_refl) as (J1 & J2). destruct (bu_pd _ _ _ B) as [N|(o & d & _ & Hs & Y)]; [congruence|]. rewrite E0 in Y. injection Y as <-.
  unfold setup_particle_distribution in Hs. binds Hs. apply ok_inj in Hs. injection Hs as <- <-.
  unfold pdist_simulation in Sim. apply bind_ok in Sim. destruct Sim as (r1 & Er & Ef).
  unfold pdist_final_run in Ef. refine (all_final _ _ _ _ _ _ (fun v => pdist_row_length _ _ _ _ v) Ef).
  eapply (all_fold _ (fun k => pdist_row (pot_ndim (ld_pot (w_ld w0))) (walkers D k) _ k)); [|eapply all_init; [exact J1|exact J2|match goal with H : pdist_init _ _ _ _ _ = Ok _ |- _ => exact H end]|exact Er].
  intros k v. apply pdist_row_length.
Qed.

Lemma run_df_file name lines masks r : array_shapes e w0 -> w_df w = Some (masks, r) -> In (name, Some lines) (delta_f_files e fe c w) ->
  names_columns lines (length masks - 1) /\ has_columns lines (length masks).
Proof.
  intros A Hd H. destruct (run_df_columns _ _ A Hd) as (Hm & (_ & _ & Hf)). unfold delta_f_files in H. rewrite Hd in H. destruct (rc_file r) as [f|]; [|destruct H].
  destruct H as [H|[]]. split.
  - replace (length masks - 1)%nat with (length (map (fun i => "delta_f.1-" ++ string_of_nat i)%string (seq 2 (length masks - 1)))) by now rewrite map_length, seq_length.
    eapply table_names; [| |exact H].
    + destruct (length masks - 1)%nat eqn:E; [lia|discriminate].
    + apply (numbered_plain "d" "elta_f.1-"); reflexivity.
  - intros x Hx. apply (table_rows _ _ _ _ _ _ _ H) in Hx. apply in_map_iff in Hx. destruct Hx as (y & Hx & Hy). injection Hx as <-. rewrite Forall_forall in Hf. auto.
Qed.
Lemma run_pd_file name lines states r : array_shapes e w0 -> w_pd w = Some (states, r) -> states <> [] -> In (name, Some lines) (distribution_files e fe c w) ->
  names_columns lines (length states) /\ has_columns lines (S (length states)).
Proof.
  intros A Hd Hn H. destruct (run_pd_columns _ _ A Hd) as (_ & _ & Hf). unfold distribution_files in H. rewrite Hd in H. destruct (rc_file r) as [f|]; [|destruct H].
  destruct H as [H|[]]. split.
  - replace (length states) with (length (map (fun i => "n_particles_" ++ string_of_nat i)%string (seq 0 (length states)))) by now rewrite map_length, seq_length.
    eapply table_names; [| |exact H].
    + destruct states; [congruence|discriminate].
    + apply (numbered_plain "n" "_particles_"); reflexivity.
  - intros x Hx. apply (table_rows _ _ _ _ _ _ _ H) in Hx. apply in_map_iff in Hx. destruct Hx as (y & Hx & Hy). injection Hx as <-. rewrite map_length.
    rewrite Forall_forall in Hf. auto.
Qed.

Hypothesis HR : rng_ok (e_rng e).
Hypothesis HW : w_ps w0 <> [].
Hypothesis Hbc : pot_bc (ld_pot (w_ld w0)) = None \/ length (pot_ranges (ld_pot (w_ld w0))) = pot_ndim (ld_pot (w_ld w0)).

Lemma run_traj_columns name lines : In (name, Some lines) (trajectory_files e c w) -> exists k, names_columns lines k /\ has_columns lines k.
Proof.
  intro H. destruct run_hist_dims as (_ & L). destruct run_built as (B & _).
  unfold trajectory_files in H. destruct (w_traj w) as [t|] eqn:Et; [|destruct H].
  destruct (bu_traj _ _ _ B) as [N|(o & t0 & Ho & Hst & Et0)].
  { pose proof (gr_traj _ _ run_grows0) as G. rewrite N, Et in G. destruct G. }
  destruct (finished_trajectories e cv secs acts n w0 w HS HF HR HW c o HC Ho ltac:(congruence)) as (D & t' & Hh & Eps & HL & Et' & Ef).
  rewrite Et in Et'. injection Et' as <-.
  assert (Em : match tr_mom t with Some _ => true | None => false end = opt_set o "momentum").
  { pose proof (gr_traj _ _ run_grows0) as G. rewrite Et, Et0 in G.
    destruct G as (G & _). unfold setup_trajectories in Hst. binds Hst. apply ok_inj in Hst. subst t0. cbn [traj_init tr_mom] in G.
    rewrite <- opt_set_ok. destruct (v_true (get_dict o "momentum")), (tr_mom t); cbn in G; congruence. }
  rewrite Em in H. destruct (opt_set o "filename"); rewrite Ef in H; [|destruct H].
  apply in_map_iff in H. destruct H as ([i rows] & H & Hin). cbn [fst snd] in H. apply seq_combine_in in Hin. destruct Hin as (Hi & Hrows). rewrite Nat.sub_0_r in Hrows.
  assert (Hd : dims_ok (pot_ndim (ld_pot (w_ld w)))) by (rewrite L; apply run_built).
  exists (S (pot_ndim (ld_pot (w_ld w)) + (if opt_set o "momentum" then pot_ndim (ld_pot (w_ld w)) else 0)))%nat.
  assert (Lc : length (coordinates e w) = pot_ndim (ld_pot (w_ld w))) by (unfold coordinates; destruct Hd as [->|[->| ->]]; reflexivity).
  split.
  - replace (S _) with (length (traj_columns e w (opt_set o "momentum") i)).
    + eapply table_names; [| |exact H]; [discriminate|]. unfold traj_columns. constructor; [split; [discriminate|reflexivity]|]. apply Forall_app. split.
      * apply (prefixed_plain "p" "os_"); [reflexivity|reflexivity|apply coordinates_plain].
      * destruct (opt_set o "momentum"); [|constructor]. apply (prefixed_plain "m" "om_"); [reflexivity|reflexivity|apply coordinates_plain].
    + unfold traj_columns. cbn [length]. rewrite app_length, map_length, Lc. destruct (opt_set o "momentum"); [rewrite map_length, Lc|]; reflexivity.
  - intros x Hx. apply (table_rows _ _ _ _ _ _ _ H) in Hx. apply in_map_iff in Hx. destruct Hx as (y & Hx & Hy). injection Hx as <-. rewrite map_length.
    unfold traj_files in Hrows. rewrite nth_error_map in Hrows. destruct (nth_error (seq 0 (length (w_ps w0))) i) as [i'|] eqn:Ei; [|discriminate]. cbn in Hrows. injection Hrows as <-.
    assert (Hi' : (i' < length (w_ps w0))%nat) by (apply nth_error_In in Ei; apply in_seq in Ei; lia).
    unfold traj_file in Hy. apply in_map_iff in Hy. destruct Hy as (k & <- & Hk).
    assert (Hkn : 1 <= k <= n). { unfold times in Hk. apply filter_In in Hk. destruct Hk as (Hk & _). apply in_zrange in Hk. lia. }
    assert (SZ : Forall (right_size (pot_ndim (ld_pot (w_ld w0)))) (walkers D k)).
    { destruct HS as (c' & w1 & Hp' & H1 & Ha & _). rewrite HC in Hp'. apply ok_inj in Hp'. subst c'. destruct (set_up_built _ _ _ _ _ H1 Ha) as (_ & Eld & Ew1 & _).
      destruct (set_up_dynamics _ _ _ H1) as (F & S0). rewrite <- Eld in F, S0. rewrite <- Ew1 in S0.
      assert (X : Forall (right_size (pot_ndim (ld_pot (w_ld w0)))) (fst (fst (clamped n D k)))).
      { apply (clamped_ind (fun d => Forall (right_size (pot_ndim (ld_pot (w_ld w0)))) (fst (fst d)))); [lia|destruct Hh as [-> _]; exact S0|].
        intros j Hj IH. destruct Hh as [_ Hh]. eapply step_keeps_size; [exact HR|exact F|exact Hbc|exact (Hh j Hj)|exact IH]. }
      rewrite clamped_in in X by lia. exact X. }
    rewrite Forall_forall in SZ. specialize (SZ (nth i' (walkers D k) no_walker) ltac:(apply nth_In; rewrite HL; exact Hi')). destruct SZ as (S1 & S2 & _).
    unfold traj_row. cbn [length]. rewrite app_length, S1, L. destruct (opt_set o "momentum"); [rewrite S2|]; cbn [length]; lia.
Qed.
Lemma run_named name lines : In (name, Some lines) (stats_files e fe c w ++ trajectory_files e c w ++ histogram_files e fe c w ++ fes_files e fe c w) ->
  exists k, names_columns lines k /\ has_columns lines k.
Proof.
  intro H. apply in_app_or in H. destruct H as [H|H]; [exists 5%nat; eapply stats_columns; exact H|].
  apply in_app_or in H. destruct H as [H|H]; [eapply run_traj_columns; exact H|eapply run_grid_columns; exact H].
Qed.
End run.
