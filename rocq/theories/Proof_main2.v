(** Proofs about the error messages of the program (C44, C45) *)
From Coq Require Import Lra Lia Classical_Prop.
From Verif Require Import PyBase Model_xr Model_input Spec_input Proof_base Proof_input Model_dyn Model_setup Model_main Spec_main Proof_main.
Open Scope string_scope.
Open Scope Z_scope.
Ltac Zify.zify_post_hook ::= idtac.

Lemma plain_option_err cv sec o x : plain sec -> parse_option cv sec o = Err x ->
  x = OptionError \/ x = ValueError /\ list_type (io_type o) /\
    exists text, assoc (io_key o) sec = Some text /\ forall v, ~ converts cv (io_type o) text v.
Proof.
  intro Hp. rewrite parse_option_eq, (plain_get _ _ Hp). destruct (assoc (io_key o) sec) as [text|]; cbn [option_map bind].
  - destruct (convert cv (io_type o) text) as [w|y] eqn:E; cbn [bind].
    + intro H. left. destruct (io_cond o) as [c|]; [destruct (check c w)|]; congruence.
    + intro H. injection H as <-.
      assert (Hd : list_type (io_type o) \/ ~ list_type (io_type o)) by apply classic. destruct Hd as [Hl|Hl].
      * right. split; [exact (convert_list_err _ _ _ _ Hl E)|]. split; [exact Hl|]. exists text. split; [reflexivity|].
        intros v Hv. apply convert_spec in Hv. congruence.
      * left. exact (convert_scalar_err _ _ _ _ Hl E).
  - destruct (io_compulsory o); intro H; [left; congruence|discriminate].
Qed.
Lemma plain_option_ok cv sec o v text : plain sec -> parse_option cv sec o = Ok v -> assoc (io_key o) sec = Some text ->
  converts cv (io_type o) text v.
Proof.
  intros Hp H Ha. revert H. rewrite parse_option_eq, (plain_get _ _ Hp), Ha. cbn [option_map bind].
  destruct (convert cv (io_type o) text) as [w|y] eqn:E; cbn [bind]; [|discriminate].
  intro H. apply convert_spec. rewrite E. destruct (io_cond o) as [c|]; [destruct (check c w)|]; congruence.
Qed.
Lemma plain_compulsory cv sec o v : plain sec -> parse_option cv sec o = Ok v -> io_default o <> v \/ io_compulsory o = true ->
  exists text, assoc (io_key o) sec = Some text /\ converts cv (io_type o) text v.
Proof.
  intros Hp H Hc. destruct (assoc (io_key o) sec) as [text|] eqn:E.
  - exists text. split; [reflexivity|]. exact (plain_option_ok _ _ _ _ _ Hp H E).
  - exfalso. revert H. rewrite parse_option_eq, (plain_get _ _ Hp), E. cbn [option_map].
    destruct (io_compulsory o); [discriminate|]. intro H. injection H as <-. destruct Hc; congruence.
Qed.

Lemma section_err_fold cv sec x : forall opts d0,
  foldM (fun d o => do v <- parse_option cv sec o; Ok (dict_set (io_key o) v d)) opts d0 = Err x ->
  exists o, In o opts /\ parse_option cv sec o = Err x.
Proof.
  induction opts as [|o opts IH]; intros d0 H; cbn [foldM] in H; [discriminate|].
  destruct (parse_option cv sec o) as [v|y] eqn:E; cbn [bind] in H.
  - destruct (IH _ H) as (o' & Ho & Hp). exists o'. split; [right; exact Ho|exact Hp].
  - exists o. split; [left; reflexivity|]. congruence.
Qed.
Lemma section_ok_fold cv sec : forall opts d0 d,
  foldM (fun d o => do v <- parse_option cv sec o; Ok (dict_set (io_key o) v d)) opts d0 = Ok d ->
  forall o, In o opts -> exists v, parse_option cv sec o = Ok v.
Proof.
  induction opts as [|o1 opts IH]; intros d0 d H o Ho; cbn [foldM] in H; [destruct Ho|].
  destruct (parse_option cv sec o1) as [v|y] eqn:E; cbn [bind] in H; [|discriminate].
  destruct Ho as [<-|Ho]; [eauto|eapply IH; eassumption].
Qed.

Lemma ok_inj {A} (a b : A) : Ok a = Ok b -> a = b.
Proof. congruence. Qed.

Section sections.
Context (cv : conv) (secs : list (string * section)) (HP : percent_free secs).

Definition bad_list : Prop := bad_value cv secs KFloats \/ bad_value cv secs KInts.
Definition clean (x : exn) : Prop := x = OptionError \/ x = ValueError /\ bad_list.

Lemma section_clean name sec opts x : assoc name secs = Some sec ->
  (forall o, In o opts -> list_type (io_type o) -> option_of cv secs name (io_key o) (io_type o)) ->
  parse_section cv sec opts = Err x -> clean x.
Proof.
  intros Ha Ho H. apply section_err_fold in H. destruct H as (o & Hin & He).
  destruct (plain_option_err _ _ _ _ (HP _ _ Ha) He) as [->|(-> & Hl & text & Hk & Hn)]; [left; reflexivity|].
  right. split; [reflexivity|]. specialize (Ho o Hin Hl). unfold bad_list.
  destruct (io_type o); try destruct Hl; [left|right]; exists name, (io_key o), text;
    (split; [exact Ho|]; split; [exists sec; auto|exact Hn]).
Qed.
Lemma section_scalar name sec opts d o text : assoc name secs = Some sec -> parse_section cv sec opts = Ok d -> In o opts ->
  assoc (io_key o) sec = Some text -> exists v, converts cv (io_type o) text v.
Proof.
  intros Ha H Ho Hk. destruct (section_ok_fold _ _ _ _ _ H _ Ho) as (v & Hv). exists v.
  exact (plain_option_ok _ _ _ _ _ (HP _ _ Ha) Hv Hk).
Qed.

Ltac lists := let o := fresh "o" in let Ho := fresh "Ho" in let Hl := fresh "Hl" in
  intros o Ho Hl; simpl in Ho; repeat (destruct Ho as [<-|Ho]; [simpl in Hl; try contradiction|]); try contradiction.

Lemma str_given name sec key b v s : assoc name secs = Some sec -> parse_option cv sec (opt key KStr b) = Ok v -> vstr_is v s = true ->
  given secs name key s.
Proof.
  intros Ha Hv Hs. destruct v as [|t| | | | |]; try discriminate. cbn [vstr_is] in Hs. apply String.eqb_eq in Hs. subst t.
  destruct (plain_compulsory _ _ _ _ (HP _ _ Ha) Hv) as (text & Ht & Hc); [left; discriminate|]. cbn in Hc. inversion Hc; subst.
  exists sec. auto.
Qed.

Lemma ld_clean sec x : assoc "ld" secs = Some sec -> parse_ld cv sec = Err x -> clean x.
Proof.
  intros Ha H. unfold parse_ld in H.
  destruct (parse_option cv sec type_option_ld) as [v|y] eqn:E; cbn [bind] in H.
  - destruct (vstr_is v "bussi-parinello"); [|destruct (vstr_is v "overdamped")]; cbn [bind] in H.
    + apply (section_clean "ld" _ _ _ Ha) in H; [exact H|]. lists.
    + apply (section_clean "ld" _ _ _ Ha) in H; [exact H|]. lists.
    + left. congruence.
  - destruct (plain_option_err _ _ _ _ (HP _ _ Ha) E) as [->|(_ & [] & _)]. left. congruence.
Qed.

Lemma n_dim_one sec v b c d0 : assoc "potential" secs = Some sec -> vint_is d0 1 = false ->
  parse_option cv sec (mkOpt "n_dim" KInt b c d0) = Ok v -> (vint_is v 1 = true <-> one_dim cv secs).
Proof.
  intros Ha Hd Hv. split.
  - intro H1. destruct (plain_compulsory _ _ _ _ (HP _ _ Ha) Hv) as (text & Ht & Hc).
    + left. cbn [io_default]. intros ->. congruence.
    + exists text. split; [exists sec; auto|]. cbn in Hc. inversion Hc; subst. cbn [vint_is] in H1. apply Z.eqb_eq in H1. subst z. assumption.
  - intros (text & (s2 & A2 & Ht) & Hi). rewrite Ha in A2. injection A2 as <-.
    pose proof (plain_option_ok _ _ _ _ _ (HP _ _ Ha) Hv Ht) as Hc. cbn in Hc. inversion Hc as [| |? z Hz| | | |]; subst. rewrite Hz in Hi. injection Hi as ->. reflexivity.
Qed.

Lemma pot_clean sec x : assoc "potential" secs = Some sec -> parse_potential cv sec = Err x -> clean x.
Proof.
  intros Ha H. unfold parse_potential in H.
  destruct (parse_option cv sec type_option_pot) as [v|y] eqn:E; cbn [bind] in H.
  - destruct (vstr_is v "polynomial") eqn:Ev; [|destruct (vstr_is v "mueller-brown") eqn:Ev2]; cbn [bind] in H.
    + pose proof (str_given _ _ _ _ _ _ Ha E Ev) as Hg.
      destruct (parse_option cv sec n_dim_option) as [nd|y] eqn:En; cbn [bind] in H.
      * assert (Hone : vint_is nd 1 = true <-> one_dim cv secs) by (eapply n_dim_one; [exact Ha| |exact En]; reflexivity).
        destruct (vint_is nd 1); cbn [bind] in H; apply (section_clean "potential" _ _ _ Ha) in H; try exact H; lists; cbn.
        -- apply oo_pot_1; [exact Hg|apply Hone; reflexivity|simpl; auto].
        -- apply oo_pot_n; [exact Hg|rewrite <- Hone; discriminate|simpl; auto].
        -- apply oo_pot_n; [exact Hg|rewrite <- Hone; discriminate|simpl; auto].
      * destruct (plain_option_err _ _ _ _ (HP _ _ Ha) En) as [->|(_ & [] & _)]. left. congruence.
    + apply (section_clean "potential" _ _ _ Ha) in H; [exact H|]. lists.
    + left. congruence.
  - destruct (plain_option_err _ _ _ _ (HP _ _ Ha) E) as [->|(_ & [] & _)]. left. congruence.
Qed.

Lemma str_given_init sec v s : assoc "particles" secs = Some sec -> parse_option cv sec init_dist_option = Ok v -> vstr_is v s = true ->
  given secs "particles" "initial-distribution" s.
Proof.
  intros Ha Hv Hs. destruct v as [|t| | | | |]; try discriminate. cbn [vstr_is] in Hs. apply String.eqb_eq in Hs. subst t.
  destruct (plain_compulsory _ _ _ _ (HP _ _ Ha) Hv) as (text & Ht & Hc); [left; discriminate|]. cbn in Hc. inversion Hc; subst.
  exists sec. auto.
Qed.
Lemma part_clean sec x : assoc "particles" secs = Some sec -> parse_particles cv sec = Err x -> clean x.
Proof.
  intros Ha H. unfold parse_particles in H.
  destruct (parse_option cv sec init_dist_option) as [v|y] eqn:E; cbn [bind] in H.
  2:{ destruct (plain_option_err _ _ _ _ (HP _ _ Ha) E) as [->|(_ & [] & _)]. left. congruence. }
  destruct (plain_numbered sec "pos" "" (HP _ _ Ha)) as (vs & Hvs). rewrite Hvs in H. cbn [bind] in H.
  assert (Hfr : forall o, In o (if vstr_is v "fractions-pos" then [opt "fractions" KFloats true] else []) ->
             option_of cv secs "particles" (io_key o) (io_type o)).
  { intros o Ho. destruct (vstr_is v "fractions-pos") eqn:Ef; [|destruct Ho]. destruct Ho as [<-|[]].
    apply oo_part_frac. exact (str_given_init _ _ _ Ha E Ef). }
  assert (H' : exists po, (forall o, In o po -> option_of cv secs "particles" (io_key o) (io_type o)) /\
     parse_section cv sec ([optc "number" KInt true Positive; mkOpt "mass" KFloat false (Some Positive) (VFloat (Fin 1));
      opt "seed" KInt false; init_dist_option] ++ po ++ (if vstr_is v "fractions-pos" then [opt "fractions" KFloats true] else []))%list = Err x).
  { destruct (vstr_is v "random-pos") eqn:Er; [|destruct (vstr_is v "fractions-pos") eqn:Ef]; cbn [orb bind] in H.
    - eexists; split; [|exact H]. intros o Ho. apply in_numbered in Ho. destruct Ho as (i & ->). cbn.
      apply oo_part_pos; [exists i; reflexivity|left; exact (str_given_init _ _ _ Ha E Er)].
    - eexists; split; [|exact H]. intros o Ho. apply in_numbered in Ho. destruct Ho as (i & ->). cbn.
      apply oo_part_pos; [exists i; reflexivity|right; exact (str_given_init _ _ _ Ha E Ef)].
    - eexists; split; [|exact H]. intros o []. }
  destruct H' as (po & Hpo & H'). apply (section_clean "particles" _ _ _ Ha) in H'; [exact H'|].
  intros o Ho Hl. apply in_app_or in Ho. destruct Ho as [Ho|Ho].
  - simpl in Ho. repeat (destruct Ho as [<-|Ho]; [destruct Hl|]). destruct Ho.
  - apply in_app_or in Ho. destruct Ho; auto.
Qed.

(** the dimension of the parsed potential *)
Lemma pot_one_dim sec pot : assoc "potential" secs = Some sec -> parse_potential cv sec = Ok pot ->
  (vint_is (get_dict pot "n_dim") 1 = true <-> one_dim cv secs).
Proof.
  intros Ha H. unfold parse_potential in H.
  destruct (parse_option cv sec type_option_pot) as [v|y] eqn:E; cbn [bind] in H; [|discriminate].
  assert (G : forall o opts, parse_section cv sec opts = Ok pot -> In o opts -> (forall o', In o' opts -> io_key o' = io_key o -> o' = o) ->
     io_key o = "n_dim" -> exists v, parse_option cv sec o = Ok v /\ get_dict pot "n_dim" = v).
  { intros o opts Hs Hin Hu Hk. destruct (section_in _ _ _ _ _ Hs Hin Hu) as (w & Hw & Hg). exists w. split; [exact Hw|].
    unfold get_dict. rewrite <- Hk, Hg. reflexivity. }
  destruct (vstr_is v "polynomial") eqn:Ev; [|destruct (vstr_is v "mueller-brown") eqn:Ev2]; cbn [bind] in H; [| |discriminate].
  - destruct (parse_option cv sec n_dim_option) as [nd|y] eqn:En; cbn [bind] in H; [|discriminate].
    assert (Hg : exists w, parse_option cv sec n_dim_option = Ok w /\ get_dict pot "n_dim" = w).
    { destruct (vint_is nd 1); cbn [bind] in H; (apply (G n_dim_option _ H); [in_list|uniq|reflexivity]). }
    destruct Hg as (w & Hw & ->). eapply n_dim_one; [exact Ha| |exact Hw]; reflexivity.
  - destruct (G (mkOpt "n_dim" KInt false None (VInt 2)) _ H) as (w & Hw & ->); [in_list|uniq|reflexivity|].
    eapply n_dim_one; [exact Ha| |exact Hw]; reflexivity.
Qed.

Section with_pot.
Context (s_pot : section) (pot : dict) (Hpa : assoc "potential" secs = Some s_pot) (Hpp : parse_potential cv s_pot = Ok pot).

Lemma bd_clean sec x : assoc "birth-death" secs = Some sec -> parse_birth_death cv pot sec = Err x -> clean x.
Proof.
  intros Ha H. unfold parse_birth_death in H. pose proof (pot_one_dim _ _ Hpa Hpp) as H1.
  destruct (vint_is (get_dict pot "n_dim") 1); apply (section_clean "birth-death" _ _ _ Ha) in H; try exact H; lists.
  apply oo_bd_n. rewrite <- H1. discriminate.
Qed.
Lemma hist_clean sec x : assoc "histogram" secs = Some sec -> parse_histogram cv pot sec = Err x -> clean x.
Proof.
  intros Ha H. unfold parse_histogram in H. pose proof (pot_one_dim _ _ Hpa Hpp) as H1.
  destruct (vint_is (get_dict pot "n_dim") 1); apply (section_clean "histogram" _ _ _ Ha) in H; try exact H; lists; cbn.
  - apply oo_hist. simpl. auto.
  - apply oo_hist. simpl. auto.
  - apply oo_hist_n; [rewrite <- H1; discriminate|simpl; auto].
  - apply oo_hist_n; [rewrite <- H1; discriminate|simpl; auto].
  - apply oo_hist_n; [rewrite <- H1; discriminate|simpl; auto].
Qed.
End with_pot.

Lemma traj_clean sec x : assoc "trajectories" secs = Some sec -> parse_trajectories cv sec = Err x -> clean x.
Proof. intros Ha H. apply (section_clean "trajectories" _ _ _ Ha) in H; [exact H|]. lists. Qed.
Lemma fes_clean sec h x : assoc "fes" secs = Some sec -> parse_fes cv h sec = Err x ->
  clean x \/ x = NoSectionError /\ truthy_dict h = false.
Proof.
  intros Ha H. unfold parse_fes in H. destruct (truthy_dict h); cbn [negb] in H; [left|right; split; congruence].
  apply (section_clean "fes" _ _ _ Ha) in H; [exact H|]. lists. cbn. apply oo_fes. simpl. auto 20.
Qed.
Lemma states_clean name sec x : In name ["delta-f"; "particle-distribution"] -> assoc name secs = Some sec ->
  (do states <- numbered_state_options sec; parse_section cv sec (output_options ++ states)%list) = Err x -> clean x.
Proof.
  intros Hn Ha H. destruct (numbered_state_options sec) as [st|y] eqn:E; cbn [bind] in H.
  - apply (section_clean name _ _ _ Ha) in H; [exact H|]. intros o Ho Hl. apply in_app_or in Ho. destruct Ho as [Ho|Ho].
    + simpl in Ho. repeat (destruct Ho as [<-|Ho]; [destruct Hl|]). destruct Ho.
    + apply states_options in E. destruct E as (n & _ & ->). apply in_flat_map in Ho. destruct Ho as (i & _ & [<-|[<-|[]]]); cbn;
        apply oo_state; auto; [left|right]; exists i; reflexivity.
  - left. injection H as <-. unfold numbered_state_options in E.
    destruct (plain_numbered sec "state" "-min" (HP _ _ Ha)) as (vs & Hvs). rewrite Hvs in E. cbn [bind] in E.
    destruct (plain_numbered sec "state" "-max" (HP _ _ Ha)) as (us & Hus). rewrite Hus in E. cbn [bind] in E.
    destruct (negb _); [congruence|]. destruct (flat_map _ _); congruence.
Qed.
Lemma df_clean sec f x : assoc "delta-f" secs = Some sec -> parse_delta_f cv f sec = Err x ->
  clean x \/ x = NoSectionError /\ truthy_dict f = false.
Proof.
  intros Ha H. unfold parse_delta_f in H. destruct (truthy_dict f); cbn [negb] in H; [left|right; split; congruence].
  apply (states_clean "delta-f" sec); simpl; auto.
Qed.

Lemma optional_err name parse x : optional_section secs name parse = Err x -> exists sec, assoc name secs = Some sec /\ parse sec = Err x.
Proof.
  unfold optional_section. destruct (assoc name secs) as [sec|]; [|discriminate].
  destruct (parse sec) eqn:E; cbn [bind]; [discriminate|]. intro H. injection H as <-. eauto.
Qed.

Lemma parse_all_err x : parse_all cv secs = Err x ->
  x = SectionError \/ clean x \/ x = NoSectionError /\ ~ dependencies secs.
Proof.
  unfold parse_all. destruct (negb _); [left; congruence|].
  destruct (assoc "ld" secs) as [s1|] eqn:A1; [|left; congruence]. destruct (assoc "potential" secs) as [s2|] eqn:A2; [|left; congruence].
  destruct (assoc "particles" secs) as [s3|] eqn:A3; [|left; congruence]. intro H. right.
  destruct (parse_ld cv s1) as [ld|y] eqn:E1; cbn [bind] in H; [|injection H as <-; left; exact (ld_clean _ _ A1 E1)].
  destruct (parse_potential cv s2) as [pot|y] eqn:E2; cbn [bind] in H; [|injection H as <-; left; exact (pot_clean _ _ A2 E2)].
  destruct (parse_particles cv s3) as [part|y] eqn:E3; cbn [bind] in H; [|injection H as <-; left; exact (part_clean _ _ A3 E3)].
  destruct (optional_section secs "birth-death" _) as [bd|y] eqn:E4; cbn [bind] in H.
  2:{ injection H as <-; left. apply optional_err in E4. destruct E4 as (s & A & E). exact (bd_clean _ _ A2 E2 _ _ A E). }
  destruct (optional_section secs "trajectories" _) as [traj|y] eqn:E5; cbn [bind] in H.
  2:{ injection H as <-; left. apply optional_err in E5. destruct E5 as (s & A & E). exact (traj_clean _ _ A E). }
  destruct (optional_section secs "histogram" _) as [histo|y] eqn:E6; cbn [bind] in H.
  2:{ injection H as <-; left. apply optional_err in E6. destruct E6 as (s & A & E). exact (hist_clean _ _ A2 E2 _ _ A E). }
  destruct (optional_section secs "fes" _) as [fes|y] eqn:E7; cbn [bind] in H.
  2:{ injection H as <-. apply optional_err in E7. destruct E7 as (s & A & E). destruct (fes_clean _ _ _ A E) as [Hc|[-> Ht]]; [left; exact Hc|].
      right. split; [reflexivity|]. intros [D _]. unfold has_section in D at 1. rewrite A in D. specialize (D eq_refl).
      assert (F : truthy_dict histo = has_section secs "histogram").
      { apply (optional_truthy secs "histogram" (parse_histogram cv pot)); [|exact E6]. intros sec d. apply parse_section_nonnil, app_nonnil. discriminate. }
      congruence. }
  destruct (optional_section secs "delta-f" _) as [df|y] eqn:E8; cbn [bind] in H.
  2:{ injection H as <-. apply optional_err in E8. destruct E8 as (s & A & E). destruct (df_clean _ _ _ A E) as [Hc|[-> Ht]]; [left; exact Hc|].
      right. split; [reflexivity|]. intros [_ D]. unfold has_section in D at 1. rewrite A in D. specialize (D eq_refl).
      assert (F : truthy_dict fes = has_section secs "fes").
      { apply (optional_truthy secs "fes" (parse_fes cv histo)); [|exact E7]. intros sec d. unfold parse_fes. destruct (negb _); [discriminate|]. apply parse_section_nonnil. discriminate. }
      congruence. }
  destruct (optional_section secs "particle-distribution" _) as [pd|y] eqn:E9; cbn [bind] in H; [discriminate|].
  injection H as <-; left. apply optional_err in E9. destruct E9 as (s & A & E). apply (states_clean "particle-distribution" s); simpl; auto.
Qed.

(** every single value of an accepted input could be converted *)
Lemma accepted_scalars c : parse_all cv secs = Ok c -> forall name key t text, option_of cv secs name key t -> ~ list_type t ->
  given secs name key text -> exists v, converts cv t text v.
Proof.
  intro H. apply parse_all_inv in H.
  destruct H as (s1 & s2 & s3 & A1 & A2 & A3 & E1 & E2 & E3 & E4 & E5 & E6 & E7 & E8 & E9).
  assert (GS : forall name sec opts d, assoc name secs = Some sec -> parse_section cv sec opts = Ok d ->
     forall o text, In o opts -> given secs name (io_key o) text -> exists v, converts cv (io_type o) text v).
  { intros name sec opts d Ha Hd o text Ho (s' & Ha' & Hk). rewrite Ha in Ha'. injection Ha' as <-.
    eapply section_scalar; eassumption. }
  assert (OPT : forall name parse d, optional_section secs name parse = Ok d -> forall key text, given secs name key text ->
     exists sec d', assoc name secs = Some sec /\ parse sec = Ok d').
  { intros name parse d Ho key text (sec & Ha & _). apply optional_inv in Ho. destruct Ho as [[_ Hn]|(s' & d' & Ha' & Hp & _)]; [congruence|eauto]. }
  assert (LDT : exists v, parse_option cv s1 type_option_ld = Ok v /\
     exists o, (if vstr_is v "bussi-parinello" then Ok (ld_options ++ [optc "kt" KFloat true Positive; optc "friction" KFloat true PositiveOrZero])%list
     else if vstr_is v "overdamped" then Ok ld_options else Err OptionError) = Ok o /\ parse_section cv s1 o = Ok (c_ld c)).
  { unfold parse_ld in E1. destruct (parse_option cv s1 type_option_ld) as [v|]; cbn [bind] in E1; [|discriminate].
    exists v. split; [reflexivity|]. apply bind_ok in E1. exact E1. }
  destruct LDT as (tv & Et & lo & Elo & Els).
  assert (POT : exists v po, parse_option cv s2 type_option_pot = Ok v /\
     (vstr_is v "polynomial" = true /\ (exists nd, parse_option cv s2 n_dim_option = Ok nd /\ 
        po = if vint_is nd 1 then [type_option_pot; n_dim_option; opt "coeffs" KFloats false; opt "min" KFloat true; opt "max" KFloat true]
             else [type_option_pot; n_dim_option; opt "coeffs-file" KStr true; opt "min" KFloats true; opt "max" KFloats true])
      \/ vstr_is v "mueller-brown" = true /\ po = [type_option_pot; opt "scaling-factor" KFloat false; mkOpt "n_dim" KInt false None (VInt 2)]) /\
     parse_section cv s2 (po ++ [opt "boundary-condition" KStr false])%list = Ok (c_potential c)).
  { unfold parse_potential in E2. destruct (parse_option cv s2 type_option_pot) as [v|]; cbn [bind] in E2; [|discriminate].
    exists v. destruct (vstr_is v "polynomial"); [|destruct (vstr_is v "mueller-brown"); [|discriminate]].
    - destruct (parse_option cv s2 n_dim_option) as [nd|]; cbn [bind] in E2; [|discriminate].
      exists (if vint_is nd 1 then [type_option_pot; n_dim_option; opt "coeffs" KFloats false; opt "min" KFloat true; opt "max" KFloat true]
             else [type_option_pot; n_dim_option; opt "coeffs-file" KStr true; opt "min" KFloats true; opt "max" KFloats true]).
      split; [reflexivity|]. split; [left; split; [reflexivity|exists nd; auto]|]. destruct (vint_is nd 1); exact E2.
    - eexists. split; [reflexivity|]. split; [right; split; reflexivity|exact E2]. }
  destruct POT as (pv & po & Epv & Hpo & Eps).
  assert (PART : exists po, parse_section cv s3 ([optc "number" KInt true Positive; mkOpt "mass" KFloat false (Some Positive) (VFloat (Fin 1));
      opt "seed" KInt false; init_dist_option] ++ po)%list = Ok (c_particles c)).
  { unfold parse_particles in E3. destruct (parse_option cv s3 init_dist_option); cbn [bind] in E3; [|discriminate].
    apply bind_ok in E3. destruct E3 as (p & _ & E3). eexists. exact E3. }
  destruct PART as (part & Epart).
  assert (PD : forall name, In name ["delta-f"; "particle-distribution"] -> forall key text, given secs name key text -> exists sec st d,
      assoc name secs = Some sec /\ parse_section cv sec (output_options ++ st)%list = Ok d).
  { intros name Hn key text Hg. simpl in Hn. destruct Hn as [<-|[<-|[]]].
    - destruct (OPT _ _ _ E8 _ _ Hg) as (sec & d & Ha & Hp). unfold parse_delta_f in Hp. destruct (negb _); [discriminate|].
      apply bind_ok in Hp. destruct Hp as (st & _ & Hp). eauto.
    - destruct (OPT _ _ _ E9 _ _ Hg) as (sec & d & Ha & Hp). unfold parse_particle_distribution in Hp.
      apply bind_ok in Hp. destruct Hp as (st & _ & Hp). eauto. }
  pose proof (pot_one_dim _ _ A2 E2) as H1.
  intros name key t text Ho Hl Hg.
  destruct Ho as [k t Hk|k t Hb Hk|k t Hk|k t Hb H1d Hk|k t Hb H1d Hk|k t Hb Hk|k t Hk|k Hk Hb|Hb|k t Hk|H1d|H1d|k t Hk|k t Hk|k t H1d Hk|k t H1d Hk|k t Hk|name k t Hn Hk|name k Hn Hk].
  - apply (GS _ _ _ _ A1 Els (mkOpt k t (if String.eqb k "type" then false else if String.eqb k "seed" then false else true)
       (if String.eqb k "timestep" then Some PositiveOrZero else if String.eqb k "n_steps" then Some Positive else None) VNone)); [|exact Hg].
    assert (Hlo : forall o, In o ld_options -> In o lo).
    { intros o Ho. destruct (vstr_is tv "bussi-parinello"); [|destruct (vstr_is tv "overdamped"); [|discriminate]]; (apply ok_inj in Elo; rewrite <- Elo); [apply in_or_app; left; exact Ho|exact Ho]. }
    apply Hlo. simpl in Hk. repeat (destruct Hk as [Hk|Hk]; [injection Hk as <- <-; cbn; in_list|]). destruct Hk.
  - destruct Hb as (s' & A' & Hty). rewrite A1 in A'. injection A' as <-.
    pose proof (plain_option_ok _ _ _ _ _ (HP _ _ A1) Et Hty) as Hc. cbn in Hc. inversion Hc; subst. cbn in Elo. injection Elo as <-.
    apply (GS _ _ _ _ A1 Els (mkOpt k t true (if String.eqb k "kt" then Some Positive else Some PositiveOrZero) VNone)); [|exact Hg].
    simpl in Hk. repeat (destruct Hk as [Hk|Hk]; [injection Hk as <- <-; cbn; in_list|]). destruct Hk.
  - simpl in Hk. destruct Hk as [Hk|[Hk|[Hk|[]]]]; injection Hk as <- <-.
    + apply (GS _ _ _ _ A2 Eps type_option_pot); [|exact Hg]. apply in_or_app. left.
      destruct Hpo as [[_ (nd & _ & ->)]|[_ ->]]; [destruct (vint_is nd 1)|]; in_list.
    + apply (GS _ _ _ _ A2 Eps (opt "boundary-condition" KStr false)); [|exact Hg]. apply in_or_app. right. in_list.
    + destruct Hpo as [[_ (nd & _ & ->)]|[_ ->]].
      * apply (GS _ _ _ _ A2 Eps n_dim_option); [|exact Hg]. apply in_or_app. left. destruct (vint_is nd 1); in_list.
      * apply (GS _ _ _ _ A2 Eps (mkOpt "n_dim" KInt false None (VInt 2))); [|exact Hg]. in_list.
  - destruct Hb as (s' & A' & Hty). rewrite A2 in A'. injection A' as <-.
    pose proof (plain_option_ok _ _ _ _ _ (HP _ _ A2) Epv Hty) as Hc. cbn in Hc. inversion Hc; subst. 
    destruct Hpo as [[_ (nd & End & ->)]|[Hd _]]; [|discriminate].
    assert (Hn : vint_is nd 1 = true <-> one_dim cv secs) by (eapply n_dim_one; [exact A2| |exact End]; reflexivity).
    rewrite (proj2 Hn H1d) in Eps.
    apply (GS _ _ _ _ A2 Eps (mkOpt k t (if String.eqb k "coeffs" then false else true) None VNone)); [|exact Hg].
    simpl in Hk. repeat (destruct Hk as [Hk|Hk]; [injection Hk as <- <-; cbn; in_list|]). destruct Hk.
  - destruct Hb as (s' & A' & Hty). rewrite A2 in A'. injection A' as <-.
    pose proof (plain_option_ok _ _ _ _ _ (HP _ _ A2) Epv Hty) as Hc. cbn in Hc. inversion Hc; subst. 
    destruct Hpo as [[_ (nd & End & ->)]|[Hd _]]; [|discriminate].
    assert (Hn : vint_is nd 1 = true <-> one_dim cv secs) by (eapply n_dim_one; [exact A2| |exact End]; reflexivity).
    destruct (vint_is nd 1); [exfalso; apply H1d, Hn; reflexivity|].
    apply (GS _ _ _ _ A2 Eps (mkOpt k t true None VNone)); [|exact Hg].
    simpl in Hk. repeat (destruct Hk as [Hk|Hk]; [injection Hk as <- <-; cbn; in_list|]). destruct Hk.
  - destruct Hb as (s' & A' & Hty). rewrite A2 in A'. injection A' as <-.
    pose proof (plain_option_ok _ _ _ _ _ (HP _ _ A2) Epv Hty) as Hc. cbn in Hc. inversion Hc; subst. 
    destruct Hpo as [[Hd _]|[_ ->]]; [discriminate|].
    apply (GS _ _ _ _ A2 Eps (mkOpt k t false None VNone)); [|exact Hg].
    simpl in Hk. repeat (destruct Hk as [Hk|Hk]; [injection Hk as <- <-; cbn; in_list|]). destruct Hk.
  - simpl in Hk. destruct Hk as [Hk|[Hk|[Hk|[Hk|[]]]]]; injection Hk as <- <-.
    + apply (GS _ _ _ _ A3 Epart (optc "number" KInt true Positive)); [|exact Hg]. in_list.
    + apply (GS _ _ _ _ A3 Epart (mkOpt "mass" KFloat false (Some Positive) (VFloat (Fin 1)))); [|exact Hg]. in_list.
    + apply (GS _ _ _ _ A3 Epart (opt "seed" KInt false)); [|exact Hg]. in_list.
    + apply (GS _ _ _ _ A3 Epart init_dist_option); [|exact Hg]. in_list.
  - destruct (Hl I).
  - destruct (Hl I).
  - destruct (OPT _ _ _ E4 _ _ Hg) as (sec & d & Ha & Hp). unfold parse_birth_death in Hp.
    apply (GS _ _ _ _ Ha Hp (mkOpt k t (if String.eqb k "stride" then true else false)
      (if String.eqb k "stride" then Some Positive else if String.eqb k "exponential-factor" then Some Positive else if String.eqb k "stats-stride" then Some Positive else None)
      (if String.eqb k "recalculate-probabilities" then VBool false else VNone))); [|exact Hg].
    apply in_or_app. left. simpl in Hk. repeat (destruct Hk as [Hk|Hk]; [injection Hk as <- <-; cbn; in_list|]). destruct Hk.
  - destruct (OPT _ _ _ E4 _ _ Hg) as (sec & d & Ha & Hp). unfold parse_birth_death in Hp. rewrite (proj2 H1 H1d) in Hp.
    apply (GS _ _ _ _ Ha Hp (optc "kernel-bandwidth" KFloat true Positive)); [|exact Hg]. in_list.
  - destruct (Hl I).
  - destruct (OPT _ _ _ E5 _ _ Hg) as (sec & d & Ha & Hp). unfold parse_trajectories in Hp.
    apply (GS _ _ _ _ Ha Hp (mkOpt k t false (if String.eqb k "stride" then Some Positive else if String.eqb k "write-stride" then Some Positive else None) VNone)); [|exact Hg].
    simpl in Hk. repeat (destruct Hk as [Hk|Hk]; [injection Hk as <- <-; cbn; in_list|]). destruct Hk.
  - destruct (OPT _ _ _ E6 _ _ Hg) as (sec & d & Ha & Hp). unfold parse_histogram in Hp.
    apply (GS _ _ _ _ Ha Hp (mkOpt k t false (if String.eqb k "stride" then Some Positive else if String.eqb k "write-stride" then Some Positive else if String.eqb k "reset" then Some AllPositive else None) VNone)); [|exact Hg].
    apply in_or_app. left. simpl in Hk. repeat (destruct Hk as [Hk|Hk]; [injection Hk as <- <-; cbn; in_list|]). destruct Hk.
  - destruct (OPT _ _ _ E6 _ _ Hg) as (sec & d & Ha & Hp). unfold parse_histogram in Hp. rewrite (proj2 H1 H1d) in Hp.
    apply (GS _ _ _ _ Ha Hp (mkOpt k t true (if String.eqb k "bins" then Some Positive else None) VNone)); [|exact Hg].
    apply in_or_app. right. simpl in Hk. repeat (destruct Hk as [Hk|Hk]; [injection Hk as <- <-; cbn; in_list|]). destruct Hk.
  - simpl in Hk. repeat (destruct Hk as [Hk|Hk]; [injection Hk as <- <-; destruct (Hl I)|]). destruct Hk.
  - destruct (OPT _ _ _ E7 _ _ Hg) as (sec & d & Ha & Hp). unfold parse_fes in Hp. destruct (negb _); [discriminate|].
    apply (GS _ _ _ _ Ha Hp (mkOpt k t (if String.eqb k "kt" then true else false) (if String.eqb k "kt" then Some Positive else if String.eqb k "stride" then Some Positive else if String.eqb k "write-stride" then Some Positive else None) VNone)); [|exact Hg].
    simpl in Hk. repeat (destruct Hk as [Hk|Hk]; [injection Hk as <- <-; cbn; in_list|]). destruct Hk.
  - destruct (PD _ Hn _ _ Hg) as (sec & st & d & Ha & Hp).
    apply (GS _ _ _ _ Ha Hp (mkOpt k t false (if String.eqb k "stride" then Some Positive else if String.eqb k "write-stride" then Some Positive else None) VNone)); [|exact Hg].
    apply in_or_app. left. simpl in Hk. repeat (destruct Hk as [Hk|Hk]; [injection Hk as <- <-; cbn; in_list|]). destruct Hk.
  - destruct (Hl I).
Qed.
End sections.
