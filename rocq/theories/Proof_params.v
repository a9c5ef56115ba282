(** Values of the options of an accepted input (C80) *)
From Coq Require Import Lia.
From Verif Require Import PyBase Model_xr Model_input Spec_input Model_setup Model_main Spec_main Spec_params Proof_input Proof_main Proof_main2.
Open Scope string_scope.
Open Scope Z_scope.

Section params.
Context (cv : conv) (secs : list (string * section)) (HP : percent_free secs).

Lemma entry_stated name sec opts d o : assoc name secs = Some sec -> parse_section cv sec opts = Ok d -> In o opts ->
  (forall o', In o' opts -> io_key o' = io_key o -> o' = o) ->
  io_compulsory o = true \/ io_default o = default_of name (io_key o) ->
  stated cv secs name (io_key o) (io_type o) (match assoc (io_key o) d with Some v => v | None => VNone end) /\
  (io_compulsory o = true -> exists text, given secs name (io_key o) text).
Proof.
  intros Ha H Hin Hu Hd. destruct (section_in _ _ _ _ _ H Hin Hu) as (v & Hv & ->).
  destruct (assoc (io_key o) sec) as [text|] eqn:E.
  - assert (G : given secs name (io_key o) text) by (exists sec; auto).
    split; [left; exists text; split; [exact G|]|intros _; eauto]. exact (plain_option_ok _ _ _ _ _ (HP _ _ Ha) Hv E).
  - assert (NG : not_given secs name (io_key o)).
    { intros text (s & Hs & Ht). congruence. }
    rewrite parse_option_eq, (plain_get _ _ (HP _ _ Ha)), E in Hv. cbn [option_map] in Hv.
    destruct (io_compulsory o); [discriminate|]. apply ok_inj in Hv. subst v. destruct Hd as [Hd|Hd]; [discriminate|].
    split; [right; split; [exact NG|exact Hd]|discriminate].
Qed.

Lemma given_type name sec o v text : assoc name secs = Some sec -> parse_option cv sec o = Ok v -> io_type o = KStr ->
  given secs name (io_key o) text -> v = VStr text.
Proof.
  intros Ha Hv Ht (s & Hs & Hk). rewrite Ha in Hs. injection Hs as <-.
  pose proof (plain_option_ok _ _ _ _ _ (HP _ _ Ha) Hv Hk) as Hc. rewrite Ht in Hc. inversion Hc. reflexivity.
Qed.

Context (c : config) (HC : parse_all cv secs = Ok c).

Lemma shape_ld : exists sec opts, assoc "ld" secs = Some sec /\ parse_section cv sec opts = Ok (c_ld c) /\
  (opts = ld_options /\ given secs "ld" "type" "overdamped" \/
   opts = (ld_options ++ [optc "kt" KFloat true Positive; optc "friction" KFloat true PositiveOrZero])%list /\
     given secs "ld" "type" "bussi-parinello").
Proof using All.
  destruct (parse_all_inv _ _ _ HC) as (s1 & s2 & s3 & A1 & A2 & A3 & E1 & _). exists s1.
  unfold parse_ld in E1. destruct (parse_option cv s1 type_option_ld) as [v|] eqn:E; cbn [bind] in E1; [|discriminate].
  destruct (vstr_is v "bussi-parinello") eqn:B; [|destruct (vstr_is v "overdamped") eqn:O; [|discriminate]]; cbn [bind] in E1;
    (eexists; split; [exact A1|]; split; [exact E1|]).
  - right. split; [reflexivity|]. exact (str_given _ _ HP _ _ _ _ _ _ A1 E B).
  - left. split; [reflexivity|]. exact (str_given _ _ HP _ _ _ _ _ _ A1 E O).
Qed.

Lemma shape_pot : exists sec po, assoc "potential" secs = Some sec /\
  parse_section cv sec (po ++ [opt "boundary-condition" KStr false])%list = Ok (c_potential c) /\
  (given secs "potential" "type" "polynomial" /\ one_dim cv secs /\
     po = [type_option_pot; n_dim_option; opt "coeffs" KFloats false; opt "min" KFloat true; opt "max" KFloat true] \/
   given secs "potential" "type" "polynomial" /\ ~ one_dim cv secs /\
     po = [type_option_pot; n_dim_option; opt "coeffs-file" KStr true; opt "min" KFloats true; opt "max" KFloats true] \/
   given secs "potential" "type" "mueller-brown" /\
     po = [type_option_pot; opt "scaling-factor" KFloat false; mkOpt "n_dim" KInt false None (VInt 2)]).
Proof using All.
  destruct (parse_all_inv _ _ _ HC) as (s1 & s2 & s3 & A1 & A2 & A3 & E1 & E2 & _). exists s2.
  unfold parse_potential in E2. destruct (parse_option cv s2 type_option_pot) as [v|] eqn:E; cbn [bind] in E2; [|discriminate].
  destruct (vstr_is v "polynomial") eqn:B; [|destruct (vstr_is v "mueller-brown") eqn:O; [|discriminate]]; cbn [bind] in E2.
  - pose proof (str_given _ _ HP _ _ _ _ _ _ A2 E B) as G.
    destruct (parse_option cv s2 n_dim_option) as [nd|] eqn:En; cbn [bind] in E2; [|discriminate].
    assert (Hn : vint_is nd 1 = true <-> one_dim cv secs) by (eapply (n_dim_one _ _ HP); [exact A2| |exact En]; reflexivity).
    destruct (vint_is nd 1); cbn [bind] in E2; (eexists; split; [exact A2|]; split; [exact E2|]).
    + left. split; [exact G|]. split; [apply Hn; reflexivity|reflexivity].
    + right. left. split; [exact G|]. split; [intro Ho; apply Hn in Ho; discriminate|reflexivity].
  - eexists. split; [exact A2|]. split; [exact E2|]. right. right. split; [|reflexivity].
    exact (str_given _ _ HP _ _ _ _ _ _ A2 E O).
Qed.

Lemma given_numbered name sec pre suf vs : assoc name secs = Some sec -> numbered_in_section sec pre suf = Ok vs ->
  (forall i, (i < length vs)%nat -> exists text, given secs name (prefixed pre (S i) suf) text) /\
  not_given secs name (prefixed pre (S (length vs)) suf).
Proof using All.
  intros Ha H. pose proof (numbered_section_spec sec pre suf) as S. rewrite H in S. destruct S as [S1 S2].
  rewrite plain_get in S2 by exact (HP _ _ Ha). split.
  - intros i Hi. destruct (nth_error vs i) as [v|] eqn:E; [|apply nth_error_None in E; lia].
    specialize (S1 _ _ E). rewrite plain_get in S1 by exact (HP _ _ Ha).
    destruct (assoc (prefixed pre (S i) suf) sec) as [t|] eqn:Et; [|discriminate]. exists t, sec. auto.
  - intros text (s & Hs & Hk). rewrite Ha in Hs. injection Hs as <-. rewrite Hk in S2. discriminate.
Qed.

Lemma shape_part : exists sec n po, assoc "particles" secs = Some sec /\
  parse_section cv sec ([optc "number" KInt true Positive; mkOpt "mass" KFloat false (Some Positive) (VFloat (Fin 1));
    opt "seed" KInt false; init_dist_option] ++ map (fun i => opt (prefixed "pos" (S i) "") KFloats true) (seq 0 n) ++ po)%list =
    Ok (c_particles c) /\
  (given secs "particles" "initial-distribution" "random-global" /\ n = O /\ po = [] \/
   ((given secs "particles" "initial-distribution" "random-pos" /\ po = [] \/
     given secs "particles" "initial-distribution" "fractions-pos" /\ po = [opt "fractions" KFloats true]) /\
    (forall i, (i < n)%nat -> exists text, given secs "particles" (prefixed "pos" (S i) "") text) /\
    not_given secs "particles" (prefixed "pos" (S n) ""))).
Proof using All.
  destruct (parse_all_inv _ _ _ HC) as (s1 & s2 & s3 & A1 & A2 & A3 & E1 & E2 & E3 & _). exists s3.
  unfold parse_particles in E3. destruct (parse_option cv s3 init_dist_option) as [v|] eqn:E; cbn [bind] in E3; [|discriminate].
  assert (G : forall s, vstr_is v s = true -> given secs "particles" "initial-distribution" s).
  { intros s Hs. exact (str_given_init _ _ HP _ _ _ A3 E Hs). }
  destruct (vstr_is v "random-pos") eqn:B1; [|destruct (vstr_is v "fractions-pos") eqn:B2]; cbn [orb bind] in E3.
  - destruct (numbered_in_section s3 "pos" "") as [vs|] eqn:En; cbn [bind] in E3; [|discriminate].
    assert (F : vstr_is v "fractions-pos" = false).
    { destruct v; try discriminate. cbn [vstr_is] in *. apply String.eqb_eq in B1. subst. reflexivity. }
    rewrite F in E3. exists (length vs), []. split; [exact A3|]. split; [exact E3|]. right.
    split; [left; auto|]. exact (given_numbered _ _ _ _ _ A3 En).
  - destruct (numbered_in_section s3 "pos" "") as [vs|] eqn:En; cbn [bind] in E3; [|discriminate].
    exists (length vs), [opt "fractions" KFloats true]. split; [exact A3|]. split; [exact E3|]. right.
    split; [right; auto|]. exact (given_numbered _ _ _ _ _ A3 En).
  - exists O, []. split; [exact A3|]. split; [exact E3|]. left. split; [|auto]. apply G.
    rewrite parse_option_eq in E. destruct (sec_get s3 (io_key init_dist_option)) as [[t|]|]; cbn in E; try discriminate.
    destruct (existsb (String.eqb t) ["random-global"; "random-pos"; "fractions-pos"]) eqn:X; cbn in X; rewrite X in E; [|discriminate].
    apply ok_inj in E. subst v. cbn [vstr_is] in *. rewrite B1, B2 in X. rewrite !Bool.orb_false_r in X. exact X.
Qed.

Lemma has_assoc name : has_section secs name = true -> exists sec, assoc name secs = Some sec.
Proof. unfold has_section. destruct (assoc name secs); [eauto|discriminate]. Qed.

Lemma optional_there name parse d : has_section secs name = true -> optional_section secs name parse = Ok d ->
  exists sec d', assoc name secs = Some sec /\ parse sec = Ok d' /\ d = Some d'.
Proof.
  intros Hs H. destruct (has_assoc _ Hs) as (sec & Ha). apply optional_inv in H. destruct H as [[_ H]|H]; [congruence|exact H].
Qed.

Lemma shape_bd : has_section secs "birth-death" = true -> exists sec d, assoc "birth-death" secs = Some sec /\ c_birth_death c = Some d /\
  parse_section cv sec
    ([optc "stride" KInt true Positive; opt "correction-variant" KStr false;
      opt "approximation-variant" KStr false; optc "exponential-factor" KFloat false Positive;
      mkOpt "recalculate-probabilities" KBool false None (VBool false);
      optc "stats-stride" KInt false Positive; opt "stats-filename" KStr false; opt "seed" KInt false] ++
     (if vint_is (get_dict (c_potential c) "n_dim") 1 then [optc "kernel-bandwidth" KFloat true Positive]
      else [optc "kernel-bandwidth" KFloats true AllPositive]))%list = Ok d.
Proof using All.
  intro Hs. destruct (parse_all_inv _ _ _ HC) as (s1 & s2 & s3 & A1 & A2 & A3 & E1 & E2 & E3 & E4 & _).
  destruct (optional_there _ _ _ Hs E4) as (sec & d & Ha & Hp & Hd). eauto.
Qed.
Lemma shape_traj : has_section secs "trajectories" = true -> exists sec d, assoc "trajectories" secs = Some sec /\ c_trajectories c = Some d /\
  parse_section cv sec
    [opt "filename" KStr false; optc "stride" KInt false Positive; opt "momentum" KBool false;
     optc "write-stride" KInt false Positive; opt "fmt" KStr false] = Ok d.
Proof using All.
  intro Hs. destruct (parse_all_inv _ _ _ HC) as (s1 & s2 & s3 & A1 & A2 & A3 & E1 & E2 & E3 & E4 & E5 & _).
  destruct (optional_there _ _ _ Hs E5) as (sec & d & Ha & Hp & Hd). eauto.
Qed.
Lemma shape_hist : has_section secs "histogram" = true -> exists sec d, assoc "histogram" secs = Some sec /\ c_histogram c = Some d /\
  parse_section cv sec
    ([optc "stride" KInt false Positive; optc "reset" KInts false AllPositive; opt "filename" KStr false;
      optc "write-stride" KInt false Positive; opt "fmt" KStr false] ++
     (if vint_is (get_dict (c_potential c) "n_dim") 1 then
        [opt "min" KFloat true; opt "max" KFloat true; optc "bins" KInt true Positive]
      else [opt "min" KFloats true; opt "max" KFloats true; optc "bins" KInts true AllPositive]))%list = Ok d.
Proof using All.
  intro Hs. destruct (parse_all_inv _ _ _ HC) as (s1 & s2 & s3 & A1 & A2 & A3 & E1 & E2 & E3 & E4 & E5 & E6 & _).
  destruct (optional_there _ _ _ Hs E6) as (sec & d & Ha & Hp & Hd). eauto.
Qed.
Lemma shape_fes : has_section secs "fes" = true -> exists sec d, assoc "fes" secs = Some sec /\ c_fes c = Some d /\
  parse_section cv sec
    [optc "kt" KFloat true Positive; optc "stride" KInt false Positive; opt "filename" KStr false;
     optc "write-stride" KInt false Positive; opt "fmt" KStr false; opt "plot-stride" KInt false;
     opt "plot-filename" KStr false; opt "plot-domain" KFloats false; opt "plot-title" KStr false] = Ok d.
Proof using All.
  intro Hs. destruct (parse_all_inv _ _ _ HC) as (s1 & s2 & s3 & A1 & A2 & A3 & E1 & E2 & E3 & E4 & E5 & E6 & E7 & _).
  destruct (optional_there _ _ _ Hs E7) as (sec & d & Ha & Hp & Hd). exists sec, d. split; [exact Ha|]. split; [exact Hd|].
  unfold parse_fes in Hp. destruct (negb _); [discriminate|exact Hp].
Qed.
Definition state_opts n := flat_map (fun i => [opt (prefixed "state" (S i) "-min") KFloats true; opt (prefixed "state" (S i) "-max") KFloats true]) (seq 0 n).
Lemma shape_out name : In name ["delta-f"; "particle-distribution"] -> has_section secs name = true ->
  exists sec d n, assoc name secs = Some sec /\ options_of c name = Some d /\ (0 < n)%nat /\
    parse_section cv sec (output_options ++ state_opts n)%list = Ok d /\
    forall suf, In suf ["-min"; "-max"] ->
      (forall i, (i < n)%nat -> exists text, given secs name (prefixed "state" (S i) suf) text) /\
      not_given secs name (prefixed "state" (S n) suf).
Proof using All.
  intros Hn Hs. destruct (parse_all_inv _ _ _ HC) as (s1 & s2 & s3 & A1 & A2 & A3 & E1 & E2 & E3 & E4 & E5 & E6 & E7 & E8 & E9).
  assert (X : exists sec d st, assoc name secs = Some sec /\ options_of c name = Some d /\ numbered_state_options sec = Ok st /\
     parse_section cv sec (output_options ++ st)%list = Ok d).
  { destruct Hn as [<-|[<-|[]]].
    - destruct (optional_there _ _ _ Hs E8) as (sec & d & Ha & Hp & Hd). unfold parse_delta_f in Hp. destruct (negb _); [discriminate|].
      apply bind_ok in Hp. destruct Hp as (st & Hst & Hp). exists sec, d, st. auto.
    - destruct (optional_there _ _ _ Hs E9) as (sec & d & Ha & Hp & Hd). unfold parse_particle_distribution in Hp.
      apply bind_ok in Hp. destruct Hp as (st & Hst & Hp). exists sec, d, st. auto. }
  destruct X as (sec & d & st & Ha & Hd & Hst & Hp). unfold numbered_state_options in Hst.
  destruct (numbered_in_section sec "state" "-min") as [mins|] eqn:M1; cbn [bind] in Hst; [|discriminate].
  destruct (numbered_in_section sec "state" "-max") as [maxs|] eqn:M2; cbn [bind] in Hst; [|discriminate].
  destruct (Nat.eqb_spec (length mins) (length maxs)) as [L|]; cbn [negb] in Hst; [|discriminate].
  exists sec, d, (length mins). split; [exact Ha|]. split; [exact Hd|].
  assert (P : st = state_opts (length mins) /\ (0 < length mins)%nat).
  { unfold state_opts. destruct (length mins); [discriminate|]. split; [|lia]. cbn [seq flat_map app] in Hst |- *. apply ok_inj in Hst. symmetry. exact Hst. }
  destruct P as [-> P]. split; [exact P|]. split; [exact Hp|].
  intros suf [<-|[<-|[]]]; [exact (given_numbered _ _ _ _ _ Ha M1)|rewrite L; exact (given_numbered _ _ _ _ _ Ha M2)].
Qed.
End params.


Section values.
Context (cv : conv) (secs : list (string * section)) (HP : percent_free secs) (c : config) (HC : parse_all cv secs = Ok c).

(** an option with its value, and whether it is compulsory *)
Definition good (name key : string) (t : ktype) (comp : bool) : Prop :=
  stated cv secs name key t (option_value c name key) /\ (comp = true -> exists text, given secs name key text).

Lemma good_in name sec opts d o : assoc name secs = Some sec -> options_of c name = Some d -> parse_section cv sec opts = Ok d ->
  In o opts -> (forall o', In o' opts -> io_key o' = io_key o -> o' = o) ->
  io_compulsory o = true \/ io_default o = default_of name (io_key o) ->
  good name (io_key o) (io_type o) (io_compulsory o).
Proof using All.
  intros Ha Ho H Hi Hu Hd. unfold good, option_value. rewrite Ho. exact (entry_stated cv secs HP _ _ _ _ _ Ha H Hi Hu Hd).
Qed.

(** an option found in a list of options with different keys; [more] has other keys *)
Lemma good_find name sec opts more d k o : assoc name secs = Some sec -> options_of c name = Some d -> parse_section cv sec (opts ++ more)%list = Ok d ->
  filter (fun o => String.eqb (io_key o) k) opts = [o] -> (forall o', In o' more -> io_key o' <> k) ->
  (if io_compulsory o then True else io_default o = default_of name k) ->
  good name k (io_type o) (io_compulsory o).
Proof using All.
  intros Ha Ho H Hf Hm Hd.
  assert (I : In o opts /\ io_key o = k).
  { assert (X : In o (filter (fun o => String.eqb (io_key o) k) opts)) by (rewrite Hf; left; reflexivity).
    apply filter_In in X. destruct X as [X1 X2]. apply String.eqb_eq in X2. auto. }
  destruct I as [I K]. rewrite <- K. apply (good_in _ _ _ _ _ Ha Ho H).
  - apply in_or_app. left. exact I.
  - intros o' Ho' Hk. rewrite K in Hk. apply in_app_or in Ho'. destruct Ho' as [Ho'|Ho']; [|destruct (Hm _ Ho' Hk)].
    assert (X : In o' (filter (fun o => String.eqb (io_key o) k) opts)).
    { apply filter_In. split; [exact Ho'|]. apply String.eqb_eq. exact Hk. }
    rewrite Hf in X. destruct X as [X|[]]. symmetry. exact X.
  - rewrite K. destruct (io_compulsory o); auto.
Qed.
Lemma good_found name sec opts d k o : assoc name secs = Some sec -> options_of c name = Some d -> parse_section cv sec opts = Ok d ->
  filter (fun o => String.eqb (io_key o) k) opts = [o] -> (if io_compulsory o then True else io_default o = default_of name k) ->
  good name k (io_type o) (io_compulsory o).
Proof using All.
  intros Ha Ho H Hf Hd. rewrite <- (app_nil_r opts) in H. apply (good_find _ _ _ _ _ _ _ Ha Ho H Hf); [intros ? []|exact Hd].
Qed.

Ltac each Hk := simpl in Hk; repeat (destruct Hk as [Hk|Hk]; [injection Hk as <- <- <-|]); [..|destruct Hk].
Ltac found A D H := match goal with |- good ?n ?k ?t ?b =>
  let G := fresh in pose proof (good_found n _ _ _ k _ A D H eq_refl) as G; cbn [io_type io_compulsory io_default opt optc type_option_pot n_dim_option type_option_ld] in G; apply G; first [exact I|reflexivity] end.
Ltac find_in A D H := match goal with |- good ?n ?k ?t ?b =>
  let G := fresh in pose proof (good_find n _ _ _ _ k _ A D H eq_refl) as G; cbn [io_type io_compulsory io_default opt optc init_dist_option] in G; apply G end.

Lemma given_unique name key s t : given secs name key s -> given secs name key t -> s = t.
Proof. intros (a & A & B) (a' & A' & B'). congruence. Qed.
Lemma good_weak name k t : good name k t true -> good name k t false.
Proof. intros [H _]. split; [exact H|discriminate]. Qed.

Lemma good_ld k t b : In (k, t, b) [("type", KStr, false); ("timestep", KFloat, true); ("n_steps", KInt, true); ("seed", KInt, false)] -> good "ld" k t b.
Proof using All.
  intro Hk. destruct (shape_ld cv secs HP c HC) as (sec & opts & A & H & [[-> _]|[-> _]]); each Hk; found A (eq_refl (Some (c_ld c))) H.
Qed.
Lemma good_ld_bp k t b : given secs "ld" "type" "bussi-parinello" -> In (k, t, b) [("kt", KFloat, true); ("friction", KFloat, true)] -> good "ld" k t b.
Proof using All.
  intros G Hk. destruct (shape_ld cv secs HP c HC) as (sec & opts & A & H & [[-> G']|[-> _]]).
  - pose proof (given_unique _ _ _ _ G G'). discriminate.
  - each Hk; found A (eq_refl (Some (c_ld c))) H.
Qed.
Lemma good_pot k t b : In (k, t, b) [("type", KStr, true); ("boundary-condition", KStr, false); ("n_dim", KInt, false)] -> good "potential" k t b.
Proof using All.
  intro Hk. destruct (shape_pot cv secs HP c HC) as (sec & po & A & H & [(_ & _ & ->)|[(_ & _ & ->)|(_ & ->)]]); each Hk;
    first [found A (eq_refl (Some (c_potential c))) H | apply good_weak; found A (eq_refl (Some (c_potential c))) H].
Qed.
Lemma good_pot_1 k t b : given secs "potential" "type" "polynomial" -> one_dim cv secs ->
  In (k, t, b) [("coeffs", KFloats, false); ("min", KFloat, true); ("max", KFloat, true); ("n_dim", KInt, true)] -> good "potential" k t b.
Proof using All.
  intros G H1 Hk. destruct (shape_pot cv secs HP c HC) as (sec & po & A & H & [(_ & _ & ->)|[(_ & H2 & ->)|(G' & ->)]]).
  - each Hk; found A (eq_refl (Some (c_potential c))) H.
  - contradiction.
  - pose proof (given_unique _ _ _ _ G G'). discriminate.
Qed.
Lemma good_pot_n k t b : given secs "potential" "type" "polynomial" -> ~ one_dim cv secs ->
  In (k, t, b) [("coeffs-file", KStr, true); ("min", KFloats, true); ("max", KFloats, true); ("n_dim", KInt, true)] -> good "potential" k t b.
Proof using All.
  intros G H1 Hk. destruct (shape_pot cv secs HP c HC) as (sec & po & A & H & [(_ & H2 & ->)|[(_ & _ & ->)|(G' & ->)]]).
  - contradiction.
  - each Hk; found A (eq_refl (Some (c_potential c))) H.
  - pose proof (given_unique _ _ _ _ G G'). discriminate.
Qed.
Lemma good_pot_mb k t b : given secs "potential" "type" "mueller-brown" -> In (k, t, b) [("scaling-factor", KFloat, false)] -> good "potential" k t b.
Proof using All.
  intros G Hk. destruct (shape_pot cv secs HP c HC) as (sec & po & A & H & [(G' & _ & ->)|[(G' & _ & ->)|(_ & ->)]]).
  - pose proof (given_unique _ _ _ _ G G'). discriminate.
  - pose proof (given_unique _ _ _ _ G G'). discriminate.
  - each Hk; found A (eq_refl (Some (c_potential c))) H.
Qed.

Lemma prefixed_first pre suf i k a s : pre = String a s -> k = "" \/ (exists b t, k = String b t /\ a <> b) -> prefixed pre i suf <> k.
Proof. intros -> [-> | (b & t & -> & Hn)]; [discriminate|]. unfold prefixed. cbn. congruence. Qed.

Lemma good_part k t b : In (k, t, b) [("number", KInt, true); ("mass", KFloat, false); ("seed", KInt, false); ("initial-distribution", KStr, true)] ->
  good "particles" k t b.
Proof using All.
  intro Hk. destruct (shape_part cv secs HP c HC) as (sec & n & po & A & H & SH).
  assert (M : forall o', In o' (map (fun i => opt (prefixed "pos" (S i) "") KFloats true) (seq 0 n) ++ po)%list ->
     io_key o' <> "number" /\ io_key o' <> "mass" /\ io_key o' <> "seed" /\ io_key o' <> "initial-distribution").
  { intros o' Ho'. apply in_app_or in Ho'. destruct Ho' as [Ho'|Ho'].
    - apply in_numbered in Ho'. destruct Ho' as (i & ->). cbn [io_key opt]. repeat split; discriminate.
    - destruct SH as [(_ & _ & ->)|([[_ ->]|[_ ->]] & _)]; [destruct Ho'|destruct Ho'|]. destruct Ho' as [<-|[]]. repeat split; discriminate. }
  each Hk; (find_in A (eq_refl (options_of c "particles")) H; [intros o' Ho'; apply M in Ho'; tauto|first [exact I|reflexivity]]).
Qed.
Lemma good_pos i : given secs "particles" "initial-distribution" "random-pos" \/ given secs "particles" "initial-distribution" "fractions-pos" ->
  (forall j, (j <= i)%nat -> exists text, given secs "particles" (prefixed "pos" (S j) "") text) ->
  good "particles" (prefixed "pos" (S i) "") KFloats true.
Proof using All.
  intros G Hi. destruct (shape_part cv secs HP c HC) as (sec & n & po & A & H & SH).
  assert (Hn : (i < n)%nat).
  { destruct SH as [(G' & _)|(_ & _ & N)].
    - exfalso. destruct G as [G|G]; pose proof (given_unique _ _ _ _ G G'); discriminate.
    - destruct (Nat.lt_ge_cases i n) as [L|L]; [exact L|]. destruct (Hi n L) as (text & X). destruct (N _ X). }
  apply (good_in "particles" sec _ _ (opt (prefixed "pos" (S i) "") KFloats true) A eq_refl H).
  - apply in_or_app. right. apply in_or_app. left. apply in_map_iff. exists i. split; [reflexivity|]. apply in_seq. lia.
  - cbn [io_key opt]. intros o' Ho' K. apply in_app_or in Ho'. destruct Ho' as [Ho'|Ho'].
    + exfalso. simpl in Ho'. repeat (destruct Ho' as [<-|Ho']; [discriminate K|]). destruct Ho'.
    + apply in_app_or in Ho'. destruct Ho' as [Ho'|Ho'].
      * apply in_numbered in Ho'. destruct Ho' as (j & ->). cbn [io_key opt] in K. apply prefixed_inj in K. injection K as ->. reflexivity.
      * exfalso. destruct SH as [(_ & _ & ->)|([[_ ->]|[_ ->]] & _)]; [destruct Ho'|destruct Ho'|]. destruct Ho' as [<-|[]]. discriminate K.
  - left. reflexivity.
Qed.
Lemma good_fractions : given secs "particles" "initial-distribution" "fractions-pos" -> good "particles" "fractions" KFloats true.
Proof using All.
  intro G. destruct (shape_part cv secs HP c HC) as (sec & n & po & A & H & SH).
  destruct SH as [(G' & _)|([[G' _]|[_ ->]] & _)]; try (pose proof (given_unique _ _ _ _ G G'); discriminate).
  apply (good_in "particles" sec _ _ (opt "fractions" KFloats true) A eq_refl H).
  - apply in_or_app. right. apply in_or_app. right. left. reflexivity.
  - cbn [io_key opt]. intros o' Ho' K. apply in_app_or in Ho'. destruct Ho' as [Ho'|Ho'].
    + exfalso. simpl in Ho'. repeat (destruct Ho' as [<-|Ho']; [discriminate K|]). destruct Ho'.
    + apply in_app_or in Ho'. destruct Ho' as [Ho'|Ho'].
      * exfalso. apply in_numbered in Ho'. destruct Ho' as (j & ->). discriminate K.
      * destruct Ho' as [<-|[]]. reflexivity.
  - left. reflexivity.
Qed.

Lemma dim_one : vint_is (get_dict (c_potential c) "n_dim") 1 = true <-> one_dim cv secs.
Proof using All.
  destruct (parse_all_inv _ _ _ HC) as (s1 & s2 & s3 & A1 & A2 & A3 & E1 & E2 & _). exact (pot_one_dim _ _ HP _ _ A2 E2).
Qed.
Lemma good_bd k t b : has_section secs "birth-death" = true ->
  In (k, t, b) [("stride", KInt, true); ("correction-variant", KStr, false); ("approximation-variant", KStr, false);
      ("exponential-factor", KFloat, false); ("recalculate-probabilities", KBool, false); ("stats-stride", KInt, false);
      ("stats-filename", KStr, false); ("seed", KInt, false)] -> good "birth-death" k t b.
Proof using All.
  intros Hs Hk. destruct (shape_bd cv secs HP c HC Hs) as (sec & d & A & D & H). change (c_birth_death c) with (options_of c "birth-death") in D.
  destruct (vint_is (get_dict (c_potential c) "n_dim") 1); each Hk; found A D H.
Qed.
Lemma good_bw1 : has_section secs "birth-death" = true -> one_dim cv secs -> good "birth-death" "kernel-bandwidth" KFloat true.
Proof using All.
  intros Hs H1. destruct (shape_bd cv secs HP c HC Hs) as (sec & d & A & D & H). change (c_birth_death c) with (options_of c "birth-death") in D.
  rewrite (proj2 dim_one H1) in H. found A D H.
Qed.
Lemma good_bwn : has_section secs "birth-death" = true -> ~ one_dim cv secs -> good "birth-death" "kernel-bandwidth" KFloats true.
Proof using All.
  intros Hs H1. destruct (shape_bd cv secs HP c HC Hs) as (sec & d & A & D & H). change (c_birth_death c) with (options_of c "birth-death") in D.
  destruct (vint_is (get_dict (c_potential c) "n_dim") 1) eqn:E; [apply dim_one in E; contradiction|]. found A D H.
Qed.
Lemma good_traj k t b : has_section secs "trajectories" = true ->
  In (k, t, b) [("filename", KStr, false); ("stride", KInt, false); ("momentum", KBool, false); ("write-stride", KInt, false); ("fmt", KStr, false)] ->
  good "trajectories" k t b.
Proof using All.
  intros Hs Hk. destruct (shape_traj cv secs HP c HC Hs) as (sec & d & A & D & H). change (c_trajectories c) with (options_of c "trajectories") in D.
  each Hk; found A D H.
Qed.
Lemma good_hist k t b : has_section secs "histogram" = true ->
  In (k, t, b) [("stride", KInt, false); ("reset", KInts, false); ("filename", KStr, false); ("write-stride", KInt, false); ("fmt", KStr, false)] ->
  good "histogram" k t b.
Proof using All.
  intros Hs Hk. destruct (shape_hist cv secs HP c HC Hs) as (sec & d & A & D & H). change (c_histogram c) with (options_of c "histogram") in D.
  destruct (vint_is (get_dict (c_potential c) "n_dim") 1); each Hk; found A D H.
Qed.
Lemma good_hist1 k t b : has_section secs "histogram" = true -> one_dim cv secs ->
  In (k, t, b) [("min", KFloat, true); ("max", KFloat, true); ("bins", KInt, true)] -> good "histogram" k t b.
Proof using All.
  intros Hs H1 Hk. destruct (shape_hist cv secs HP c HC Hs) as (sec & d & A & D & H). change (c_histogram c) with (options_of c "histogram") in D.
  rewrite (proj2 dim_one H1) in H. each Hk; found A D H.
Qed.
Lemma good_histn k t b : has_section secs "histogram" = true -> ~ one_dim cv secs ->
  In (k, t, b) [("min", KFloats, true); ("max", KFloats, true); ("bins", KInts, true)] -> good "histogram" k t b.
Proof using All.
  intros Hs H1 Hk. destruct (shape_hist cv secs HP c HC Hs) as (sec & d & A & D & H). change (c_histogram c) with (options_of c "histogram") in D.
  destruct (vint_is (get_dict (c_potential c) "n_dim") 1) eqn:E; [apply dim_one in E; contradiction|]. each Hk; found A D H.
Qed.
Lemma good_fes k t b : has_section secs "fes" = true ->
  In (k, t, b) [("kt", KFloat, true); ("stride", KInt, false); ("filename", KStr, false); ("write-stride", KInt, false); ("fmt", KStr, false);
      ("plot-stride", KInt, false); ("plot-filename", KStr, false); ("plot-domain", KFloats, false); ("plot-title", KStr, false)] ->
  good "fes" k t b.
Proof using All.
  intros Hs Hk. destruct (shape_fes cv secs HP c HC Hs) as (sec & d & A & D & H). change (c_fes c) with (options_of c "fes") in D.
  each Hk; found A D H.
Qed.
Lemma in_state_opts n o : In o (state_opts n) -> exists i, (i < n)%nat /\
  (o = opt (prefixed "state" (S i) "-min") KFloats true \/ o = opt (prefixed "state" (S i) "-max") KFloats true).
Proof.
  unfold state_opts. intro H. apply in_flat_map in H. destruct H as (i & Hi & Ho). apply in_seq in Hi. exists i. split; [lia|].
  destruct Ho as [<-|[<-|[]]]; auto.
Qed.
Lemma default_out name k : In name ["delta-f"; "particle-distribution"] -> default_of name k = VNone.
Proof. intros [<-|[<-|[]]]; reflexivity. Qed.
Lemma good_out name k t b : In name ["delta-f"; "particle-distribution"] -> has_section secs name = true ->
  In (k, t, b) [("stride", KInt, false); ("filename", KStr, false); ("write-stride", KInt, false); ("fmt", KStr, false)] -> good name k t b.
Proof using All.
  intros Hn Hs Hk. destruct (shape_out cv secs HP c HC name Hn Hs) as (sec & d & n & A & D & _ & H & _).
  assert (M : forall o', In o' (state_opts n) -> io_key o' <> "stride" /\ io_key o' <> "filename" /\ io_key o' <> "write-stride" /\ io_key o' <> "fmt").
  { intros o' Ho'. apply in_state_opts in Ho'. destruct Ho' as (i & _ & [-> | ->]); repeat split; discriminate. }
  each Hk; (find_in A D H; [intros o' Ho'; apply M in Ho'; tauto|symmetry; apply default_out; exact Hn]).
Qed.
Lemma min_not_max : forall a b : string, a ++ "-min" <> b ++ "-max".
Proof.
  induction a as [|x a IH]; intros [|y b] E; cbn in E; try discriminate E.
  - injection E as _ E. pose proof (f_equal String.length E) as L. rewrite length_append in L. cbn in L.
    repeat (destruct b as [|? b]; cbn in E; try discriminate E; try (cbn in L; lia)).
  - injection E as _ E. pose proof (f_equal String.length E) as L. rewrite length_append in L. cbn in L.
    repeat (destruct a as [|? a]; cbn in E; try discriminate E; try (cbn in L; lia)).
  - injection E as _ E. exact (IH _ E).
Qed.
Lemma good_state name suf i : In name ["delta-f"; "particle-distribution"] -> has_section secs name = true -> In suf ["-min"; "-max"] ->
  (forall j, (j <= i)%nat -> exists text, given secs name (prefixed "state" (S j) suf) text) ->
  good name (prefixed "state" (S i) suf) KFloats true.
Proof using All.
  intros Hn Hs Hsuf Hi. destruct (shape_out cv secs HP c HC name Hn Hs) as (sec & d & n & A & D & _ & H & N).
  destruct (N _ Hsuf) as [_ N2].
  assert (L : (i < n)%nat).
  { destruct (Nat.lt_ge_cases i n) as [L|L]; [exact L|]. destruct (Hi n L) as (text & X). destruct (N2 _ X). }
  apply (good_in name sec _ _ (opt (prefixed "state" (S i) suf) KFloats true) A D H).
  - apply in_or_app. right. unfold state_opts. apply in_flat_map. exists i. split; [apply in_seq; lia|].
    destruct Hsuf as [<-|[<-|[]]]; [left|right; left]; reflexivity.
  - cbn [io_key opt]. intros o' Ho' K. apply in_app_or in Ho'. destruct Ho' as [Ho'|Ho'].
    + exfalso. simpl in Ho'. repeat (destruct Ho' as [<-|Ho']; [discriminate K|]). destruct Ho'.
    + apply in_state_opts in Ho'. destruct Ho' as (j & _ & [-> | ->]); cbn [io_key opt] in K |- *; destruct Hsuf as [<-|[<-|[]]].
      * apply prefixed_inj in K. injection K as ->. reflexivity.
      * exfalso. unfold prefixed in K. apply append_inj_l in K. exact (min_not_max _ _ K).
      * exfalso. unfold prefixed in K. apply append_inj_l in K. exact (min_not_max _ _ (eq_sym K)).
      * apply prefixed_inj in K. injection K as ->. reflexivity.
  - left. reflexivity.
Qed.

Ltac widen Hk := simpl in Hk; repeat (destruct Hk as [Hk|Hk]; [injection Hk as <- <-|]); [..|destruct Hk].
Lemma good_stated name k t b : good name k t b -> stated cv secs name k t (option_value c name k).
Proof. intros [H _]. exact H. Qed.
Lemma option_values name key t : has_section secs name = true -> option_of cv secs name key t -> in_sequence secs name key ->
  stated cv secs name key t (option_value c name key).
Proof using All.
  intros Hs Ho Hq.
  destruct Ho as [k t Hk|k t Hb Hk|k t Hk|k t Hb H1d Hk|k t Hb H1d Hk|k t Hb Hk|k t Hk|k Hk Hb|Hb|k t Hk|H1d|H1d|k t Hk|k t Hk|k t H1d Hk|k t H1d Hk|k t Hk|name k t Hn Hk|name k Hn Hk].
  - widen Hk; eapply good_stated, good_ld; in_list.
  - widen Hk; eapply good_stated, good_ld_bp; try exact Hb; in_list.
  - widen Hk; eapply good_stated, good_pot; in_list.
  - widen Hk; eapply good_stated, good_pot_1; try exact Hb; try exact H1d; in_list.
  - widen Hk; eapply good_stated, good_pot_n; try exact Hb; try exact H1d; in_list.
  - widen Hk; eapply good_stated, good_pot_mb; try exact Hb; in_list.
  - widen Hk; eapply good_stated, good_part; in_list.
  - destruct Hk as (i & ->). eapply good_stated, good_pos; [exact Hb|]. apply (Hq "pos" "" i); [in_list|reflexivity].
  - eapply good_stated, good_fractions. exact Hb.
  - widen Hk; eapply good_stated, good_bd; try exact Hs; in_list.
  - eapply good_stated, good_bw1; assumption.
  - eapply good_stated, good_bwn; assumption.
  - widen Hk; eapply good_stated, good_traj; try exact Hs; in_list.
  - widen Hk; eapply good_stated, good_hist; try exact Hs; in_list.
  - widen Hk; eapply good_stated, good_hist1; try exact Hs; try exact H1d; in_list.
  - widen Hk; eapply good_stated, good_histn; try exact Hs; try exact H1d; in_list.
  - widen Hk; eapply good_stated, good_fes; try exact Hs; in_list.
  - widen Hk; eapply good_stated, good_out; try exact Hn; try exact Hs; in_list.
  - destruct Hk as [(i & ->)|(i & ->)]; (eapply good_stated, good_state; [exact Hn|exact Hs|in_list|]).
    + apply (Hq "state" "-min" i); [in_list|reflexivity].
    + apply (Hq "state" "-max" i); [in_list|reflexivity].
Qed.

Lemma good_given name k t : good name k t true -> exists text, given secs name k text.
Proof. intros [_ H]. exact (H eq_refl). Qed.
Ltac widen1 Hk := simpl in Hk; repeat (destruct Hk as [<-|Hk]); [..|destruct Hk].
Lemma required_given name key : required cv secs name key -> exists text, given secs name key text.
Proof using All.
  intro R. destruct R as [k Hk|k G Hk| |k G Hk|G H1|k Hk|G|k Hs Hk|k Hs Hk|Hs|name k Hn Hs Hk].
  - widen1 Hk; [|eapply good_given, good_ld; in_list|eapply good_given, good_ld; in_list].
    destruct (shape_ld cv secs HP c HC) as (sec & opts & A & H & [[_ G]|[_ G]]); eauto.
  - widen1 Hk; eapply good_given, good_ld_bp; try exact G; in_list.
  - eapply good_given, good_pot; in_list.
  - destruct (shape_pot cv secs HP c HC) as (sec & po & A & H & [(_ & H1 & _)|[(_ & H1 & _)|(G' & _)]]).
    + widen1 Hk; eapply good_given, good_pot_1; try exact G; try exact H1; in_list.
    + widen1 Hk; eapply good_given, good_pot_n; try exact G; try exact H1; in_list.
    + pose proof (given_unique _ _ _ _ G G'). discriminate.
  - eapply good_given, good_pot_n; try exact G; try exact H1; in_list.
  - widen1 Hk; eapply good_given, good_part; in_list.
  - eapply good_given, good_fractions. exact G.
  - widen1 Hk; [eapply good_given, good_bd; try exact Hs; in_list|].
    destruct (vint_is (get_dict (c_potential c) "n_dim") 1) eqn:E.
    + eapply good_given, good_bw1; [exact Hs|]. apply dim_one. exact E.
    + eapply good_given, good_bwn; [exact Hs|]. intro X. apply dim_one in X. congruence.
  - destruct (vint_is (get_dict (c_potential c) "n_dim") 1) eqn:E.
    + widen1 Hk; (eapply good_given, good_hist1; [exact Hs|apply dim_one; exact E|in_list]).
    + widen1 Hk; (eapply good_given, good_histn; [exact Hs|intro X; apply dim_one in X; congruence|in_list]).
  - eapply good_given, good_fes; try exact Hs; in_list.
  - destruct (shape_out cv secs HP c HC name Hn Hs) as (sec & d & n & A & D & P & H & N).
    widen1 Hk.
    + destruct (N "-min") as [N1 _]; [in_list|]. exact (N1 0%nat P).
    + destruct (N "-max") as [N1 _]; [in_list|]. exact (N1 0%nat P).
Qed.
End values.
