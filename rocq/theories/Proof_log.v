(** Proofs for C72 *)
From Coq Require Import Lia ZArith.
From Verif Require Import PyBase Model_xr Model_input Model_dyn Model_hist Model_histaction Model_setup Model_main Model_warn Spec_input Spec_main Spec_whole Spec_warn
  Proof_base Proof_input Proof_setup2 Proof_main Proof_main2 Proof_whole Proof_whole2 Proof_warn2.
Open Scope string_scope.
Open Scope Z_scope.
Open Scope list_scope.
Ltac Zify.zify_post_hook ::= idtac.

Lemma init_logger_names level : In (init_logger level) [CRITICAL; ERROR; WARNING; INFO; DEBUG] /\ (init_logger level = CRITICAL <-> lower level = "critical").
Proof.
  unfold init_logger. cbn [assoc]. destruct (String.eqb_spec "critical" (lower level)) as [<-|N]; [split; [now left|tauto]|].
  repeat match goal with |- context [if String.eqb ?a ?b then _ else _] => destruct (String.eqb a b) end; (split; [cbn; tauto|]); (split; [intro X; discriminate X|congruence]).
Qed.
Lemma shown_error level log : lower level <> "critical" -> In LExit log -> In LExit (shown level log).
Proof.
  intros H Hi. unfold shown. apply filter_In. split; [exact Hi|]. destruct (init_logger_names level) as [[X|[X|[X|[X|[X|[]]]]]] C]; rewrite <- X; try reflexivity.
  exfalso. apply H, C. now rewrite <- X.
Qed.
Lemma shown_critical level log : lower level = "critical" -> shown level log = [].
Proof.
  intro H. apply init_logger_names in H. unfold shown. rewrite H. induction log as [|m l IH]; [reflexivity|]. cbn [filter]. destruct m; exact IH.
Qed.

Lemma level_warnings level : init_logger level <= WARNING <-> shows_warnings level.
Proof.
  unfold init_logger, shows_warnings, CRITICAL, ERROR, WARNING, INFO, DEBUG. cbn [assoc In].
  repeat match goal with |- context [String.eqb ?a ?b] => destruct (String.eqb_spec a b) as [<-|?]; [split; [first [intro; lia|intros _ [X|[X|[]]]; discriminate X]|first [intros _; lia|intro X; exfalso; apply X; tauto]]|] end.
  split; [intros _ [X|[X|[]]]; congruence|intros _; lia].
Qed.
Lemma level_infos level : init_logger level <= INFO <-> shows_infos level.
Proof.
  unfold init_logger, shows_infos, CRITICAL, ERROR, WARNING, INFO, DEBUG. cbn [assoc In].
  repeat match goal with |- context [String.eqb ?a ?b] => destruct (String.eqb_spec a b) as [<-|?]; [split; [first [intro; lia|intros _; tauto]|first [intros _; lia|intros [X|[X|[]]]; discriminate X]]|] end.
  split; [intro; lia|intros [X|[X|[]]]; congruence].
Qed.
Lemma level_errors level : init_logger level <= ERROR <-> shows_errors level.
Proof.
  unfold shows_errors. destruct (init_logger_names level) as [[X|[X|[X|[X|[X|[]]]]]] C]; rewrite <- X in *; unfold CRITICAL, ERROR, WARNING, INFO, DEBUG in *;
    (split; [intros L E; apply C in E; lia|intro N; first [lia|exfalso; apply N, C; reflexivity]]).
Qed.
(** what is shown of a log *)
Lemma shown_levels level log m : In m (shown level log) <->
  In m log /\ match m with LExit => shows_errors level | LFesStride => shows_warnings level | LReset _ => shows_infos level end.
Proof.
  unfold shown. rewrite filter_In, Z.leb_le. destruct m; cbn [level_of].
  - now rewrite level_errors.
  - now rewrite level_warnings.
  - now rewrite level_infos.
Qed.
Lemma shown_level level log : (forall m, In m (shown level log) <->
    In m log /\ match m with LExit => shows_errors level | LFesStride => shows_warnings level | LReset _ => shows_infos level end) /\
    exists P, shown level log = filter P log.
Proof. split; [intro m; apply shown_levels|]. unfold shown. eexists. reflexivity. Qed.

(** every exit with status 1 is explained, unless the level is critical *)
Lemma exit_explained e cv file level : main e cv file = Exit1 -> lower level <> "critical" -> exists log, main_log e cv file = Some log /\ In LExit (shown level log).
Proof. intros H N. unfold main_log. rewrite H. eexists. split; [reflexivity|]. apply shown_error; [exact N|now left]. Qed.
Lemma exit_silent : exists e cv file log, main e cv file = Exit1 /\ main_log e cv file = Some log /\ shown "critical" log = [].
Proof. exists (demo_env 1%nat 2%nat 3%nat), demo_conv, None, [LExit]. split; [reflexivity|]. split; reflexivity. Qed.

(** ** runs that finish *)
Lemma reset_log (P : Z -> bool) l : flat_map (fun k => if P k then [LReset k] else []) l = map LReset (filter P l).
Proof. induction l as [|k l IH]; [reflexivity|]. cbn [flat_map filter]. rewrite IH. destruct (P k); reflexivity. Qed.

Lemma when_stage e o a setup (s s' : list action * world (e_rng e)) : when e o a setup s = Ok s' ->
  s' = s \/ exists d w, setup d (snd s) = Ok w /\ s' = (fst s ++ [a], w).
Proof.
  unfold when. destruct o as [[|kv d]|]; intro H; try (apply ok_inj in H; subst; now left).
  apply bind_ok in H. destruct H as (w & E & H). apply ok_inj in H. subst s'. right. eauto.
Qed.
Lemma hist_listed e c w1 acts w0 : setup_dynamics e c = Ok w1 -> setup_actions e c w1 = Ok (acts, w0) -> In AHistogram acts <-> w_hist w0 <> None.
Proof.
  intros H1 H. assert (N : w_hist w1 = None).
  { unfold setup_dynamics in H1. binds H1. apply ok_inj in H1. now rewrite <- H1. }
  unfold setup_actions in H. cbv zeta in H.
  set (J := fun s : list action * world (e_rng e) => In AHistogram (fst s) <-> w_hist (snd s) <> None).
  assert (J0 : J ([ALd], w1)).
  { unfold J. cbn [fst snd In]. rewrite N. split; [intros [X|[]]; discriminate X|congruence]. }
  assert (K : forall o a setup s s', when e o a setup s = Ok s' -> J s -> a <> AHistogram -> (forall d w w', setup d w = Ok w' -> w_hist w' = w_hist w) -> J s').
  { intros o a setup s s' Hw Js Na Hs. apply when_stage in Hw. destruct Hw as [->|(d & w & E & ->)]; [exact Js|]. unfold J in *. cbn [fst snd]. rewrite (Hs _ _ _ E), <- Js.
    rewrite in_app_iff. cbn [In]. split; [intros [?|[?|[]]]; [assumption|congruence]|now left]. }
  apply bind_ok in H. destruct H as (s1 & S1 & H). apply (K _ _ _ _ _ S1) in J0; [|discriminate|intros d w w' X; binds X; apply ok_inj in X; now rewrite <- X].
  apply bind_ok in H. destruct H as (s2 & S2 & H). apply (K _ _ _ _ _ S2) in J0; [|discriminate|intros d w w' X; binds X; apply ok_inj in X; now rewrite <- X].
  apply bind_ok in H. destruct H as (s3 & S3 & H).
  assert (J3 : J s3).
  { apply when_stage in S3. destruct S3 as [->|(d & w & E & ->)]; [exact J0|]. unfold J. cbn [fst snd]. binds E. apply ok_inj in E. rewrite <- E. cbn [set_hist w_hist].
    rewrite in_app_iff. split; [discriminate|]. intros _. right. now left. }
  apply bind_ok in H. destruct H as (s4 & S4 & H). apply (K _ _ _ _ _ S4) in J3; [|discriminate|intros d w w' X; binds X; apply ok_inj in X; now rewrite <- X].
  apply bind_ok in H. destruct H as (s5 & S5 & H). apply (K _ _ _ _ _ S5) in J3; [|discriminate|intros d w w' X; binds X; apply ok_inj in X; now rewrite <- X].
  apply (K _ _ _ _ _ H) in J3; [|discriminate|intros d w w' X; binds X; apply ok_inj in X; now rewrite <- X]. exact J3.
Qed.

Lemma run_logs {rng} (w : world rng) k acts : NoDup acts ->
  flat_map (run_log w k) acts =
  if existsb (fun a => match a with AHistogram => true | _ => false end) acts
  then match w_hist w with Some h => if existsb (Z.eqb k) (ha_reset h) then [LReset k] else [] | None => [] end else [].
Proof.
  induction 1 as [|a acts Na _ IH]; [reflexivity|]. cbn [flat_map existsb]. rewrite IH. clear IH.
  assert (E : a = AHistogram -> existsb (fun a => match a with AHistogram => true | _ => false end) acts = false).
  { intros ->. apply Bool.not_true_iff_false. intro X. apply existsb_exists in X. destruct X as (b & Hb & Eb). destruct b; try discriminate. contradiction. }
  destruct a; cbn [run_log orb app]; try reflexivity. rewrite (E eq_refl). rewrite app_nil_r. reflexivity.
Qed.

Lemma finished_log e cv secs acts n w0 w level : set_up e cv secs acts n w0 -> main e cv (Some (Ok secs)) = Finished w ->
  exists log, main_log e cv (Some (Ok secs)) = Some log /\ ~ In LExit log /\
    (In LFesStride (shown level log) <-> shows_warnings level /\ In WFesStride (setup_warnings w0)) /\
    (forall k, In (LReset k) (shown level log) <-> shows_infos level /\ 1 <= k <= n /\ exists h0, w_hist w0 = Some h0 /\ In k (ha_reset h0)) /\
    NoDup (shown level log).
Proof.
  intros HS HF. pose proof (main_of_setup _ _ _ _ _ _ HS) as (Ea & _). destruct HS as (c & w1 & Hp & H1 & Ha & Hn).
  pose proof (hist_listed _ _ _ _ _ H1 Ha) as HL. pose proof (configured_nodup secs) as Nd. rewrite <- Ea in Nd.
  unfold main_log. rewrite HF. cbn [read_input bind]. rewrite Hp. rewrite H1. cbn [bind]. rewrite Ha. cbn [bind].
  assert (Hn' : v_int (get_dict (c_ld c) "n_steps") = Ok n) by (unfold get_dict; rewrite Hn; reflexivity). rewrite Hn'. cbn [bind].
  eexists. split; [reflexivity|].
  assert (L : forall k, flat_map (run_log w0 k) acts = match w_hist w0 with Some h => if existsb (Z.eqb k) (ha_reset h) then [LReset k] else [] | None => [] end).
  { intro k. rewrite run_logs by exact Nd. destruct (existsb _ acts) eqn:Ex; [reflexivity|]. destruct (w_hist w0) eqn:Eh; [|reflexivity]. exfalso.
    assert (Hi : In AHistogram acts) by (apply HL; discriminate). apply Bool.not_true_iff_false in Ex. apply Ex. apply existsb_exists. exists AHistogram. now split. }
  rewrite (flat_map_ext _ _ L). clear L.
  set (rest := flat_map _ (zrange 1 (n + 1))).
  assert (Rs : exists P : Z -> bool, rest = map LReset (filter P (zrange 1 (n + 1))) /\ forall k, P k = true <-> exists h0, w_hist w0 = Some h0 /\ In k (ha_reset h0)).
  { unfold rest. clear rest. destruct (w_hist w0) as [h|].
    - exists (fun k => existsb (Z.eqb k) (ha_reset h)). split; [apply reset_log|]. intro k. rewrite existsb_exists. split.
      + intros (x & Hx & Ex). apply Z.eqb_eq in Ex. subst x. eauto.
      + intros (h0 & [= <-] & Hk). exists k. split; [exact Hk|apply Z.eqb_refl].
    - exists (fun _ => false). split; [|intro k; split; [discriminate|intros (h0 & X & _); discriminate]].
      generalize (zrange 1 (n + 1)). induction l as [|k l IH]; [reflexivity|exact IH]. }
  destruct Rs as (P & Er & HP).
  assert (In0 : forall m, In m rest <-> exists k, m = LReset k /\ 1 <= k <= n /\ P k = true).
  { intro m. rewrite Er, in_map_iff. split.
    - intros (k & <- & Hk). apply filter_In in Hk. destruct Hk as [Hk Pk]. apply in_zrange in Hk. exists k. split; [reflexivity|]. split; [lia|exact Pk].
    - intros (k & -> & Hk & Pk). exists k. split; [reflexivity|]. apply filter_In. split; [apply in_zrange; lia|exact Pk]. }
  assert (Se : forall m, In m (setup_log w0) <-> m = LFesStride /\ In WFesStride (setup_warnings w0)).
  { intro m. unfold setup_log. destruct (existsb _ (setup_warnings w0)) eqn:Ex.
    - apply existsb_exists in Ex. destruct Ex as (x & Hx & Ex). destruct x; try discriminate. cbn [In]. split; [intros [<-|[]]; now split|intros [-> _]; now left].
    - split; [intros []|]. intros [_ Hi]. exfalso. apply Bool.not_true_iff_false in Ex. apply Ex. apply existsb_exists. exists WFesStride. now split. }
  assert (Dr : NoDup rest).
  { rewrite Er. apply FinFun.Injective_map_NoDup; [intros x y [= ?]; assumption|]. apply NoDup_filter. unfold zrange. apply FinFun.Injective_map_NoDup; [intros x y; lia|apply seq_NoDup]. }
  split; [|split; [|split]].
  - rewrite in_app_iff, Se, In0. intros [[X _]|(k & X & _)]; discriminate X.
  - rewrite shown_levels, in_app_iff, Se, In0. split.
    + intros [[[_ Hi]|(k & X & _)] Hl]; [now split|discriminate X].
    + intros [Hl Hi]. split; [left; now split|exact Hl].
  - intro k. rewrite shown_levels, in_app_iff, Se, In0. split.
    + intros [[[X _]|(k' & [= <-] & Hk & Pk)] Hl]; [discriminate X|]. split; [exact Hl|]. split; [exact Hk|]. now apply HP.
    + intros (Hl & Hk & Hh). split; [|exact Hl]. right. exists k. split; [reflexivity|]. split; [exact Hk|]. now apply HP.
  - unfold shown. apply NoDup_filter. apply NoDup_app_intro; [|exact Dr|].
    + unfold setup_log. destruct (existsb _ _); repeat constructor. intros [].
    + intros m Hm Hr. apply Se in Hm. apply In0 in Hr. destruct Hm as [-> _]. destruct Hr as (k & X & _). discriminate X.
Qed.

Lemma unknown_level level log : ~ In (lower level) ["critical"; "error"; "warn"; "warning"; "info"; "debug"] -> shown level log = shown "warning" log.
Proof.
  intro H. unfold shown. replace (init_logger level) with (init_logger "warning"); [reflexivity|]. change (init_logger "warning") with WARNING.
  unfold init_logger. cbn [assoc]. cbn [In] in H.
  repeat match goal with |- context [if String.eqb ?a ?b then _ else _] => destruct (String.eqb_spec a b); [exfalso; tauto|] end. reflexivity.
Qed.
