(** Proofs about the complete program: call sequence, errors (C44, C45, C51) *)
From Coq Require Import Lra Lia Classical_Prop.
From Verif Require Import PyBase Model_xr Model_input Spec_input Proof_base Proof_input Model_dyn Model_setup Model_main Spec_main.
Open Scope string_scope.
Open Scope Z_scope.
Ltac Zify.zify_post_hook ::= idtac.

(** * C51 *)
Lemma foldM_app {A B} (f : B -> A -> res B) : forall l1 l2 b,
  foldM f (l1 ++ l2) b = do b' <- foldM f l1 b; foldM f l2 b'.
Proof.
  induction l1 as [|a l1 IH]; intros l2 b; [reflexivity|]. cbn [foldM app]. destruct (f b a); cbn [bind]; [apply IH|reflexivity].
Qed.
Lemma foldM_map {A B C} (f : B -> C -> res B) (g : A -> C) : forall l b,
  foldM f (map g l) b = foldM (fun b a => f b (g a)) l b.
Proof. induction l as [|a l IH]; intro b; [reflexivity|]. cbn [foldM map]. destruct (f b (g a)); cbn [bind]; [apply IH|reflexivity]. Qed.
Lemma foldM_flat_map {A B C} (f : B -> C -> res B) (g : A -> list C) : forall l b,
  foldM f (flat_map g l) b = foldM (fun b a => foldM f (g a) b) l b.
Proof.
  induction l as [|a l IH]; intro b; [reflexivity|]. cbn [foldM flat_map]. rewrite foldM_app.
  destruct (foldM f (g a) b); cbn [bind]; [apply IH|reflexivity].
Qed.
Lemma foldM_ext {A B} (f g : B -> A -> res B) : (forall b a, f b a = g b a) -> forall l b, foldM f l b = foldM g l b.
Proof. intro H. induction l as [|a l IH]; intro b; [reflexivity|]. cbn [foldM]. rewrite H. destruct (g b a); cbn [bind]; [apply IH|reflexivity]. Qed.

Lemma main_loop_calls e acts n w :
  main_loop (run_action e) (final_run_action e) acts n w = perform e (calls acts n) w.
Proof.
  unfold main_loop, perform, calls. rewrite foldM_app, foldM_flat_map.
  rewrite (foldM_ext _ (fun w k => foldM (perform1 e) (map (fun a => Run a k) acts) w)).
  - destruct (foldM _ (zrange 1 (n + 1)) w); cbn [bind]; [|reflexivity]. rewrite foldM_map. apply foldM_ext. reflexivity.
  - intros b k. rewrite foldM_map. reflexivity.
Qed.

Lemma dict_set_nonnil k v d : dict_set k v d <> [].
Proof. destruct d as [|[k' v'] d]; simpl; [discriminate|]. destruct (String.eqb k' k); discriminate. Qed.
Lemma parse_section_fold_nonnil cv sec : forall opts d0 d, d0 <> [] ->
  foldM (fun d o => do v <- parse_option cv sec o; Ok (dict_set (io_key o) v d)) opts d0 = Ok d -> d <> [].
Proof.
  induction opts as [|o opts IH]; intros d0 d Hn H; cbn [foldM] in H; [injection H as <-; exact Hn|].
  destruct (parse_option cv sec o); cbn [bind] in H; [|discriminate]. eapply IH; [|exact H]. apply dict_set_nonnil.
Qed.
Lemma parse_section_nonnil cv sec opts d : opts <> [] -> parse_section cv sec opts = Ok d -> d <> [].
Proof.
  destruct opts as [|o opts]; [congruence|]. intros _ H. unfold parse_section in H. cbn [foldM] in H.
  destruct (parse_option cv sec o); cbn [bind] in H; [|discriminate]. eapply parse_section_fold_nonnil; [|exact H]. apply dict_set_nonnil.
Qed.

(** the optional sections *)
Definition sections_given (secs : list (string * section)) (c : config) : Prop :=
  truthy_dict (c_birth_death c) = has_section secs "birth-death" /\
  truthy_dict (c_trajectories c) = has_section secs "trajectories" /\
  truthy_dict (c_histogram c) = has_section secs "histogram" /\
  truthy_dict (c_fes c) = has_section secs "fes" /\
  truthy_dict (c_delta_f c) = has_section secs "delta-f" /\
  truthy_dict (c_particle_distribution c) = has_section secs "particle-distribution".

Lemma optional_truthy secs name parse d : (forall sec d', parse sec = Ok d' -> d' <> []) ->
  optional_section secs name parse = Ok d -> truthy_dict d = has_section secs name.
Proof.
  intros Hp H. unfold has_section. apply optional_inv in H. destruct H as [[-> ->]|(sec & d' & -> & Hd & ->)]; [reflexivity|].
  apply Hp in Hd. destruct d'; [congruence|reflexivity].
Qed.
Lemma app_nonnil {A} (l m : list A) : l <> [] -> (l ++ m)%list <> [].
Proof. destruct l; [congruence|discriminate]. Qed.
Lemma parsed_sections cv secs c : parse_all cv secs = Ok c -> sections_given secs c.
Proof.
  intro H. apply parse_all_inv in H. destruct H as (s1 & s2 & s3 & _ & _ & _ & _ & _ & _ & E4 & E5 & E6 & E7 & E8 & E9).
  unfold sections_given.
  split; [|split; [|split; [|split; [|split]]]].
  - apply (optional_truthy _ _ _ _) in E4; [exact E4|]. intros sec d. apply parse_section_nonnil. apply app_nonnil. discriminate.
  - apply (optional_truthy _ _ _ _) in E5; [exact E5|]. intros sec d. apply parse_section_nonnil. discriminate.
  - apply (optional_truthy _ _ _ _) in E6; [exact E6|]. intros sec d. apply parse_section_nonnil. apply app_nonnil. discriminate.
  - apply (optional_truthy _ _ _ _) in E7; [exact E7|]. intros sec d. unfold parse_fes. destruct (negb _); [discriminate|]. apply parse_section_nonnil. discriminate.
  - apply (optional_truthy _ _ _ _) in E8; [exact E8|]. intros sec d. unfold parse_delta_f. destruct (negb _); [discriminate|].
    destruct (numbered_state_options sec); cbn [bind]; [|discriminate]. apply parse_section_nonnil. apply app_nonnil. discriminate.
  - apply (optional_truthy _ _ _ _) in E9; [exact E9|]. intros sec d. unfold parse_particle_distribution.
    destruct (numbered_state_options sec); cbn [bind]; [|discriminate]. apply parse_section_nonnil. apply app_nonnil. discriminate.
Qed.

Lemma when_ok e o a setup s s' : when e o a setup s = Ok s' ->
  fst s' = (fst s ++ (if truthy_dict o then [a] else []))%list.
Proof.
  unfold when. destruct o as [[|kv d]|]; cbn [truthy_dict].
  - intro H. injection H as <-. rewrite app_nil_r. reflexivity.
  - destruct (setup (kv :: d) (snd s)); cbn [bind]; [|discriminate]. intro H. injection H as <-. reflexivity.
  - intro H. injection H as <-. rewrite app_nil_r. reflexivity.
Qed.

Lemma bind_ok {A B} (r : res A) (k : A -> res B) b : (do a <- r; k a) = Ok b -> exists a, r = Ok a /\ k a = Ok b.
Proof. destruct r; cbn [bind]; [eauto|discriminate]. Qed.

Lemma setup_actions_list e c w acts w' : setup_actions e c w = Ok (acts, w') ->
  acts = ([ALd] ++ (if truthy_dict (c_birth_death c) then [ABirthDeath] else []) ++
          (if truthy_dict (c_trajectories c) then [ATrajectories] else []) ++
          (if truthy_dict (c_histogram c) then [AHistogram] else []) ++
          (if truthy_dict (c_fes c) then [AFes] else []) ++
          (if truthy_dict (c_delta_f c) then [ADeltaF] else []) ++
          (if truthy_dict (c_particle_distribution c) then [AParticleDistribution] else []))%list.
Proof.
  intro H. unfold setup_actions in H.
  apply bind_ok in H. destruct H as (s1 & H1 & H). apply bind_ok in H. destruct H as (s2 & H2 & H).
  apply bind_ok in H. destruct H as (s3 & H3 & H). apply bind_ok in H. destruct H as (s4 & H4 & H).
  apply bind_ok in H. destruct H as (s5 & H5 & H6).
  apply when_ok in H1, H2, H3, H4, H5, H6. cbn [fst] in H1, H6.
  rewrite H6, H5, H4, H3, H2, H1, <- !app_assoc. reflexivity.
Qed.

Lemma actions_configured e cv secs c w acts w' : parse_all cv secs = Ok c -> setup_actions e c w = Ok (acts, w') ->
  acts = configured secs.
Proof.
  intros Hp Hs. rewrite (setup_actions_list _ _ _ _ _ Hs). destruct (parsed_sections _ _ _ Hp) as (-> & -> & -> & -> & -> & ->).
  unfold configured, canonical. cbn [filter section_of].
  apply parse_all_inv in Hp. destruct Hp as (s1 & s2 & s3 & A & _). unfold has_section at 7. rewrite A.
  destruct (has_section secs "birth-death"), (has_section secs "trajectories"), (has_section secs "histogram"),
    (has_section secs "fes"), (has_section secs "delta-f"), (has_section secs "particle-distribution"); reflexivity.
Qed.

Lemma main_of_setup e cv secs acts n w : set_up e cv secs acts n w ->
  acts = configured secs /\
  main e cv (Some (Ok secs)) = match perform e (calls acts n) w with Ok w' => Finished w' | Err x => uncaught x end.
Proof.
  intros (c & w0 & Hp & H0 & Ha & Hn). split; [eapply actions_configured; eassumption|].
  unfold main. cbn [read_input bind]. rewrite Hp, H0, Ha. unfold get_dict. rewrite Hn. cbn [v_int bind].
  rewrite main_loop_calls. reflexivity.
Qed.
Lemma parsed_n_steps cv secs c : parse_all cv secs = Ok c -> exists n, assoc "n_steps" (c_ld c) = Some (VInt n) /\ 0 < n.
Proof. intro H. apply accepted_usable in H. destruct H as ((n & H & Hn) & _). eauto. Qed.
Lemma finished_set_up e cv file w : main e cv file = Finished w ->
  exists secs acts n w0, file = Some (Ok secs) /\ set_up e cv secs acts n w0 /\ 0 < n /\ perform e (calls acts n) w0 = Ok w.
Proof.
  unfold main. destruct file as [[secs|x]|]; cbn [read_input bind]; [| destruct x; discriminate | discriminate].
  destruct (parse_all cv secs) as [c|x] eqn:Ep; [|destruct x; discriminate].
  destruct (setup_dynamics e c) as [w0|x] eqn:E0; [|destruct x; discriminate].
  destruct (setup_actions e c w0) as [[acts w1]|x] eqn:E1; [|destruct x; discriminate].
  destruct (parsed_n_steps _ _ _ Ep) as (n & Hn & Hp). unfold get_dict. rewrite Hn. cbn [v_int bind].
  rewrite main_loop_calls. destruct (perform e (calls acts n) w1) as [w2|x] eqn:E2; [|destruct x; discriminate].
  intro H. injection H as <-. exists secs, acts, n, w1. split; [reflexivity|]. split; [exists c, w0; auto|auto].
Qed.

(** each call once *)
Lemma NoDup_app_intro {A} : forall l m : list A, NoDup l -> NoDup m -> (forall x, In x l -> ~ In x m) -> NoDup (l ++ m)%list.
Proof.
  induction l as [|a l IH]; intros m Hl Hm Hd; [exact Hm|]. inversion Hl; subst. cbn [app]. constructor.
  - rewrite in_app_iff. intros [H|H]; [contradiction|]. exact (Hd a (or_introl eq_refl) H).
  - apply IH; auto. intros x Hx. apply Hd. right. exact Hx.
Qed.
Lemma count_run a k n acts : NoDup acts -> In a acts -> 1 <= k <= n ->
  count_occ call_dec (calls acts n) (Run a k) = 1%nat.
Proof.
  intros Hd Ha Hk. unfold calls. rewrite count_occ_app.
  assert (H0 : count_occ call_dec (map (fun a0 => Final a0 n) acts) (Run a k) = 0%nat).
  { apply count_occ_not_In. rewrite in_map_iff. intros (x & Hx & _). discriminate. }
  rewrite H0, Nat.add_0_r.
  assert (Hnd : NoDup (flat_map (fun k0 => map (fun a0 => Run a0 k0) acts) (zrange 1 (n + 1)))).
  { assert (Hz : NoDup (zrange 1 (n + 1))).
    { unfold zrange. apply FinFun.Injective_map_NoDup; [intros x y; lia|apply seq_NoDup]. }
    clear -Hd Hz. revert Hz. generalize (zrange 1 (n + 1)). intro l. induction l as [|k0 l IH]; intro Hz; [constructor|].
    inversion Hz; subst. cbn [flat_map]. apply NoDup_app_intro.
    - apply FinFun.Injective_map_NoDup; [intros x y; congruence|exact Hd].
    - apply IH. assumption.
    - intros x Hx Hy. apply in_map_iff in Hx. destruct Hx as (b & <- & _). apply in_flat_map in Hy.
      destruct Hy as (j & Hj & Hy). apply in_map_iff in Hy. destruct Hy as (b' & E & _). injection E as <- <-. contradiction. }
  pose proof (proj1 (NoDup_count_occ call_dec _) Hnd (Run a k)) as Hle.
  assert (Hin : In (Run a k) (flat_map (fun k0 => map (fun a0 => Run a0 k0) acts) (zrange 1 (n + 1)))).
  { apply in_flat_map. exists k. split; [apply in_zrange; lia|]. apply in_map_iff. eauto. }
  apply (count_occ_In call_dec) in Hin. lia.
Qed.
Lemma count_final a n acts : NoDup acts -> In a acts -> count_occ call_dec (calls acts n) (Final a n) = 1%nat.
Proof.
  intros Hd Ha. unfold calls. rewrite count_occ_app.
  assert (H0 : count_occ call_dec (flat_map (fun k0 => map (fun a0 => Run a0 k0) acts) (zrange 1 (n + 1))) (Final a n) = 0%nat).
  { apply count_occ_not_In. rewrite in_flat_map. intros (x & _ & Hy). apply in_map_iff in Hy. destruct Hy as (y & Hy & _). discriminate. }
  rewrite H0, Nat.add_0_l.
  assert (Hnd : NoDup (map (fun a0 => Final a0 n) acts)) by (apply FinFun.Injective_map_NoDup; [intros x y; congruence|exact Hd]).
  pose proof (proj1 (NoDup_count_occ call_dec _) Hnd (Final a n)) as Hle.
  assert (Hin : In (Final a n) (map (fun a0 => Final a0 n) acts)) by (apply in_map_iff; eauto).
  apply (count_occ_In call_dec) in Hin. lia.
Qed.
Lemma calls_only n acts c : In c (calls acts n) ->
  exists a, In a acts /\ (c = Final a n \/ exists k, 1 <= k <= n /\ c = Run a k).
Proof.
  unfold calls. rewrite in_app_iff, in_flat_map, in_map_iff. intros [(k & Hk & Hc)|(a & <- & Ha)]; [|eauto].
  apply in_map_iff in Hc. destruct Hc as (a & <- & Ha). apply in_zrange in Hk. exists a. split; [exact Ha|]. right. exists k. split; [lia|reflexivity].
Qed.
Lemma configured_nodup secs : NoDup (configured secs).
Proof. apply NoDup_filter. unfold canonical. repeat (constructor; [simpl; intuition discriminate|]). constructor. Qed.
Lemma each_call_once secs n : 
  (forall a k, In (Run a k) (calls (configured secs) n) <-> In a (configured secs) /\ 1 <= k <= n) /\
  (forall a k, In (Final a k) (calls (configured secs) n) <-> In a (configured secs) /\ k = n) /\
  forall c, (count_occ call_dec (calls (configured secs) n) c <= 1)%nat.
Proof.
  pose proof (configured_nodup secs) as Hd. split; [|split].
  - intros a k. split.
    + intro H. apply calls_only in H. destruct H as (b & Hb & [E|(j & Hj & E)]); [discriminate|]. injection E as -> ->. auto.
    + intros [Ha Hk]. apply (count_occ_In call_dec). rewrite count_run by assumption. lia.
  - intros a k. split.
    + intro H. apply calls_only in H. destruct H as (b & Hb & [E|(j & Hj & E)]); [|discriminate]. injection E as -> ->. auto.
    + intros [Ha ->]. apply (count_occ_In call_dec). rewrite count_final by assumption. lia.
  - intro c. destruct (in_dec call_dec c (calls (configured secs) n)) as [H|H].
    + apply calls_only in H. destruct H as (a & Ha & [->|(k & Hk & ->)]); [rewrite count_final|rewrite count_run]; auto.
    + apply (count_occ_not_In call_dec) in H. lia.
Qed.

(** what actions change *)
Ltac frame_tac := unfold frame; cbn; repeat split; intros; congruence.
Lemma run_frame e a k w w' : run_action e a k w = Ok w' -> frame a w w'.
Proof.
  destruct a; cbn [run_action]; intro H.
  - apply bind_ok in H. destruct H as ([ps g] & _ & H). injection H as <-. frame_tac.
  - apply bind_ok in H. destruct H as ([[[par g] st] out] & _ & H). apply bind_ok in H. destruct H as ([b o] & _ & H). injection H as <-. frame_tac.
  - apply bind_ok in H. destruct H as (t & _ & H). apply bind_ok in H. destruct H as (t' & _ & H). injection H as <-. frame_tac.
  - apply bind_ok in H. destruct H as (t & _ & H). apply bind_ok in H. destruct H as (h & _ & H).
    apply bind_ok in H. destruct H as (h' & _ & H). injection H as <-. frame_tac.
  - apply bind_ok in H. destruct H as (t & _ & H). apply bind_ok in H. destruct H as (h & _ & H).
    apply bind_ok in H. destruct H as (h' & _ & H). injection H as <-. frame_tac.
  - apply bind_ok in H. destruct H as (t & _ & H). apply bind_ok in H. destruct H as ([m r] & _ & H).
    apply bind_ok in H. destruct H as (h' & _ & H). injection H as <-. frame_tac.
  - apply bind_ok in H. destruct H as ([m r] & _ & H).
    apply bind_ok in H. destruct H as (h' & _ & H). injection H as <-. frame_tac.
Qed.
Lemma final_frame e a k w w' : final_run_action e a k w = Ok w' -> frame a w w' /\ w_ps w' = w_ps w /\ w_rng w' = w_rng w.
Proof.
  destruct a; cbn [final_run_action]; intro H.
  - injection H as <-. split; [frame_tac|auto].
  - apply bind_ok in H. destruct H as ([[[par g] st] out] & _ & H).
    unfold bd_final_run in H.
    destruct (truthyZ _) in H; cbn [fst snd] in H; injection H as <-; split; try frame_tac; auto.
  - apply bind_ok in H. destruct H as (t & _ & H). apply bind_ok in H. destruct H as (t' & _ & H). injection H as <-. split; [frame_tac|auto].
  - apply bind_ok in H. destruct H as (t & _ & H). apply bind_ok in H. destruct H as (h & _ & H).
    apply bind_ok in H. destruct H as (h' & _ & H). injection H as <-. split; [frame_tac|auto].
  - apply bind_ok in H. destruct H as (t & _ & H). apply bind_ok in H. destruct H as (h & _ & H).
    apply bind_ok in H. destruct H as (h' & _ & H). injection H as <-. split; [frame_tac|auto].
  - apply bind_ok in H. destruct H as (t & _ & H). apply bind_ok in H. destruct H as ([m r] & _ & H).
    apply bind_ok in H. destruct H as (h' & _ & H). injection H as <-. split; [frame_tac|auto].
  - apply bind_ok in H. destruct H as ([m r] & _ & H).
    apply bind_ok in H. destruct H as (h' & _ & H). injection H as <-. split; [frame_tac|auto].
Qed.
