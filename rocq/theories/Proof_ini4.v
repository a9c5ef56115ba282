(** Unknown options and sections do not matter *)
From Verif Require Import PyBase Model_xr Model_input Spec_input Spec_main Spec_ini Proof_input.
From Coq Require Import Lia.
Open Scope string_scope.

(** the same result, or (if [b] is false) only the same success *)
Definition rel (b : bool) {A} (r r' : res A) : Prop := if b then r' = r else forall a, r = Ok a -> r' = Ok a.

Lemma rel_refl b {A} (r : res A) : rel b r r.
Proof. destruct b; cbn; auto. Qed.
Lemma rel_bind b {A B} (r r' : res A) (f f' : A -> res B) :
  rel b r r' -> (forall a, rel b (f a) (f' a)) -> rel b (bind r f) (bind r' f').
Proof.
  destruct b; cbn.
  - intros -> H. destruct r; cbn; auto.
  - intros H1 H2 x. destruct r as [a|e]; cbn; [|discriminate]. rewrite (H1 a eq_refl). cbn. apply H2.
Qed.

(** what is found under a key that is looked at *)
Definition same_get (b : bool) (sec sec' : section) (key : string) : Prop :=
  match sec_get sec key, sec_get sec' key with
  | None, None => True
  | Some r, Some r' => rel b r r'
  | _, _ => False
  end.

Lemma rel_option b cv sec sec' o : same_get b sec sec' (io_key o) -> rel b (parse_option cv sec o) (parse_option cv sec' o).
Proof.
  unfold same_get, parse_option. destruct (sec_get sec (io_key o)), (sec_get sec' (io_key o)); intro H; try contradiction.
  - apply rel_bind; [exact H|]. intro. apply rel_refl.
  - apply rel_refl.
Qed.
Lemma rel_section b cv sec sec' opts : (forall o, In o opts -> same_get b sec sec' (io_key o)) ->
  rel b (parse_section cv sec opts) (parse_section cv sec' opts).
Proof.
  unfold parse_section. generalize (@nil (string * oval)). induction opts as [|o opts IH]; intros d H; cbn [foldM].
  - apply rel_refl.
  - apply rel_bind; [|intro d'; apply IH; intros; apply H; right; assumption].
    apply rel_bind; [apply rel_option, H; left; reflexivity|]. intro. apply rel_refl.
Qed.

Lemma all_numbered_unique {A} (look : string -> option (res A)) pre suf : forall vs ws,
  all_numbered look pre suf vs -> all_numbered look pre suf ws -> vs = ws.
Proof.
  intros vs ws [A1 A2] [B1 B2].
  assert (L : length vs = length ws).
  { destruct (Nat.lt_trichotomy (length vs) (length ws)) as [H|[H|H]]; [|exact H|]; exfalso.
    - destruct (nth_error ws (length vs)) as [v|] eqn:E; [|apply nth_error_None in E; lia]. rewrite (B1 _ _ E) in A2. discriminate.
    - destruct (nth_error vs (length ws)) as [v|] eqn:E; [|apply nth_error_None in E; lia]. rewrite (A1 _ _ E) in B2. discriminate. }
  assert (N : forall i, nth_error vs i = nth_error ws i).
  { intro i. destruct (nth_error vs i) as [v|] eqn:E, (nth_error ws i) as [w|] eqn:F; try reflexivity.
    - pose proof (A1 _ _ E) as P. rewrite (B1 _ _ F) in P. congruence.
    - apply nth_error_None in F. assert (i < length vs)%nat by (apply nth_error_Some; congruence). lia.
    - apply nth_error_None in E. assert (i < length ws)%nat by (apply nth_error_Some; congruence). lia. }
  clear -N. revert ws N. induction vs as [|v vs IH]; intros [|w ws] N.
  - reflexivity.
  - specialize (N 0%nat). discriminate.
  - specialize (N 0%nat). discriminate.
  - pose proof (N 0%nat) as N0. cbn in N0. injection N0 as ->. f_equal. apply IH. intro i. exact (N (S i)).
Qed.

Lemma rel_numbered b sec sec' pre suf : (forall i, same_get b sec sec' (prefixed pre (S i) suf)) ->
  rel b (numbered_in_section sec pre suf) (numbered_in_section sec' pre suf).
Proof.
  intro K. pose proof (numbered_section_spec sec pre suf) as N. pose proof (numbered_section_spec sec' pre suf) as N'.
  destruct (numbered_in_section sec pre suf) as [vs|e].
  - assert (A : all_numbered (sec_get sec') pre suf vs).
    { destruct N as [N1 N2]. split.
      - intros i v E. specialize (K i). unfold same_get in K. rewrite (N1 _ _ E) in K.
        destruct (sec_get sec' (prefixed pre (S i) suf)) as [r|]; [|contradiction]. f_equal.
        destruct b; cbn in K; auto.
      - specialize (K (length vs)). unfold same_get in K. rewrite N2 in K.
        destruct (sec_get sec' (prefixed pre (S (length vs)) suf)); [contradiction|reflexivity]. }
    destruct (numbered_in_section sec' pre suf) as [ws|e].
    + rewrite (all_numbered_unique _ _ _ _ _ A N'). apply rel_refl.
    + exfalso. destruct N' as [_ (n & H1 & H2)]. destruct A as [A1 A2].
      destruct (nth_error vs n) as [v|] eqn:E; [rewrite (A1 _ _ E) in H1; discriminate|].
      apply nth_error_None in E. destruct (Nat.eq_dec n (length vs)) as [->|Hn]; [congruence|].
      destruct (H2 (length vs)) as (v & Hv); [lia|]. congruence.
  - destruct b; unfold rel; [|discriminate].
    destruct N as [-> (n & H1 & H2)].
    destruct (numbered_in_section sec' pre suf) as [ws|e]; [|destruct N' as [-> _]; reflexivity].
    exfalso. destruct N' as [A1 A2].
    assert (K' : forall i, sec_get sec' (prefixed pre (S i) suf) = sec_get sec (prefixed pre (S i) suf)).
    { intro i. specialize (K i). unfold same_get in K.
      destruct (sec_get sec _), (sec_get sec' _); cbn in K; try contradiction; congruence. }
    rewrite K' in A2.
    destruct (nth_error ws n) as [v|] eqn:E; [pose proof (A1 _ _ E) as P; rewrite K' in P; congruence|].
    apply nth_error_None in E. destruct (Nat.eq_dec n (length ws)) as [->|Hn]; [congruence|].
    destruct (H2 (length ws)) as (v & Hv); [lia|]. congruence.
Qed.

(** ** The sections *)
Definition agree (b : bool) (name : string) (sec sec' : section) : Prop :=
  forall key, known_option name key -> same_get b sec sec' key.

Ltac known K := apply K; left; cbn; tauto.
Ltac known_all K :=
  apply rel_section; let o := fresh "o" in let H := fresh "H" in intros o H;
  repeat (apply in_app_or in H; destruct H as [H|H]);
  cbn [In opt optc ld_options output_options type_option_ld type_option_pot n_dim_option init_dist_option] in H;
  repeat (destruct H as [H|H]; [rewrite <- H; known K|]); try contradiction H.

Lemma rel_ld b cv sec sec' : agree b "ld" sec sec' -> rel b (parse_ld cv sec) (parse_ld cv sec').
Proof.
  intro K. unfold parse_ld. apply rel_bind; [apply rel_option; known K|]. intro t.
  destruct (vstr_is t "bussi-parinello"); [|destruct (vstr_is t "overdamped")]; cbn [bind]; [known_all K|known_all K|apply rel_refl].
Qed.
Lemma rel_potential b cv sec sec' : agree b "potential" sec sec' -> rel b (parse_potential cv sec) (parse_potential cv sec').
Proof.
  intro K. unfold parse_potential. apply rel_bind; [apply rel_option; known K|]. intro t.
  destruct (vstr_is t "polynomial"); [|destruct (vstr_is t "mueller-brown"); cbn [bind]; [known_all K|apply rel_refl]].
  assert (G : forall (f f' : list input_option -> res dict), (forall d, rel b (f (if vint_is d 1 then
     [type_option_pot; n_dim_option; opt "coeffs" KFloats false; opt "min" KFloat true; opt "max" KFloat true] else
     [type_option_pot; n_dim_option; opt "coeffs-file" KStr true; opt "min" KFloats true; opt "max" KFloats true]))
     (f' (if vint_is d 1 then
     [type_option_pot; n_dim_option; opt "coeffs" KFloats false; opt "min" KFloat true; opt "max" KFloat true] else
     [type_option_pot; n_dim_option; opt "coeffs-file" KStr true; opt "min" KFloats true; opt "max" KFloats true]))) ->
    rel b (bind (do n_dim <- parse_option cv sec n_dim_option; if vint_is n_dim 1 then
     Ok [type_option_pot; n_dim_option; opt "coeffs" KFloats false; opt "min" KFloat true; opt "max" KFloat true] else
     Ok [type_option_pot; n_dim_option; opt "coeffs-file" KStr true; opt "min" KFloats true; opt "max" KFloats true]) f)
     (bind (do n_dim <- parse_option cv sec' n_dim_option; if vint_is n_dim 1 then
     Ok [type_option_pot; n_dim_option; opt "coeffs" KFloats false; opt "min" KFloat true; opt "max" KFloat true] else
     Ok [type_option_pot; n_dim_option; opt "coeffs-file" KStr true; opt "min" KFloats true; opt "max" KFloats true]) f')).
  { intros f f' H. assert (P : rel b (parse_option cv sec n_dim_option) (parse_option cv sec' n_dim_option)) by (apply rel_option; known K).
    destruct b; unfold rel in *.
    - rewrite P. destruct (parse_option cv sec n_dim_option) as [d|x]; [|reflexivity]. cbn [bind]. specialize (H d).
      destruct (vint_is d 1); exact H.
    - intro a. destruct (parse_option cv sec n_dim_option) as [d|x]; [|discriminate]. rewrite (P d eq_refl). cbn [bind].
      specialize (H d a). destruct (vint_is d 1); exact H. }
  apply G. intro d. destruct (vint_is d 1); known_all K.
Qed.
Lemma rel_particles b cv sec sec' : agree b "particles" sec sec' -> rel b (parse_particles cv sec) (parse_particles cv sec').
Proof.
  intro K. unfold parse_particles. apply rel_bind; [apply rel_option; known K|]. intro t.
  assert (G : forall n, rel b
    (parse_section cv sec ([optc "number" KInt true Positive; mkOpt "mass" KFloat false (Some Positive) (VFloat (Fin 1));
      opt "seed" KInt false; init_dist_option] ++ map (fun i => opt (prefixed "pos" (S i) "") KFloats true) (seq 0 n) ++
      (if vstr_is t "fractions-pos" then [opt "fractions" KFloats true] else []))%list)
    (parse_section cv sec' ([optc "number" KInt true Positive; mkOpt "mass" KFloat false (Some Positive) (VFloat (Fin 1));
      opt "seed" KInt false; init_dist_option] ++ map (fun i => opt (prefixed "pos" (S i) "") KFloats true) (seq 0 n) ++
      (if vstr_is t "fractions-pos" then [opt "fractions" KFloats true] else []))%list)).
  { intro n. apply rel_section. intros o H. repeat (apply in_app_or in H; destruct H as [H|H]).
    - cbn in H. repeat (destruct H as [H|H]; [rewrite <- H; known K|]). contradiction.
    - apply in_map_iff in H. destruct H as (i & <- & _). apply K. right. left. split; [reflexivity|]. exists i. reflexivity.
    - destruct (vstr_is t "fractions-pos"); cbn in H; [|contradiction]. destruct H as [H|[]]. rewrite <- H. known K. }
  destruct (vstr_is t "random-pos" || vstr_is t "fractions-pos"); cbn [bind].
  - assert (P : rel b (numbered_in_section sec "pos" "") (numbered_in_section sec' "pos" "")).
    { apply rel_numbered. intro i. apply K. right. left. split; [reflexivity|]. exists i. reflexivity. }
    destruct b; unfold rel in *.
    + rewrite P. destruct (numbered_in_section sec "pos" ""); [|reflexivity]. cbn [bind]. apply G.
    + intro a. destruct (numbered_in_section sec "pos" ""); [|discriminate]. rewrite (P _ eq_refl). cbn [bind]. apply G.
  - exact (G 0%nat).
Qed.
Lemma rel_birth_death b cv pot sec sec' : agree b "birth-death" sec sec' -> rel b (parse_birth_death cv pot sec) (parse_birth_death cv pot sec').
Proof. intro K. unfold parse_birth_death. destruct (vint_is (get_dict pot "n_dim") 1); known_all K. Qed.
Lemma rel_trajectories b cv sec sec' : agree b "trajectories" sec sec' -> rel b (parse_trajectories cv sec) (parse_trajectories cv sec').
Proof. intro K. unfold parse_trajectories. known_all K. Qed.
Lemma rel_histogram b cv pot sec sec' : agree b "histogram" sec sec' -> rel b (parse_histogram cv pot sec) (parse_histogram cv pot sec').
Proof. intro K. unfold parse_histogram. destruct (vint_is (get_dict pot "n_dim") 1); known_all K. Qed.
Lemma rel_fes b cv h sec sec' : agree b "fes" sec sec' -> rel b (parse_fes cv h sec) (parse_fes cv h sec').
Proof. intro K. unfold parse_fes. destruct (truthy_dict h); cbn [negb]; [known_all K|apply rel_refl]. Qed.

Lemma rel_states b name cv sec sec' : In name ["delta-f"; "particle-distribution"] -> agree b name sec sec' ->
  rel b (do states <- numbered_state_options sec; parse_section cv sec (output_options ++ states)%list)
        (do states <- numbered_state_options sec'; parse_section cv sec' (output_options ++ states)%list).
Proof.
  intros Hn K.
  assert (K1 : rel b (numbered_in_section sec "state" "-min") (numbered_in_section sec' "state" "-min")).
  { apply rel_numbered. intro i. apply K. right. right. split; [exact Hn|]. exists i. left. reflexivity. }
  assert (K2 : rel b (numbered_in_section sec "state" "-max") (numbered_in_section sec' "state" "-max")).
  { apply rel_numbered. intro i. apply K. right. right. split; [exact Hn|]. exists i. right. reflexivity. }
  assert (E : rel b (numbered_state_options sec) (numbered_state_options sec')).
  { unfold numbered_state_options. apply rel_bind; [exact K1|]. intro. apply rel_bind; [exact K2|]. intro. apply rel_refl. }
  assert (G : forall opts, numbered_state_options sec = Ok opts ->
    rel b (parse_section cv sec (output_options ++ opts)%list) (parse_section cv sec' (output_options ++ opts)%list)).
  { intros opts H. apply rel_section. intros o Ho. apply in_app_or in Ho. destruct Ho as [Ho|Ho].
    - cbn in Ho. destruct Hn as [<-|[<-|[]]]; repeat (destruct Ho as [Ho|Ho]; [rewrite <- Ho; known K|]); contradiction.
    - unfold numbered_state_options in H. destruct (numbered_in_section sec "state" "-min") as [mins|]; [|discriminate H].
      cbn [bind] in H. destruct (numbered_in_section sec "state" "-max") as [maxs|]; [|discriminate H]. cbn [bind] in H.
      destruct (negb _); [discriminate H|].
      assert (In o (flat_map (fun i => [opt (prefixed "state" (S i) "-min") KFloats true;
                                    opt (prefixed "state" (S i) "-max") KFloats true]) (seq 0 (length mins)))) as I.
      { destruct (flat_map _ _) as [|x l]; [discriminate H|]. injection H as <-. exact Ho. }
      apply in_flat_map in I. destruct I as (i & _ & I). apply K. right. right. split; [exact Hn|]. exists i.
      destruct I as [<-|[<-|[]]]; [left|right]; reflexivity. }
  destruct b; unfold rel in *.
  - rewrite E. destruct (numbered_state_options sec) as [opts|x]; [|reflexivity]. cbn [bind]. exact (G _ eq_refl).
  - intro a. destruct (numbered_state_options sec) as [opts|x]; [|discriminate]. rewrite (E _ eq_refl). cbn [bind]. exact (G _ eq_refl a).
Qed.
Lemma rel_delta_f b cv fes sec sec' : agree b "delta-f" sec sec' -> rel b (parse_delta_f cv fes sec) (parse_delta_f cv fes sec').
Proof.
  intro K. unfold parse_delta_f. destruct (truthy_dict fes); cbn [negb]; [|apply rel_refl].
  apply (rel_states b "delta-f"); [cbn; tauto|exact K].
Qed.
Lemma rel_particle_distribution b cv sec sec' : agree b "particle-distribution" sec sec' ->
  rel b (parse_particle_distribution cv sec) (parse_particle_distribution cv sec').
Proof. intro K. apply (rel_states b "particle-distribution"); [cbn; tauto|exact K]. Qed.

(** ** The file *)
Definition all_agree (b : bool) (secs secs' : list (string * section)) : Prop :=
  forall name, In name section_names ->
  match assoc name secs, assoc name secs' with
  | None, None => True
  | Some sec, Some sec' => agree b name sec sec'
  | _, _ => False
  end.

Lemma rel_optional b secs secs' name (parse : section -> res dict) : all_agree b secs secs' -> In name section_names ->
  (forall sec sec', agree b name sec sec' -> rel b (parse sec) (parse sec')) ->
  rel b (optional_section secs name parse) (optional_section secs' name parse).
Proof.
  intros A I H. specialize (A name I). unfold optional_section. destruct (assoc name secs), (assoc name secs'); try contradiction.
  - apply rel_bind; [apply H, A|]. intro. apply rel_refl.
  - apply rel_refl.
Qed.

Lemma rel_all b cv secs secs' : all_agree b secs secs' -> rel b (parse_all cv secs) (parse_all cv secs').
Proof.
  intro A. unfold parse_all. cbn [forallb].
  pose proof (A "ld" ltac:(cbn; tauto)) as A1. pose proof (A "potential" ltac:(cbn; tauto)) as A2.
  pose proof (A "particles" ltac:(cbn; tauto)) as A3.
  destruct (assoc "ld" secs) as [l|], (assoc "ld" secs') as [l'|]; try contradiction; [|apply rel_refl].
  destruct (assoc "potential" secs) as [p|], (assoc "potential" secs') as [p'|]; try contradiction; [|apply rel_refl].
  destruct (assoc "particles" secs) as [q|], (assoc "particles" secs') as [q'|]; try contradiction; [|apply rel_refl].
  cbn [andb negb].
  apply rel_bind; [apply rel_ld, A1|]. intro. apply rel_bind; [apply rel_potential, A2|]. intro.
  apply rel_bind; [apply rel_particles, A3|]. intro.
  apply rel_bind; [apply rel_optional; [exact A|cbn; tauto|intros; apply rel_birth_death; assumption]|]. intro.
  apply rel_bind; [apply rel_optional; [exact A|cbn; tauto|intros; apply rel_trajectories; assumption]|]. intro.
  apply rel_bind; [apply rel_optional; [exact A|cbn; tauto|intros; apply rel_histogram; assumption]|]. intro.
  apply rel_bind; [apply rel_optional; [exact A|cbn; tauto|intros; apply rel_fes; assumption]|]. intro.
  apply rel_bind; [apply rel_optional; [exact A|cbn; tauto|intros; apply rel_delta_f; assumption]|]. intro.
  apply rel_bind; [apply rel_optional; [exact A|cbn; tauto|intros; apply rel_particle_distribution; assumption]|]. intro.
  apply rel_refl.
Qed.

(** ** Interpolation is not affected *)
Lemma interpolate_more : forall depth sec sec' s t, (forall k v, assoc k sec = Some v -> assoc k sec' = Some v) ->
  interpolate depth sec s = Ok t -> interpolate depth sec' s = Ok t.
Proof.
  induction depth as [|d IH]; intros sec sec' s t Hs H; [discriminate|].
  cbn [interpolate] in *. revert t H. generalize (String.length s) as fuel. intro fuel. revert s.
  induction fuel as [|f IHf]; intros s t H; [exact H|]. destruct s as [|c s]; [exact H|].
  destruct (negb (Ascii.eqb c "%")).
  - match type of H with context [bind ?x] => destruct x as [r|err] eqn:E end; [|discriminate]. rewrite (IHf _ _ E). exact H.
  - destruct s as [|c2 t2]; [exact H|]. destruct (Ascii.eqb c2 "%").
    + match type of H with context [bind ?x] => destruct x as [r|err] eqn:E end; [|discriminate]. rewrite (IHf _ _ E). exact H.
    + destruct (Ascii.eqb c2 "("); [|exact H].
      destruct (until_paren t2) as [[[|n0 ns] [|c3 t3]]|]; try exact H.
      destruct (Ascii.eqb c3 "s"); [|exact H].
      destruct (assoc (lower (String n0 ns)) sec) as [v|] eqn:Ev; [|discriminate]. rewrite (Hs _ _ Ev).
      destruct (if has_percent v then interpolate d sec v else Ok v) as [a|x] eqn:Ea; [|discriminate].
      assert ((if has_percent v then interpolate d sec' v else Ok v) = Ok a) as ->.
      { destruct (has_percent v); [exact (IH _ _ _ _ Hs Ea)|exact Ea]. }
      cbn [bind] in H |- *.
      match type of H with context [bind ?x] => destruct x as [r|err] eqn:E end; [|discriminate]. rewrite (IHf _ _ E). exact H.
Qed.

Lemma added_agree name sec sec' : only_unknown_added name sec sec' -> agree false name sec sec'.
Proof.
  intros H key Hk. unfold same_get, sec_get. pose proof (H key) as Hkey. destruct (assoc key sec) as [v|].
  - rewrite Hkey. intros t Ht. apply (interpolate_more 10 sec sec' v t); [|exact Ht].
    intros k w Hw. specialize (H k). rewrite Hw in H. exact H.
  - rewrite (Hkey Hk). exact I.
Qed.
Lemma added_agree_plain name sec sec' : plain sec -> plain sec' -> only_unknown_added name sec sec' -> agree true name sec sec'.
Proof.
  intros P P' H key Hk. unfold same_get. rewrite !plain_get by assumption. pose proof (H key) as Hkey. destruct (assoc key sec) as [v|].
  - rewrite Hkey. reflexivity.
  - rewrite (Hkey Hk). exact I.
Qed.

Lemma unknown_accepted cv secs secs' c : adds_unknown secs secs' -> parse_all cv secs = Ok c -> parse_all cv secs' = Ok c.
Proof.
  intro A. apply (rel_all false cv secs secs'). intros name Hn. specialize (A name Hn).
  destruct (assoc name secs), (assoc name secs'); try assumption. apply added_agree, A.
Qed.
Lemma unknown_ignored cv secs secs' : percent_free secs -> percent_free secs' -> adds_unknown secs secs' ->
  parse_all cv secs' = parse_all cv secs.
Proof.
  intros P P' A. apply (rel_all true cv secs secs'). intros name Hn. specialize (A name Hn).
  destruct (assoc name secs) eqn:E, (assoc name secs') eqn:E'; try assumption.
  apply added_agree_plain; [exact (P _ _ E)|exact (P' _ _ E')|exact A].
Qed.
