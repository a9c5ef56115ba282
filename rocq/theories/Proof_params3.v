(** From the options to the simulation (C79): walkers, birth-death moves and outputs *)
From Coq Require Import Lia Lra.
From Verif Require Import PyBase Model_xr Model_input Spec_input Spec_rng Model_dyn Model_pot Model_bd Model_setup Model_main Spec_main
  Model_traj Model_histaction Model_fes Model_rec Model_hist
  Spec_grid Spec_pot Spec_setup Spec_hist Spec_ld Spec_params Proof_base Proof_input Proof_pot Proof_hist Proof_setup Proof_main Proof_main2
  Proof_whole Proof_whole2 Proof_params Proof_params2.
Open Scope string_scope.
Open Scope Z_scope.
Ltac Zify.zify_post_hook ::= idtac.

Lemma section_keys cv sec k : forall opts d0 d,
  foldM (fun d o => do v <- parse_option cv sec o; Ok (dict_set (io_key o) v d)) opts d0 = Ok d ->
  assoc k d <> None -> assoc k d0 <> None \/ In k (map io_key opts).
Proof.
  induction opts as [|o opts IH]; intros d0 d H N; cbn [foldM] in H; [apply ok_inj in H; subst; auto|].
  apply bind_ok in H. destruct H as (d1 & H1 & H). destruct (IH _ _ H N) as [A|A]; [|right; right; exact A].
  apply bind_ok in H1. destruct H1 as (v & _ & H1). apply ok_inj in H1. subst d1.
  destruct (string_dec (io_key o) k) as [<-|E]; [right; left; reflexivity|]. rewrite assoc_dict_set_ne in A by congruence. auto.
Qed.

Lemma append_inv ld ps pos mass ps' : append_particle ld ps pos mass = Ok ps' ->
  exists p, ps' = (ps ++ [p])%list /\ p_pos p = pos /\ at_rest ld mass p.
Proof.
  intro H. destruct (Nat.eq_dec (length pos) (pot_ndim (ld_pot ld))) as [E|E].
  - destruct (append_ok ld ps pos mass E) as (p & A & B & C). rewrite H in A. apply ok_inj in A. eauto.
  - rewrite append_bad in H by exact E. discriminate.
Qed.
Lemma uniform_drawn rng : forall ranges g x g', uniform_pos rng ranges g = (x, g') -> uniform_draw rng ranges g x g'.
Proof.
  induction ranges as [|[lo hi] rs IH]; intros g x g' H; cbn [uniform_pos] in H.
  - injection H as <- <-. reflexivity.
  - destruct (r_uniform rng lo hi g) as [a g1] eqn:E1. destruct (uniform_pos rng rs g1) as [xs g2] eqn:E2. injection H as <- <-.
    cbn. exists g1. auto.
Qed.
Lemma global_drawn rng ld mass : forall n ps g ps', random_global rng ld mass n ps g = Ok ps' ->
  exists new, ps' = (ps ++ new)%list /\ length new = n /\ Forall (at_rest ld mass) new /\
    drawn (uniform_draw rng (pot_ranges (ld_pot ld))) g (map p_pos new).
Proof.
  induction n as [|n IH]; intros ps g ps' H; cbn [random_global] in H.
  - apply ok_inj in H. subst. exists []. rewrite app_nil_r. repeat split; constructor.
  - destruct (uniform_pos rng _ g) as [x g'] eqn:E. apply bind_ok in H. destruct H as (ps1 & Ha & H).
    apply append_inv in Ha. destruct Ha as (p & -> & Hp & Hr). apply IH in H. destruct H as (new & -> & L & F & D).
    exists (p :: new). rewrite <- app_assoc. split; [reflexivity|]. split; [cbn; congruence|]. split; [constructor; assumption|].
    cbn [map]. rewrite Hp. econstructor; [|exact D]. apply uniform_drawn. exact E.
Qed.
Lemma pos_drawn rng (R : rng_ok rng) ld mass positions : forall n ps g ps',
  random_pos rng ld mass (map VFloats positions) n ps g = Ok ps' ->
  exists new, ps' = (ps ++ new)%list /\ length new = n /\ Forall (at_rest ld mass) new /\
    drawn (choice_draw rng positions) g (map p_pos new).
Proof.
  induction n as [|n IH]; intros ps g ps' H; cbn [random_pos] in H.
  - apply ok_inj in H. subst. exists []. rewrite app_nil_r. repeat split; constructor.
  - destruct positions as [|p0 pt] eqn:EP; [discriminate|]. cbn [map] in H. change (VFloats p0 :: map VFloats pt) with (map VFloats (p0 :: pt)) in H.
    rewrite <- EP in *. rewrite map_length in H.
    assert (Hc : (fst (r_choice rng (length positions) g) < length positions)%nat) by (apply (ok_choice _ R); rewrite EP; cbn; lia).
    destruct (r_choice rng (length positions) g) as [i g'] eqn:E. cbn [fst] in Hc.
    apply bind_ok in H. destruct H as (x & Hx & H). apply bind_ok in H. destruct H as (ps1 & Ha & H).
    apply append_inv in Ha. destruct Ha as (p & -> & Hp & Hr). apply IH in H. destruct H as (new & -> & L & F & D).
    exists (p :: new). rewrite <- app_assoc. split; [reflexivity|]. split; [cbn; congruence|]. split; [constructor; assumption|].
    cbn [map]. rewrite Hp. econstructor; [|exact D]. exists i. split; [exact E|].
    rewrite (nth_map_in VFloats positions i _ []) in Hx by exact Hc. apply v_floats_ok in Hx. injection Hx as Hx. rewrite <- Hx.
    apply nth_error_nth'. exact Hc.
Qed.
Lemma copies_inv ld mass pos : forall n ps ps', add_copies ld mass (VFloats pos) n ps = Ok ps' ->
  exists new, ps' = (ps ++ new)%list /\ Forall (at_rest ld mass) new /\ map (fun p => map Fin (p_pos p)) new = repeat pos n.
Proof.
  induction n as [|n IH]; intros ps ps' H; cbn [add_copies] in H.
  - apply ok_inj in H. subst. exists []. rewrite app_nil_r. repeat split; constructor.
  - apply bind_ok in H. destruct H as (x & Hx & H). apply bind_ok in H. destruct H as (ps1 & Ha & H).
    apply append_inv in Ha. destruct Ha as (p & -> & Hp & Hr). apply IH in H. destruct H as (new & -> & F & D).
    exists (p :: new). rewrite <- app_assoc. split; [reflexivity|]. split; [constructor; assumption|].
    cbn [map repeat]. rewrite Hp, D. apply v_floats_ok in Hx. injection Hx as ->. reflexivity.
Qed.
Lemma placed_inv ld mass : forall positions counts ps ps',
  foldM (fun ps pc => add_copies ld mass (fst pc) (Z.to_nat (snd pc)) ps) (combine (map VFloats positions) counts) ps = Ok ps' ->
  exists new, ps' = (ps ++ new)%list /\ Forall (at_rest ld mass) new /\ map (fun p => map Fin (p_pos p)) new = placed positions counts.
Proof.
  induction positions as [|x positions IH]; intros counts ps ps' H; [|destruct counts as [|n counts]].
  1,2: cbn in H; apply ok_inj in H; subst; exists []; rewrite app_nil_r; repeat split; constructor.
  cbn [map combine foldM fst snd] in H. apply bind_ok in H. destruct H as (ps1 & Ha & H). apply copies_inv in Ha. destruct Ha as (new & -> & F & D).
  apply IH in H. destruct H as (new2 & -> & F2 & D2). exists (new ++ new2)%list. rewrite app_assoc. split; [reflexivity|].
  split; [apply Forall_app; auto|]. rewrite map_app, D, D2. reflexivity.
Qed.
Lemma counts_inv fr n counts : fraction_counts fr n = Ok counts -> length counts = length fr /\ fold_right Z.add 0 counts = n.
Proof.
  unfold fraction_counts. cbv zeta. intro H. apply bind_ok in H. destruct H as (l & Hl & H). apply mapM_len in Hl. rewrite map_length in Hl.
  destruct l as [|c0 cs]; [discriminate|]. apply ok_inj in H. subst counts. cbn [length fold_right] in *. split; [exact Hl|]. lia.
Qed.

Section sim.
Context (cv : conv) (secs : list (string * section)) (HP : percent_free secs) (c : config) (HC : parse_all cv secs = Ok c).

Lemma numbered_given name d n pre suf vs : options_of c name = Some d ->
  (forall i, (i < n)%nat -> good cv secs c name (prefixed pre (S i) suf) KFloats true) ->
  (assoc (prefixed pre (S n) suf) d = None) ->
  all_numbered (fun k => option_map Ok (assoc k d)) pre suf vs ->
  length vs = n /\ exists ls, vs = map VFloats ls /\
  forall i p, nth_error ls i = Some p -> value_is cv secs name (prefixed pre (S i) suf) KFloats (VFloats p).
Proof using All.
  intros D G N [A B].
  assert (L : length vs = n).
  { destruct (Nat.lt_trichotomy (length vs) n) as [L|[L|L]]; [|exact L|].
    - exfalso. destruct (G _ L) as [[St|[St _]] Rq].
      + unfold option_value in St. rewrite D in St. destruct (assoc (prefixed pre (S (length vs)) suf) d); [discriminate B|].
        destruct St as (t & _ & Hc). inversion Hc.
      + destruct (Rq eq_refl) as (t & X). destruct (St _ X).
    - exfalso. destruct (nth_error vs n) as [v|] eqn:E; [|apply nth_error_None in E; lia]. specialize (A _ _ E). rewrite N in A. discriminate. }
  split; [exact L|].
  assert (V : forall i v, nth_error vs i = Some v -> exists p, v = VFloats p /\ value_is cv secs name (prefixed pre (S i) suf) KFloats (VFloats p)).
  { intros i v Hv. assert (Hi : (i < n)%nat) by (rewrite <- L; apply nth_error_Some; congruence).
    destruct (G _ Hi) as [[St|[St _]] Rq].
    - unfold option_value in St. rewrite D in St. specialize (A _ _ Hv). destruct (assoc (prefixed pre (S i) suf) d) as [w|]; [|discriminate A].
      cbn in A. injection A as ->. destruct St as (t & Hg & Hc). inversion Hc; subst. eexists. split; [reflexivity|]. exists t. split; [exact Hg|exact Hc].
    - destruct (Rq eq_refl) as (t & X). destruct (St _ X). }
  assert (W : exists ls, vs = map VFloats ls).
  { clear - V. assert (F : forall v, In v vs -> exists p, v = VFloats p).
    { intros v Hv. apply In_nth_error in Hv. destruct Hv as (i & Hi). destruct (V _ _ Hi) as (p & E & _). eauto. }
    clear V. induction vs as [|v vs IH]; [exists []; reflexivity|]. destruct (F v (or_introl eq_refl)) as (p & ->).
    destruct IH as (ls & ->); [intros w Hw; apply F; right; exact Hw|]. exists (p :: ls). reflexivity. }
  destruct W as (ls & ->). exists ls. split; [reflexivity|]. intros i p Hp. destruct (V i (VFloats p)) as (q & E & St).
  - rewrite nth_error_map, Hp. reflexivity.
  - injection E as <-. exact St.
Qed.

(** * walkers *)
Lemma positions_given_in vs : given secs "particles" "initial-distribution" "random-pos" \/ given secs "particles" "initial-distribution" "fractions-pos" ->
  all_numbered (fun k => option_map Ok (assoc k (c_particles c))) "pos" "" vs ->
  exists positions, vs = map VFloats positions /\ positions_in_input cv secs positions.
Proof using All.
  intros G A. destruct (shape_part cv secs HP c HC) as (sec & n & po & As & H & SH).
  assert (X : (forall i, (i < n)%nat -> exists text, given secs "particles" (prefixed "pos" (S i) "") text) /\
    not_given secs "particles" (prefixed "pos" (S n) "")).
  { destruct SH as [(G' & _)|(_ & X)]; [|exact X]. destruct G as [G|G]; pose proof (given_unique _ _ _ _ _ G G'); discriminate. }
  destruct X as [X1 X2].
  destruct (numbered_given "particles" (c_particles c) n "pos" "" vs eq_refl) as (L & ls & -> & V); [| |exact A|].
  - intros i Hi. apply (good_pos cv secs HP c HC i G). intros j Hj. apply X1. lia.
  - destruct (assoc (prefixed "pos" (S n) "") (c_particles c)) eqn:E; [|reflexivity]. exfalso.
    destruct (section_keys _ _ (prefixed "pos" (S n) "") _ _ _ H ltac:(congruence)) as [Y|Y]; [apply Y; reflexivity|].
    rewrite !map_app in Y. apply in_app_or in Y. destruct Y as [Y|Y].
    + simpl in Y. repeat (destruct Y as [Y|Y]; [discriminate Y|]). exact Y.
    + apply in_app_or in Y. destruct Y as [Y|Y].
      * rewrite map_map in Y. apply in_map_iff in Y. destruct Y as (i & Y & Hi). cbn [io_key opt] in Y. apply prefixed_inj in Y. apply in_seq in Hi. lia.
      * destruct SH as [(_ & _ & ->)|([[_ ->]|[_ ->]] & _)]; [destruct Y|destruct Y|]. destruct Y as [Y|[]]. discriminate Y.
  - exists ls. split; [reflexivity|]. split; [exact V|]. rewrite map_length in L. rewrite L. exact X2.
Qed.

Lemma part_given e ld ps : rng_ok (e_rng e) -> init_particles e (c_particles c) ld = Ok ps -> walkers_given cv secs (e_rng e) (e_os_init e) ld ps.
Proof using All.
  intros R H. unfold init_particles in H. apply bind_ok in H. destruct H as (mass & Hm & H). apply bind_ok in H. destruct H as (num & Hn & H).
  apply v_float_ok in Hm. apply v_int_ok in Hn. cbv zeta in H.
  assert (T : forall s, vstr_is (get_dict (c_particles c) "initial-distribution") s = true -> given secs "particles" "initial-distribution" s).
  { intros s Hs. eapply good_text; [eapply good_part; try eassumption; in_list|reflexivity|]. eapply value_get; [reflexivity|].
    destruct (get_dict (c_particles c) "initial-distribution"); try discriminate. cbn in Hs. apply String.eqb_eq in Hs. congruence. }
  assert (M : number_is cv secs "particles" "mass" mass \/ not_given secs "particles" "mass" /\ mass = 1%R).
  { pose proof (good_part cv secs HP c HC "mass" KFloat false ltac:(in_list)) as [[St|[S1 S2]] _].
    - rewrite (value_get c "particles" _ _ _ eq_refl Hm) in St. left. exact St.
    - rewrite (value_get c "particles" _ _ _ eq_refl Hm) in S2. cbn in S2. injection S2 as ->. right. auto. }
  assert (N : integer_is cv secs "particles" "number" num).
  { eapply good_value; [eapply good_part; try eassumption; in_list|exact (value_get c "particles" _ _ _ eq_refl Hn)|discriminate]. }
  assert (P : 0 < num).
  { destruct (accepted_usable _ _ _ HC) as (_ & _ & _ & _ & (z & Hz & Hz0) & _). rewrite (get_of_assoc _ _ _ Hz) in Hn. injection Hn as ->. exact Hz0. }
  assert (SD : forall seed g, v_opt_int (get_dict (c_particles c) "seed") = Ok seed -> new_rng (e_rng e) (e_os_init e) seed = Ok g ->
     seeded cv secs "particles" (e_rng e) (e_os_init e) g).
  { intros seed g Hs Hg. apply v_opt_int_ok in Hs. eapply seeded_new; [eapply good_part; try eassumption; in_list|reflexivity|exact (value_get c "particles" _ _ _ eq_refl Hs)|exact Hg]. }
  destruct (vstr_is _ "random-global") eqn:B1; [|destruct (vstr_is _ "random-pos") eqn:B2; [|destruct (vstr_is _ "fractions-pos") eqn:B3]].
  - apply bind_ok in H. destruct H as (seed & Hs & H). apply bind_ok in H. destruct H as (g & Hg & H).
    apply global_drawn in H. destruct H as (new & -> & L & F & D). cbn [app]. split; [exists mass; auto|]. left.
    split; [exact (T _ B1)|]. split; [rewrite L, Z2Nat.id by lia; exact N|]. exists g. split; [exact (SD _ _ Hs Hg)|exact D].
  - apply bind_ok in H. destruct H as (seed & Hs & H). apply bind_ok in H. destruct H as (g & Hg & H).
    destruct (parse_all_inv _ _ _ HC) as (s1 & s2 & s3 & A1 & A2 & A3 & E1 & E2 & E3 & _).
    pose proof (particles_shape _ _ _ E3) as Sh. destruct (positions_given_in _ (or_introl (T _ B2)) Sh) as (positions & Ep & Hp).
    rewrite Ep in H. apply (pos_drawn _ R) in H. destruct H as (new & -> & L & F & D). cbn [app]. split; [exists mass; auto|]. right. left.
    split; [exact (T _ B2)|]. split; [rewrite L, Z2Nat.id by lia; exact N|]. exists g, positions. split; [exact (SD _ _ Hs Hg)|]. split; [exact Hp|exact D].
  - apply bind_ok in H. destruct H as (fr & Hf & H). apply bind_ok in H. destruct H as (counts & Hc & H). apply bind_ok in H. destruct H as (ch & Hch & H).
    destruct (numbered_dict_spec (c_particles c) "pos" "") as (vs & Hvs & Sh). rewrite Hch in Hvs. apply ok_inj in Hvs. subst vs.
    destruct (positions_given_in _ (or_intror (T _ B3)) Sh) as (positions & -> & Hp). rewrite map_length in H.
    destruct (Nat.eqb_spec (length positions) (length counts)) as [L|L]; cbn [negb] in H; [|discriminate].
    apply placed_inv in H. destruct H as (new & -> & F & D). cbn [app]. split; [exists mass; auto|]. right. right. split; [exact (T _ B3)|].
    apply counts_inv in Hc. destruct Hc as [C1 C2].
    exists positions, fr, counts. split; [exact Hp|]. split.
    { destruct (get_dict (c_particles c) "fractions") eqn:E; cbn in Hf; try discriminate. apply ok_inj in Hf. subst l.
      eapply good_value; [eapply good_fractions; try eassumption; exact (T _ B3)|exact (value_get c "particles" _ _ _ eq_refl E)|discriminate]. }
    split; [congruence|]. split; [rewrite C2; exact N|]. split; [congruence|exact D].
  - exfalso. destruct (shape_part cv secs HP c HC) as (sec & n & po & As & _ & SH).
    pose proof (good_part cv secs HP c HC "initial-distribution" KStr true ltac:(in_list)) as G.
    assert (X : forall s, given secs "particles" "initial-distribution" s -> vstr_is (get_dict (c_particles c) "initial-distribution") s = true).
    { intros s Hs. pose proof (text_value _ _ _ _ _ _ _ G Hs) as E. unfold option_value in E. cbn in E. unfold get_dict. rewrite E. cbn. apply String.eqb_refl. }
    destruct SH as [(G' & _)|([[G' _]|[G' _]] & _)]; apply X in G'; congruence.
Qed.
End sim.
