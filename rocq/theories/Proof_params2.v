(** From the options to the simulation (C79) *)
From Coq Require Import Lia Lra.
From Verif Require Import PyBase Model_xr Model_input Spec_input Spec_rng Model_dyn Model_pot Model_bd Model_setup Model_main Spec_main
  Spec_grid Spec_pot Spec_setup Spec_hist Spec_ld Spec_params Proof_base Proof_input Proof_pot Proof_setup Proof_main Proof_main2 Proof_whole Proof_whole2 Proof_params.
Open Scope string_scope.
Open Scope Z_scope.
Ltac Zify.zify_post_hook ::= idtac.

Lemma fin_ok x r : fin x = Ok r -> x = Fin r.
Proof. destruct x; cbn; congruence. Qed.
Lemma v_float_ok v r : v_float v = Ok r -> v = VFloat (Fin r).
Proof. destruct v; cbn; try discriminate. intro H. apply fin_ok in H. congruence. Qed.
Lemma v_int_ok v z : v_int v = Ok z -> v = VInt z.
Proof. destruct v; cbn; congruence. Qed.
Lemma v_str_ok v z : v_str v = Ok z -> v = VStr z.
Proof. destruct v; cbn; congruence. Qed.
Lemma v_ints_ok v z : v_ints v = Ok z -> v = VInts z.
Proof. destruct v; cbn; congruence. Qed.
Lemma v_opt_int_ok v z : v_opt_int v = Ok z -> v = match z with Some z => VInt z | None => VNone end.
Proof. destruct v; cbn; try discriminate; intro H; apply ok_inj in H; subst; reflexivity. Qed.
Lemma v_opt_float_ok v z : v_opt_float v = Ok z -> v = match z with Some z => VFloat (Fin z) | None => VNone end.
Proof.
  destruct v; cbn; try discriminate; intro H; [apply ok_inj in H; subst; reflexivity|].
  apply bind_ok in H. destruct H as (r & Hr & H). apply fin_ok in Hr. apply ok_inj in H. subst. reflexivity.
Qed.
Lemma mapM_fin : forall l r, mapM fin l = Ok r -> l = map Fin r.
Proof.
  induction l as [|x l IH]; intros r H; cbn [mapM] in H; [apply ok_inj in H; subst; reflexivity|].
  apply bind_ok in H. destruct H as (y & Hy & H). apply bind_ok in H. destruct H as (ys & Hys & H). apply ok_inj in H. subst r.
  cbn [map]. f_equal; [exact (fin_ok _ _ Hy)|exact (IH _ Hys)].
Qed.
Lemma v_floats_ok v l : v_floats v = Ok l -> v = VFloats (map Fin l).
Proof.
  unfold v_floats. intro H. apply bind_ok in H. destruct H as (xs & Hx & H). destruct v; cbn in Hx; try discriminate.
  apply ok_inj in Hx. subst. f_equal. exact (mapM_fin _ _ H).
Qed.

Section sim.
Context (cv : conv) (secs : list (string * section)) (HP : percent_free secs) (c : config) (HC : parse_all cv secs = Ok c).

Lemma value_get name d key v : options_of c name = Some d -> get_dict d key = v -> option_value c name key = v.
Proof. unfold option_value, get_dict. intros -> H. exact H. Qed.

Lemma good_value name key t b v : good cv secs c name key t b -> option_value c name key = v -> v <> default_of name key ->
  value_is cv secs name key t v.
Proof. intros [[H|[_ H]] _] E N; rewrite E in H; [exact H|contradiction]. Qed.
Lemma good_none name key t b : good cv secs c name key t b -> option_value c name key = VNone -> not_given secs name key.
Proof.
  intros [[H|[H _]] _] E; [|exact H]. rewrite E in H. destruct H as (text & _ & Hc). inversion Hc.
Qed.
Lemma good_text name key b text : good cv secs c name key KStr b -> default_of name key = VNone -> option_value c name key = VStr text -> given secs name key text.
Proof.
  intros G D E. destruct (good_value _ _ _ _ _ G E) as (t & Hg & Hc); [rewrite D; discriminate|]. inversion Hc; subst. exact Hg.
Qed.
Lemma good_optional name key o : good cv secs c name key KInt false -> default_of name key = VNone ->
  option_value c name key = match o with Some z => VInt z | None => VNone end -> optional_integer_is cv secs name key o.
Proof.
  intros G D E. destruct o as [z|]; cbn.
  - apply (good_value _ _ _ _ _ G E). rewrite D. discriminate.
  - exact (good_none _ _ _ _ G E).
Qed.
Lemma text_value name key b text : good cv secs c name key KStr b -> given secs name key text -> option_value c name key = VStr text.
Proof.
  intros [[H|[H _]] _] G; [|destruct (H _ G)]. destruct H as (t & Hg & Hc). inversion Hc; subst.
  rewrite (given_unique secs _ _ _ _ G Hg). reflexivity.
Qed.

Lemma seeded_new name rng os g z : good cv secs c name "seed" KInt false -> default_of name "seed" = VNone ->
  option_value c name "seed" = match z with Some z => VInt z | None => VNone end -> new_rng rng os z = Ok g -> seeded cv secs name rng os g.
Proof.
  intros G D E H. pose proof (good_optional _ _ _ G D E) as O. destruct z as [z|]; cbn in O, H.
  - destruct (Z.ltb_spec z 0); [discriminate|]. apply ok_inj in H. left. exists z. split; [exact O|]. split; [assumption|]. symmetry. exact H.
  - right. split; [exact O|]. apply ok_inj in H. symmetry. exact H.
Qed.

(** * dynamics *)
Lemma ld_given e pot ld g n : setup_ld e (c_ld c) pot = Ok (ld, g) -> assoc "n_steps" (c_ld c) = Some (VInt n) ->
  dynamics_given cv secs n ld /\ seeded cv secs "ld" (e_rng e) (e_os_ld e) g /\ ld_pot ld = pot.
Proof using All.
  intros H Hn. assert (GN : integer_is cv secs "ld" "n_steps" n).
  { eapply good_value; [eapply good_ld; try eassumption; in_list| |discriminate]. unfold option_value. cbn. rewrite Hn. reflexivity. }
  unfold setup_ld in H.
  assert (T : forall s, vstr_is (get_dict (c_ld c) "type") s = true -> given secs "ld" "type" s).
  { intros s Hs. eapply good_text; [eapply good_ld; try eassumption; in_list|reflexivity|]. eapply value_get; [reflexivity|].
    destruct (get_dict (c_ld c) "type"); try discriminate. cbn in Hs. apply String.eqb_eq in Hs. congruence. }
  assert (V : forall k t b v, In (k, t, b) [("type", KStr, false); ("timestep", KFloat, true); ("n_steps", KInt, true); ("seed", KInt, false)] ->
     get_dict (c_ld c) k = v -> v <> VNone -> value_is cv secs "ld" k t v).
  { intros k t b v Hk Hv Nv. eapply good_value; [eapply good_ld; try eassumption; exact Hk|exact (value_get "ld" _ _ _ eq_refl Hv)|].
    unfold default_of. cbn. exact Nv. }
  destruct (vstr_is (get_dict (c_ld c) "type") "bussi-parinello") eqn:B; [|destruct (vstr_is (get_dict (c_ld c) "type") "overdamped") eqn:O; [|discriminate]].
  - binds H. apply ok_inj in H. injection H as <- <-.
    apply v_float_ok in E, E0, E1. apply v_opt_int_ok in E2.
    assert (V2 : forall k v, In k ["kt"; "friction"] -> get_dict (c_ld c) k = v -> v <> VNone -> value_is cv secs "ld" k KFloat v).
    { intros k v Hk Hv Nv. eapply good_value; [eapply (good_ld_bp cv secs HP c HC k KFloat true); [exact (T _ B)|]|exact (value_get "ld" _ _ _ eq_refl Hv)|unfold default_of; cbn; exact Nv].
      destruct Hk as [<-|[<-|[]]]; in_list. }
    split; [|split; [|reflexivity]].
    + split; [exact GN|]. cbn [ld_dt ld_kind ld_kt]. split; [eapply V; [in_list|exact E|discriminate]|]. left. split; [exact (T _ B)|].
      split; [eexists; split; [reflexivity|]|]; eapply V2; try eassumption; try discriminate; in_list.
    + eapply seeded_new; [eapply good_ld; try eassumption; in_list|reflexivity|exact (value_get "ld" _ _ _ eq_refl E2)|exact E3].
  - binds H. apply ok_inj in H. injection H as <- <-. apply v_float_ok in E. apply v_opt_int_ok in E0.
    split; [|split; [|reflexivity]].
    + split; [exact GN|]. cbn [ld_dt ld_kind ld_kt]. split; [eapply V; [in_list|exact E|discriminate]|]. right. split; [exact (T _ O)|]. split; reflexivity.
    + eapply seeded_new; [eapply good_ld; try eassumption; in_list|reflexivity|exact (value_get "ld" _ _ _ eq_refl E0)|exact E1].
Qed.

(** * potential *)
Lemma pot_value k t b v : In (k, t, b) [("type", KStr, true); ("boundary-condition", KStr, false)] ->
  get_dict (c_potential c) k = v -> v <> VNone -> value_is cv secs "potential" k t v.
Proof using All.
  intros Hk Hv Nv. eapply good_value; [eapply (good_pot cv secs HP c HC k t b)|exact (value_get "potential" _ _ _ eq_refl Hv)|].
  - simpl in Hk. destruct Hk as [Hk|[Hk|[]]]; injection Hk as <- <- <-; in_list.
  - simpl in Hk. destruct Hk as [Hk|[Hk|[]]]; injection Hk as <- <- <-; exact Nv.
Qed.
Lemma bc_given : boundary_given secs (boundary_condition (c_potential c)).
Proof using All.
  assert (G : good cv secs c "potential" "boundary-condition" KStr false) by (apply good_pot; try assumption; in_list).
  assert (T : forall s, vstr_is (get_dict (c_potential c) "boundary-condition") s = true <-> given secs "potential" "boundary-condition" s).
  { intro s. split.
    - intro Hs. eapply good_text; [exact G|reflexivity|]. eapply value_get; [reflexivity|].
      destruct (get_dict (c_potential c) "boundary-condition"); try discriminate. cbn in Hs. apply String.eqb_eq in Hs. congruence.
    - intro Hs. pose proof (text_value _ _ _ _ G Hs) as E. unfold option_value in E. cbn in E. unfold get_dict. rewrite E. cbn. apply String.eqb_refl. }
  unfold boundary_condition. destruct (vstr_is _ "reflective") eqn:E1; [apply T; exact E1|].
  destruct (vstr_is _ "periodic") eqn:E2; [apply T; exact E2|]. split; intro X; apply T in X; congruence.
Qed.

Lemma nd_set_shape a i v a' : nd_set a i v = Ok a' -> a_shape a' = a_shape a.
Proof. unfold nd_set. intro H. apply bind_ok in H. destruct H as (k & _ & H). apply ok_inj in H. subst. reflexivity. Qed.
Lemma file_shape_kept n : forall rows a a', foldM (file_row n) rows a = Ok a' -> a_shape a' = a_shape a.
Proof.
  induction rows as [|r rows IH]; intros a a' H; cbn [foldM] in H; [apply ok_inj in H; subst; reflexivity|].
  apply bind_ok in H. destruct H as (b & Hb & H). rewrite (IH _ _ H). unfold file_row in Hb. apply bind_ok in Hb.
  destruct Hb as (v & _ & Hb). exact (nd_set_shape _ _ _ _ Hb).
Qed.
Lemma mapM_len {A B} (f : A -> res B) : forall l l', mapM f l = Ok l' -> length l' = length l.
Proof.
  induction l as [|a l IH]; cbn [mapM]; intros l' H; [apply ok_inj in H; now subst|]. binds H. apply ok_inj in H. subst l'. cbn. f_equal. auto.
Qed.
Lemma file_dims rows n a : coefficients_from_file rows n = Ok a -> length (a_shape a) = n.
Proof.
  unfold coefficients_from_file. destruct rows as [|r0 [|r1 rows]]; try discriminate.
  destruct (negb _); [discriminate|]. destruct (Nat.eqb _ 1); [discriminate|]. intro H. apply bind_ok in H. destruct H as (sh & Hs & H).
  rewrite (file_shape_kept _ _ _ _ H). cbn [a_shape]. unfold file_shape in Hs. rewrite (mapM_len _ _ _ Hs). apply seq_length.
Qed.

Lemma poly_inv cf ranges bc pot : poly_init cf ranges bc = Ok pot ->
  (1 <= length (a_shape cf) <= 3)%nat /\ Forall (fun n => (0 < n)%nat) (a_shape cf) /\
  pot_ndim pot = length (a_shape cf) /\ pot_bc pot = bc /\ pot_ranges pot = match ranges with Some r => r | None => [] end /\
  (forall pos, length pos = pot_ndim pot -> pot_energy pot pos = polynomial (a_shape cf) (a_flat cf) pos /\
      is_minus_gradient (pot_energy pot) pos (pot_force pot pos)).
Proof.
  intro H. assert (X : (1 <= length (a_shape cf) <= 3)%nat /\ Forall (fun n => (0 < n)%nat) (a_shape cf)).
  { unfold poly_init in H. destruct (Nat.ltb_spec 3 (length (a_shape cf))); [discriminate|].
    destruct (Nat.eqb_spec (length (a_shape cf)) 0); [discriminate|]. destruct (existsb (Nat.eqb 0) (a_shape cf)) eqn:E; [discriminate|].
    split; [lia|]. apply Forall_forall. intros x Hx. destruct x as [|x]; [|lia].
    assert (existsb (Nat.eqb 0) (a_shape cf) = true) by (apply existsb_exists; exists O; auto). congruence. }
  destruct X as [X1 X2]. destruct (poly_potential cf ranges bc X1 X2) as (p & Hp & A & B & C & D). rewrite H in Hp. apply ok_inj in Hp. subst p.
  split; [exact X1|]. split; [exact X2|]. split; [exact A|]. split; [exact B|]. split; [exact C|].
  intros pos L. destruct (D pos L) as (D1 & D2 & _). auto.
Qed.

Lemma pot_given e pot : setup_potential e (c_potential c) = Ok pot -> potential_given cv secs (e_coeff_file e) pot.
Proof using All.
  intro H. unfold setup_potential in H. cbv zeta in H.
  assert (T : forall s, vstr_is (get_dict (c_potential c) "type") s = true -> given secs "potential" "type" s).
  { intros s Hs. eapply good_text; [eapply good_pot; try eassumption; in_list|reflexivity|]. eapply value_get; [reflexivity|].
    destruct (get_dict (c_potential c) "type"); try discriminate. cbn in Hs. apply String.eqb_eq in Hs. congruence. }
  destruct (vstr_is (get_dict (c_potential c) "type") "polynomial") eqn:P.
  - destruct (vint_is (get_dict (c_potential c) "n_dim") 1) eqn:N.
    + assert (H1 : one_dim cv secs) by (apply (dim_one cv secs HP c HC); exact N).
      assert (V : forall k t b v, In (k, t, b) [("coeffs", KFloats, false); ("min", KFloat, true); ("max", KFloat, true)] ->
         get_dict (c_potential c) k = v -> v <> VNone -> value_is cv secs "potential" k t v).
      { intros k t b v Hk Hv Nv. eapply good_value; [eapply (good_pot_1 cv secs HP c HC k t b (T _ P) H1)|exact (value_get "potential" _ _ _ eq_refl Hv)|];
          simpl in Hk; (destruct Hk as [Hk|[Hk|[Hk|[]]]]; injection Hk as <- <- <-); first [exact Nv|in_list]. }
      apply bind_ok in H. destruct H as (lo & Hlo & H). apply bind_ok in H. destruct H as (hi & Hhi & H).
      apply bind_ok in H. destruct H as (cf & Hcf & H). apply v_float_ok in Hlo, Hhi.
      apply poly_inv in H. destruct H as (D1 & D2 & D3 & D4 & D5 & D6).
      assert (C : exists a, get_dict (c_potential c) "coeffs" = VFloats (map Fin a) /\ cf = arr_of_list a).
      { destruct (get_dict (c_potential c) "coeffs") eqn:E; cbn [v_floats v_xfloats bind] in Hcf; try discriminate.
        - apply ok_inj in Hcf. subst cf. cbn in D1. lia.
        - apply bind_ok in Hcf. destruct Hcf as (a & Ha & Hcf). apply ok_inj in Hcf. apply mapM_fin in Ha. exists a. split; [congruence|]. symmetry. exact Hcf. }
      destruct C as (a & Ha & ->). split; [rewrite D4; exact bc_given|]. split; [|intros pos L; apply D6; exact L].
      left. split; [exact (T _ P)|]. split; [exact H1|]. exists lo, hi, a.
      split; [eapply V; [in_list|exact Hlo|discriminate]|]. split; [eapply V; [in_list|exact Hhi|discriminate]|].
      split; [eapply V; [in_list|exact Ha|discriminate]|]. cbn in D3. split; [exact D3|]. split; [exact D5|].
      intro x. apply D6. rewrite D3. reflexivity.
    + assert (H1 : ~ one_dim cv secs) by (intro X; apply (dim_one cv secs HP c HC) in X; congruence).
      assert (V : forall k t b v, In (k, t, b) [("coeffs-file", KStr, true); ("min", KFloats, true); ("max", KFloats, true)] ->
         get_dict (c_potential c) k = v -> v <> VNone -> value_is cv secs "potential" k t v).
      { intros k t b v Hk Hv Nv. eapply good_value; [eapply (good_pot_n cv secs HP c HC k t b (T _ P) H1)|exact (value_get "potential" _ _ _ eq_refl Hv)|];
          simpl in Hk; (destruct Hk as [Hk|[Hk|[Hk|[]]]]; injection Hk as <- <- <-); first [exact Nv|in_list]. }
      apply bind_ok in H. destruct H as (los & Hlo & H). apply bind_ok in H. destruct H as (his & Hhi & H).
      apply bind_ok in H. destruct H as (name & Hname & H). apply bind_ok in H. destruct H as (m & Hm & H).
      apply bind_ok in H. destruct H as (rows & Hrows & H). apply bind_ok in H. destruct H as (cf & Hcf & H).
      apply v_floats_ok in Hlo, Hhi. apply v_str_ok in Hname. apply v_int_ok in Hm.
      pose proof (file_dims _ _ _ Hcf) as Dim. pose proof H as Hp. apply poly_inv in H. destruct H as (D1 & D2 & D3 & D4 & D5 & D6).
      split; [rewrite D4; exact bc_given|]. split; [|intros pos L; apply D6; exact L].
      right. left. split; [exact (T _ P)|]. split; [exact H1|]. exists los, his, name, (Z.to_nat m), rows.
      split; [eapply V; [in_list|exact Hlo|discriminate]|]. split; [eapply V; [in_list|exact Hhi|discriminate]|].
      split. { destruct (V "coeffs-file" KStr true _ ltac:(in_list) Hname ltac:(discriminate)) as (t & Hg & Hc). inversion Hc; subst. exact Hg. }
      assert (Nm : integer_is cv secs "potential" "n_dim" m).
      { destruct (good_pot_n cv secs HP c HC "n_dim" KInt true (T _ P) H1 ltac:(in_list)) as [[S|[S _]] R].
        - rewrite (value_get "potential" _ _ _ eq_refl Hm) in S. exact S.
        - destruct (R eq_refl) as (t & X). destruct (S _ X). }
      assert (0 < m) by lia. rewrite Z2Nat.id by lia. split; [exact Nm|]. split; [exact Hrows|].
      split; [congruence|]. split; [exact D5|]. intros lines -> F1 F2 pos L.
      assert (L2 : (2 <= length lines)%nat).
      { unfold coefficients_from_file in Hcf. destruct lines as [|? [|? ?]]; cbn [map] in Hcf; try discriminate. cbn. lia. }
      destruct (file_potential lines (Z.to_nat m) (Some (combine los his)) (boundary_condition (c_potential c)) ltac:(lia) L2 F1 F2) as (cf' & p & A & B & _ & D).
      rewrite Hcf in A. apply ok_inj in A. subst cf'. rewrite Hp in B. apply ok_inj in B. subst p. apply D. exact L.
  - destruct (vstr_is (get_dict (c_potential c) "type") "mueller-brown") eqn:M; [|discriminate].
    apply bind_ok in H. destruct H as (sf & Hsf & H). apply ok_inj in H. subst pot. apply v_opt_float_ok in Hsf.
    pose proof (good_pot_mb cv secs HP c HC "scaling-factor" KFloat false (T _ M) ltac:(in_list)) as G.
    split; [exact bc_given|]. split.
    2:{ intros pos L. cbn [mb_potential pot_ndim pot_energy pot_force] in *. destruct pos as [|x [|y [|? ?]]]; try discriminate. apply mb_gradient. }
    right. right. split; [exact (T _ M)|].
    exists (match sf with Some s => if Req_EM_T s 0 then 1%R else s | None => 1%R end).
    split; [|split; [reflexivity|split; [reflexivity|]]].
    + destruct sf as [s|].
      * assert (X : number_is cv secs "potential" "scaling-factor" s).
        { eapply good_value; [exact G|exact (value_get "potential" _ _ _ eq_refl Hsf)|discriminate]. }
        destruct (Req_EM_T s 0) as [->|Ns]; [right; split; [left; exact X|reflexivity]|left; split; [exact X|exact Ns]].
      * right. split; [|reflexivity]. right. eapply good_none; [exact G|exact (value_get "potential" _ _ _ eq_refl Hsf)].
    + intros x y. cbn [mb_potential pot_energy]. destruct (mb_exact [sf] x y) as [E _]. cbn [mb_inits fold_left map fold_right] in E.
      rewrite E, Rmult_1_r, mb_documented_exact. unfold mb_shift. ring.
Qed.
End sim.
