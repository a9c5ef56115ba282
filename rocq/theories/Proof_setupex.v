(** Examples and remaining lemmas for Prop_setup.v *)
From Coq Require Import Lia Lra.
From Verif Require Import PyBase Model_setup Spec_rng Spec_ld Spec_input Spec_grid Spec_pdist Spec_setup
  Proof_base Proof_input Proof_setup Proof_setup2.
Open Scope string_scope.
Open Scope Z_scope.
Ltac Zify.zify_post_hook ::= idtac.

Lemma fes_other_kt (e : env) o ld ha fa hs junk n kt : assoc "kt" o = Some (VFloat (Fin kt)) -> (0 < kt)%R -> (0 < ld_kt ld)%R ->
   kt <> ld_kt ld -> (forall k, h_data (ha_hist (hs k)) <> []) -> setup_fes e o ld ha = Ok fa ->
   (exists i j, (i < length (h_data (ha_hist (hs (n + 1)%Z))))%nat /\ (j < length (h_data (ha_hist (hs (n + 1)%Z))))%nat /\
      (0 < nth i (h_data (ha_hist (hs (n + 1)%Z))) 0%nat)%nat /\
      (nth i (h_data (ha_hist (hs (n + 1)%Z))) 0%nat < nth j (h_data (ha_hist (hs (n + 1)%Z))) 0%nat)%nat) ->
   exists fa', fes_simulation hs junk n fa = Ok fa' /\ ~ is_fes kt (h_data (ha_hist (hs (n + 1)%Z))) (fa_fes fa').
Proof.
  intros _ Hk Hl Hne Hd Hs Hij. destruct (final_fes e o ld ha fa hs junk n Hl Hd Hs) as (fa' & E & F & _).
  exists fa'. split; [exact E|]. intro F2. apply Hne. exact (is_fes_kt _ _ _ _ Hk Hl F2 F Hij).
Qed.

Lemma fes_same_kt (e : env) o ld ha fa hs junk n kt : assoc "kt" o = Some (VFloat (Fin kt)) -> (0 < kt)%R ->
  ld_kt ld = kt -> (forall k, h_data (ha_hist (hs k)) <> []) -> setup_fes e o ld ha = Ok fa ->
  exists fa', fes_simulation hs junk n fa = Ok fa' /\ is_fes kt (h_data (ha_hist (hs (n + 1)%Z))) (fa_fes fa') /\
    (fa_filename fa = true -> exists before, fa_written fa' = (before ++ [(None, fa_fes fa')])%list).
Proof. intros _ Hk <- Hd Hs. exact (final_fes e o ld ha fa hs junk n Hk Hd Hs). Qed.

(** * examples *)
Ltac two_numbered := split; [intros [|[|i]] v Hv; [injection Hv as <-; reflexivity|injection Hv as <-; reflexivity|
  destruct i; discriminate Hv]|reflexivity].

Lemma fractions_case :
  assoc "initial-distribution" demo_fractions = Some (VStr "fractions-pos") /\
  assoc "fractions" demo_fractions = Some (VFloats (map Fin [1; 2]%R)) /\
  positions_given demo_fractions [[0; 0]; [1; 1]]%R /\
  forall e, exists ps, init_particles e demo_fractions (demo_ld Overdamped None) = Ok ps /\
    map p_pos ps = [[0; 0]; [0; 0]; [0; 0]; [1; 1]; [1; 1]; [1; 1]; [1; 1]]%R.
Proof.
  assert (P : positions_given demo_fractions [[0; 0]; [1; 1]]%R) by two_numbered.
  split; [reflexivity|]. split; [reflexivity|]. split; [exact P|]. intro e.
  assert (T : total [1; 2]%R = 3%R) by (unfold total; cbn; lra).
  destruct (fractions_walkers e demo_fractions (demo_ld Overdamped None) 1 7 [1; 2]%R [[0; 0]; [1; 1]]%R
    eq_refl eq_refl eq_refl ltac:(lia) eq_refl ltac:(repeat constructor; lra) ltac:(lra) P ltac:(repeat constructor)) as [H _].
  destruct (H eq_refl) as (ps & counts & E & Hn & Hp & _ & Hl & Hc). exists ps. split; [exact E|].
  destruct counts as [|a [|b [|]]]; try discriminate Hl.
  destruct (Hc 1%nat 2%R ltac:(lia) eq_refl) as (c & Eb & [F1 F2]). cbn in Eb. injection Eb as <-. rewrite T in F1, F2.
  assert (b = 4)%nat.
  { assert (b < 5)%nat by (apply INR_lt; cbn; lra). assert (3 < b)%nat by (apply INR_lt; cbn; lra). lia. }
  subst b. assert (Ha : a = 3%nat).
  { apply (f_equal (@length _)) in Hp. rewrite map_length in Hp. unfold copies in Hp. cbn [combine map concat fst snd] in Hp.
    rewrite !app_length, !repeat_length in Hp. cbn in Hp. lia. }
  subst a. exact Hp.
Qed.

Lemma random_case :
  (exists o, parse_particles demo_conv demo_random_pos = Ok o /\
    assoc "initial-distribution" o = Some (VStr "random-pos") /\ assoc "mass" o = Some (VFloat (Fin 1)) /\
    assoc "number" o = Some (VInt 4) /\ optional_int o "seed" None /\
    positions_given o [[0; 0]; [1; -2]]%R /\
    forall e, e_rng e = demo_rng -> exists ps, init_particles e o (demo_ld Overdamped None) = Ok ps /\ length ps = 4%nat) /\
  proper_ranges (pot_ndim (ld_pot (demo_ld Overdamped None))) (pot_ranges (ld_pot (demo_ld Overdamped None))) /\
  rng_ok demo_rng.
Proof.
  split; [|split; [split; [reflexivity|repeat constructor; cbn; lra]|exact demo_rng_ok]].
  eexists. split; [reflexivity|]. split; [reflexivity|]. split; [reflexivity|]. split; [reflexivity|].
  split; [reflexivity|].
  match goal with |- positions_given ?o _ /\ _ => assert (P : positions_given o [[0; 0]; [1; -2]]%R) by two_numbered end.
  split; [exact P|]. intros e He.
  destruct (random_pos_walkers e demo_conv demo_random_pos _ (demo_ld Overdamped None) 1 4 None [[0; 0]; [1; -2]]%R
    ltac:(rewrite He; exact demo_rng_ok) eq_refl eq_refl eq_refl eq_refl eq_refl I P ltac:(discriminate) ltac:(repeat constructor))
    as (ps & E & Hl & _).
  exists ps. split; [exact E|lia].
Qed.

Lemma delta_f_case :
  let mins := [[MInf]; [Fin 0]] in let maxs := [[Fin 0]; [PInf]] in
  states_given demo_delta_f1 mins maxs /\ strides_fit (Some 10) None true /\
  optional_int demo_delta_f1 "stride" (Some 10) /\ optional_int demo_delta_f1 "write-stride" None /\
  h_edges demo_hist1 = [[-1; 0; 1]]%R /\
  (forall e, exists r, setup_delta_f e demo_delta_f1 demo_hist1 = Ok ([[true; false]; [false; true]], r)) /\
  states_given demo_delta_f2 [[Fin 0; Fin 0]; [Fin 1; Fin 1]] [[Fin 1; Fin 1]; [Fin 2; Fin 2]] /\
  length (h_edges demo_hist2) = 2%nat /\
  forall e, setup_delta_f e demo_delta_f2 demo_hist2 = Err ValueError.
Proof.
  assert (S2 : states_given demo_delta_f2 [[Fin 0; Fin 0]; [Fin 1; Fin 1]] [[Fin 1; Fin 1]; [Fin 2; Fin 2]]).
  { split; two_numbered. }
  assert (S1 : states_given demo_delta_f1 [[MInf]; [Fin 0]] [[Fin 0]; [PInf]]) by (split; two_numbered).
  cbv zeta. split; [exact S1|]. split; [split; [lia|exact I]|]. split; [reflexivity|]. split; [reflexivity|].
  split; [reflexivity|]. split.
  { intro e. destruct (delta_f_1d e demo_delta_f1 demo_hist1 [-1; 0; 1]%R [[MInf]; [Fin 0]] [[Fin 0]; [PInf]] (Some 10) None true S1) as (masks & r & E & L & H);
      [cbn; lia|reflexivity|repeat constructor|repeat constructor|reflexivity|reflexivity|reflexivity|split; [lia|exact I]|reflexivity|].
    exists r. rewrite E. do 2 f_equal. destruct masks as [|m1 [|m2 [|m3 ms]]]; cbn in L; try lia.
    destruct (H 0%nat m1 MInf (Fin 0) eq_refl eq_refl eq_refl) as (L1 & H1).
    destruct (H 1%nat m2 (Fin 0) PInf eq_refl eq_refl eq_refl) as (L2 & H2).
    cbn [length] in L1, L2. destruct m1 as [|a1 [|a2 [|a3 m1]]]; cbn in L1; try lia. destruct m2 as [|b1 [|b2 [|b3 m2]]]; cbn in L2; try lia.
    pose proof (H1 0%nat ltac:(cbn; lia)) as A1. pose proof (H1 1%nat ltac:(cbn; lia)) as A2.
    pose proof (H2 0%nat ltac:(cbn; lia)) as B1. pose proof (H2 1%nat ltac:(cbn; lia)) as B2.
    unfold middle in A1, A2, B1, B2. cbn in A1, A2, B1, B2.
    assert (T1 : a1 = true) by (apply A1; split; [exact I|lra]).
    assert (T2 : b2 = true) by (apply B2; split; [lra|exact I]).
    assert (T3 : a2 = false) by (destruct a2; [destruct A2 as (A2 & _); destruct (A2 eq_refl); lra|reflexivity]).
    assert (T4 : b1 = false) by (destruct b1; [destruct B1 as (B1 & _); destruct (B1 eq_refl); lra|reflexivity]).
    now subst. }
  split; [exact S2|]. split; [reflexivity|]. intro e.
  apply (delta_f_nd e demo_delta_f2 demo_hist2 _ _ (Some 10) None S2); [cbn; lia|repeat constructor|repeat constructor|reflexivity|reflexivity|discriminate].
Qed.

Lemma fes_case :
  let o := [("kt", VFloat (Fin 2)); ("stride", VInt 10); ("write-stride", VNone); ("filename", VStr "fes");
            ("plot-stride", VNone); ("plot-filename", VNone)] in
  let ha := mkHA demo_hist1 1 [] None true 100 [] in
  forall e, exists fa, setup_fes e o (demo_ld1 1) ha = Ok fa /\ fa_filename fa = true /\
    ld_kt (demo_ld1 1) <> 2%R /\ h_data (ha_hist ha) = [3; 5]%nat.
Proof.
  cbv zeta. intro e. unfold setup_fes. cbn [ha_hist].
  assert (exists r, calculate_reference (pot_energy (ld_pot (demo_ld1 1))) (hist_points demo_hist1) true = Ok r) as (r & ->).
  { unfold calculate_reference. cbv zeta. destruct (map _ _) as [|x l] eqn:E.
    - apply (f_equal (@length R)) in E. rewrite map_length, hist_points_length in E. discriminate E.
    - cbn. eauto. }
  cbn [bind]. unfold get_dict. cbn [assoc String.eqb Ascii.eqb Bool.eqb v_opt_int bind]. unfold fes_init. cbn [ha_hist h_data demo_hist1 ld_kt demo_ld1].
  destruct (calculate_is_fes [3; 5]%nat 1 (e_junk_fes e 0) ltac:(discriminate) ltac:(lra)) as (f & -> & _).
  cbn. eexists. split; [reflexivity|]. split; [reflexivity|]. split; [lra|reflexivity].
Qed.
