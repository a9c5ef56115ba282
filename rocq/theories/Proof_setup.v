(** Proofs about the setup functions *)
From Coq Require Import Lia Lra.
From Verif Require Import PyBase Model_setup Spec_rng Spec_ld Spec_input Spec_grid Spec_setup Proof_base Proof_input.
Open Scope string_scope.
Open Scope Z_scope.
Ltac Zify.zify_post_hook ::= idtac.

Lemma get_of_assoc o k v : assoc k o = Some v -> get_dict o k = v.
Proof. unfold get_dict. intros ->. reflexivity. Qed.

Lemma f2_len {A B} (P : A -> B -> Prop) l m : Forall2 P l m -> length l = length m.
Proof. induction 1; cbn; congruence. Qed.

(** * creation of walkers *)
Lemma append_ok ld ps pos mass : length pos = pot_ndim (ld_pot ld) ->
  exists p, append_particle ld ps pos mass = Ok (ps ++ [p])%list /\ p_pos p = pos /\ at_rest ld mass p.
Proof.
  intro H. unfold append_particle, add_particle, new_particle. rewrite H, Nat.eqb_refl. cbn [negb].
  unfold particle_init. rewrite repeat_length, Nat.eqb_refl. cbn [bind evaluate p_pos p_mom p_mass Z.eqb].
  eexists. split; [reflexivity|]. cbn [p_pos]. split; [reflexivity|]. unfold at_rest. cbn.
  rewrite H. auto.
Qed.
Lemma append_bad ld ps pos mass : length pos <> pot_ndim (ld_pot ld) ->
  append_particle ld ps pos mass = Err ValueError.
Proof.
  intro H. unfold append_particle, add_particle, new_particle.
  replace (Nat.eqb _ _) with false; [reflexivity|]. symmetry. apply Nat.eqb_neq. exact H.
Qed.

Lemma v_floats_fin p : v_floats (VFloats (map Fin p)) = Ok p.
Proof.
  unfold v_floats. cbn [v_xfloats bind]. induction p as [|x p IH]; [reflexivity|]. cbn [map mapM fin bind].
  rewrite IH. reflexivity.
Qed.

Lemma add_copies_ok ld mass pos : length pos = pot_ndim (ld_pot ld) -> forall n ps,
  exists new, add_copies ld mass (VFloats (map Fin pos)) n ps = Ok (ps ++ new)%list /\
    map p_pos new = repeat pos n /\ Forall (at_rest ld mass) new.
Proof.
  intro H. induction n as [|n IH]; intro ps; cbn [add_copies].
  - exists []. rewrite app_nil_r. repeat split; constructor.
  - rewrite v_floats_fin. cbn [bind]. destruct (append_ok ld ps pos mass H) as (p & -> & Hp & Hr). cbn [bind].
    destruct (IH (ps ++ [p])%list) as (new & -> & Hn & Hf). exists (p :: new).
    rewrite <- app_assoc. split; [reflexivity|]. cbn [map repeat]. rewrite Hp, Hn. split; [reflexivity|].
    constructor; assumption.
Qed.

Lemma place_all ld mass : forall positions counts ps,
  length positions = length counts -> Forall (fun p => length p = pot_ndim (ld_pot ld)) positions ->
  exists new, foldM (fun ps pc => add_copies ld mass (fst pc) (Z.to_nat (snd pc)) ps)
      (combine (map (fun p => VFloats (map Fin p)) positions) counts) ps = Ok (ps ++ new)%list /\
    map p_pos new = copies positions (map Z.to_nat counts) /\ Forall (at_rest ld mass) new.
Proof.
  induction positions as [|p positions IH]; intros [|c counts] ps Hl Hd; try discriminate.
  - exists []. cbn. rewrite app_nil_r. repeat split; constructor.
  - inversion Hd; subst. cbn [map combine foldM fst snd].
    destruct (add_copies_ok ld mass p H1 (Z.to_nat c) ps) as (new & -> & Hn & Hf). cbn [bind].
    destruct (IH counts (ps ++ new)%list ltac:(cbn in Hl; lia) H2) as (new2 & -> & Hn2 & Hf2).
    exists (new ++ new2)%list. rewrite app_assoc. split; [reflexivity|].
    rewrite map_app, Hn, Hn2. split; [reflexivity|]. apply Forall_app. auto.
Qed.

(** * fractions *)
Lemma xsum_fin l : xsum (map Fin l) = Fin (total l).
Proof.
  unfold xsum. assert (G : forall l a, fold_left xadd (map Fin l) (Fin a) = Fin (a + total l)).
  { clear. induction l as [|x l IH]; intro a; cbn.
    - rewrite Rplus_0_r. reflexivity.
    - rewrite IH. f_equal. unfold total. lra. }
  rewrite G. f_equal. lra.
Qed.

Lemma total_nonneg l : Forall (Rle 0) l -> (0 <= total l)%R.
Proof. induction 1 as [|x l Hx H IH]; unfold total in *; cbn [fold_right]; lra. Qed.

Lemma trunc_floor x : (0 <= x)%R -> 0 <= trunc x /\ (IZR (trunc x) <= x < IZR (trunc x) + 1)%R.
Proof.
  intro H. unfold trunc. destruct (Rlt_dec x 0); [lra|].
  destruct (base_Int_part x) as [A B]. split; [|lra].
  assert (-1 < Int_part x); [|lia]. apply lt_IZR. lra.
Qed.

Definition share (number : Z) (t f : R) : Z := trunc (IZR number * (f / t)).

Lemma counts_ok number fractions : 0 <= number -> Forall (Rle 0) fractions -> (0 < total fractions)%R ->
  exists c0 cs, fraction_counts (map Fin fractions) number = Ok (c0 :: cs) /\
    length (c0 :: cs) = length fractions /\
    cs = map (share number (total fractions)) (tl fractions) /\
    0 <= c0 /\ c0 + fold_right Z.add 0 cs = number /\ Forall (fun c => 0 <= c) cs.
Proof.
  intros Hn Hf Ht. unfold fraction_counts. rewrite xsum_fin. set (t := total fractions) in *.
  assert (E : forall l, mapM (fun f => py_int (xscale (IZR number) f)) (map (fun f => xdiv f (Fin t)) (map Fin l)) =
    Ok (map (share number t) l)).
  { induction l as [|x l IH]; [reflexivity|]. cbn [map mapM]. rewrite IH. cbn [xdiv].
    destruct (Req_EM_T t 0); [lra|]. reflexivity. }
  rewrite E. cbn [bind]. clear E.
  assert (Hs : forall l, Forall (Rle 0) l -> (IZR (fold_right Z.add 0%Z (map (share number t) l)) <= IZR number * (total l / t))%R
     /\ Forall (fun c => 0 <= c) (map (share number t) l)).
  { induction l as [|x l IH]; intro Hl.
    - cbn. unfold Rdiv. rewrite Rmult_0_l, Rmult_0_r. split; [lra|constructor].
    - inversion Hl; subst. specialize (IH H2). destruct IH as [IH1 IH2]. cbn [map fold_right total]. rewrite plus_IZR.
      assert (0 <= IZR number * (x / t))%R.
      { apply Rmult_le_pos; [apply (IZR_le 0); exact Hn|]. apply Rmult_le_pos; [assumption|].
        apply Rlt_le, Rinv_0_lt_compat. exact Ht. }
      destruct (trunc_floor _ H) as [P Q]. unfold share at 1. split.
      + fold (total l). unfold Rdiv in *. rewrite (Rmult_plus_distr_r x), Rmult_plus_distr_l. lra.
      + constructor; [exact P|exact IH2]. }
  destruct fractions as [|f fs]; [cbn in Ht; unfold t in Ht; cbn in Ht; lra|]. cbn [map].
  destruct (Hs (f :: fs) Hf) as [S1 S2]. fold t in S1. cbn [map] in S1, S2.
  replace (t / t)%R with 1%R in S1 by (field; lra). rewrite Rmult_1_r in S1. apply le_IZR in S1.
  inversion S2; subst. eexists _, _. split; [reflexivity|]. cbn [length tl]. rewrite map_length.
  split; [reflexivity|]. split; [reflexivity|]. cbn [fold_right] in S1. split; [|split; [|assumption]].
  - unfold share in *. cbn [fold_right]. lia.
  - cbn [fold_right]. lia.
Qed.

Lemma sum_to_nat l : Forall (fun c => 0 <= c) l -> Z.of_nat (list_sum (map Z.to_nat l)) = fold_right Z.add 0 l.
Proof. induction 1; cbn; [reflexivity|]. rewrite Nat2Z.inj_add, Z2Nat.id by assumption. f_equal. assumption. Qed.

Lemma copies_length : forall positions counts, length positions = length counts ->
  length (copies positions counts) = list_sum counts.
Proof.
  induction positions as [|p l IH]; intros [|c counts] H; try discriminate; [reflexivity|].
  unfold copies in *. cbn. rewrite app_length, repeat_length, IH; [reflexivity|]. cbn in H. lia.
Qed.

Lemma all_numbered_unique {A} (look : string -> option (res A)) pre suf vs ws :
  all_numbered look pre suf vs -> all_numbered look pre suf ws -> vs = ws.
Proof.
  intros [A1 A2] [B1 B2].
  assert (H : forall i, nth_error vs i = nth_error ws i).
  { assert (L : length vs = length ws).
    { destruct (lt_eq_lt_dec (length vs) (length ws)) as [[H|H]|H]; [|exact H|].
      - destruct (nth_error ws (length vs)) as [w|] eqn:E; [|apply nth_error_None in E; lia].
        apply B1 in E. congruence.
      - destruct (nth_error vs (length ws)) as [w|] eqn:E; [|apply nth_error_None in E; lia].
        apply A1 in E. congruence. }
    intro i. destruct (nth_error vs i) as [v|] eqn:E.
    - destruct (nth_error ws i) as [w|] eqn:E2.
      + apply A1 in E. apply B1 in E2. congruence.
      + apply nth_error_None in E2. assert (nth_error vs i <> None) by congruence. apply nth_error_Some in H. lia.
    - destruct (nth_error ws i) as [w|] eqn:E2; [|reflexivity]. apply nth_error_None in E.
      assert (nth_error ws i <> None) by congruence. apply nth_error_Some in H. lia. }
  clear - H. revert ws H. induction vs as [|v vs IH]; intros [|w ws] H; try reflexivity.
  - specialize (H 0%nat). discriminate.
  - specialize (H 0%nat). discriminate.
  - f_equal; [specialize (H 0%nat); cbn in H; congruence|]. apply IH. intro i. exact (H (S i)).
Qed.
Lemma numbered_dict_unique o pre suf vs :
  all_numbered (fun k => option_map Ok (assoc k o)) pre suf vs -> numbered_in_dict o pre suf = Ok vs.
Proof.
  intro H. destruct (numbered_dict_spec o pre suf) as (ws & E & Hw). rewrite E.
  f_equal. exact (all_numbered_unique _ _ _ _ _ Hw H).
Qed.

Lemma fractions_walkers (e : env) o ld mass number fractions positions :
  assoc "initial-distribution" o = Some (VStr "fractions-pos") ->
  assoc "mass" o = Some (VFloat (Fin mass)) -> assoc "number" o = Some (VInt number) -> 0 <= number ->
  assoc "fractions" o = Some (VFloats (map Fin fractions)) -> Forall (Rle 0) fractions -> (0 < total fractions)%R ->
  positions_given o positions -> Forall (fun p => length p = pot_ndim (ld_pot ld)) positions ->
  (length positions = length fractions ->
   exists ps counts, init_particles e o ld = Ok ps /\ Z.of_nat (length ps) = number /\
     map p_pos ps = copies positions counts /\ Forall (at_rest ld mass) ps /\
     length counts = length positions /\
     forall i f, (0 < i)%nat -> nth_error fractions i = Some f ->
       exists c, nth_error counts i = Some c /\ is_floor (IZR number * f / total fractions) c) /\
  (length positions <> length fractions -> init_particles e o ld = Err ValueError).
Proof.
  intros Hd Hm Hn Hn0 Hf Hf0 Hft Hp Hpd.
  destruct (counts_ok number fractions Hn0 Hf0 Hft) as (c0 & cs & Ec & El & Ecs & Hc0 & Hsum & Hcs).
  unfold init_particles. rewrite (get_of_assoc _ _ _ Hm), (get_of_assoc _ _ _ Hn), (get_of_assoc _ _ _ Hd), (get_of_assoc _ _ _ Hf).
  cbn [v_float fin bind v_int vstr_is String.eqb Ascii.eqb Bool.eqb v_xfloats]. rewrite Ec. cbn [bind].
  rewrite (numbered_dict_unique _ _ _ _ Hp). cbn [bind]. rewrite El, map_length.
  split; intro HL.
  - rewrite HL, Nat.eqb_refl. cbn [negb].
    destruct (place_all ld mass positions (c0 :: cs) [] ltac:(lia) Hpd) as (ps & -> & Hps & Hr).
    exists ps, (map Z.to_nat (c0 :: cs)). split; [reflexivity|].
    assert (HH : Z.of_nat (length ps) = number).
    { rewrite <- (map_length p_pos), Hps, copies_length by (rewrite map_length; lia).
      rewrite sum_to_nat by (constructor; assumption). exact Hsum. }
    split; [exact HH|]. split; [exact Hps|]. split; [exact Hr|]. split; [rewrite map_length; lia|].
    intros i f Hi Hfi. destruct i as [|i]; [lia|]. destruct fractions as [|f0 fs]; [discriminate|].
    cbn [nth_error] in Hfi. cbn [tl] in Ecs. cbn [map nth_error]. rewrite Ecs, map_map.
    rewrite (map_nth_error _ _ _ Hfi). eexists. split; [reflexivity|].
    assert (0 <= f)%R. { inversion Hf0; subst. rewrite Forall_forall in H2. apply H2. exact (nth_error_In _ _ Hfi). }
    assert (Hx : (0 <= IZR number * (f / total (f0 :: fs)))%R).
    { apply Rmult_le_pos; [apply (IZR_le 0); exact Hn0|]. apply Rmult_le_pos; [assumption|].
      apply Rlt_le, Rinv_0_lt_compat. exact Hft. }
    destruct (trunc_floor _ Hx) as [P Q]. unfold is_floor, share. rewrite INR_IZR_INZ, Z2Nat.id by exact P.
    replace (IZR number * f / total (f0 :: fs))%R with (IZR number * (f / total (f0 :: fs)))%R by (unfold Rdiv; ring).
    exact Q.
  - replace (Nat.eqb _ _) with false; [reflexivity|]. symmetry. apply Nat.eqb_neq. exact HL.
Qed.

(** * random initialisation *)
Lemma uniform_inside rng (R : rng_ok rng) : forall ranges g, Forall (fun r => fst r <= snd r)%R ranges ->
  inside ranges (fst (uniform_pos rng ranges g)) /\ length (fst (uniform_pos rng ranges g)) = length ranges.
Proof.
  induction ranges as [|[lo hi] rs IH]; intros g H; cbn [uniform_pos]; [split; [constructor|reflexivity]|].
  inversion H; subst. pose proof (ok_uniform _ R lo hi g H2) as Hu.
  destruct (r_uniform rng lo hi g) as [x g1]. specialize (IH g1 H3). destruct (uniform_pos rng rs g1) as [xs g2].
  cbn in *. destruct IH. split; [constructor; assumption|]. lia.
Qed.

Lemma random_global_ok rng (R : rng_ok rng) ld mass : proper_ranges (pot_ndim (ld_pot ld)) (pot_ranges (ld_pot ld)) ->
  forall n ps g, exists new, random_global rng ld mass n ps g = Ok (ps ++ new)%list /\ length new = n /\
    Forall (fun p => inside (pot_ranges (ld_pot ld)) (p_pos p)) new /\ Forall (at_rest ld mass) new.
Proof.
  intros [H1 H2]. induction n as [|n IH]; intros ps g; cbn [random_global].
  - exists []. rewrite app_nil_r. repeat split; constructor.
  - destruct (uniform_inside rng R _ g H2) as [U1 U2]. destruct (uniform_pos rng _ g) as [pos g'] eqn:E. cbn [fst] in U1, U2.
    destruct (append_ok ld ps pos mass ltac:(congruence)) as (p & -> & Hp & Hr). cbn [bind].
    destruct (IH (ps ++ [p])%list g') as (new & -> & Hl & Hi & Hn). exists (p :: new). rewrite <- app_assoc.
    split; [reflexivity|]. split; [cbn; congruence|]. split; constructor; try assumption. rewrite Hp. exact U1.
Qed.

Lemma random_pos_ok rng (R : rng_ok rng) ld mass positions : positions <> [] ->
  Forall (fun p => length p = pot_ndim (ld_pot ld)) positions ->
  forall n ps g, exists new, random_pos rng ld mass (map (fun p => VFloats (map Fin p)) positions) n ps g = Ok (ps ++ new)%list /\
    length new = n /\ Forall (fun p => In (p_pos p) positions) new /\ Forall (at_rest ld mass) new.
Proof.
  intros Hne Hd. induction n as [|n IH]; intros ps g; cbn [random_pos].
  - exists []. rewrite app_nil_r. repeat split; constructor.
  - destruct positions as [|p0 positions]; [congruence|]. cbn [map] in *. set (l := p0 :: positions) in *.
    assert (Hc : (fst (r_choice rng (length (VFloats (map Fin p0) :: map (fun p => VFloats (map Fin p)) positions)) g) < length l)%nat).
    { assert (HL : (length (VFloats (map Fin p0) :: map (fun p => VFloats (map Fin p)) positions)) = length l) by (cbn; rewrite map_length; reflexivity).
      rewrite HL. apply (ok_choice _ R). cbn. lia. }
    destruct (r_choice rng _ g) as [i g']. cbn [fst] in Hc.
    change (VFloats (map Fin p0) :: map (fun p => VFloats (map Fin p)) positions) with (map (fun p => VFloats (map Fin p)) l).
    rewrite (nth_map_in (fun p => VFloats (map Fin p)) l i _ []) by exact Hc. rewrite v_floats_fin. cbn [bind].
    assert (Hin : In (nth i l []) l) by (apply nth_In; exact Hc).
    rewrite Forall_forall in Hd. destruct (append_ok ld ps (nth i l []) mass (Hd _ Hin)) as (p & -> & Hp & Hr). cbn [bind].
    destruct (IH (ps ++ [p])%list g') as (new & E & Hl & Hi & Hn). exists (p :: new).
    rewrite <- app_assoc in E. split; [exact E|]. split; [cbn; congruence|]. split; constructor; try assumption. rewrite Hp. exact Hin.
Qed.

Lemma init_seed rng os seed : match seed with Some z => 0 <= z | None => True end ->
  exists g, new_rng rng os seed = Ok g.
Proof. destruct seed as [z|]; cbn; intro H; [replace (z <? 0) with false by lia|]; eauto. Qed.

Lemma v_opt_int_of (o : dict) k v : optional_int o k v -> v_opt_int (get_dict o k) = Ok v.
Proof. intro H. rewrite (get_of_assoc _ _ _ H). destruct v; reflexivity. Qed.

Lemma random_global_walkers (e : env) o ld mass number seed : rng_ok (e_rng e) ->
  assoc "initial-distribution" o = Some (VStr "random-global") ->
  assoc "mass" o = Some (VFloat (Fin mass)) -> assoc "number" o = Some (VInt number) -> 0 <= number ->
  optional_int o "seed" seed -> match seed with Some z => 0 <= z | None => True end ->
  proper_ranges (pot_ndim (ld_pot ld)) (pot_ranges (ld_pot ld)) ->
  exists ps, init_particles e o ld = Ok ps /\ Z.of_nat (length ps) = number /\
    Forall (fun p => inside (pot_ranges (ld_pot ld)) (p_pos p)) ps /\ Forall (at_rest ld mass) ps.
Proof.
  intros R Hd Hm Hn Hn0 Hs Hs0 Hr. destruct (init_seed (e_rng e) (e_os_init e) seed Hs0) as (g & Hg).
  unfold init_particles. rewrite (get_of_assoc _ _ _ Hm), (get_of_assoc _ _ _ Hn), (get_of_assoc _ _ _ Hd).
  cbn [v_float fin bind v_int vstr_is String.eqb Ascii.eqb Bool.eqb]. rewrite (v_opt_int_of _ _ _ Hs). cbn [bind].
  rewrite Hg. cbn [bind].
  destruct (random_global_ok (e_rng e) R ld mass Hr (Z.to_nat number) [] g) as (new & -> & Hl & Hi & Hf).
  exists new. split; [reflexivity|]. split; [lia|]. auto.
Qed.


Lemma assoc_app {A} k : forall l1 l2 : list (string * A), ~ In k (map fst l1) -> assoc k (l1 ++ l2)%list = assoc k l2.
Proof.
  induction l1 as [|[k' v] l1 IH]; intros l2 H; [reflexivity|]. cbn in H |- *.
  destruct (String.eqb_spec k' k); [exfalso; apply H; left; assumption|]. apply IH. tauto.
Qed.
Lemma assoc_not_in {A} k (l : list (string * A)) : ~ In k (map fst l) -> assoc k l = None.
Proof.
  intro H. destruct (assoc k l) eqn:E; [|reflexivity]. exfalso. apply H, assoc_in. congruence.
Qed.

Definition posopt (i : nat) : input_option := opt (prefixed "pos" (S i) "") KFloats true.
Lemma has_pos_prefixed i : has_pos (prefixed "pos" i "") = true.
Proof. unfold has_pos, prefixed. cbn [append]. destruct (string_of_nat i ++ ""); reflexivity. Qed.

Lemma assoc_numbered pre suf : forall (vs : list oval) k0 rest,
  (forall i, ~ In (prefixed pre i suf) (map fst rest)) ->
  (forall i v, nth_error vs i = Some v ->
     assoc (prefixed pre (S (k0 + i)) suf) (combine (map (fun i => prefixed pre (S i) suf) (seq k0 (length vs))) vs ++ rest)%list = Some v) /\
  assoc (prefixed pre (S (k0 + length vs)) suf) (combine (map (fun i => prefixed pre (S i) suf) (seq k0 (length vs))) vs ++ rest)%list = None.
Proof.
  induction vs as [|v vs IH]; intros k0 rest Hr.
  - split; [intros [|i] w H; discriminate|]. cbn. apply assoc_not_in. apply Hr.
  - destruct (IH (S k0) rest Hr) as [A B]. split.
    + intros [|i] w H; cbn [nth_error] in H.
      * injection H as ->. cbn. rewrite Nat.add_0_r, String.eqb_refl. reflexivity.
      * cbn [length seq map combine app assoc].
        destruct (String.eqb_spec (prefixed pre (S k0) suf) (prefixed pre (S (k0 + S i)) suf)) as [E|E].
        -- apply prefixed_inj in E. lia.
        -- specialize (A _ _ H). replace (S (k0 + S i)) with (S (S k0 + i)) by lia. exact A.
    + cbn [length seq map combine app assoc].
      destruct (String.eqb_spec (prefixed pre (S k0) suf) (prefixed pre (S (k0 + S (length vs))) suf)) as [E|E].
      -- apply prefixed_inj in E. lia.
      -- replace (S (k0 + S (length vs))) with (S (S k0 + length vs)) by lia. exact B.
Qed.

Lemma particles_options cv sec o : parse_particles cv sec = Ok o ->
  exists n fr, (fr = [] \/ fr = [opt "fractions" KFloats true]) /\
    parse_section cv sec ([optc "number" KInt true Positive; mkOpt "mass" KFloat false (Some Positive) (VFloat (Fin 1));
      opt "seed" KInt false; init_dist_option] ++ map posopt (seq 0 n) ++ fr)%list = Ok o.
Proof.
  unfold parse_particles. destruct (parse_option cv sec init_dist_option) as [v|x]; cbn [bind]; [|discriminate].
  destruct (vstr_is v "random-pos" || vstr_is v "fractions-pos")%bool.
  - destruct (numbered_in_section sec "pos" "") as [vs|x]; cbn [bind]; [|discriminate]. intro H.
    exists (length vs). eexists. split; [|exact H]. destruct (vstr_is v "fractions-pos"); auto.
  - cbn [bind]. intro H. exists 0%nat. eexists. split; [|exact H]. destruct (vstr_is v "fractions-pos"); auto.
Qed.

Lemma particles_keys n fr : fr = [] \/ fr = [opt "fractions" KFloats true] ->
  NoDup (map io_key ([optc "number" KInt true Positive; mkOpt "mass" KFloat false (Some Positive) (VFloat (Fin 1));
      opt "seed" KInt false; init_dist_option] ++ map posopt (seq 0 n) ++ fr)%list).
Proof.
  intro Hfr.
  assert (Hp : forall k, In k (map io_key (map posopt (seq 0 n))) -> exists i, k = prefixed "pos" i "").
  { intros k Hk. apply in_map_iff in Hk. destruct Hk as (o & <- & Ho). apply in_map_iff in Ho. destruct Ho as (i & <- & _).
    eexists. reflexivity. }
  assert (N : NoDup (map io_key (map posopt (seq 0 n)))).
  { rewrite map_map. apply FinFun.Injective_map_NoDup; [|apply seq_NoDup].
    intros i j E. apply prefixed_inj in E. lia. }
  assert (N2 : NoDup (map io_key (map posopt (seq 0 n) ++ fr)%list) /\
     forall k, In k (map io_key (map posopt (seq 0 n) ++ fr)%list) -> k = "fractions" \/ exists i, k = prefixed "pos" i "").
  { rewrite map_app. destruct Hfr as [-> | ->]; cbn [map].
    - rewrite app_nil_r. split; [exact N|]. intros k Hk. right. auto.
    - split.
      + apply NoDup_Add with (a := "fractions") (l := map io_key (map posopt (seq 0 n))).
        * rewrite <- (app_nil_r (map io_key (map posopt (seq 0 n)))) at 1. apply Add_app.
        * split; [exact N|]. intro Hk. apply Hp in Hk. destruct Hk as (i & Hk). discriminate Hk.
      + intros k Hk. apply in_app_or in Hk. destruct Hk as [Hk|[<-|[]]]; auto. }
  destruct N2 as [N2 Hk]. rewrite map_app. cbn [map app].
  repeat (constructor; [intro Hin; simpl in Hin;
    repeat (destruct Hin as [Hin|Hin]; [discriminate Hin|]);
    apply Hk in Hin; destruct Hin as [Hin|(i & Hin)]; discriminate Hin|]).
  exact N2.
Qed.

Lemma combine_app {A B} : forall (l1 : list A) (m1 : list B) l2 m2, length l1 = length m1 ->
  combine (l1 ++ l2)%list (m1 ++ m2)%list = (combine l1 m1 ++ combine l2 m2)%list.
Proof. induction l1; destruct m1; cbn; intros; try discriminate; [reflexivity|]. rewrite IHl1 by lia. reflexivity. Qed.

Lemma particles_shape cv sec o : parse_particles cv sec = Ok o ->
  all_numbered (fun k => option_map Ok (assoc k o)) "pos" "" (map snd (filter (fun kv => has_pos (fst kv)) o)).
Proof.
  intro H. apply particles_options in H. destruct H as (n & fr & Hfr & H).
  pose proof (parse_section_fold cv sec _ [] (particles_keys n fr Hfr)) as F.
  unfold parse_section in H. rewrite H in F. destruct F as (vs & -> & F). cbn [app map] in F |- *.
  inversion F as [|? v1 ? vs1 _ F1]; subst. inversion F1 as [|? v2 ? vs2 _ F2]; subst.
  inversion F2 as [|? v3 ? vs3 _ F3]; subst. inversion F3 as [|? v4 ? vs4 _ F4]; subst. clear F F1 F2 F3.
  apply Forall2_app_inv_l in F4. destruct F4 as (ps & fs & Fp & Ff & ->).
  assert (Lp : length ps = n) by (apply f2_len in Fp; rewrite map_length, seq_length in Fp; auto).
  assert (Lf : length fs = length fr) by (apply f2_len in Ff; auto).
  set (pc := combine (map (fun i => prefixed "pos" (S i) "") (seq 0 (length ps))) ps).
  set (rest := combine (map io_key fr) fs).
  assert (E : combine (map io_key (map posopt (seq 0 n) ++ fr)%list) (ps ++ fs)%list = (pc ++ rest)%list).
  { rewrite map_app, combine_app by (rewrite !map_length, seq_length; auto). subst pc rest. rewrite map_map, Lp. reflexivity. }
  assert (Hrest : filter (fun kv => has_pos (fst kv)) rest = [] /\ forall i, ~ In (prefixed "pos" i "") (map fst rest)).
  { subst rest. destruct Hfr as [-> | ->]; cbn [map combine].
    - split; [reflexivity|]. intros i [].
    - destruct fs as [|f [|]]; try discriminate Lf. cbn. split; [reflexivity|]. intros i [Hi|[]]. discriminate Hi. }
  destruct Hrest as [R1 R2].
  assert (Hpc : filter (fun kv => has_pos (fst kv)) pc = pc /\ map snd pc = ps).
  { subst pc. assert (Lc : length (map (fun i => prefixed "pos" (S i) "") (seq 0 (length ps))) = length ps) by (rewrite map_length; apply seq_length).
    split.
    - clear - Lc. revert Lc. generalize (seq 0 (length ps)) as l. induction ps as [|p ps IH]; intros [|i l] L; try discriminate; [reflexivity|].
      cbn [map combine filter]. cbn [fst]. rewrite has_pos_prefixed. f_equal. apply IH. injection L as L; exact L.
    - clear - Lc. revert Lc. generalize (map (fun i => prefixed "pos" (S i) "") (seq 0 (length ps))) as l.
      induction ps as [|p ps IH]; intros [|i l] L; try discriminate; [reflexivity|]. cbn. f_equal. apply IH. injection L as L; exact L. }
  destruct Hpc as [P1 P2].
  assert (Hf : map snd (filter (fun kv => has_pos (fst kv)) (("number", v1) :: ("mass", v2) :: ("seed", v3) :: ("initial-distribution", v4) ::
     combine (map io_key (map posopt (seq 0 n) ++ fr)%list) (ps ++ fs)%list)) = ps).
  { rewrite E. cbn [filter]. change (has_pos (fst ("number", v1))) with false. change (has_pos (fst ("mass", v2))) with false.
    change (has_pos (fst ("seed", v3))) with false. change (has_pos (fst ("initial-distribution", v4))) with false. cbv iota.
    rewrite filter_app, P1, R1, app_nil_r. exact P2. }
  cbn [combine map io_key optc opt init_dist_option] in Hf |- *. rewrite Hf. rewrite E.
  destruct (assoc_numbered "pos" "" ps 0 rest R2) as [A B]. fold pc in A, B. split.
  - intros i v Hi. specialize (A i v Hi). cbn [Nat.add] in A.
    exact (f_equal (option_map Ok) A).
  - cbn [Nat.add] in B. exact (f_equal (option_map Ok) B).
Qed.

Lemma random_pos_walkers (e : env) cv sec o ld mass number seed positions : rng_ok (e_rng e) ->
  parse_particles cv sec = Ok o ->
  assoc "initial-distribution" o = Some (VStr "random-pos") ->
  assoc "mass" o = Some (VFloat (Fin mass)) -> assoc "number" o = Some (VInt number) ->
  optional_int o "seed" seed -> match seed with Some z => 0 <= z | None => True end ->
  positions_given o positions -> positions <> [] -> Forall (fun p => length p = pot_ndim (ld_pot ld)) positions ->
  exists ps, init_particles e o ld = Ok ps /\ Z.of_nat (length ps) = number /\
    Forall (fun p => In (p_pos p) positions) ps /\ Forall (at_rest ld mass) ps.
Proof.
  intros R Hp Hd Hm Hn Hs Hs0 Hpos Hne Hdim. destruct (init_seed (e_rng e) (e_os_init e) seed Hs0) as (g & Hg).
  pose proof (particles_shape _ _ _ Hp) as Hsh. apply (all_numbered_unique _ _ _ _ _ Hpos) in Hsh.
  destruct (parse_particles_usable _ _ _ Hp) as (_ & (z & Hz & Hz0)). rewrite Hn in Hz. injection Hz as <-.
  unfold init_particles. rewrite (get_of_assoc _ _ _ Hm), (get_of_assoc _ _ _ Hn), (get_of_assoc _ _ _ Hd).
  cbn [v_float fin bind v_int vstr_is String.eqb Ascii.eqb Bool.eqb]. rewrite (v_opt_int_of _ _ _ Hs). cbn [bind].
  rewrite Hg. cbn [bind]. rewrite <- Hsh.
  destruct (random_pos_ok (e_rng e) R ld mass positions Hne Hdim (Z.to_nat number) [] g) as (new & -> & Hl & Hi & Hf).
  exists new. split; [reflexivity|]. split; [lia|]. auto.
Qed.
