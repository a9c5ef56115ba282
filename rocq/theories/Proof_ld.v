(** Langevin dynamics *)
From Coq Require Import Lia Lra ZifyBool ZifyNat.
From Verif Require Import PyBase Model_dyn Model_bd Spec_rng Spec_bd Spec_ld Proof_base Proof_dens Proof_bd.
Ltac Zify.zify_post_hook ::= idtac.
Open Scope R_scope.

(** ** C23 *)
Lemma bp_consistent pot c1 dt p n1 n2 p' : bp_update pot c1 dt p n1 n2 = Ok p' -> consistent pot p'.
Proof.
  unfold bp_update. intros H. apply bind_inv in H as ([pos mom] & _ & H). unfold evaluate in H. inversion H. split; reflexivity.
Qed.
Lemma od_consistent pot nf dt p n p' : od_update pot nf dt p n = Ok p' -> consistent pot p'.
Proof.
  unfold od_update. intros H. apply bind_inv in H as ([pos mom] & _ & H). unfold evaluate in H. inversion H. split; reflexivity.
Qed.
Lemma ld_update_consistent rng ld p g p' g' : ld_update rng ld p g = Ok (p', g') -> consistent (ld_pot ld) p'.
Proof.
  unfold ld_update. destruct (ld_kind ld).
  - destruct (r_normal _ _ g) as [n1 g1]. destruct (r_normal _ _ g1) as [n2 g2]. intros H. apply bind_inv in H as (q & Hq & H).
    inversion H; subst. eapply bp_consistent; eassumption.
  - destruct (r_normal _ _ g) as [n1 g1]. intros H. apply bind_inv in H as (q & Hq & H).
    inversion H; subst. eapply od_consistent; eassumption.
Qed.
Lemma ld_run_forall (P : particle -> Prop) rng ld : (forall p g p' g', ld_update rng ld p g = Ok (p', g') -> P p') ->
  forall ps g ps' g', ld_run rng ld ps g = Ok (ps', g') -> Forall P ps'.
Proof.
  intros HP. induction ps as [|p ps IH]; intros g ps' g' H; cbn in H.
  - inversion H. constructor.
  - apply bind_inv in H as ([p1 g1] & H1 & H). apply bind_inv in H as ([ps2 g2] & H2 & H). inversion H; subst.
    constructor; [eapply HP; eassumption|eapply IH; eassumption].
Qed.
Lemma new_particle_consistent ld pos mass p : new_particle ld pos mass = Ok p -> consistent (ld_pot ld) p.
Proof.
  unfold new_particle. destruct (negb _); [discriminate|]. intros H. apply bind_inv in H as (q & Hq & H). unfold evaluate in H.
  inversion H. split; reflexivity.
Qed.

Lemma Forall_set_nth {A} (P : A -> Prop) l k x : Forall P l -> P x -> Forall P (set_nth l k x).
Proof. intros H Hx. revert k. induction H; intros [|k]; cbn; constructor; auto. Qed.
Lemma Forall_firstn {A} (P : A -> Prop) l k : Forall P l -> Forall P (firstn k l).
Proof. intros H. revert k. induction H; intros [|k]; cbn; constructor; auto. Qed.
Lemma Forall_skipn {A} (P : A -> Prop) l k : Forall P l -> Forall P (skipn k l).
Proof. intros H. revert k. induction H; intros [|k]; cbn; auto. Qed.

Lemma add_particle_forall (P : particle -> Prop) ld ps pos mass partnum ow ps' :
  (forall p, new_particle ld pos mass = Ok p -> P p) -> Forall P ps ->
  add_particle ld ps pos mass partnum ow = Ok ps' -> Forall P ps'.
Proof.
  intros HP F H. unfold add_particle in H. apply bind_inv in H as (p & Hp & H). apply HP in Hp. destruct ow.
  - unfold py_set in H. destruct (py_pos _ _); inversion H. now apply Forall_set_nth.
  - destruct (_ =? _)%Z; inversion H.
    + apply Forall_app. auto.
    + unfold py_insert. apply Forall_app. split; [now apply Forall_firstn|]. constructor; [assumption|]. now apply Forall_skipn.
Qed.
Lemma remove_particle_forall (P : particle -> Prop) ps k ps' : Forall P ps -> remove_particle ps k = Ok ps' -> Forall P ps'.
Proof.
  intros F H. unfold remove_particle, py_del in H. destruct (py_pos _ _); [|discriminate]. injection H as <-.
  change (match ps with [] => [] | _ :: l => skipn n l end) with (skipn (S n) ps).
  apply Forall_app. split; [now apply Forall_firstn|now apply Forall_skipn].
Qed.
Lemma perform_moves_forall (P : particle -> Prop) ps evs ps' : Forall P ps -> perform_moves ps evs = Ok ps' -> Forall P ps'.
Proof.
  intros F H. apply perform_moves_ok in H as [-> _]. rewrite Forall_forall in *. intros w Hw. apply F. eapply execute_copies; eassumption.
Qed.

Lemma do_ops_consistent rng ld ops : forall ps g ps' g', Forall (consistent (ld_pot ld)) ps ->
  do_ops rng ld ops (ps, g) = Ok (ps', g') -> Forall (consistent (ld_pot ld)) ps'.
Proof.
  unfold do_ops. induction ops as [|o ops IH]; intros ps g ps' g' F H; cbn in H.
  - inversion H; subst; assumption.
  - apply bind_inv in H as ([ps1 g1] & H1 & H). eapply IH; [|exact H]. destruct o; cbn in H1.
    + apply bind_inv in H1 as (q & Hq & H1). inversion H1; subst. eapply add_particle_forall; [|exact F|exact Hq]. intros; eapply new_particle_consistent; eassumption.
    + apply bind_inv in H1 as (q & Hq & H1). inversion H1; subst. eapply remove_particle_forall; eassumption.
    + eapply ld_run_forall; [|exact H1]. intros; eapply ld_update_consistent; eassumption.
    + apply bind_inv in H1 as (q & Hq & H1). inversion H1; subst. eapply perform_moves_forall; eassumption.
Qed.
Lemma history_consistent rng ld ops g ps' g' : do_ops rng ld ops ([], g) = Ok (ps', g') -> Forall (consistent (ld_pot ld)) ps'.
Proof. apply do_ops_consistent. constructor. Qed.

(** ** C24, C25: boundary conditions *)
Lemma reflective_spec rs : forall pos mom, length rs = length pos -> length mom = length pos -> Forall (fun r => fst r <= snd r) rs ->
  exists pos' mom', bc_reflective rs pos mom = Ok (pos', mom') /\ length pos' = length pos /\ length mom' = length mom /\
    forall d, (d < length pos)%nat ->
      let lo := fst (nth d rs (0, 0)) in let hi := snd (nth d rs (0, 0)) in
      let x := nth d pos 0 in let m := nth d mom 0 in let x' := nth d pos' 0 in let m' := nth d mom' 0 in
      lo <= x' <= hi /\
      (lo <= x <= hi -> x' = x /\ m' = m) /\ (x < lo -> x' = lo /\ m' = - m) /\ (hi < x -> x' = hi /\ m' = - m).
Proof.
  induction rs as [|[lo hi] rs IH]; intros [|x pos] [|m mom] H1 H2 F; cbn in H1, H2; try lia.
  - exists [], []. cbn. repeat split; auto; lia.
  - inversion F as [|? ? F1 F2]; subst. cbn in F1. destruct (IH pos mom ltac:(lia) ltac:(lia) F2) as (pos' & mom' & E & L1 & L2 & S).
    cbn. rewrite E. cbn [bind]. destruct (Rlt_dec x lo); [|destruct (Rlt_dec hi x)]; eexists _, _; (split; [reflexivity|]);
      cbn [length]; (split; [lia|]); (split; [lia|]); intros [|d] Hd; cbn; try (apply S; lia); cbv zeta; repeat split; lra.
Qed.

Lemma periodic_spec rs : forall pos mom, length rs = length pos -> length mom = length pos ->
  exists pos', bc_periodic rs pos mom = Ok (pos', mom) /\ length pos' = length pos /\
    forall d, (d < length pos)%nat ->
      let lo := fst (nth d rs (0, 0)) in let hi := snd (nth d rs (0, 0)) in
      let x := nth d pos 0 in let x' := nth d pos' 0 in
      (lo <= x <= hi -> x' = x) /\ (x < lo -> x' = x + (hi - lo)) /\ (hi < x -> ~ x < lo -> x' = x - (hi - lo)).
Proof.
  induction rs as [|[lo hi] rs IH]; intros [|x pos] [|m mom] H1 H2; cbn in H1, H2; try lia.
  - exists []. cbn. repeat split; auto; lia.
  - destruct (IH pos mom ltac:(lia) ltac:(lia)) as (pos' & E & L1 & S).
    cbn. rewrite E. cbn [bind]. destruct (Rlt_dec x lo); [|destruct (Rlt_dec hi x)]; eexists; (split; [reflexivity|]);
      cbn [length]; (split; [lia|]); intros [|d] Hd; cbn; try (apply S; lia); cbv zeta; repeat split; lra.
Qed.

Lemma apply_reflective pot pos mom : pot_bc pot = Some Reflective -> proper_ranges (length pos) (pot_ranges pot) ->
  length mom = length pos ->
  exists pos' mom', apply_boundary_condition pot pos mom = Ok (pos', mom') /\
    length pos' = length pos /\ length mom' = length mom /\
    forall d, (d < length pos)%nat ->
      let lo := fst (nth d (pot_ranges pot) (0, 0)) in let hi := snd (nth d (pot_ranges pot) (0, 0)) in
      let x := nth d pos 0 in let m := nth d mom 0 in let x' := nth d pos' 0 in let m' := nth d mom' 0 in
      lo <= x' <= hi /\
      (lo <= x <= hi -> x' = x /\ m' = m) /\ (x < lo -> x' = lo /\ m' = - m) /\ (hi < x -> x' = hi /\ m' = - m).
Proof. intros B [L F] Hm. unfold apply_boundary_condition. rewrite B. now apply reflective_spec. Qed.

Lemma apply_periodic pot pos mom : pot_bc pot = Some Periodic -> proper_ranges (length pos) (pot_ranges pot) ->
  length mom = length pos ->
  exists pos', apply_boundary_condition pot pos mom = Ok (pos', mom) /\ length pos' = length pos /\
    forall d, (d < length pos)%nat ->
      let lo := fst (nth d (pot_ranges pot) (0, 0)) in let hi := snd (nth d (pot_ranges pot) (0, 0)) in
      let x := nth d pos 0 in let x' := nth d pos' 0 in
      (lo <= x <= hi -> x' = x) /\ (x < lo -> x' = x + (hi - lo)) /\ (hi < x -> x' = x - (hi - lo)).
Proof.
  intros B [L F] Hm. unfold apply_boundary_condition. rewrite B.
  destruct (periodic_spec (pot_ranges pot) pos mom L Hm) as (pos' & E & Lp & S). exists pos'. split; [assumption|]. split; [assumption|].
  intros d Hd. destruct (S d Hd) as (S1 & S2 & S3). cbv zeta. split; [assumption|]. split; [assumption|].
  intros Hx. apply S3; [assumption|]. rewrite Forall_forall in F. specialize (F (nth d (pot_ranges pot) (0, 0)) ltac:(apply nth_In; lia)). lra.
Qed.

Lemma apply_periodic_good pot pos mom : pot_bc pot = Some Periodic -> proper_ranges (length pos) (pot_ranges pot) ->
  length mom = length pos ->
  (forall d, (d < length pos)%nat ->
     let lo := fst (nth d (pot_ranges pot) (0, 0)) in let hi := snd (nth d (pot_ranges pot) (0, 0)) in
     lo - (hi - lo) <= nth d pos 0 <= hi + (hi - lo)) ->
  exists pos', apply_boundary_condition pot pos mom = Ok (pos', mom) /\ length pos' = length pos /\
    forall d, (d < length pos)%nat ->
      let lo := fst (nth d (pot_ranges pot) (0, 0)) in let hi := snd (nth d (pot_ranges pot) (0, 0)) in
      lo <= nth d pos' 0 <= hi /\ exists k : Z, nth d pos' 0 = nth d pos 0 + IZR k * (hi - lo).
Proof.
  intros B W Hm Hin. destruct (apply_periodic pot pos mom B W Hm) as (pos' & E & L & S). exists pos'. split; [assumption|]. split; [assumption|].
  intros d Hd. specialize (Hin d Hd). destruct (S d Hd) as (S1 & S2 & S3). cbv zeta in *.
  set (lo := fst _) in *. set (hi := snd _) in *. destruct (Rlt_dec (nth d pos 0) lo) as [Hl|Hl]; [|destruct (Rlt_dec hi (nth d pos 0)) as [Hh|Hh]].
  - rewrite (S2 Hl). split; [lra|]. exists 1%Z. lra.
  - rewrite (S3 Hh). split; [lra|]. exists (-1)%Z. lra.
  - rewrite S1 by lra. split; [lra|]. exists 0%Z. lra.
Qed.

Lemma apply_periodic_far pot pos mom d : pot_bc pot = Some Periodic -> proper_ranges (length pos) (pot_ranges pot) ->
  length mom = length pos -> (d < length pos)%nat ->
  let lo := fst (nth d (pot_ranges pot) (0, 0)) in let hi := snd (nth d (pot_ranges pot) (0, 0)) in
  (nth d pos 0 < lo - (hi - lo) \/ hi + (hi - lo) < nth d pos 0) ->
  exists pos' mom', apply_boundary_condition pot pos mom = Ok (pos', mom') /\ ~ (lo <= nth d pos' 0 <= hi).
Proof.
  intros B W Hm Hd lo hi Hfar. destruct (apply_periodic pot pos mom B W Hm) as (pos' & E & L & S). exists pos', mom. split; [assumption|].
  destruct (S d Hd) as (S1 & S2 & S3). fold lo hi in S1, S2, S3. cbv zeta in *.
  assert (lo <= hi). { destruct W as [Lw F]. rewrite Forall_forall in F. apply (F (nth d (pot_ranges pot) (0, 0))), nth_In. lia. }
  destruct Hfar as [Hf|Hf]; [rewrite S2 by lra|rewrite S3 by lra]; lra.
Qed.

(** inside after every Langevin step *)
Lemma inside_nth rs pos : length rs = length pos ->
  (forall d, (d < length pos)%nat -> fst (nth d rs (0, 0)) <= nth d pos 0 <= snd (nth d rs (0, 0))) -> inside rs pos.
Proof.
  revert pos. induction rs as [|r rs IH]; intros [|x pos] L H; cbn in L; try lia; constructor.
  - apply (H 0%nat). cbn; lia.
  - apply IH; [lia|]. intros d Hd. apply (H (S d)). cbn; lia.
Qed.

Lemma vadd_length a b : length (vadd a b) = Nat.min (length a) (length b).
Proof. apply vmap2_length. Qed.
Lemma vscale_length c a : length (vscale c a) = length a.
Proof. apply map_length. Qed.

Lemma bc_reflective_inside rs pos mom pos' mom' : Forall (fun r => fst r <= snd r) rs -> length rs = length pos ->
  bc_reflective rs pos mom = Ok (pos', mom') -> inside rs pos'.
Proof.
  revert pos mom pos' mom'. induction rs as [|[lo hi] rs IH]; intros [|x pos] mom pos' mom' F L H; cbn in L; try lia; cbn in H.
  - inversion H. constructor.
  - inversion F as [|? ? F1 F2]; subst. cbn in F1. destruct mom as [|m mom]; [discriminate|].
    destruct (Rlt_dec x lo); [|destruct (Rlt_dec hi x)]; apply bind_inv in H as ([p q] & H1 & H); inversion H; subst;
      (constructor; [cbn; lra|eapply IH; eauto; lia]).
Qed.

Lemma ld_update_inside rng ld p g p' g' : rng_ok rng -> pot_bc (ld_pot ld) = Some Reflective ->
  proper_ranges (pot_ndim (ld_pot ld)) (pot_ranges (ld_pot ld)) -> right_size (pot_ndim (ld_pot ld)) p ->
  ld_update rng ld p g = Ok (p', g') -> inside (pot_ranges (ld_pot ld)) (p_pos p').
Proof.
  intros R B [L F] (S1 & S2 & S3) H. unfold ld_update in H. destruct (ld_kind ld).
  - pose proof (ok_normal rng R (pot_ndim (ld_pot ld)) g) as N1. destruct (r_normal _ _ g) as [n1 g1].
    destruct (r_normal _ _ g1) as [n2 g2]. apply bind_inv in H as (q & Hq & H).
    inversion H; subst. unfold bp_update in Hq. apply bind_inv in Hq as ([pos mom] & Hb & Hq). unfold evaluate in Hq. inversion Hq; subst. cbn.
    unfold apply_boundary_condition in Hb. rewrite B in Hb. eapply bc_reflective_inside; [exact F| |exact Hb].
    rewrite vadd_length, map_length, !vadd_length, !vscale_length, map_length. cbn in N1. rewrite N1, S1, S2, S3, L. lia.
  - pose proof (ok_normal rng R (pot_ndim (ld_pot ld)) g) as N1. destruct (r_normal _ _ g) as [n1 g1].
    apply bind_inv in H as (q & Hq & H).
    inversion H; subst. unfold od_update in Hq. apply bind_inv in Hq as ([pos mom] & Hb & Hq). unfold evaluate in Hq. inversion Hq; subst. cbn.
    unfold apply_boundary_condition in Hb. rewrite B in Hb. eapply bc_reflective_inside; [exact F| |exact Hb].
    rewrite !vadd_length, !vscale_length. cbn in N1. rewrite N1, S1, S3, L. lia.
Qed.

(** ** sizes are kept *)
Lemma bc_length pot pos mom : length mom = length pos -> (pot_bc pot = None \/ length (pot_ranges pot) = length pos) ->
  exists pos' mom', apply_boundary_condition pot pos mom = Ok (pos', mom') /\ length pos' = length pos /\ length mom' = length mom.
Proof.
  intros Hm Hr. unfold apply_boundary_condition. destruct (pot_bc pot) as [[|]|]; [| |eauto].
  - destruct Hr as [|Hr]; [discriminate|]. revert mom Hm Hr. generalize (pot_ranges pot). intros rs. revert rs.
    induction pos as [|x pos IH]; intros rs mom Hm Hr; [destruct rs; [cbn; eauto|discriminate]|].
    destruct rs as [|[lo hi] rs]; [discriminate|]. destruct mom as [|m mom]; [discriminate|].
    cbn in Hr, Hm.
    cbn. destruct (IH rs mom ltac:(lia) ltac:(lia)) as (p & q & -> & L1 & L2). cbn.
    destruct (Rlt_dec x lo); [|destruct (Rlt_dec hi x)]; eexists _, _; (split; [reflexivity|]); cbn; lia.
  - destruct Hr as [|Hr]; [discriminate|]. destruct (periodic_spec (pot_ranges pot) pos mom Hr Hm) as (p & E & L & _). eauto.
Qed.

Definition bc_ok (pot : potential) : Prop := pot_bc pot = None \/ length (pot_ranges pot) = pot_ndim pot.

Lemma bp_total pot c1 dt p n1 n2 : force_size pot -> bc_ok pot -> right_size (pot_ndim pot) p ->
  length n1 = pot_ndim pot -> length n2 = pot_ndim pot ->
  exists p', bp_update pot c1 dt p n1 n2 = Ok p' /\ right_size (pot_ndim pot) p' /\ p_mass p' = p_mass p /\ p_c2 p' = p_c2 p.
Proof.
  intros FS B (S1 & S2 & S3) N1 N2. unfold bp_update.
  set (mom := vadd (vadd _ _) _). set (pos := vadd _ _).
  assert (length mom = pot_ndim pot) as Lm by (unfold mom; rewrite !vadd_length, !vscale_length, map_length; lia).
  assert (length pos = pot_ndim pot) as Lp by (unfold pos; rewrite vadd_length, map_length; lia).
  destruct (bc_length pot pos mom) as (pos' & mom' & E & L1 & L2); [lia|destruct B; [now left|right; lia]|].
  rewrite E. cbn [bind evaluate]. eexists. split; [reflexivity|]. pose proof (FS pos' ltac:(lia)) as Lf.
  split; [|split; reflexivity]. split; [|split]; cbn; [lia| |lia]. rewrite !vadd_length, !vscale_length, vadd_length, map_length. lia.
Qed.
Lemma od_total pot nf dt p n : force_size pot -> bc_ok pot -> right_size (pot_ndim pot) p -> length n = pot_ndim pot ->
  exists p', od_update pot nf dt p n = Ok p' /\ right_size (pot_ndim pot) p' /\ p_mass p' = p_mass p /\ p_c2 p' = p_c2 p.
Proof.
  intros FS B (S1 & S2 & S3) N. unfold od_update. set (pos := vadd _ _).
  assert (length pos = pot_ndim pot) as Lp by (unfold pos; rewrite !vadd_length, !vscale_length; lia).
  destruct (bc_length pot pos (p_mom p)) as (pos' & mom' & E & L1 & L2); [lia|destruct B; [now left|right; lia]|].
  rewrite E. cbn [bind evaluate]. eexists. split; [reflexivity|]. pose proof (FS pos' ltac:(lia)) as Lf.
  split; [|split; reflexivity]. split; [|split]; cbn; lia.
Qed.
Lemma ld_update_total rng ld p g : rng_ok rng -> force_size (ld_pot ld) -> bc_ok (ld_pot ld) -> right_size (pot_ndim (ld_pot ld)) p ->
  exists p' g', ld_update rng ld p g = Ok (p', g') /\ right_size (pot_ndim (ld_pot ld)) p' /\ p_mass p' = p_mass p /\ p_c2 p' = p_c2 p.
Proof.
  intros R FS B S. unfold ld_update. destruct (ld_kind ld).
  - pose proof (ok_normal rng R (pot_ndim (ld_pot ld)) g) as N1. destruct (r_normal _ _ g) as [n1 g1].
    pose proof (ok_normal rng R (pot_ndim (ld_pot ld)) g1) as N2. destruct (r_normal _ _ g1) as [n2 g2]. cbn in N1, N2.
    destruct (bp_total (ld_pot ld) (ld_c1 friction (ld_dt ld)) (ld_dt ld) p n1 n2 FS B S N1 N2) as (p' & -> & H). cbn. eauto.
  - pose proof (ok_normal rng R (pot_ndim (ld_pot ld)) g) as N1. destruct (r_normal _ _ g) as [n1 g1]. cbn in N1.
    destruct (od_total (ld_pot ld) (ld_noise_factor (ld_dt ld)) (ld_dt ld) p n1 FS B S N1) as (p' & -> & H). cbn. eauto.
Qed.
Lemma ld_run_total rng ld : rng_ok rng -> force_size (ld_pot ld) -> bc_ok (ld_pot ld) -> forall ps g,
  Forall (right_size (pot_ndim (ld_pot ld))) ps ->
  exists ps' g', ld_run rng ld ps g = Ok (ps', g') /\ Forall (right_size (pot_ndim (ld_pot ld))) ps' /\
    map p_mass ps' = map p_mass ps /\ map p_c2 ps' = map p_c2 ps.
Proof.
  intros R FS B. induction ps as [|p ps IH]; intros g F; cbn; [eexists _, _; repeat split; auto|].
  inversion F; subst. destruct (ld_update_total rng ld p g R FS B) as (p' & g1 & -> & S & M & C); [assumption|]. cbn.
  destruct (IH g1) as (ps' & g2 & -> & F' & M' & C'); [assumption|]. cbn. eexists _, _. split; [reflexivity|].
  split; [now constructor|]. cbn. split; congruence.
Qed.
Lemma ld_run_sizes rng ld ps g ps' g' : rng_ok rng -> force_size (ld_pot ld) -> bc_ok (ld_pot ld) ->
  Forall (right_size (pot_ndim (ld_pot ld))) ps -> ld_run rng ld ps g = Ok (ps', g') -> Forall (right_size (pot_ndim (ld_pot ld))) ps'.
Proof. intros R FS B F H. destruct (ld_run_total rng ld R FS B ps g F) as (q & g2 & E & F' & _). rewrite E in H. inversion H; subst; assumption. Qed.

Lemma ld_run_inside rng ld : rng_ok rng -> pot_bc (ld_pot ld) = Some Reflective ->
  proper_ranges (pot_ndim (ld_pot ld)) (pot_ranges (ld_pot ld)) -> forall ps g ps' g',
  Forall (right_size (pot_ndim (ld_pot ld))) ps -> ld_run rng ld ps g = Ok (ps', g') ->
  Forall (fun p => inside (pot_ranges (ld_pot ld)) (p_pos p)) ps'.
Proof.
  intros R B W. induction ps as [|p ps IH]; intros g ps' g' F H; cbn in H.
  - inversion H. constructor.
  - inversion F; subst. apply bind_inv in H as ([p1 g1] & H1' & H). apply bind_inv in H as ([ps2 g2] & H2' & H). inversion H; subst.
    constructor; [eapply ld_update_inside; eassumption|eapply IH; eassumption].
Qed.

(** any history of Langevin steps and birth-death moves after a first Langevin step *)
Lemma dynamics_inside rng ld : rng_ok rng -> force_size (ld_pot ld) -> pot_bc (ld_pot ld) = Some Reflective ->
  proper_ranges (pot_ndim (ld_pot ld)) (pot_ranges (ld_pot ld)) -> forall ops ps g ps' g',
  Forall dynamics ops -> Forall (right_size (pot_ndim (ld_pot ld))) ps ->
  do_ops rng ld (OpLd :: ops) (ps, g) = Ok (ps', g') ->
  Forall (fun p => inside (pot_ranges (ld_pot ld)) (p_pos p)) ps'.
Proof.
  intros R FS B W. pose proof (proj1 W) as Lr. assert (bc_ok (ld_pot ld)) as BO by (right; assumption).
  assert (forall ops ps g ps' g', Forall dynamics ops -> Forall (right_size (pot_ndim (ld_pot ld))) ps ->
     Forall (fun p => inside (pot_ranges (ld_pot ld)) (p_pos p)) ps -> do_ops rng ld ops (ps, g) = Ok (ps', g') ->
     Forall (fun p => inside (pot_ranges (ld_pot ld)) (p_pos p)) ps') as G.
  { unfold do_ops. induction ops as [|o ops IH]; intros ps g ps' g' D F I H; cbn in H; [inversion H; subst; assumption|].
    inversion D; subst. apply bind_inv in H as ([ps1 g1] & H1' & H). destruct o; try contradiction; cbn in H1'.
    - eapply IH; [assumption| | |exact H]; [eapply ld_run_sizes; eassumption|eapply ld_run_inside; eassumption].
    - apply bind_inv in H1' as (q & Hq & H1'). inversion H1'; subst.
      eapply IH; [assumption| | |exact H]; eapply perform_moves_forall; eassumption. }
  intros ops ps g ps' g' D F H. unfold do_ops in H. cbn [foldM do_op] in H. apply bind_inv in H as ([ps1 g1] & H1 & H).
  eapply G; [exact D| | |exact H]; [eapply ld_run_sizes; eassumption|eapply ld_run_inside; eassumption].
Qed.

(** ** C27 *)
Lemma thermostat friction dt mass kt : 0 <= friction -> 0 <= dt -> 0 < mass -> 0 < kt ->
  let c1 := ld_c1 friction dt in
  0 < c1 <= 1 /\ 0 <= (1 - c1 * c1) * mass * kt /\
  c1 ^ 2 * (mass * kt) + (ld_c2 c1 mass kt) ^ 2 = mass * kt.
Proof.
  intros Hf Hd Hm Hk c1. assert (0 < c1) as P by apply exp_pos.
  assert (c1 <= 1) as L.
  { apply Rle_trans with (exp 0); [unfold c1, ld_c1|rewrite exp_0; lra]. assert (0 <= friction * dt) by now apply Rmult_le_pos.
    destruct (Req_dec (friction * dt) 0) as [E|N].
    - rewrite Rmult_assoc, E, Rmult_0_r. lra.
    - left. apply exp_increasing. rewrite Rmult_assoc. lra. }
  assert (0 <= (1 - c1 * c1) * mass * kt) as Q.
  { apply Rmult_le_pos; [|lra]. apply Rmult_le_pos; [|lra]. assert (c1 * c1 <= 1 * 1) by (apply Rmult_le_compat; lra). lra. }
  split; [lra|]. split; [assumption|]. unfold ld_c2. rewrite pow2_sqrt by assumption. ring.
Qed.
Lemma new_particle_c2 ld friction pos mass p : ld_kind ld = BussiParinello friction -> new_particle ld pos mass = Ok p ->
  p_pos p = pos /\ p_mass p = mass /\ p_mom p = repeat 0 (length pos) /\ p_c2 p = ld_c2 (ld_c1 friction (ld_dt ld)) mass (ld_kt ld).
Proof.
  intros K H. unfold new_particle in H. destruct (negb _); [discriminate|]. unfold particle_init in H.
  rewrite repeat_length, Nat.eqb_refl in H. cbn in H. rewrite K in H. inversion H; cbn. auto.
Qed.

(** ** C28 *)
Fixpoint noises (rng : rng_if) (k : ldkind) (n : nat) (i : nat) (g : rng_st rng) : vec * vec :=
  let (n1, g1) := r_normal rng n g in
  match k with
  | BussiParinello _ => let (n2, g2) := r_normal rng n g1 in
      match i with O => (n1, n2) | S i' => noises rng k n i' g2 end
  | Overdamped => match i with O => (n1, []) | S i' => noises rng k n i' g1 end
  end.
Definition update_one (ld : ldpar) (p : particle) (nn : vec * vec) : res particle :=
  match ld_kind ld with
  | BussiParinello friction => bp_update (ld_pot ld) (ld_c1 friction (ld_dt ld)) (ld_dt ld) p (fst nn) (snd nn)
  | Overdamped => od_update (ld_pot ld) (ld_noise_factor (ld_dt ld)) (ld_dt ld) p (fst nn)
  end.

Lemma ld_run_independent rng ld ps : forall g ps' g', ld_run rng ld ps g = Ok (ps', g') ->
  length ps' = length ps /\
  forall i p, nth_error ps i = Some p -> exists p', nth_error ps' i = Some p' /\
    update_one ld p (noises rng (ld_kind ld) (pot_ndim (ld_pot ld)) i g) = Ok p'.
Proof.
  induction ps as [|p ps IH]; intros g ps' g' H; cbn in H.
  - inversion H. split; [reflexivity|]. intros [|i] q Hq; discriminate.
  - apply bind_inv in H as ([p1 g1] & H1 & H). apply bind_inv in H as ([ps2 g2] & H2 & H). inversion H; subst.
    destruct (IH _ _ _ H2) as [L S]. split; [cbn; congruence|]. unfold ld_update in H1. unfold update_one in *.
    intros [|i] q Hq; cbn in Hq |- *.
    + inversion Hq; subst. exists p1. split; [reflexivity|]. destruct (ld_kind ld); cbn.
      * destruct (r_normal _ _ g) as [n1 g3]. destruct (r_normal _ _ g3) as [n2 g4]. apply bind_inv in H1 as (x & Hx & H1). inversion H1; subst. assumption.
      * destruct (r_normal _ _ g) as [n1 g3]. apply bind_inv in H1 as (x & Hx & H1). inversion H1; subst. assumption.
    + destruct (S i q Hq) as (p' & E & U). exists p'. split; [assumption|]. destruct (ld_kind ld); cbn.
      * destruct (r_normal _ _ g) as [n1 g3]. destruct (r_normal _ _ g3) as [n2 g4]. apply bind_inv in H1 as (x & Hx & H1). inversion H1; subst. assumption.
      * destruct (r_normal _ _ g) as [n1 g3]. apply bind_inv in H1 as (x & Hx & H1). inversion H1; subst. assumption.
Qed.

Lemma noises_length rng k n : rng_ok rng -> forall i g,
  length (fst (noises rng k n i g)) = n /\ match k with BussiParinello _ => length (snd (noises rng k n i g)) = n | Overdamped => True end.
Proof.
  intros R. induction i as [|i IH]; intros g; cbn; pose proof (ok_normal rng R n g) as N1; destruct (r_normal rng n g) as [n1 g1]; destruct k; cbn in *.
  - pose proof (ok_normal rng R n g1) as N2. destruct (r_normal rng n g1) as [n2 g2]. auto.
  - auto.
  - destruct (r_normal rng n g1) as [n2 g2]. apply IH.
  - apply IH.
Qed.

Lemma walkers_independent rng ld g : rng_ok rng -> exists noise : nat -> vec * vec,
  (forall i, length (fst (noise i)) = pot_ndim (ld_pot ld) /\
     match ld_kind ld with BussiParinello _ => length (snd (noise i)) = pot_ndim (ld_pot ld) | Overdamped => True end) /\
  forall ps ps' g',
  ld_run rng ld ps g = Ok (ps', g') ->
  length ps' = length ps /\
  forall i p, nth_error ps i = Some p -> exists p', nth_error ps' i = Some p' /\
    match ld_kind ld with
    | BussiParinello friction => bp_update (ld_pot ld) (ld_c1 friction (ld_dt ld)) (ld_dt ld) p (fst (noise i)) (snd (noise i)) = Ok p'
    | Overdamped => od_update (ld_pot ld) (ld_noise_factor (ld_dt ld)) (ld_dt ld) p (fst (noise i)) = Ok p'
    end.
Proof.
  intros R. exists (fun i => noises rng (ld_kind ld) (pot_ndim (ld_pot ld)) i g). split; [intros i; now apply noises_length|]. intros ps ps' g' H. destruct (ld_run_independent _ _ _ _ _ _ H) as [L S].
  split; [assumption|]. intros i p Hp. destruct (S i p Hp) as (p' & E & U). exists p'. split; [assumption|]. unfold update_one in U. destruct (ld_kind ld); assumption.
Qed.

Lemma nth_vadd a b d : (d < length a)%nat -> (d < length b)%nat -> nth d (vadd a b) 0 = nth d a 0 + nth d b 0.
Proof. revert b d. induction a as [|x a IH]; intros [|y b] [|d] H1 H2; cbn in *; try lia; [reflexivity|]. apply IH; lia. Qed.

Lemma bp_equations pot c1 dt p n1 n2 : pot_bc pot = None -> force_size pot -> right_size (pot_ndim pot) p ->
  length n1 = pot_ndim pot -> length n2 = pot_ndim pot ->
  exists p', bp_update pot c1 dt p n1 n2 = Ok p' /\ right_size (pot_ndim pot) p' /\
    p_mass p' = p_mass p /\ p_c2 p' = p_c2 p /\ consistent pot p' /\
    forall d, (d < pot_ndim pot)%nat ->
      nth d (p_pos p') 0 = bp_position c1 (p_c2 p) dt (p_mass p) (nth d (p_pos p) 0) (nth d (p_mom p) 0) (nth d (p_forces p) 0) (nth d n1 0) /\
      nth d (p_mom p') 0 = bp_momentum c1 (p_c2 p) dt (nth d (p_mom p) 0) (nth d (p_forces p) 0) (nth d (p_forces p') 0) (nth d n1 0) (nth d n2 0).
Proof.
  intros B FS S N1 N2. destruct (bp_total pot c1 dt p n1 n2 FS (or_introl B) S N1 N2) as (p' & E & S' & M & C).
  exists p'. split; [assumption|]. split; [assumption|]. split; [assumption|]. split; [assumption|].
  split; [eapply bp_consistent; eassumption|]. intros d Hd. destruct S as (S1 & S2 & S3).
  unfold bp_update, apply_boundary_condition in E. rewrite B in E. cbn [bind evaluate] in E.
  set (mom1 := vadd (vadd (vscale c1 (p_mom p)) (vscale (p_c2 p) n1)) (map (fun f => 1 / 2 * f * dt) (p_forces p))) in *.
  set (pos1 := vadd (p_pos p) (map (fun m => m / p_mass p * dt) mom1)) in *.
  inversion E; subst p'; cbn [p_pos p_mom p_forces].
  assert (length mom1 = pot_ndim pot) as Lm by (unfold mom1; rewrite !vadd_length, !vscale_length, map_length; lia).
  assert (length pos1 = pot_ndim pot) as Lp by (unfold pos1; rewrite vadd_length, map_length; lia).
  pose proof (FS pos1 Lp) as Lf.
  assert (nth d mom1 0 = c1 * nth d (p_mom p) 0 + p_c2 p * nth d n1 0 + nth d (p_forces p) 0 * dt / 2) as Em.
  { unfold mom1. rewrite !nth_vadd by (rewrite ?vadd_length, ?vscale_length, ?map_length; lia). unfold vscale.
    rewrite !(nth_map_in _ _ _ _ 0) by lia. field. }
  split.
  - unfold pos1. rewrite nth_vadd by (rewrite ?map_length; lia). rewrite (nth_map_in _ _ _ _ 0) by lia. rewrite Em. reflexivity.
  - rewrite nth_vadd by (rewrite ?vscale_length, ?vadd_length, ?map_length; lia). unfold vscale. rewrite !(nth_map_in _ _ _ _ 0) by (rewrite ?vadd_length, ?map_length; lia).
    rewrite nth_vadd by (rewrite ?map_length; lia). rewrite (nth_map_in _ _ _ _ 0) by lia. rewrite Em. unfold bp_momentum. field.
Qed.

Lemma od_equations pot dt p n : pot_bc pot = None -> force_size pot -> right_size (pot_ndim pot) p -> length n = pot_ndim pot ->
  exists p', od_update pot (ld_noise_factor dt) dt p n = Ok p' /\ right_size (pot_ndim pot) p' /\
    p_mass p' = p_mass p /\ p_mom p' = p_mom p /\ consistent pot p' /\
    forall d, (d < pot_ndim pot)%nat ->
      nth d (p_pos p') 0 = nth d (p_pos p) 0 + nth d (p_forces p) 0 * dt + sqrt (2 * dt) * nth d n 0.
Proof.
  intros B FS S N. destruct (od_total pot (ld_noise_factor dt) dt p n FS (or_introl B) S N) as (p' & E & S' & M & C).
  exists p'. split; [assumption|]. split; [assumption|]. split; [assumption|]. pose proof (od_consistent _ _ _ _ _ _ E) as CO.
  unfold od_update, apply_boundary_condition in E. rewrite B in E. cbn [bind evaluate] in E. inversion E; subst p'. cbn [p_mom p_pos].
  split; [reflexivity|]. split; [assumption|]. destruct S as (S1 & S2 & S3). intros d Hd.
  rewrite !nth_vadd by (rewrite ?vadd_length, ?vscale_length; lia). unfold vscale. rewrite !(nth_map_in _ _ _ _ 0) by lia. unfold ld_noise_factor. ring.
Qed.

(** ** C26 *)
Lemma list_ext_nth (a b : vec) n : length a = n -> length b = n -> (forall d, (d < n)%nat -> nth d a 0 = nth d b 0) -> a = b.
Proof. intros L1 L2 H. apply nth_ext with (d := 0) (d' := 0); [lia|]. intros d Hd. apply H. lia. Qed.
Lemma particle_ext pot p q : consistent pot p -> consistent pot q -> p_pos p = p_pos q -> p_mom p = p_mom q -> p_mass p = p_mass q -> p_c2 p = p_c2 q -> p = q.
Proof. destruct p, q. unfold consistent; cbn. intros [-> ->] [-> ->] -> -> -> ->. reflexivity. Qed.

Definition fl_step (pot : potential) (dt : R) (p : particle) : particle :=
  match bp_update pot 1 dt p (repeat 0 (pot_ndim pot)) (repeat 0 (pot_ndim pot)) with Ok q => q | Err _ => p end.

Lemma fl_update pot dt p n1 n2 : pot_bc pot = None -> force_size pot -> frictionless_walker pot p ->
  length n1 = pot_ndim pot -> length n2 = pot_ndim pot ->
  bp_update pot 1 dt p n1 n2 = Ok (fl_step pot dt p) /\ frictionless_walker pot (fl_step pot dt p).
Proof.
  intros B FS (S & Co & M & C2) N1 N2. destruct (bp_equations pot 1 dt p n1 n2 B FS S N1 N2) as (p' & E & S' & M' & C' & Co' & Eq).
  assert (length (repeat 0 (pot_ndim pot)) = pot_ndim pot) as Z by apply repeat_length.
  destruct (bp_equations pot 1 dt p _ _ B FS S Z Z) as (q & Eq0 & Sq & Mq & Cq & Coq & Eqq).
  unfold fl_step. rewrite Eq0. assert (p' = q) as ->.
  { assert (p_pos p' = p_pos q) as HP.
    { apply (list_ext_nth _ _ (pot_ndim pot)); [apply S'|apply Sq|]. intros d Hd. rewrite (proj1 (Eq d Hd)), (proj1 (Eqq d Hd)). unfold bp_position. rewrite C2. f_equal. f_equal. f_equal. lra. }
    apply (particle_ext pot); auto; try congruence.
    apply (list_ext_nth _ _ (pot_ndim pot)); [apply S'|apply Sq|]. intros d Hd. rewrite (proj2 (Eq d Hd)), (proj2 (Eqq d Hd)). unfold bp_momentum. rewrite C2.
    rewrite (proj2 Co'), (proj2 Coq), HP. lra. }
  split; [assumption|]. split; [assumption|]. split; [assumption|]. split; congruence.
Qed.

Lemma fl_ld_run rng ld : rng_ok rng -> ld_kind ld = BussiParinello 0 -> pot_bc (ld_pot ld) = None -> force_size (ld_pot ld) -> forall ps g,
  Forall (frictionless_walker (ld_pot ld)) ps ->
  exists g', ld_run rng ld ps g = Ok (map (fl_step (ld_pot ld) (ld_dt ld)) ps, g').
Proof.
  intros R K B FS. induction ps as [|p ps IH]; intros g F; cbn; [eauto|]. inversion F as [|? ? F1 F2]; subst.
  unfold ld_update. rewrite K. pose proof (ok_normal rng R (pot_ndim (ld_pot ld)) g) as N1. destruct (r_normal _ _ g) as [n1 g1].
  pose proof (ok_normal rng R (pot_ndim (ld_pot ld)) g1) as N2. destruct (r_normal _ _ g1) as [n2 g2]. cbn in N1, N2.
  replace (ld_c1 0 (ld_dt ld)) with 1 by (unfold ld_c1; rewrite Rmult_0_r, Rmult_0_l, exp_0; reflexivity).
  rewrite (proj1 (fl_update (ld_pot ld) (ld_dt ld) p n1 n2 B FS F1 N1 N2)). cbn. destruct (IH g2 F2) as (g' & ->). cbn. eauto.
Qed.

Lemma fl_keeps pot dt p : pot_bc pot = None -> force_size pot -> frictionless_walker pot p -> frictionless_walker pot (fl_step pot dt p).
Proof.
  intros B FS F. assert (length (repeat 0 (pot_ndim pot)) = pot_ndim pot) as Z by apply repeat_length. apply (fl_update pot dt p _ _ B FS F Z Z).
Qed.

Lemma reverse_fl pot p : frictionless_walker pot p -> frictionless_walker pot (reverse_momentum p).
Proof. intros ((S1 & S2 & S3) & Co & M & C). split; [|split; [exact Co|split; assumption]]. split; [exact S1|]. split; [cbn; now rewrite map_length|exact S3]. Qed.

Lemma fl_reverse pot dt p : pot_bc pot = None -> force_size pot -> frictionless_walker pot p ->
  fl_step pot dt (reverse_momentum (fl_step pot dt p)) = reverse_momentum p.
Proof.
  intros B FS F. assert (length (repeat 0 (pot_ndim pot)) = pot_ndim pot) as Z by apply repeat_length.
  pose proof (fl_keeps pot dt p B FS F) as F1. pose proof (reverse_fl pot _ F1) as F2.
  destruct F as (S & Co & M & C2). destruct F1 as (S1 & Co1 & M1 & C21). destruct F2 as (S2 & Co2 & M2 & C22).
  set (q := fl_step pot dt p) in *.
  destruct (bp_equations pot 1 dt p _ _ B FS S Z Z) as (q' & E' & _ & Mq & _ & _ & Eq). unfold q, fl_step in *. rewrite E' in *. clear q E'. rename q' into q.
  destruct (bp_equations pot 1 dt (reverse_momentum q) _ _ B FS S2 Z Z) as (r & E2 & Sr & Mr & Cr & Cor & Er). rewrite E2.
  assert (forall d, (d < pot_ndim pot)%nat -> nth d (p_mom (reverse_momentum q)) 0 = - nth d (p_mom q) 0) as Neg.
  { intros d Hd. cbn. rewrite (nth_map_in _ _ _ _ 0) by (destruct S1 as (_ & X & _); lia). reflexivity. }
  assert (p_pos r = p_pos p) as HP.
  { apply (list_ext_nth _ _ (pot_ndim pot)); [apply Sr|apply S|]. intros d Hd. rewrite (proj1 (Er d Hd)). unfold bp_position. rewrite (Neg d Hd).
    cbn [reverse_momentum p_pos p_forces p_mass p_c2]. rewrite (proj1 (Eq d Hd)), (proj2 (Eq d Hd)). unfold bp_position, bp_momentum. rewrite C2, C21, Mq. field. assumption. }
  apply (particle_ext pot); auto.
  - cbn. apply (list_ext_nth _ _ (pot_ndim pot)); [apply Sr|cbn; rewrite map_length; apply S|]. intros d Hd. rewrite (proj2 (Er d Hd)).
    rewrite (proj2 Cor), HP, <- (proj2 Co). rewrite (nth_map_in _ (p_mom p) d 0 0) by (destruct S as (_ & X & _); lia). unfold bp_momentum. rewrite (Neg d Hd), (proj2 (Eq d Hd)). cbn [reverse_momentum p_forces p_c2]. unfold bp_momentum. rewrite C2, C21. field.
  - cbn. rewrite Mr. exact Mq.
  - cbn. rewrite Cr. cbn. congruence.
Qed.

Lemma iter_comm {A} (f : A -> A) n a : Nat.iter (S n) f a = Nat.iter n f (f a).
Proof.
  induction n as [|n IH]; [reflexivity|]. change (f (Nat.iter (S n) f a) = f (Nat.iter n f (f a))). now rewrite IH.
Qed.

Lemma ld_steps_fl rng ld : rng_ok rng -> ld_kind ld = BussiParinello 0 -> pot_bc (ld_pot ld) = None -> force_size (ld_pot ld) -> forall n ps g,
  Forall (frictionless_walker (ld_pot ld)) ps ->
  exists g', ld_steps rng ld n ps g = Ok (map (Nat.iter n (fl_step (ld_pot ld) (ld_dt ld))) ps, g').
Proof.
  intros R K B FS. induction n as [|n IH]; intros ps g F; cbn [ld_steps]; [cbn; rewrite map_id; eauto|].
  destruct (fl_ld_run rng ld R K B FS ps g F) as (g1 & ->). cbn [bind].
  destruct (IH (map (fl_step (ld_pot ld) (ld_dt ld)) ps) g1) as (g2 & ->).
  - apply Forall_map. eapply Forall_impl; [|exact F]. cbv beta. intros a Ha. now apply fl_keeps.
  - rewrite map_map. exists g2. f_equal. f_equal. apply map_ext. intros a. now rewrite iter_comm.
Qed.

Lemma iter_keeps pot dt n p : pot_bc pot = None -> force_size pot -> frictionless_walker pot p -> frictionless_walker pot (Nat.iter n (fl_step pot dt) p).
Proof. intros B FS F. induction n; cbn; [assumption|]. now apply fl_keeps. Qed.
Lemma iter_reverse pot dt n : pot_bc pot = None -> force_size pot -> forall p, frictionless_walker pot p ->
  Nat.iter n (fl_step pot dt) (reverse_momentum (Nat.iter n (fl_step pot dt) p)) = reverse_momentum p.
Proof.
  intros B FS. induction n as [|n IH]; intros p F; [reflexivity|].
  rewrite iter_comm. change (Nat.iter (S n) (fl_step pot dt) p) with (fl_step pot dt (Nat.iter n (fl_step pot dt) p)). rewrite fl_reverse by (auto using iter_keeps). now apply IH.
Qed.

Lemma noise_free rng ld n ps g1 g2 : rng_ok rng -> ld_kind ld = BussiParinello 0 -> pot_bc (ld_pot ld) = None -> force_size (ld_pot ld) ->
  Forall (frictionless_walker (ld_pot ld)) ps ->
  exists ps' g1' g2', ld_steps rng ld n ps g1 = Ok (ps', g1') /\ ld_steps rng ld n ps g2 = Ok (ps', g2').
Proof.
  intros R K B FS F. destruct (ld_steps_fl rng ld R K B FS n ps g1 F) as (g1' & E1). destruct (ld_steps_fl rng ld R K B FS n ps g2 F) as (g2' & E2). eauto.
Qed.
Lemma reversible rng ld n ps g1 g2 : rng_ok rng -> ld_kind ld = BussiParinello 0 -> pot_bc (ld_pot ld) = None -> force_size (ld_pot ld) ->
  Forall (frictionless_walker (ld_pot ld)) ps ->
  exists ps' g1' g2', ld_steps rng ld n ps g1 = Ok (ps', g1') /\
    ld_steps rng ld n (map reverse_momentum ps') g2 = Ok (map reverse_momentum ps, g2').
Proof.
  intros R K B FS F. destruct (ld_steps_fl rng ld R K B FS n ps g1 F) as (g1' & E1).
  assert (Forall (frictionless_walker (ld_pot ld)) (map reverse_momentum (map (Nat.iter n (fl_step (ld_pot ld) (ld_dt ld))) ps))) as F'.
  { do 2 apply Forall_map. eapply Forall_impl; [|exact F]. cbv beta. intros a Ha. apply reverse_fl, iter_keeps; assumption. }
  destruct (ld_steps_fl rng ld R K B FS n _ g2 F') as (g2' & E2). exists (map (Nat.iter n (fl_step (ld_pot ld) (ld_dt ld))) ps), g1', g2'. split; [assumption|].
  rewrite E2. f_equal. f_equal. rewrite !map_map. apply map_ext_in. intros a Ha. rewrite Forall_forall in F. apply iter_reverse; auto.
Qed.

(** ** examples *)
Lemma demo_force_size bc : force_size (demo_pot bc).
Proof. intros x H. cbn in *. now rewrite map_length. Qed.
Lemma demo_ranges bc : proper_ranges (pot_ndim (demo_pot bc)) (pot_ranges (demo_pot bc)).
Proof. split; [reflexivity|]. repeat constructor; cbn; lra. Qed.
Lemma demo_history k : exists w g, do_ops demo_rng (demo_ld k None)
  [OpAdd [1; 0] 1 (-1) false; OpAdd [2; 1] 3 (-1) false; OpLd; OpAdd [0; 0] 1 0 false; OpBd [(1, 2)%nat]; OpLd; OpRemove 0; OpAdd [5; 5] 1 1 true; OpLd]
  ([], 7%nat) = Ok (w, g) /\ length w = 2%nat.
Proof. destruct k; eexists _, _; split; reflexivity. Qed.
Lemma demo_walkers_size k bc : exists ps, do_ops demo_rng (demo_ld k bc) [OpAdd [1; 0] 1 (-1) false; OpAdd [2; 5] 3 (-1) false] ([], 7%nat) = Ok (ps, 7%nat) /\
  Forall (right_size (pot_ndim (demo_pot bc))) ps.
Proof. destruct k; eexists; (split; [reflexivity|]); repeat constructor. Qed.
Lemma demo_reflect : apply_boundary_condition (demo_pot (Some Reflective)) [3; 1] [7; 8] = Ok ([1; 1], [-7; 8]).
Proof.
  unfold apply_boundary_condition; cbn. destruct (Rlt_dec 3 (-1)); [lra|]. destruct (Rlt_dec 1 3); [|lra]. destruct (Rlt_dec 1 (-2)); [lra|]. destruct (Rlt_dec 2 1); [lra|]. cbn. replace (- (7)) with (-7) by lra. reflexivity.
Qed.
Lemma demo_periodic_far : proper_ranges 2 (pot_ranges (demo_pot (Some Periodic))) /\
  apply_boundary_condition (demo_pot (Some Periodic)) [7/2; 3] [7; 8] = Ok ([3/2; -1], [7; 8]).
Proof.
  split; [apply (demo_ranges None)|]. unfold apply_boundary_condition; cbn. destruct (Rlt_dec 3 (-2)); [lra|]. destruct (Rlt_dec 2 3); [|lra]. destruct (Rlt_dec (7/2) (-1)); [lra|]. destruct (Rlt_dec 1 (7/2)); [|lra]. cbn. replace (7 / 2 - (1 - -1)) with (3/2) by lra. replace (3 - (2 - -2)) with (-1) by lra. reflexivity.
Qed.
Lemma periodic_refuted : ~ forall pot pos mom, pot_bc pot = Some Periodic -> proper_ranges (length pos) (pot_ranges pot) ->
  length mom = length pos -> forall pos' mom', apply_boundary_condition pot pos mom = Ok (pos', mom') -> inside (pot_ranges pot) pos'.
Proof.
  intros H. destruct demo_periodic_far as [W E]. specialize (H (demo_pot (Some Periodic)) [7/2; 3] [7; 8] eq_refl W eq_refl _ _ E). inversion H as [|? ? ? ? F _]; subst. cbn in F. lra.
Qed.
Lemma demo_frictionless : exists ps, add_particle (demo_ld (BussiParinello 0) None) [] [1; 2] 3 (-1) false = Ok ps /\
  length ps = 1%nat /\ Forall (frictionless_walker (demo_pot None)) ps.
Proof.
  eexists. split; [reflexivity|]. split; [reflexivity|]. constructor; [|constructor]. split; [split; [reflexivity|split; reflexivity]|]. split; [split; reflexivity|].
  split; [cbn; lra|]. cbn. unfold ld_c2, ld_c1. rewrite Rmult_0_r, Rmult_0_l, exp_0. replace ((1 - 1 * 1) * 3 * 1) with 0 by lra. apply sqrt_0.
Qed.
Lemma added_frictionless ld pos mass p : ld_kind ld = BussiParinello 0 -> force_size (ld_pot ld) -> mass <> 0 ->
  new_particle ld pos mass = Ok p -> frictionless_walker (ld_pot ld) p.
Proof.
  intros K FS M H. pose proof (new_particle_consistent _ _ _ _ H) as Co. destruct (new_particle_c2 _ _ _ _ _ K H) as (E1 & E2 & E3 & E4).
  assert (length pos = pot_ndim (ld_pot ld)) as L.
  { unfold new_particle in H. destruct (Nat.eqb (length pos) (pot_ndim (ld_pot ld))) eqn:Q; [now apply Nat.eqb_eq|discriminate]. }
  split; [|split; [assumption|split; [congruence|]]].
  - split; [congruence|]. split; [rewrite E3, repeat_length; assumption|]. rewrite (proj2 Co), E1. now apply FS.
  - rewrite E4. unfold ld_c2, ld_c1. rewrite Rmult_0_r, Rmult_0_l, exp_0. replace ((1 - 1 * 1) * mass * ld_kt ld) with 0 by ring. apply sqrt_0.
Qed.
