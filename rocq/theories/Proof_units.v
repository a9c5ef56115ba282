(** Other units: the dynamics (C98) *)
From Coq Require Import Lia Lra.
From Verif Require Import PyBase Model_dyn Model_bd Model_setup Model_main Spec_rng Spec_ld Spec_whole Spec_units Proof_ld.
Open Scope R_scope.

(** ** vectors *)
Definition sc (k : R) (ax : list (R * R)) : vec -> vec := per_axis (fun a x => k * (fst a * x)) ax.
Definition mv (l : R) (ax : list (R * R)) : vec -> vec := per_axis (fun a x => l * (fst a * x) + snd a) ax.
Lemma per_axis_length {A} (f : R * R -> A -> A) ax l : length ax = length l -> length (per_axis f ax l) = length l.
Proof. intros H. unfold per_axis. rewrite map_length, combine_length. lia. Qed.
Lemma sc_vadd k : forall ax v w, sc k ax (vadd v w) = vadd (sc k ax v) (sc k ax w).
Proof.
  induction ax as [|[s t] ax IH]; intros [|x v] [|y w]; try reflexivity. unfold sc, per_axis, vadd in *. cbn [combine map vmap2 fst snd].
  rewrite IH. f_equal. lra.
Qed.
Lemma mv_vadd l : forall ax v w, mv l ax (vadd v w) = vadd (mv l ax v) (sc l ax w).
Proof.
  induction ax as [|[s t] ax IH]; intros [|x v] [|y w]; try reflexivity. unfold mv, sc, per_axis, vadd in *. cbn [combine map vmap2 fst snd].
  rewrite IH. f_equal. lra.
Qed.
Lemma sc_map k k' (f f' : R -> R) : (forall s x, f' (k * (s * x)) = k' * (s * f x)) -> forall ax v, map f' (sc k ax v) = sc k' ax (map f v).
Proof.
  intros H. induction ax as [|[s t] ax IH]; intros [|x v]; try reflexivity. unfold sc, per_axis in *. cbn [combine map fst snd]. rewrite IH. f_equal. apply H.
Qed.
Lemma sc_vscale k k' c c' : c' * k = k' * c -> forall ax v, vscale c' (sc k ax v) = sc k' ax (vscale c v).
Proof. intros H ax v. unfold vscale. apply sc_map. intros s x. transitivity (c' * k * (s * x)); [ring|]. rewrite H. ring. Qed.
Lemma noise_sc k c : forall ax v, vscale (k * c) (vmap2 Rmult (map fst ax) v) = sc k ax (vscale c v).
Proof.
  induction ax as [|[s t] ax IH]; intros [|x v]; try reflexivity. unfold vscale, sc, per_axis in *. cbn [combine map vmap2 fst snd]. rewrite IH. f_equal. lra.
Qed.
Lemma vmap2_len f : forall a b, length (vmap2 f a b) = Nat.min (length a) (length b).
Proof. induction a as [|x a IH]; intros [|y b]; cbn; auto. Qed.

(** ** boundary conditions *)
Section bc.
Context (l : R) (Hl : 0 < l).
Definition nr := per_axis (fun (a r : R * R) => let x := l * (fst a * fst r) + snd a in let y := l * (fst a * snd r) + snd a in (Rmin x y, Rmax x y)).
Lemma both (s x y : R) : s = 1 \/ s = -1 -> x <= y -> forall t, let a := l * (s * x) + t in let b := l * (s * y) + t in
  (s = 1 /\ Rmin a b = a /\ Rmax a b = b) \/ (s = -1 /\ Rmin a b = b /\ Rmax a b = a).
Proof using All.
  intros [-> | ->] H t; cbv zeta; [left|right]; (split; [reflexivity|]); assert (l * x <= l * y) by (apply Rmult_le_compat_l; lra).
  - split; [rewrite Rmin_left|rewrite Rmax_right]; lra.
  - split; [rewrite Rmin_right|rewrite Rmax_left]; lra.
Qed.
Lemma scale_lt x y : l * x < l * y <-> x < y.
Proof using All. split; intros H; [now apply (Rmult_lt_reg_l l)|now apply Rmult_lt_compat_l]. Qed.

Lemma reflective_units k : forall ax rs pos mom, Forall (fun a => fst a = 1 \/ fst a = -1) ax -> Forall (fun r => fst r <= snd r) rs ->
  length rs = length ax -> length pos = length ax -> length mom = length ax ->
  bc_reflective (nr ax rs) (mv l ax pos) (sc k ax mom) = on_ok (fun pm => (mv l ax (fst pm), sc k ax (snd pm))) (bc_reflective rs pos mom).
Proof using All.
  induction ax as [|[s t] ax IH]; intros [|[lo hi] rs] [|x pos] [|m mom] Fa Fr L1 L2 L3; try discriminate; [reflexivity|].
  inversion Fa as [|? ? Hs Fa' E1]. inversion Fr as [|? ? Hr Fr' E2]. subst. cbn [fst snd] in Hs, Hr.
  assert (IH' := IH rs pos mom Fa' Fr' ltac:(cbn in *; lia) ltac:(cbn in *; lia) ltac:(cbn in *; lia)). unfold mv, sc, nr, per_axis in *. cbn [combine map fst snd bc_reflective].
  rewrite IH'. pose proof (both s lo hi Hs Hr t) as B. cbv zeta in B. pose proof (scale_lt x lo). pose proof (scale_lt hi x). pose proof (scale_lt lo x). pose proof (scale_lt x hi).
  destruct B as [(Es & -> & ->)|(Es & -> & ->)]; subst s.
  - destruct (Rlt_dec x lo) as [A|A]; [destruct (Rlt_dec (l * (1 * x) + t) _) as [A'|A']; [|exfalso; apply A'; assert (l * x < l * lo) by tauto; lra]|
      destruct (Rlt_dec (l * (1 * x) + t) _) as [A'|A']; [exfalso; apply A; assert (l * x < l * lo) by lra; tauto|]].
    + destruct (bc_reflective rs pos mom) as [[p q]|]; cbn [bind on_ok fst snd combine map]; [|reflexivity]. f_equal. f_equal. f_equal. ring.
    + destruct (Rlt_dec hi x) as [C|C]; [destruct (Rlt_dec _ (l * (1 * x) + t)) as [C'|C']; [|exfalso; apply C'; assert (l * hi < l * x) by tauto; lra]|
        destruct (Rlt_dec _ (l * (1 * x) + t)) as [C'|C']; [exfalso; apply C; assert (l * hi < l * x) by lra; tauto|]];
      destruct (bc_reflective rs pos mom) as [[p q]|]; cbn [bind on_ok fst snd combine map]; try reflexivity. f_equal. f_equal. f_equal. ring.
  - destruct (Rlt_dec x lo) as [A|A].
    + assert (l * x < l * lo) by tauto. assert (l * lo <= l * hi) by (apply Rmult_le_compat_l; lra). destruct (Rlt_dec (l * (-1 * x) + t) _) as [A'|A']; [exfalso; lra|].
      destruct (Rlt_dec _ (l * (-1 * x) + t)) as [C'|C']; [|exfalso; apply C'; lra].
      destruct (bc_reflective rs pos mom) as [[p q]|]; cbn [bind on_ok fst snd combine map]; [|reflexivity]. f_equal. f_equal. f_equal. ring.
    + assert (l * lo <= l * x) by (apply Rmult_le_compat_l; lra). destruct (Rlt_dec hi x) as [C|C].
      * assert (l * hi < l * x) by tauto. destruct (Rlt_dec (l * (-1 * x) + t) _) as [A'|A']; [|exfalso; apply A'; lra].
        destruct (bc_reflective rs pos mom) as [[p q]|]; cbn [bind on_ok fst snd combine map]; [|reflexivity]. f_equal. f_equal. f_equal. ring.
      * assert (l * x <= l * hi) by (apply Rmult_le_compat_l; lra). destruct (Rlt_dec (l * (-1 * x) + t) _) as [A'|A']; [exfalso; lra|].
        destruct (Rlt_dec _ (l * (-1 * x) + t)) as [C'|C']; [exfalso; lra|].
        destruct (bc_reflective rs pos mom) as [[p q]|]; cbn [bind on_ok fst snd combine map]; reflexivity.
Qed.

Lemma periodic_units k : forall ax rs pos mom, Forall (fun a => fst a = 1 \/ fst a = -1) ax -> Forall (fun r => fst r <= snd r) rs ->
  length rs = length ax -> length pos = length ax -> length mom = length ax ->
  bc_periodic (nr ax rs) (mv l ax pos) (sc k ax mom) = on_ok (fun pm => (mv l ax (fst pm), sc k ax (snd pm))) (bc_periodic rs pos mom).
Proof using All.
  induction ax as [|[s t] ax IH]; intros [|[lo hi] rs] [|x pos] [|m mom] Fa Fr L1 L2 L3; try discriminate; [reflexivity|].
  inversion Fa as [|? ? Hs Fa' E1]. inversion Fr as [|? ? Hr Fr' E2]. subst. cbn [fst snd] in Hs, Hr.
  assert (IH' := IH rs pos mom Fa' Fr' ltac:(cbn in *; lia) ltac:(cbn in *; lia) ltac:(cbn in *; lia)). unfold mv, sc, nr, per_axis in *. cbn [combine map fst snd bc_periodic].
  rewrite IH'. pose proof (both s lo hi Hs Hr t) as B. cbv zeta in B. pose proof (scale_lt x lo). pose proof (scale_lt hi x). pose proof (scale_lt lo x). pose proof (scale_lt x hi).
  destruct (bc_periodic rs pos mom) as [[p q]|]; cbn [bind on_ok fst snd]; [|reflexivity].
  assert (LE : l * lo <= l * hi) by (apply Rmult_le_compat_l; lra).
  destruct B as [(Es & -> & ->)|(Es & -> & ->)]; subst s.
  - destruct (Rlt_dec x lo) as [A|A]; [assert (l * x < l * lo) by tauto|assert (l * lo <= l * x) by (apply Rmult_le_compat_l; lra)];
    (destruct (Rlt_dec hi x) as [C|C]; [assert (l * hi < l * x) by tauto|assert (l * x <= l * hi) by (apply Rmult_le_compat_l; lra)]);
    (destruct (Rlt_dec (l * (1 * x) + t) _) as [A'|A']; try (exfalso; lra));
    try (destruct (Rlt_dec _ (l * (1 * x) + t)) as [C'|C']; try (exfalso; lra)); cbn [on_ok combine map fst snd]; f_equal; f_equal; f_equal; ring.
  - destruct (Rlt_dec x lo) as [A|A]; [assert (l * x < l * lo) by tauto|assert (l * lo <= l * x) by (apply Rmult_le_compat_l; lra)];
    (destruct (Rlt_dec hi x) as [C|C]; [assert (l * hi < l * x) by tauto|assert (l * x <= l * hi) by (apply Rmult_le_compat_l; lra)]);
    (destruct (Rlt_dec (l * (-1 * x) + t) _) as [A'|A']; try (exfalso; lra));
    try (destruct (Rlt_dec _ (l * (-1 * x) + t)) as [C'|C']; try (exfalso; lra)); cbn [on_ok combine map fst snd]; f_equal; f_equal; f_equal; ring.
Qed.
End bc.

(** ** one walker *)
Section dynamics.
Context (u : units) (n : nat) (Hu : units_ok u n).
Notation len := (u_len u). Notation en := (u_en u). Notation tm := (u_time u). Notation ax := (u_axes u).

Lemma new_pos_length x : length x = n -> length (new_pos u x) = n.
Proof using Hu. destruct Hu as (_ & _ & _ & L & _). intros H. unfold new_pos. rewrite per_axis_length; [exact H|congruence]. Qed.

Lemma bc_units pot pot' pos mom : same_potential u pot pot' -> pot_ndim pot = n -> length pos = n -> length mom = n ->
  apply_boundary_condition pot' (new_pos u pos) (new_mom u mom) = on_ok (fun pm => (new_pos u (fst pm), new_mom u (snd pm))) (apply_boundary_condition pot pos mom).
Proof using Hu.
  destruct Hu as (Hl & _ & _ & La & Fa). intros (_ & Eb & Hb & _) En Lp Lm. unfold apply_boundary_condition. rewrite Eb. destruct (pot_bc pot) as [b|] eqn:EB; [|reflexivity].
  destruct Hb as [Hb|(Lr & Fr & ->)]; [discriminate|]. destruct b.
  - apply (reflective_units len Hl); (assumption || lia).
  - apply (periodic_units len Hl); (assumption || lia).
Qed.
Lemma bc_sizes pot pos mom pos' mom' : bc_ok pot -> length pos = pot_ndim pot -> length mom = pot_ndim pot ->
  apply_boundary_condition pot pos mom = Ok (pos', mom') -> length pos' = pot_ndim pot /\ length mom' = pot_ndim pot.
Proof using.
  intros B Lp Lm E. destruct (bc_length pot pos mom) as (p & q & E' & L1 & L2); [lia|destruct B; [now left|right; lia]|]. rewrite E in E'. injection E' as -> ->. lia.
Qed.
Lemma same_bc pot pot' : same_potential u pot pot' -> bc_ok pot.
Proof using. intros (_ & _ & [H|(H & _)] & _); [now left|now right]. Qed.

Lemma bp_units pot pot' c1 dt p n1 n2 : same_potential u pot pot' -> pot_ndim pot = n -> right_size n p -> length n1 = n -> length n2 = n ->
  bp_update pot' c1 (tm * dt) (new_walker u p) (vmap2 Rmult (signs u) n1) (vmap2 Rmult (signs u) n2) = on_ok (new_walker u) (bp_update pot c1 dt p n1 n2).
Proof using Hu.
  intros SP En (S1 & S2 & S3) N1 N2. pose proof Hu as (Hl & He & Ht & La & Fa). unfold bp_update. cbn [p_mom p_c2 p_forces p_pos p_mass new_walker].
  set (mom := vadd (vadd (vscale c1 (p_mom p)) (vscale (p_c2 p) n1)) (map (fun f => 1 / 2 * f * dt) (p_forces p))).
  set (pos := vadd (p_pos p) (map (fun m => m / p_mass p * dt) mom)).
  assert (Em : vadd (vadd (vscale c1 (new_mom u (p_mom p))) (vscale (en * tm / len * p_c2 p) (vmap2 Rmult (signs u) n1))) (map (fun f => 1 / 2 * f * (tm * dt)) (new_force u (p_forces p))) = new_mom u mom).
  { unfold mom, new_mom. fold (sc (en * tm / len) ax). rewrite !sc_vadd. f_equal; [f_equal|].
    - apply sc_vscale. ring.
    - apply noise_sc.
    - unfold new_force. fold (sc (en / len) ax). apply sc_map. intros s x. field. lra. }
  rewrite Em.
  assert (Ep : vadd (new_pos u (p_pos p)) (map (fun m => m / new_mass u (p_mass p) * (tm * dt)) (new_mom u mom)) = new_pos u pos).
  { unfold pos, new_pos. fold (mv len ax). rewrite mv_vadd. f_equal. unfold new_mom. fold (sc (en * tm / len) ax). apply sc_map. intros s x.
    unfold new_mass, Rdiv. rewrite (Rinv_mult _ (p_mass p)). set (im := / p_mass p). field. lra. }
  rewrite Ep.
  assert (Lm : length mom = n) by (unfold mom, vadd, vscale; rewrite !vmap2_len, !map_length; lia).
  assert (Lp : length pos = n) by (unfold pos, vadd; rewrite vmap2_len, map_length; lia).
  rewrite (bc_units pot pot' pos mom SP En Lp Lm). destruct (apply_boundary_condition pot pos mom) as [[pos' mom']|x] eqn:EB; [|reflexivity].
  destruct (bc_sizes pot pos mom pos' mom' (same_bc _ _ SP) ltac:(lia) ltac:(lia) EB) as [Lp' _].
  destruct SP as (_ & _ & _ & SP). destruct (SP pos' Lp') as (_ & Ee & Ef).
  cbn [on_ok bind fst snd evaluate]. rewrite Ee, Ef. cbn [on_ok]. f_equal. unfold new_walker. cbn [p_mom p_c2 p_forces p_pos p_mass p_energy]. f_equal.
  unfold new_mom. fold (sc (en * tm / len) ax). rewrite sc_vadd. f_equal; [|apply noise_sc].
  rewrite <- (sc_vscale (en * tm / len) (en * tm / len) c1 c1) by ring. f_equal. rewrite sc_vadd. f_equal. unfold new_force. fold (sc (en / len) ax). apply sc_map. intros s x. field. lra.
Qed.

Lemma od_units pot pot' dt p n1 : same_potential u pot pot' -> pot_ndim pot = n -> right_size n p -> length n1 = n -> tm = len ^ 2 -> en = 1 ->
  od_update pot' (ld_noise_factor (tm * dt)) (tm * dt) (new_walker u p) (vmap2 Rmult (signs u) n1) = on_ok (new_walker u) (od_update pot (ld_noise_factor dt) dt p n1).
Proof using Hu.
  intros SP En (S1 & S2 & S3) N1 Et Ee1. pose proof Hu as (Hl & He & Ht & La & Fa). unfold od_update. cbn [p_mom p_c2 p_forces p_pos p_mass new_walker].
  set (pos := vadd (p_pos p) (vadd (vscale dt (p_forces p)) (vscale (ld_noise_factor dt) n1))).
  assert (EN : ld_noise_factor (tm * dt) = len * ld_noise_factor dt).
  { unfold ld_noise_factor. rewrite Et. replace (2 * (len ^ 2 * dt)) with (len ^ 2 * (2 * dt)) by ring. rewrite sqrt_mult_alt by (apply pow_le; lra). f_equal.
    apply sqrt_pow2. lra. }
  assert (Ep : vadd (new_pos u (p_pos p)) (vadd (vscale (tm * dt) (new_force u (p_forces p))) (vscale (ld_noise_factor (tm * dt)) (vmap2 Rmult (signs u) n1))) = new_pos u pos).
  { unfold pos, new_pos. fold (mv len ax). rewrite mv_vadd. f_equal. rewrite sc_vadd. f_equal.
    - unfold new_force. fold (sc (en / len) ax). apply sc_vscale. rewrite Et, Ee1. field. lra.
    - rewrite EN. apply noise_sc. }
  rewrite Ep.
  assert (Lp : length pos = n) by (unfold pos, vadd, vscale; rewrite !vmap2_len, !map_length; lia).
  rewrite (bc_units pot pot' pos (p_mom p) SP En Lp S2). destruct (apply_boundary_condition pot pos (p_mom p)) as [[pos' mom']|x] eqn:EB; [|reflexivity].
  destruct (bc_sizes pot pos (p_mom p) pos' mom' (same_bc _ _ SP) ltac:(lia) ltac:(lia) EB) as [Lp' _].
  destruct SP as (_ & _ & _ & SP). destruct (SP pos' Lp') as (_ & Ee & Ef).
  cbn [on_ok bind fst snd evaluate]. rewrite Ee, Ef. reflexivity.
Qed.

(** ** all walkers *)
Context (rng : rng_if) (Hr : rng_ok rng).
Context (ld ld' : ldpar) (SD : same_dynamics u ld ld') (Hn : pot_ndim (ld_pot ld) = n).

Lemma c1_units friction : ld_c1 (friction / tm) (tm * ld_dt ld) = ld_c1 friction (ld_dt ld).
Proof using Hu. destruct Hu as (_ & _ & Ht & _). unfold ld_c1. f_equal. field. lra. Qed.

Lemma update_units p g : right_size n p ->
  ld_update (mirrored (signs u) rng) ld' (new_walker u p) g = on_ok (fun pg => (new_walker u (fst pg), snd pg)) (ld_update rng ld p g).
Proof using All.
  intros Sp. destruct SD as (SP & Edt & Ekt & Kd). assert (En' : pot_ndim (ld_pot ld') = n) by (destruct SP as [-> _]; exact Hn). unfold ld_update.
  destruct (ld_kind ld) as [fr|], (ld_kind ld') as [fr'|]; try contradiction; cbn [mirrored r_normal]; rewrite En', Hn, Edt.
  - pose proof (ok_normal rng Hr n g) as N1. destruct (r_normal rng n g) as [n1 g1]. cbn [fst snd] in *. pose proof (ok_normal rng Hr n g1) as N2. destruct (r_normal rng n g1) as [n2 g2].
    cbn [fst snd] in *. rewrite Kd, c1_units, (bp_units (ld_pot ld)) by assumption. now destruct (bp_update _ _ _ _ _ _).
  - pose proof (ok_normal rng Hr n g) as N1. destruct (r_normal rng n g) as [n1 g1]. cbn [fst snd] in *. destruct Kd as [K1 K2].
    rewrite (od_units (ld_pot ld)) by assumption. now destruct (od_update _ _ _ _ _).
Qed.
Lemma run_units ps : forall g, Forall (right_size n) ps ->
  ld_run (mirrored (signs u) rng) ld' (map (new_walker u) ps) g = on_ok (fun pg => (map (new_walker u) (fst pg), snd pg)) (ld_run rng ld ps g).
Proof using All.
  induction ps as [|p ps IH]; intros g F; [reflexivity|]. inversion F as [|? ? Hp F']; subst p ps. cbn [map ld_run]. rewrite update_units by assumption.
  destruct (ld_update rng ld x g) as [[p' g1]|]; [|reflexivity]. cbn [on_ok bind fst snd]. rewrite IH by assumption.
  now destruct (ld_run rng ld l g1) as [[ps' g2]|].
Qed.

(** a new walker *)
Lemma walker_units pos mass : length pos = n ->
  new_particle ld' (new_pos u pos) (new_mass u mass) = on_ok (new_walker u) (new_particle ld pos mass).
Proof using All.
  intros Lp. destruct SD as (SP & Edt & Ekt & Kd). pose proof Hu as (Hl & He & Ht & La & Fa).
  assert (En' : pot_ndim (ld_pot ld') = n) by (destruct SP as [-> _]; exact Hn).
  unfold new_particle. rewrite En', Hn, (new_pos_length pos Lp), Lp, Nat.eqb_refl. cbn [negb]. unfold particle_init. rewrite !repeat_length, !Nat.eqb_refl.
  cbn [bind p_pos p_mom p_mass evaluate on_ok]. destruct SP as (_ & _ & _ & SP). destruct (SP pos ltac:(lia)) as (_ & Ee & Ef). rewrite Ee, Ef. f_equal. unfold new_walker.
  cbn [p_pos p_mom p_mass p_energy p_forces p_c2]. f_equal.
  - rewrite (new_pos_length pos Lp), Lp. unfold new_mom. rewrite <- La. clear. induction ax as [|[s t] l IH]; [reflexivity|]. cbn [length repeat]. unfold per_axis in *. cbn [combine map fst snd]. rewrite <- IH. f_equal. ring.
  - destruct (ld_kind ld) as [fr|], (ld_kind ld') as [fr'|]; try contradiction; [|ring]. rewrite Kd, Edt, c1_units, Ekt. unfold ld_c2, new_mass.
    set (c1 := ld_c1 fr (ld_dt ld)).
    replace ((1 - c1 * c1) * (en * tm ^ 2 / len ^ 2 * mass) * (en * ld_kt ld)) with ((en * tm / len) ^ 2 * ((1 - c1 * c1) * mass * ld_kt ld)) by (field; lra).
    rewrite sqrt_mult_alt by apply pow2_ge_0. f_equal. apply sqrt_pow2. apply Rmult_le_pos; [apply Rmult_le_pos; lra|left; now apply Rinv_0_lt_compat].
Qed.
End dynamics.
