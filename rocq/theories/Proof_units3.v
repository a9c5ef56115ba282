(** Other units: potentials, the whole evolution, free energies (C98) *)
From Coq Require Import Lia Lra.
From Coquelicot Require Import Coquelicot.
From Verif Require Import PyBase Model_xr Model_dyn Model_grid Model_pot Model_bd Model_fes Model_setup Model_main Spec_rng Spec_ld Spec_bd Spec_grid Spec_pot Spec_whole Spec_units
  Proof_grid Proof_grid2 Proof_whole5 Proof_bd Proof_bd2 Proof_ld Proof_pot Proof_fes Proof_units Proof_units2.
Open Scope R_scope.

(** ** potentials *)
Lemma mv_nth l : forall ax x d s t, nth_error ax d = Some (s, t) -> (d < length x)%nat -> nth d (mv l ax x) 0 = l * (s * nth d x 0) + t.
Proof.
  induction ax as [|[s0 t0] ax IH]; intros [|x xs] [|d] s t E H; cbn in *; try discriminate; try lia; [injection E as -> ->; reflexivity|]. apply (IH xs d s t E). lia.
Qed.
Lemma sc_nth k : forall ax x d s t, nth_error ax d = Some (s, t) -> (d < length x)%nat -> nth d (sc k ax x) 0 = k * (s * nth d x 0).
Proof.
  induction ax as [|[s0 t0] ax IH]; intros [|x xs] [|d] s t E H; cbn in *; try discriminate; try lia; [injection E as -> ->; reflexivity|]. apply (IH xs d s t E). lia.
Qed.
Lemma mv_moved l : 0 < l -> forall ax x d s t, nth_error ax d = Some (s, t) -> s = 1 \/ s = -1 -> (d < length x)%nat -> forall y,
  moved (mv l ax x) d y = mv l ax (moved x d ((y - t) * (s / l))).
Proof.
  intros Hl. induction ax as [|[s0 t0] ax IH]; intros [|x xs] [|d] s t E Hs H y; cbn in *; try discriminate; try lia.
  - injection E as -> ->. f_equal. destruct Hs as [-> | ->]; field; lra.
  - f_equal. apply (IH xs d s t E Hs). lia.
Qed.
Lemma moved_length x : forall d y, length (moved x d y) = length x.
Proof. induction x as [|a x IH]; intros [|d] y; cbn; auto. Qed.

Section potentials.
Context (u : units) (n : nat) (Hu : units_ok u n).

(** corresponding energies have corresponding forces *)
Lemma forces_units E E' F F' : (forall x, length x = n -> E' (new_pos u x) = new_energy u (E x)) ->
  (forall x, length x = n -> is_minus_gradient E x (F x)) -> (forall x, length x = n -> is_minus_gradient E' x (F' x)) ->
  forall x, length x = n -> F' (new_pos u x) = new_force u (F x).
Proof using All.
  intros HE G G' x Lx. pose proof Hu as (Hl & He & Ht & La & Fa). destruct (G x Lx) as [LF D]. destruct (G' (new_pos u x) (new_pos_length u n Hu x Lx)) as [LF' D'].
  assert (LN : length (new_force u (F x)) = n) by (unfold new_force; rewrite per_axis_length; lia).
  rewrite (new_pos_length u n Hu x Lx) in LF'.
  apply (nth_ext _ _ 0 0); [lia|]. intros d Hd. rewrite LF' in Hd.
  destruct (nth_error (u_axes u) d) as [[s t]|] eqn:Ea; [|apply nth_error_None in Ea; lia].
  assert (Hs : s = 1 \/ s = -1) by (apply nth_error_In in Ea; rewrite Forall_forall in Fa; exact (Fa _ Ea)).
  specialize (D d ltac:(lia)). specialize (D' d ltac:(rewrite (new_pos_length u n Hu x Lx); lia)).
  unfold new_force. fold (sc (u_en u / u_len u) (u_axes u)). rewrite (sc_nth _ _ (F x) d s t Ea) by lia.
  assert (P : derivable_pt_lim (fun y => E' (moved (new_pos u x) d y)) (nth d (new_pos u x) 0) (u_en u * (s / u_len u * - nth d (F x) 0))).
  { apply is_derive_Reals. apply (is_derive_ext (fun y => u_en u * E (moved x d ((y - t) * (s / u_len u))) + u_zero u)).
    - intros y. unfold new_pos. fold (mv (u_len u) (u_axes u)). rewrite (mv_moved _ Hl _ x d s t Ea Hs) by lia. symmetry. apply HE. now rewrite moved_length.
    - apply is_derive_Reals in D.
      assert (C : is_derive (fun y => E (moved x d ((y - t) * (s / u_len u)))) (nth d (new_pos u x) 0) (s / u_len u * - nth d (F x) 0)).
      { apply (is_derive_comp (fun z => E (moved x d z)) (fun y => (y - t) * (s / u_len u))).
        - unfold new_pos. fold (mv (u_len u) (u_axes u)). rewrite (mv_nth _ _ x d s t Ea) by lia.
          replace ((u_len u * (s * nth d x 0) + t - t) * (s / u_len u)) with (nth d x 0) by (destruct Hs as [-> | ->]; field; lra). exact D.
        - auto_derive; [exact I|ring]. }
      replace (u_en u * (s / u_len u * - nth d (F x) 0)) with (u_en u * (s / u_len u * - nth d (F x) 0) + 0) by ring. apply @is_derive_plus; [|apply @is_derive_const].
      apply is_derive_scal. exact C. }
  pose proof (uniqueness_limite _ _ _ _ P D') as U. apply Ropp_eq_compat in U. rewrite Ropp_involutive in U. rewrite <- U. field. lra.
Qed.

Lemma monomial_units : forall ax x idx, Forall (fun a => fst a = 1 \/ fst a = -1) ax -> Forall (fun a => snd a = 0) ax -> length x = length ax -> length idx = length ax ->
  fold_right Rmult 1 (map (fun si => (fst si / u_len u) ^ snd si) (combine (map fst ax) idx)) * monomial (mv (u_len u) ax x) idx = monomial x idx.
Proof using Hu.
  destruct Hu as (Hl & _). induction ax as [|[s t] ax IH]; intros [|x xs] [|i idx] Fa Ft L1 L2; try discriminate; [cbn; ring|].
  inversion Fa as [|? ? Hs Fa' E1]. inversion Ft as [|? ? Ht Ft' E2]. subst. cbn [fst snd] in Hs, Ht. subst t.
  assert (IH' := IH xs idx Fa' Ft' ltac:(cbn in *; lia) ltac:(cbn in *; lia)). unfold mv, per_axis in *. cbn [combine map fst snd fold_right monomial]. rewrite <- IH'.
  replace (x ^ i) with ((s / u_len u) ^ i * (u_len u * (s * x) + 0) ^ i); [ring|]. rewrite <- Rpow_mult_distr. f_equal. destruct Hs as [-> | ->]; field; lra.
Qed.

Lemma polynomial_units c x : length (a_shape c) = n -> Forall (fun a => snd a = 0) (u_axes u) -> length x = n ->
  polynomial (a_shape c) (a_flat (new_coeffs u c)) (new_pos u x) = u_en u * polynomial (a_shape c) (a_flat c) x.
Proof using Hu.
  intros Ls F0 Lx. pose proof Hu as (Hl & He & Ht & La & Fa). unfold polynomial. rewrite !nsum_total, <- total_scal. apply total_ext. intros idx Hi. apply in_indices in Hi.
  assert (Li : length idx = length (u_axes u)) by (rewrite La, <- Ls; symmetry; clear -Hi; induction Hi; cbn; congruence).
  rewrite <- (at_entry c idx Hi). pose proof (at_entry (new_coeffs u c) idx Hi) as EA. cbn [a_shape new_coeffs] in EA. rewrite <- EA. unfold new_coeffs. rewrite at_of_map by exact Hi.
  rewrite <- (monomial_units (u_axes u) x idx Fa F0 ltac:(lia) Li). unfold new_pos, signs. fold (mv (u_len u) (u_axes u)). ring.
Qed.

Lemma poly_units c rs bc pot pot' : length (a_shape c) = n -> Forall (fun a => snd a = 0) (u_axes u) -> u_zero u = 0 ->
  length rs = n -> Forall (fun r => fst r <= snd r) rs ->
  (1 <= n <= 3)%nat -> Forall (fun k => (0 < k)%nat) (a_shape c) ->
  poly_init c (Some rs) bc = Ok pot -> poly_init (new_coeffs u c) (Some (new_ranges u rs)) bc = Ok pot' -> same_potential u pot pot'.
Proof using Hu.
  intros Ls F0 Z0 Lr Fr Hn Fs E E'. destruct (poly_potential c (Some rs) bc) as (p & E1 & En & Eb & Er & H); [lia|assumption|]. rewrite E in E1. injection E1 as <-.
  destruct (poly_potential (new_coeffs u c) (Some (new_ranges u rs)) bc) as (p' & E1' & En' & Eb' & Er' & H'); [cbn; lia|assumption|]. rewrite E' in E1'. injection E1' as <-.
  cbn [new_coeffs a_shape] in En', H'. split; [congruence|]. split; [congruence|]. split; [right; rewrite Er, Er', En; split; [congruence|split; [exact Fr|reflexivity]]|]. intros x Lx. rewrite En, Ls in Lx. rewrite En, Ls.
  assert (HE : forall x, length x = n -> pot_energy pot' (new_pos u x) = new_energy u (pot_energy pot x)).
  { intros y Ly. destruct (H y ltac:(lia)) as [-> _]. destruct (H' (new_pos u y)) as [-> _]; [rewrite (new_pos_length u n Hu y Ly); lia|]. unfold new_energy. rewrite Z0, Rplus_0_r. now apply polynomial_units. }
  split; [|split; [now apply HE|]].
  - destruct (H x ltac:(lia)) as (_ & (L & _) & _). lia.
  - apply (forces_units (pot_energy pot) (pot_energy pot')); [exact HE| |intros y Ly|exact Lx].
    + intros y Ly. now apply (H y ltac:(lia)).
    + apply (H' y ltac:(lia)).
Qed.
End potentials.

(** ** evolution *)
Section evolution.
Context (u : units) (n : nat) (Hu : units_ok u n) (e : env) (Hr : rng_ok (e_rng e)) (ld ld' : ldpar) (SD : same_dynamics u ld ld') (Hn : pot_ndim (ld_pot ld) = n).
Notation e' := (mirrored_env (signs u) e).

Lemma same_forces : force_size (ld_pot ld).
Proof using SD. destruct SD as ((_ & _ & _ & H) & _). intros x Lx. now apply H. Qed.
Lemma same_bounds : bc_ok (ld_pot ld).
Proof using SD. destruct SD as (H & _). exact (same_bc u _ _ H). Qed.

Definition image (par' : option bdpar) (d : dyn e) : dyn e' :=
  let '(ps, g, b) := d in
  (map (new_walker u) ps, g, match b, par' with Some (_, bg, st, out), Some p' => Some (p', bg, st, out) | _, _ => None end).
Definition good (par par' : option bdpar) (d : dyn e) : Prop :=
  Forall (right_size n) (fst (fst d)) /\ bd_params d = par /\
  match par, par' with None, None => True | Some p, Some p' => same_moves u n (e_gd e) p p' | _, _ => False end.

Lemma sizes_pos ps : Forall (right_size n) ps -> Forall (fun q => length (p_pos q) = n) ps.
Proof using. intros F. eapply Forall_impl; [|exact F]. intros p H. apply H. Qed.

Lemma run_size par k b out b' out' : bd_run (e_rng e) (e_gd e) par k (b, out) = Ok (b', out') -> Forall (right_size n) (bs_ps b) -> Forall (right_size n) (bs_ps b').
Proof using Hr.
  destruct b as [ps g st]. intros E F. destruct (bd_run_keeps _ _ _ _ _ _ _ _ _ _ Hr E) as [_ K]. cbn [bs_ps] in *. rewrite Forall_forall in *. intros p Hp. apply F. now apply K.
Qed.

Lemma step_units par par' k d d1 : good par par' d -> dyn_step e ld k d d1 -> good par par' d1 /\ dyn_step e' ld' k (image par' d) (image par' d1).
Proof using All.
  intros (F & P & M) St. inversion St as [ps g ps' g' E1 E2 E3|ps g ps' g' p bg st out b out' E1 E2 E3 E4]; subst d d1; cbn [fst snd bd_params] in *.
  - assert (F' : Forall (right_size n) ps').
    { rewrite <- Hn in *. exact (ld_run_sizes (e_rng e) ld ps g ps' g' Hr same_forces same_bounds F E1). }
    subst par. destruct par' as [|]; [contradiction|]. split; [split; [exact F'|split; [reflexivity|exact I]]|]. cbn [image].
    pose proof (run_units u n Hu (e_rng e) Hr ld ld' SD Hn ps g F) as R1. rewrite E1 in R1. cbn [on_ok fst snd] in R1. exact (step_ld e' ld' k _ _ _ _ R1).
  - assert (F' : Forall (right_size n) ps').
    { rewrite <- Hn in *. exact (ld_run_sizes (e_rng e) ld ps g ps' g' Hr same_forces same_bounds F E1). }
    subst par. destruct par' as [p'|]; [|contradiction]. split; [split; [exact (run_size _ _ _ _ _ _ E2 F')|split; [reflexivity|exact M]]|]. cbn [image].
    pose proof (run_units u n Hu (e_rng e) Hr ld ld' SD Hn ps g F) as R1. rewrite E1 in R1. cbn [on_ok fst snd] in R1.
    pose proof (bd_run_units u n Hu (e_gd e) p p' M (signs u) (e_rng e) k (mkBS ps' bg st) out (sizes_pos _ F')) as R2. rewrite E2 in R2. cbn [on_ok fst snd] in R2.
    exact (step_ld_bd e' ld' k _ _ _ _ p' bg st out _ _ R1 R2).
Qed.

Lemma evolution_units (d : dyn e) (d' : dyn e') N D : Forall (right_size n) (fst (fst d)) -> fst d' = (map (new_walker u) (fst (fst d)), snd (fst d)) ->
  same_action u n (e_gd e) (snd d) (snd d') -> evolution e ld d N D ->
  exists D' : Z -> dyn e', evolution e' ld' d' N D' /\ forall k, (0 <= k <= N)%Z -> walkers D' k = map (new_walker u) (walkers D k) /\ snd (fst (D' k)) = snd (fst (D k)) /\ bd_state (D' k) = bd_state (D k).
Proof using All.
  intros F Ef Sa (D0 & DS). destruct d as [[ps g] b], d' as [[ps' g'] b']. cbn [fst snd] in *. injection Ef as -> ->.
  set (par := bd_params (D 0%Z)). set (par' := match b' with Some (p, _, _, _) => Some p | None => None end).
  assert (G0 : good par par' (D 0%Z)).
  { split; [rewrite D0; exact F|]. split; [reflexivity|]. unfold par, par'. rewrite D0. cbn [bd_params snd]. destruct b as [[[[p bg] st] out]|], b' as [[[[p' bg'] st'] out']|]; cbn in Sa |- *; tauto. }
  assert (I0 : image par' (D 0%Z) = (map (new_walker u) ps, g, b')).
  { rewrite D0. unfold image, par'. destruct b as [[[[p bg] st] out]|], b' as [[[[p' bg'] st'] out']|]; cbn in Sa; try contradiction; [|reflexivity]. destruct Sa as (_ & -> & -> & ->). reflexivity. }
  assert (GA : forall k, (0 <= k)%Z -> (k <= N)%Z -> good par par' (D k)).
  { intros k Hk. pattern k. apply natlike_ind; [auto| |exact Hk]. intros j Hj IH HN. specialize (DS (Z.succ j) ltac:(lia)). replace (Z.succ j - 1)%Z with j in DS by lia.
    exact (proj1 (step_units par par' (Z.succ j) (D j) _ (IH ltac:(lia)) DS)). }
  exists (fun k => image par' (D k)). split; [split; [exact I0|]|].
  - intros k Hk. exact (proj2 (step_units par par' k (D (k - 1)%Z) (D k) (GA (k - 1)%Z ltac:(lia) ltac:(lia)) (DS k Hk))).
  - intros k Hk. destruct (GA k ltac:(lia) ltac:(lia)) as (_ & P & M). unfold walkers, bd_state. destruct (D k) as [[psk gk] bk]. cbn [image fst snd bd_params] in *. split; [reflexivity|]. split; [reflexivity|].
    destruct bk as [[[[p bg] st] out]|]; [|reflexivity]. rewrite <- P in M. destruct par'; [reflexivity|contradiction].
Qed.
End evolution.

(** ** no axis mirrored: the generator itself *)
Section plain.
Context (s : list R) (n : nat) (Hs : s = repeat 1 n) (e : env) (Hr : rng_ok (e_rng e)) (ld : ldpar) (Hn : pot_ndim (ld_pot ld) = n).
Lemma ones_id v : length v = n -> vmap2 Rmult s v = v.
Proof using Hs. rewrite Hs. revert v. clear. induction n as [|k IH]; intros [|x v] L; cbn in *; try discriminate; [reflexivity|]. rewrite IH by lia. f_equal. ring. Qed.
Lemma normal_plain g : r_normal (mirrored s (e_rng e)) n g = r_normal (e_rng e) n g.
Proof using Hr Hs. cbn. rewrite ones_id by apply (ok_normal _ Hr). symmetry. apply surjective_pairing. Qed.
Lemma update_plain p g : ld_update (mirrored s (e_rng e)) ld p g = ld_update (e_rng e) ld p g.
Proof using All.
  unfold ld_update. rewrite Hn. destruct (ld_kind ld); rewrite normal_plain; destruct (r_normal (e_rng e) n g) as [n1 g1]; [rewrite normal_plain|]; reflexivity.
Qed.
Lemma run_plain ps : forall g, ld_run (mirrored s (e_rng e)) ld ps g = ld_run (e_rng e) ld ps g.
Proof using All.
  induction ps as [|p ps IH]; intros g; [reflexivity|]. cbn [ld_run]. rewrite update_plain. destruct (ld_update (e_rng e) ld p g) as [[p' g1]|]; [|reflexivity]. cbn [bind]. now rewrite IH.
Qed.
Lemma step_plain k (d d1 : dyn e) : dyn_step (mirrored_env s e) ld k d d1 -> dyn_step e ld k d d1.
Proof using All.
  intros St. inversion St as [ps g ps' g' E1 E2 E3|ps g ps' g' p bg st out b out' E1 E2 E3 E4].
  - rewrite <- run_plain in E1 || (cbn [mirrored_env e_rng] in E1; rewrite run_plain in E1). exact (step_ld e ld k ps g ps' g' E1).
  - cbn [mirrored_env e_rng e_gd] in E1, E2. rewrite run_plain in E1. pose proof (bd_run_mirror s (e_rng e) (e_gd e) p k ps' bg st out) as M.
    assert (M2 := eq_trans (eq_sym M) E2). destruct (bd_run (e_rng e) (e_gd e) p k (@mkBS (e_rng e) ps' bg st, out)) as [[b1 o1]|] eqn:EB; [|discriminate].
    cbn [on_ok fst snd] in M2. injection M2 as <- <-. exact (step_ld_bd e ld k ps g ps' g' p bg st out b1 o1 E1 EB).
Qed.
End plain.

Lemma evolution_same u n e ld ld' (d d' : dyn e) N D : units_ok u n -> Forall (fun a => fst a = 1) (u_axes u) -> rng_ok (e_rng e) -> same_dynamics u ld ld' -> pot_ndim (ld_pot ld) = n ->
  Forall (right_size n) (fst (fst d)) -> fst d' = (map (new_walker u) (fst (fst d)), snd (fst d)) -> same_action u n (e_gd e) (snd d) (snd d') -> evolution e ld d N D ->
  exists D' : Z -> dyn e, evolution e ld' d' N D' /\ forall k, (0 <= k <= N)%Z -> walkers D' k = map (new_walker u) (walkers D k) /\ snd (fst (D' k)) = snd (fst (D k)) /\ bd_state (D' k) = bd_state (D k).
Proof.
  intros Hu F1 Hr SD Hn F Ef Sa Ev. destruct (evolution_units u n Hu e Hr ld ld' SD Hn d d' N D F Ef Sa Ev) as (D' & (E0 & ES) & W). exists D'. split; [|exact W]. split; [exact E0|].
  intros k Hk. apply (step_plain (signs u) n); [|exact Hr| |exact (ES k Hk)].
  - destruct Hu as (_ & _ & _ & La & _). unfold signs. rewrite <- La. clear -F1. induction F1 as [|a l H F IH]; [reflexivity|]. cbn. now rewrite H, IH.
  - destruct SD as ((-> & _) & _). exact Hn.
Qed.

(** ** free energies *)
Lemma fes_units data kt u junk : 0 < kt -> 0 < u -> on_ok (map (xscale u)) (calculate_fes data kt true junk) = calculate_fes data (u * kt) true junk.
Proof.
  intros Hk Hu. destruct (list_eq_dec Nat.eq_dec data []) as [->|Hne]; [reflexivity|].
  destruct (calculate_fes_value data kt junk Hne Hk) as (M & PM & HM & Hle & E).
  destruct (calculate_fes_value data (u * kt) junk Hne ltac:(now apply Rmult_lt_0_compat)) as (M' & PM' & HM' & Hle' & E').
  rewrite E, E'. cbn [on_ok]. f_equal. rewrite map_map.
  assert (EM : (exists c, In c data /\ c <> 0%nat) -> M = M').
  { intros X. pose proof (HM X). pose proof (HM' X). apply Nat.le_antisymm; auto. }
  apply map_ext_in. intros c Hc. destruct (Nat.eqb_spec c 0) as [Z|NZ]; cbn [xscale]; [destruct (Rlt_dec 0 u); [reflexivity|lra]|]. rewrite (EM (ex_intro _ c (conj Hc NZ))). f_equal. ring.
Qed.

(** ** example: a double well in other units and mirrored *)
Definition well : arr R := mkArr [5%nat] [0; 0; -2; 0; 1].
Definition well_units : units := mkUnits 2 3 (1/2) 0 [(-1, 0)].
Lemma units_case : exists pot pot', poly_init well (Some [(-3, 2)]) (Some Reflective) = Ok pot /\
  poly_init (mkArr [5%nat] [0; 0; -3/2; 0; 3/16]) (Some [(-4, 6)]) (Some Reflective) = Ok pot' /\ units_ok well_units 1 /\
  same_dynamics well_units (mkLD (BussiParinello 5) pot (1/100) 1) (mkLD (BussiParinello 10) pot' (1/200) 3) /\
  (forall gd, same_moves well_units 1 gd (mkBD 10 (1/10) [1/2] 1 1 false VOrig None None false) (mkBD 10 (1/20) [1] 3 2 false VOrig None None false)) /\
  new_walker well_units (mkP [1] [2] 1 (-1) [0] 1) = mkP [-2] [-3/2] (3/16) (-3) [-0] (3/4).
Proof.
  assert (Hu : units_ok well_units 1).
  { split; [cbn; lra|]. split; [cbn; lra|]. split; [cbn; lra|]. split; [reflexivity|]. apply Forall_cons; [right; reflexivity|apply Forall_nil]. }
  assert (EC : new_coeffs well_units well = mkArr [5%nat] [0; 0; -3/2; 0; 3/16]).
  { unfold new_coeffs, well. cbn. f_equal. repeat (f_equal; [lra|]). f_equal. lra. }
  assert (ER : new_ranges well_units [(-3, 2)] = [(-4, 6)]).
  { unfold new_ranges, per_axis. cbn. f_equal. f_equal; [rewrite Rmin_right|rewrite Rmax_left]; lra. }
  eexists _, _. split; [reflexivity|]. split; [reflexivity|]. split; [exact Hu|]. split; [|split].
  - split; [|split; [cbn; lra|split; [cbn; lra|cbn; field]]]. cbn [ld_pot].
    apply (poly_units well_units 1 Hu well [(-3, 2)] (Some Reflective)); try reflexivity.
    + apply Forall_cons; [reflexivity|apply Forall_nil].
    + apply Forall_cons; [cbn; lra|apply Forall_nil].
    + lia.
    + apply Forall_cons; [lia|apply Forall_nil].
    + rewrite EC, ER. reflexivity.
  - intros gd. unfold same_moves. cbn. repeat match goal with |- _ /\ _ => split end; try reflexivity; try lra; [apply Forall_cons; [lra|apply Forall_nil]|f_equal; lra|left; reflexivity].
  - unfold new_walker, new_pos, new_mom, new_mass, new_force, new_energy, per_axis. cbn. f_equal; try lra; f_equal; lra.
Qed.
(** a symmetric well is its own mirror image *)
Lemma symmetric_case : exists pot, poly_init well (Some [(-3, 3)]) (Some Periodic) = Ok pot /\
  let u := mkUnits 1 1 1 0 [(-1, 0)] in units_ok u 1 /\ same_potential u pot pot.
Proof.
  eexists. split; [reflexivity|]. cbv zeta. set (u := mkUnits 1 1 1 0 [(-1, 0)]).
  assert (Hu : units_ok u 1).
  { split; [cbn; lra|]. split; [cbn; lra|]. split; [cbn; lra|]. split; [reflexivity|]. apply Forall_cons; [right; reflexivity|apply Forall_nil]. }
  split; [exact Hu|].
  assert (EC : new_coeffs u well = well).
  { unfold new_coeffs, well, u. cbn. f_equal. repeat (f_equal; [lra|]). f_equal. lra. }
  assert (ER : new_ranges u [(-3, 3)] = [(-3, 3)]).
  { unfold new_ranges, per_axis, u. cbn. f_equal. f_equal; [rewrite Rmin_right|rewrite Rmax_left]; lra. }
  apply (poly_units u 1 Hu well [(-3, 3)] (Some Periodic)); try reflexivity.
  + apply Forall_cons; [reflexivity|apply Forall_nil].
  + apply Forall_cons; [cbn; lra|apply Forall_nil].
  + lia.
  + apply Forall_cons; [lia|apply Forall_nil].
  + rewrite EC, ER. reflexivity.
Qed.

Lemma history_evolution e (w0 : world (e_rng e)) n D : history e w0 n D <-> evolution e (w_ld w0) (dyn_of w0) n D.
Proof. reflexivity. Qed.
Lemma langevin_units u n rng ld ld' : units_ok u n -> rng_ok rng -> same_dynamics u ld ld' -> pot_ndim (ld_pot ld) = n -> forall ps g, Forall (right_size n) ps ->
  ld_run (mirrored (signs u) rng) ld' (map (new_walker u) ps) g = on_ok (fun r => (map (new_walker u) (fst r), snd r)) (ld_run rng ld ps g).
Proof. intros Hu Hr SD Hn ps g. exact (run_units u n Hu rng Hr ld ld' SD Hn ps g). Qed.
Lemma moves_in_units u n gd par par' : units_ok u n -> same_moves u n gd par par' -> forall s rng ps (g : rng_st rng) st, Forall (fun p => length (p_pos p) = n) ps ->
  do_birth_death (mirrored s rng) gd par' (@mkBS (mirrored s rng) (map (new_walker u) ps) g st) =
  on_ok (fun r : list (nat * nat) * bdst rng => (fst r, @mkBS (mirrored s rng) (map (new_walker u) (bs_ps (snd r))) (bs_rng (snd r)) (bs_stats (snd r))))
        (do_birth_death rng gd par (@mkBS rng ps g st)).
Proof. intros Hu SM s rng ps g st. exact (birth_death_units u n Hu gd par par' SM s rng (@mkBS rng ps g st)). Qed.
Lemma setup_units u n ld ld' : units_ok u n -> same_dynamics u ld ld' -> pot_ndim (ld_pot ld) = n -> forall pos mass, length pos = n ->
  new_particle ld' (new_pos u pos) (new_mass u mass) = on_ok (new_walker u) (new_particle ld pos mass).
Proof. intros Hu SD Hn. exact (walker_units u n Hu demo_rng demo_rng_ok ld ld' SD Hn). Qed.
