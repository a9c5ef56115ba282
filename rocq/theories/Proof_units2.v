(** Other units: birth-death moves and the whole evolution (C98) *)
From Coq Require Import Lia Lra.
From Verif Require Import PyBase Model_dyn Model_bd Model_setup Model_main Spec_rng Spec_ld Spec_bd Spec_grid Spec_whole Spec_units Proof_bd Proof_bd2 Proof_ld Proof_units.
Open Scope R_scope.

Section moves.
Context (u : units) (n : nat) (Hu : units_ok u n).
Notation len := (u_len u). Notation en := (u_en u). Notation tm := (u_time u).

Lemma kernel_units : forall ax bw x y, Forall (fun a => fst a = 1 \/ fst a = -1) ax -> length bw = length ax -> length x = length ax -> length y = length ax -> Forall (fun b => 0 < b) bw ->
  gauss_kernel (map (Rmult len) bw) (mv len ax x) (mv len ax y) = (/ len) ^ (length ax) * gauss_kernel bw x y.
Proof using Hu.
  destruct Hu as (Hl & _). induction ax as [|[s t] ax IH]; intros [|b bw] [|x xs] [|y ys] Fa L1 L2 L3 Fb; try discriminate; [cbn; ring|].
  inversion Fa as [|? ? Hs Fa' E1]. inversion Fb as [|? ? Hb Fb' E2]. subst. cbn [fst] in Hs.
  assert (IH' := IH bw xs ys Fa' ltac:(cbn in *; lia) ltac:(cbn in *; lia) ltac:(cbn in *; lia) Fb'). unfold mv, per_axis in *. cbn [combine map fst snd gauss_kernel length]. rewrite IH'. rewrite <- (tech_pow_Rmult (/ len) (length ax)).
  assert (S2 : 0 < sqrt (2 * PI)) by (apply sqrt_lt_R0; pose proof PI_RGT_0; lra).
  replace ((len * (s * x) + t - (len * (s * y) + t)) ^ 2 / (2 * (len * b) ^ 2)) with ((x - y) ^ 2 / (2 * b ^ 2)).
  2: { assert (s * s = 1) by (destruct Hs as [-> | ->]; ring). replace ((len * (s * x) + t - (len * (s * y) + t)) ^ 2) with (len ^ 2 * (s * s) * (x - y) ^ 2) by ring. rewrite H. field. lra. }
  generalize ((/ len) ^ length ax) (exp (- ((x - y) ^ 2 / (2 * b ^ 2)))) (gauss_kernel bw xs ys). intros P E G. revert S2. generalize (sqrt (2 * PI)). intros q S2. field. lra.
Qed.

Context (gd : griddata_t R) (par par' : bdpar) (SM : same_moves u n gd par par').

Lemma total_scale k : forall l, total (map (Rmult k) l) = k * total l.
Proof using. unfold total. induction l as [|x l IH]; cbn; [ring|rewrite IH; ring]. Qed.

Lemma log_density_units ps p : ps <> [] -> Forall (fun q => length (p_pos q) = n) ps -> In p ps ->
  log_density (bd_bw par') (map (new_walker u) ps) (new_walker u p) = log_density (bd_bw par) ps p + ln ((/ len) ^ n).
Proof using All.
  intros Hne Fp Hp. pose proof Hu as (Hl & _ & _ & La & Fa). destruct SM as (_ & _ & _ & Lb & Fb & Eb & _). unfold log_density. rewrite !map_map. cbn [p_pos new_walker].
  rewrite Eb. rewrite Forall_forall in Fp.
  assert (E : map (fun x => gauss_kernel (map (Rmult len) (bd_bw par)) (new_pos u (p_pos p)) (new_pos u (p_pos x))) ps
              = map (Rmult ((/ len) ^ n)) (map (fun x => gauss_kernel (bd_bw par) (p_pos p) (p_pos x)) ps)).
  { rewrite map_map. apply map_ext_in. intros q Hq. rewrite <- La. apply kernel_units; try assumption; [lia|rewrite La; now apply Fp|rewrite La; now apply Fp]. }
  rewrite E. unfold average. rewrite total_scale, map_length. unfold Rdiv. rewrite Rmult_assoc, ln_mult, Rplus_comm; [reflexivity| |].
  - apply pow_lt. now apply Rinv_0_lt_compat.
  - assert (K : forall a b c, Forall (fun b => 0 < b) a -> 0 < gauss_kernel a b c).
    { clear. assert (S2 : 0 < sqrt (2 * PI)) by (apply sqrt_lt_R0; pose proof PI_RGT_0; lra). induction a as [|h a IH]; intros [|b bs] [|c cs] F; cbn; try lra. inversion F; subst.
      apply Rmult_lt_0_compat; [apply Rmult_lt_0_compat; [apply Rinv_0_lt_compat, Rmult_lt_0_compat; assumption|apply exp_pos]|now apply IH]. }
    apply Rmult_lt_0_compat; [|rewrite map_length; apply Rinv_0_lt_compat, lt_0_INR; destruct ps; [congruence|cbn; lia]].
    clear -Hne K Fb. destruct ps as [|q ps]; [congruence|]. unfold total. cbn. assert (H : 0 <= fold_right Rplus 0 (map (fun x => gauss_kernel (bd_bw par) (p_pos p) (p_pos x)) ps)).
    { clear Hne. induction ps as [|r ps IH]; cbn; [lra|]. pose proof (K (bd_bw par) (p_pos p) (p_pos r) Fb). lra. }
    pose proof (K (bd_bw par) (p_pos p) (p_pos q) Fb). lra.
Qed.

Lemma vadd_shift k : forall a b, vadd (map (fun x => x + k) a) b = map (fun x => x + k) (vadd a b).
Proof using. induction a as [|x a IH]; intros [|y b]; try reflexivity. unfold vadd in *. cbn [map vmap2]. rewrite IH. f_equal. lra. Qed.

Lemma betas_units ps : Forall (fun q => length (p_pos q) = n) ps -> calc_betas gd par' (map (new_walker u) ps) = calc_betas gd par ps.
Proof using All.
  intros Fp. pose proof Hu as (Hl & He & Ht & La & Fa). pose proof SM as (Est & Edt & Er & Lb & Fb & Eb & Hk & Ek & Erc & Ev & Ess & Etf & Hint). unfold calc_betas.
  destruct ps as [|p0 ps0] eqn:Eps; [reflexivity|]. rewrite <- Eps in *. assert (Hne : ps <> []) by (rewrite Eps; discriminate). clear Eps p0 ps0.
  assert (Fp' : Forall (fun x => length x = n) (map p_pos ps)) by (rewrite Forall_map; exact Fp).
  assert (W : walkers_ok n (bd_bw par) (map p_pos ps)) by (split; [exact Lb|split; [exact Fb|exact Fp']]).
  assert (W' : walkers_ok n (bd_bw par') (map p_pos (map (new_walker u) ps))).
  { rewrite Eb. split; [now rewrite map_length|]. split; [|]; rewrite ?Forall_map.
    - rewrite Forall_forall in *. intros b Hb. apply Rmult_lt_0_compat; [exact Hl|now apply Fb].
    - rewrite Forall_forall in *. intros q Hq. cbn. apply (new_pos_length u n Hu). now apply Fp. }
  destruct (density_of n par ps W Hne) as (d & -> & Ed). destruct (density_of n par' (map (new_walker u) ps) W') as (d' & -> & Ed'); [destruct ps; [congruence|discriminate]|].
  cbn [bind]. rewrite Ed, Ed', map_map. clear Ed Ed' d d'.
  assert (EL : map (fun x => log_density (bd_bw par') (map (new_walker u) ps) (new_walker u x)) ps = map (fun x => x + ln ((/ len) ^ n)) (map (log_density (bd_bw par) ps) ps)).
  { rewrite map_map. apply map_ext_in. intros p Hp. now apply log_density_units. }
  rewrite EL, Ev.
  assert (EE : center (vadd (map (fun x => x + ln ((/ len) ^ n)) (map (log_density (bd_bw par) ps) ps)) (map (fun p => p_energy p * (1 / bd_kt par')) (map (new_walker u) ps)))
             = center (vadd (map (log_density (bd_bw par) ps) ps) (map (fun p => p_energy p * (1 / bd_kt par)) ps))).
  { rewrite <- (center_shift (vadd (map (log_density (bd_bw par) ps) ps) (map (fun p => p_energy p * (1 / bd_kt par)) ps)) (ln ((/ len) ^ n) + u_zero u / (en * bd_kt par))).
    f_equal. rewrite !map_map, !vadd_map, map_map. apply map_ext. intros p. cbn [p_energy new_walker]. unfold new_energy. rewrite Ek. field. lra. }
  assert (EI : bd_variant par = VOrig \/ interpolated gd par' (map p_pos (map (new_walker u) ps)) = interpolated gd par (map p_pos ps)).
  { destruct Hint as [Hv|Hi]; [now left|right]. rewrite <- (Hi _ Fp'), !map_map. reflexivity. }
  destruct (bd_variant par) eqn:EV; [now rewrite EE|destruct EI as [EI|EI]; [discriminate|]; now rewrite EE, EI|destruct EI as [EI|EI]; [discriminate|]].
  rewrite EI. destruct (interpolated gd par (map p_pos ps)) as [c|]; [|reflexivity]. cbn [bind]. now rewrite vadd_shift, center_shift.
Qed.

Lemma prob_units b : event_prob par' b = event_prob par b.
Proof using All.
  destruct Hu as (_ & _ & Ht & _). destruct SM as (_ & Edt & Er & _). unfold event_prob. rewrite Edt, Er. do 2 f_equal. field. lra.
Qed.

End moves.

Lemma move_map {f : particle -> particle} ps ev : perform_move (map f ps) ev = on_ok (map f) (perform_move ps ev).
Proof.
  unfold perform_move. rewrite map_length. destruct (nth_error ps (fst ev)) as [p|] eqn:E.
  - rewrite (map_nth_error f _ _ E). destruct (Nat.ltb _ _); [|reflexivity]. cbn [on_ok]. f_equal. clear. generalize (snd ev). induction ps as [|q ps IH]; intros [|k]; cbn; try reflexivity. now rewrite IH.
  - assert (nth_error (map f ps) (fst ev) = None) as -> by (apply nth_error_None; rewrite map_length; now apply nth_error_None). reflexivity.
Qed.
Lemma moves_map {f : particle -> particle} evs : forall ps, perform_moves (map f ps) evs = on_ok (map f) (perform_moves ps evs).
Proof.
  unfold perform_moves. induction evs as [|ev evs IH]; intros ps; [reflexivity|]. cbn [foldM]. rewrite move_map. destruct (perform_move ps ev); [|reflexivity]. cbn [on_ok bind]. apply IH.
Qed.

(** moves of other walkers with the same rates *)
Section mirror.
Context (f : particle -> particle) (P : particle -> Prop) (gd : griddata_t R) (par par' : bdpar).
Context (HB : forall ps, Forall P ps -> calc_betas gd par' (map f ps) = calc_betas gd par ps) (HP : forall b, event_prob par' b = event_prob par b).
Context (Erc : bd_recalc par' = bd_recalc par) (Est : bd_stride par' = bd_stride par) (Ess : bd_stats_stride par' = bd_stats_stride par) (Etf : bd_to_file par' = bd_to_file par).
Context (s : list R) (rng : rng_if).
Notation rng' := (mirrored s rng).
Definition st_map (b : bdst rng) : bdst rng' := @mkBS rng' (map f (bs_ps b)) (bs_rng b) (bs_stats b).

Lemma other_mirror m i g : random_other rng' m i g = random_other rng m i g.
Proof using. reflexivity. Qed.
Lemma loop_mirror m beta : forall is_ dl kl st g, bulk_loop rng' m beta is_ dl kl st g = bulk_loop rng m beta is_ dl kl st g.
Proof using.
  induction is_ as [|i is_ IH]; intros dl kl st g; [reflexivity|]. cbn [bulk_loop]. destruct (memb i kl); [apply IH|]. rewrite other_mirror.
  destruct (random_other rng m i g) as [[o g']|]; [|reflexivity]. cbn [bind]. destruct (at_ beta i) as [b|]; [|reflexivity]. cbn [bind]. destruct (gtb b 0); apply IH.
Qed.
Lemma bulk_map beta rand b : bd_bulk rng' par' beta rand (st_map b) = on_ok (fun r => (fst r, st_map (snd r))) (bd_bulk rng par beta rand b).
Proof using All.
  unfold bd_bulk. cbn [st_map bs_ps bs_rng bs_stats]. rewrite map_length.
  replace (map (fun br : R * R => Model_bd.leb (snd br) (event_prob par' (fst br))) (combine beta rand)) with (map (fun br : R * R => Model_bd.leb (snd br) (event_prob par (fst br))) (combine beta rand))
    by (apply map_ext; intros br; now rewrite HP).
  cbn [mirrored r_shuffle]. destruct (r_shuffle rng _ (bs_rng b)) as [ev g]. rewrite loop_mirror.
  match goal with |- context [bulk_loop rng ?a1 ?a2 ?a3 ?a4 ?a5 ?a6 ?a7] => destruct (bulk_loop rng a1 a2 a3 a4 a5 a6 a7) as [[[[dl kl] st] g']|] end; [|reflexivity].
  cbn [bind]. rewrite moves_map. destruct (perform_moves (bs_ps b) (combine dl kl)) as [ps'|]; reflexivity.
Qed.
Lemma recalc_map m rand : forall is_ beta curr events b, Forall P (bs_ps b) ->
  recalc_loop rng' gd par' m rand is_ beta curr events (st_map b) = on_ok (fun r => (fst r, st_map (snd r))) (recalc_loop rng gd par m rand is_ beta curr events b).
Proof using All.
  induction is_ as [|i is_ IH]; intros beta curr events b Fb; [reflexivity|]. cbn [recalc_loop]. destruct (at_ beta i) as [bt|]; [|reflexivity]. cbn [bind]. destruct (at_ rand i) as [r|]; [|reflexivity].
  cbn [bind]. rewrite HP. cbn [st_map bs_ps bs_rng bs_stats]. destruct (Model_bd.leb r (event_prob par bt)).
  - rewrite other_mirror. destruct (random_other rng m i (bs_rng b)) as [[o g]|]; [|reflexivity]. cbn [bind].
    match goal with |- context [let '(_, _) := ?t in _] => destruct t as [cu st] end.
    destruct cu as [ev|]; [|reflexivity]. rewrite moves_map. destruct (perform_moves (bs_ps b) [ev]) as [ps'|] eqn:E; [|reflexivity]. cbn [on_ok bind].
    assert (F' : Forall P ps') by (eapply perform_moves_forall; [exact Fb|exact E]). rewrite HB by exact F'.
    destruct (calc_betas gd par ps') as [beta'|]; [|reflexivity]. cbn [bind]. exact (IH beta' (Some ev) (events ++ [ev])%list (mkBS ps' g st) F').
  - exact (IH beta curr events (@mkBS rng (bs_ps b) (bs_rng b) _) Fb).
Qed.
Lemma birth_death_map b : Forall P (bs_ps b) ->
  do_birth_death rng' gd par' (st_map b) = on_ok (fun r => (fst r, st_map (snd r))) (do_birth_death rng gd par b).
Proof using All.
  intros Fb. unfold do_birth_death. cbn [st_map bs_ps bs_rng bs_stats]. rewrite HB, map_length by exact Fb. destruct (calc_betas gd par (bs_ps b)) as [beta|]; [|reflexivity]. cbn [bind mirrored r_random r_shuffle].
  destruct (r_random rng (length (bs_ps b)) (bs_rng b)) as [rand g]. cbn [bs_ps bs_rng bs_stats]. rewrite Erc. generalize (bd_recalc par) at 1 2. intros rc; destruct rc; cbn [negb].
  - destruct (r_shuffle rng (seq 0 (length (bs_ps b))) g) as [is_ g']. exact (recalc_map (length (bs_ps b)) rand is_ beta None [] (mkBS (bs_ps b) g' (bs_stats b)) Fb).
  - exact (bulk_map beta rand (mkBS (bs_ps b) g (bs_stats b))).
Qed.
Lemma bd_run_map step b out : Forall P (bs_ps b) ->
  bd_run rng' gd par' step (st_map b, out) = on_ok (fun r => (st_map (fst r), snd r)) (bd_run rng gd par step (b, out)).
Proof using All.
  intros Fb. unfold bd_run. rewrite Est, Ess, Etf. destruct (bd_stride par =? 0)%Z; [reflexivity|].
  rewrite birth_death_map by exact Fb.
  destruct (step mod bd_stride par =? 0)%Z.
  - destruct (do_birth_death rng gd par b) as [[ev b']|]; [|reflexivity]. cbn [on_ok bind fst snd]. destruct (bd_stats_stride par) as [k|]; [|reflexivity]. destruct (k =? 0)%Z; [reflexivity|]. now destruct (step mod k =? 0)%Z.
  - cbn [bind]. destruct (bd_stats_stride par) as [k|]; [|reflexivity]. destruct (k =? 0)%Z; [reflexivity|]. now destruct (step mod k =? 0)%Z.
Qed.
End mirror.

Section moves_units.
Context (u : units) (n : nat) (Hu : units_ok u n) (gd : griddata_t R) (par par' : bdpar) (SM : same_moves u n gd par par') (s : list R) (rng : rng_if).
Definition st_units (b : bdst rng) : bdst (mirrored s rng) := st_map (new_walker u) s rng b.
Lemma birth_death_units b : Forall (fun q => length (p_pos q) = n) (bs_ps b) ->
  do_birth_death (mirrored s rng) gd par' (st_units b) = on_ok (fun r => (fst r, st_units (snd r))) (do_birth_death rng gd par b).
Proof using All.
  pose proof SM as (Est & Edt & Er & Lb & Fbw & Eb & Hk & Ek & Erc & Ev & Ess & Etf & Hint).
  refine (birth_death_map (new_walker u) (fun q => length (p_pos q) = n) gd par par' (betas_units u n Hu gd par par' SM) (prob_units u n Hu gd par par' SM) _ _ _ _ s rng b); assumption.
Qed.
Lemma bd_run_units step b out : Forall (fun q => length (p_pos q) = n) (bs_ps b) ->
  bd_run (mirrored s rng) gd par' step (st_units b, out) = on_ok (fun r => (st_units (fst r), snd r)) (bd_run rng gd par step (b, out)).
Proof using All.
  pose proof SM as (Est & Edt & Er & Lb & Fbw & Eb & Hk & Ek & Erc & Ev & Ess & Etf & Hint).
  refine (bd_run_map (new_walker u) (fun q => length (p_pos q) = n) gd par par' (betas_units u n Hu gd par par' SM) (prob_units u n Hu gd par par' SM) _ _ _ _ s rng step b out); assumption.
Qed.
End moves_units.

(** the moves do not use the normal distribution *)
Lemma bd_run_mirror s rng gd par step ps (g : rng_st rng) st out :
  bd_run (mirrored s rng) gd par step (@mkBS (mirrored s rng) ps g st, out) = on_ok (fun r : bdst rng * list report => (@mkBS (mirrored s rng) (bs_ps (fst r)) (bs_rng (fst r)) (bs_stats (fst r)), snd r)) (bd_run rng gd par step (@mkBS rng ps g st, out)).
Proof.
  pose proof (bd_run_map (fun p => p) (fun _ => True) gd par par) as H.
  specialize (H ltac:(intros q _; now rewrite map_id) ltac:(reflexivity) eq_refl eq_refl eq_refl eq_refl s rng step (@mkBS rng ps g st) out ltac:(apply Forall_forall; auto)).
  unfold st_map in H. cbn [bs_ps bs_rng bs_stats] in H. rewrite map_id in H. rewrite H. destruct (bd_run rng gd par step (@mkBS rng ps g st, out)) as [[b o]|]; [|reflexivity]. cbn [on_ok fst snd]. now rewrite map_id.
Qed.
