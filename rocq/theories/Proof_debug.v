(** Reference surfaces and the density grid (C69, C70) *)
From Coq Require Import Lia Lra.
From Verif Require Import PyBase Model_dyn Model_grid Model_potgrid Model_bd Model_debug Spec_grid Spec_gridops Spec_bd Spec_debug Proof_base Proof_grid Proof_grid2 Proof_bd Proof_bd2.
Open Scope R_scope.

Lemma min_fold : forall l x, let m := fold_left Rmin l x in m <= x /\ Forall (fun y => m <= y) l /\ (m = x \/ In m l).
Proof.
  induction l as [|y l IH]; intros x; cbn [fold_left].
  - cbv zeta. split; [lra|]. split; [constructor|]. now left.
  - destruct (IH (Rmin x y)) as (A & B & C). cbv zeta in *. set (m := fold_left Rmin l (Rmin x y)) in *.
    assert (Rmin x y <= x) by apply Rmin_l. assert (Rmin x y <= y) by apply Rmin_r.
    split; [lra|]. split; [constructor; [lra|exact B]|]. destruct C as [C|C]; [|right; right; exact C].
    unfold Rmin in C. destruct (Rle_dec x y); [left; exact C|right; left; congruence].
Qed.

Lemma reference_zero energy pos : pos <> [] ->
  exists r m, calculate_reference energy pos true = Ok r /\ r = map (fun p => energy p - m) pos /\ Forall (fun x => 0 <= x) r /\ In 0 r.
Proof.
  intro H. unfold calculate_reference. cbv zeta. destruct pos as [|p pos]; [congruence|]. cbn [map rmin_list bind].
  destruct (min_fold (map energy pos) (energy p)) as (A & B & C). cbv zeta in *. set (m := fold_left Rmin (map energy pos) (energy p)) in *.
  exists (map (fun q => energy q - m) (p :: pos)), m. split; [cbn [map]; rewrite map_map; reflexivity|]. split; [reflexivity|].
  rewrite Forall_map in B. rewrite Forall_forall in B.
  split.
  - apply Forall_map. constructor; [lra|]. apply Forall_forall. intros q Hq. specialize (B q Hq). cbn in B. lra.
  - destruct C as [C|C].
    + left. rewrite C. lra.
    + apply in_map_iff in C. destruct C as (q & E & Hq). apply in_map_iff. exists q. split; [lra|now right].
Qed.
Lemma reference_plain energy pos : calculate_reference energy pos false = Ok (map energy pos).
Proof. reflexivity. Qed.

Lemma density_flat pot kt ranges ns :
  length ranges = pot_ndim pot -> length ns = pot_ndim pot -> increasing ranges -> usable_points ns -> 0 < kt ->
  exists g Zc, calculate_probability_density pot kt ranges ns = Ok g /\ 0 < Zc /\ points g <> [] /\
    a_flat (g_data g) = map (fun p => exp (- pot_energy pot p / kt) / Zc) (points g).
Proof.
  intros Hr Hn Hi Hu Hk. unfold calculate_probability_density. rewrite Hr, Hn, Nat.eqb_refl. cbn [negb].
  destruct (@from_npoints_ok R ranges ns) as (g0 & E0 & R0 & N0 & D0 & _ & S0); [congruence|assumption|].
  rewrite E0. cbn [bind].
  assert (consistent g0) as C0 by (split; rewrite ?R0, ?N0, D0; congruence).
  destruct (set_from_func_ok g0 (pot_energy pot) C0) as (g1 & E1 & G1 & Sh1 & F1). rewrite E1. cbn [bind].
  assert (filled g1) as Fi1.
  { destruct G1 as (A1 & A2 & A3 & A4). unfold filled, consistent. rewrite A1, A2, A3, A4, R0, N0, D0.
    repeat split; try congruence. rewrite F1, map_length, points_length by assumption. congruence. }
  destruct (perform_math_ok g1 Ropp Fi1) as (g2 & E2 & Fi2 & G2 & F2). rewrite E2. cbn [bind].
  destruct (arithmetic_number 0 g2 kt Rdiv Fi2) as (g3 & E3 & Fi3 & G3 & F3). rewrite E3. cbn [bind].
  destruct (perform_math_ok g3 exp Fi3) as (g4 & E4 & Fi4 & G4 & F4). rewrite E4. cbn [bind].
  destruct (arithmetic_number 0 g4 (rsum (a_flat (g_data g4)) * prod_R (g_steps g4)) Rdiv Fi4) as (g5 & E5 & Fi5 & G5 & F5).
  assert (a_flat (g_data g4) = map (fun p => exp (- pot_energy pot p / kt)) (points g0)) as F4'.
  { rewrite F4, F3, F2, F1, !map_map. reflexivity. }
  assert (S4 : g_steps g4 = g_steps g0) by (destruct G1 as (a1 & a2 & a3 & _), G2 as (b1 & b2 & b3 & _), G3 as (c1 & c2 & c3 & _), G4 as (d1 & d2 & d3 & _); congruence).
  assert (Pe : points g5 = points g0).
  { unfold points, axes. destruct G1 as (a1 & a2 & a3 & a4), G2 as (b1 & b2 & b3 & b4), G3 as (c1 & c2 & c3 & c4), G4 as (d1 & d2 & d3 & d4), G5 as (e1 & e2 & e3 & e4).
    rewrite e1, d1, c1, b1, a1, e2, d2, c2, b2, a2 || idtac. congruence. }
  assert (prod_R (g_steps g4) = volume ranges ns) as Hv.
  { rewrite S4. destruct (stepsizes_ok ranges ns) as (st & Es & _ & _ & Hv); [congruence|assumption|].
    rewrite Es in S0. injection S0 as <-. exact Hv. }
  pose proof (volume_pos ranges ns Hi Hu) as Pv.
  assert (Forall (fun x => 0 < x) (a_flat (g_data g4))) as Pos4.
  { rewrite F4'. apply Forall_map, Forall_forall. intros; apply exp_pos. }
  assert (length (points g0) = size ns) as Lp by (rewrite points_length by assumption; congruence).
  pose proof (size_pos ns Hu) as Ps.
  assert (0 < total (a_flat (g_data g4))) as Pt.
  { apply total_pos; [|assumption]. intros E. apply (f_equal (@length R)) in E. rewrite F4', map_length, Lp in E. cbn in E. lia. }
  set (Zc := rsum (a_flat (g_data g4)) * prod_R (g_steps g4)) in *.
  exists g5, Zc. split; [exact E5|]. split; [unfold Zc; rewrite Hv; apply Rmult_lt_0_compat; assumption|].
  split; [rewrite Pe; intro X; rewrite X in Lp; cbn in Lp; lia|]. rewrite F5, F4', map_map, Pe. reflexivity.
Qed.

Lemma reference_boltzmann pot kt ranges ns :
  length ranges = pot_ndim pot -> length ns = pot_ndim pot -> increasing ranges -> usable_points ns -> 0 < kt ->
  exists g r c, calculate_probability_density pot kt ranges ns = Ok g /\ calculate_reference (pot_energy pot) (points g) true = Ok r /\
    length r = length (a_flat (g_data g)) /\
    forall i, (i < length r)%nat -> nth i r 0 = c - kt * ln (nth i (a_flat (g_data g)) 0).
Proof.
  intros H1 H2 H3 H4 H5. destruct (density_flat pot kt ranges ns H1 H2 H3 H4 H5) as (g & Zc & E & Pz & Np & F).
  destruct (reference_zero (pot_energy pot) (points g) Np) as (r & m & Er & Rr & _).
  exists g, r, (- m - kt * ln Zc). split; [exact E|]. split; [exact Er|]. rewrite F, Rr, !map_length. split; [reflexivity|].
  intros i Hi. rewrite (nth_map_in _ _ _ 0 []), (nth_map_in _ _ _ 0 []) by assumption. set (u := pot_energy pot (nth i (points g) [])).
  unfold Rdiv at 1. rewrite ln_mult by (try apply exp_pos; apply Rinv_0_lt_compat, Pz). rewrite ln_exp, ln_Rinv by exact Pz. field. lra.
Qed.

(** * The density grid *)
Lemma ones_concat (l : list vec) : Forall (fun p => length p = 1%nat) l -> map (fun x => [x]) (concat l) = l.
Proof.
  induction 1 as [|p l Hp _ IH]; [reflexivity|]. destruct p as [|x [|? ?]]; try discriminate. cbn [concat app map]. now rewrite IH.
Qed.
Lemma concat_len n (l : list vec) : Forall (fun p => length p = n) l -> length (concat l) = (n * length l)%nat.
Proof. induction 1 as [|p l Hp _ IH]; [cbn; lia|]. cbn [concat length]. rewrite app_length, Hp, IH. lia. Qed.

Lemma grid_point_rate par ps g e : walkers_ok 1 (bd_bw par) (map p_pos ps) -> (2 <= length ps)%nat -> length g = 1%nat ->
  exists rho beta, density_grid_point par ps (g, e) = Ok (rho, beta) /\
    rho = average (map (gauss_kernel (bd_bw par) g) (g :: map p_pos ps)) /\
    forall gd p, p_pos p = g -> p_energy p = e -> exists rest, calc_betas gd (original par) (p :: ps) = Ok (beta :: rest).
Proof.
  intros W H2 Hg. destruct g as [|x [|? ?]]; try discriminate.
  assert (W' : walkers_ok 1 (bd_bw par) ([x] :: map p_pos ps)).
  { destruct W as (A & B & C). split; [exact A|]. split; [exact B|]. constructor; [reflexivity|exact C]. }
  assert (Len : Forall (fun p => length p = 1%nat) (map p_pos ps)) by apply W.
  unfold density_grid_point. destruct ps as [|p1 [|p2 ps]]; try (cbn in H2; lia). set (qs := p1 :: p2 :: ps) in *.
  cbn [fst snd app]. replace (length (x :: concat (map p_pos qs))) with (length qs + 1)%nat.
  2: { cbn [length]. rewrite (concat_len 1) by exact Len. rewrite map_length. lia. }
  rewrite Nat.eqb_refl. cbn [negb]. cbn [map]. rewrite ones_concat by exact Len.
  destruct (density_full 1 (bd_bw par) ([x] :: map p_pos qs) W' ltac:(discriminate)) as (d & Ed & _ & _ & Ld & Hd).
  rewrite Ed. cbn [bind]. destruct d as [|r0 d]; [discriminate|]. cbn [at_ nth_error bind map vadd vmap2].
  eexists _, _. split; [reflexivity|]. split; [apply (Hd 0%nat); cbn; lia|].
  intros gd p Hp He. unfold calc_betas. cbn [map original bd_bw bd_variant bd_kt]. rewrite Hp, Ed. cbn [bind map vadd vmap2]. rewrite He. unfold center. cbn [map].
  eexists. f_equal. f_equal. rewrite map_map. reflexivity.
Qed.

Lemma mapM_each {A B} (f : A -> res B) (P : A -> B -> Prop) : forall l, (forall a, In a l -> exists b, f a = Ok b /\ P a b) ->
  exists m, mapM f l = Ok m /\ Forall2 P l m.
Proof.
  induction l as [|a l IH]; intro H; [exists []; split; [reflexivity|constructor]|].
  destruct (H a (or_introl eq_refl)) as (b & E & Hb). destruct IH as (m & Em & Hm); [intros; apply H; now right|].
  exists (b :: m). cbn [mapM]. rewrite E. cbn [bind]. rewrite Em. split; [reflexivity|now constructor].
Qed.

Lemma Forall2_at {A B} (P : A -> B -> Prop) l m : Forall2 P l m -> forall i a b, (i < length l)%nat -> P (nth i l a) (nth i m b).
Proof. induction 1 as [|x y l m H _ IH]; intros i a b Hi; [cbn in Hi; lia|]. destruct i; [exact H|]. cbn [nth]. apply IH. cbn in Hi. lia. Qed.
Lemma combine_at {A B} : forall (l : list A) (m : list B) i a b, (i < length l)%nat -> (i < length m)%nat -> nth i (combine l m) (a, b) = (nth i l a, nth i m b).
Proof.
  induction l as [|x l IH]; intros m i a b Hl Hm; [cbn in Hl; lia|]. destruct m as [|y m]; [cbn in Hm; lia|]. destruct i; [reflexivity|].
  cbn [combine nth]. apply IH; cbn in *; lia.
Qed.

Lemma density_grid_rates par ps grid energy : walkers_ok 1 (bd_bw par) (map p_pos ps) -> (2 <= length ps)%nat ->
  Forall (fun g => length g = 1%nat) grid -> (length grid <= length energy)%nat ->
  exists rows, walker_density_grid par ps grid energy = Ok rows /\ length rows = length grid /\
  forall i, (i < length grid)%nat ->
    let g := nth i grid [] in
    exists rho beta, nth i rows [] = (g ++ [rho; beta])%list /\
      rho = average (map (gauss_kernel (bd_bw par) g) (g :: map p_pos ps)) /\
      forall gd p, p_pos p = g -> p_energy p = nth i energy 0 -> exists rest, calc_betas gd (original par) (p :: ps) = Ok (beta :: rest).
Proof.
  intros W H2 Hg He.
  set (P := fun (ge : vec * R) (rb : R * R) => fst rb = average (map (gauss_kernel (bd_bw par) (fst ge)) (fst ge :: map p_pos ps)) /\
      forall gd p, p_pos p = fst ge -> p_energy p = snd ge -> exists rest, calc_betas gd (original par) (p :: ps) = Ok (snd rb :: rest)).
  destruct (mapM_each (density_grid_point par ps) P (combine grid energy)) as (l & El & Hl).
  { intros [g e] Hin. apply in_combine_l in Hin. rewrite Forall_forall in Hg.
    destruct (grid_point_rate par ps g e W H2 (Hg g Hin)) as (rho & beta & E & X & Y). exists (rho, beta). split; [exact E|]. split; [exact X|exact Y]. }
  unfold walker_density_grid. rewrite El. cbn [bind]. assert (Ll : length (combine grid energy) = length l) by (clear - Hl; induction Hl; cbn; congruence). rewrite combine_length, Nat.min_l in Ll by exact He.
  rewrite <- Ll, Nat.eqb_refl. cbn [negb]. eexists. split; [reflexivity|]. rewrite map_length, combine_length, <- Ll, Nat.min_id. split; [reflexivity|].
  intros i Hi. cbv zeta. rewrite (nth_map_in _ _ _ [] ([], (0, 0))) by (rewrite combine_length; lia). rewrite combine_nth by congruence. cbn [fst snd].
  pose proof (Forall2_at P _ _ Hl i ([], 0) (0, 0) ltac:(rewrite combine_length; lia)) as X. rewrite combine_at in X by lia. destruct X as [X Y]. cbn [fst snd] in X, Y.
  destruct (nth i l (0, 0)) as [rho beta]. cbn [fst snd] in *. exists rho, beta. auto.
Qed.

Lemma density_grid_fails n_dim par ps g grid e energy : walkers_ok n_dim (bd_bw par) (map p_pos ps) -> (2 <= n_dim)%nat -> (2 <= length ps)%nat -> length g = n_dim ->
  walker_density_grid par ps (g :: grid) (e :: energy) = Err ValueError.
Proof.
  intros (_ & _ & W) Hn H2 Hg. unfold walker_density_grid. cbn [combine mapM]. unfold density_grid_point at 1. destruct ps as [|p1 [|p2 ps]]; try (cbn in H2; lia).
  set (qs := p1 :: p2 :: ps) in *. cbn [fst snd]. rewrite app_length, (concat_len n_dim) by exact W. rewrite map_length, Hg.
  destruct (Nat.eqb_spec (n_dim + n_dim * length qs) (length qs + 1)); [exfalso; nia|]. reflexivity.
Qed.
Lemma density_grid_single par p g grid e energy : walker_density_grid par [p] (g :: grid) (e :: energy) = Err IndexError.
Proof. reflexivity. Qed.

Lemma reference_empty energy : calculate_reference energy [] true = Err ValueError /\ calculate_reference energy [] false = Ok [].
Proof. split; reflexivity. Qed.
