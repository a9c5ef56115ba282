(** Boundary conditions on float64 numbers (C74, C75) *)
From Verif Require Import Spec_f64 Proof_f64 Proof_f64b Proof_base.
From Flocq Require Import Core.Core.
From Coq Require Import Lia Lra.
Open Scope R_scope.

#[local] Arguments bpow : simpl never.

(** ** order: infinities as 2^1024 *)
Definition ext (x : f64) : R :=
  match x with
  | B754_infinity false => bpow radix2 1024
  | B754_infinity true => - bpow radix2 1024
  | _ => val x
  end.
Lemma ext_fin x : finite x -> ext x = val x.
Proof. destruct x; try discriminate; reflexivity. Qed.
Lemma val_lt_max x : - bpow radix2 1024 < val x < bpow radix2 1024.
Proof. pose proof (abs_B2R_lt_emax 53 1024 x) as H. apply Rabs_lt_inv in H. exact H. Qed.

Lemma flt_ext x y : not_nan x -> not_nan y -> (flt x y = true <-> ext x < ext y).
Proof.
  intros Hx Hy. pose proof (bpow_gt_0 radix2 1024) as P.
  assert (C : (finite x /\ finite y) \/ ~ (finite x /\ finite y)) by (unfold finite; destruct (is_finite x), (is_finite y); intuition congruence).
  destruct C as [[Fx Fy] | C].
  - rewrite (ext_fin x Fx), (ext_fin y Fy). now apply flt_val.
  - pose proof (val_lt_max x) as Vx. pose proof (val_lt_max y) as Vy.
    destruct x as [sx|sx| |sx mx ex bx]; try discriminate Hx; destruct y as [sy|sy| |sy my ey by_]; try discriminate Hy;
      try (exfalso; apply C; split; reflexivity); try destruct sx; try destruct sy; cbn [ext] in *; unfold flt, Bltb;
      cbn -[B2R bpow] in *; (split; [intros D; try discriminate D; lra | intros D; try reflexivity; exfalso; lra]).
Qed.
Lemma fle_ext x y : not_nan x -> not_nan y -> (fle x y = true <-> ext x <= ext y).
Proof.
  intros Hx Hy. pose proof (bpow_gt_0 radix2 1024) as P.
  assert (C : (finite x /\ finite y) \/ ~ (finite x /\ finite y)) by (unfold finite; destruct (is_finite x), (is_finite y); intuition congruence).
  destruct C as [[Fx Fy] | C].
  - rewrite (ext_fin x Fx), (ext_fin y Fy). now apply fle_val.
  - pose proof (val_lt_max x) as Vx. pose proof (val_lt_max y) as Vy.
    destruct x as [sx|sx| |sx mx ex bx]; try discriminate Hx; destruct y as [sy|sy| |sy my ey by_]; try discriminate Hy;
      try (exfalso; apply C; split; reflexivity); try destruct sx; try destruct sy; cbn [ext] in *; unfold fle, Bleb;
      cbn -[B2R bpow] in *; (split; [intros D; try discriminate D; lra | intros D; try reflexivity; exfalso; lra]).
Qed.
Lemma fle_not_nan x y : fle x y = true -> not_nan x /\ not_nan y.
Proof. destruct x, y; intros H; try discriminate H; try (split; reflexivity); destruct s; discriminate H. Qed.
Lemma flt_nan_l x y : is_nan x = true -> flt x y = false.
Proof. destruct x; try discriminate. reflexivity. Qed.
Lemma flt_nan_r x y : is_nan y = true -> flt x y = false.
Proof. destruct y; try discriminate. destruct x as [| [] | |]; reflexivity. Qed.
Lemma flt_neg x y : not_nan x -> not_nan y -> flt x y = false -> fle y x = true.
Proof.
  intros Hx Hy H. apply fle_ext; [assumption..|]. destruct (Rle_or_lt (ext y) (ext x)) as [L | L]; [exact L|].
  apply (flt_ext x y Hx Hy) in L. congruence.
Qed.

(** ** C74 *)
Definition reflected (range : f64 * f64) (x m x' m' : f64) : Prop :=
  (flt x (fst range) = true /\ x' = fst range /\ m' = fopp m) \/
  (flt (snd range) x = true /\ x' = snd range /\ m' = fopp m) \/
  (flt x (fst range) = false /\ flt (snd range) x = false /\ x' = x /\ m' = m).

Lemma reflective_main rs pos mom : length rs = length pos -> length mom = length pos -> Forall range_ok rs ->
  exists pos' mom', f_bc_reflective rs pos mom = Ok (pos', mom') /\ length pos' = length pos /\ length mom' = length pos /\
  forall i r x m, nth_error rs i = Some r -> nth_error pos i = Some x -> nth_error mom i = Some m ->
    exists x' m', nth_error pos' i = Some x' /\ nth_error mom' i = Some m' /\
      (not_nan x -> inside r x') /\
      (is_nan x = true -> x' = x /\ m' = m) /\
      (inside r x -> x' = x /\ m' = m) /\
      (flt x (fst r) = true -> x' = fst r /\ m' = fopp m) /\
      (flt (snd r) x = true -> x' = snd r /\ m' = fopp m).
Proof.
  revert rs mom. induction pos as [|x pos IH]; intros [|[lo hi] rs] [|m mom] H1 H2 HF; try discriminate.
  - exists [], []. repeat split. intros [|i] ? ? ? ? ?; discriminate.
  - cbn [length] in H1, H2. injection H1 as H1. injection H2 as H2. inversion HF as [|? ? HR HF']; subst.
    destruct (IH rs mom H1 H2 HF') as (p & q & E & L1 & L2 & HI).
    cbn [f_bc_reflective]. rewrite E. cbn [bind].
    red in HR. cbn [fst snd] in HR. destruct (fle_not_nan _ _ HR) as [Nlo Nhi].
    assert (HR' := HR). apply (fle_ext _ _ Nlo Nhi) in HR'.
    destruct (flt x lo) eqn:T1; [|destruct (flt hi x) eqn:T2].
    + exists (lo :: p), (fopp m :: q). split; [reflexivity|]. split; [cbn; congruence|]. split; [cbn; congruence|].
      intros [|i] r y n G1 G2 G3; cbn [nth_error] in *; [|eauto].
      injection G1 as <-. injection G2 as <-. injection G3 as <-. exists lo, (fopp m). cbn [fst snd].
      do 2 (split; [reflexivity|]). split.
      { intros _. split; cbn [fst snd]; apply fle_ext; try assumption; lra. }
      split; [intros N; rewrite (flt_nan_l _ _ N) in T1; discriminate|]. split.
      { intros [I1 I2]. cbn [fst snd] in *. destruct (fle_not_nan _ _ I1) as [_ Nx].
        apply (fle_ext _ _ Nlo Nx) in I1. apply (flt_ext _ _ Nx Nlo) in T1. lra. }
      split; [tauto|]. intros T2. destruct (is_nan x) eqn:Nx; [rewrite (flt_nan_r _ _ Nx) in T2; discriminate|].
      apply (flt_ext _ _ Nx Nlo) in T1. apply (flt_ext _ _ Nhi Nx) in T2. lra.
    + exists (hi :: p), (fopp m :: q). split; [reflexivity|]. split; [cbn; congruence|]. split; [cbn; congruence|].
      intros [|i] r y n G1 G2 G3; cbn [nth_error] in *; [|eauto].
      injection G1 as <-. injection G2 as <-. injection G3 as <-. exists hi, (fopp m). cbn [fst snd].
      do 2 (split; [reflexivity|]). split.
      { intros _. split; cbn [fst snd]; apply fle_ext; try assumption; lra. }
      split; [intros N; rewrite (flt_nan_r _ _ N) in T2; discriminate|]. split.
      { intros [I1 I2]. cbn [fst snd] in *. destruct (fle_not_nan _ _ I1) as [_ Nx].
        apply (fle_ext _ _ Nx Nhi) in I2. apply (flt_ext _ _ Nhi Nx) in T2. lra. }
      split; [intros D; rewrite D in T1; discriminate|tauto].
    + exists (x :: p), (m :: q). split; [reflexivity|]. split; [cbn; congruence|]. split; [cbn; congruence|].
      intros [|i] r y n G1 G2 G3; cbn [nth_error] in *; [|eauto].
      injection G1 as <-. injection G2 as <-. injection G3 as <-. exists x, m. cbn [fst snd].
      do 2 (split; [reflexivity|]). split.
      { intros Nx. split; cbn [fst snd]; apply flt_neg; assumption. }
      split; [tauto|]. split; [tauto|]. split; intros D; congruence.
Qed.

Lemma reflective_inside rs : forall pos mom pos' mom', Forall range_ok rs -> f_bc_reflective rs pos mom = Ok (pos', mom') ->
  forall i x', nth_error pos' i = Some x' -> exists r, nth_error rs i = Some r /\ (inside r x' \/ is_nan x' = true).
Proof.
  induction rs as [|[lo hi] rs IH]; intros [|x pos] mom pos' mom' HF E i x' Hx; cbn [f_bc_reflective] in E; try discriminate.
  - injection E as <- <-. destruct i; discriminate.
  - injection E as <- <-. destruct i; discriminate.
  - destruct mom as [|m mom]; [discriminate|]. destruct (f_bc_reflective rs pos mom) as [[p q]|] eqn:E'; [|discriminate].
    cbn [bind] in E. inversion HF as [|? ? HR HF']; subst. pose proof (IH _ _ _ _ HF' E') as IH'.
    red in HR. cbn [fst snd] in HR. destruct (fle_not_nan _ _ HR) as [Nlo Nhi].
    assert (HR' := HR). apply (fle_ext _ _ Nlo Nhi) in HR'.
    destruct (flt x lo) eqn:T1; [|destruct (flt hi x) eqn:T2]; injection E as <- <-; destruct i as [|i]; cbn [nth_error] in *; eauto;
      injection Hx as <-; exists (lo, hi); (split; [reflexivity|]).
    + left. split; cbn [fst snd]; apply fle_ext; try assumption; lra.
    + left. split; cbn [fst snd]; apply fle_ext; try assumption; lra.
    + destruct (is_nan x) eqn:Nx; [now right|left]. split; cbn [fst snd]; apply flt_neg; assumption.
Qed.

Lemma bp_run_inside ranges force c1 c2 mass dt noises : forall w w', Forall range_ok ranges -> noises <> [] ->
  f_bp_run ranges force c1 c2 mass dt w noises = Ok w' ->
  forall i x, nth_error (fw_pos w') i = Some x -> exists r, nth_error ranges i = Some r /\ (inside r x \/ is_nan x = true).
Proof.
  induction noises as [|[n1 n2] rest IH]; intros w w' HF HN E; [congruence|].
  cbn [f_bp_run] in E. destruct (f_bp_update _ _ _ _ _ _ w n1 n2) as [w1|] eqn:E1; [|discriminate]. cbn [bind] in E.
  destruct rest as [|z rest].
  - cbn [f_bp_run] in E. injection E as <-. unfold f_bp_update in E1.
    destruct (f_bc_reflective _ _ _) as [[p q]|] eqn:E2; [|discriminate]. cbn [bind] in E1. injection E1 as <-.
    cbn [fw_pos]. eapply reflective_inside; eassumption.
  - apply (IH w1 w' HF ltac:(discriminate) E).
Qed.

(** ** C75 *)
Lemma periodic_inside rs pos mom : forall i r x, length rs = length pos -> length mom = length pos ->
  nth_error rs i = Some r -> nth_error pos i = Some x ->
  exists pos', f_bc_periodic rs pos mom = Ok (pos', mom) /\ length pos' = length pos /\
  nth_error pos' i = Some (if flt x (fst r) then fadd x (fsub (snd r) (fst r))
    else if flt (snd r) x then fsub x (fsub (snd r) (fst r)) else x).
Proof.
  assert (T : forall pos rs mom, length rs = length pos -> length mom = length pos ->
    exists pos', f_bc_periodic rs pos mom = Ok (pos', mom) /\ length pos' = length pos /\
    forall i r x, nth_error rs i = Some r -> nth_error pos i = Some x ->
    nth_error pos' i = Some (if flt x (fst r) then fadd x (fsub (snd r) (fst r))
    else if flt (snd r) x then fsub x (fsub (snd r) (fst r)) else x)).
  { clear. induction pos as [|x pos IH]; intros [|[lo hi] rs] [|m mom] H1 H2; try discriminate.
    - exists []. repeat split. intros [|i] ? ? ? ?; discriminate.
    - cbn [length] in H1, H2. injection H1 as H1. injection H2 as H2. destruct (IH rs mom H1 H2) as (p & E & L & HI).
      cbn [f_bc_periodic]. rewrite E. cbn [bind].
      destruct (flt x lo) eqn:T1; [|destruct (flt hi x) eqn:T2]; eexists; (split; [reflexivity|]); (split; [cbn; congruence|]);
        intros [|i] r y G1 G2; cbn [nth_error] in *; eauto; injection G1 as <-; injection G2 as <-; cbn [fst snd]; rewrite T1, ?T2; reflexivity. }
  intros i r x H1 H2 G1 G2. destruct (T pos rs mom H1 H2) as (p & E & L & HI). exists p. eauto.
Qed.

Lemma wrap_val (a b x : f64) (s : bool) : finite a -> finite b -> finite x ->
  val a <= val b -> Rabs (val a) + Rabs (val b) <= bpow radix2 1022 ->
  let w := val b - val a in
  (if s then val a - w <= val x <= val a else val b <= val x <= val b + w) ->
  let y := if s then fadd x (fsub b a) else fsub x (fsub b a) in
  finite y /\ Rabs (val y - (if s then val x + w else val x - w)) <= (Rabs (val a) + Rabs (val b)) * / 2 ^ 51.
Proof.
  intros Fa Fb Fx Hab HM w Hx y. pose proof U_pos as HU. assert (HU1 : U <= / 8) by (unfold U; lra).
  set (M := Rabs (val a) + Rabs (val b)) in *.
  assert (Ha : - Rabs (val a) <= val a <= Rabs (val a)) by (apply Rabs_le_inv, Rle_refl).
  assert (Hb : - Rabs (val b) <= val b <= Rabs (val b)) by (apply Rabs_le_inv, Rle_refl).
  assert (Hw : 0 <= w <= M) by (unfold w, M; lra).
  assert (HM0 : 0 <= M) by lra.
  assert (Pm : bpow radix2 1024 = 4 * bpow radix2 1022).
  { change 1024%Z with (2 + 1022)%Z. rewrite bpow_plus. reflexivity. }
  pose proof (bpow_gt_0 radix2 1022) as P0.
  assert (Ew : Rabs (rnd w - w) <= U * w).
  { pose proof (rnd_plus_err b (fopp a)) as E. rewrite fopp_val in E.
    replace (val b + - val a) with w in E by (unfold w; ring). now rewrite (Rabs_pos_eq w) in E by lra. }
  apply Rabs_le_inv in Ew.
  assert (HUw : U * w <= U * M) by (apply Rmult_le_compat_l; lra).
  assert (HUM : U * M <= / 8 * M) by (apply Rmult_le_compat_r; lra).
  destruct (fsub_val b a Fb Fa) as [Fw Vw].
  { fold w. apply Rabs_lt. lra. }
  fold w in Vw. set (p := fsub b a) in *.
  destruct s.
  - pose proof (rnd_plus_err x p) as E. rewrite Vw in E. set (z := val x + rnd w) in *.
    assert (Hz : Rabs z <= 2 * M) by (apply Rabs_le; unfold z, M in *; lra).
    assert (Uz : U * Rabs z <= U * (2 * M)) by (apply Rmult_le_compat_l; lra).
    apply Rabs_le_inv in E. apply Rabs_le_inv in Hz.
    destruct (fadd_val x p Fx Fw) as [Fy Vy].
    { rewrite Vw. fold z. apply Rabs_lt. lra. }
    rewrite Vw in Vy. fold z in Vy. split; [exact Fy|]. unfold y. rewrite Vy.
    replace (/ 2 ^ 51) with (4 * U) by (unfold U; lra). apply Rabs_le. unfold z in *. lra.
  - pose proof (rnd_plus_err x (fopp p)) as E. rewrite fopp_val, Vw in E. set (z := val x + - rnd w) in *.
    assert (Hz : Rabs z <= 2 * M) by (apply Rabs_le; unfold z, M in *; lra).
    assert (Uz : U * Rabs z <= U * (2 * M)) by (apply Rmult_le_compat_l; lra).
    apply Rabs_le_inv in E. apply Rabs_le_inv in Hz.
    destruct (fsub_val x p Fx Fw) as [Fy Vy].
    { rewrite Vw. change (val x - rnd w) with z. apply Rabs_lt. lra. }
    rewrite Vw in Vy. change (val x - rnd w) with z in Vy. split; [exact Fy|]. unfold y. rewrite Vy.
    replace (/ 2 ^ 51) with (4 * U) by (unfold U; lra). apply Rabs_le. unfold z in *. lra.
Qed.

Lemma periodic_partial rs pos mom i lo hi x : length rs = length pos -> length mom = length pos ->
  nth_error rs i = Some (lo, hi) -> nth_error pos i = Some x ->
  finite lo -> finite hi -> finite x -> val lo <= val hi -> Rabs (val lo) + Rabs (val hi) <= bpow radix2 1022 ->
  let w := val hi - val lo in
  val lo - w <= val x <= val hi + w ->
  exists pos' x', f_bc_periodic rs pos mom = Ok (pos', mom) /\ nth_error pos' i = Some x' /\ finite x' /\
    (val lo <= val x <= val hi -> x' = x) /\
    (val x < val lo -> Rabs (val x' - (val x + w)) <= (Rabs (val lo) + Rabs (val hi)) * / 2 ^ 51) /\
    (val hi < val x -> Rabs (val x' - (val x - w)) <= (Rabs (val lo) + Rabs (val hi)) * / 2 ^ 51).
Proof.
  intros H1 H2 G1 G2 Fl Fh Fx Hlh HM w Hx. destruct (periodic_inside rs pos mom i (lo, hi) x H1 H2 G1 G2) as (p & E & L & HI).
  cbn [fst snd] in HI. exists p, (if flt x lo then fadd x (fsub hi lo) else if flt hi x then fsub x (fsub hi lo) else x).
  split; [exact E|]. split; [exact HI|]. pose proof (flt_val x lo Fx Fl) as T1. pose proof (flt_val hi x Fh Fx) as T2.
  destruct (flt x lo).
  - assert (val x < val lo) by now apply T1.
    destruct (wrap_val lo hi x true Fl Fh Fx Hlh HM) as [W1 W2]; [unfold w in *; lra|]. cbn in W1, W2.
    split; [exact W1|]. split; [lra|]. split; [intros _; exact W2|lra].
  - destruct (flt hi x).
    + assert (val hi < val x) by now apply T2.
      destruct (wrap_val lo hi x false Fl Fh Fx Hlh HM) as [W1 W2]; [unfold w in *; lra|]. cbn in W1, W2.
      split; [exact W1|]. split; [lra|]. split; [lra|intros _; exact W2].
    + split; [exact Fx|]. split; [reflexivity|].
      assert (~ val x < val lo) by (intros D; apply T1 in D; discriminate).
      assert (~ val hi < val x) by (intros D; apply T2 in D; discriminate). split; lra.
Qed.

(** -0.5, 1.7, and the first number below -0.5 *)
Definition r_lo : f64 := fmake (-1) (-1).
Definition r_hi : f64 := fmake 7656119366529843 (-52).
Definition r_x : f64 := fmake (-4503599627370497) (-53).
Lemma periodic_refuted : exists lo hi x x', range_ok (lo, hi) /\ finite x /\ flt x lo = true /\
  f_bc_periodic [(lo, hi)] [x] [fzero] = Ok ([x'], [fzero]) /\ flt hi x' = true.
Proof. exists r_lo, r_hi, r_x, (fadd r_x (fsub r_hi r_lo)). repeat split; vm_compute; reflexivity. Qed.

(** too few ranges or momenta *)
Lemma short_periodic : forall ranges pos mom, (length ranges < length pos \/ length mom < length pos)%nat -> f_bc_periodic ranges pos mom = Err IndexError.
Proof.
  intros ranges pos. revert ranges. induction pos as [|x xs IH]; intros [|[lo hi] rs] [|m ms] H; cbn in H; try lia; cbn [f_bc_periodic]; try reflexivity.
  rewrite IH; [reflexivity|lia].
Qed.
Lemma short_reflective : forall ranges pos mom, (length ranges < length pos \/ length mom < length pos)%nat -> f_bc_reflective ranges pos mom = Err IndexError.
Proof.
  intros ranges pos. revert ranges. induction pos as [|x xs IH]; intros [|[lo hi] rs] [|m ms] H; cbn in H; try lia; cbn [f_bc_reflective]; try reflexivity.
  rewrite IH; [reflexivity|lia].
Qed.
