(** Single steps of the dynamics in float64: all coordinates, overdamped dynamics, examples *)
From Verif Require Import Model_f64od Spec_f64step Proof_f64 Proof_f64b Proof_f64d Proof_f64f Proof_f64k Proof_f64l Proof_f64m Proof_f64n Proof_f64r Proof_f64s Proof_f64mb Proof_f64step.
From Flocq Require Import Core.Core.
From Coq Require Import Lra Lia.
Open Scope R_scope.
Ltac Zify.zify_post_hook ::= idtac.

Lemma nth_fmap2 f : forall a b i x y, nth_error a i = Some x -> nth_error b i = Some y -> nth_error (fmap2 f a b) i = Some (f x y).
Proof. induction a as [|u a IH]; intros [|v b] [|i] x y H1 H2; try discriminate; cbn in *; [now injection H1 as <-; injection H2 as <-|]. now apply IH. Qed.
Lemma len_fmap2 f : forall a b n, length a = n -> length b = n -> length (fmap2 f a b) = n.
Proof. induction a as [|u a IH]; intros [|v b] n H1 H2; cbn in *; try lia. destruct n; [discriminate|]. f_equal. apply IH; lia. Qed.

Lemma clamped_lip lo hi q q' e : lo <= hi -> Rabs (q' - q) <= e -> Rabs (clamped lo hi q' - clamped lo hi q) <= e.
Proof.
  intros L H. apply Rabs_le_inv in H. unfold clamped. apply Rabs_le.
  unfold Rmax, Rmin. destruct (Rle_dec hi q'), (Rle_dec hi q), (Rle_dec lo hi), (Rle_dec lo q'), (Rle_dec lo q); lra.
Qed.
Lemma clamped_in lo hi q : lo <= q <= hi -> clamped lo hi q = q.
Proof. intros H. unfold clamped, Rmax, Rmin. destruct (Rle_dec hi q), (Rle_dec lo hi), (Rle_dec lo q); lra. Qed.
Lemma clamped_lo lo hi q : lo <= hi -> q < lo -> clamped lo hi q = lo.
Proof. intros L H. unfold clamped, Rmax, Rmin. destruct (Rle_dec hi q), (Rle_dec lo hi), (Rle_dec lo q); lra. Qed.
Lemma clamped_hi lo hi q : lo <= hi -> hi < q -> clamped lo hi q = hi.
Proof. intros L H. unfold clamped, Rmax, Rmin. destruct (Rle_dec hi q), (Rle_dec lo hi), (Rle_dec lo q); lra. Qed.

(** the boundary condition on a finite coordinate *)
Lemma ranges_range_ok ranges : ranges_ok ranges -> Forall range_ok ranges.
Proof. intros H. unfold ranges_ok in H. eapply Forall_impl; [|exact H]. intros r ((F1 & _) & (F2 & _) & L). apply fle_val; assumption. Qed.
Lemma ranges_nth ranges i r : ranges_ok ranges -> nth_error ranges i = Some r -> finite (fst r) /\ finite (snd r) /\ val (fst r) <= val (snd r) /\ Rabs (val (fst r)) <= 2 ^ 200 /\ Rabs (val (snd r)) <= 2 ^ 200.
Proof.
  intros H E. apply nth_error_In in E. unfold ranges_ok in H. rewrite Forall_forall in H. destruct (H r E) as ((F1 & L1) & (F2 & L2) & L).
  change 200%Z with (Z.of_nat 200) in L1, L2. rewrite bpow_pow in L1, L2. tauto.
Qed.
Lemma inside_fin lo hi x : finite lo -> finite hi -> inside (lo, hi) x -> finite x /\ val lo <= val x <= val hi.
Proof.
  intros F1 F2 [I1 I2]. cbn [fst snd] in *. assert (F : finite x).
  { destruct x as [s|s| |s m e' H]; try reflexivity; exfalso.
    - destruct s; [destruct lo as [?|?| |[] ? ? ?]; discriminate|destruct hi as [?|?| |[] ? ? ?]; discriminate].
    - destruct lo as [?|?| |[] ? ? ?]; discriminate. }
  split; [exact F|]. apply fle_val in I1; [|assumption..]. apply fle_val in I2; [|assumption..]. lra.
Qed.
Lemma reflect_near ranges pos mom : ranges_ok ranges -> length ranges = length pos -> length mom = length pos ->
  exists pos' mom', f_bc_reflective ranges pos mom = Ok (pos', mom') /\ length pos' = length pos /\ length mom' = length pos /\
  forall i r x m, nth_error ranges i = Some r -> nth_error pos i = Some x -> nth_error mom i = Some m -> finite x ->
    exists x' m', nth_error pos' i = Some x' /\ nth_error mom' i = Some m' /\ inside r x' /\ val x' = clamped (val (fst r)) (val (snd r)) (val x) /\
      (val (fst r) <= val x <= val (snd r) -> m' = m) /\ (val x < val (fst r) \/ val (snd r) < val x -> m' = fopp m).
Proof.
  intros HR L1 L2. destruct (reflective_main ranges pos mom L1 L2 (ranges_range_ok _ HR)) as (pos' & mom' & E & K1 & K2 & H).
  exists pos', mom'. split; [exact E|]. split; [exact K1|]. split; [exact K2|]. intros i r x m G1 G2 G3 Fx.
  destruct (H i r x m G1 G2 G3) as (x' & m' & X1 & X2 & X3 & _ & X5 & X6 & X7). destruct (ranges_nth _ _ _ HR G1) as (Fl & Fh & L & _).
  exists x', m'. split; [exact X1|]. split; [exact X2|]. split. { apply X3. destruct x; try reflexivity; discriminate Fx. }
  destruct (Rlt_le_dec (val x) (val (fst r))) as [C1 | C1]; [|destruct (Rlt_le_dec (val (snd r)) (val x)) as [C2 | C2]].
  - destruct X6 as [-> ->]; [now apply flt_val|]. split; [symmetry; now apply clamped_lo|]. split; [intros; lra|reflexivity].
  - destruct X7 as [-> ->]; [now apply flt_val|]. split; [symmetry; now apply clamped_hi|]. split; [intros; lra|reflexivity].
  - destruct X5 as [-> ->]. { split; apply fle_val; assumption. } split; [symmetry; now apply clamped_in|]. split; [reflexivity|intros; lra].
Qed.
Lemma F2_of_nth {A B} (P : A -> B -> Prop) : forall l1 l2, length l1 = length l2 -> (forall i a b, nth_error l1 i = Some a -> nth_error l2 i = Some b -> P a b) -> Forall2 P l1 l2.
Proof.
  induction l1 as [|a l1 IH]; intros [|b l2] L H; try discriminate; [apply Forall2_nil|]. apply Forall2_cons; [apply (H 0%nat); reflexivity|].
  apply IH; [cbn in L; lia|]. intros i u v E1 E2. apply (H (S i)); assumption.
Qed.
Lemma F2_at {A B} (P : A -> B -> Prop) l1 l2 : Forall2 P l1 l2 -> length l1 = length l2 /\ forall i a b, nth_error l1 i = Some a -> nth_error l2 i = Some b -> P a b.
Proof.
  induction 1 as [|a b l1 l2 H _ [L IH]]; [split; [reflexivity|intros [|i]; discriminate]|]. split; [cbn; congruence|].
  intros [|i] u v E1 E2; cbn in *; [injection E1 as <-; injection E2 as <-; exact H|eauto].
Qed.
Lemma bounded_nth k l i x : Forall (bounded (bpow radix2 (Z.of_nat k))) l -> nth_error l i = Some x -> bounded (2 ^ k) x.
Proof. intros H E. apply nth_error_In in E. rewrite Forall_forall in H. rewrite <- bpow_pow. now apply H. Qed.
Lemma nth_some {A} (l : list A) i n : length l = n -> (i < n)%nat -> exists x, nth_error l i = Some x.
Proof. intros L H. destruct (nth_error l i) eqn:E; [eauto|]. apply nth_error_None in E. lia. Qed.

(** ** one step of the Langevin dynamics *)
Lemma langevin_step ranges force c1 c2 mass dt w n1 n2 : ranges_ok ranges -> (forall p, in_box ranges p -> forces_ok ranges (force p)) ->
  finite c1 -> 0 <= val c1 <= 1 -> finite c2 -> 0 <= val c2 <= bpow radix2 120 -> finite mass -> bpow radix2 (-100) <= val mass -> finite dt -> 0 <= val dt <= bpow radix2 100 ->
  in_box ranges (fw_pos w) -> length (fw_mom w) = length ranges -> Forall (bounded (bpow radix2 400)) (fw_mom w) -> forces_ok ranges (fw_forces w) ->
  noise_for ranges n1 -> noise_for ranges n2 ->
  exists w', f_bp_update ranges force c1 c2 mass dt w n1 n2 = Ok w' /\ in_box ranges (fw_pos w') /\ fw_forces w' = force (fw_pos w') /\ length (fw_mom w') = length ranges /\
  forall i r x m F a b, nth_error ranges i = Some r -> nth_error (fw_pos w) i = Some x -> nth_error (fw_mom w) i = Some m -> nth_error (fw_forces w) i = Some F ->
    nth_error n1 i = Some a -> nth_error n2 i = Some b ->
    exists x' m' F', nth_error (fw_pos w') i = Some x' /\ nth_error (fw_mom w') i = Some m' /\ nth_error (fw_forces w') i = Some F' /\
    let p := val c1 * val m + val c2 * val a + val F * val dt / 2 in
    let q := val x + p / val mass * val dt in
    let size := Rabs (val m) + val c2 * Rabs (val a) + Rabs (val F) * val dt in
    let err := / 2 ^ 49 * (Rabs (val x) + size / val mass * val dt) + bpow radix2 (-600) in
    let errm := / 2 ^ 48 * (size + Rabs (val F') * val dt + val c2 * Rabs (val b)) + bpow radix2 (-600) in
    Rabs (val x' - clamped (val (fst r)) (val (snd r)) q) <= err /\
    (val (fst r) + err <= q <= val (snd r) - err -> Rabs (val m' - (val c1 * (p + val F' * val dt / 2) + val c2 * val b)) <= errm) /\
    (q < val (fst r) - err \/ val (snd r) + err < q -> Rabs (val m' - (val c1 * (- p + val F' * val dt / 2) + val c2 * val b)) <= errm).
Proof.
  intros HR HF Fc1 Hc1 Fc2 Hc2 Fm Hm Fdt Hdt HB Lm Hmom [LF HFo] [Ln1 Hn1] [Ln2 Hn2].
  change 120%Z with (Z.of_nat 120) in Hc2. change (-100)%Z with (- Z.of_nat 100)%Z in Hm. change 100%Z with (Z.of_nat 100) in Hdt. rewrite bpow_neg in Hm. rewrite bpow_pow in Hc2, Hdt.
  destruct (F2_at _ _ _ HB) as [Lp HBi].
  set (mom1 := fmap2 fadd (fmap2 fadd (map (fmul c1) (fw_mom w)) (map (fmul c2) n1)) (map (fun f => fmul (fmul fhalf f) dt) (fw_forces w))).
  set (pos1 := fmap2 fadd (fw_pos w) (map (fun m => fmul (fdiv m mass) dt) mom1)).
  assert (LM1 : length mom1 = length ranges) by (unfold mom1; repeat apply len_fmap2; rewrite ?map_length; assumption).
  assert (LP1 : length pos1 = length ranges) by (unfold pos1; apply len_fmap2; rewrite ?map_length; congruence).
  destruct (reflect_near ranges pos1 mom1 HR (eq_sym LP1) ltac:(congruence)) as (pos2 & mom2 & E & LP2 & LM2 & HRf).
  assert (K : forall i r x m F a, nth_error ranges i = Some r -> nth_error (fw_pos w) i = Some x -> nth_error (fw_mom w) i = Some m -> nth_error (fw_forces w) i = Some F -> nth_error n1 i = Some a ->
    let pf := fadd (fadd (fmul c1 m) (fmul c2 a)) (fmul (fmul fhalf F) dt) in let xf := fadd x (fmul (fdiv pf mass) dt) in
    nth_error mom1 i = Some pf /\ nth_error pos1 i = Some xf /\ bounded (2 ^ 200) x /\ bounded (2 ^ 400) m /\ bounded (2 ^ 200) F /\ bounded (2 ^ 10) a /\ finite xf).
  { intros i r x m F a G1 G2 G3 G4 G5 pf xf. destruct (ranges_nth _ _ _ HR G1) as (Fl & Fh & Lr & Al & Ah).
    assert (Bx : bounded (2 ^ 200) x).
    { pose proof (HBi i r x G1 G2) as I. destruct r as [lo hi]. destruct (inside_fin _ _ _ Fl Fh I) as [Fx Hx]. cbn [fst snd] in *. split; [exact Fx|]. apply Rabs_le_inv in Al, Ah. apply Rabs_le. lra. }
    assert (Bm : bounded (2 ^ 400) m) by exact (bounded_nth 400 _ _ _ Hmom G3). assert (BF : bounded (2 ^ 200) F) by exact (bounded_nth 200 _ _ _ HFo G4). assert (Ba : bounded (2 ^ 10) a) by exact (bounded_nth 10 _ _ _ Hn1 G5).
    assert (M : nth_error mom1 i = Some pf).
    { unfold mom1, pf. apply nth_fmap2; [apply nth_fmap2; [now apply map_nth_error|now apply map_nth_error]|]. apply (map_nth_error (fun f => fmul (fmul fhalf f) dt)). exact G4. }
    split; [exact M|]. split. { unfold pos1, xf. apply nth_fmap2; [exact G2|]. apply (map_nth_error (fun m => fmul (fdiv m mass) dt)). exact M. }
    split; [exact Bx|]. split; [exact Bm|]. split; [exact BF|]. split; [exact Ba|].
    destruct (pos_near c1 c2 mass dt Fc1 Hc1 Fc2 Hc2 Fm Hm Fdt Hdt x m F a Bx Bm BF Ba) as [FX _]. exact FX. }
  assert (HB2 : in_box ranges pos2).
  { apply F2_of_nth; [congruence|]. intros i r x' G1 X1. assert (Hi : (i < length ranges)%nat) by (apply nth_error_Some; congruence).
    destruct (nth_some (fw_pos w) i (length ranges)) as [x G2]; [congruence|exact Hi|]. destruct (nth_some (fw_mom w) i (length ranges)) as [m G3]; [congruence|exact Hi|].
    destruct (nth_some (fw_forces w) i (length ranges)) as [F G4]; [congruence|exact Hi|]. destruct (nth_some n1 i (length ranges)) as [a G5]; [congruence|exact Hi|].
    destruct (K i r x m F a G1 G2 G3 G4 G5) as (M1 & M2 & _ & _ & _ & _ & FX). destruct (HRf i r _ _ G1 M2 M1 FX) as (x2 & m2 & E1 & _ & I & _). congruence. }
  set (mom3 := fmap2 fadd (map (fmul c1) (fmap2 fadd mom2 (map (fun f => fmul (fmul fhalf f) dt) (force pos2)))) (map (fmul c2) n2)).
  exists (mkFW pos2 mom3 (force pos2)). unfold f_bp_update. fold mom1. fold pos1. rewrite E. cbn [bind fw_pos fw_mom fw_forces]. destruct (HF pos2 HB2) as [LF' HFo'].
  split; [reflexivity|]. split; [exact HB2|]. split; [reflexivity|].
  split. { unfold mom3. apply len_fmap2; rewrite ?map_length; [apply len_fmap2; rewrite ?map_length; congruence|assumption]. }
  intros i r x m F a b G1 G2 G3 G4 G5 G6. destruct (K i r x m F a G1 G2 G3 G4 G5) as (M1 & M2 & Bx & Bm & BF & Ba & FX). clear K.
  destruct (HRf i r _ _ G1 M2 M1 FX) as (x' & m2 & X1 & X2 & X3 & X4 & X5 & X6).
  assert (Hi : (i < length ranges)%nat) by (apply nth_error_Some; congruence). destruct (nth_some (force pos2) i (length ranges)) as [F' X7]; [congruence|exact Hi|].
  assert (BF' : bounded (2 ^ 200) F') by exact (bounded_nth 200 _ _ _ HFo' X7). assert (Bb : bounded (2 ^ 10) b) by exact (bounded_nth 10 _ _ _ Hn2 G6).
  exists x', (fadd (fmul c1 (fadd m2 (fmul (fmul fhalf F') dt))) (fmul c2 b)), F'. split; [exact X1|].
  split. { unfold mom3. apply nth_fmap2; [|now apply map_nth_error]. apply map_nth_error. apply nth_fmap2; [exact X2|]. apply (map_nth_error (fun f => fmul (fmul fhalf f) dt)). exact X7. }
  split; [exact X7|]. cbv zeta.
  pose proof (pos_near c1 c2 mass dt Fc1 Hc1 Fc2 Hc2 Fm Hm Fdt Hdt x m F a Bx Bm BF Ba) as NP. pose proof (mom_near c1 c2 mass dt Fc1 Hc1 Fc2 Hc2 Fm Hm Fdt Hdt x m F a Bx Bm BF Ba) as NM.
  pose proof eta_pow as HE. destruct (ranges_nth _ _ _ HR G1) as (Fl & Fh & Lr & _).
  set (size := Rabs (val m) + val c2 * Rabs (val a) + Rabs (val F) * val dt) in *. set (p := val c1 * val m + val c2 * val a + val F * val dt / 2) in *.
  change (size / val mass * val dt) with (size * / val mass * val dt). set (q := val x + p / val mass * val dt) in *.
  set (err := / 2 ^ 49 * (Rabs (val x) + size * / val mass * val dt) + bpow radix2 (-600)).
  set (xf := fadd x _) in *. set (pf := fadd (fadd _ _) _) in *.
  assert (DX : Rabs (val xf - q) <= err) by (destruct NP as (_ & NE & _); unfold err; lra).
  split; [rewrite X4; now apply clamped_lip|]. apply Rabs_le_inv in DX.
  split; intros Q.
  - rewrite (X5 ltac:(lra)). destruct (second_near c1 c2 mass dt Fc1 Hc1 Fc2 Hc2 Fm Hm Fdt Hdt x m F a Bx Bm BF Ba b Bb _ _ _ NM BF') as (_ & NE & _). fold size in NE. lra.
  - rewrite (X6 ltac:(lra)). destruct (second_near c1 c2 mass dt Fc1 Hc1 Fc2 Hc2 Fm Hm Fdt Hdt x m F a Bx Bm BF Ba b Bb _ _ _ (near_opp _ _ _ _ NM) BF') as (_ & NE & _). fold size in NE. lra.
Qed.
