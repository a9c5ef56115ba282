(** Magnitudes in a float64 Langevin simulation: multiples of a power of two are not exceeded by rounding *)
From Coq Require Import Lia Lra Reals ZArith.
From Verif Require Import PyBase Model_f64 Model_f64ld Spec_f64 Proof_f64 Proof_f64b Proof_f64d Proof_f64j Proof_f64k.
From Flocq Require Import Core.Core IEEE754.BinarySingleNaN.
Open Scope R_scope.
Ltac Zify.zify_post_hook ::= idtac.

(** at most j times 2^e *)
Definition upto (e j : Z) (x : f64) : Prop := finite x /\ Rabs (val x) <= IZR j * bpow radix2 e.

Lemma upto_mono e j j' x : upto e j x -> (j <= j')%Z -> upto e j' x.
Proof. intros [F B] H. split; [exact F|]. apply IZR_le in H. pose proof (bpow_ge_0 radix2 e). nra. Qed.

Lemma rnd_mult_pow j e : (0 <= j < 2 ^ 53)%Z -> (-1000 <= e <= 900)%Z -> rnd (IZR j * bpow radix2 e) = IZR j * bpow radix2 e.
Proof. intros Hj He. destruct (fmake_val j e) as [F V]; [lia..|]. rewrite <- V. apply rnd_val. Qed.
Lemma mult_pow_small j e : (0 <= j < 2 ^ 53)%Z -> (-1000 <= e <= 900)%Z -> IZR j * bpow radix2 e < bpow radix2 1024.
Proof.
  intros Hj He. apply Rle_lt_trans with (bpow radix2 53 * bpow radix2 900).
  - apply Rmult_le_compat; [apply IZR_le; lia|apply bpow_ge_0| |apply bpow_le; lia]. rewrite <- (IZR_Zpower radix2 53) by lia. apply IZR_le. change (Zpower radix2 53) with (2 ^ 53)%Z. lia.
  - rewrite <- bpow_plus. apply bpow_lt. lia.
Qed.
Lemma rnd_opp x : rnd (- x) = - rnd x.
Proof. apply round_NE_opp. Qed.
Lemma rnd_upto x b : rnd b = b -> Rabs x <= b -> Rabs (rnd x) <= b.
Proof.
  intros E H. apply Rabs_le. apply Rabs_le_inv in H. split.
  - rewrite <- E, <- rnd_opp. apply rnd_le. lra.
  - rewrite <- E. apply rnd_le. lra.
Qed.

Section Ops.
Context (e : Z) (He : (-1000 <= e <= 900)%Z).
Lemma upto_add a b x y : upto e a x -> upto e b y -> (0 <= a)%Z -> (0 <= b)%Z -> (a + b < 2 ^ 53)%Z -> upto e (a + b) (fadd x y).
Proof using All.
  intros [Fx Bx] [Fy By] Ha Hb H. assert (B : Rabs (val x + val y) <= IZR (a + b) * bpow radix2 e).
  { rewrite plus_IZR. eapply Rle_trans; [apply Rabs_triang|]. lra. }
  pose proof (rnd_upto _ _ (rnd_mult_pow (a + b) e ltac:(lia) He) B) as R. pose proof (mult_pow_small (a + b) e ltac:(lia) He).
  destruct (fadd_val x y Fx Fy) as [F V]; [lra|]. split; [exact F|]. rewrite V. exact R.
Qed.
Lemma upto_mul a x y j : finite x -> finite y -> (0 <= j < 2 ^ 53)%Z -> Rabs (val x) * Rabs (val y) <= a -> a <= IZR j * bpow radix2 e -> upto e j (fmul x y).
Proof using All.
  intros Fx Fy Hj H1 H2. assert (B : Rabs (val x * val y) <= IZR j * bpow radix2 e) by (rewrite Rabs_mult; lra).
  pose proof (rnd_upto _ _ (rnd_mult_pow j e Hj He) B) as R. pose proof (mult_pow_small j e Hj He).
  destruct (fmul_val x y Fx Fy) as [F V]; [lra|]. split; [exact F|]. rewrite V. exact R.
Qed.
Lemma upto_div x y j : finite x -> finite y -> 0 < val y -> (0 <= j < 2 ^ 53)%Z -> Rabs (val x) <= IZR j * bpow radix2 e * val y -> upto e j (fdiv x y).
Proof using All.
  intros Fx Fy Hy Hj H2. assert (B : Rabs (val x / val y) <= IZR j * bpow radix2 e).
  { unfold Rdiv. rewrite Rabs_mult, Rabs_inv, (Rabs_pos_eq (val y)) by lra. apply Rmult_le_reg_r with (val y); [exact Hy|]. rewrite Rmult_assoc, Rinv_l, Rmult_1_r by lra. exact H2. }
  pose proof (rnd_upto _ _ (rnd_mult_pow j e Hj He) B) as R. pose proof (mult_pow_small j e Hj He).
  destruct (fdiv_val x y Fx Fy) as [F V]; [lra|lra|]. split; [exact F|]. rewrite V. exact R.
Qed.
Lemma upto_opp j x : upto e j x -> upto e j (fopp x).
Proof using Type. intros [F B]. split; [now apply fopp_finite|]. now rewrite fopp_val, Rabs_Ropp. Qed.
End Ops.

Lemma Forall_fmap2 (P Q S : f64 -> Prop) f a b : (forall x y, P x -> Q y -> S (f x y)) -> Forall P a -> Forall Q b -> Forall S (fmap2 f a b).
Proof. intros H Ha. revert b. induction Ha; intros b Hb; [constructor|]. destruct Hb; cbn [fmap2]; constructor; auto. Qed.
Lemma Forall_fmap (P Q : f64 -> Prop) (f : f64 -> f64) a : (forall x, P x -> Q (f x)) -> Forall P a -> Forall Q (map f a).
Proof. intros H Ha. induction Ha; cbn [map]; constructor; auto. Qed.
Lemma fmap2_length f a b : length a = length b -> length (fmap2 f a b) = length a.
Proof. revert b. induction a as [|x a IH]; intros [|y b] H; try discriminate; [reflexivity|]. cbn [fmap2 length] in *. f_equal. apply IH. lia. Qed.

Lemma F2_length {A B} (P : A -> B -> Prop) a b : Forall2 P a b -> length a = length b.
Proof. induction 1; cbn; congruence. Qed.

(** ** the run *)
Definition range_small (r : f64 * f64) : Prop := finite (fst r) /\ finite (snd r) /\ val (fst r) <= val (snd r) /\ Rabs (val (fst r)) <= bpow radix2 900 /\ Rabs (val (snd r)) <= bpow radix2 900.
Lemma range_small_ok r : range_small r -> range_ok r.
Proof. intros (F1 & F2 & L & _). apply fle_val; assumption. Qed.
Lemma inside_val r x : range_small r -> inside r x -> finite x /\ val (fst r) <= val x <= val (snd r).
Proof.
  intros (F1 & F2 & L & _) [I1 I2]. assert (F : finite x).
  { destruct x as [s|s| |s m e' H]; try reflexivity; exfalso.
    - destruct r as [lo hi]. cbn [fst snd] in *. destruct s.
      + destruct lo as [?|?| |[] ? ? ?]; discriminate.
      + destruct hi as [?|?| |[] ? ? ?]; discriminate.
    - destruct r as [lo hi]. cbn [fst snd] in *. destruct lo as [?|?| |[] ? ? ?]; discriminate. }
  split; [exact F|]. split; [apply fle_val in I1|apply fle_val in I2]; assumption.
Qed.

Lemma reflect_ok (P : f64 -> Prop) : (forall m, P m -> P (fopp m)) -> forall rs pos mom, Forall range_small rs -> length pos = length rs -> length mom = length rs -> Forall finite pos -> Forall P mom ->
  exists pos' mom', f_bc_reflective rs pos mom = Ok (pos', mom') /\ Forall2 inside rs pos' /\ length mom' = length rs /\ Forall P mom'.
Proof.
  intros HP. induction rs as [|[lo hi] rs IH]; intros [|x pos] [|m mom] HRs L1 L2 Fp Pm; try discriminate.
  - exists [], []. repeat split; constructor.
  - inversion HRs as [|? ? R0 R1]; subst. inversion Fp as [|? ? Fx Fp']; subst. inversion Pm as [|? ? Pm0 Pm']; subst.
    destruct (IH pos mom R1 ltac:(cbn in *; lia) ltac:(cbn in *; lia) Fp' Pm') as (p & q & E & I & L & Q).
    destruct R0 as (F1 & F2 & L0 & _). cbn [fst snd] in *.
    cbn [f_bc_reflective]. rewrite E. cbn [bind]. destruct (flt x lo) eqn:T1; [|destruct (flt hi x) eqn:T2].
    + exists (lo :: p), (fopp m :: q). split; [reflexivity|]. split; [constructor; [split; cbn [fst snd]; apply fle_val; try assumption; lra|exact I]|]. split; [cbn; lia|]. constructor; auto.
    + exists (hi :: p), (fopp m :: q). split; [reflexivity|]. split; [constructor; [split; cbn [fst snd]; apply fle_val; try assumption; lra|exact I]|]. split; [cbn; lia|]. constructor; auto.
    + exists (x :: p), (m :: q). split; [reflexivity|]. apply flt_false in T1; [|assumption..]. apply flt_false in T2; [|assumption..].
      split; [constructor; [split; cbn [fst snd]; apply fle_val; assumption|exact I]|]. split; [cbn; lia|]. constructor; auto.
Qed.

Section Run.
Context (ranges : list (f64 * f64)) (force : list f64 -> list f64) (c1 c2 mass dt : f64) (N F : R) (e : Z).
Context (He : (-1000 <= e <= 700)%Z) (HR : Forall range_small ranges).
Context (Fc1 : finite c1) (Hc1 : 0 <= val c1 <= 1) (Fc2 : finite c2) (Fm : finite mass) (Hm : 0 < val mass) (Fdt : finite dt) (Hdt : 0 <= val dt).
Context (Hnoise : Rabs (val c2) * N <= bpow radix2 e) (HN : 0 <= N) (HF : 0 <= F) (Hhalf : F <= bpow radix2 e) (Hforce : F * val dt <= bpow radix2 e).
Context (Hmass : 1 <= val mass * bpow radix2 200) (Hdts : val dt <= bpow radix2 200) (Hed : (e <= 400)%Z).
Definition all_inside (p : list f64) : Prop := Forall2 inside ranges p.
Context (Force : forall p, all_inside p -> length (force p) = length ranges /\ Forall (fun f => finite f /\ Rabs (val f) <= F) (force p)).

Definition good (j : Z) (w : fwalker) : Prop :=
  all_inside (fw_pos w) /\ length (fw_mom w) = length ranges /\ Forall (upto e j) (fw_mom w) /\ fw_forces w = force (fw_pos w).
Definition noise_ok (n : list f64) : Prop := length n = length ranges /\ Forall (fun x => finite x /\ Rabs (val x) <= N) n.

Lemma fhalf_val : finite fhalf /\ val fhalf = / 2.
Proof using Type. destruct (fmake_val 1 (-1)) as [F3 V3]; [lia..|]. change (bpow radix2 (-1)) with (/ 2) in V3. split; [exact F3|]. unfold fhalf. rewrite V3. lra. Qed.

Lemma pos_e : 0 < bpow radix2 e. Proof using Type. apply bpow_gt_0. Qed.
Lemma kick_one j m f : upto e j m -> (0 <= j)%Z -> (j + 1 < 2 ^ 53)%Z -> finite f /\ Rabs (val f) <= F -> upto e (j + 1) (fadd m (fmul (fmul fhalf f) dt)).
Proof using All.
  intros Hm' Hj Hj' [Ff Bf]. destruct fhalf_val as [Fh Vh]. pose proof pos_e as P.
  assert (H1 : upto e 1 (fmul fhalf f)). { apply upto_mul with (a := F); [lia|assumption..|lia| |lra]. rewrite Vh, Rabs_pos_eq by lra. pose proof (Rabs_pos (val f)). lra. }
  (* the product is at most F *)
  assert (H2 : Rabs (val (fmul fhalf f)) <= Rabs (val f)).
  { destruct (fmul_val fhalf f Fh Ff) as [_ V].
    - rewrite Vh. apply Rle_lt_trans with (Rabs (val f)).
      + apply rnd_upto; [rewrite <- B2R_Babs; apply rnd_val|]. rewrite Rabs_mult, (Rabs_pos_eq (/ 2)) by lra. pose proof (Rabs_pos (val f)). lra.
      + apply abs_B2R_lt_emax.
    - rewrite V, Vh. apply rnd_upto; [rewrite <- B2R_Babs; apply rnd_val|]. rewrite Rabs_mult, (Rabs_pos_eq (/ 2)) by lra. pose proof (Rabs_pos (val f)). lra. }
  apply upto_add; [lia|assumption| |lia..]. destruct H1 as [Fp _].
  apply upto_mul with (a := F * val dt); [lia|assumption..|lia| |lra]. rewrite (Rabs_pos_eq (val dt)) by assumption. apply Rmult_le_compat_r; [assumption|lra].
Qed.
Lemma thermo_one j m n : upto e j m -> (0 <= j)%Z -> (j + 1 < 2 ^ 53)%Z -> finite n /\ Rabs (val n) <= N -> upto e (j + 1) (fadd (fmul c1 m) (fmul c2 n)).
Proof using All.
  intros [Fm' Bm] Hj Hj' [Fn Bn]. pose proof pos_e as P. apply upto_add; [lia| | |lia..].
  - apply upto_mul with (a := IZR j * bpow radix2 e); [lia|assumption..|lia| |lra]. rewrite (Rabs_pos_eq (val c1)) by lra. pose proof (Rabs_pos (val m)). nra.
  - apply upto_mul with (a := bpow radix2 e); [lia|assumption..|lia| |lra]. eapply Rle_trans; [|exact Hnoise]. apply Rmult_le_compat_l; [apply Rabs_pos|exact Bn].
Qed.
Lemma move_one j r x m : upto e j m -> (0 <= j < 2 ^ 53)%Z -> range_small r -> inside r x -> finite (fadd x (fmul (fdiv m mass) dt)).
Proof using All.
  intros [Fm' Bm] Hj HRr Hi. destruct (inside_val _ _ HRr Hi) as [Fx Bx]. destruct HRr as (_ & _ & _ & B1 & B2).
  assert (V : upto (e + 200) j (fdiv m mass)).
  { apply upto_div; [lia|assumption..|]. rewrite bpow_plus. eapply Rle_trans; [exact Bm|].
    replace (IZR j * (bpow radix2 e * bpow radix2 200) * val mass) with (IZR j * bpow radix2 e * (val mass * bpow radix2 200)) by ring.
    rewrite <- Rmult_1_r at 1. apply Rmult_le_compat_l; [|exact Hmass]. apply Rmult_le_pos; [apply IZR_le; lia|apply bpow_ge_0]. }
  assert (W : upto (e + 200 + 200) j (fmul (fdiv m mass) dt)).
  { destruct V as [Fv Bv]. apply upto_mul with (a := IZR j * bpow radix2 (e + 200) * bpow radix2 200); [lia|assumption..| |rewrite (bpow_plus _ (e + 200)); lra].
    rewrite (Rabs_pos_eq (val dt)) by assumption. apply Rmult_le_compat; [apply Rabs_pos|assumption..]. }
  destruct W as [Fw Bw]. assert (Bx' : Rabs (val x) <= bpow radix2 900).
  { apply Rabs_le. apply Rabs_le_inv in B1. apply Rabs_le_inv in B2. lra. }
  apply (fadd_val x _ Fx Fw). pose proof (Rabs_triang (val x) (val (fmul (fdiv m mass) dt))) as T.
  assert (IZR j * bpow radix2 (e + 200 + 200) <= bpow radix2 900).
  { apply Rle_trans with (bpow radix2 53 * bpow radix2 800).
    - apply Rmult_le_compat; [apply IZR_le; lia|apply bpow_ge_0| |apply bpow_le; lia]. rewrite <- (IZR_Zpower radix2 53) by lia. apply IZR_le. change (Zpower radix2 53) with (2 ^ 53)%Z. lia.
    - rewrite <- bpow_plus. apply bpow_le. lia. }
  apply Rle_lt_trans with (2 * bpow radix2 900).
  - apply rnd_upto; [|lra]. change 2 with (IZR 2). apply rnd_mult_pow; lia.
  - change 2 with (bpow radix2 1). rewrite <- bpow_plus. apply bpow_lt. lia.
Qed.

Lemma move_all : forall rs, Forall range_small rs -> forall pos mom j, Forall2 inside rs pos -> Forall (upto e j) mom -> (0 <= j < 2 ^ 53)%Z ->
  Forall finite (fmap2 fadd pos (map (fun m => fmul (fdiv m mass) dt) mom)).
Proof using All.
  intros rs HRs pos mom j Hi. revert mom. induction Hi as [|r x rs pos I0 Hi IH]; intros [|m mom] Pm Hj; cbn [map fmap2]; try constructor.
  - inversion HRs; subst. inversion Pm; subst. eapply move_one; eassumption.
  - inversion HRs; subst. inversion Pm; subst. apply IH; assumption.
Qed.

Lemma step_ok j w n1 n2 : good j w -> (0 <= j)%Z -> (j + 4 < 2 ^ 53)%Z -> noise_ok n1 -> noise_ok n2 ->
  exists w', f_bp_update ranges force c1 c2 mass dt w n1 n2 = Ok w' /\ good (j + 4) w'.
Proof using All.
  intros (Hi & L & Pm & Ef) Hj Hj4 [Ln1 Hn1] [Ln2 Hn2]. unfold f_bp_update.
  destruct (Force _ Hi) as [LF BF]. rewrite Ef.
  set (m1 := fmap2 fadd (map (fmul c1) (fw_mom w)) (map (fmul c2) n1)).
  assert (P1 : Forall (upto e (j + 1)) m1 /\ length m1 = length ranges).
  { split; [|unfold m1; rewrite fmap2_length, map_length; [exact L|rewrite !map_length; lia]].
    unfold m1. revert n1 Ln1 Hn1 m1. rewrite <- L. clear L. induction Pm as [|m ms Pm0 Pm IH]; intros [|n ns] Ln Hn; cbn [map fmap2]; try discriminate; constructor.
    - inversion Hn; subst. now apply thermo_one; [|lia|lia|].
    - inversion Hn; subst. apply IH; [cbn in Ln; lia|assumption]. }
  destruct P1 as [P1 L1].
  set (m2 := fmap2 fadd m1 (map (fun f => fmul (fmul fhalf f) dt) (force (fw_pos w)))).
  assert (P2 : Forall (upto e (j + 2)) m2 /\ length m2 = length ranges).
  { split; [|unfold m2; rewrite fmap2_length; [exact L1|rewrite map_length; lia]].
    assert (G : forall ms fs, Forall (upto e (j + 1)) ms -> Forall (fun f => finite f /\ Rabs (val f) <= F) fs -> Forall (upto e (j + 2)) (fmap2 fadd ms (map (fun f => fmul (fmul fhalf f) dt) fs))).
    { intros ms fs Hms. revert fs. induction Hms as [|m ms Pm0 Pms IH]; intros [|f fs] Hfs; cbn [map fmap2]; constructor.
      - inversion Hfs; subst. replace (j + 2)%Z with (j + 1 + 1)%Z by ring. apply kick_one; [assumption|lia|lia|assumption].
      - inversion Hfs; subst. now apply IH. }
    apply G; assumption. }
  destruct P2 as [P2 L2].
  pose proof (move_all ranges HR (fw_pos w) m2 (j + 2) Hi P2 ltac:(lia)) as FP.
  assert (Lp : length (fw_pos w) = length ranges) by (symmetry; eapply F2_length; exact Hi).
  destruct (reflect_ok (upto e (j + 2)) (upto_opp e (j + 2)) ranges (fmap2 fadd (fw_pos w) (map (fun m => fmul (fdiv m mass) dt) m2)) m2 HR) as (pos' & m3 & E & I' & L3 & P3); [| |exact FP|exact P2|].
  { rewrite fmap2_length; [exact Lp|rewrite map_length; lia]. } { exact L2. }
  rewrite E. cbn [bind]. destruct (Force _ I') as [LF' BF'].
  eexists. split; [reflexivity|]. unfold good. cbn [fw_pos fw_mom fw_forces]. split; [exact I'|].
  set (m4 := fmap2 fadd m3 (map (fun f => fmul (fmul fhalf f) dt) (force pos'))).
  assert (P4 : Forall (upto e (j + 3)) m4 /\ length m4 = length ranges).
  { split; [|unfold m4; rewrite fmap2_length; [exact L3|rewrite map_length; lia]].
    assert (G : forall ms fs, Forall (upto e (j + 2)) ms -> Forall (fun f => finite f /\ Rabs (val f) <= F) fs -> Forall (upto e (j + 3)) (fmap2 fadd ms (map (fun f => fmul (fmul fhalf f) dt) fs))).
    { intros ms fs Hms. revert fs. induction Hms as [|m ms Pm0 Pms IH]; intros [|f fs] Hfs; cbn [map fmap2]; constructor.
      - inversion Hfs; subst. replace (j + 3)%Z with (j + 2 + 1)%Z by ring. apply kick_one; [assumption|lia|lia|assumption].
      - inversion Hfs; subst. now apply IH. }
    apply G; assumption. }
  destruct P4 as [P4 L4]. split; [rewrite fmap2_length, map_length; [exact L4|rewrite !map_length; lia]|]. split; [|reflexivity].
  clearbody m4. rewrite <- L4 in Ln2. clear L4. revert n2 Ln2 Hn2. induction P4 as [|m ms Pm0 Pms IH]; intros [|n ns] Ln Hn; cbn [map fmap2]; try discriminate; constructor.
  - inversion Hn; subst. replace (j + 4)%Z with (j + 3 + 1)%Z by ring. apply thermo_one; [assumption|lia|lia|assumption].
  - inversion Hn; subst. apply IH; [cbn in Ln; lia|assumption].
Qed.

Lemma run_ok noises : forall j w, good j w -> (0 <= j)%Z -> (j + 4 * Z.of_nat (length noises) < 2 ^ 53)%Z ->
  Forall (fun n => noise_ok (fst n) /\ noise_ok (snd n)) noises ->
  exists w', f_bp_run ranges force c1 c2 mass dt w noises = Ok w' /\ good (j + 4 * Z.of_nat (length noises)) w'.
Proof using All.
  induction noises as [|[n1 n2] rest IH]; intros j w G Hj Hn HN'.
  - exists w. split; [reflexivity|]. cbn [length]. replace (j + 4 * Z.of_nat 0)%Z with j by lia. exact G.
  - cbn [length] in Hn. inversion HN' as [|? ? [N1 N2] Nr]; subst. destruct (step_ok j w n1 n2 G Hj ltac:(lia) N1 N2) as (w1 & E & G1).
    destruct (IH (j + 4)%Z w1 G1 ltac:(lia) ltac:(lia) Nr) as (w' & E' & G'). exists w'. cbn [f_bp_run]. rewrite E. cbn [bind]. split; [exact E'|].
    cbn [length]. replace (j + 4 * Z.of_nat (S (length rest)))%Z with (j + 4 + 4 * Z.of_nat (length rest))%Z by lia. exact G'.
Qed.
End Run.
