(** Free energies *)
From Coq Require Import Lia Lra ZifyBool ZifyNat.
From Verif Require Import PyBase Model_xr Model_rec Model_dyn Model_traj Model_hist Model_histaction Model_fes Model_deltaf
  Spec_times Spec_traj Spec_rec Spec_fes Proof_base Proof_rec Proof_pdist.
Ltac Zify.zify_post_hook ::= idtac.
Open Scope R_scope.

(** ** FES *)
Definition raw (kt : R) (c : nat) : xreal := if Nat.eqb c 0 then PInf else Fin (- kt * ln (INR c)).

Lemma INR_pos c : (c <> 0)%nat -> 0 < INR c.
Proof. intros; apply lt_0_INR; lia. Qed.

Lemma raw_fes kt data junk i : where_zero kt data (masked_log i data junk) = map (raw kt) data.
Proof.
  revert i; induction data as [|c cs IH]; intros i; cbn [where_zero masked_log map]; [reflexivity|].
  rewrite IH. f_equal. unfold raw. destruct (Nat.eqb_spec c 0) as [E|N]; [reflexivity|].
  unfold xlog. pose proof (INR_pos c N). destruct (Rlt_dec 0 (INR c)); [reflexivity|lra].
Qed.

Definition xle (a b : xreal) : Prop :=
  match a, b with
  | Fin x, Fin y => x <= y
  | Fin _, PInf => True
  | PInf, PInf => True
  | _, _ => False
  end.
Definition good (a : xreal) : Prop := match a with Fin _ | PInf => True | _ => False end.

Lemma xmin2_spec a b : good a -> good b -> good (xmin2 a b) /\ (xmin2 a b = a \/ xmin2 a b = b) /\
  xle (xmin2 a b) a /\ xle (xmin2 a b) b.
Proof.
  destruct a as [x| | |], b as [y| | |]; cbn; try tauto; intros _ _.
  - destruct (Rlt_dec y x); cbn; repeat split; auto; lra.
  - repeat split; auto; lra.
  - repeat split; auto; lra.
Qed.

Lemma xle_trans a b c : xle a b -> xle b c -> xle a c.
Proof. destruct a, b, c; cbn; try tauto; lra. Qed.
Lemma xle_refl a : good a -> xle a a.
Proof. destruct a; cbn; try tauto; lra. Qed.

Lemma xmin_fold l : forall x, good x -> Forall good l ->
  let m := fold_left xmin2 l x in
  good m /\ In m (x :: l) /\ forall y, In y (x :: l) -> xle m y.
Proof.
  induction l as [|y l IH]; intros x Hx Hl; cbn [fold_left].
  - split; [assumption|]. split; [now left|]. intros y [<-|[]]. now apply xle_refl.
  - inversion Hl as [|? ? Hy Hl']; subst.
    destruct (xmin2_spec x y Hx Hy) as (Hg & Hor & H1 & H2).
    destruct (IH (xmin2 x y) Hg Hl') as (Hm & Hin & Hle). cbv zeta in *. split; [assumption|]. split.
    + destruct Hin as [<-|Hin]; [|now right; right].
      destruct Hor as [E|E]; rewrite E; [now left|right; now left].
    + intros z [<-|[<-|Hz]].
      * eapply xle_trans; [apply Hle; now left|assumption].
      * eapply xle_trans; [apply Hle; now left|assumption].
      * apply Hle. now right.
Qed.

Lemma good_raw kt c : good (raw kt c).
Proof. unfold raw; destruct (Nat.eqb c 0); exact I. Qed.

(** the minimum, with the reference count M of the bin where it is attained *)
Lemma xmin_raw kt data : data <> [] -> exists m, xmin (map (raw kt) data) = Ok m /\
  ((m = PInf /\ forall c, In c data -> c = 0%nat) \/
   (exists M, In M data /\ M <> 0%nat /\ m = Fin (- kt * ln (INR M)) /\
      forall c, In c data -> xle m (raw kt c))).
Proof.
  destruct data as [|c0 cs]; [congruence|]. intros _. cbn [map xmin]. eexists; split; [reflexivity|].
  destruct (xmin_fold (map (raw kt) cs) (raw kt c0)) as (Hg & Hin & Hle).
  { apply good_raw. } { apply Forall_map, Forall_forall. intros; apply good_raw. }
  cbv zeta in *. set (m := fold_left xmin2 (map (raw kt) cs) (raw kt c0)) in *.
  change (raw kt c0 :: map (raw kt) cs) with (map (raw kt) (c0 :: cs)) in *.
  assert (forall c, In c (c0 :: cs) -> xle m (raw kt c)) as Hall by (intros; apply Hle, in_map; assumption).
  apply in_map_iff in Hin as (M & EM & HM). unfold raw in EM. destruct (Nat.eqb_spec M 0) as [E0|N0].
  - left. split; [auto|]. intros c Hc. specialize (Hall c Hc). rewrite <- EM in Hall.
    unfold raw in Hall. destruct (Nat.eqb_spec c 0); [assumption|destruct Hall].
  - right. exists M. auto.
Qed.

(** what the FES is *)
Lemma calculate_fes_value data kt junk : data <> [] -> 0 < kt ->
  exists M, (0 < M)%nat /\ ((exists c, In c data /\ c <> 0%nat) -> In M data) /\
    (forall c, In c data -> (c <= M)%nat) /\
    calculate_fes data kt true junk
    = Ok (map (fun c => if Nat.eqb c 0 then PInf else Fin (kt * ln (INR M / INR c))) data).
Proof.
  intros Hne Hkt. unfold calculate_fes. rewrite raw_fes.
  destruct (xmin_raw kt data Hne) as (m & Em & H). rewrite Em. cbn [bind].
  destruct H as [[-> H0]|(M & HM & NM & -> & Hle)].
  - cbn [is_pinf negb]. exists 1%nat. split; [lia|]. split.
    + intros (c & Hc & Nc). exfalso. auto.
    + split; [intros c Hc; rewrite (H0 c Hc); lia|]. f_equal. apply map_ext_in. intros c Hc.
      unfold raw. now rewrite (H0 c Hc).
  - cbn [is_pinf negb]. exists M. split; [lia|]. split; [auto|].
    pose proof (INR_pos M NM) as PM. split.
    + intros c Hc. destruct (Nat.eq_dec c 0) as [->|Nc]; [lia|]. specialize (Hle c Hc).
      unfold raw in Hle. destruct (Nat.eqb_spec c 0) as [|_]; [lia|]. cbn in Hle.
      pose proof (INR_pos c Nc) as Pc.
      assert (ln (INR c) <= ln (INR M)).
      { apply Rmult_le_reg_l with kt; [assumption|]. lra. }
      apply INR_le. destruct (Rle_lt_dec (INR c) (INR M)) as [|Hlt]; [assumption|].
      apply ln_increasing in Hlt; [lra|assumption].
    + f_equal. rewrite map_map. apply map_ext. intros c. unfold raw.
      destruct (Nat.eqb_spec c 0) as [|Nc]; [reflexivity|]. unfold xsub, xneg, xadd. f_equal.
      pose proof (INR_pos c Nc) as Pc. unfold Rdiv. rewrite ln_mult, ln_Rinv by (try assumption; now apply Rinv_0_lt_compat). lra.
Qed.

Lemma calculate_fes_junk data kt junk1 junk2 :
  calculate_fes data kt true junk1 = calculate_fes data kt true junk2.
Proof. unfold calculate_fes. now rewrite !raw_fes. Qed.

Lemma calculate_fes_spec data kt junk : data <> [] -> 0 < kt ->
  exists fes, (forall junk', calculate_fes data kt true junk' = Ok fes) /\
    calculate_fes data kt true junk = Ok fes /\ length fes = length data /\
    (forall i, (i < length data)%nat -> (nth i fes NaN = PInf <-> nth i data 0%nat = 0%nat)) /\
    (forall i, (i < length data)%nat -> nth i data 0%nat <> 0%nat ->
       exists f, nth i fes NaN = Fin f /\ 0 <= f) /\
    ((exists i, (i < length data)%nat /\ nth i data 0%nat <> 0%nat) ->
     exists i, (i < length data)%nat /\ nth i fes NaN = Fin 0) /\
    (forall i j f g, (i < length data)%nat -> (j < length data)%nat ->
       nth i fes NaN = Fin f -> nth j fes NaN = Fin g ->
       f - g = - kt * ln (INR (nth i data 0%nat) / INR (nth j data 0%nat))).
Proof.
  intros Hne Hkt. destruct (calculate_fes_value data kt junk Hne Hkt) as (M & PM & HM & Hle & E).
  set (h := fun c : nat => if Nat.eqb c 0 then PInf else Fin (kt * ln (INR M / INR c))) in *.
  pose proof (INR_pos M ltac:(lia)) as PMr.
  eexists; split; [intros junk'; rewrite (calculate_fes_junk _ _ junk' junk); exact E|].
  split; [exact E|]. split; [apply map_length|].
  assert (forall i, (i < length data)%nat -> nth i (map h data) NaN = h (nth i data 0%nat)) as Hn.
  { intros i Hi. apply nth_map_in; assumption. }
  assert (forall c f, h c = Fin f -> c <> 0%nat /\ f = kt * ln (INR M / INR c)) as Hf.
  { intros c f. unfold h. destruct (Nat.eqb_spec c 0); [discriminate|]. intros [= <-]; auto. }
  split; [|split; [|split]].
  - intros i Hi. rewrite Hn by assumption. unfold h. destruct (Nat.eqb_spec (nth i data 0%nat) 0); split; congruence.
  - intros i Hi Nc. rewrite Hn by assumption. unfold h. destruct (Nat.eqb_spec (nth i data 0%nat) 0); [congruence|].
    eexists; split; [reflexivity|]. apply Rmult_le_pos; [lra|].
    rewrite <- ln_1. assert (1 <= INR M / INR (nth i data 0%nat)).
    { pose proof (INR_pos _ Nc). apply Rmult_le_reg_r with (INR (nth i data 0%nat)); [assumption|].
      unfold Rdiv. rewrite Rmult_assoc, Rinv_l, Rmult_1_r, Rmult_1_l by lra. apply le_INR, Hle, nth_In; assumption. }
    destruct (Rle_lt_or_eq_dec _ _ H) as [Hlt|<-]; [apply Rlt_le, ln_increasing; lra|lra].
  - intros (i & Hi & Nc). assert (In M data) as HMin by (apply HM; exists (nth i data 0%nat); split; [apply nth_In; assumption|assumption]).
    destruct (In_nth data M 0%nat HMin) as (j & Hj & Ej). exists j. split; [assumption|].
    rewrite Hn, Ej by assumption. unfold h. destruct (Nat.eqb_spec M 0); [lia|]. f_equal.
    replace (INR M / INR M) with 1 by (field; lra). rewrite ln_1. lra.
  - intros i j f g Hi Hj. rewrite !Hn by assumption. intros Ef Eg.
    apply Hf in Ef as [Ni ->]. apply Hf in Eg as [Nj ->].
    pose proof (INR_pos _ Ni). pose proof (INR_pos _ Nj). unfold Rdiv.
    rewrite !ln_mult, !ln_Rinv by (try assumption; now apply Rinv_0_lt_compat). lra.
Qed.

(** without mintozero *)
Lemma calculate_fes_nozero data kt junk :
  calculate_fes data kt false junk = Ok (map (raw kt) data).
Proof. unfold calculate_fes. now rewrite raw_fes. Qed.

(** ** Delta F *)
Lemma select_map (data : list nat) (g : nat -> R) mask :
  length mask = length data ->
  exists l, select (map (fun c => Fin (g c)) data) mask = Ok (map (fun c => Fin (g c)) l) /\
    fold_right Nat.add 0%nat l = count_in data mask.
Proof.
  revert mask; induction data as [|c cs IH]; intros [|b bs] Hl; cbn in Hl; try lia.
  - exists []; split; reflexivity.
  - destruct (IH bs ltac:(lia)) as (l & E & S). cbn [map select]. rewrite E. cbn [bind].
    destruct b.
    + exists (c :: l). split; [reflexivity|]. cbn. now rewrite S.
    + exists l. split; [reflexivity|]. cbn. now rewrite S.
Qed.

Lemma xsum_map (l : list nat) M a :
  fold_left xadd (map (fun c => Fin (INR c / M)) l) (Fin (a / M)) = Fin ((a + INR (fold_right Nat.add 0%nat l)) / M).
Proof.
  revert a; induction l as [|c l IH]; intros a; cbn [map fold_left fold_right].
  - f_equal. cbn. lra.
  - cbn [xadd]. replace (a / M + INR c / M) with ((a + INR c) / M) by (unfold Rdiv; lra).
    rewrite IH. f_equal. rewrite plus_INR. unfold Rdiv; lra.
Qed.

Lemma probability_value kt M c : 0 < kt -> 0 < M ->
  xexp (xdiv (xneg (if Nat.eqb c 0 then PInf else Fin (kt * ln (M / INR c)))) (Fin kt)) = Fin (INR c / M).
Proof.
  intros Hkt HM. destruct (Nat.eqb_spec c 0) as [->|N].
  - cbn. destruct (Rlt_dec kt 0); [lra|]. cbn. f_equal. lra.
  - cbn [xneg xdiv]. destruct (Req_EM_T kt 0); [lra|]. cbn [xexp]. f_equal.
    pose proof (INR_pos c N) as Pc.
    replace (- (kt * ln (M / INR c)) / kt) with (ln (INR c / M)).
    + apply exp_ln. apply Rdiv_lt_0_compat; assumption.
    + unfold Rdiv. rewrite !ln_mult, !ln_Rinv by (try assumption; now apply Rinv_0_lt_compat). field. lra.
Qed.

Lemma ratio_value kt M N N1 : 0 < kt -> 0 < M ->
  xscale (- kt) (xlog (xdiv (Fin (INR N / M)) (Fin (INR N1 / M)))) = free_energy_difference kt N N1.
Proof.
  intros Hkt HM. unfold free_energy_difference, xdiv.
  assert (forall c, (c <> 0)%nat -> 0 < INR c / M) as Hp by (intros c Hc; apply Rdiv_lt_0_compat; [now apply INR_pos|assumption]).
  destruct N as [|N].
  - replace (INR 0 / M) with 0 by (cbn; lra). destruct N1 as [|N1].
    + replace (INR 0 / M) with 0 by (cbn; lra).
      destruct (Req_EM_T 0 0); [|lra]. destruct (Rlt_dec 0 0); [lra|]. reflexivity.
    + specialize (Hp (S N1) ltac:(lia)). destruct (Req_EM_T (INR (S N1) / M) 0); [lra|].
      replace (0 / (INR (S N1) / M)) with 0 by (unfold Rdiv; lra). cbn [xlog].
      destruct (Rlt_dec 0 0); [lra|]. destruct (Req_EM_T 0 0); [|lra]. cbn [xscale].
      destruct (Rlt_dec 0 (- kt)); [lra|]. destruct (Rlt_dec (- kt) 0); [reflexivity|lra].
  - pose proof (Hp (S N) ltac:(lia)) as HN. destruct N1 as [|N1].
    + replace (INR 0 / M) with 0 by (cbn; lra). destruct (Req_EM_T 0 0); [|lra].
      destruct (Rlt_dec 0 (INR (S N) / M)); [|lra]. cbn [xlog xscale].
      destruct (Rlt_dec 0 (- kt)); [lra|]. destruct (Rlt_dec (- kt) 0); [reflexivity|lra].
    + pose proof (Hp (S N1) ltac:(lia)) as HN1. destruct (Req_EM_T (INR (S N1) / M) 0); [lra|].
      replace (INR (S N) / M / (INR (S N1) / M)) with (INR (S N) / INR (S N1)).
      2:{ field. split; [lra|]. pose proof (INR_pos (S N1) ltac:(lia)). lra. }
      assert (0 < INR (S N) / INR (S N1)).
      { apply Rdiv_lt_0_compat; apply INR_pos; lia. }
      cbn [xlog]. destruct (Rlt_dec 0 (INR (S N) / INR (S N1))); [|lra]. reflexivity.
Qed.

Lemma delta_f_value data kt junk fes masks : data <> [] -> 0 < kt ->
  Forall (fun m => length m = length data) masks ->
  calculate_fes data kt true junk = Ok fes ->
  calculate_delta_f fes kt masks
  = Ok (match masks with
        | [] => []
        | m1 :: ms => map (fun m => free_energy_difference kt (count_in data m) (count_in data m1)) ms
        end).
Proof.
  intros Hne Hkt Hm Ef. destruct (calculate_fes_value data kt junk Hne Hkt) as (M & PM & _ & _ & E).
  rewrite E in Ef. injection Ef as <-. unfold calculate_delta_f. rewrite map_map.
  pose proof (INR_pos M ltac:(lia)) as PMr.
  rewrite (map_ext _ (fun c => Fin (INR c / INR M))) by (intros c; apply probability_value; assumption).
  assert (mapM (fun m => do s <- select (map (fun c => Fin (INR c / INR M)) data) m; Ok (xsum s)) masks
          = Ok (map (fun m => Fin (INR (count_in data m) / INR M)) masks)) as Es.
  { induction Hm as [|m ms Hl _ IH]; cbn [mapM map]; [reflexivity|].
    destruct (select_map data (fun c => INR c / INR M) m Hl) as (l & -> & S). cbn [bind]. rewrite IH. cbn [bind].
    unfold xsum. replace 0 with (0 / INR M) at 1 by (unfold Rdiv; lra). rewrite xsum_map, Rplus_0_l, S. reflexivity. }
  rewrite Es. cbn [bind]. destruct masks as [|m1 ms]; [reflexivity|]. cbn [map]. f_equal. rewrite map_map.
  apply map_ext. intros m. apply ratio_value; assumption.
Qed.

(** a mask of another length is an error *)
Lemma select_short p : forall m, length m <> length p -> select p m = Err IndexError.
Proof.
  induction p as [|x p IH]; intros [|b m] H; cbn in *; try congruence; try reflexivity; try lia.
  rewrite IH by lia. reflexivity.
Qed.

Lemma select_ok p : forall m, length m = length p -> exists s, select p m = Ok s.
Proof.
  induction p as [|x p IH]; intros [|b m] H; cbn in *; try lia; [eauto|].
  destruct (IH m ltac:(lia)) as (s & ->). cbn. eauto.
Qed.

Lemma delta_f_ok fes kt masks : Forall (fun m => length m = length fes) masks ->
  exists d, calculate_delta_f fes kt masks = Ok d /\ length d = (length masks - 1)%nat.
Proof.
  intros Hm. unfold calculate_delta_f.
  set (p := map _ fes).
  assert (exists l, mapM (fun m => do s <- select p m; Ok (xsum s)) masks = Ok l /\ length l = length masks) as (l & -> & Hl).
  { induction Hm as [|m ms H _ IH]; cbn [mapM]; [exists []; auto|].
    destruct (select_ok p m) as (s & ->); [unfold p; now rewrite map_length|]. cbn [bind].
    destruct IH as (l & -> & Hl). cbn [bind]. eexists; split; [reflexivity|]. cbn; lia. }
  cbn [bind]. destruct l as [|p0 ps]; eexists; (split; [reflexivity|]).
  - cbn in *; lia.
  - rewrite map_length. cbn in Hl. lia.
Qed.

(** ** the recorded file *)
Lemma delta_f_rows fes kt dt masks L :
  (forall k, length (fes k) = L) -> Forall (fun m => length m = L) masks ->
  exists rows, forall k, delta_f_row (fes k) kt dt masks k = Ok (rows k) /\
     delta_f_line fes kt dt masks k (rows k).
Proof.
  intros Hf Hm. exists (fun k => res_default [] (delta_f_row (fes k) kt dt masks k)).
  intros k. destruct (delta_f_ok (fes k) kt masks) as (d & E & _); [now rewrite Hf|].
  unfold delta_f_row. rewrite E. cbn. split; [reflexivity|]. exists d; auto.
Qed.

Lemma delta_f_steps_eq fes kt dt masks rows :
  (forall k, delta_f_row (fes k) kt dt masks k = Ok (rows k)) ->
  forall l r, foldM (fun r k => delta_f_run (fes k) kt dt masks r k) l r = foldM (fun r k => rec_run (Ok (rows k)) r k) l r.
Proof.
  intros H. unfold delta_f_run. induction l as [|k l IH]; intros r; cbn; [reflexivity|]. rewrite H.
  destruct (rec_run (Ok (rows k)) r k); cbn; auto.
Qed.

Lemma rec_write_stride {A} (r r' : recorder A) k : rec_write r k = Ok r' -> rc_stride r' = rc_stride r.
Proof.
  unfold rec_write. destruct (rc_file r); [|intros [= <-]; reflexivity].
  destruct (negb (rc_stride r =? 0)%Z).
  - destruct (get_valid_data _ _ _ _ _); cbn [bind]; [|discriminate]. intros [= <-]. reflexivity.
  - intros [= <-]. reflexivity.
Qed.
Lemma rec_run_stride {A} row (r r' : recorder A) k : rec_run row r k = Ok r' -> rc_stride r' = rc_stride r.
Proof.
  unfold rec_run. intro H.
  assert (G : forall r1, (if negb (rc_wstride r1 =? 0)%Z && (k mod rc_wstride r1 =? 0)%Z then rec_write r1 k else Ok r1) = Ok r' ->
    rc_stride r' = rc_stride r1).
  { intros r1. match goal with |- context[if ?b then _ else _] => destruct b end; [apply rec_write_stride|intros [= <-]; reflexivity]. }
  destruct (negb (rc_stride r =? 0)%Z && _); cbn [bind] in H.
  - destruct row as [v|x]; cbn [bind] in H; [|discriminate].
    destruct (py_set _ _ _) as [rows'|x]; cbn [bind] in H; [|discriminate]. apply G in H. exact H.
  - apply G in H. exact H.
Qed.
Lemma rec_steps_stride {A} (rows : Z -> res A) : forall l r r',
  foldM (fun r k => rec_run (rows k) r k) l r = Ok r' -> rc_stride r' = rc_stride r.
Proof.
  induction l as [|k l IH]; intros r r' H; cbn [foldM] in H; [injection H as <-; reflexivity|].
  destruct (rec_run (rows k) r k) as [r1|] eqn:E; cbn [bind] in H; [|discriminate].
  apply rec_run_stride in E. apply IH in H. congruence.
Qed.

Lemma delta_f_simulation_eq fes kt dt masks rows n r0 :
  (forall k, delta_f_row (fes k) kt dt masks k = Ok (rows k)) -> rc_stride r0 <> 0%Z ->
  delta_f_simulation fes kt dt masks n r0 = rec_simulation rows n r0.
Proof.
  intros H Hs. unfold delta_f_simulation, rec_simulation. rewrite (delta_f_steps_eq _ _ _ _ rows H).
  destruct (foldM _ _ _) as [r1|] eqn:E; cbn [bind]; [|reflexivity].
  apply (rec_steps_stride (fun k => Ok (rows k))) in E. unfold delta_f_final_run, rec_final_run.
  rewrite E. destruct (Z.eqb_spec (rc_stride r0) 0); [congruence|reflexivity].
Qed.

Lemma rec_init_stride {A} s wstride fn junk (single0 : A) r0 : s <> 0%Z ->
  rec_init (Some s) wstride fn junk single0 = Ok r0 -> rc_stride r0 = s.
Proof.
  unfold rec_init, orZ. intros Hs. destruct (Z.eqb_spec s 0) as [|_]; [congruence|].
  destruct (Z.eqb_spec s 0) as [|_]; [congruence|]. cbn [negb].
  destruct (_ && _); [discriminate|]. destruct (negb _); [discriminate|]. intros [= <-]. reflexivity.
Qed.

Lemma check_shapes_1d masks (L : nat) :
  Forall (fun m : list bool => length m = L) masks ->
  check_mask_shapes (map (fun m => [length m]) masks) [L] = Ok tt.
Proof.
  intros H. unfold check_mask_shapes. replace (existsb _ _) with false; [reflexivity|].
  induction H as [|m ms Hm _ IH]; [reflexivity|]. cbn [map existsb]. rewrite <- IH, Hm.
  destruct (list_eq_dec Nat.eq_dec [L] [L]); [reflexivity|congruence].
Qed.

Lemma check_shapes_nd masks shape :
  masks <> [] -> length shape <> 1%nat ->
  check_mask_shapes (map (fun m : list bool => [length m]) masks) shape = Err ValueError.
Proof.
  intros Hne Hs. unfold check_mask_shapes. destruct masks as [|m ms]; [congruence|]. cbn [map existsb].
  destruct (list_eq_dec Nat.eq_dec [length m] shape) as [E|N]; [subst shape; cbn in Hs; congruence|reflexivity].
Qed.

Lemma delta_f_simulation_file fes kt dt masks L wstride junk single0 s W n :
  (forall k, length (fes k) = L) -> Forall (fun m => length m = L) masks ->
  (0 < s)%Z -> positive_option wstride -> W = option_or wstride (100 * s) ->
  (W mod s = 0)%Z -> (forall m, length (junk m) = m) -> (0 <= n)%Z ->
  exists r0 r rows,
    (forall k, delta_f_line fes kt dt masks k (rows k)) /\
    delta_f_init (map (fun m => [length m]) masks) [L] (Some s) wstride true junk single0 = Ok r0 /\
    delta_f_simulation fes kt dt masks n r0 = Ok r /\
    rc_file r = Some (
      if (n mod W =? 0)%Z || (s <=? n mod W)%Z then map rows (times 0 n s)
      else map rows (times 0 (W * (n / W)) s) ++
           (if (n <? W)%Z then junk (Z.to_nat (W / s))
            else map rows (times (W * (n / W) - W) (W * (n / W)) s))).
Proof.
  intros Hf Hm Hs0 Pw EW HWs Hj Hn.
  destruct (delta_f_rows fes kt dt masks L) as (rows & Hrows); auto.
  destruct (rec_simulation_file rows (Some s) wstride junk single0 s W n)
    as (r0 & r & E0 & E1 & Hfi); auto.
  exists r0, r, rows. split; [intros k; apply Hrows|]. split.
  { unfold delta_f_init. rewrite check_shapes_1d by assumption. exact E0. }
  split; [|assumption].
  rewrite (delta_f_simulation_eq fes kt dt masks rows); [assumption|intros; apply Hrows|].
  rewrite (rec_init_stride s wstride true junk single0 r0); [lia|lia|exact E0].
Qed.

Lemma delta_f_simulation_good fes kt dt masks L wstride junk single0 s W n :
  (forall k, length (fes k) = L) -> Forall (fun m => length m = L) masks ->
  (0 < s)%Z -> positive_option wstride -> W = option_or wstride (100 * s) ->
  (W mod s = 0)%Z -> (forall m, length (junk m) = m) -> (0 <= n)%Z ->
  (n mod W = 0 \/ s <= n mod W)%Z ->
  exists r0 r rows,
    (forall k, delta_f_line fes kt dt masks k (rows k)) /\
    delta_f_init (map (fun m => [length m]) masks) [L] (Some s) wstride true junk single0 = Ok r0 /\
    delta_f_simulation fes kt dt masks n r0 = Ok r /\
    rc_file r = Some (map rows (times 0 n s)).
Proof.
  intros Hf Hm Hs0 Pw EW HWs Hj Hn Hc.
  destruct (delta_f_simulation_file fes kt dt masks L wstride junk single0 s W n)
    as (r0 & r & rows & H1 & H2 & H3 & H4); auto.
  exists r0, r, rows. split; [assumption|]. split; [assumption|]. split; [assumption|].
  rewrite H4. replace ((n mod W =? 0)%Z || (s <=? n mod W)%Z) with true; [reflexivity|]. lia.
Qed.

Lemma delta_f_simulation_once fes kt dt masks L wstride junk single0 n :
  (forall k, length (fes k) = L) -> Forall (fun m => length m = L) masks -> (0 <= n)%Z ->
  exists r0 r row,
    delta_f_last_line fes kt dt masks n row /\
    delta_f_init (map (fun m => [length m]) masks) [L] None wstride true junk single0 = Ok r0 /\
    delta_f_simulation fes kt dt masks n r0 = Ok r /\ rc_file r = Some [row].
Proof.
  intros Hf Hm Hn.
  destruct (delta_f_rows fes kt dt masks L) as (rows & Hrows); auto.
  destruct (delta_f_ok (fes (n + 1)%Z) kt masks) as (d & E & _); [now rewrite Hf|].
  set (row := Fin (IZR n * dt) :: d).
  set (rows' := fun k => if (k =? n)%Z then row else rows k).
  destruct (rec_simulation_once rows' wstride junk single0 n) as (r0 & r & E0 & E1 & Hfi); auto.
  exists r0, r, row. split; [exists d; auto|]. split.
  { unfold delta_f_init. rewrite check_shapes_1d by assumption. exact E0. }
  unfold rows' in Hfi at 1. rewrite Z.eqb_refl in Hfi. split; [|assumption].
  assert (S0 : rc_stride r0 = 0%Z /\ rc_wstride r0 = 0%Z).
  { unfold rec_init in E0. cbn in E0. injection E0 as <-. split; reflexivity. }
  assert (St : forall (row : res (list xreal)) k, rec_run row r0 k = Ok r0).
  { intros row' k. unfold rec_run. destruct S0 as [-> S1]. cbn. rewrite S1. reflexivity. }
  assert (F : forall (f : Z -> res (list xreal)) l, foldM (fun r k => rec_run (f k) r k) l r0 = Ok r0).
  { intros f l. induction l as [|k l IH]; [reflexivity|]. cbn [foldM]. rewrite St. exact IH. }
  unfold delta_f_simulation. unfold delta_f_run. rewrite (F (fun k => delta_f_row (fes k) kt dt masks k)). cbn [bind].
  unfold rec_simulation in E1. rewrite (F (fun k => Ok (rows' k))) in E1. cbn [bind] in E1.
  unfold delta_f_final_run, delta_f_row. rewrite E. cbn [bind]. fold row. unfold rows' in E1. rewrite Z.eqb_refl in E1. exact E1.
Qed.

Lemma delta_f_simulation_stale fes kt dt masks L wstride junk single0 s W n :
  (forall k, length (fes k) = L) -> Forall (fun m => length m = L) masks ->
  (0 < s)%Z -> positive_option wstride -> W = option_or wstride (100 * s) ->
  (W mod s = 0)%Z -> (forall m, length (junk m) = m) -> (0 <= n)%Z ->
  (0 < n mod W < s)%Z ->
  exists r0 r rows extra,
    (forall k, delta_f_line fes kt dt masks k (rows k)) /\
    delta_f_init (map (fun m => [length m]) masks) [L] (Some s) wstride true junk single0 = Ok r0 /\
    delta_f_simulation fes kt dt masks n r0 = Ok r /\
    rc_file r = Some (map rows (times 0 n s) ++ extra) /\
    Z.of_nat (length extra) = (W / s)%Z /\ (0 < W / s)%Z.
Proof.
  intros Hf Hm Hs0 Pw EW HWs Hj Hn Hc.
  destruct (delta_f_rows fes kt dt masks L) as (rows & Hrows); auto.
  destruct (rec_simulation_stale rows (Some s) wstride junk single0 s W n)
    as (r0 & r & E0 & E1 & extra & Hfi & Hl & Hp); auto.
  exists r0, r, rows, extra. split; [intros k; apply Hrows|]. split.
  { unfold delta_f_init. rewrite check_shapes_1d by assumption. exact E0. }
  split; [|auto].
  rewrite (delta_f_simulation_eq fes kt dt masks rows); [assumption|intros; apply Hrows|].
  rewrite (rec_init_stride s wstride true junk single0 r0); [lia|lia|exact E0].
Qed.
