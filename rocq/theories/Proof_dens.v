(** Walker densities *)
From Coq Require Import Lia Lra ZifyBool ZifyNat Permutation.
From Verif Require Import PyBase Model_dyn Model_grid Model_corr Model_bd Spec_grid Spec_bd Proof_base.
Ltac Zify.zify_post_hook ::= idtac.
Open Scope R_scope.

(** pairs of a list, upper triangle *)
Fixpoint pd {A} (K : A -> A -> R) (l : list A) : list R :=
  match l with [] => [] | p :: t => map (K p) t ++ pd K t end.

Lemma pdist_pd pos : pdist pos = pd sqeuclidean pos.
Proof. induction pos as [|p t IH]; cbn; [reflexivity|]. now rewrite IH. Qed.
Lemma pd_map {A} (K : A -> A -> R) f l : map f (pd K l) = pd (fun a b => f (K a b)) l.
Proof. induction l as [|p t IH]; cbn; [reflexivity|]. rewrite map_app, IH, map_map. reflexivity. Qed.
Lemma pd_of_map {A B} (K : B -> B -> R) (g : A -> B) l : pd K (map g l) = pd (fun a b => K (g a) (g b)) l.
Proof. induction l as [|p t IH]; cbn; [reflexivity|]. rewrite IH, map_map. reflexivity. Qed.
Lemma vmap2_app f a b c d : length a = length c -> vmap2 f (a ++ b) (c ++ d) = vmap2 f a c ++ vmap2 f b d.
Proof. revert c; induction a as [|x a IH]; intros [|y c] H; cbn in *; try lia; [reflexivity|]. rewrite IH by lia. reflexivity. Qed.
Lemma vmap2_map {A} f (g h : A -> R) l : vmap2 f (map g l) (map h l) = map (fun x => f (g x) (h x)) l.
Proof. induction l as [|x l IH]; cbn; [reflexivity|]. now rewrite IH. Qed.
Lemma pd_mult {A} (K L : A -> A -> R) l : vmap2 Rmult (pd K l) (pd L l) = pd (fun a b => K a b * L a b) l.
Proof.
  induction l as [|p t IH]; cbn; [reflexivity|]. rewrite vmap2_app by (now rewrite !map_length). rewrite IH.
  now rewrite (vmap2_map Rmult (K p) (L p)).
Qed.
Lemma pd_length {A} (K : A -> A -> R) l : (length (pd K l) * 2 = length l * (length l - 1))%nat.
Proof. induction l as [|p t IH]; cbn [pd length]; [reflexivity|]. rewrite app_length, map_length. nia. Qed.
Lemma pd_one {A} (l : list A) : repeat 1 (length l * (length l - 1) / 2) = pd (fun _ _ => 1) l.
Proof.
  rewrite <- (pd_length (fun _ _ => 1) l), Nat.div_mul by lia.
  assert (Forall (eq 1) (pd (fun _ _ => 1) l)) as H.
  { induction l as [|p t IH]; cbn; [constructor|]. apply Forall_app. split; [|assumption].
    apply Forall_map, Forall_forall. reflexivity. }
  induction H as [|x t <- H IH]; cbn; [reflexivity|]. now rewrite IH.
Qed.

Lemma pd_ext_in {A} (K L : A -> A -> R) l : (forall a b, In a l -> In b l -> K a b = L a b) -> pd K l = pd L l.
Proof.
  induction l as [|p t IH]; intros H; cbn; [reflexivity|]. rewrite IH.
  - f_equal. apply map_ext_in. intros b Hb. apply H; cbn; auto.
  - intros; apply H; cbn; auto.
Qed.

Lemma pd_nth {A} (K : A -> A -> R) (d : A) : forall l i j, (i < j)%nat -> (j < length l)%nat ->
  nth (condensed_index (length l) i j) (pd K l) 0 = K (nth i l d) (nth j l d).
Proof.
  induction l as [|p t IH]; intros i j Hij Hj; cbn in Hj; [lia|]. destruct j as [|j]; [lia|].
  destruct i as [|i].
  - replace (condensed_index (length (p :: t)) 0 (S j)) with j by reflexivity. cbn [pd nth].
    rewrite app_nth1 by (rewrite map_length; lia).
    rewrite (nth_map_in _ _ _ _ d) by lia. reflexivity.
  - cbn [length condensed_index pd nth]. rewrite app_nth2 by (rewrite map_length; lia).
    rewrite map_length. replace (length t + condensed_index (length t) i j - length t)%nat with (condensed_index (length t) i j) by lia.
    apply IH; lia.
Qed.

Lemma seq_nth_map {A} (l : list A) d : map (fun i => nth i l d) (seq 0 (length l)) = l.
Proof.
  apply nth_ext with (d := d) (d' := d); [now rewrite map_length, seq_length|].
  intros n Hn. rewrite map_length, seq_length in Hn. rewrite (nth_map_in _ _ _ _ 0%nat) by now rewrite seq_length.
  now rewrite seq_nth.
Qed.

Lemma column_means_pd {A} (K : A -> A -> R) (l : list A) diag :
  (forall a b, In a l -> In b l -> K a b = K b a) -> (forall a, In a l -> K a a = diag) ->
  column_means (length l) (squareform_at (pd K l) (length l) diag)
  = map (fun q => mean (map (fun p => K q p) l)) l.
Proof.
  intros Hsym Hdiag. unfold column_means. destruct l as [|d0 l0] eqn:El; [reflexivity|]. rewrite <- El in *.
  transitivity (map (fun q => mean (map (fun p => K q p) l)) (map (fun i => nth i l d0) (seq 0 (length l))));
    [|now rewrite seq_nth_map].
  rewrite map_map. apply map_ext_in. intros j Hj. apply in_seq in Hj. f_equal.
  transitivity (map (fun p => K (nth j l d0) p) (map (fun i => nth i l d0) (seq 0 (length l))));
    [|now rewrite seq_nth_map].
  rewrite map_map. apply map_ext_in. intros i Hi. apply in_seq in Hi.
  unfold squareform_at. assert (In (nth i l d0) l) by (apply nth_In; lia). assert (In (nth j l d0) l) by (apply nth_In; lia).
  destruct (Nat.eqb_spec i j) as [->|Hne]; [symmetry; auto|].
  destruct (Nat.ltb_spec i j).
  - rewrite (pd_nth K d0) by lia. auto.
  - rewrite (pd_nth K d0) by lia. reflexivity.
Qed.

(** ** the kernels *)
Definition factor (b x y : R) : R := / (sqrt (2 * PI) * b) * exp (- ((x - y) ^ 2 / (2 * b ^ 2))).

Lemma sqrt2pi_pos : 0 < sqrt (2 * PI).
Proof. apply sqrt_lt_R0. pose proof PI_RGT_0. lra. Qed.

Lemma kernel_height_spec bw : Forall (fun b => 0 < b) bw -> kernel_height bw = gauss_height bw.
Proof.
  intros H. unfold kernel_height. induction H as [|b bw Hb H IH]; cbn; [lra|]. rewrite <- IH.
  assert (0 < prod_R bw) by (clear IH; induction H; cbn; [lra|]; unfold prod_R in *; apply Rmult_lt_0_compat; assumption).
  pose proof sqrt2pi_pos. unfold prod_R in *. cbn. field. repeat split; try lra. apply pow_nonzero; lra.
Qed.

Lemma gauss_split bw : forall p q, length p = length bw -> length q = length bw ->
  gauss_kernel bw p q = gauss_height bw * exp (- rsum (vmap2 (fun d b => d ^ 2 / (2 * b ^ 2)) (vsub p q) bw)).
Proof.
  induction bw as [|b bw IH]; intros [|x p] [|y q] Hp Hq; cbn in Hp, Hq; try lia.
  - unfold rsum; cbn. rewrite Ropp_0, exp_0. lra.
  - cbn [gauss_kernel gauss_height vsub vmap2 rsum fold_right]. rewrite IH by lia.
    rewrite Ropp_plus_distr, exp_plus. unfold rsum, vsub. lra.
Qed.

Lemma calc_kernel1_spec bw p q : Forall (fun b => 0 < b) bw -> length p = length bw -> length q = length bw ->
  calc_kernel1 bw (vsub p q) = gauss_kernel bw p q.
Proof. intros Hb Hp Hq. unfold calc_kernel1. rewrite kernel_height_spec, gauss_split by assumption. reflexivity. Qed.

Lemma gauss_sym bw : forall p q, gauss_kernel bw p q = gauss_kernel bw q p.
Proof.
  induction bw as [|b bw IH]; intros [|x p] [|y q]; cbn [gauss_kernel]; try reflexivity.
  rewrite IH. replace ((x - y) ^ 2) with ((y - x) ^ 2) by ring. reflexivity.
Qed.
Lemma gauss_self bw : forall p, length p = length bw -> gauss_kernel bw p p = gauss_height bw.
Proof.
  induction bw as [|b bw IH]; intros [|x p] H; cbn in H; try lia; [reflexivity|].
  cbn [gauss_kernel gauss_height]. rewrite IH by lia. replace (- ((x - x) ^ 2 / (2 * b ^ 2))) with 0; [rewrite exp_0; lra|].
  replace ((x - x) ^ 2) with 0 by ring. unfold Rdiv. lra.
Qed.

Lemma total_nonneg l : Forall (fun x => 0 <= x) l -> 0 <= total l.
Proof. intros H; induction H; cbn; [lra|]. unfold total in *. lra. Qed.

Lemma gauss_height_pos bw : Forall (fun b => 0 < b) bw -> 0 < gauss_height bw.
Proof.
  intros H; induction H as [|b bw Hb H IH]; cbn; [lra|]. apply Rmult_lt_0_compat; [|assumption].
  apply Rinv_0_lt_compat, Rmult_lt_0_compat; [apply sqrt2pi_pos|assumption].
Qed.
Lemma gauss_pos bw p q : Forall (fun b => 0 < b) bw -> 0 < gauss_kernel bw p q.
Proof.
  intros H; revert p q; induction H as [|b bw Hb H IH]; intros [|x p] [|y q]; cbn; try lra.
  apply Rmult_lt_0_compat; [|apply IH]. apply Rmult_lt_0_compat; [|apply exp_pos].
  apply Rinv_0_lt_compat, Rmult_lt_0_compat; [apply sqrt2pi_pos|assumption].
Qed.
Lemma gauss_le_height bw : Forall (fun b => 0 < b) bw -> forall p q, length p = length bw -> length q = length bw ->
  gauss_kernel bw p q <= gauss_height bw.
Proof.
  intros Hb p q Hp Hq. rewrite gauss_split by assumption. pose proof (gauss_height_pos bw Hb).
  rewrite <- (Rmult_1_r (gauss_height bw)) at 2. apply Rmult_le_compat_l; [lra|].
  rewrite <- exp_0. assert (0 <= rsum (vmap2 (fun d b => d ^ 2 / (2 * b ^ 2)) (vsub p q) bw)).
  { apply total_nonneg. generalize (vsub p q). clear -Hb. induction Hb as [|b bw Hb' H IH]; intros [|x v]; cbn; try constructor.
    - apply Rmult_le_pos; [apply (pow2_ge_0 x)|]. left. apply Rinv_0_lt_compat, Rmult_lt_0_compat; [lra|]. apply (pow_lt b 2); assumption.
    - apply IH. }
  destruct (Rle_lt_or_eq_dec 0 _ H0) as [Hlt|<-]; [|rewrite Ropp_0; lra]. left. apply exp_increasing. lra.
Qed.

(** ** the two algorithms *)
Definition dens (bw : vec) (pos : list vec) : list R :=
  map (fun p => mean (map (gauss_kernel bw p) pos)) pos.

Lemma manual_dens n_dim bw pos : walkers_ok n_dim bw pos -> walker_density_manual pos bw = dens bw pos.
Proof.
  intros (Hl & Hb & Hp). unfold walker_density_manual, dens. rewrite Forall_forall in Hp. apply map_ext_in. intros p Hin.
  unfold calc_kernel. rewrite map_map. f_equal. apply map_ext_in. intros q Hq.
  apply calc_kernel1_spec; [assumption| |]; rewrite Hl; auto.
Qed.

Lemma sq1 x y : sqeuclidean [x] [y] = (x - y) ^ 2.
Proof. unfold sqeuclidean; cbn. lra. Qed.

Lemma factor_eq b x y : 0 < b -> 1 / (sqrt (2 * PI) * b) * exp (- (x - y) ^ 2 / (2 * b ^ 2)) = factor b x y.
Proof. intros Hb. unfold factor. unfold Rdiv. rewrite Rmult_1_l. rewrite Ropp_mult_distr_l. reflexivity. Qed.

Lemma gauss_as_prod bw : forall p q, length p = length bw -> length q = length bw ->
  fold_right Rmult 1 (map (fun i => factor (nth i bw 0) (nth i p 0) (nth i q 0)) (seq 0 (length bw))) = gauss_kernel bw p q.
Proof.
  induction bw as [|b bw IH]; intros [|x p] [|y q] Hp Hq; cbn in Hp, Hq; try lia; [reflexivity|].
  cbn [length seq map fold_right nth gauss_kernel]. rewrite <- seq_shift, map_map. cbn [nth]. rewrite IH by lia. reflexivity.
Qed.

Lemma prod_heights bw : Forall (fun b => 0 < b) bw -> prod_R (map (fun b => 1 / (sqrt (2 * PI) * b)) bw) = gauss_height bw.
Proof.
  intros H; induction H as [|b bw Hb H IH]; cbn; [reflexivity|]. unfold prod_R in *. rewrite IH.
  unfold Rdiv. now rewrite Rmult_1_l.
Qed.

Lemma mapM_map {A B} (f : A -> res B) (g : A -> B) l : (forall x, In x l -> f x = Ok (g x)) -> mapM f l = Ok (map g l).
Proof.
  induction l as [|x l IH]; intros H; cbn; [reflexivity|]. rewrite H by (now left). cbn. rewrite IH by (intros; apply H; now right). reflexivity.
Qed.

Lemma fold_pd {A B} (Ks : A -> B -> B -> R) (l : list B) is_ :
  fold_right (vmap2 Rmult) (pd (fun _ _ => 1) l) (map (fun i => pd (Ks i) l) is_)
  = pd (fun a b => fold_right Rmult 1 (map (fun i => Ks i a b) is_)) l.
Proof. induction is_ as [|i is_ IH]; cbn; [reflexivity|]. rewrite IH, pd_mult. reflexivity. Qed.

Lemma pdist_dens n_dim bw pos : walkers_ok n_dim bw pos -> pos <> [] ->
  walker_density_pdist pos bw = Ok (dens bw pos).
Proof.
  intros (Hl & Hb & Hp) Hne. unfold walker_density_pdist. destruct pos as [|p0 pos'] eqn:Ep; [congruence|]. rewrite <- Ep in *.
  assert (length p0 = n_dim) as Hp0 by (rewrite Forall_forall in Hp; apply Hp; rewrite Ep; now left). rewrite Hp0.
  rewrite Forall_forall in Hp.
  destruct (Nat.eqb_spec n_dim 1) as [E1|N1].
  - rewrite E1 in *. destruct bw as [|b [|]]; cbn in Hl; try lia. cbn [at_ nth_error bind].
    pose proof (Forall_inv Hb) as Hb0. cbn beta in Hb0.
    rewrite pdist_pd, pd_map. f_equal.
    rewrite (pd_ext_in _ (gauss_kernel [b])).
    + rewrite column_means_pd; [reflexivity|intros; apply gauss_sym|].
      intros a Ha. rewrite gauss_self by (cbn; auto). cbn. unfold Rdiv. lra.
    + intros p q Hp' Hq'. apply Hp in Hp', Hq'. destruct p as [|x [|]]; cbn in Hp'; try lia.
      destruct q as [|y [|]]; cbn in Hq'; try lia. rewrite sq1, factor_eq by assumption.
      cbn [gauss_kernel]. unfold factor. lra.
  - rewrite (mapM_map _ (fun i => pd (fun p q : vec => factor (nth i bw 0) (nth i p 0) (nth i q 0)) pos)).
    + cbn [bind]. f_equal. rewrite pd_one, fold_pd, prod_heights by assumption. rewrite <- Hl.
      rewrite (pd_ext_in _ (gauss_kernel bw)).
      * rewrite column_means_pd; [reflexivity|intros; apply gauss_sym|].
        intros a Ha. apply gauss_self. rewrite Hl. auto.
      * intros p q Hp' Hq'. apply gauss_as_prod; rewrite Hl; auto.
    + intros i Hi. apply in_seq in Hi. unfold at_.
      rewrite (nth_error_nth' bw 0) by lia.
      rewrite nth_error_map, (nth_error_nth' bw 0) by lia. cbn [option_map bind].
      f_equal. rewrite pdist_pd, pd_of_map, pd_map. apply pd_ext_in. intros p q _ _. rewrite sq1.
      apply factor_eq. rewrite Forall_forall in Hb. apply Hb, nth_In. lia.
Qed.

Lemma walker_density_dens n_dim bw pos : walkers_ok n_dim bw pos -> pos <> [] -> walker_density pos bw = Ok (dens bw pos).
Proof.
  intros Hw Hne. unfold walker_density. destruct (_ <=? _)%Z; [now apply (pdist_dens n_dim)|].
  f_equal. now apply (manual_dens n_dim).
Qed.

Lemma mean_bounds l lo hi : l <> [] -> Forall (fun x => lo <= x <= hi) l -> lo <= mean l <= hi.
Proof.
  intros Hne H. assert (INR (length l) * lo <= rsum l <= INR (length l) * hi) as [A B].
  { clear Hne. induction H as [|x l Hx H IH]; [cbn; lra|]. cbn [length]. rewrite S_INR. unfold rsum in *. cbn. lra. }
  assert (0 < INR (length l)) as P by (apply lt_0_INR; destruct l; [congruence|cbn; lia]).
  unfold mean. split.
  - apply Rmult_le_reg_r with (INR (length l)); [assumption|]. unfold Rdiv. rewrite Rmult_assoc, Rinv_l by lra. lra.
  - apply Rmult_le_reg_r with (INR (length l)); [assumption|]. unfold Rdiv. rewrite Rmult_assoc, Rinv_l by lra. lra.
Qed.

Lemma total_ge_one l x : In x l -> Forall (fun x => 0 <= x) l -> x <= total l.
Proof.
  intros Hin H. induction H as [|y l Hy H IH]; [contradiction|]. cbn.
  pose proof (total_nonneg l H). unfold total in *. destruct Hin as [->|Hin]; [lra|]. specialize (IH Hin). lra.
Qed.

Lemma dens_bounds n_dim bw pos : walkers_ok n_dim bw pos ->
  Forall (fun d => gauss_height bw / INR (length pos) <= d <= gauss_height bw) (dens bw pos).
Proof.
  intros (Hl & Hb & Hp). unfold dens. apply Forall_map, Forall_forall. intros p Hin.
  rewrite Forall_forall in Hp.
  assert (pos <> []) as Hne by (intros ->; contradiction).
  assert (0 < INR (length pos)) as P by (apply lt_0_INR; destruct pos; [congruence|cbn; lia]).
  split.
  - unfold mean. rewrite map_length. unfold Rdiv. apply Rmult_le_compat_r; [left; now apply Rinv_0_lt_compat|].
    rewrite <- (gauss_self bw p) by (rewrite Hl; auto). apply total_ge_one; [now apply in_map|].
    apply Forall_map, Forall_forall. intros q _. left. now apply gauss_pos.
  - apply mean_bounds with (lo := 0); [destruct pos; [contradiction|discriminate]|].
    apply Forall_map, Forall_forall. intros q Hq. split; [left; now apply gauss_pos|]. apply gauss_le_height; auto; rewrite Hl; auto.
Qed.

Lemma dens_pos n_dim bw pos : walkers_ok n_dim bw pos -> pos <> [] -> Forall (fun d => 0 < d) (dens bw pos).
Proof.
  intros Hw Hne. eapply Forall_impl; [|apply (dens_bounds n_dim); eassumption]. cbv beta. intros d [Hd _].
  assert (0 < gauss_height bw / INR (length pos)); [|lra]. apply Rdiv_lt_0_compat; [apply gauss_height_pos; apply Hw|].
  apply lt_0_INR. destruct pos; [congruence|cbn; lia].
Qed.
