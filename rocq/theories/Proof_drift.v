(** Proofs about the mean effect of a birth-death step (C102) *)
From Coq Require Import Lra Lia Permutation.
From Verif Require Import PyBase Model_dyn Model_bd Spec_grid Spec_bd Spec_rng Spec_well Spec_drift Proof_base Proof_dens Proof_bd Proof_well.
Open Scope R_scope.
Ltac Zify.zify_post_hook ::= idtac.

(** ** averages of sums *)
Section Avg.
Context {W : Type} (avg : (W -> R) -> R) (HM : is_mean avg).
Lemma avg_plus f g : avg (fun w => f w + g w) = avg f + avg g.
Proof using HM. destruct HM as (E & L & _). rewrite (E _ (fun w => 1 * f w + g w)) by (intros; ring). rewrite L. ring. Qed.
Lemma avg_scale a f : avg (fun w => a * f w) = a * avg f.
Proof using HM. pose proof (mean_zero avg HM) as Z. destruct HM as (E & L & _). rewrite (E _ (fun w => a * f w + 0)) by (intros; ring). rewrite (L a f (fun _ => 0)), Z. ring. Qed.
Lemma avg_total {A} (h : A -> W -> R) (l : list A) : avg (fun w => total (map (fun i => h i w) l)) = total (map (fun i => avg (h i)) l).
Proof using HM.
  induction l as [|x l IH]; [apply (mean_zero avg HM)|]. change (total (map (fun i => avg (h i)) (x :: l))) with (avg (h x) + total (map (fun i => avg (h i)) l)). rewrite <- IH.
  apply (avg_plus (h x) (fun w => total (map (fun i => h i w) l))).
Qed.
Lemma avg_le f g : (forall w, f w <= g w) -> avg f <= avg g.
Proof using HM.
  intros H. assert (P : 0 <= avg (fun w => -1 * f w + g w)) by (destruct HM as (_ & _ & P & _); apply P; intros w; specialize (H w); lra).
  destruct HM as (_ & L & _). rewrite L in P. lra.
Qed.
Lemma avg_abs f b : (forall w, Rabs (f w) <= b w) -> Rabs (avg f) <= avg b.
Proof using HM.
  intros H. apply Rabs_le. split.
  - assert (A : avg (fun w => -1 * b w) <= avg f).
    { apply avg_le. intros w. pose proof (H w) as Q. pose proof (Rle_abs (- f w)) as Q2. rewrite Rabs_Ropp in Q2. lra. }
    rewrite avg_scale in A. lra.
  - apply avg_le. intros w. apply Rle_trans with (2 := H w). apply Rle_abs.
Qed.
End Avg.

(** ** sums *)
Lemma total_ext {A} (f g : A -> R) l : (forall x, In x l -> f x = g x) -> total (map f l) = total (map g l).
Proof. intros H. f_equal. apply map_ext_in. exact H. Qed.
Lemma total_le {A} (f g : A -> R) l : (forall x, In x l -> f x <= g x) -> total (map f l) <= total (map g l).
Proof.
  induction l as [|x l IH]; intros H; [apply Rle_refl|]. cbn. fold (total (map f l)) (total (map g l)).
  apply Rplus_le_compat; [apply H; left; reflexivity|apply IH; intros y Hy; apply H; right; exact Hy].
Qed.
Lemma total_scale {A} a (f : A -> R) l : total (map (fun x => a * f x) l) = a * total (map f l).
Proof. induction l as [|x l IH]; cbn; [ring|]. fold (total (map (fun x => a * f x) l)) (total (map f l)). rewrite IH. ring. Qed.
Lemma total_minus {A} (f g : A -> R) l : total (map (fun x => f x - g x) l) = total (map f l) - total (map g l).
Proof. induction l as [|x l IH]; cbn; [ring|]. fold (total (map (fun x => f x - g x) l)) (total (map f l)) (total (map g l)). rewrite IH. ring. Qed.
Lemma total_abs {A} (f : A -> R) l : Rabs (total (map f l)) <= total (map (fun x => Rabs (f x)) l).
Proof.
  induction l as [|x l IH]; cbn; [rewrite Rabs_R0; lra|]. fold (total (map f l)) (total (map (fun x => Rabs (f x)) l)).
  eapply Rle_trans; [apply Rabs_triang|]. lra.
Qed.
Lemma total_nonneg {A} (f : A -> R) l : (forall x, In x l -> 0 <= f x) -> 0 <= total (map f l).
Proof. intros H. replace 0 with (total (map (fun _ : A => 0) l)); [apply total_le; exact H|]. rewrite total_map_const. ring. Qed.
Lemma total_squares {A} (f : A -> R) l : (forall x, In x l -> 0 <= f x) -> total (map (fun x => f x * f x) l) <= total (map f l) * total (map f l).
Proof.
  induction l as [|x l IH]; intros H; [cbn; lra|]. cbn. fold (total (map (fun x => f x * f x) l)) (total (map f l)).
  assert (P1 : 0 <= f x) by (apply H; left; reflexivity). assert (H2 : forall y, In y l -> 0 <= f y) by (intros y Hy; apply H; right; exact Hy).
  specialize (IH H2). pose proof (total_nonneg f l H2) as P2. set (T := total (map f l)) in *.
  assert (0 <= f x * T) by (apply Rmult_le_pos; assumption). lra.
Qed.
Lemma total_seq {A} (f : A -> R) (l : list A) d : total (map f l) = total (map (fun i => f (nth i l d)) (seq 0 (length l))).
Proof. rewrite <- (seq_nth_map l d) at 1. rewrite map_map. reflexivity. Qed.
Lemma total_combine {A} (h : R -> A -> R) (beta : list R) (l : list A) d : length beta = length l ->
  total (map (fun bx => h (fst bx) (snd bx)) (combine beta l)) = total (map (fun i => h (nth i beta 0) (nth i l d)) (seq 0 (length l))).
Proof.
  intros H. rewrite (total_seq _ (combine beta l) (0, d)). rewrite combine_length, H, Nat.min_id. apply total_ext. intros i Hi.
  rewrite combine_nth by exact H. reflexivity.
Qed.

(** ** events change the sum by at most 2 B each *)
Lemma replace_total {A} (f : A -> R) (v d : A) : forall (l : list A) k, (k < length l)%nat -> sum_over f (replace_nth l k v) = sum_over f l + (f v - f (nth k l d)).
Proof.
  induction l as [|x l IH]; intros k Hk; [cbn in Hk; lia|]. destruct k as [|k]; cbn.
  - unfold sum_over. cbn. ring.
  - change (f x + sum_over f (replace_nth l k v) = f x + sum_over f l + (f v - f (nth k l d))). rewrite IH by (cbn in Hk; lia). ring.
Qed.
Lemma execute_change {A} (f : A -> R) B : forall evs (ws : list A), Forall (fun x => Rabs (f x) <= B) ws -> valid_events (length ws) evs ->
  Rabs (sum_over f (execute ws evs) - sum_over f ws) <= 2 * B * INR (length evs).
Proof.
  induction evs as [|[dup kill] evs IH]; intros ws HB HV.
  - cbn. rewrite Rminus_diag_eq, Rabs_R0 by reflexivity. lra.
  - inversion HV as [|? ? [V1 V2] HV2]; subst. cbn [fst snd] in V1, V2. cbn [execute].
    destruct (nth_error ws dup) as [v|] eqn:E; [|apply nth_error_None in E; lia].
    assert (Hv : Rabs (f v) <= B) by (rewrite Forall_forall in HB; apply HB; eapply nth_error_In; exact E).
    assert (L : length (replace_nth ws kill v) = length ws) by (rewrite replace_set; apply set_nth_length).
    assert (HB2 : Forall (fun x => Rabs (f x) <= B) (replace_nth ws kill v)).
    { apply Forall_forall. intros x Hx. rewrite Forall_forall in HB. apply HB. apply (execute_copies [(dup, kill)] ws x). cbn [execute]. rewrite E. exact Hx. }
    assert (HV' : valid_events (length (replace_nth ws kill v)) evs) by (rewrite L; exact HV2).
    specialize (IH _ HB2 HV'). rewrite (replace_total f v v ws kill V2) in IH.
    assert (Hk : Rabs (f (nth kill ws v)) <= B) by (rewrite Forall_forall in HB; apply HB; apply nth_In; exact V2).
    change (length ((dup, kill) :: evs)) with (S (length evs)). rewrite S_INR.
    set (T := sum_over f (execute (replace_nth ws kill v) evs)) in *.
    replace (T - sum_over f ws) with ((T - (sum_over f ws + (f v - f (nth kill ws v)))) + (f v + - f (nth kill ws v))) by ring.
    eapply Rle_trans; [apply Rabs_triang|]. pose proof (Rabs_triang (f v) (- f (nth kill ws v))) as Q. rewrite Rabs_Ropp in Q. lra.
Qed.

(** ** the partner *)
Definition skip (i k : nat) : nat := if Nat.leb i k then S k else k.
Lemma skip_perm n i : (i < n)%nat -> Permutation (i :: map (skip i) (seq 0 (n - 1))) (seq 0 n).
Proof.
  intros Hi. apply NoDup_Permutation; [|apply seq_NoDup|].
  - constructor.
    + intros H. apply in_map_iff in H as (k & E & _). unfold skip in E. destruct (Nat.leb_spec i k); lia.
    + apply FinFun.Injective_map_NoDup; [|apply seq_NoDup]. intros a b E. unfold skip in E. destruct (Nat.leb_spec i a), (Nat.leb_spec i b); lia.
  - intros x. cbn [In]. rewrite in_map_iff, in_seq. split.
    + intros [<-|(k & <- & Hk)]; [lia|]. apply in_seq in Hk. unfold skip. destruct (Nat.leb_spec i k); lia.
    + intros Hx. destruct (Nat.eq_dec i x) as [|N]; [left; assumption|right]. destruct (Nat.ltb_spec x i).
      * exists x. rewrite in_seq. unfold skip. destruct (Nat.leb_spec i x); lia.
      * exists (x - 1)%nat. rewrite in_seq. unfold skip. destruct (Nat.leb_spec i (x - 1)); lia.
Qed.
Lemma skip_total (h : nat -> R) n i : (i < n)%nat -> total (map (fun k => h (skip i k)) (seq 0 (n - 1))) = total (map h (seq 0 n)) - h i.
Proof.
  intros Hi. rewrite (total_perm (map h (seq 0 n)) (map h (i :: map (skip i) (seq 0 (n - 1)))))  by (apply Permutation_map, Permutation_sym, skip_perm; exact Hi).
  cbn. fold (total (map h (map (skip i) (seq 0 (n - 1))))). rewrite map_map. ring.
Qed.

(** ** the probability *)
Lemma prob_first_order x : 0 <= x -> 0 <= 1 - exp (- x) <= x /\ x - (1 - exp (- x)) <= x * x /\ 1 - exp (- x) < 1.
Proof.
  intros Hx. pose proof (exp_pos (- x)) as P. assert (A : 1 + - x <= exp (- x)).
  { destruct (Req_dec x 0) as [->|N]; [rewrite Ropp_0, exp_0; lra|]. left. apply exp_ineq1. lra. }
  assert (B : exp (- x) <= 1) by (rewrite <- exp_0; destruct (Req_dec x 0) as [->|N]; [rewrite Ropp_0; lra|left; apply exp_increasing; lra]).
  assert (C : exp (- x) * (1 + x) <= 1).
  { assert (1 + x <= exp x) by (destruct (Req_dec x 0) as [->|N]; [rewrite exp_0; lra|left; apply exp_ineq1; lra]).
    apply Rle_trans with (exp (- x) * exp x); [apply Rmult_le_compat_l; lra|]. rewrite <- exp_plus. replace (- x + x) with 0 by ring. rewrite exp_0. lra. }
  split; [lra|]. split; [|lra].
  assert (D : exp (- x) * (1 + x) * (1 - x) <= 1 - x \/ 1 < x) by (destruct (Rle_dec x 1); [left; rewrite <- (Rmult_1_l (1 - x)) at 2; apply Rmult_le_compat_r; lra|right; lra]).
  destruct D as [D|D].
  - assert (0 <= exp (- x) * (x * x)) by (apply Rmult_le_pos; [lra|apply Rle_0_sqr]). assert (exp (- x) * (x * x) <= 1 * (x * x)) by (apply Rmult_le_compat_r; [apply Rle_0_sqr|lra]). lra.
  - assert (1 * x <= x * x) by (apply Rmult_le_compat_r; lra). lra.
Qed.

(** ** one step *)
Section Step.
Context (rng : rng_if) (gd : griddata_t R) (par : bdpar) (ps : list particle) (beta : list R) (st : stats).
Context (HR : rng_ok rng) (Hmode : bd_recalc par = false) (Hdt : 0 <= bd_dt par) (Hrate : 0 <= bd_rate par) (Hn : (2 <= length ps)%nat)
  (Hbeta : calc_betas gd par ps = Ok beta).
Let n := length ps.
Let prob := map (accept_prob (bd_dt par) (bd_rate par)) beta.
Context (f : particle -> R) (B : R) (HB : Forall (fun p => Rabs (f p) <= B) ps) (p0 : particle).
Let v i := f (nth i ps p0).
Let dl i k := if Rlt_dec 0 (nth i beta 0) then v (skip i k) - v i else v i - v (skip i k).
Let e (g : rng_st rng) i := accepted (nth i (numbers rng n g) 0) (nth i prob 0).
Let D g i := e g i * dl i (partner_number rng n i g).

Lemma beta_length : length beta = n.
Proof using All. exact (calc_betas_length _ _ _ _ Hbeta). Qed.
Lemma prob_nth i : (i < n)%nat -> nth i prob 0 = accept_prob (bd_dt par) (bd_rate par) (nth i beta 0).
Proof using All. intros Hi. unfold prob. rewrite (nth_map_in _ _ _ _ 0) by (rewrite beta_length; exact Hi). reflexivity. Qed.
Lemma v_bound i : (i < n)%nat -> Rabs (v i) <= B.
Proof using All. intros Hi. unfold v. rewrite Forall_forall in HB. apply HB. apply nth_In. exact Hi. Qed.
Lemma B_nonneg : 0 <= B.
Proof using All. pose proof (v_bound 0 ltac:(unfold n; lia)) as Q. pose proof (Rabs_pos (v 0)). lra. Qed.
Lemma skip_lt i k : (i < n)%nat -> (k < n - 1)%nat -> (skip i k < n)%nat.
Proof using All. intros Hi Hk. unfold skip. destruct (Nat.leb_spec i k); lia. Qed.
Lemma dl_bound i k : (i < n)%nat -> (k < n - 1)%nat -> Rabs (dl i k) <= 2 * B.
Proof using All.
  intros Hi Hk. pose proof (v_bound i Hi) as A1. pose proof (v_bound (skip i k) (skip_lt i k Hi Hk)) as A2. unfold dl.
  destruct (Rlt_dec _ _); unfold Rminus; (eapply Rle_trans; [apply Rabs_triang|]); rewrite Rabs_Ropp; lra.
Qed.
Lemma partner_lt i g : (partner_number rng n i g < n - 1)%nat.
Proof using All. unfold partner_number. apply (ok_integers rng HR). unfold n. lia. Qed.

(** the single event *)
Lemma single_event g i evs g' s' after : (i < n)%nat -> where_true (accept_mask par beta (numbers rng n g)) = [i] ->
  do_birth_death rng gd par (mkBS ps g st) = Ok (evs, mkBS after g' s') ->
  sum_over f after - sum_over f ps = dl i (partner_number rng n i g).
Proof using All.
  intros Hi HW H. unfold do_birth_death in H. cbn [bs_ps bs_rng bs_stats] in H. rewrite Hbeta in H. cbn [bind] in H. fold n in H.
  unfold numbers in HW. unfold partner_number. pose proof (partner_lt i g) as PL. unfold partner_number in PL.
  destruct (r_random rng n g) as [rand g1]. cbn [fst snd] in HW, PL |- *. rewrite Hmode in H. cbn [negb] in H. unfold bd_bulk in H. cbn [bs_ps bs_rng bs_stats] in H.
  fold (accept_mask par beta rand) in H. rewrite HW in H.
  pose proof (ok_shuffle rng HR [i] g1) as Pm. destruct (r_shuffle rng [i] g1) as [order g2]. cbn [fst snd] in Pm, PL |- *.
  apply Permutation_length_1_inv in Pm. subst order. cbn [bulk_loop memb existsb] in H. fold n in H.
  unfold random_other in H. destruct (Nat.leb_spec n 1); [unfold n in *; lia|].
  destruct (r_integers rng (n - 1) g2) as [k g3]. cbn [fst snd bind] in H, PL |- *. fold (skip i k) in H.
  rewrite at_total in H by (rewrite beta_length; exact Hi). cbn [bind] in H. pose proof (skip_lt i k Hi PL) as SL.
  unfold dl. unfold gtb in H. destruct (Rlt_dec 0 (nth i beta 0)); cbn [bind app combine] in H.
  - apply bind_inv in H as (ps' & Hp & H). inversion H; subst; clear H. apply perform_moves_ok in Hp as [-> V]. cbn [execute].
    rewrite (nth_error_nth' ps p0) by exact SL. rewrite (replace_total f _ p0) by exact Hi. unfold v. ring.
  - apply bind_inv in H as (ps' & Hp & H). inversion H; subst; clear H. apply perform_moves_ok in Hp as [-> V]. cbn [execute].
    rewrite (nth_error_nth' ps p0) by exact Hi. rewrite (replace_total f _ p0) by exact SL. unfold v. ring.
Qed.

Lemma e_01 g i : e g i = 0 \/ e g i = 1.
Proof using All. unfold e, accepted. destruct (Rle_dec _ _); [right|left]; reflexivity. Qed.
(** the number of events *)
Lemma mask_in g i : In i (where_true (accept_mask par beta (numbers rng n g))) <-> (i < n)%nat /\ e g i = 1.
Proof using All.
  rewrite accept_mask_spec by (rewrite beta_length; symmetry; apply (ok_random_len rng HR)). rewrite beta_length.
  split; intros [H1 H2]; (split; [exact H1|]); unfold e, accepted in *; rewrite prob_nth in * by exact H1; destruct (Rle_dec _ _); try reflexivity; try assumption; try contradiction. lra.
Qed.
Lemma sum_events g : total (map (e g) (seq 0 n)) = INR (length (where_true (accept_mask par beta (numbers rng n g)))).
Proof using All.
  set (acc := fun i => if Req_EM_T (e g i) 1 then true else false).
  assert (P : Permutation (where_true (accept_mask par beta (numbers rng n g))) (filter acc (seq 0 n))).
  { apply NoDup_Permutation; [apply where_true_nodup|apply NoDup_filter, seq_NoDup|]. intros i. rewrite mask_in, filter_In, in_seq. unfold acc.
    destruct (Req_EM_T (e g i) 1) as [Q|Q]; split; intros [H1 H2]; try (split; [lia|assumption || reflexivity]); try contradiction; discriminate. }
  rewrite (Permutation_length P). clear P. generalize (seq 0 n). intros l. induction l as [|i l IH]; [reflexivity|].
  cbn [map filter]. change (total (e g i :: map (e g) l)) with (e g i + total (map (e g) l)). rewrite IH. unfold acc at 2.
  destruct (Req_EM_T (e g i) 1) as [Q|Q]; [cbn [length]; rewrite S_INR, Q; ring|]. destruct (e_01 g i) as [Z|Z]; [rewrite Z; ring|contradiction].
Qed.
Lemma events_bound order killed evs : bulk_events n beta order killed evs -> (length evs <= length order)%nat.
Proof using All. intros H. induction H; cbn [length]; lia. Qed.

Lemma step_bound g evs g' s' after : do_birth_death rng gd par (mkBS ps g st) = Ok (evs, mkBS after g' s') ->
  let N := total (map (e g) (seq 0 n)) in
  Rabs (sum_over f after - sum_over f ps - total (map (D g) (seq 0 n))) <= 4 * B * (N * N - N).
Proof using All.
  intros H. cbv zeta. pose proof B_nonneg as B0. rewrite sum_events. set (order0 := where_true (accept_mask par beta (numbers rng n g))).
  destruct (bulk_full rng gd par _ _ _ HR Hmode H) as (beta' & rand & order & E1 & E2 & Nd & Ho & Hev & Hps & HV & _).
  cbn [bs_ps bs_rng] in *. rewrite Hbeta in E1. assert (beta' = beta) by congruence. subst beta'. fold n in E2. fold (numbers rng n g) in E2. subst rand.
  assert (P : Permutation order order0).
  { apply NoDup_Permutation; [exact Nd|apply where_true_nodup|]. intros i. rewrite Ho. unfold order0.
    rewrite accept_mask_spec by (rewrite beta_length; symmetry; apply (ok_random_len rng HR)). rewrite beta_length. reflexivity. }
  pose proof (events_bound _ _ _ Hev) as LE. rewrite (Permutation_length P) in LE.
  destruct order0 as [|i [|i2 rest]] eqn:E0.
  - assert (evs = []) by (destruct evs; [reflexivity|cbn in LE; lia]). subst evs. cbn [execute] in Hps. subst after.
    rewrite (total_ext (D g) (fun _ => 0)); [rewrite total_map_const|].
    + cbn [length INR]. replace (sum_over f ps - sum_over f ps - INR (length (seq 0 n)) * 0) with 0 by ring. rewrite Rabs_R0. lra.
    + intros i Hi. apply in_seq in Hi. unfold D. destruct (e_01 g i) as [Z|Z]; [rewrite Z; ring|]. exfalso.
      assert (Q : In i order0) by (apply mask_in; split; [lia|exact Z]). rewrite E0 in Q. destruct Q.
  - assert (Hi : In i order0) by (rewrite E0; left; reflexivity). apply mask_in in Hi as [Hi Ei].
    rewrite (single_event g i _ _ _ _ Hi E0 H).
    assert (ED : total (map (D g) (seq 0 n)) = dl i (partner_number rng n i g)).
    { rewrite (total_perm _ (map (D g) (i :: map (skip i) (seq 0 (n - 1))))) by (apply Permutation_map, Permutation_sym, skip_perm; exact Hi).
      change (D g i + total (map (D g) (map (skip i) (seq 0 (n - 1)))) = dl i (partner_number rng n i g)). rewrite map_map.
      rewrite (total_ext _ (fun _ => 0)); [rewrite total_map_const; unfold D; rewrite Ei; ring|].
      intros k Hk. apply in_seq in Hk. unfold D. destruct (e_01 g (skip i k)) as [Z|Z]; [rewrite Z; ring|]. exfalso.
      assert (Q : In (skip i k) order0) by (apply mask_in; split; [apply skip_lt; lia|exact Z]). rewrite E0 in Q. destruct Q as [Q|[]].
      unfold skip in Q. destruct (Nat.leb_spec i k); lia. }
    rewrite ED. cbn [length INR]. rewrite Rminus_diag_eq, Rabs_R0 by reflexivity. lra.
  - rewrite <- E0 in *. assert (L2 : 2 <= INR (length order0)) by (rewrite E0; cbn [length]; rewrite !S_INR; pose proof (pos_INR (length rest)); lra).
    rewrite Hps. pose proof (execute_change f B evs ps HB HV) as C1.
    assert (C2 : Rabs (total (map (D g) (seq 0 n))) <= 2 * B * INR (length order0)).
    { unfold order0. rewrite <- sum_events, <- total_scale. eapply Rle_trans; [apply total_abs|]. apply total_le. intros j Hi. apply in_seq in Hi. unfold D. rewrite Rabs_mult.
      destruct (e_01 g j) as [Z|Z]; rewrite Z; [rewrite Rabs_R0; lra|]. rewrite Rabs_R1, Rmult_1_l, Rmult_1_r. apply dl_bound; [lia|apply partner_lt]. }
    apply le_INR in LE. assert (C3 : 2 * B * INR (length evs) <= 2 * B * INR (length order0)) by (apply Rmult_le_compat_l; lra).
    unfold Rminus at 1. eapply Rle_trans; [apply Rabs_triang|]. rewrite Rabs_Ropp.
    set (k := INR (length order0)) in *. assert (k <= k * k - k) by nra. assert (4 * B * k <= 4 * B * (k * k - k)) by (apply Rmult_le_compat_l; lra). lra.
Qed.

(** ** averages *)
Context {W : Type} (avg : (W -> R) -> R) (HM : is_mean avg) (g : W -> rng_st rng) (after : W -> list particle)
  (HU : uniform_numbers avg prob (fun w => numbers rng n (g w))) (HP : fair_partners avg prob (fun w => numbers rng n (g w)) (fun i w => partner_number rng n i (g w)))
  (HA : forall w, exists evs g' s', do_birth_death rng gd par (mkBS ps (g w) st) = Ok (evs, mkBS (after w) g' s')).
Let tau := bd_dt par * bd_rate par.
Let x i := tau * Rabs (nth i beta 0).
Lemma prob_length : length prob = n.
Proof using All. unfold prob. rewrite map_length. apply beta_length. Qed.
Lemma tau_nonneg : 0 <= tau. Proof using All. apply Rmult_le_pos; assumption. Qed.
Lemma x_nonneg i : 0 <= x i. Proof using All. apply Rmult_le_pos; [apply tau_nonneg|apply Rabs_pos]. Qed.
Lemma prob_x i : (i < n)%nat -> nth i prob 0 = 1 - exp (- x i).
Proof using All. intros Hi. rewrite prob_nth by exact Hi. unfold accept_prob, x, tau. do 2 f_equal. ring. Qed.

Lemma mean_D i : (i < n)%nat -> avg (fun w => D (g w) i) = nth i prob 0 / INR (n - 1) * total (map (dl i) (seq 0 (n - 1))).
Proof using All.
  intros Hi. destruct HM as (E & _).
  rewrite (E _ (fun w => total (map (fun k => dl i k * (e (g w) i * equals (partner_number rng n i (g w)) k)) (seq 0 (n - 1))))).
  - rewrite (avg_total avg HM (fun k w => dl i k * (e (g w) i * equals (partner_number rng n i (g w)) k))). rewrite <- total_scale. apply total_ext. intros k Hk. apply in_seq in Hk.
    rewrite (avg_scale avg HM). unfold e. rewrite (HP i k) by (rewrite prob_length; lia). rewrite prob_length. ring.
  - intros w. unfold D. pose proof (partner_lt i (g w)) as PL. set (q := partner_number rng n i (g w)) in *.
    assert (Q : forall l, NoDup l -> total (map (fun k => dl i k * (e (g w) i * equals q k)) l) = if in_dec Nat.eq_dec q l then e (g w) i * dl i q else 0).
    { induction l as [|k l IH]; intros ND; [reflexivity|]. inversion ND; subst. cbn [map].
      match goal with |- total (?a :: ?b) = _ => change (a + total b = if in_dec Nat.eq_dec q (k :: l) then e (g w) i * dl i q else 0) end. rewrite IH by assumption.
      unfold equals. destruct (Nat.eqb_spec q k) as [->|NE].
      - destruct (in_dec Nat.eq_dec k l); [contradiction|]. destruct (in_dec Nat.eq_dec k (k :: l)) as [_|N]; [ring|exfalso; apply N; left; reflexivity].
      - destruct (in_dec Nat.eq_dec q l) as [I|I]; destruct (in_dec Nat.eq_dec q (k :: l)) as [J|J]; try ring.
        + exfalso. apply J. right. exact I.
        + exfalso. destruct J as [J|J]; [apply NE; symmetry; exact J|contradiction]. }
    rewrite Q by apply seq_NoDup. destruct (in_dec Nat.eq_dec q (seq 0 (n - 1))) as [_|N]; [reflexivity|]. exfalso. apply N. apply in_seq. lia.
Qed.
Lemma mean_square : let N w := total (map (e (g w)) (seq 0 n)) in
  avg (fun w => N w * N w - N w) <= total (map x (seq 0 n)) * total (map x (seq 0 n)).
Proof using All.
  cbv zeta. pose proof HM as (E & _).
  rewrite (E _ (fun w => total (map (fun i => total (map (fun j => if Nat.eqb i j then 0 else e (g w) i * e (g w) j) (seq 0 n))) (seq 0 n)))).
  - rewrite (avg_total avg HM (fun i w => total (map (fun j => if Nat.eqb i j then 0 else e (g w) i * e (g w) j) (seq 0 n)))).
    apply Rle_trans with (total (map (fun i => total (map (fun j => x i * x j) (seq 0 n))) (seq 0 n))).
    + apply total_le. intros i Hi. apply in_seq in Hi. rewrite (avg_total avg HM (fun j w => if Nat.eqb i j then 0 else e (g w) i * e (g w) j)).
      apply total_le. intros j Hj. apply in_seq in Hj. pose proof (x_nonneg i) as X1. pose proof (x_nonneg j) as X2.
      destruct (Nat.eqb_spec i j) as [->|NE].
      * rewrite (mean_zero avg HM). apply Rmult_le_pos; assumption.
      * destruct HU as [_ U2]. unfold e. rewrite (U2 i j) by (rewrite ?prob_length; lia). rewrite !prob_x by lia.
        destruct (prob_first_order (x i) X1) as [P1 _]. destruct (prob_first_order (x j) X2) as [P2 _]. apply Rmult_le_compat; lra.
    + apply Req_le. rewrite (total_ext _ (fun i => total (map x (seq 0 n)) * x i)) by (intros i _; rewrite total_scale; ring). rewrite total_scale. reflexivity.
  - intros w. set (l := seq 0 n).
    assert (Q : forall i, In i l -> total (map (fun j => if Nat.eqb i j then 0 else e (g w) i * e (g w) j) l) = e (g w) i * total (map (e (g w)) l) - e (g w) i).
    { intros i Hi. unfold l in *. apply in_seq in Hi. rewrite (total_perm _ (map (fun j => if Nat.eqb i j then 0 else e (g w) i * e (g w) j) (i :: map (skip i) (seq 0 (n - 1))))) by (apply Permutation_map, Permutation_sym, skip_perm; lia).
      cbn [map]. match goal with |- total (?a :: ?b) = _ => change (total (a :: b)) with (a + total b) end. rewrite Nat.eqb_refl, map_map.
      rewrite (total_ext _ (fun k => e (g w) i * e (g w) (skip i k))) by (intros k _; destruct (Nat.eqb_spec i (skip i k)) as [Z|Z]; [exfalso; unfold skip in Z; destruct (Nat.leb_spec i k); lia|reflexivity]).
      rewrite total_scale, (skip_total (e (g w)) n i) by lia. destruct (e_01 (g w) i) as [Z|Z]; rewrite Z; ring. }
    rewrite (total_ext _ _ _ Q), total_minus.
    rewrite (total_ext (fun i => e (g w) i * total (map (e (g w)) l)) (fun i => total (map (e (g w)) l) * e (g w) i)) by (intros; ring).
    rewrite total_scale. reflexivity.
Qed.
Lemma mean_change :
  Rabs (avg (fun w => sum_over f (after w) - sum_over f ps) - - (tau * (INR n / INR (n - 1))) * rate_moment f beta ps) <= 6 * B * (tau * total (map Rabs beta)) ^ 2.
Proof using All.
  pose proof B_nonneg as B0. pose proof HM as (E & _). assert (n2 : (2 <= n)%nat) by exact Hn.
  assert (N1 : 0 < INR (n - 1)) by (apply lt_0_INR; lia). assert (NN : INR n = INR (n - 1) + 1) by (rewrite <- S_INR; f_equal; lia).
  set (T := total (map v (seq 0 n))).
  set (X := total (map x (seq 0 n))).
  assert (EX : X = tau * total (map Rabs beta)).
  { unfold X. rewrite (total_seq Rabs beta 0), beta_length, <- total_scale. reflexivity. }
  (* events of single walkers *)
  assert (A1 : Rabs (avg (fun w => (sum_over f (after w) - sum_over f ps) - total (map (D (g w)) (seq 0 n)))) <= 4 * B * (X * X)).
  { eapply Rle_trans; [apply (avg_abs avg HM _ (fun w => 4 * B * (let N := total (map (e (g w)) (seq 0 n)) in N * N - N)))|].
    - intros w. destruct (HA w) as (evs & g' & s' & H). exact (step_bound (g w) evs g' s' (after w) H).
    - rewrite (avg_scale avg HM). apply Rmult_le_compat_l; [lra|]. exact mean_square. }
  (* their mean *)
  assert (A2 : forall i, (i < n)%nat -> total (map (dl i) (seq 0 (n - 1))) = (if Rlt_dec 0 (nth i beta 0) then 1 else -1) * (T - INR n * v i)).
  { intros i Hi. unfold dl. destruct (Rlt_dec 0 (nth i beta 0)).
    - rewrite (total_minus (fun k => v (skip i k)) (fun _ => v i)), (skip_total v n i Hi), total_map_const, seq_length, NN. fold T. ring.
    - rewrite (total_minus (fun _ => v i) (fun k => v (skip i k))), (skip_total v n i Hi), total_map_const, seq_length, NN. fold T. ring. }
  assert (A3 : forall i, (i < n)%nat -> Rabs ((T - INR n * v i) / INR (n - 1)) <= 2 * B).
  { intros i Hi. unfold Rdiv. rewrite Rabs_mult, (Rabs_right (/ INR (n - 1))) by (left; apply Rinv_0_lt_compat; exact N1).
    apply Rmult_le_reg_r with (INR (n - 1)); [exact N1|]. rewrite Rmult_assoc, Rinv_l, Rmult_1_r by lra.
    replace (T - INR n * v i) with (total (map (fun k => v (skip i k) - v i) (seq 0 (n - 1)))).
    - eapply Rle_trans; [apply total_abs|]. replace (2 * B * INR (n - 1)) with (total (map (fun _ : nat => 2 * B) (seq 0 (n - 1)))) by (rewrite total_map_const, seq_length; ring).
      apply total_le. intros k Hk. apply in_seq in Hk. pose proof (v_bound i Hi) as V1. pose proof (v_bound (skip i k) (skip_lt i k Hi ltac:(lia))) as V2.
      unfold Rminus. eapply Rle_trans; [apply Rabs_triang|]. rewrite Rabs_Ropp. lra.
    - rewrite (total_minus (fun k => v (skip i k)) (fun _ => v i)), (skip_total v n i Hi), total_map_const, seq_length, NN. fold T. ring. }
  assert (A4 : avg (fun w => total (map (D (g w)) (seq 0 n))) = total (map (fun i => nth i prob 0 * (if Rlt_dec 0 (nth i beta 0) then 1 else -1) * ((T - INR n * v i) / INR (n - 1))) (seq 0 n))).
  { rewrite (avg_total avg HM (fun i w => D (g w) i)). apply total_ext. intros i Hi. apply in_seq in Hi. rewrite mean_D, A2 by lia. unfold Rdiv. ring. }
  assert (A5 : - (tau * (INR n / INR (n - 1))) * rate_moment f beta ps = total (map (fun i => tau * nth i beta 0 * ((T - INR n * v i) / INR (n - 1))) (seq 0 n))).
  { unfold rate_moment. rewrite (total_combine (fun b p => b * (f p - average (map f ps))) beta ps p0) by (rewrite beta_length; reflexivity). fold n.
    rewrite <- total_scale. apply total_ext. intros i Hi. fold (v i). unfold average. rewrite map_length. fold n. rewrite (total_seq f ps p0). fold n. change (total (map (fun i0 : nat => f (nth i0 ps p0)) (seq 0 n))) with T.
    field. split; [lra|]. rewrite NN. lra. }
  rewrite A5.
  assert (A6 : Rabs (avg (fun w => total (map (D (g w)) (seq 0 n))) - total (map (fun i => tau * nth i beta 0 * ((T - INR n * v i) / INR (n - 1))) (seq 0 n))) <= 2 * B * (X * X)).
  { rewrite A4, <- total_minus. eapply Rle_trans; [apply total_abs|]. apply Rle_trans with (total (map (fun i => 2 * B * (x i * x i)) (seq 0 n))).
    - apply total_le. intros i Hi. apply in_seq in Hi. rewrite <- Rmult_minus_distr_r, Rabs_mult, (Rmult_comm (2 * B)).
      apply Rmult_le_compat; [apply Rabs_pos|apply Rabs_pos| |apply A3; lia].
      rewrite prob_x by lia. destruct (prob_first_order (x i) (x_nonneg i)) as (P1 & P2 & _).
      assert (Q : tau * nth i beta 0 = (if Rlt_dec 0 (nth i beta 0) then 1 else -1) * x i).
      { unfold x. destruct (Rlt_dec 0 (nth i beta 0)) as [Z|Z]; [rewrite Rabs_right by lra; ring|rewrite Rabs_left1 by lra; ring]. }
      rewrite Q. apply Rabs_le. destruct (Rlt_dec 0 (nth i beta 0)); lra.
    - rewrite total_scale. apply Rmult_le_compat_l; [lra|]. apply total_squares. intros i _. apply x_nonneg. }
  set (S2 := total (map (fun i => tau * nth i beta 0 * ((T - INR n * v i) / INR (n - 1))) (seq 0 n))) in *.
  assert (A7 : avg (fun w => sum_over f (after w) - sum_over f ps) =
     avg (fun w => (sum_over f (after w) - sum_over f ps) - total (map (D (g w)) (seq 0 n))) + avg (fun w => total (map (D (g w)) (seq 0 n)))).
  { rewrite <- (avg_plus avg HM). apply E. intros w. ring. }
  rewrite A7. rewrite <- EX. 
  set (a := avg (fun w => (sum_over f (after w) - sum_over f ps) - total (map (D (g w)) (seq 0 n)))) in *. set (b := avg (fun w => total (map (D (g w)) (seq 0 n)))) in *.
  replace (a + b - S2) with (a + (b - S2)) by ring. eapply Rle_trans; [apply Rabs_triang|]. replace (X ^ 2) with (X * X) by ring. lra.
Qed.
End Step.
