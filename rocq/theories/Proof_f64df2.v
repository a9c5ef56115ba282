(** Free energy differences in float64 arithmetic (C100): from the histogram to the differences *)
From Verif Require Import Spec_f64df Proof_base Proof_f64 Proof_f64b Proof_f64c Proof_f64e Proof_f64g Proof_f64h Proof_f64x Proof_f64step Proof_f64df.
From Flocq Require Import Core.Core.
From Coq Require Import Lia Lra.
Open Scope R_scope.
Ltac Zify.zify_post_hook ::= idtac.
#[local] Arguments bpow : simpl never.

Lemma samples_le (cm : Z) : (0 <= cm)%Z -> forall data mask, Forall (fun c => (0 <= c <= cm)%Z) data -> (samples_in data mask <= cm * Z.of_nat (length data))%Z.
Proof.
  intros H0. induction data as [|c data IH]; intros [|b mask] H; cbn [samples_in length]; try (rewrite ?Nat2Z.inj_succ; nia).
  inversion H as [|? ? H1 H2]; subst. specialize (IH mask H2). rewrite Nat2Z.inj_succ. destruct b; nia.
Qed.
Lemma forall2_nth {A B} (P : A -> B -> Prop) : forall l m, length l = length m ->
  (forall i a b, nth_error l i = Some a -> nth_error m i = Some b -> P a b) -> Forall2 P l m.
Proof.
  induction l as [|a l IH]; intros [|b m] H Q; try discriminate; constructor; [exact (Q 0%nat a b eq_refl eq_refl)|].
  apply IH; [now injection H|]. intros i x y. exact (Q (S i) x y).
Qed.
Lemma all_zero data : Forall (fun c => (0 <= c)%Z) data -> Forall (fun c => c = 0%Z) data \/
  exists cmax, In cmax data /\ (0 < cmax)%Z /\ forall c, In c data -> (c <= cmax)%Z.
Proof.
  induction 1 as [|c data H0 H IH]; [left; constructor|]. destruct IH as [IH|(m & I & P & Q)].
  - destruct (Z.eq_dec c 0) as [->|N]; [left; now constructor|]. right. exists c. split; [now left|]. split; [lia|].
    rewrite Forall_forall in IH. intros x [->|Hx]; [lia|]. rewrite (IH x Hx). exact H0.
  - right. destruct (Z.le_gt_cases c m) as [L|L].
    + exists m. split; [now right|]. split; [exact P|]. intros x [->|Hx]; [exact L|now apply Q].
    + exists c. split; [now left|]. split; [lia|]. intros x [->|Hx]; [lia|]. specialize (Q x Hx). lia.
Qed.

Lemma histogram_probs fexp flog np_sum kt data : exp_ok fexp -> log_all_ok flog -> sums np_sum -> ends_ok fexp flog -> moderate kt -> data <> [] ->
  Forall (fun c => (0 <= c <= 2 ^ 53)%Z) data ->
  exists fes (cm : Z), f_fes flog kt data = Ok fes /\ (0 < cm <= 2 ^ 53)%Z /\ Forall (fun c => (0 <= c <= cm)%Z) data /\
    Forall2 (prob_ok (IZR cm)) data (map (fun f => fexp (fdiv (fopp f) kt)) fes).
Proof.
  intros HE HL HS HN HK NE HD. destruct (all_zero data) as [Z0|(cm & I & P & Q)]; [eapply Forall_impl; [|exact HD]; cbn; intros; lia| |].
  - exists (map (fun _ => finf) data), 1%Z. split; [now apply fes_empty|]. split; [lia|]. split; [eapply Forall_impl; [|exact Z0]; cbn; intros a ->; lia|].
    rewrite map_map. clear - Z0 HN HK. induction Z0 as [|c data -> Z0 IH]; [constructor|]. cbn [map]. constructor; [|exact IH].
    apply (prob_zero fexp flog kt HN HK).
  - destruct (fes_all flog kt data cm) as (fes & E & L & F & _); try assumption.
    + now apply log_counts.
    + apply HK.
    + pose proof (kt_pos kt HK). split; [assumption|]. destruct HK as [_ [_ HK2]]. eapply Rle_trans; [exact HK2|]. apply bpow_le. lia.
    + rewrite Forall_forall in HD. assert (CM : (cm <= 2 ^ 53)%Z) by (specialize (HD cm I); lia).
      exists fes, cm. split; [exact E|]. split; [split; assumption|]. split; [apply Forall_forall; intros c Hc; split; [specialize (HD c Hc); lia|now apply Q]|].
      apply forall2_nth; [rewrite map_length; congruence|]. intros i c p Hc Hp. rewrite nth_error_map in Hp.
      destruct (nth_error fes i) as [x|] eqn:Hx; [|discriminate]. cbn in Hp. injection Hp as <-.
      destruct (F i c x Hc Hx) as [F0 F1]. pose proof (nth_error_In _ _ Hc) as IC. pose proof (HD c IC) as HC.
      destruct (Z.eq_dec c 0) as [C0|C0].
      * rewrite (F0 C0), C0. apply (prob_zero fexp flog kt HN HK).
      * destruct (F1 ltac:(lia)) as (X1 & X2 & X3). apply (prob_val fexp kt HE HK); try assumption. split; [lia|now apply Q].
Qed.

Lemma delta_f_float fexp flog np_sum kt data m1 ms : exp_ok fexp -> log_all_ok flog -> sums np_sum -> ends_ok fexp flog -> moderate kt ->
  data <> [] -> Forall (fun c => (0 <= c <= 2 ^ 53)%Z) data -> (Z.of_nat (length data) <= 2 ^ 20)%Z -> Forall (fun m => length m = length data) (m1 :: ms) ->
  exists fes ds, f_fes flog kt data = Ok fes /\ f_delta_f fexp flog np_sum fes kt (m1 :: ms) = Ok ds /\ length ds = length ms /\
    forall j, (j < length ms)%nat -> difference_ok kt (samples_in data (nth j ms [])) (samples_in data m1) (nth j ds fzero).
Proof.
  intros HE HL HS HN HK NE HD LD HM. destruct (histogram_probs fexp flog np_sum kt data HE HL HS HN HK NE HD) as (fes & cm & E & CM & HC & HP).
  exists fes. set (probs := map (fun f => fexp (fdiv (fopp f) kt)) fes) in *.
  assert (CP : 0 < IZR cm) by (apply IZR_lt; lia).
  assert (CB : IZR cm <= 2 ^ 53) by (replace (2 ^ 53) with (IZR (2 ^ 53)) by (rewrite (pow_IZR 2 53); reflexivity); apply IZR_le; lia).
  assert (D0 : Forall (fun c => (0 <= c)%Z) data) by (eapply Forall_impl; [|exact HD]; cbn; intros; lia).
  assert (ST : forall m, length m = length data -> exists q, (do s <- f_select probs m; Ok (match s with [] => fzero | _ => np_sum s end)) = Ok q /\
     state_ok (IZR cm) (samples_in data m) q /\ (0 <= samples_in data m)%Z /\ IZR (samples_in data m) / IZR cm <= 2 ^ 20).
  { intros m Hm. destruct (select_val (IZR cm) CP data probs m HP D0 Hm) as (s & S1 & S2 & S3 & S4 & S5 & S6 & S7). rewrite S1. cbn [bind].
    eexists. split; [reflexivity|]. split; [apply state_val; try assumption; lia|]. split; [exact S5|].
    pose proof (samples_le cm ltac:(lia) data m HC) as B.
    assert (B2 : (samples_in data m <= cm * 2 ^ 20)%Z) by nia.
    apply IZR_le in B2. rewrite mult_IZR in B2. apply Rmult_le_reg_r with (IZR cm); [exact CP|]. unfold Rdiv. rewrite Rmult_assoc, Rinv_l by lra.
    replace (2 ^ 20) with (IZR (2 ^ 20)) by (rewrite (pow_IZR 2 20); reflexivity). lra. }
  assert (ML : forall l, Forall (fun m => length m = length data) l -> exists qs, mapM (fun m => do s <- f_select probs m; Ok (match s with [] => fzero | _ => np_sum s end)) l = Ok qs /\
     length qs = length l /\ forall j, (j < length l)%nat -> let m := nth j l [] in state_ok (IZR cm) (samples_in data m) (nth j qs fzero) /\ (0 <= samples_in data m)%Z /\ IZR (samples_in data m) / IZR cm <= 2 ^ 20).
  { clear HM. induction l as [|m l IH]; intros H; [exists []; split; [reflexivity|]; split; [reflexivity|]; cbn; intros; lia|].
    inversion H as [|? ? H1 H2]; subst. destruct (ST m H1) as (q & Q1 & Q2). destruct (IH H2) as (qs & R1 & R2 & R3).
    exists (q :: qs). split; [cbn [mapM]; rewrite Q1; cbn [bind]; rewrite R1; reflexivity|]. split; [cbn; lia|].
    intros [|j] Hj; [exact Q2|]. apply R3. cbn in Hj. lia. }
  destruct (ML _ HM) as (qs & Q1 & Q2 & Q3). destruct qs as [|q1 qs]; [discriminate Q2|].
  exists (map (fun p => fmul (fopp kt) (flog (fdiv p q1))) qs). split; [exact E|].
  split; [unfold f_delta_f; cbv zeta; fold probs; rewrite Q1; reflexivity|]. cbn in Q2. rewrite map_length. split; [lia|].
  intros j Hj. destruct (Q3 0%nat ltac:(cbn; lia)) as (A1 & A2 & A3). destruct (Q3 (S j) ltac:(cbn; lia)) as (B1 & B2 & B3). cbn [nth] in *.
  rewrite (nth_indep _ fzero ((fun p => fmul (fopp kt) (flog (fdiv p q1))) fzero)) by (rewrite map_length; lia).
  rewrite (map_nth (fun p => fmul (fopp kt) (flog (fdiv p q1)))).
  apply (difference_val fexp flog kt HL HN HK (IZR cm)); try assumption. split; assumption.
Qed.

(** a mask of another length *)
Lemma f_select_short : forall p m, length m <> length p -> f_select p m = Err IndexError.
Proof.
  induction p as [|x p IH]; intros [|b m] H; cbn in *; try reflexivity; [lia|]. rewrite IH by lia. reflexivity.
Qed.
Lemma delta_f_bad_mask fexp flog np_sum kt fes masks : Exists (fun m => length m <> length fes) masks -> f_delta_f fexp flog np_sum fes kt masks = Err IndexError.
Proof.
  intros H. unfold f_delta_f. cbv zeta.
  assert (X : forall l, Exists (fun m => length m <> length fes) l ->
    mapM (fun m => do s <- f_select (map (fun f => fexp (fdiv (fopp f) kt)) fes) m; Ok (match s with [] => fzero | _ => np_sum s end)) l = Err IndexError).
  { clear. induction 1 as [m l H|m l H IH]; cbn [mapM].
    - rewrite f_select_short by (rewrite map_length; exact H). reflexivity.
    - destruct (Nat.eq_dec (length m) (length fes)) as [E|E].
      + assert (exists s, f_select (map (fun f => fexp (fdiv (fopp f) kt)) fes) m = Ok s) as (s & ->).
        { clear IH H. revert m E. induction fes as [|x fes IH]; intros [|b m] E; try discriminate; [eexists; reflexivity|].
          cbn [map f_select]. destruct (IH m) as (s & ->); [now injection E|]. eexists; reflexivity. }
        cbn [bind]. rewrite IH. reflexivity.
      + rewrite f_select_short by (rewrite map_length; exact E). reflexivity. }
  rewrite (X masks H). reflexivity.
Qed.

(** functions as required *)
Lemma ends_inhabited : exists fexp flog, exp_ok fexp /\ log_all_ok flog /\ ends_ok fexp flog.
Proof.
  destruct exp_ok_inhabited as [fexp HE]. destruct log_all_ok_inhabited as [flog HL].
  exists (fun x => match x with B754_infinity true => fzero | _ => fexp x end),
    (fun x => match x with B754_zero _ => B754_infinity true | B754_infinity false => finf | B754_nan => B754_nan | _ => flog x end).
  split; [|split].
  - destruct HE as [H1 _]. split; [|split; reflexivity]. intros x Fx Hx. destruct x as [s|s| |s m e b]; try discriminate Fx; apply H1; assumption.
  - intros x Fx Hx. destruct x as [s|s| |s m e b]; try discriminate Fx; [cbn in Hx; lra|now apply HL].
  - split; [reflexivity|]. split; [reflexivity|]. split; [reflexivity|]. intros x Hx. destruct x; try discriminate Hx; reflexivity.
Qed.
Lemma delta_f_no_states fexp flog np_sum kt fes : f_delta_f fexp flog np_sum fes kt [] = Ok [].
Proof. reflexivity. Qed.
