(** C01: complete call histories *)
From Coq Require Import Lia ZifyBool ZifyNat.
From Verif Require Import PyBase Model_valid Model_dyn Model_traj Spec_times Spec_traj Spec_trajrun
  Proof_base Proof_valid Proof_ring Proof_traj.
Ltac Zify.zify_post_hook ::= idtac.
Open Scope R_scope.

Lemma option_or_orZ o d : positive_option o -> orZ o d = option_or o d.
Proof.
  destruct o as [z|]; cbn; [|reflexivity]. intros H; specialize (H z eq_refl).
  now replace (z =? 0)%Z with false by lia.
Qed.

Lemma option_or_pos o d : positive_option o -> (0 < d)%Z -> (0 < option_or o d)%Z.
Proof. destruct o as [z|]; cbn; auto. Qed.

(** invariant between the steps *)
Definition traj_inv dt W s np mom hist t k : Prop :=
  traj_buf dt W s np mom hist t k /\ traj_written dt s np mom hist t /\
  (W * (k / W) <= tr_last_write t <= k)%Z /\ (0 <= tr_last_write t)%Z.

Lemma manual_writes_inv dt W s np mom hist m k t :
  (0 < W)%Z -> (0 < s)%Z -> (0 < np)%nat -> (0 <= k)%Z ->
  traj_inv dt W s np mom hist t k ->
  exists t', manual_writes m k t = Ok t' /\ traj_inv dt W s np mom hist t' k.
Proof.
  intros HW Hs Hnp Hk. revert t; induction m as [|m IH]; intros t Hi;
    [exists t; split; [reflexivity|assumption]|].
  destruct Hi as (Hb & Hw & Hlw & H0).
  destruct (traj_write_inv dt W s np mom hist t k) as (t1 & E1 & Hb1 & Hw1 & El1); auto.
  destruct (IH t1) as (t2 & E2 & Hi2).
  - pose proof (Z.mul_div_le k W HW). split; [assumption|]; split; [assumption|]. rewrite El1; lia.
  - exists t2; split; [|assumption]. unfold manual_writes; cbn [repeat foldM]. rewrite E1. exact E2.
Qed.

Lemma traj_simulation_files dt hist manual n np stride momentum wstride times0 pos0 mom0 :
  (0 < np)%nat -> (0 <= n)%Z ->
  positive_option stride -> positive_option wstride ->
  (forall k, length (hist k) = np) ->
  Z.of_nat (length times0) = option_or wstride 100 ->
  Z.of_nat (length pos0) = option_or wstride 100 ->
  Z.of_nat (length mom0) = option_or wstride 100 ->
  exists t,
    traj_simulation dt hist manual n
      (traj_init np stride true momentum wstride times0 pos0 mom0) = Ok t /\
    tr_files t = Some (traj_files dt momentum hist (option_or stride 1) n np).
Proof.
  intros Hnp Hn Ps Pw Hh Lt Lp Lm.
  set (t0 := traj_init np stride true momentum wstride times0 pos0 mom0).
  pose proof (option_or_pos wstride 100 Pw ltac:(lia)) as HW.
  pose proof (option_or_pos stride 1 Ps ltac:(lia)) as Hs.
  assert (traj_inv dt (option_or wstride 100) (option_or stride 1) np momentum hist t0 0) as I0.
  { rewrite <- !option_or_orZ by assumption. rewrite <- option_or_orZ in * by assumption.
    split; [apply traj_init_buf; auto|]. split; [apply traj_init_written|].
    cbn [traj_init tr_last_write t0]. rewrite Z.div_0_l by lia. lia. }
  unfold traj_simulation.
  destruct (manual_writes_inv dt _ _ np momentum hist (manual 0%Z) 0 t0 HW Hs Hnp ltac:(lia) I0)
    as (t1 & -> & I1). cbn [bind].
  destruct (foldM_zrange_ind (traj_step dt hist manual)
     (traj_inv dt (option_or wstride 100) (option_or stride 1) np momentum hist) n t1)
    as (t2 & -> & I2); auto.
  - intros t k Hk (Hb & Hw & Hlw & H0). unfold traj_step.
    destruct (traj_run_ok dt (option_or wstride 100) (option_or stride 1) np momentum hist t k)
      as (t' & -> & Hi); auto; [lia|]. cbn [bind].
    apply manual_writes_inv; auto. lia.
  - cbn [bind]. destruct I2 as (Hb & Hw & Hlw & H0). unfold traj_final_run.
    destruct (traj_write_inv dt (option_or wstride 100) (option_or stride 1) np momentum hist t2 n)
      as (t3 & -> & Hb3 & Hw3 & El3); auto.
    exists t3. split; [reflexivity|]. unfold traj_written in Hw3. now rewrite El3 in Hw3.
Qed.

(** without a filename no file is written, whatever is called *)
Lemma traj_write_nofile t k : tr_files t = None -> traj_write t k = Ok t.
Proof. intros H; unfold traj_write; now rewrite H. Qed.

Lemma traj_simulation_nofile dt hist manual n np stride momentum wstride times0 pos0 mom0 :
  (0 <= n)%Z ->
  positive_option stride -> positive_option wstride ->
  (forall k, length (hist k) = np) ->
  Z.of_nat (length times0) = option_or wstride 100 ->
  Z.of_nat (length pos0) = option_or wstride 100 ->
  Z.of_nat (length mom0) = option_or wstride 100 ->
  exists t,
    traj_simulation dt hist manual n
      (traj_init np stride false momentum wstride times0 pos0 mom0) = Ok t /\
    tr_files t = None.
Proof.
  intros Hn Ps Pw Hh Lt Lp Lm.
  set (t0 := traj_init np stride false momentum wstride times0 pos0 mom0).
  pose proof (option_or_pos wstride 100 Pw ltac:(lia)) as HW.
  assert (Hmw : forall m k t, tr_files t = None -> manual_writes m k t = Ok t).
  { induction m as [|m IH]; intros k t Ht; [reflexivity|].
    unfold manual_writes; cbn [repeat foldM]. rewrite traj_write_nofile by assumption. cbn [bind].
    now apply IH. }
  unfold traj_simulation. rewrite Hmw by reflexivity. cbn [bind].
  destruct (foldM_zrange_ind (traj_step dt hist manual)
     (fun t k => traj_buf dt (option_or wstride 100) (option_or stride 1) np momentum hist t k
                 /\ tr_files t = None) n t0) as (t2 & -> & Hb2 & Hf2); auto.
  - split; [|reflexivity]. rewrite <- !option_or_orZ by assumption.
    rewrite <- option_or_orZ in * by assumption. apply traj_init_buf; auto.
  - intros t k Hk (Hb & Hf). unfold traj_step.
    destruct (traj_run_nofile dt (option_or wstride 100) (option_or stride 1) np momentum hist t k)
      as (t' & -> & Hb' & Hf' & _); auto; [lia|]. cbn [bind].
    rewrite Hf in Hf'. rewrite Hmw by assumption. eauto.
  - cbn [bind]. exists t2. unfold traj_final_run. rewrite traj_write_nofile by assumption. auto.
Qed.
