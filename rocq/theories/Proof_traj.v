(** Trajectory recording: the files contain the strided history *)
From Coq Require Import Lia ZifyBool ZifyNat.
From Verif Require Import PyBase Model_valid Model_dyn Model_traj Spec_times Spec_traj
  Proof_base Proof_valid Proof_ring.
Ltac Zify.zify_post_hook ::= idtac.
Open Scope R_scope.

(** ** rows *)
Lemma c_rows_map_none (T : list Z) (ft : Z -> R) (fp : Z -> vec) :
  c_rows (map ft T) (map fp T) None = map (fun k => ft k :: fp k ++ []) T.
Proof. induction T as [|k T IH]; cbn; [reflexivity|]. rewrite IH, app_nil_r; reflexivity. Qed.

Lemma c_rows_map_some (T : list Z) (ft : Z -> R) (fp fm : Z -> vec) :
  c_rows (map ft T) (map fp T) (Some (map fm T)) = map (fun k => ft k :: fp k ++ fm k) T.
Proof. induction T as [|k T IH]; cbn; [reflexivity|]. rewrite IH; reflexivity. Qed.

Lemma append_files_nth files i ts ps ms :
  append_files i files ts ps ms
  = map (fun jf => snd jf ++ c_rows ts (column (fst jf) ps) (option_map (column (fst jf)) ms))
        (combine (seq i (length files)) files).
Proof.
  revert i; induction files as [|f fs IH]; intros i; cbn; [reflexivity|]. now rewrite IH.
Qed.

Lemma column_map i (f : Z -> list vec) T : column i (map f T) = map (fun k => nth i (f k) []) T.
Proof. unfold column; now rewrite map_map. Qed.

Lemma nth_map_pos i ps : nth i (map p_pos ps) [] = p_pos (nth i ps no_walker).
Proof. change [] with (p_pos no_walker) at 1. apply map_nth. Qed.
Lemma nth_map_mom i ps : nth i (map p_mom ps) [] = p_mom (nth i ps no_walker).
Proof. change [] with (p_mom no_walker) at 1. apply map_nth. Qed.

Lemma combine_seq_map {B C} (g : nat -> B) (h : nat -> B -> C) a n :
  map (fun jf => h (fst jf) (snd jf)) (combine (seq a n) (map g (seq a n)))
  = map (fun i => h i (g i)) (seq a n).
Proof. revert a; induction n as [|n IH]; intros a; cbn; [reflexivity|]. now rewrite IH. Qed.

(** ** the buffer invariant at step k (all walkers of the steps up to k recorded) *)
Record traj_buf (dt : R) (W s : Z) (np : nat) (mom : bool) (hist : Z -> list particle)
    (t : traj) (k : Z) : Prop := {
  tb_stride : tr_stride t = s;
  tb_wstride : tr_wstride t = W;
  tb_np : tr_npart t = np;
  tb_ltimes : Z.of_nat (length (tr_times t)) = W;
  tb_times : exists f, (forall j, (0 < j)%Z -> f j = IZR j * dt) /\ buffer_holds (tr_times t) 1 f k;
  tb_lpos : Z.of_nat (length (tr_pos t)) = W;
  tb_pos : exists f, (forall j, (0 < j)%Z -> f j = map p_pos (hist j)) /\ buffer_holds (tr_pos t) 1 f k;
  tb_mom : match tr_mom t with
           | Some m => mom = true /\ Z.of_nat (length m) = W /\
               exists f, (forall j, (0 < j)%Z -> f j = map p_mom (hist j)) /\ buffer_holds m 1 f k
           | None => mom = false
           end }.

(** everything up to last_write is in the files *)
Definition traj_written (dt : R) (s : Z) (np : nat) (mom : bool) (hist : Z -> list particle)
    (t : traj) : Prop :=
  tr_files t = Some (traj_files dt mom hist s (tr_last_write t) np).

Lemma gvd_rows {A} (data : list A) f g W s lw k :
  (0 < W)%Z -> (0 < s)%Z -> Z.of_nat (length data) = W ->
  (forall j, (0 < j)%Z -> f j = g j) -> buffer_holds data 1 f k ->
  (0 <= lw)%Z -> (cycle_start W k <= lw <= k)%Z ->
  get_valid_data data k s 1 lw = Ok (map g (times lw k s)).
Proof.
  intros HW Hs Hl Hfg Hb H0 Hlw.
  rewrite (get_valid_data_correct data f k s 1 lw).
  - f_equal. now apply map_times_ext.
  - lia.
  - assumption.
  - apply Z.mod_1_r.
  - intros ->; cbn in Hl; lia.
  - assumption.
  - rewrite Hl, Z.mul_1_r; assumption.
  - rewrite Hl, Z.mul_1_r. pose proof (Z.mod_pos_bound k W HW). lia.
  - assumption.
Qed.

Lemma traj_files_length dt mom hist s n np : length (traj_files dt mom hist s n np) = np.
Proof. unfold traj_files; now rewrite map_length, seq_length. Qed.

(** one write: everything up to the current step is in the files afterwards *)
Lemma traj_write_ok dt W s np mom hist t k :
  (0 < W)%Z -> (0 < s)%Z -> (0 < np)%nat ->
  traj_buf dt W s np mom hist t k -> traj_written dt s np mom hist t ->
  (0 <= tr_last_write t)%Z -> (cycle_start W k <= tr_last_write t <= k)%Z ->
  exists t', traj_write t k = Ok t' /\ traj_buf dt W s np mom hist t' k /\
             traj_written dt s np mom hist t' /\ tr_last_write t' = k.
Proof.
  intros HW Hs Hnp [] Hwr H0 Hlw. unfold traj_written in Hwr.
  unfold traj_write. rewrite Hwr.
  destruct (traj_files dt mom hist s (tr_last_write t) np) as [|f0 fs] eqn:Ef.
  { apply (f_equal (@length _)) in Ef. rewrite traj_files_length in Ef; cbn in Ef; lia. }
  rewrite <- Ef in *. clear f0 fs Ef.
  destruct tb_times0 as (ft & Eft & Hft). destruct tb_pos0 as (fp & Efp & Hfp).
  rewrite tb_stride0.
  rewrite (gvd_rows (tr_times t) ft (fun j => IZR j * dt) W) by assumption.
  rewrite (gvd_rows (tr_pos t) fp (fun j => map p_pos (hist j)) W) by assumption.
  cbn [bind].
  set (T := times (tr_last_write t) k s).
  assert (Happ : forall i, map (fun j => traj_row dt mom (nth i (hist j) no_walker) j) T
     = c_rows (map (fun j => IZR j * dt) T) (column i (map (fun j => map p_pos (hist j)) T))
         (option_map (column i) (if mom then Some (map (fun j => map p_mom (hist j)) T) else None))).
  { intros i. rewrite column_map. destruct mom; cbn [option_map].
    - rewrite column_map, c_rows_map_some. apply map_ext; intros j.
      unfold traj_row; now rewrite nth_map_pos, nth_map_mom.
    - rewrite c_rows_map_none. apply map_ext; intros j. unfold traj_row; now rewrite nth_map_pos. }
  assert (Hfile : forall ms, ms = (if mom then Some (map (fun j => map p_mom (hist j)) T) else None) ->
     append_files 0 (traj_files dt mom hist s (tr_last_write t) np)
        (map (fun j => IZR j * dt) T) (map (fun j => map p_pos (hist j)) T) ms
     = traj_files dt mom hist s k np).
  { intros ms ->. rewrite append_files_nth, traj_files_length. unfold traj_files.
    rewrite (combine_seq_map _ (fun i f => f ++ c_rows (map (fun j => IZR j * dt) T)
       (column i (map (fun j => map p_pos (hist j)) T))
       (option_map (column i) (if mom then Some (map (fun j => map p_mom (hist j)) T) else None)))).
    apply map_ext; intros i. rewrite <- Happ. unfold traj_file.
    rewrite <- map_app. f_equal. symmetry; apply times_app; lia. }
  destruct (tr_mom t) as [m|] eqn:Em.
  - destruct tb_mom0 as (-> & Hml & fm & Efm & Hfm).
    rewrite (gvd_rows m fm (fun j => map p_mom (hist j)) W) by assumption.
    cbn [bind]. fold T. rewrite (Hfile (Some (map (fun j => map p_mom (hist j)) T)) eq_refl).
    eexists; split; [reflexivity|]. split; [|split; reflexivity].
    constructor; cbn; eauto 6.
  - subst mom. cbn [bind]. rewrite (Hfile None eq_refl).
    eexists; split; [reflexivity|]. split; [|split; reflexivity].
    constructor; cbn; eauto 6.
Qed.

Lemma store_row {A} (data : list A) f W k v :
  (0 < W)%Z -> Z.of_nat (length data) = W -> v = f k ->
  buffer_holds data 1 f (k - 1) ->
  exists data', py_set data (k mod W - 1) v = Ok data' /\
    length data' = length data /\ buffer_holds data' 1 f k.
Proof.
  intros HW Hl -> Hb. subst W.
  destruct (buffer_store data 1 f k) as (d & Hd & Hld & Hbd); auto.
  - lia.
  - intros ->; cbn in HW; lia.
  - apply Z.mod_1_r.
  - rewrite Z.mul_1_r, Z.div_1_r in Hd. eauto.
Qed.

(** the buffer after storing step k, before a possible write *)
Definition traj_stored (dt : R) (W : Z) (parts : list particle) (t : traj) (step : Z) : res traj :=
  let row := (step mod W - 1)%Z in
  do times' <- py_set (tr_times t) row (IZR step * dt);
  do pos' <- py_set (tr_pos t) row (map p_pos parts);
  do mom' <- match tr_mom t with
             | None => Ok None
             | Some m => do m' <- py_set m row (map p_mom parts); Ok (Some m')
             end;
  Ok (mkTraj (tr_stride t) (tr_wstride t) (tr_npart t) times' pos' mom'
                   (tr_last_write t) (tr_files t)).

Lemma traj_run_eq dt W s np mom hist t k k' :
  (0 < W)%Z -> traj_buf dt W s np mom hist t k' -> length (hist k) = np ->
  traj_run dt (hist k) t k
  = (do t' <- traj_stored dt W (hist k) t k;
     if (k mod W =? 0)%Z then traj_write t' k else Ok t').
Proof.
  intros HW [] Hnp. unfold traj_run, traj_stored. rewrite tb_wstride0.
  replace (W =? 0)%Z with false by lia.
  destruct (py_set (tr_times t) _ _); cbn [bind]; [|reflexivity].
  rewrite tb_np0, Hnp, Nat.eqb_refl. cbn [negb].
  destruct (py_set (tr_pos t) _ _); cbn [bind]; [|reflexivity].
  destruct (tr_mom t) as [m|]; cbn [bind]; [|reflexivity].
  destruct (py_set m _ _); cbn [bind]; reflexivity.
Qed.

Lemma traj_stored_ok dt W s np mom hist t k :
  (0 < W)%Z -> (0 < k)%Z ->
  traj_buf dt W s np mom hist t (k - 1) ->
  exists t', traj_stored dt W (hist k) t k = Ok t' /\ traj_buf dt W s np mom hist t' k /\
    tr_files t' = tr_files t /\ tr_last_write t' = tr_last_write t.
Proof.
  intros HW Hk []. destruct tb_times0 as (ft & Eft & Hft). destruct tb_pos0 as (fp & Efp & Hfp).
  unfold traj_stored.
  destruct (store_row (tr_times t) ft W k (IZR k * dt)) as (ts & Ets & Lts & Hts); auto.
  { symmetry; auto. }
  destruct (store_row (tr_pos t) fp W k (map p_pos (hist k))) as (ps & Eps & Lps & Hps); auto.
  { symmetry; auto. }
  rewrite Ets, Eps; cbn [bind].
  destruct (tr_mom t) as [m|] eqn:Em.
  - destruct tb_mom0 as (-> & Hml & fm & Efm & Hfm).
    destruct (store_row m fm W k (map p_mom (hist k))) as (ms & Ems & Lms & Hms); auto.
    { symmetry; auto. }
    rewrite Ems; cbn [bind]. eexists; split; [reflexivity|]. split; [|split; reflexivity].
    constructor; cbn; eauto; try congruence.
    split; [reflexivity|]; split; [congruence|]; eauto.
  - cbn [bind]. eexists; split; [reflexivity|]. split; [|split; reflexivity].
    constructor; cbn; eauto; congruence.
Qed.

(** one recorded step *)
Lemma traj_run_ok dt W s np mom hist t k :
  (0 < W)%Z -> (0 < s)%Z -> (0 < np)%nat -> (0 < k)%Z -> length (hist k) = np ->
  traj_buf dt W s np mom hist t (k - 1) -> traj_written dt s np mom hist t ->
  (W * ((k - 1) / W) <= tr_last_write t <= k - 1)%Z -> (0 <= tr_last_write t)%Z ->
  exists t', traj_run dt (hist k) t k = Ok t' /\ traj_buf dt W s np mom hist t' k /\
             traj_written dt s np mom hist t' /\
             (W * (k / W) <= tr_last_write t' <= k)%Z /\ (0 <= tr_last_write t')%Z.
Proof.
  intros HW Hs Hnp Hk Hl Hb Hw Hlw H0.
  rewrite (traj_run_eq dt W s np mom hist t k (k-1)) by assumption.
  destruct (traj_stored_ok dt W s np mom hist t k) as (t1 & -> & Hb1 & Ef1 & El1); auto.
  cbn [bind]. destruct (Z.eqb_spec (k mod W) 0) as [E|N].
  - destruct (traj_write_ok dt W s np mom hist t1 k) as (t2 & -> & Hb2 & Hw2 & El2); auto.
    + unfold traj_written in *. rewrite Ef1, El1. exact Hw.
    + lia.
    + rewrite El1. unfold cycle_start. lia.
    + pose proof (Z.mul_div_le k W HW).
      exists t2. split; [reflexivity|]. split; [assumption|]. split; [assumption|]. lia.
  - exists t1. split; [reflexivity|]. split; [assumption|]. split.
    + unfold traj_written in *. rewrite Ef1, El1. exact Hw.
    + rewrite El1. pose proof (cycle_end W k HW N). unfold cycle_start in *. lia.
Qed.

Lemma traj_write_inv dt W s np mom hist t k :
  (0 < W)%Z -> (0 < s)%Z -> (0 < np)%nat -> 
  traj_buf dt W s np mom hist t k -> traj_written dt s np mom hist t ->
  (W * (k / W) <= tr_last_write t <= k)%Z -> (0 <= tr_last_write t)%Z ->
  exists t', traj_write t k = Ok t' /\ traj_buf dt W s np mom hist t' k /\
             traj_written dt s np mom hist t' /\
             tr_last_write t' = k.
Proof.
  intros HW Hs Hnp Hb Hw Hlw H0.
  destruct (traj_write_ok dt W s np mom hist t k) as (t2 & -> & Hb2 & Hw2 & El2); auto.
  { pose proof (cycle_start_le W k HW). lia. }
  exists t2; auto.
Qed.

(** without file names the buffer is filled and nothing is written *)
Lemma traj_run_nofile dt W s np mom hist t k :
  (0 < W)%Z -> (0 < k)%Z -> length (hist k) = np ->
  traj_buf dt W s np mom hist t (k - 1) -> (tr_files t = None \/ tr_files t = Some []) ->
  exists t', traj_run dt (hist k) t k = Ok t' /\ traj_buf dt W s np mom hist t' k /\
             tr_files t' = tr_files t /\ tr_last_write t' = tr_last_write t.
Proof.
  intros HW Hk Hl Hb Hf.
  rewrite (traj_run_eq dt W s np mom hist t k (k-1)) by assumption.
  destruct (traj_stored_ok dt W s np mom hist t k) as (t1 & -> & Hb1 & Ef1 & El1); auto.
  cbn [bind]. destruct (k mod W =? 0)%Z.
  - exists t1. split; [|auto]. unfold traj_write. rewrite Ef1. destruct Hf as [->| ->]; reflexivity.
  - exists t1; auto.
Qed.

(** the freshly constructed action *)
Lemma traj_init_buf dt hist np stride filename momentum wstride times0 pos0 mom0 :
  let W := orZ wstride 100 in
  (0 < W)%Z -> Z.of_nat (length times0) = W -> Z.of_nat (length pos0) = W ->
  (momentum = true -> Z.of_nat (length mom0) = W) ->
  traj_buf dt W (orZ stride 1) np momentum hist
    (traj_init np stride filename momentum wstride times0 pos0 mom0) 0.
Proof.
  intros W HW Lt Lp Lm. constructor; cbn; auto.
  - destruct (buffer_init times0 1 (fun j => IZR j * dt)) as (f & Hf & Hb); [lia| |eauto].
    intros ->; cbn in Lt; lia.
  - destruct (buffer_init pos0 1 (fun j => map p_pos (hist j))) as (f & Hf & Hb); [lia| |eauto].
    intros ->; cbn in Lp; lia.
  - destruct momentum; [|reflexivity]. split; [reflexivity|]. split; [auto|].
    destruct (buffer_init mom0 1 (fun j => map p_mom (hist j))) as (f & Hf & Hb); [lia| |eauto].
    intros ->; specialize (Lm eq_refl); cbn in Lm; lia.
Qed.

Lemma traj_init_written dt hist np stride momentum wstride times0 pos0 mom0 :
  traj_written dt (orZ stride 1) np momentum hist
    (traj_init np stride true momentum wstride times0 pos0 mom0).
Proof.
  unfold traj_written; cbn [traj_init tr_files tr_last_write]. unfold traj_files, traj_file.
  rewrite times_nil by lia. cbn [map].
  f_equal. induction np as [|np IH]; cbn; [reflexivity|]. rewrite IH, <- seq_shift, map_map. reflexivity.
Qed.
