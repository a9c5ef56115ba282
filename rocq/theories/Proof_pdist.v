(** Box membership, particle counts, particle-distribution file *)
From Coq Require Import Lia ZifyBool ZifyNat.
From Verif Require Import PyBase Model_valid Model_dyn Model_rec Model_pdist
  Spec_times Spec_traj Spec_rec Spec_box Spec_pdist Proof_base Proof_rec.
Ltac Zify.zify_post_hook ::= idtac.
Open Scope R_scope.

Lemma xleb_least b x : xleb b (Fin x) = true <-> at_least b x.
Proof. destruct b as [r| | |]; cbn; try destruct (Rle_dec r x); intuition congruence. Qed.
Lemma xleb_most b x : xleb (Fin x) b = true <-> at_most b x.
Proof. destruct b as [r| | |]; cbn; try destruct (Rle_dec x r); intuition congruence. Qed.

Lemma inside_loop_length i m pos state ins r :
  length ins = length pos -> inside_loop i m pos state ins = Ok r -> length r = length pos.
Proof.
  revert i ins; induction m as [|m IH]; intros i ins Hl; cbn.
  - intros [= <-]; assumption.
  - destruct (nth_error state i); [|discriminate]. apply IH.
    unfold and_in_range. rewrite map_length, combine_length. lia.
Qed.

Definition in_dims (state : list (xreal * xreal)) (p : vec) (i m : nat) : Prop :=
  forall d, (i <= d < i + m)%nat ->
    at_least (fst (nth d state (NaN, NaN))) (nth d p 0) /\ at_most (snd (nth d state (NaN, NaN))) (nth d p 0).

Lemma inside_loop_spec m : forall i pos state ins,
  (i + m <= length state)%nat -> length ins = length pos ->
  exists r, inside_loop i m pos state ins = Ok r /\ length r = length pos /\
    forall j, (j < length pos)%nat ->
      (nth j r false = true <-> nth j ins false = true /\ in_dims state (nth j pos []) i m).
Proof.
  induction m as [|m IH]; intros i pos state ins Hs Hl; cbn.
  - exists ins; split; [reflexivity|]. split; [assumption|]. intros j Hj. unfold in_dims.
    split; [intros H; split; [assumption|intros d Hd; lia]|tauto].
  - destruct (nth_error state i) as [r0|] eqn:Er; [|apply nth_error_None in Er; lia].
    destruct (IH (S i) pos state (and_in_range i r0 pos ins)) as (r & E & Hlr & Hr).
    + lia.
    + unfold and_in_range; rewrite map_length, combine_length; lia.
    + exists r; split; [assumption|]. split; [assumption|]. intros j Hj. rewrite Hr by assumption.
      assert (nth j (and_in_range i r0 pos ins) false
        = nth j ins false && xleb (fst r0) (Fin (nth i (nth j pos []) 0)) && xleb (Fin (nth i (nth j pos []) 0)) (snd r0)) as ->.
      { unfold and_in_range.
        set (g := fun pb : vec * bool => snd pb && xleb (fst r0) (Fin (nth i (fst pb) 0)) && xleb (Fin (nth i (fst pb) 0)) (snd r0)).
        rewrite nth_indep with (d' := g ([], false)) by (rewrite map_length, combine_length; lia).
        rewrite map_nth, combine_nth by lia. reflexivity. }
      rewrite !andb_true_iff, xleb_least, xleb_most. apply nth_error_nth with (d := (NaN, NaN)) in Er.
      unfold in_dims. split.
      * intros (((Hi & H1) & H2) & Hd). split; [assumption|]. intros d Hdd.
        destruct (Nat.eq_dec d i) as [->|]; [rewrite Er; split; assumption|apply Hd; lia].
      * intros (Hi & Hd). assert (at_least (fst r0) (nth i (nth j pos []) 0) /\ at_most (snd r0) (nth i (nth j pos []) 0)) as B by (rewrite <- Er; apply Hd; lia).
        destruct B. split; [tauto|]. intros d Hdd; apply Hd; lia.
Qed.

Lemma inside_state_spec n_dim pos state :
  length state = n_dim -> Forall (fun p => length p = n_dim) pos ->
  exists r, inside_loop 0 n_dim pos state (map (fun _ => true) pos) = Ok r /\
    length r = length pos /\
    forall j, (j < length pos)%nat -> (nth j r false = true <-> in_state state (nth j pos [])).
Proof.
  intros Hs Hp.
  destruct (inside_loop_spec n_dim 0 pos state (map (fun _ => true) pos)) as (r & E & Hl & H);
    [lia|apply map_length|].
  exists r. split; [assumption|]. split; [assumption|]. intros j Hj. rewrite H by assumption.
  assert (nth j (map (fun _ : vec => true) pos) false = true) as ->.
  { rewrite nth_indep with (d' := true) by (rewrite map_length; lia).
    change true with ((fun _ : vec => true) []) at 2. apply (map_nth (fun _ : vec => true) pos [] j). }
  assert (length (nth j pos []) = n_dim) as Hlj.
  { rewrite Forall_forall in Hp. apply Hp, nth_In; assumption. }
  unfold in_dims, in_state. rewrite Hlj, Hs. split.
  - intros (_ & Hd). split; [reflexivity|]. intros d Hdd; apply Hd; lia.
  - intros (_ & Hd). split; [reflexivity|]. intros d Hdd; apply Hd; lia.
Qed.

Lemma mapM_spec {A B} (f : A -> res B) (P : A -> B -> Prop) l :
  (forall x, In x l -> exists y, f x = Ok y /\ P x y) ->
  exists ys, mapM f l = Ok ys /\ Forall2 P l ys.
Proof.
  induction l as [|x l IH]; intros H; cbn.
  - eauto.
  - destruct (H x) as (y & Hy & Py); [now left|].
    destruct IH as (ys & Hys & Pys); [intros z Hz; apply H; now right|].
    rewrite Hy, Hys; cbn. eauto.
Qed.

Lemma pos_inside_ranges_spec n_dim pos ranges :
  Forall (fun st => length st = n_dim) ranges -> Forall (fun p => length p = n_dim) pos ->
  exists masks, pos_inside_ranges n_dim pos ranges = Ok masks /\
    Forall2 (fun st mask => length mask = length pos /\
       forall j, (j < length pos)%nat -> (nth j mask false = true <-> in_state st (nth j pos [])))
      ranges masks.
Proof.
  intros Hr Hp. apply mapM_spec. intros st Hst.
  rewrite Forall_forall in Hr. apply inside_state_spec; auto.
Qed.

(** a state with too few ranges is an IndexError *)
Lemma inside_loop_short m : forall i pos state ins,
  (i <= length state < i + m)%nat -> inside_loop i m pos state ins = Err IndexError.
Proof.
  induction m as [|m IH]; intros i pos state ins H; [lia|]. cbn.
  destruct (nth_error state i) as [r0|] eqn:Er; [|reflexivity].
  assert (i < length state)%nat by (apply nth_error_Some; congruence). apply IH. lia.
Qed.

(** ** counting *)
Lemma counts_mask {A} (P : A -> Prop) l mask d :
  length mask = length l ->
  (forall j, (j < length l)%nat -> (nth j mask false = true <-> P (nth j l d))) ->
  counts P l (sum_bools mask).
Proof.
  revert mask; induction l as [|x l IH]; intros [|b mask] Hl H; cbn in Hl; try lia.
  - constructor.
  - assert (counts P l (sum_bools mask)) as Hc.
    { apply IH; [lia|]. intros j Hj. apply (H (S j)). cbn; lia. }
    specialize (H 0%nat ltac:(cbn; lia)). cbn in H. unfold sum_bools in *; cbn.
    destruct b; cbn; constructor; auto; intuition congruence.
Qed.

Lemma counts_fun {A} (P : A -> Prop) l n m : counts P l n -> counts P l m -> n = m.
Proof.
  intros H; revert m; induction H; intros m Hm; inversion Hm; subst; try tauto; auto.
Qed.

Lemma counts_map {A B} (f : A -> B) (P : B -> Prop) l n :
  counts P (map f l) n -> counts (fun x => P (f x)) l n.
Proof.
  revert n; induction l as [|x l IH]; intros n H; inversion H; subst; constructor; auto.
Qed.

Lemma counts_le {A} (P : A -> Prop) l n : counts P l n -> (n <= length l)%nat.
Proof. induction 1; cbn; lia. Qed.

Lemma count_particles_spec n_dim parts states :
  (0 < length parts)%nat ->
  Forall (fun st => length st = n_dim) states -> Forall (fun w => length (p_pos w) = n_dim) parts ->
  exists cs, count_particles n_dim parts states = Ok cs /\
    Forall2 (fun box c => counts (fun w => in_state box (p_pos w)) parts c) states cs.
Proof.
  intros Hne Hs Hp. destruct (pos_inside_ranges_spec n_dim (map p_pos parts) states) as (masks & E & H); auto.
  { rewrite Forall_forall in *. intros p Hin; apply in_map_iff in Hin as (w & <- & Hw); auto. }
  exists (map sum_bools masks). split.
  - destruct parts as [|w ps]; [cbn in Hne; lia|]. unfold count_particles. now rewrite E.
  - clear E. induction H as [|st mask sts ms [Hl Hm] H IH]; cbn; constructor; auto.
    + apply counts_map. apply (counts_mask _ _ _ []); auto.
    + apply IH. now inversion Hs.
Qed.

(** disjoint boxes: the counts sum up to at most the number of walkers *)
Definition disjoint_boxes (b1 b2 : list (xreal * xreal)) : Prop := forall p, ~ (in_state b1 p /\ in_state b2 p).

Lemma list_sum_cons c cs : list_sum (c :: cs) = (c + list_sum cs)%nat.
Proof. reflexivity. Qed.

Lemma counts_disjoint_sum {A} (Ps : list (A -> Prop)) l cs :
  ForallOrdPairs (fun P Q => forall x, ~ (P x /\ Q x)) Ps ->
  Forall2 (fun P c => counts P l c) Ps cs -> (list_sum cs <= length l)%nat.
Proof.
  revert Ps cs; induction l as [|x l IH]; intros Ps cs Hd H.
  - assert (Forall (fun c => c = 0%nat) cs) as Hz.
    { clear Hd. induction H as [|P c Ps' cs' Hc H' IH']; constructor; auto. now inversion Hc. }
    clear -Hz. induction Hz as [|c cs' E Hz IH']; [cbn; lia|]. rewrite list_sum_cons, E; cbn [length] in *; lia.
  - (* at most one predicate holds for x *)
    assert (exists cs', Forall2 (fun P c => counts P l c) Ps cs' /\ (list_sum cs <= S (list_sum cs'))%nat
              /\ ((forall P, In P Ps -> ~ P x) -> (list_sum cs <= list_sum cs')%nat)) as (cs' & H' & Hle & _).
    { clear IH. induction H as [|P c Ps' cs0 Hc H IH'].
      - exists []. cbn. repeat split; auto.
      - inversion Hd as [|? ? Hfa Hop]; subst.
        destruct (IH' Hop) as (cs1 & H1 & Hle1 & Hz1).
        inversion Hc as [| ? ? n0 Px Hcn | ? ? n0 Px Hcn]; subst.
        + exists (n0 :: cs1). split; [constructor; assumption|]. split.
          * rewrite !list_sum_cons. assert (list_sum cs0 <= list_sum cs1)%nat.
            { apply Hz1. intros Q HQ Qx. rewrite Forall_forall in Hfa. apply (Hfa Q HQ x). tauto. }
            lia.
          * intros Hn. exfalso. apply (Hn P); [now left|assumption].
        + exists (c :: cs1). split; [constructor; assumption|]. split.
          * rewrite !list_sum_cons; lia.
          * intros Hn. rewrite !list_sum_cons. assert (list_sum cs0 <= list_sum cs1)%nat.
            { apply Hz1. intros Q HQ. apply Hn. now right. }
            lia. }
    specialize (IH Ps cs' Hd H'). cbn. lia.
Qed.

Lemma count_particles_disjoint n_dim parts states cs :
  (0 < length parts)%nat ->
  Forall (fun st => length st = n_dim) states -> Forall (fun w => length (p_pos w) = n_dim) parts ->
  ForallOrdPairs disjoint_boxes states ->
  count_particles n_dim parts states = Ok cs -> (list_sum cs <= length parts)%nat.
Proof.
  intros Hne Hs Hp Hd E.
  destruct (count_particles_spec n_dim parts states) as (cs' & E' & H); auto.
  rewrite E in E'; injection E' as <-.
  apply (counts_disjoint_sum (map (fun box w => in_state box (p_pos w)) states)).
  - clear -Hd. induction Hd as [|b bs Hb Hd IH]; cbn; constructor; auto.
    rewrite Forall_forall in *. intros Q HQ. apply in_map_iff in HQ as (b' & <- & Hb').
    intros x Hx. apply (Hb b' Hb' (p_pos x)). exact Hx.
  - clear -H. induction H; cbn; constructor; auto.
Qed.

(** ** the recorded file *)
Lemma pdist_row_ok n_dim parts states k :
  (0 < length parts)%nat ->
  Forall (fun st => length st = n_dim) states -> Forall (fun w => length (p_pos w) = n_dim) parts ->
  exists row, pdist_row n_dim parts states k = Ok row /\ pdist_row_spec states parts k row.
Proof.
  intros Hne Hs Hp. destruct (count_particles_spec n_dim parts states) as (cs & E & H); auto.
  exists (k :: map Z.of_nat cs). unfold pdist_row. rewrite E. split; [reflexivity|].
  exists cs; auto.
Qed.

Definition res_default {A} (d : A) (r : res A) : A := match r with Ok a => a | Err _ => d end.

Lemma pdist_rows n_dim states hist :
  (forall k, (0 < length (hist k))%nat) ->
  Forall (fun st => length st = n_dim) states ->
  (forall k, Forall (fun w => length (p_pos w) = n_dim) (hist k)) ->
  exists rows, forall k, pdist_row n_dim (hist k) states k = Ok (rows k) /\
     pdist_row_spec states (hist k) k (rows k).
Proof.
  intros Hne Hs Hp. exists (fun k => res_default [] (pdist_row n_dim (hist k) states k)).
  intros k. destruct (pdist_row_ok n_dim (hist k) states k) as (row & E & H); auto.
  rewrite E; cbn; auto.
Qed.

Lemma pdist_simulation_eq n_dim states hist rows n r0 :
  (forall k, pdist_row n_dim (hist k) states k = Ok (rows k)) ->
  pdist_simulation n_dim states hist n r0 = rec_simulation rows n r0.
Proof.
  intros H. unfold pdist_simulation, rec_simulation, pdist_run, pdist_final_run.
  assert (forall l r, foldM (fun r k => rec_run (pdist_row n_dim (hist k) states k) r k) l r
                 = foldM (fun r k => rec_run (Ok (rows k)) r k) l r) as E.
  { induction l as [|k l IH]; intros r; cbn; [reflexivity|]. rewrite H.
    destruct (rec_run (Ok (rows k)) r k); cbn; auto. }
  rewrite E, H. reflexivity.
Qed.

Lemma pdist_simulation_file n_dim states hist stride wstride junk single0 s W n :
  (forall k, (0 < length (hist k))%nat) ->
  Forall (fun st => length st = n_dim) states ->
  (forall k, Forall (fun w => length (p_pos w) = n_dim) (hist k)) ->
  stride = Some s -> (0 < s)%Z -> positive_option wstride -> W = option_or wstride (100 * s) ->
  (W mod s = 0)%Z -> (forall m, length (junk m) = m) -> (0 <= n)%Z ->
  exists r0 r rows,
    (forall k, pdist_row_spec states (hist k) k (rows k)) /\
    pdist_init stride wstride true junk single0 = Ok r0 /\
    pdist_simulation n_dim states hist n r0 = Ok r /\
    rc_file r = Some (
      if (n mod W =? 0)%Z || (s <=? n mod W)%Z then map rows (times 0 n s)
      else map rows (times 0 (W * (n / W)) s) ++
           (if (n <? W)%Z then junk (Z.to_nat (W / s))
            else map rows (times (W * (n / W) - W) (W * (n / W)) s))).
Proof.
  intros Hne Hs Hp Es Hs0 Pw EW HWs Hj Hn.
  destruct (pdist_rows n_dim states hist) as (rows & Hrows); auto.
  destruct (rec_simulation_file rows stride wstride junk single0 s W n)
    as (r0 & r & E0 & E1 & Hf); auto.
  exists r0, r, rows. split; [intros k; apply Hrows|]. split; [assumption|]. split; [|assumption].
  rewrite (pdist_simulation_eq n_dim states hist rows) by (intros; apply Hrows). assumption.
Qed.

Lemma pdist_simulation_once n_dim states hist wstride junk single0 n :
  (forall k, (0 < length (hist k))%nat) ->
  Forall (fun st => length st = n_dim) states ->
  (forall k, Forall (fun w => length (p_pos w) = n_dim) (hist k)) -> (0 <= n)%Z ->
  exists r0 r row,
    pdist_row_spec states (hist n) n row /\
    pdist_init None wstride true junk single0 = Ok r0 /\
    pdist_simulation n_dim states hist n r0 = Ok r /\ rc_file r = Some [row].
Proof.
  intros Hne Hs Hp Hn.
  destruct (pdist_rows n_dim states hist) as (rows & Hrows); auto.
  destruct (rec_simulation_once rows wstride junk single0 n) as (r0 & r & E0 & E1 & Hf); auto.
  exists r0, r, (rows n). split; [apply Hrows|]. split; [assumption|]. split; [|assumption].
  rewrite (pdist_simulation_eq n_dim states hist rows) by (intros; apply Hrows). assumption.
Qed.

Lemma pdist_simulation_good n_dim states hist wstride junk single0 s W n :
  (forall k, (0 < length (hist k))%nat) ->
  Forall (fun st => length st = n_dim) states ->
  (forall k, Forall (fun w => length (p_pos w) = n_dim) (hist k)) ->
  (0 < s)%Z -> positive_option wstride -> W = option_or wstride (100 * s) ->
  (W mod s = 0)%Z -> (forall m, length (junk m) = m) -> (0 <= n)%Z ->
  (n mod W = 0 \/ s <= n mod W)%Z ->
  exists r0 r rows,
    (forall k, pdist_row_spec states (hist k) k (rows k)) /\
    pdist_init (Some s) wstride true junk single0 = Ok r0 /\
    pdist_simulation n_dim states hist n r0 = Ok r /\
    rc_file r = Some (map rows (times 0 n s)).
Proof.
  intros Hne Hs Hp Hs0 Pw EW HWs Hj Hn Hm.
  destruct (pdist_simulation_file n_dim states hist (Some s) wstride junk single0 s W n)
    as (r0 & r & rows & H1 & H2 & H3 & H4); auto.
  exists r0, r, rows. repeat split; auto.
  rewrite H4. replace ((n mod W =? 0)%Z || (s <=? n mod W)%Z) with true; [reflexivity|].
  destruct Hm; [|lia]. lia.
Qed.

Lemma pdist_simulation_stale n_dim states hist wstride junk single0 s W n :
  (forall k, (0 < length (hist k))%nat) ->
  Forall (fun st => length st = n_dim) states ->
  (forall k, Forall (fun w => length (p_pos w) = n_dim) (hist k)) ->
  (0 < s)%Z -> positive_option wstride -> W = option_or wstride (100 * s) ->
  (W mod s = 0)%Z -> (forall m, length (junk m) = m) -> (0 <= n)%Z ->
  (0 < n mod W < s)%Z ->
  exists r0 r rows extra,
    (forall k, pdist_row_spec states (hist k) k (rows k)) /\
    pdist_init (Some s) wstride true junk single0 = Ok r0 /\
    pdist_simulation n_dim states hist n r0 = Ok r /\
    rc_file r = Some (map rows (times 0 n s) ++ extra) /\
    Z.of_nat (length extra) = (W / s)%Z /\ (0 < W / s)%Z.
Proof.
  intros Hne Hs Hp Hs0 Pw EW HWs Hj Hn Hm.
  destruct (pdist_rows n_dim states hist) as (rows & Hrows); auto.
  destruct (rec_simulation_stale rows (Some s) wstride junk single0 s W n)
    as (r0 & r & E0 & E1 & extra & Hf & Hl); auto.
  exists r0, r, rows, extra. split; [intros k; apply Hrows|]. split; [assumption|]. split; [|tauto].
  rewrite (pdist_simulation_eq n_dim states hist rows) by (intros; apply Hrows). assumption.
Qed.
