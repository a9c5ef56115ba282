(** Runs of the recorders with moving walkers: examples of properties C01, C03 to C06 and C09 *)
From Coq Require Import Lia Lra.
From Verif Require Import PyBase Model_xr Model_valid Model_dyn Model_traj Model_hist Model_histaction Model_rec Model_fes Model_deltaf Model_pdist
  Spec_times Spec_traj Spec_trajrun Spec_box Spec_hist Spec_histact Spec_fes Spec_pdist
  Proof_base Proof_hist Proof_histact Proof_histprops Proof_trajrun Proof_fes Proof_pdist.
Open Scope R_scope.
Ltac Zify.zify_post_hook ::= idtac.

(** the first walker is at k at step k, the second one rests *)
Definition climbing (k : Z) : list particle := [mkP [IZR k] [1] 1 0 [0] 0; mkP [5] [0] 1 0 [0] 0].

Lemma climbing_files : exists t,
  traj_simulation (1/2) climbing (fun k => if (k =? 5)%Z then 2%nat else 0%nat) 11
    (traj_init 2 (Some 3%Z) true true (Some 4%Z) [0; 0; 0; 0] [[]; []; []; []] [[]; []; []; []]) = Ok t /\
  tr_files t = Some [[[3 * (1/2); 3; 1]; [6 * (1/2); 6; 1]; [9 * (1/2); 9; 1]]; [[3 * (1/2); 5; 0]; [6 * (1/2); 5; 0]; [9 * (1/2); 5; 0]]].
Proof.
  destruct (traj_simulation_files (1/2) climbing (fun k => if (k =? 5)%Z then 2%nat else 0%nat) 11 2 (Some 3%Z) true (Some 4%Z)
    [0; 0; 0; 0] [[]; []; []; []] [[]; []; []; []]) as (t & E & F); try lia; try reflexivity; try (intros z [= <-]; lia).
  exists t. split; [exact E|]. rewrite F. reflexivity.
Qed.

(** C04: the states are [2, 4] and [5, inf) *)
Definition climbing_states : list (list (xreal * xreal)) := [[(Fin 2, Fin 4)]; [(Fin 5, PInf)]].
Definition climbing_counts (k : Z) : list Z := [if (2 <=? k)%Z && (k <=? 4)%Z then 1 else 0; if (5 <=? k)%Z then 2 else 1]%Z.
Lemma one_dim lo hi x : in_state [(lo, hi)] [x] <-> at_least lo x /\ at_most hi x.
Proof.
  split.
  - intros [_ H]. exact (H 0%nat ltac:(cbn; lia)).
  - intros H. split; [reflexivity|]. intros [|d] Hd; [exact H|cbn in Hd; lia].
Qed.
Lemma counts_bool {A B} (P : A -> Prop) (g : B -> A) (f : B -> bool) l : (forall x, In x l -> (f x = true <-> P (g x))) -> counts P (map g l) (length (filter f l)).
Proof.
  induction l as [|x l IH]; intros H; cbn; [constructor|]. pose proof (H x (or_introl eq_refl)) as Hx.
  destruct (f x); [apply counts_yes; [now apply Hx|]|apply counts_no; [intros Q; apply Hx in Q; discriminate|]]; apply IH; intros y Hy; apply H; now right.
Qed.
Lemma climbing_row k row : pdist_row_spec climbing_states (climbing k) k row -> row = k :: climbing_counts k.
Proof.
  intros (cs & -> & F). inversion F as [|? a ? cs1 C1 F1]; subst. inversion F1 as [|? b ? cs2 C2 F2]; subst. inversion F2; subst. cbn [map climbing_counts].
  assert (forall st (f : Z -> bool) c, (forall x, f x = true <-> in_state st [IZR x]) -> counts (fun w => in_state st (p_pos w)) (climbing k) c ->
    c = length (filter f [k; 5]%Z)) as D.
  { intros st f c Hf C. apply (counts_fun _ _ _ _ C). 
    change (climbing k) with (map (fun z => mkP [IZR z] [if Z.eqb z 5 then 0 else 1] 1 0 [0] 0) [k; 5]%Z) || idtac.
    pose proof (counts_bool (fun p => in_state st p) (fun z => [IZR z]) f [k; 5]%Z (fun x _ => Hf x)) as Q. unfold climbing. cbn [map] in Q.
    revert Q. generalize (length (filter f [k; 5]%Z)). intros m Q.
    inversion Q as [|? ? ? Q1 Q2|? ? ? Q1 Q2]; subst; inversion Q2 as [|? ? ? Q3 Q4|? ? ? Q3 Q4]; subst; inversion Q4; subst;
      repeat ((apply counts_yes; [assumption|]) || (apply counts_no; [assumption|])); constructor. }
  rewrite (D _ (fun x => (2 <=? x) && (x <=? 4))%Z a) with (2 := C1), (D _ (fun x => 5 <=? x)%Z b) with (2 := C2).
  - cbn [filter]. unfold climbing_counts. destruct ((2 <=? k) && (k <=? 4))%Z eqn:E1, (5 <=? k)%Z eqn:E2; reflexivity.
  - intros x. rewrite one_dim. cbn. rewrite Z.leb_le. split; [intros H; split; [apply IZR_le in H; lra|exact I]|intros [H _]; apply le_IZR; lra].
  - intros x. rewrite one_dim. cbn. rewrite Bool.andb_true_iff, !Z.leb_le. split; intros [H1 H2].
    + apply IZR_le in H1. apply IZR_le in H2. lra.
    + split; apply le_IZR; lra.
Qed.
Lemma rows_eq {A} (l : list Z) (f g : Z -> A) : (forall k, f k = g k) -> map f l = map g l.
Proof. intros H. apply map_ext. exact H. Qed.
(** stride 2, write stride 4: fine after 7 steps, doubled rows after 9 *)
Lemma climbing_distribution : exists r0 r r',
  pdist_init (Some 2%Z) (Some 4%Z) true (fun m => repeat [7%Z] m) [] = Ok r0 /\
  pdist_simulation 1 climbing_states climbing 7 r0 = Ok r /\ rc_file r = Some [[2; 1; 1]; [4; 1; 1]; [6; 0; 2]]%Z /\
  pdist_simulation 1 climbing_states climbing 9 r0 = Ok r' /\
  rc_file r' = Some [[2; 1; 1]; [4; 1; 1]; [6; 0; 2]; [8; 0; 2]; [6; 0; 2]; [8; 0; 2]]%Z.
Proof.
  assert (forall k, Forall (fun w => length (p_pos w) = 1%nat) (climbing k)) as Hd by (intros; repeat constructor).
  assert (Forall (fun st => length st = 1%nat) climbing_states) as Hs by repeat constructor.
  destruct (pdist_simulation_file 1 climbing_states climbing (Some 2%Z) (Some 4%Z) (fun m => repeat [7%Z] m) [] 2 4 7) as (r0 & r & rows & R & E0 & E & F);
    try assumption; try reflexivity; try lia; try (intros; cbn; lia); try (intros z [= <-]; lia); [intros; apply repeat_length|].
  destruct (pdist_simulation_file 1 climbing_states climbing (Some 2%Z) (Some 4%Z) (fun m => repeat [7%Z] m) [] 2 4 9) as (r0' & r' & rows' & R' & E0' & E' & F');
    try assumption; try reflexivity; try lia; try (intros; cbn; lia); try (intros z [= <-]; lia); [intros; apply repeat_length|].
  rewrite E0 in E0'. injection E0' as <-. exists r0, r, r'. split; [assumption|]. split; [assumption|].
  split; [rewrite F|split; [assumption|rewrite F']]; cbn [Z.modulo Z.div_eucl Z.pos_div_eucl].
  - change (Some (map rows (times 0 7 2)) = Some [[2; 1; 1]; [4; 1; 1]; [6; 0; 2]]%Z). rewrite (rows_eq _ _ _ (fun k => climbing_row k _ (R k))). reflexivity.
  - change (Some (map rows' (times 0 8 2) ++ map rows' (times 4 8 2)) = Some [[2; 1; 1]; [4; 1; 1]; [6; 0; 2]; [8; 0; 2]; [6; 0; 2]; [8; 0; 2]]%Z).
    rewrite !(rows_eq _ _ _ (fun k => climbing_row k _ (R' k))). reflexivity.
Qed.

(** C03: at step k the histogram has k + 1 counts in the first bin and one in the second one; the states are the two bins *)
Definition growing_fes (k : Z) : list xreal := match calculate_fes [Z.to_nat k + 1; 1]%nat 1 true (fun _ => NaN) with Ok f => f | Err _ => [] end.
Lemma growing_line dt k row : delta_f_line growing_fes 1 dt [[true; false]; [false; true]] k row ->
  row = [Fin (IZR k * dt); Fin (- (1) * ln (INR 1 / INR (Z.to_nat k + 1)))].
Proof.
  intros (d & E & ->). destruct (calculate_fes_spec [Z.to_nat k + 1; 1]%nat 1 (fun _ => NaN) ltac:(discriminate) ltac:(lra)) as (fes & _ & EF & _).
  unfold growing_fes in E. rewrite EF in E. rewrite (delta_f_value [Z.to_nat k + 1; 1]%nat 1 (fun _ => NaN) fes [[true; false]; [false; true]]) in E;
    [|discriminate|lra|repeat constructor|assumption].
  injection E as <-. f_equal. cbn [map count_in]. unfold free_energy_difference. rewrite !Nat.add_0_r, Nat.add_comm. reflexivity.
Qed.
Definition growing_row (dt : R) (k : Z) : list xreal := [Fin (IZR k * dt); Fin (- (1) * ln (INR 1 / INR (Z.to_nat k + 1)))].
Lemma growing_length k : length (growing_fes k) = 2%nat.
Proof.
  unfold growing_fes. destruct (calculate_fes_spec [Z.to_nat k + 1; 1]%nat 1 (fun _ => NaN) ltac:(discriminate) ltac:(lra)) as (fes & _ & EF & L & _).
  rewrite EF. exact L.
Qed.
(** stride 2, write stride 4: fine after 7 steps, uninitialised memory after 1, doubled rows after 5 *)
Lemma growing_files : exists r0 r r1 r5,
  delta_f_init [[2]; [2]]%nat [2]%nat (Some 2%Z) (Some 4%Z) true (fun m => repeat [NaN] m) [] = Ok r0 /\
  delta_f_simulation growing_fes 1 (1/2) [[true; false]; [false; true]] 7 r0 = Ok r /\ rc_file r = Some [growing_row (1/2) 2; growing_row (1/2) 4; growing_row (1/2) 6] /\
  delta_f_simulation growing_fes 1 (1/2) [[true; false]; [false; true]] 1 r0 = Ok r1 /\ rc_file r1 = Some [[NaN]; [NaN]] /\
  delta_f_simulation growing_fes 1 (1/2) [[true; false]; [false; true]] 5 r0 = Ok r5 /\
  rc_file r5 = Some [growing_row (1/2) 2; growing_row (1/2) 4; growing_row (1/2) 2; growing_row (1/2) 4].
Proof.
  assert (forall n, (0 <= n)%Z -> exists r0 r rows,
    (forall k, delta_f_line growing_fes 1 (1/2) [[true; false]; [false; true]] k (rows k)) /\
    delta_f_init [[2]; [2]]%nat [2]%nat (Some 2%Z) (Some 4%Z) true (fun m => repeat [NaN] m) [] = Ok r0 /\
    delta_f_simulation growing_fes 1 (1/2) [[true; false]; [false; true]] n r0 = Ok r /\
    rc_file r = Some (
      if (n mod 4 =? 0)%Z || (2 <=? n mod 4)%Z then map rows (times 0 n 2)
      else map rows (times 0 (4 * (n / 4)) 2) ++
           (if (n <? 4)%Z then repeat [NaN] (Z.to_nat (4 / 2)) else map rows (times (4 * (n / 4) - 4) (4 * (n / 4)) 2)))) as S.
  { intros n Hn. apply (delta_f_simulation_file growing_fes 1 (1/2) [[true; false]; [false; true]] 2 (Some 4%Z) (fun m => repeat [NaN] m) [] 2 4 n);
      try assumption; try reflexivity; try lia; [exact growing_length|repeat constructor|intros z [= <-]; lia|intros; apply repeat_length]. }
  destruct (S 7%Z ltac:(lia)) as (r0 & r & rows & R & E0 & E & F). destruct (S 1%Z ltac:(lia)) as (r01 & r1 & rows1 & R1 & E01 & E1 & F1).
  destruct (S 5%Z ltac:(lia)) as (r05 & r5 & rows5 & R5 & E05 & E5 & F5).
  rewrite E0 in E01, E05. injection E01 as <-. injection E05 as <-. exists r0, r, r1, r5.
  split; [assumption|]. split; [assumption|]. split; [|split; [assumption|split; [|split; [assumption|]]]].
  - rewrite F. change (Some (map rows (times 0 7 2)) = Some (map (growing_row (1/2)) [2; 4; 6]%Z)). now rewrite (rows_eq _ _ _ (fun k => growing_line (1/2) k _ (R k))).
  - rewrite F1. reflexivity.
  - rewrite F5. change (Some (map rows5 (times 0 4 2) ++ map rows5 (times 0 4 2)) = Some (map (growing_row (1/2)) [2; 4]%Z ++ map (growing_row (1/2)) [2; 4]%Z)).
    now rewrite !(rows_eq _ _ _ (fun k => growing_line (1/2) k _ (R5 k))).
Qed.

(** C05, C06, C09: one walker at k at step k, two bins from 1/2 to 21/2 and to 41/2 *)
Definition rising (k : Z) : list particle := [mkP [IZR k] [1] 1 0 [0] 0].
Lemma rising_accepted W hs : (0 < W)%Z -> (0 < hs)%Z ->
  hist_accepted rising 1 None (Some W) (repeat 0 (Z.to_nat W)) (repeat [] (Z.to_nat W)) (repeat [] (Z.to_nat W))
    [2%nat] [(1/2, 41/2)] (Some hs) false None.
Proof.
  intros HW Hs. constructor; try lia; try discriminate; try (rewrite repeat_length; lia); try (intros z [= <-]; assumption).
  - split; [reflexivity|]. repeat constructor.
  - repeat constructor. cbn; lra.
  - intros k. split; [reflexivity|]. repeat constructor.
Qed.
Lemma rising_origin : ~ in_box [(1/2, 41/2)] (repeat 0 1).
Proof. intros [_ H]. specialize (H 0%nat ltac:(cbn; lia)). cbn in H. lra. Qed.
Lemma rising_counts edges T d : bins_of [2%nat] [(1/2, 41/2)] edges -> data_holds edges (sampled rising T) d -> Forall (fun k => 1 <= k <= 20)%Z T ->
  d = [length (filter (fun k => k <=? 10)%Z T); length (filter (fun k => 11 <=? k)%Z T)].
Proof.
  intros B [L C] HT. unfold bins_of in B. cbn [combine] in B. inversion B as [|? e ? es He F']; subst. inversion F'; subst. destruct He as [He1 He2]. cbn [fst snd] in *.
  assert (nth 0 e 0 = 1/2 /\ nth 1 e 0 = 21/2 /\ nth 2 e 0 = 41/2) as (N0 & N1 & N2) by (rewrite !He2 by lia; cbn; repeat split; lra).
  assert (sampled rising T = map (fun k => [IZR k]) T) as ST by (unfold sampled; clear; induction T as [|k T IH]; [reflexivity|]; exact (f_equal (cons [IZR k]) IH)).
  rewrite ST in C. cbn [n_cells] in L. rewrite He1 in L. destruct d as [|a [|b [|c d]]]; try discriminate L.
  assert (forall i, cell_ok [e] [i] <-> (i < 2)%nat) as O.
  { intros i. split; [intros H; inversion H; subst; lia|]. intros H. constructor; [lia|constructor]. }
  assert (forall i x, in_cell [e] [i] [x] <-> in_bin e i x) as IC.
  { intros i x. split; [intros H; now inversion H|]. intros H. constructor; [assumption|constructor]. }
  rewrite Forall_forall in HT. f_equal; [|f_equal].
  - pose proof (C [0%nat] (proj2 (O 0%nat) ltac:(lia))) as C0. unfold cell_pos in C0. cbn [row_major nth Nat.mul Nat.add] in C0.
    apply (counts_fun _ _ _ _ C0), counts_bool. intros k Hk. rewrite IC. unfold in_bin. rewrite N0, N1, He1, Z.leb_le. specialize (HT k Hk). split.
    + intros H. split; [lia|]. destruct HT as [H1 _]. apply IZR_le in H1. apply IZR_le in H. split; [lra|left; lra].
    + intros (_ & _ & [H|[H _]]); [|lia]. apply Z.lt_succ_r, lt_IZR. cbn. lra.
  - pose proof (C [1%nat] (proj2 (O 1%nat) ltac:(lia))) as C1. unfold cell_pos in C1. cbn [row_major nth Nat.mul Nat.add] in C1.
    apply (counts_fun _ _ _ _ C1), counts_bool. intros k Hk. rewrite IC. unfold in_bin. rewrite N1, N2, He1, Z.leb_le. specialize (HT k Hk). split.
    + intros H. split; [lia|]. destruct HT as [_ H1]. apply IZR_le in H1. apply IZR_le in H. split; [lra|left; lra].
    + intros (_ & H & _). apply Z.lt_pred_le, lt_IZR. cbn. lra.
Qed.
Lemma times_within n s lo : (0 <= lo)%Z -> (n <= 20)%Z -> Forall (fun k => 1 <= k <= 20)%Z (times lo n s).
Proof.
  intros H0 H. apply Forall_forall. intros k Hk. unfold times in Hk. apply filter_In in Hk as [Hk _]. apply in_zrange in Hk. lia.
Qed.
(** during the run: update every 6 steps, stride 3; the steps 3, 6, 9 and 12, 15, 18 *)
Lemma rising_during : exists st0 t ha,
  hist_start false 1 None false (Some 6%Z) (repeat 0 6) (repeat [] 6) (repeat [] 6) [2%nat] [(1/2, 41/2)] (Some 3%Z) None false None = Ok st0 /\
  hist_loop 1 rising 20 st0 = Ok (t, ha) /\ h_data (ha_hist ha) = [3; 3]%nat.
Proof.
  destruct (hist_during_good 1 rising false 1 None false (Some 6%Z) (repeat 0 6) (repeat [] 6) (repeat [] 6) [2%nat] [(1/2, 41/2)] (Some 3%Z) None false None
    (rising_accepted 6 3 ltac:(lia) ltac:(lia)) 20 ltac:(lia)) as (st0 & t & ha & E0 & E & B & D); [now right|reflexivity|exact rising_origin|].
  exists st0, t, ha. split; [exact E0|]. split; [exact E|]. apply (rising_counts _ _ _ B D). apply times_within; vm_compute; discriminate.
Qed.
(** at the end: also step 20 with stride 2 *)
Lemma rising_after : exists st0 t ha,
  hist_start false 1 None false (Some 6%Z) (repeat 0 6) (repeat [] 6) (repeat [] 6) [2%nat] [(1/2, 41/2)] (Some 2%Z) None false None = Ok st0 /\
  hist_simulation 1 rising 20 st0 = Ok (t, ha) /\ h_data (ha_hist ha) = [5; 5]%nat.
Proof.
  destruct (hist_after_good 1 rising false 1 None false (Some 6%Z) (repeat 0 6) (repeat [] 6) (repeat [] 6) [2%nat] [(1/2, 41/2)] (Some 2%Z) None false None
    (rising_accepted 6 2 ltac:(lia) ltac:(lia)) 20 ltac:(lia)) as (st0 & t & ha & E0 & E & B & D); [reflexivity|discriminate|now left|reflexivity|exact rising_origin|].
  exists st0, t, ha. split; [exact E0|]. split; [exact E|]. apply (rising_counts _ _ _ B D). apply times_within; vm_compute; discriminate.
Qed.
(** resets at 3 and 12: only the steps from 13 on *)
Lemma rising_reset : exists st0 t ha,
  hist_start true 1 None false (Some 4%Z) (repeat 0 4) (repeat [] 4) (repeat [] 4) [2%nat] [(1/2, 41/2)] (Some 1%Z) (Some [3; 12]%Z) false None = Ok st0 /\
  hist_loop 1 rising 18 st0 = Ok (t, ha) /\ h_data (ha_hist ha) = [0; 4]%nat.
Proof.
  destruct (hist_reset_aligned 1 rising true 1 None false (Some 4%Z) (repeat 0 4) (repeat [] 4) (repeat [] 4) [2%nat] [(1/2, 41/2)] (Some 1%Z) (Some [3; 12]%Z) false None
    (rising_accepted 4 1 ltac:(lia) ltac:(lia)) 18 12) as (st0 & t & ha & E0 & E & B & D); [lia|cbn; auto|cbn; lia|now left|reflexivity|].
  exists st0, t, ha. split; [exact E0|]. split; [exact E|]. apply (rising_counts _ _ _ B D). apply times_within; vm_compute; discriminate.
Qed.
(** the reset at 14 keeps steps 13 and 14, which were sampled with the next update *)
Lemma rising_reset_late : exists st0 t ha,
  hist_start true 1 None false (Some 4%Z) (repeat 0 4) (repeat [] 4) (repeat [] 4) [2%nat] [(1/2, 41/2)] (Some 1%Z) (Some [3; 14]%Z) false None = Ok st0 /\
  hist_loop 1 rising 18 st0 = Ok (t, ha) /\ h_data (ha_hist ha) = [0; 4]%nat.
Proof.
  destruct (hist_reset_good 1 rising true 1 None false (Some 4%Z) (repeat 0 4) (repeat [] 4) (repeat [] 4) [2%nat] [(1/2, 41/2)] (Some 1%Z) (Some [3; 14]%Z) false None
    (rising_accepted 4 1 ltac:(lia) ltac:(lia)) 18 14) as (st0 & t & ha & E0 & E & B & D); [lia|cbn; auto|cbn; lia|now left|].
  exists st0, t, ha. split; [exact E0|]. split; [exact E|]. apply (rising_counts _ _ _ B D). apply times_within; vm_compute; discriminate.
Qed.
