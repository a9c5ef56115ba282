(** The potentials of the code meet the conditions on the force (C106) *)
From Coq Require Import Lra Lia.
From Coquelicot Require Import Coquelicot.
From Verif Require Import PyBase Model_dyn Model_pot Spec_grid Spec_pot Spec_rng Spec_ld Spec_well Spec_newton Proof_base Proof_grid Proof_grid2 Proof_pot Proof_ld Proof_well Proof_well2 Proof_newton.
Open Scope R_scope.
Ltac Zify.zify_post_hook ::= idtac.

(** ** functions built from the coordinates, sums, products and exponentials *)
Inductive elem (n : nat) : (vec -> R) -> Prop :=
| el_const c : elem n (fun _ => c)
| el_coord d : (d < n)%nat -> elem n (fun x => nth d x 0)
| el_plus f g : elem n f -> elem n g -> elem n (fun x => f x + g x)
| el_mult f g : elem n f -> elem n g -> elem n (fun x => f x * g x)
| el_exp f : elem n f -> elem n (fun x => exp (f x))
| el_ext f g : (forall x, length x = n -> f x = g x) -> elem n f -> elem n g.

Definition boxed (n : nat) (M : R) (x : vec) : Prop := length x = n /\ forall d, (d < n)%nat -> Rabs (nth d x 0) <= M.
Definition lip (n : nat) (f : vec -> R) : Prop := forall M, exists B L, 0 <= B /\ 0 <= L /\ (forall x, boxed n M x -> Rabs (f x) <= B) /\
  forall x y r, boxed n M x -> boxed n M y -> 0 <= r -> (forall d, (d < n)%nat -> Rabs (nth d x 0 - nth d y 0) <= r) -> Rabs (f x - f y) <= L * r.
Lemma exp_le a b : a <= b -> exp a <= exp b.
Proof. intros [H| ->]; [left; now apply exp_increasing|lra]. Qed.
Lemma exp_diff a b B : Rabs a <= B -> Rabs b <= B -> Rabs (exp a - exp b) <= exp B * Rabs (a - b).
Proof.
  assert (S1 : forall a b, Rabs a <= B -> b <= a -> Rabs (exp a - exp b) <= exp B * Rabs (a - b)).
  { clear. intros a b Ha Hab. pose proof (exp_le b a Hab). rewrite !Rabs_right by lra.
    assert (E : exp b = exp a * exp (b - a)) by (rewrite <- exp_plus; f_equal; ring).
    pose proof (exp_ineq1_le (b - a)) as I. pose proof (exp_pos a) as P.
    assert (I1 : exp a * (1 + (b - a)) <= exp b) by (rewrite E; apply Rmult_le_compat_l; lra).
    assert (I2 : exp a * (a - b) <= exp B * (a - b)) by (apply Rmult_le_compat_r; [lra|]; apply exp_le; pose proof (Rle_abs a); lra). lra. }
  intros Ha Hb. destruct (Rle_lt_dec b a) as [L|L]; [apply S1; assumption|]. rewrite (Rabs_minus_sym (exp a)), (Rabs_minus_sym a). apply S1; [exact Hb|lra].
Qed.
Lemma elem_lip n f : elem n f -> lip n f.
Proof.
  induction 1 as [c|d Hd|f g _ IF _ IG|f g _ IF _ IG|f _ IF|f g E _ IF]; intros M.
  - exists (Rabs c), 0. split; [apply Rabs_pos|]. split; [lra|]. split; [intros; lra|]. intros. rewrite Rminus_diag_eq, Rabs_R0 by reflexivity. lra.
  - exists (Rabs M), 1. split; [apply Rabs_pos|]. split; [lra|]. split.
    + intros x (_ & B). eapply Rle_trans; [apply B; exact Hd|apply Rle_abs].
    + intros x y r _ _ _ H. rewrite Rmult_1_l. apply H. exact Hd.
  - destruct (IF M) as (B & L & PB & PL & HB & HL). destruct (IG M) as (B' & L' & PB' & PL' & HB' & HL').
    exists (B + B'), (L + L'). split; [lra|]. split; [lra|]. split.
    + intros x Hx. eapply Rle_trans; [apply Rabs_triang|]. apply Rplus_le_compat; auto.
    + intros x y r Hx Hy Hr H. replace (f x + g x - (f y + g y)) with ((f x - f y) + (g x - g y)) by ring. rewrite Rmult_plus_distr_r.
      eapply Rle_trans; [apply Rabs_triang|]. apply Rplus_le_compat; auto.
  - destruct (IF M) as (B & L & PB & PL & HB & HL). destruct (IG M) as (B' & L' & PB' & PL' & HB' & HL').
    exists (B * B'), (L * B' + B * L'). split; [apply Rmult_le_pos; assumption|]. split; [apply Rplus_le_le_0_compat; apply Rmult_le_pos; assumption|]. split.
    + intros x Hx. rewrite Rabs_mult. apply Rmult_le_compat; auto using Rabs_pos.
    + intros x y r Hx Hy Hr H. replace (f x * g x - f y * g y) with ((f x - f y) * g x + f y * (g x - g y)) by ring.
      replace ((L * B' + B * L') * r) with (L * r * B' + B * (L' * r)) by ring.
      eapply Rle_trans; [apply Rabs_triang|]. rewrite !Rabs_mult. apply Rplus_le_compat; apply Rmult_le_compat; auto using Rabs_pos.
  - destruct (IF M) as (B & L & PB & PL & HB & HL). pose proof (exp_pos B). exists (exp B), (exp B * L). split; [lra|]. split; [apply Rmult_le_pos; lra|]. split.
    + intros x Hx. rewrite Rabs_right by (left; apply exp_pos). apply exp_le. eapply Rle_trans; [apply Rle_abs|]. auto.
    + intros x y r Hx Hy Hr Hd. eapply Rle_trans; [apply (exp_diff _ _ B); auto|]. rewrite Rmult_assoc. apply Rmult_le_compat_l; [lra|]. auto.
  - destruct (IF M) as (B & L & PB & PL & HB & HL). exists B, L. split; [exact PB|]. split; [exact PL|]. split.
    + intros x Hx. rewrite <- E by apply Hx. auto.
    + intros x y r Hx Hy Hr H. rewrite <- !E by (apply Hx || apply Hy). auto.
Qed.

(** ** twice differentiable with bounded derivatives on [0, T] *)
Definition tw (T : R) (u : R -> R) : Prop := exists (u1 u2 : R -> R) M, 0 <= M /\ forall t, 0 <= t <= T ->
  derivable_pt_lim u t (u1 t) /\ derivable_pt_lim u1 t (u2 t) /\ Rabs (u t) <= M /\ Rabs (u1 t) <= M /\ Rabs (u2 t) <= M.
Lemma dl_plus (f g : R -> R) t a b : derivable_pt_lim f t a -> derivable_pt_lim g t b -> derivable_pt_lim (fun t => f t + g t) t (a + b).
Proof. apply (derivable_pt_lim_plus f g). Qed.
Lemma dl_mult (f g : R -> R) t a b : derivable_pt_lim f t a -> derivable_pt_lim g t b -> derivable_pt_lim (fun t => f t * g t) t (a * g t + f t * b).
Proof. apply (derivable_pt_lim_mult f g). Qed.
Lemma dl_exp (f : R -> R) t a : derivable_pt_lim f t a -> derivable_pt_lim (fun t => exp (f t)) t (exp (f t) * a).
Proof. intros H. apply (derivable_pt_lim_comp f exp); [exact H|apply derivable_pt_lim_exp]. Qed.
Lemma ab_mult a b A B : Rabs a <= A -> Rabs b <= B -> Rabs (a * b) <= A * B.
Proof. intros. rewrite Rabs_mult. apply Rmult_le_compat; auto using Rabs_pos. Qed.
Lemma ab_plus a b A B : Rabs a <= A -> Rabs b <= B -> Rabs (a + b) <= A + B.
Proof. intros. eapply Rle_trans; [apply Rabs_triang|lra]. Qed.
Lemma place_length n q t : length (place n q t) = n.
Proof. unfold place. rewrite map_length. apply seq_length. Qed.
Lemma place_nth n q t d : (d < n)%nat -> nth d (place n q t) 0 = q d t.
Proof. intros H. unfold place. rewrite (nth_map_in _ _ _ _ 0%nat) by (rewrite seq_length; exact H). rewrite seq_nth by exact H. reflexivity. Qed.
Lemma elem_tw n f T q : elem n f -> (forall d, (d < n)%nat -> tw T (q d)) -> tw T (fun t => f (place n q t)).
Proof.
  intros HE HQ. induction HE as [c|d Hd|f g _ IF _ IG|f g _ IF _ IG|f _ IF|f g E _ IF].
  - exists (fun _ => 0), (fun _ => 0), (Rabs c). split; [apply Rabs_pos|]. intros t _. rewrite Rabs_R0. pose proof (Rabs_pos c).
    split; [apply derivable_pt_lim_const|]. split; [apply derivable_pt_lim_const|]. lra.
  - destruct (HQ d Hd) as (u1 & u2 & M & PM & H). exists u1, u2, M. split; [exact PM|]. intros t Ht. destruct (H t Ht) as (A & B & C & D). rewrite place_nth by exact Hd.
    split; [|split; [exact B|split; [exact C|exact D]]]. apply (derivable_pt_lim_ext (q d)); [intros z; symmetry; apply place_nth; exact Hd|exact A].
  - destruct IF as (u1 & u2 & M & PM & H). destruct IG as (w1 & w2 & N & PN & K). exists (fun t => u1 t + w1 t), (fun t => u2 t + w2 t), (M + N).
    split; [lra|]. intros t Ht. destruct (H t Ht) as (A & B & C & D & E). destruct (K t Ht) as (A' & B' & C' & D' & E').
    split; [apply (dl_plus (fun t => f (place n q t)) (fun t => g (place n q t))); assumption|]. split; [apply dl_plus; assumption|].
    split; [|split]; apply ab_plus; assumption.
  - destruct IF as (u1 & u2 & M & PM & H). destruct IG as (w1 & w2 & N & PN & K).
    set (u := fun t => f (place n q t)) in *. set (w := fun t => g (place n q t)) in *.
    exists (fun t => u1 t * w t + u t * w1 t), (fun t => (u2 t * w t + u1 t * w1 t) + (u1 t * w1 t + u t * w2 t)), (M * N + M * N + (M * N + M * N)).
    assert (P : 0 <= M * N) by (apply Rmult_le_pos; assumption).
    split; [lra|]. intros t Ht. destruct (H t Ht) as (A & B & C & D & E). destruct (K t Ht) as (A' & B' & C' & D' & E').
    change (Rabs (u t) <= M) in C. change (Rabs (w t) <= N) in C'.
    split; [apply (dl_mult u w); assumption|]. split; [apply (dl_plus (fun t => u1 t * w t) (fun t => u t * w1 t)); apply dl_mult; assumption|].
    split; [change (f (place n q t) * g (place n q t)) with (u t * w t); pose proof (ab_mult _ _ _ _ C C'); lra|].
    split; [pose proof (ab_plus _ _ _ _ (ab_mult _ _ _ _ D C') (ab_mult _ _ _ _ C D')); lra|].
    repeat apply ab_plus; apply ab_mult; assumption.
  - destruct IF as (u1 & u2 & M & PM & H). set (u := fun t => f (place n q t)) in *.
    exists (fun t => exp (u t) * u1 t), (fun t => exp (u t) * u1 t * u1 t + exp (u t) * u2 t), (exp M * (1 + M + M * M)).
    pose proof (exp_pos M) as P. assert (PMM : 0 <= M * M) by (apply Rmult_le_pos; lra).
    split; [apply Rmult_le_pos; lra|]. intros t Ht. destruct (H t Ht) as (A & B & C & D & E).
    change (Rabs (u t) <= M) in C.
    assert (X : Rabs (exp (u t)) <= exp M) by (rewrite Rabs_right by (left; apply exp_pos); apply exp_le; eapply Rle_trans; [apply Rle_abs|exact C]).
    assert (Z1 : 0 <= exp M * M) by (apply Rmult_le_pos; lra). assert (Z2 : 0 <= exp M * (M * M)) by (apply Rmult_le_pos; lra).
    split; [apply (dl_exp u); exact A|]. split; [apply (dl_mult (fun t => exp (u t)) u1); [apply dl_exp; exact A|exact B]|].
    replace (exp M * (1 + M + M * M)) with (exp M + exp M * M + exp M * (M * M)) by ring.
    split; [change (f (place n q t)) with (u t); lra|]. split; [pose proof (ab_mult _ _ _ _ X D); lra|].
    pose proof (ab_plus _ _ _ _ (ab_mult _ _ _ _ (ab_mult _ _ _ _ X D) D) (ab_mult _ _ _ _ X E)). lra.
  - destruct IF as (u1 & u2 & M & PM & H). exists u1, u2, M. split; [exact PM|]. intros t Ht. destruct (H t Ht) as (A & B & C & D).
    split; [apply (derivable_pt_lim_ext (fun t => f (place n q t))); [intros z; apply E, place_length|exact A]|]. rewrite <- E by apply place_length. auto.
Qed.
Lemma bounded_cont T (u u1 : R -> R) : 0 <= T -> (forall t, 0 <= t <= T -> derivable_pt_lim u t (u1 t)) -> exists M, 0 <= M /\ forall t, 0 <= t <= T -> Rabs (u t) <= M.
Proof.
  intros HT H. assert (C : forall c, 0 <= c <= T -> continuity_pt u c) by (intros c Hc; apply derivable_continuous_pt; exists (u1 c); apply H; exact Hc).
  destruct (continuity_ab_maj u 0 T HT C) as (a & Ha & _). destruct (continuity_ab_min u 0 T HT C) as (b & Hb & _).
  exists (Rabs (u a) + Rabs (u b)). pose proof (Rabs_pos (u a)). pose proof (Rabs_pos (u b)). split; [lra|]. intros t Ht. specialize (Ha t Ht). specialize (Hb t Ht).
  pose proof (Rle_abs (u a)). pose proof (Rle_abs (- u b)) as Z. rewrite Rabs_Ropp in Z. apply Rabs_le. lra.
Qed.
Lemma common n (P : nat -> R -> Prop) : (forall d a b, P d a -> a <= b -> P d b) -> (forall d, (d < n)%nat -> exists M, 0 <= M /\ P d M) -> exists M, 0 <= M /\ forall d, (d < n)%nat -> P d M.
Proof.
  intros Mono. induction n as [|n IH]; intros H; [exists 0; split; [lra|intros; lia]|].
  destruct IH as (M & PM & HM); [intros d Hd; apply H; lia|]. destruct (H n) as (N & PN & HN); [lia|].
  exists (M + N). split; [lra|]. intros d Hd. destruct (Nat.eq_dec d n) as [->|Q]; [apply (Mono n N); [exact HN|lra]|]. apply (Mono d M); [apply HM; lia|lra].
Qed.

Section Elem.
Context (pot : potential) (mass T : R) (q v : nat -> R -> R) (HB : pot_bc pot = None) (HF : force_size pot) (Hm : 0 < mass) (PT : 0 <= T)
  (HE : forall d, (d < pot_ndim pot)%nat -> elem (pot_ndim pot) (fun x => nth d (pot_force pot x) 0)) (HN : newton pot mass T q v).
Let nd := pot_ndim pot.
Lemma q_bound : exists M, 0 <= M /\ forall d, (d < nd)%nat -> forall t, 0 <= t <= T -> Rabs (q d t) <= M.
Proof using All.
  apply (common nd (fun d M => forall t, 0 <= t <= T -> Rabs (q d t) <= M)); [intros d a b H L t Ht; specialize (H t Ht); lra|].
  intros d Hd. apply (bounded_cont T (q d) (v d) PT). intros t Ht. apply (HN d t Hd Ht).
Qed.
Lemma acc_elem d : (d < nd)%nat -> elem nd (fun x => nth d (pot_force pot x) 0 / mass).
Proof using All. intros Hd. apply el_mult; [apply HE; exact Hd|apply el_const]. Qed.
Lemma q_tw d : (d < nd)%nat -> tw T (q d).
Proof using All.
  intros Hd. destruct q_bound as (M & PM & HM). destruct (bounded_cont T (v d) (acceleration pot mass q d) PT) as (N & PN & HV); [intros t Ht; apply (HN d t Hd Ht)|].
  destruct (elem_lip nd _ (acc_elem d Hd) M) as (B & L & B0 & _ & BB & _).
  exists (v d), (acceleration pot mass q d), (M + N + B). split; [lra|]. intros t Ht. destruct (HN d t Hd Ht) as (A1 & A2). split; [exact A1|]. split; [exact A2|].
  specialize (HM d Hd t Ht) as X1. specialize (HV t Ht).
  assert (X2 : Rabs (acceleration pot mass q d t) <= B).
  { apply BB. split; [apply place_length|]. intros e He. rewrite place_nth by exact He. apply HM; assumption. }
  lra.
Qed.
Lemma elem_smooth : exists J K, smooth pot mass T q J K.
Proof using All.
  assert (A : forall n, (n <= nd)%nat -> exists (j k : nat -> R -> R) M, 0 <= M /\ forall d t, (d < n)%nat -> 0 <= t <= T ->
    derivable_pt_lim (acceleration pot mass q d) t (j d t) /\ Rabs (j d t) <= M /\ derivable_pt_lim (j d) t (k d t) /\ Rabs (k d t) <= M).
  { induction n as [|n IH]; intros Hn; [exists q, q, 0; split; [lra|intros; lia]|].
    destruct IH as (j & k & M & PM & H); [lia|]. destruct (elem_tw nd _ T q (acc_elem n Hn) q_tw) as (u1 & u2 & N & PN & U).
    exists (fun d => if Nat.eqb d n then u1 else j d), (fun d => if Nat.eqb d n then u2 else k d), (M + N). split; [lra|].
    intros d t Hd Ht. destruct (Nat.eqb_spec d n) as [->|Q].
    - destruct (U t Ht) as (U1 & U2 & _ & U4 & U5). split; [exact U1|]. split; [lra|]. split; [exact U2|lra].
    - destruct (H d t) as (H1 & H2 & H3 & H4); [lia|exact Ht|]. split; [exact H1|]. split; [lra|]. split; [exact H3|lra]. }
  destruct (A nd (Nat.le_refl _)) as (j & k & M & _ & H). exists M, M, j, k. exact H.
Qed.
Lemma elem_tame : exists L, 0 <= L /\ tame pot T q 1 L.
Proof using All.
  destruct q_bound as (M & PM & HM).
  destruct (common nd (fun d L => forall x y r, boxed nd (M + 1) x -> boxed nd (M + 1) y -> 0 <= r -> (forall d, (d < nd)%nat -> Rabs (nth d x 0 - nth d y 0) <= r) ->
    Rabs (nth d (pot_force pot x) 0 - nth d (pot_force pot y) 0) <= L * r)) as (L & PL & HL).
  - intros d a b H Hab x y r Hx Hy Hr H'. eapply Rle_trans; [apply H; eassumption|]. apply Rmult_le_compat_r; assumption.
  - intros d Hd. destruct (elem_lip nd _ (HE d Hd) (M + 1)) as (_ & L & _ & PL & _ & H). exists L. split; [exact PL|exact H].
  - exists L. split; [exact PL|]. intros t y r Ht Hy Hr H d Hd.
    assert (Pr : 0 <= r) by (eapply Rle_trans; [apply Rabs_pos|apply (H d Hd)]).
    apply (HL d Hd); [| |exact Pr|].
    + split; [exact Hy|]. intros e He. replace (nth e y 0) with (q e t + (nth e y 0 - q e t)) by ring. apply ab_plus; [apply HM; assumption|]. eapply Rle_trans; [apply H; exact He|exact Hr].
    + split; [apply place_length|]. intros e He. rewrite place_nth by exact He. pose proof (HM e He t Ht). lra.
    + intros e He. rewrite place_nth by exact He. apply H. exact He.
Qed.
End Elem.

Lemma elem_limit pot mass T q v eps : pot_bc pot = None -> force_size pot -> 0 < mass ->
  (forall d, (d < pot_ndim pot)%nat -> elem (pot_ndim pot) (fun x => nth d (pot_force pot x) 0)) -> newton pot mass T q v -> 0 < eps -> close_runs pot mass T eps q v.
Proof.
  intros HB HF Hm HE HN He. destruct (Rle_lt_dec 0 T) as [PT|NT].
  - destruct (elem_smooth pot mass T q v HB HF Hm PT HE HN) as (J & K & HJK). destruct (elem_tame pot mass T q v HB HF Hm PT HE HN) as (L & PL & HL).
    apply (newton_limit pot mass T 1 L J K); try assumption. lra.
  - exists 1. split; [lra|]. intros rng ld p g walker n _ _ _ D _ _ _ Q. pose proof (pos_INR n). assert (0 <= INR n * ld_dt ld) by (apply Rmult_le_pos; lra). lra.
Qed.

(** ** polynomials *)
Lemma elem_pow n f k : elem n f -> elem n (fun x => f x ^ k).
Proof. intros H. induction k as [|k IH]; cbn [pow]; [apply el_const|apply el_mult; assumption]. Qed.
Lemma elem_total {A} n (f : vec -> A -> R) l : (forall a, In a l -> elem n (fun x => f x a)) -> elem n (fun x => total (map (f x) l)).
Proof.
  induction l as [|a l IH]; intros H; [apply (el_const n 0)|].
  apply (el_plus n (fun x => f x a) (fun x => total (map (f x) l))); [apply H; now left|apply IH; intros; apply H; now right].
Qed.
Lemma skipn_at k (x : vec) : (k < length x)%nat -> skipn k x = nth k x 0 :: skipn (S k) x.
Proof. revert x. induction k as [|k IH]; intros [|a x] H; cbn in H |- *; try lia; [reflexivity|]. apply IH. lia. Qed.
Lemma elem_monomial n idx : forall k, elem n (fun x => monomial (skipn k x) idx).
Proof.
  induction idx as [|i idx IH]; intros k.
  - apply (el_ext n (fun _ => 1)); [|apply el_const]. intros x _. destruct (skipn k x); reflexivity.
  - destruct (Nat.lt_ge_cases k n) as [L|L].
    + apply (el_ext n (fun x => nth k x 0 ^ i * monomial (skipn (S k) x) idx)).
      * intros x Hx. rewrite (skipn_at k) by lia. reflexivity.
      * apply el_mult; [apply elem_pow, el_coord; exact L|apply IH].
    + apply (el_ext n (fun _ => 1)); [|apply el_const]. intros x Hx. rewrite skipn_all2 by lia. reflexivity.
Qed.
Lemma elem_dmono n idx : forall k d, elem n (fun x => dmono (skipn k x) d idx).
Proof.
  induction idx as [|i idx IH]; intros k d.
  - apply (el_ext n (fun _ => 0)); [|apply el_const]. intros x _. destruct (skipn k x); reflexivity.
  - destruct (Nat.lt_ge_cases k n) as [L|L].
    + destruct d as [|d].
      * apply (el_ext n (fun x => INR i * nth k x 0 ^ pred i * monomial (skipn (S k) x) idx)); [intros x Hx; rewrite (skipn_at k) by lia; reflexivity|].
        apply el_mult; [apply el_mult; [apply el_const|apply elem_pow, el_coord; exact L]|apply elem_monomial].
      * apply (el_ext n (fun x => nth k x 0 ^ i * dmono (skipn (S k) x) d idx)); [intros x Hx; rewrite (skipn_at k) by lia; reflexivity|].
        apply el_mult; [apply elem_pow, el_coord; exact L|apply IH].
    + apply (el_ext n (fun _ => 0)); [|apply el_const]. intros x Hx. rewrite skipn_all2 by lia. reflexivity.
Qed.
Lemma elem_poly c d : (d < length (a_shape c))%nat -> Forall (fun n => (0 < n)%nat) (a_shape c) -> elem (length (a_shape c)) (fun x => nth d (poly_force c x) 0).
Proof.
  intros Hd F. set (n := length (a_shape c)) in *.
  apply (el_ext n (fun x => -1 * total (map (fun idx => entry (a_shape c) (a_flat c) idx * dmono x d idx) (indices (a_shape c))))).
  - intros x Hx. unfold poly_force. fold n. rewrite (nth_map_in _ _ _ _ 0%nat) by (rewrite seq_length; exact Hd). rewrite seq_nth by exact Hd. cbn [Nat.add].
    rewrite polyder_value by (first [assumption|rewrite Hx; exact Hd]). rewrite nsum_total. ring.
  - apply el_mult; [apply el_const|]. apply (elem_total n (fun x idx => entry (a_shape c) (a_flat c) idx * dmono x d idx)). intros idx _.
    apply el_mult; [apply el_const|]. exact (elem_dmono n idx 0 d).
Qed.
Lemma poly_close c ranges pot mass T q v eps : poly_init c ranges None = Ok pot -> 0 < mass -> newton pot mass T q v -> 0 < eps -> close_runs pot mass T eps q v.
Proof.
  intros HI Hm HN He. unfold poly_init in HI. destruct (Nat.ltb 3 (length (a_shape c))); [discriminate HI|]. destruct (Nat.eqb (length (a_shape c)) 0); [discriminate HI|].
  destruct (existsb (Nat.eqb 0) (a_shape c)) eqn:EX; [discriminate HI|]. injection HI as <-.
  assert (F : Forall (fun n => (0 < n)%nat) (a_shape c)).
  { apply Forall_forall. intros n Hn. destruct n as [|n]; [|lia]. assert (X : existsb (Nat.eqb 0) (a_shape c) = true) by (apply existsb_exists; exists 0%nat; split; [exact Hn|reflexivity]). congruence. }
  apply elem_limit; try assumption; [reflexivity| |].
  - intros x Hx. cbn. unfold poly_force. rewrite map_length, seq_length. reflexivity.
  - intros d Hd. cbn in Hd |- *. apply elem_poly; assumption.
Qed.

(** ** Mueller-Brown *)
Ltac elem_auto := repeat first [apply el_const | apply el_coord; lia | apply el_mult | apply el_plus | apply el_exp | apply elem_pow].
Lemma elem_mb_exp i : elem 2 (fun x => mb_exp i (nth 0 x 0) (nth 1 x 0)).
Proof. unfold mb_exp, Rminus. elem_auto. Qed.
Lemma mb_close A mass T q v eps : 0 < mass -> newton (mb_potential A None) mass T q v -> 0 < eps -> close_runs (mb_potential A None) mass T eps q v.
Proof.
  intros Hm HN He. apply elem_limit; try assumption; [reflexivity| |].
  - intros x Hx. cbn in Hx. destruct x as [|a [|b [|c x]]]; try discriminate Hx. cbn [pot_force mb_potential]. rewrite mb_force_sum. reflexivity.
  - intros d Hd. cbn in Hd. cbn [pot_force pot_ndim mb_potential].
    assert (E : forall x, length x = 2%nat -> x = [nth 0 x 0; nth 1 x 0]) by (intros [|a [|b [|c x]]]; cbn; intros Hx; try discriminate Hx; reflexivity).
    destruct d as [|[|d]]; [| |lia].
    + apply (el_ext 2 (fun x => total (map (fun i => mb_fx A i (nth 0 x 0) (nth 1 x 0)) (seq 0 4)))).
      * intros x Hx. rewrite (E x Hx). rewrite mb_force_sum. reflexivity.
      * apply (elem_total 2 (fun x i => mb_fx A i (nth 0 x 0) (nth 1 x 0))). intros i _. unfold mb_fx, Rminus. apply el_mult; [|apply elem_mb_exp]. elem_auto.
    + apply (el_ext 2 (fun x => total (map (fun i => mb_fy A i (nth 0 x 0) (nth 1 x 0)) (seq 0 4)))).
      * intros x Hx. rewrite (E x Hx). rewrite mb_force_sum. reflexivity.
      * apply (elem_total 2 (fun x i => mb_fy A i (nth 0 x 0) (nth 1 x 0))). intros i _. unfold mb_fy, Rminus. apply el_mult; [|apply elem_mb_exp]. elem_auto.
Qed.

(** ** the example *)
Lemma parabola_motion T : exists pot, poly_init (mkArr [3%nat] [0; 0; 1 / 2]) None None = Ok pot /\ newton pot 1 T circle circle_v.
Proof.
  eexists. split; [reflexivity|]. intros d t Hd _. cbn in Hd. destruct d; [|lia]. split; [apply dl_circle|].
  replace (acceleration _ 1 circle 0 t) with (- circle 0 t) by (unfold acceleration, poly_force, polyvalnd; cbn; field). apply dl_circle_v.
Qed.

(** ** many walkers *)
Lemma error_bound_walkers rng ld ps g n ps' g' i p mass T delta L J K q v :
  rng_ok rng -> ld_kind ld = BussiParinello 0 -> pot_bc (ld_pot ld) = None -> force_size (ld_pot ld) -> 0 < ld_dt ld <= 1 ->
  (forall p, In p ps -> exists m, 0 < m /\ set_up ld 0 m p) -> ld_steps rng ld n ps g = Ok (ps', g') ->
  nth_error ps i = Some p -> p_mass p = mass -> 0 <= L ->
  newton (ld_pot ld) mass T q v -> smooth (ld_pot ld) mass T q J K -> tame (ld_pot ld) T q delta L -> starts (pot_ndim (ld_pot ld)) mass q v p ->
  INR n * ld_dt ld <= T -> error_factor mass T L J K * ld_dt ld ^ 2 <= delta ->
  exists p', nth_error ps' i = Some p' /\ agrees (pot_ndim (ld_pot ld)) mass (error_factor mass T L J K * ld_dt ld ^ 2) q v (INR n * ld_dt ld) p'.
Proof.
  intros HR HK HB HF Hdt HA HE Hi HM HL HN HSm HT H0 Ht Hde.
  assert (FW : forall p, In p ps -> frictionless_walker (ld_pot ld) p).
  { intros r Hr. destruct (HA r Hr) as (m & Pm & S1 & S2 & S3 & S4). split; [exact S1|]. split; [exact S2|]. split; [lra|].
    rewrite S4. unfold ld_c1, ld_c2. rewrite Rmult_0_r, Rmult_0_l, exp_0. replace ((1 - 1 * 1) * m * ld_kt ld) with 0 by ring. apply sqrt_0. }
  destruct (ld_steps_fl rng ld HR HK HB HF n ps g) as (g2 & E2); [apply Forall_forall; exact FW|].
  rewrite HE in E2. injection E2 as -> _. exists (Nat.iter n (fl_step (ld_pot ld) (ld_dt ld)) p). split; [apply map_nth_error; exact Hi|].
  assert (Hp : In p ps) by (eapply nth_error_In; exact Hi). destruct (HA p Hp) as (m & Pm & HP).
  assert (Q : m = mass) by (destruct HP as (_ & _ & X & _); congruence). subst m.
  apply (error_bound_run rng ld mass T delta L J K q v p g (fun n => Nat.iter n (fl_step (ld_pot ld) (ld_dt ld)) p)); try assumption.
  - intros k s. apply (ok_normal rng HR).
  - intros k. destruct (ld_steps_fl rng ld HR HK HB HF k [p] g) as (g3 & E3); [constructor; [apply FW; exact Hp|constructor]|]. exists g3. exact E3.
Qed.
Lemma walkers_run rng ld ps g n :
  rng_ok rng -> ld_kind ld = BussiParinello 0 -> pot_bc (ld_pot ld) = None -> force_size (ld_pot ld) -> 0 < ld_dt ld <= 1 ->
  (forall p, In p ps -> exists m, 0 < m /\ set_up ld 0 m p) ->
  exists ps' g', ld_steps rng ld n ps g = Ok (ps', g') /\ length ps' = length ps /\
  forall i p p' T delta L J K q v, nth_error ps i = Some p -> nth_error ps' i = Some p' -> 0 <= L ->
  newton (ld_pot ld) (p_mass p) T q v -> smooth (ld_pot ld) (p_mass p) T q J K -> tame (ld_pot ld) T q delta L -> starts (pot_ndim (ld_pot ld)) (p_mass p) q v p ->
  INR n * ld_dt ld <= T -> error_factor (p_mass p) T L J K * ld_dt ld ^ 2 <= delta ->
  agrees (pot_ndim (ld_pot ld)) (p_mass p) (error_factor (p_mass p) T L J K * ld_dt ld ^ 2) q v (INR n * ld_dt ld) p'.
Proof.
  intros HR HK HB HF Hdt HA.
  assert (FW : Forall (frictionless_walker (ld_pot ld)) ps).
  { apply Forall_forall. intros r Hr. destruct (HA r Hr) as (m & Pm & S1 & S2 & S3 & S4). split; [exact S1|]. split; [exact S2|]. split; [lra|].
    rewrite S4. unfold ld_c1, ld_c2. rewrite Rmult_0_r, Rmult_0_l, exp_0. replace ((1 - 1 * 1) * m * ld_kt ld) with 0 by ring. apply sqrt_0. }
  destruct (ld_steps_fl rng ld HR HK HB HF n ps g FW) as (g2 & E2). exists (map (Nat.iter n (fl_step (ld_pot ld) (ld_dt ld))) ps), g2. split; [exact E2|]. split; [apply map_length|].
  intros i p p' T delta L J K q v Hi Hi' HL HN HSm HT H0 Ht Hde.
  destruct (error_bound_walkers rng ld ps g n _ _ i p (p_mass p) T delta L J K q v HR HK HB HF Hdt HA E2 Hi eq_refl HL HN HSm HT H0 Ht Hde) as (p2 & E3 & A).
  rewrite Hi' in E3. injection E3 as <-. exact A.
Qed.
