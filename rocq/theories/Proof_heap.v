From Coq Require Import Lia Permutation.
From Verif Require Import PyBase Model_dyn Model_bd Model_heap Spec_ld Spec_heap Proof_base.
Open Scope R_scope.

Lemma nth_error_set_nth_eq {A} : forall (l : list A) k v, (k < length l)%nat -> nth_error (set_nth l k v) k = Some v.
Proof. induction l; intros k v H; simpl in H; [lia|]. destruct k; simpl; [reflexivity|apply IHl; lia]. Qed.
Lemma nth_error_set_nth_ne {A} : forall (l : list A) k v i, i <> k -> nth_error (set_nth l k v) i = nth_error l i.
Proof.
  induction l; intros k v i H; [reflexivity|]. destruct k; destruct i; simpl; try reflexivity; try congruence.
  apply IHl; congruence.
Qed.
Lemma length_set_nth {A} : forall (l : list A) k v, length (set_nth l k v) = length l.
Proof. induction l; intros [|k] v; simpl; auto. Qed.

Lemma ne_lt {A} (l : list A) i x : nth_error l i = Some x -> (i < length l)%nat.
Proof. intro H. apply nth_error_Some. rewrite H. discriminate. Qed.

(** evolution of one object: [L] its arrays in the heap [h0] *)
Record Fr (h0 : heap) (s : nat) (L : list nat) (h : heap) (o : hobj) (p : particle) : Prop := {
  fr_len : (length (h_arr h0) <= length (h_arr h))%nat;
  fr_arr : forall l, (l < length (h_arr h0))%nat -> ~ In l L -> nth_error (h_arr h) l = nth_error (h_arr h0) l;
  fr_olen : length (h_obj h) = length (h_obj h0);
  fr_obj : forall t, t <> s -> nth_error (h_obj h) t = nth_error (h_obj h0) t;
  fr_o : nth_error (h_obj h) s = Some o;
  fr_nodup : NoDup (arrays o);
  fr_own : forall l, In l (arrays o) -> In l L \/ (length (h_arr h0) <= l)%nat;
  fr_pos : nth_error (h_arr h) (o_pos o) = Some (p_pos p);
  fr_mom : nth_error (h_arr h) (o_mom o) = Some (p_mom p);
  fr_forces : nth_error (h_arr h) (o_forces o) = Some (p_forces p);
  fr_mass : o_mass o = p_mass p;
  fr_energy : o_energy o = p_energy p;
  fr_c2 : o_c2 o = p_c2 p }.

Lemma nodup3 (a b c : nat) : NoDup [a; b; c] <-> a <> b /\ a <> c /\ b <> c.
Proof.
  split.
  - intro H. inversion H as [|? ? H1 H2]; subst. inversion H2 as [|? ? H3 H4]; subst. simpl in *. intuition congruence.
  - intros (H1 & H2 & H3). repeat constructor; simpl; intuition congruence.
Qed.

Lemma deref_ok {A} (l : list A) i x : nth_error l i = Some x -> deref l i = Ok x.
Proof. intro H. unfold deref. rewrite H. reflexivity. Qed.

Section step.
Context (h0 : heap) (s : nat) (L : list nat).

Lemma fr_set_mom h o p v : Fr h0 s L h o p ->
  exists h1 o1, set_mom h s v = Ok h1 /\
    Fr h0 s L h1 o1 (mkP (p_pos p) v (p_mass p) (p_energy p) (p_forces p) (p_c2 p)).
Proof.
  intros [F1 F2 F3 F4 F5 F6 F7 F8 F9 F10 F11 F12 F13].
  unfold set_mom. rewrite (deref_ok _ _ _ F5). cbn [bind new_arr].
  eexists; eexists; split; [reflexivity|].
  unfold arrays in *. apply nodup3 in F6. destruct F6 as (N1 & N2 & N3).
  pose proof (ne_lt _ _ _ F5) as Hs.
  pose proof (ne_lt _ _ _ F8) as Hp. pose proof (ne_lt _ _ _ F10) as Hf.
  constructor; cbn [write_obj h_arr h_obj p_pos p_mom p_forces p_mass p_energy p_c2].
  - rewrite app_length. cbn [length]. lia.
  - intros l Hl Hn. rewrite nth_error_app1 by lia. apply F2; assumption.
  - rewrite length_set_nth. exact F3.
  - intros t Ht. rewrite nth_error_set_nth_ne by exact Ht. apply F4; exact Ht.
  - apply nth_error_set_nth_eq. exact Hs.
  - unfold arrays. simpl. apply nodup3. split; [lia|]. split; [exact N2|lia].
  - cbn [arrays o_pos o_mom o_forces In]. intros l [H|[H|[H|H]]]; try contradiction.
    + apply F7. simpl. auto.
    + right. lia.
    + apply F7. simpl. auto.
  - cbn [o_pos]. rewrite nth_error_app1 by lia. exact F8.
  - cbn [o_mom]. rewrite nth_error_app2 by lia. rewrite Nat.sub_diag. reflexivity.
  - cbn [o_forces]. rewrite nth_error_app1 by lia. exact F10.
  - exact F11.
  - exact F12.
  - exact F13.
Qed.

Lemma fr_set_ef h o p e f : Fr h0 s L h o p ->
  exists h1 o1, set_energy_forces h s e f = Ok h1 /\
    Fr h0 s L h1 o1 (mkP (p_pos p) (p_mom p) (p_mass p) e f (p_c2 p)).
Proof.
  intros [F1 F2 F3 F4 F5 F6 F7 F8 F9 F10 F11 F12 F13].
  unfold set_energy_forces. rewrite (deref_ok _ _ _ F5). cbn [bind new_arr].
  eexists; eexists; split; [reflexivity|].
  unfold arrays in *. apply nodup3 in F6. destruct F6 as (N1 & N2 & N3).
  pose proof (ne_lt _ _ _ F5) as Hs.
  pose proof (ne_lt _ _ _ F8) as Hp. pose proof (ne_lt _ _ _ F9) as Hm.
  constructor; cbn [write_obj h_arr h_obj p_pos p_mom p_forces p_mass p_energy p_c2].
  - rewrite app_length. cbn [length]. lia.
  - intros l Hl Hn. rewrite nth_error_app1 by lia. apply F2; assumption.
  - rewrite length_set_nth. exact F3.
  - intros t Ht. rewrite nth_error_set_nth_ne by exact Ht. apply F4; exact Ht.
  - apply nth_error_set_nth_eq. exact Hs.
  - unfold arrays. simpl. apply nodup3. split; [exact N1|]. split; lia.
  - cbn [arrays o_pos o_mom o_forces In]. intros l [H|[H|[H|H]]]; try contradiction.
    + apply F7. simpl. auto.
    + apply F7. simpl. auto.
    + right. lia.
  - cbn [o_pos]. rewrite nth_error_app1 by lia. exact F8.
  - cbn [o_mom]. rewrite nth_error_app1 by lia. exact F9.
  - cbn [o_forces]. rewrite nth_error_app2 by lia. rewrite Nat.sub_diag. reflexivity.
  - exact F11.
  - reflexivity.
  - exact F13.
Qed.

Lemma fr_write_pos h o p v : Fr h0 s L h o p ->
  Fr h0 s L (write_arr h (o_pos o) v) o (mkP v (p_mom p) (p_mass p) (p_energy p) (p_forces p) (p_c2 p)).
Proof.
  intros [F1 F2 F3 F4 F5 F6 F7 F8 F9 F10 F11 F12 F13].
  pose proof F6 as N. unfold arrays in N. apply nodup3 in N. destruct N as (N1 & N2 & N3).
  constructor; cbn [write_arr h_arr h_obj p_pos p_mom p_forces p_mass p_energy p_c2]; try assumption.
  - rewrite length_set_nth. exact F1.
  - intros l Hl Hn. rewrite nth_error_set_nth_ne. { apply F2; assumption. }
    intros ->. destruct (F7 (o_pos o)) as [H|H]; [simpl; auto|contradiction|lia].
  - apply nth_error_set_nth_eq. apply (ne_lt _ _ _ F8).
  - rewrite nth_error_set_nth_ne by congruence. exact F9.
  - rewrite nth_error_set_nth_ne by congruence. exact F10.
Qed.

Lemma fr_write_mom h o p v : Fr h0 s L h o p ->
  Fr h0 s L (write_arr h (o_mom o) v) o (mkP (p_pos p) v (p_mass p) (p_energy p) (p_forces p) (p_c2 p)).
Proof.
  intros [F1 F2 F3 F4 F5 F6 F7 F8 F9 F10 F11 F12 F13].
  pose proof F6 as N. unfold arrays in N. apply nodup3 in N. destruct N as (N1 & N2 & N3).
  constructor; cbn [write_arr h_arr h_obj p_pos p_mom p_forces p_mass p_energy p_c2]; try assumption.
  - rewrite length_set_nth. exact F1.
  - intros l Hl Hn. rewrite nth_error_set_nth_ne. { apply F2; assumption. }
    intros ->. destruct (F7 (o_mom o)) as [H|H]; [simpl; auto|contradiction|lia].
  - rewrite nth_error_set_nth_ne by congruence. exact F8.
  - apply nth_error_set_nth_eq. apply (ne_lt _ _ _ F9).
  - rewrite nth_error_set_nth_ne by congruence. exact F10.
Qed.

(** the statements of the two loop bodies *)
Lemma fr_thermostat h o p c1 n : Fr h0 s L h o p ->
  exists h1 o1, h_thermostat c1 n h s = Ok h1 /\
    Fr h0 s L h1 o1 (mkP (p_pos p) (vadd (vscale c1 (p_mom p)) (vscale (p_c2 p) n)) (p_mass p) (p_energy p) (p_forces p) (p_c2 p)).
Proof.
  intro F. unfold h_thermostat. rewrite (deref_ok _ _ _ (fr_o _ _ _ _ _ _ F)). cbn [bind].
  rewrite (deref_ok _ _ _ (fr_mom _ _ _ _ _ _ F)). cbn [bind].
  rewrite (fr_c2 _ _ _ _ _ _ F). apply (fr_set_mom _ _ _ _ F).
Qed.
Lemma fr_kick h o p dt : Fr h0 s L h o p ->
  exists h1 o1, h_kick dt h s = Ok h1 /\
    Fr h0 s L h1 o1 (mkP (p_pos p) (vadd (p_mom p) (map (fun f => 1/2 * f * dt) (p_forces p))) (p_mass p) (p_energy p) (p_forces p) (p_c2 p)).
Proof.
  intro F. unfold h_kick, inplace_add. rewrite (deref_ok _ _ _ (fr_o _ _ _ _ _ _ F)). cbn [bind].
  rewrite (deref_ok _ _ _ (fr_forces _ _ _ _ _ _ F)). cbn [bind].
  rewrite (deref_ok _ _ _ (fr_mom _ _ _ _ _ _ F)). cbn [bind].
  eexists; eexists; split; [reflexivity|]. apply (fr_write_mom _ _ _ _ F).
Qed.
Lemma fr_drift h o p dt : Fr h0 s L h o p ->
  exists h1 o1, h_drift dt h s = Ok h1 /\
    Fr h0 s L h1 o1 (mkP (vadd (p_pos p) (map (fun m => m / p_mass p * dt) (p_mom p))) (p_mom p) (p_mass p) (p_energy p) (p_forces p) (p_c2 p)).
Proof.
  intro F. unfold h_drift, inplace_add. rewrite (deref_ok _ _ _ (fr_o _ _ _ _ _ _ F)). cbn [bind].
  rewrite (deref_ok _ _ _ (fr_mom _ _ _ _ _ _ F)). cbn [bind].
  rewrite (deref_ok _ _ _ (fr_pos _ _ _ _ _ _ F)). cbn [bind].
  rewrite (fr_mass _ _ _ _ _ _ F).
  eexists; eexists; split; [reflexivity|]. apply (fr_write_pos _ _ _ _ F).
Qed.
Lemma fr_boundary h o p pot : Fr h0 s L h o p ->
  match apply_boundary_condition pot (p_pos p) (p_mom p) with
  | Ok (pos, mom) => exists h1 o1, h_boundary pot h s = Ok h1 /\
      Fr h0 s L h1 o1 (mkP pos mom (p_mass p) (p_energy p) (p_forces p) (p_c2 p))
  | Err e => h_boundary pot h s = Err e
  end.
Proof.
  intro F. unfold h_boundary. rewrite (deref_ok _ _ _ (fr_o _ _ _ _ _ _ F)). cbn [bind].
  rewrite (deref_ok _ _ _ (fr_pos _ _ _ _ _ _ F)). cbn [bind].
  rewrite (deref_ok _ _ _ (fr_mom _ _ _ _ _ _ F)). cbn [bind].
  destruct (apply_boundary_condition pot (p_pos p) (p_mom p)) as [[pos mom]|e]; [|reflexivity].
  cbn [bind]. eexists; eexists; split; [reflexivity|].
  pose proof (fr_write_pos _ _ _ pos F) as F1. pose proof (fr_write_mom _ _ _ mom F1) as F2. exact F2.
Qed.
Lemma fr_evaluate h o p pot : Fr h0 s L h o p ->
  exists h1 o1, h_evaluate pot h s = Ok h1 /\
    Fr h0 s L h1 o1 (mkP (p_pos p) (p_mom p) (p_mass p) (pot_energy pot (p_pos p)) (pot_force pot (p_pos p)) (p_c2 p)).
Proof.
  intro F. unfold h_evaluate, read_pos. rewrite (deref_ok _ _ _ (fr_o _ _ _ _ _ _ F)). cbn [bind].
  rewrite (deref_ok _ _ _ (fr_pos _ _ _ _ _ _ F)). cbn [bind evaluate].
  apply (fr_set_ef _ _ _ _ _ F).
Qed.

Lemma fr_bp h o p pot c1 dt n1 n2 : Fr h0 s L h o p ->
  match bp_update pot c1 dt p n1 n2 with
  | Ok p' => exists h1 o1, h_bp_update pot c1 dt n1 n2 h s = Ok h1 /\ Fr h0 s L h1 o1 p'
  | Err e => h_bp_update pot c1 dt n1 n2 h s = Err e
  end.
Proof.
  intro F. unfold bp_update, h_bp_update.
  destruct (fr_thermostat _ _ _ c1 n1 F) as (h1 & o1 & E1 & F1). rewrite E1. cbn [bind].
  destruct (fr_kick _ _ _ dt F1) as (h2 & o2 & E2 & F2). rewrite E2. cbn [bind].
  destruct (fr_drift _ _ _ dt F2) as (h3 & o3 & E3 & F3). rewrite E3. cbn [bind].
  pose proof (fr_boundary _ _ _ pot F3) as H4. cbn [p_pos p_mom p_mass p_energy p_forces p_c2] in H4.
  destruct (apply_boundary_condition pot _ _) as [[pos mom]|e].
  2:{ rewrite H4. reflexivity. }
  destruct H4 as (h4 & o4 & E4 & F4). rewrite E4. cbn [bind evaluate].
  destruct (fr_evaluate _ _ _ pot F4) as (h5 & o5 & E5 & F5). rewrite E5. cbn [bind].
  destruct (fr_kick _ _ _ dt F5) as (h6 & o6 & E6 & F6). rewrite E6. cbn [bind].
  destruct (fr_thermostat _ _ _ c1 n2 F6) as (h7 & o7 & E7 & F7).
  exists h7, o7. split; [exact E7|exact F7].
Qed.

Lemma fr_od h o p pot nf dt n : Fr h0 s L h o p ->
  match od_update pot nf dt p n with
  | Ok p' => exists h1 o1, h_od_update pot nf dt n h s = Ok h1 /\ Fr h0 s L h1 o1 p'
  | Err e => h_od_update pot nf dt n h s = Err e
  end.
Proof.
  intro F. unfold od_update, h_od_update, inplace_add.
  rewrite (deref_ok _ _ _ (fr_o _ _ _ _ _ _ F)). cbn [bind].
  rewrite (deref_ok _ _ _ (fr_forces _ _ _ _ _ _ F)). cbn [bind].
  rewrite (deref_ok _ _ _ (fr_pos _ _ _ _ _ _ F)). cbn [bind].
  pose proof (fr_write_pos _ _ _ (vadd (p_pos p) (vadd (vscale dt (p_forces p)) (vscale nf n))) F) as F3.
  pose proof (fr_boundary _ _ _ pot F3) as H4. cbn [p_pos p_mom p_mass p_energy p_forces p_c2] in H4.
  destruct (apply_boundary_condition pot _ _) as [[pos mom]|e].
  2:{ rewrite H4. reflexivity. }
  destruct H4 as (h4 & o4 & E4 & F4). rewrite E4. cbn [bind evaluate].
  destruct (fr_evaluate _ _ _ pot F4) as (h5 & o5 & E5 & F5). exists h5, o5. split; [exact E5|exact F5].
Qed.
End step.

Lemma fr_ld rng ld h0 s L h o p g : Fr h0 s L h o p ->
  match ld_update rng ld p g with
  | Ok (p', g') => exists h1 o1, h_ld_update rng ld h s g = Ok (h1, g') /\ Fr h0 s L h1 o1 p'
  | Err e => h_ld_update rng ld h s g = Err e
  end.
Proof.
  intro F. unfold ld_update, h_ld_update. destruct (ld_kind ld) as [fr|].
  - destruct (r_normal rng _ g) as [n1 g1]. destruct (r_normal rng _ g1) as [n2 g2].
    pose proof (fr_bp _ _ _ _ _ _ (ld_pot ld) (ld_c1 fr (ld_dt ld)) (ld_dt ld) n1 n2 F) as H.
    destruct (bp_update _ _ _ _ _ _) as [p'|e]; cbn [bind].
    + destruct H as (h1 & o1 & E & F1). rewrite E. cbn [bind]. exists h1, o1. split; [reflexivity|exact F1].
    + rewrite H. reflexivity.
  - destruct (r_normal rng _ g) as [n1 g1].
    pose proof (fr_od _ _ _ _ _ _ (ld_pot ld) (ld_noise_factor (ld_dt ld)) (ld_dt ld) n1 F) as H.
    destruct (od_update _ _ _ _ _) as [p'|e]; cbn [bind].
    + destruct H as (h1 & o1 & E & F1). rewrite E. cbn [bind]. exists h1, o1. split; [reflexivity|exact F1].
    + rewrite H. reflexivity.
Qed.

(** the whole state *)
Record Inv (user : list vec) (h : heap) (ps : list nat) (vs : list particle) : Prop := {
  iv_user : firstn (length user) (h_arr h) = user;
  iv_shows : Forall2 (shows h) ps vs;
  iv_nodup : NoDup ps;
  iv_arr : forall s o, In s ps -> nth_error (h_obj h) s = Some o -> NoDup (arrays o);
  iv_sep : forall s t o q l, In s ps -> In t ps -> s <> t ->
    nth_error (h_obj h) s = Some o -> nth_error (h_obj h) t = Some q -> In l (arrays o) -> ~ In l (arrays q);
  iv_low : forall s o l, In s ps -> nth_error (h_obj h) s = Some o -> In l (arrays o) -> (length user <= l)%nat }.

Lemma shows_bound h s p : shows h s p -> (s < length (h_obj h))%nat.
Proof. intros (o & H & _). exact (ne_lt _ _ _ H). Qed.

Lemma shows_arr_bound h s p o l : shows h s p -> nth_error (h_obj h) s = Some o -> In l (arrays o) -> (l < length (h_arr h))%nat.
Proof.
  intros (o' & H & Hp & Hm & Hf & _) Ho Hl. rewrite Ho in H. injection H as <-.
  destruct Hl as [<-|[<-|[<-|[]]]]; eapply ne_lt; eassumption.
Qed.

Lemma Forall2_In_l {A B} (P : A -> B -> Prop) l m a : Forall2 P l m -> In a l -> exists b, In b m /\ P a b.
Proof. induction 1; intros []; [subst; eauto with datatypes|]. destruct (IHForall2 H1) as (b & Hb & Hp). eauto with datatypes. Qed.

Lemma user_len user h ps vs : Inv user h ps vs -> (length user <= length (h_arr h))%nat.
Proof. intros [I _ _ _ _ _]. rewrite <- I at 1. rewrite firstn_length. lia. Qed.

Lemma firstn_ext {A} n (l m : list A) : (n <= length l)%nat -> (n <= length m)%nat ->
  (forall i, (i < n)%nat -> nth_error l i = nth_error m i) -> firstn n l = firstn n m.
Proof.
  revert l m. induction n; intros l m Hl Hm H; [reflexivity|].
  destruct l; destruct m; simpl in *; try lia.
  pose proof (H 0%nat ltac:(lia)) as H0. simpl in H0. injection H0 as ->. f_equal. apply IHn; try lia.
  intros i Hi. apply (H (S i)). lia.
Qed.


Lemma f2_length {A B} (P : A -> B -> Prop) l m : Forall2 P l m -> length l = length m.
Proof. induction 1; simpl; congruence. Qed.
Lemma Forall2_impl_in {A B} (P Q : A -> B -> Prop) l m :
  Forall2 P l m -> (forall a b, In a l -> P a b -> Q a b) -> Forall2 Q l m.
Proof. induction 1; intro Hq; constructor; [apply Hq; [left; reflexivity|assumption]|apply IHForall2; intros; apply Hq; [right; assumption|assumption]]. Qed.
Lemma Forall2_split {A B} (P : A -> B -> Prop) : forall la a lb ma b mb, length la = length ma ->
  Forall2 P (la ++ a :: lb) (ma ++ b :: mb) -> Forall2 P la ma /\ P a b /\ Forall2 P lb mb.
Proof.
  induction la as [|x la IH]; intros a lb ma b mb Hl H; destruct ma as [|y ma]; simpl in *; try lia.
  - inversion H; subst. split; [constructor|split; assumption].
  - inversion H; subst. destruct (IH a lb ma b mb) as (K1 & K2 & K3); [lia|assumption|].
    split; [constructor; assumption|split; assumption].
Qed.

(** one walker changed *)
Lemma inv_step user h pa s pb va p vb h' o o' p' :
  Inv user h (pa ++ s :: pb) (va ++ p :: vb) -> length pa = length va ->
  nth_error (h_obj h) s = Some o ->
  Fr h s (arrays o) h' o' p' ->
  Inv user h' (pa ++ s :: pb) (va ++ p' :: vb).
Proof.
  intros I Hlen Ho F. pose proof (user_len _ _ _ _ I) as Hul.
  assert (Hcase : forall t q, nth_error (h_obj h') t = Some q ->
            (t = s /\ q = o') \/ (t <> s /\ nth_error (h_obj h) t = Some q)).
  { intros t q Hq. destruct (Nat.eq_dec t s) as [->|Hne].
    - left. split; [reflexivity|]. rewrite (fr_o _ _ _ _ _ _ F) in Hq. congruence.
    - right. split; [exact Hne|]. rewrite (fr_obj _ _ _ _ _ _ F) in Hq by exact Hne. exact Hq. }
  assert (Hs : In s (pa ++ s :: pb)) by (apply in_or_app; right; left; reflexivity).
  assert (Hother : forall t v, In t (pa ++ s :: pb) -> t <> s -> shows h t v -> shows h' t v).
  { intros t v Ht Hne (q & Hq & Hp & Hm & Hf & Hr). exists q.
    rewrite (fr_obj _ _ _ _ _ _ F) by exact Hne.
    assert (Hk : forall l x, In l (arrays q) -> nth_error (h_arr h) l = Some x -> nth_error (h_arr h') l = Some x).
    { intros l x Hl Hx. rewrite (fr_arr _ _ _ _ _ _ F); [exact Hx|exact (ne_lt _ _ _ Hx)|].
      exact (iv_sep _ _ _ _ I t s q o l Ht Hs Hne Hq Ho Hl). }
    split; [exact Hq|]. split; [apply Hk; [simpl; auto|exact Hp]|].
    split; [apply Hk; [simpl; auto|exact Hm]|]. split; [apply Hk; [simpl; auto|exact Hf]|exact Hr]. }
  assert (Hbound : forall t q l, In t (pa ++ s :: pb) -> nth_error (h_obj h) t = Some q -> In l (arrays q) ->
            (l < length (h_arr h))%nat).
  { intros t q l Ht Hq Hl. destruct (Forall2_In_l _ _ _ _ (iv_shows _ _ _ _ I) Ht) as (v & _ & Hv).
    exact (shows_arr_bound _ _ _ _ _ Hv Hq Hl). }
  pose proof (iv_nodup _ _ _ _ I) as Nd.
  constructor.
  - rewrite <- (iv_user _ _ _ _ I) at 2. apply firstn_ext.
    + pose proof (fr_len _ _ _ _ _ _ F). lia.
    + exact Hul.
    + intros i Hi. apply (fr_arr _ _ _ _ _ _ F); [lia|]. intro Hin.
      pose proof (iv_low _ _ _ _ I s o i Hs Ho Hin). lia.
  - destruct (Forall2_split _ _ _ _ _ _ _ Hlen (iv_shows _ _ _ _ I)) as (Sa & _ & Sb).
    apply NoDup_remove in Nd. destruct Nd as [Nd1 Nd2].
    apply Forall2_app; [|constructor].
    + apply (Forall2_impl_in _ _ _ _ Sa). intros t v Ht. apply Hother.
      * apply in_or_app. left. exact Ht.
      * intros ->. apply Nd2. apply in_or_app. left. exact Ht.
    + exists o'. destruct F. repeat (split; [assumption|]). assumption.
    + apply (Forall2_impl_in _ _ _ _ Sb). intros t v Ht. apply Hother.
      * apply in_or_app. right. right. exact Ht.
      * intros ->. apply Nd2. apply in_or_app. right. exact Ht.
  - exact Nd.
  - intros t q Ht Hq. destruct (Hcase t q Hq) as [[-> ->]|[Hne Hq']].
    + exact (fr_nodup _ _ _ _ _ _ F).
    + exact (iv_arr _ _ _ _ I t q Ht Hq').
  - intros t u q w l Ht Hu Hne Hq Hw Hl Hl'.
    destruct (Hcase t q Hq) as [[-> ->]|[Hnt Hq']]; destruct (Hcase u w Hw) as [[-> ->]|[Hnu Hw']].
    + congruence.
    + destruct (fr_own _ _ _ _ _ _ F l Hl) as [H|H].
      * exact (iv_sep _ _ _ _ I s u o w l Hs Hu Hne Ho Hw' H Hl').
      * pose proof (Hbound _ _ _ Hu Hw' Hl'). lia.
    + destruct (fr_own _ _ _ _ _ _ F l Hl') as [H|H].
      * exact (iv_sep _ _ _ _ I t s q o l Ht Hs Hne Hq' Ho Hl H).
      * pose proof (Hbound _ _ _ Ht Hq' Hl). lia.
    + exact (iv_sep _ _ _ _ I t u q w l Ht Hu Hne Hq' Hw' Hl Hl').
  - intros t q l Ht Hq Hl. destruct (Hcase t q Hq) as [[-> ->]|[Hne Hq']].
    + destruct (fr_own _ _ _ _ _ _ F l Hl) as [H|H].
      * exact (iv_low _ _ _ _ I s o l Hs Ho H).
      * lia.
    + exact (iv_low _ _ _ _ I t q l Ht Hq' Hl).
Qed.

Lemma fr_start user h ps vs s p : Inv user h ps vs -> In s ps -> shows h s p ->
  exists o, nth_error (h_obj h) s = Some o /\ Fr h s (arrays o) h o p.
Proof.
  intros I Hs (o & Ho & Hp & Hm & Hf & E1 & E2 & E3). exists o. split; [exact Ho|].
  constructor; auto.
  exact (iv_arr _ _ _ _ I s o Hs Ho).
Qed.

Lemma inv_ld_run rng ld user : forall pb vb pa va h g, length pa = length va ->
  Inv user h (pa ++ pb) (va ++ vb) ->
  match ld_run rng ld vb g with
  | Ok (vb', g') => exists h', h_ld_run rng ld pb h g = Ok (h', g') /\ Inv user h' (pa ++ pb) (va ++ vb')
  | Err e => h_ld_run rng ld pb h g = Err e
  end.
Proof.
  induction pb as [|s pb IH]; intros vb pa va h g Hlen I; destruct vb as [|p vb].
  - exists h. split; [reflexivity|exact I].
  - exfalso. pose proof (f2_length _ _ _ (iv_shows _ _ _ _ I)) as H. rewrite !app_length in H. simpl in H. lia.
  - exfalso. pose proof (f2_length _ _ _ (iv_shows _ _ _ _ I)) as H. rewrite !app_length in H. simpl in H. lia.
  - destruct (Forall2_split _ _ _ _ _ _ _ Hlen (iv_shows _ _ _ _ I)) as (_ & Hsp & _).
    assert (Hs : In s (pa ++ s :: pb)) by (apply in_or_app; right; left; reflexivity).
    destruct (fr_start _ _ _ _ _ _ I Hs Hsp) as (o & Ho & F).
    pose proof (fr_ld rng ld _ _ _ _ _ _ g F) as H. cbn [ld_run h_ld_run].
    destruct (ld_update rng ld p g) as [[p' g1]|e].
    2:{ rewrite H. reflexivity. }
    destruct H as (h1 & o1 & E & F1). rewrite E. cbn [bind].
    pose proof (inv_step _ _ _ _ _ _ _ _ _ _ _ _ I Hlen Ho F1) as I1.
    specialize (IH vb (pa ++ [s]) (va ++ [p']) h1 g1).
    rewrite <- !app_assoc in IH. simpl in IH. specialize (IH ltac:(rewrite !app_length; simpl; lia) I1).
    destruct (ld_run rng ld vb g1) as [[vb' g2]|e]; cbn [bind].
    + destruct IH as (h2 & E2 & I2). exists h2. split; [exact E2|].
      rewrite <- app_assoc in I2. exact I2.
    + exact IH.
Qed.

(** a new walker *)
Record fresh (h h' : heap) (s : nat) (p : particle) : Prop := {
  fs_arr : exists ext, h_arr h' = h_arr h ++ ext;
  fs_obj : exists o, h_obj h' = h_obj h ++ [o] /\ NoDup (arrays o) /\
            (forall l, In l (arrays o) -> (length (h_arr h) <= l)%nat);
  fs_s : s = length (h_obj h);
  fs_shows : shows h' s p }.

Lemma nth_error_ext {A} (l e : list A) i x : nth_error l i = Some x -> nth_error (l ++ e) i = Some x.
Proof. intro H. rewrite nth_error_app1; [exact H|exact (ne_lt _ _ _ H)]. Qed.

Lemma fresh_shows h h' s p t v : fresh h h' s p -> shows h t v -> shows h' t v.
Proof.
  intros [(ea & Ha) (o & Ho & _) _ _] (q & Hq & Hp & Hm & Hf & Hr). exists q.
  rewrite Ha, Ho. repeat (split; [apply nth_error_ext; assumption|]). exact Hr.
Qed.

(** any walker list made of old walkers and possibly the new one *)
Lemma inv_fresh user h ps vs h' s p ps' vs' :
  Inv user h ps vs -> fresh h h' s p ->
  (forall t, In t ps' -> In t ps \/ t = s) -> NoDup ps' ->
  Forall2 (shows h') ps' vs' ->
  Inv user h' ps' vs'.
Proof.
  intros I F Hin Hnd Hsh. pose proof (user_len _ _ _ _ I) as Hul.
  destruct F as [(ea & Ha) (o & Ho & Hno & Hlo) -> Hs].
  assert (Hold : forall t, In t ps -> exists q, nth_error (h_obj h) t = Some q /\ nth_error (h_obj h') t = Some q /\
           forall l, In l (arrays q) -> (l < length (h_arr h))%nat).
  { intros t Ht. destruct (Forall2_In_l _ _ _ _ (iv_shows _ _ _ _ I) Ht) as (v & _ & Hv).
    pose proof Hv as (q & Hq & _). exists q. split; [exact Hq|]. split; [rewrite Ho; apply nth_error_ext; exact Hq|].
    intros l Hl. exact (shows_arr_bound _ _ _ _ _ Hv Hq Hl). }
  assert (Hnew : nth_error (h_obj h') (length (h_obj h)) = Some o).
  { rewrite Ho, nth_error_app2 by lia. rewrite Nat.sub_diag. reflexivity. }
  constructor.
  - rewrite Ha, firstn_app. replace (length user - length (h_arr h))%nat with 0%nat by lia.
    simpl. rewrite app_nil_r. exact (iv_user _ _ _ _ I).
  - exact Hsh.
  - exact Hnd.
  - intros t q Ht Hq. destruct (Hin t Ht) as [H| ->].
    + destruct (Hold t H) as (q' & Hq' & Hq2 & _). rewrite Hq2 in Hq. injection Hq as <-.
      exact (iv_arr _ _ _ _ I t q' H Hq').
    + rewrite Hnew in Hq. injection Hq as <-. exact Hno.
  - intros t u q w l Ht Hu Hne Hq Hw Hl Hl'.
    destruct (Hin t Ht) as [H| ->]; destruct (Hin u Hu) as [G| ->].
    + destruct (Hold t H) as (q' & Hq' & Hq2 & _). rewrite Hq2 in Hq. injection Hq as <-.
      destruct (Hold u G) as (w' & Hw' & Hw2 & _). rewrite Hw2 in Hw. injection Hw as <-.
      exact (iv_sep _ _ _ _ I t u q' w' l H G Hne Hq' Hw' Hl Hl').
    + destruct (Hold t H) as (q' & Hq' & Hq2 & Hb). rewrite Hq2 in Hq. injection Hq as <-.
      rewrite Hnew in Hw. injection Hw as <-. specialize (Hlo l Hl'). specialize (Hb l Hl). lia.
    + destruct (Hold u G) as (w' & Hw' & Hw2 & Hb). rewrite Hw2 in Hw. injection Hw as <-.
      rewrite Hnew in Hq. injection Hq as <-. specialize (Hlo l Hl). specialize (Hb l Hl'). lia.
    + congruence.
  - intros t q l Ht Hq Hl. destruct (Hin t Ht) as [H| ->].
    + destruct (Hold t H) as (q' & Hq' & Hq2 & _). rewrite Hq2 in Hq. injection Hq as <-.
      exact (iv_low _ _ _ _ I t q' l H Hq' Hl).
    + rewrite Hnew in Hq. injection Hq as <-. specialize (Hlo l Hl). lia.
Qed.

Lemma inv_new_slot user h ps vs h' s p : Inv user h ps vs -> fresh h h' s p -> ~ In s ps.
Proof.
  intros I F Hin. destruct (Forall2_In_l _ _ _ _ (iv_shows _ _ _ _ I) Hin) as (v & _ & Hv).
  apply shows_bound in Hv. pose proof (fs_s _ _ _ _ F). lia.
Qed.

(** list manipulations *)
Lemma in_set_nth {A} : forall (l : list A) k x t, In t (set_nth l k x) -> In t l \/ t = x.
Proof.
  induction l; intros [|k] x t; simpl; auto; intros [H|H]; auto. destruct (IHl _ _ _ H); auto.
Qed.
Lemma nodup_set_nth {A} : forall (l : list A) k x, NoDup l -> ~ In x l -> NoDup (set_nth l k x).
Proof.
  induction l; intros k x Hn Hx; [destruct k; exact Hn|]. inversion Hn; subst. simpl in Hx.
  destruct k; simpl; constructor; auto. intro H. destruct (in_set_nth _ _ _ _ H) as [G| ->]; [auto|apply Hx; auto].
Qed.
Lemma Forall2_set_nth {A B} (P : A -> B -> Prop) : forall l m k x y, Forall2 P l m -> P x y -> Forall2 P (set_nth l k x) (set_nth m k y).
Proof. intros l m k x y H. revert k. induction H; intros [|k] Hxy; simpl; constructor; auto. Qed.
Lemma Forall2_firstn {A B} (P : A -> B -> Prop) : forall n l m, Forall2 P l m -> Forall2 P (firstn n l) (firstn n m).
Proof. induction n; intros l m H; simpl; [constructor|]. destruct H; constructor; auto. Qed.
Lemma Forall2_skipn {A B} (P : A -> B -> Prop) : forall n l m, Forall2 P l m -> Forall2 P (skipn n l) (skipn n m).
Proof. induction n; intros l m H; simpl; [exact H|]. destruct H; [constructor|auto]. Qed.
Lemma in_firstn_skipn {A} n k (l : list A) t : In t (firstn n l ++ skipn k l) -> In t l.
Proof.
  intro H. apply in_app_or in H. destruct H as [H|H].
  - rewrite <- (firstn_skipn n l). apply in_or_app. auto.
  - rewrite <- (firstn_skipn k l). apply in_or_app. auto.
Qed.
Lemma nodup_del {A} k : forall l : list A, NoDup l -> NoDup (firstn k l ++ skipn (S k) l).
Proof.
  induction k; intros l H; destruct l; simpl; auto.
  - inversion H; assumption.
  - inversion H; subst. constructor.
    + intro Hin. apply (in_firstn_skipn k (S k)) in Hin. contradiction.
    + apply IHk. assumption.
Qed.
Lemma nodup_insert {A} k (l : list A) x : NoDup l -> ~ In x l -> NoDup (firstn k l ++ x :: skipn k l).
Proof.
  intros H Hx. apply (Permutation_NoDup (Permutation_middle _ _ _)). rewrite firstn_skipn. constructor; assumption.
Qed.

Lemma inv_remove user h ps vs i : Inv user h ps vs ->
  match remove_particle vs i with
  | Ok vs' => exists ps', py_del ps i = Ok ps' /\ Inv user h ps' vs'
  | Err e => py_del ps i = Err e
  end.
Proof.
  intro I. unfold remove_particle, py_del. rewrite <- (f2_length _ _ _ (iv_shows _ _ _ _ I)).
  destruct (py_pos (length ps) i) as [k|]; [|reflexivity].
  eexists; split; [reflexivity|].
  destruct I as [I1 I2 I3 I4 I5 I6].
  constructor.
  - exact I1.
  - apply Forall2_app; [apply Forall2_firstn|apply Forall2_skipn]; exact I2.
  - apply nodup_del. exact I3.
  - intros s o Hs. apply I4. exact (in_firstn_skipn _ _ _ _ Hs).
  - intros s t o q l Hs Ht. apply I5; eapply in_firstn_skipn; eassumption.
  - intros s o l Hs. apply I6. exact (in_firstn_skipn _ _ _ _ Hs).
Qed.

Lemma f2_nth {A B} (P : A -> B -> Prop) l m i a b :
  Forall2 P l m -> nth_error l i = Some a -> nth_error m i = Some b -> P a b.
Proof.
  intro F. revert i. induction F; intros [|i] Ha Hb; simpl in *; try discriminate; [congruence|eauto].
Qed.

(** copy.deepcopy *)
Lemma deepcopy_fresh h s o p : nth_error (h_obj h) s = Some o -> NoDup (arrays o) -> shows h s p ->
  exists h' s', deepcopy h s = Ok (h', s') /\ fresh h h' s' p.
Proof.
  intros Ho Hn (o' & Ho' & Hp & Hm & Hf & E1 & E2 & E3). rewrite Ho in Ho'. injection Ho' as <-.
  apply nodup3 in Hn. destruct Hn as (N1 & N2 & N3).
  unfold deepcopy. rewrite (deref_ok _ _ _ Ho). cbn [bind].
  rewrite (deref_ok _ _ _ Hp). cbn [bind]. rewrite (deref_ok _ _ _ Hm). cbn [bind].
  rewrite (deref_ok _ _ _ Hf). cbn [bind new_arr].
  replace (Nat.eqb (o_mom o) (o_pos o)) with false by (symmetry; apply Nat.eqb_neq; congruence).
  replace (Nat.eqb (o_forces o) (o_pos o)) with false by (symmetry; apply Nat.eqb_neq; congruence).
  replace (Nat.eqb (o_forces o) (o_mom o)) with false by (symmetry; apply Nat.eqb_neq; congruence).
  unfold new_obj, new_arr. cbn [h_arr h_obj].
  eexists; eexists; split; [reflexivity|].
  rewrite !app_length. cbn [length].
  constructor; cbn [h_arr h_obj].
  - exists ([p_pos p] ++ [p_mom p] ++ [p_forces p]). rewrite <- !app_assoc. reflexivity.
  - eexists; split; [reflexivity|]. unfold arrays. simpl. split.
    + apply nodup3. split; [lia|]. split; lia.
    + intros l [H|[H|[H|[]]]]; lia.
  - reflexivity.
  - unfold shows. cbn [h_arr h_obj]. eexists. split; [rewrite nth_error_app2 by apply le_n; rewrite Nat.sub_diag; reflexivity|].
    cbn [o_pos o_mom o_forces o_mass o_energy o_c2].
    rewrite <- !app_assoc.
    split; [rewrite nth_error_app2 by lia; rewrite Nat.sub_diag; reflexivity|].
    split; [rewrite nth_error_app2 by lia; replace (_ + 1 - _)%nat with 1%nat by lia; reflexivity|].
    split; [rewrite nth_error_app2 by lia; replace (_ + 1 + 1 - _)%nat with 2%nat by lia; reflexivity|].
    split; [exact E1|]. split; [exact E2|exact E3].
Qed.

Lemma inv_move user h ps vs ev : Inv user h ps vs ->
  match perform_move vs ev with
  | Ok vs' => exists ps' h', h_perform_move (ps, h) ev = Ok (ps', h') /\ Inv user h' ps' vs'
  | Err e => h_perform_move (ps, h) ev = Err e
  end.
Proof.
  intro I. unfold perform_move, h_perform_move.
  pose proof (f2_length _ _ _ (iv_shows _ _ _ _ I)) as Hl.
  destruct (nth_error vs (fst ev)) as [p|] eqn:Hv.
  - assert (exists s, nth_error ps (fst ev) = Some s) as [s Hs].
    { destruct (nth_error ps (fst ev)) eqn:H; [eauto|]. apply nth_error_None in H. pose proof (ne_lt _ _ _ Hv). lia. }
    rewrite Hs.
    assert (Hsp : shows h s p).
    { exact (f2_nth _ _ _ _ _ _ (iv_shows _ _ _ _ I) Hs Hv). }
    pose proof (nth_error_In _ _ Hs) as Hin.
    pose proof Hsp as (o & Ho & _).
    destruct (deepcopy_fresh h s o p Ho (iv_arr _ _ _ _ I s o Hin Ho) Hsp) as (h' & s' & E & F).
    rewrite E. cbn [bind]. rewrite Hl.
    destruct (Nat.ltb (snd ev) (length vs)); [|reflexivity].
    eexists; eexists; split; [reflexivity|].
    pose proof (inv_new_slot _ _ _ _ _ _ _ I F) as Hns.
    apply (inv_fresh _ _ _ _ _ _ _ _ _ I F).
    + intros t Ht. apply in_set_nth in Ht. exact Ht.
    + apply nodup_set_nth; [exact (iv_nodup _ _ _ _ I)|exact Hns].
    + apply Forall2_set_nth; [|exact (fs_shows _ _ _ _ F)].
      apply (Forall2_impl_in _ _ _ _ (iv_shows _ _ _ _ I)). intros a b _. apply (fresh_shows _ _ _ _ _ _ F).
  - replace (nth_error ps (fst ev)) with (@None nat); [reflexivity|].
    symmetry. apply nth_error_None. apply nth_error_None in Hv. lia.
Qed.

Lemma inv_moves user : forall evs h ps vs, Inv user h ps vs ->
  match perform_moves vs evs with
  | Ok vs' => exists ps' h', h_perform_moves ps h evs = Ok (ps', h') /\ Inv user h' ps' vs'
  | Err e => h_perform_moves ps h evs = Err e
  end.
Proof.
  unfold perform_moves, h_perform_moves.
  induction evs as [|ev evs IH]; intros h ps vs I; cbn [foldM].
  - exists ps, h. split; [reflexivity|exact I].
  - pose proof (inv_move _ _ _ _ ev I) as H. destruct (perform_move vs ev) as [vs1|e]; cbn [bind].
    + destruct H as (ps1 & h1 & E & I1). rewrite E. cbn [bind]. apply IH. exact I1.
    + rewrite H. reflexivity.
Qed.

(** add_particle *)
Lemma new_fresh ld h lpos pos mass : nth_error (h_arr h) lpos = Some pos ->
  match new_particle ld pos mass with
  | Ok p => exists h' s, fresh h h' s p /\ forall ps partnum overwrite,
      h_add_particle ld ps h lpos mass partnum overwrite =
      do ps' <- (if overwrite then py_set ps partnum s
                 else if (partnum =? -1)%Z then Ok (ps ++ [s]) else Ok (py_insert ps partnum s));
      Ok (ps', h')
  | Err e => forall ps partnum overwrite, h_add_particle ld ps h lpos mass partnum overwrite = Err e
  end.
Proof.
  intro Hpos. unfold new_particle, h_add_particle.
  rewrite (deref_ok _ _ _ Hpos). cbn [bind].
  destruct (negb (Nat.eqb (length pos) (pot_ndim (ld_pot ld)))); [reflexivity|].
  unfold particle_init. rewrite repeat_length, Nat.eqb_refl. cbn [bind evaluate p_pos p_mom p_mass].
  unfold h_particle. rewrite (deref_ok _ _ _ Hpos). cbn [bind new_arr h_arr h_obj new_obj].
  set (A := h_arr h). set (O := h_obj h).
  rewrite <- !app_assoc. rewrite !app_length. cbn [length app].
  set (a := length A). set (s := length O).
  unfold h_evaluate, read_pos. cbn [h_arr h_obj].
  assert (D1 : forall o, deref (O ++ [o]) s = Ok o).
  { intro o. apply deref_ok. unfold s. rewrite nth_error_app2 by lia. rewrite Nat.sub_diag. reflexivity. }
  assert (D2 : forall x y z, deref (A ++ [x; y; z]) a = Ok x).
  { intros. apply deref_ok. unfold a. rewrite nth_error_app2 by lia. rewrite Nat.sub_diag. reflexivity. }
  assert (D3 : forall o q, set_nth (O ++ [o]) s q = O ++ [q]).
  { intros. unfold s. clear. induction O; simpl; [reflexivity|rewrite IHO; reflexivity]. }
  rewrite D1. cbn [bind o_pos]. rewrite D2. cbn [bind evaluate].
  unfold set_energy_forces. cbn [h_obj]. rewrite D1. cbn [bind new_arr write_obj h_obj h_arr].
  rewrite <- app_assoc. rewrite D3, D1. cbn [bind o_pos o_mom o_forces o_mass o_energy].
  rewrite app_length. cbn [length app].
  destruct (ld_kind ld) as [fr|].
  - unfold write_obj. cbn [h_arr h_obj]. rewrite !D3.
    eexists; exists s. split; [|intros; reflexivity].
    constructor; cbn [h_arr h_obj].
    + eexists; reflexivity.
    + eexists; split; [reflexivity|]. unfold arrays. simpl. split.
      * apply nodup3. fold A a. split; [lia|]. split; lia.
      * fold A a. intros l [H|[H|[H|[]]]]; lia.
    + reflexivity.
    + unfold shows. cbn [h_arr h_obj]. eexists. split; [unfold s; rewrite nth_error_app2 by apply le_n; rewrite Nat.sub_diag; reflexivity|].
      cbn [o_pos o_mom o_forces o_mass o_energy o_c2 p_pos p_mom p_forces p_mass p_energy p_c2]. unfold a.
      split; [rewrite nth_error_app2 by lia; rewrite Nat.sub_diag; reflexivity|].
      split; [rewrite nth_error_app2 by lia; replace (_ + 1 - _)%nat with 1%nat by lia; reflexivity|].
      split; [rewrite nth_error_app2 by lia; replace (_ + _ - _)%nat with 3%nat by lia; reflexivity|].
      repeat (split; [reflexivity|]). reflexivity.
  - unfold write_obj. cbn [h_arr h_obj o_c2]. rewrite !D3.
    eexists; exists s. split; [|intros; reflexivity].
    constructor; cbn [h_arr h_obj].
    + eexists; reflexivity.
    + eexists; split; [reflexivity|]. unfold arrays. simpl. split.
      * apply nodup3. fold A a. split; [lia|]. split; lia.
      * fold A a. intros l [H|[H|[H|[]]]]; lia.
    + reflexivity.
    + unfold shows. cbn [h_arr h_obj]. eexists. split; [unfold s; rewrite nth_error_app2 by apply le_n; rewrite Nat.sub_diag; reflexivity|].
      cbn [o_pos o_mom o_forces o_mass o_energy o_c2 p_pos p_mom p_forces p_mass p_energy p_c2]. unfold a.
      split; [rewrite nth_error_app2 by lia; rewrite Nat.sub_diag; reflexivity|].
      split; [rewrite nth_error_app2 by lia; replace (_ + 1 - _)%nat with 1%nat by lia; reflexivity|].
      split; [rewrite nth_error_app2 by lia; replace (_ + _ - _)%nat with 3%nat by lia; reflexivity|].
      repeat (split; [reflexivity|]). reflexivity.
Qed.

Lemma inv_user_arr user h ps vs k : Inv user h ps vs -> (k < length user)%nat ->
  nth_error (h_arr h) k = Some (nth k user []).
Proof.
  intros I Hk. pose proof (user_len _ _ _ _ I) as Hul.
  rewrite <- (iv_user _ _ _ _ I). rewrite nth_error_nth' with (d := []) by lia. f_equal.
  rewrite <- (firstn_skipn (length user) (h_arr h)) at 1. rewrite app_nth1; [reflexivity|].
  rewrite firstn_length. lia.
Qed.

Lemma inv_add ld user h ps vs k mass i ov : Inv user h ps vs -> (k < length user)%nat ->
  match add_particle ld vs (nth k user []) mass i ov with
  | Ok vs' => exists ps' h', h_add_particle ld ps h k mass i ov = Ok (ps', h') /\ Inv user h' ps' vs'
  | Err e => h_add_particle ld ps h k mass i ov = Err e
  end.
Proof.
  intros I Hk. pose proof (new_fresh ld h k _ mass (inv_user_arr _ _ _ _ _ I Hk)) as H.
  unfold add_particle. destruct (new_particle ld (nth k user []) mass) as [p|e]; cbn [bind].
  2:{ apply H. }
  destruct H as (h' & s & F & E). rewrite E. clear E.
  pose proof (inv_new_slot _ _ _ _ _ _ _ I F) as Hns.
  pose proof (f2_length _ _ _ (iv_shows _ _ _ _ I)) as Hl.
  assert (Hold : Forall2 (shows h') ps vs).
  { apply (Forall2_impl_in _ _ _ _ (iv_shows _ _ _ _ I)). intros a b _. apply (fresh_shows _ _ _ _ _ _ F). }
  pose proof (fs_shows _ _ _ _ F) as Hs. pose proof (iv_nodup _ _ _ _ I) as Hnd.
  destruct ov.
  - unfold py_set. rewrite Hl. destruct (py_pos (length vs) i) as [j|]; [|reflexivity]. cbn [bind].
    eexists; eexists; split; [reflexivity|]. apply (inv_fresh _ _ _ _ _ _ _ _ _ I F).
    + intros t Ht. apply in_set_nth in Ht. exact Ht.
    + apply nodup_set_nth; assumption.
    + apply Forall2_set_nth; assumption.
  - destruct (i =? -1)%Z; cbn [bind].
    + eexists; eexists; split; [reflexivity|]. apply (inv_fresh _ _ _ _ _ _ _ _ _ I F).
      * intros t Ht. apply in_app_or in Ht. destruct Ht as [Ht|[<-|[]]]; auto.
      * apply (Permutation_NoDup (Permutation_cons_append _ _)). constructor; assumption.
      * apply Forall2_app; [exact Hold|]. constructor; [exact Hs|constructor].
    + eexists; eexists; split; [reflexivity|]. apply (inv_fresh _ _ _ _ _ _ _ _ _ I F).
      * unfold py_insert. intros t Ht. apply in_app_or in Ht. destruct Ht as [Ht|[<-|Ht]]; auto; left.
        -- rewrite <- (firstn_skipn (slice_bound (length ps) i) ps). apply in_or_app. auto.
        -- rewrite <- (firstn_skipn (slice_bound (length ps) i) ps). apply in_or_app. auto.
      * apply nodup_insert; assumption.
      * unfold py_insert. rewrite Hl. apply Forall2_app; [apply Forall2_firstn; exact Hold|].
        constructor; [exact Hs|apply Forall2_skipn; exact Hold].
Qed.

Lemma inv_hop rng ld user h ps vs g o : Inv user h ps vs -> passes_own_arrays user o ->
  match do_op rng ld (vs, g) (by_value user o) with
  | Ok (vs', g') => exists ps' h', do_hop rng ld (ps, h, g) o = Ok (ps', h', g') /\ Inv user h' ps' vs'
  | Err e => do_hop rng ld (ps, h, g) o = Err e
  end.
Proof.
  intros I Hk. destruct o as [k mass i ov|i| |evs]; cbn [do_op do_hop by_value].
  - pose proof (inv_add ld _ _ _ _ k mass i ov I Hk) as H.
    destruct (add_particle _ _ _ _ _ _) as [vs'|e]; cbn [bind].
    + destruct H as (ps' & h' & E & I'). rewrite E. cbn [bind]. eauto.
    + rewrite H. reflexivity.
  - pose proof (inv_remove _ _ _ _ i I) as H.
    destruct (remove_particle _ _) as [vs'|e]; cbn [bind].
    + destruct H as (ps' & E & I'). rewrite E. cbn [bind]. eauto.
    + rewrite H. reflexivity.
  - pose proof (inv_ld_run rng ld user ps vs [] [] h g eq_refl I) as H.
    destruct (ld_run _ _ _ _) as [[vs' g']|e]; cbn [bind].
    + destruct H as (h' & E & I'). rewrite E. cbn [bind]. exists ps, h'. split; [reflexivity|exact I'].
    + rewrite H. reflexivity.
  - pose proof (inv_moves _ evs _ _ _ I) as H.
    destruct (perform_moves _ _) as [vs'|e]; cbn [bind].
    + destruct H as (ps' & h' & E & I'). rewrite E. cbn [bind]. eauto.
    + rewrite H. reflexivity.
Qed.

Lemma inv_hops rng ld user : forall ops h ps vs g, Inv user h ps vs -> Forall (passes_own_arrays user) ops ->
  match do_ops rng ld (map (by_value user) ops) (vs, g) with
  | Ok (vs', g') => exists ps' h', foldM (do_hop rng ld) ops (ps, h, g) = Ok (ps', h', g') /\ Inv user h' ps' vs'
  | Err e => foldM (do_hop rng ld) ops (ps, h, g) = Err e
  end.
Proof.
  unfold do_ops. induction ops as [|o ops IH]; intros h ps vs g I Hok; cbn [map foldM].
  - exists ps, h. split; [reflexivity|exact I].
  - inversion Hok; subst. pose proof (inv_hop rng ld _ _ _ _ g o I H1) as H.
    destruct (do_op rng ld (vs, g) (by_value user o)) as [[vs1 g1]|e]; cbn [bind].
    + destruct H as (ps1 & h1 & E & I1). rewrite E. cbn [bind]. apply IH; assumption.
    + rewrite H. reflexivity.
Qed.

Lemma nodup_flat_map {A B} (f : A -> list B) : forall l, NoDup l ->
  (forall a, In a l -> NoDup (f a)) ->
  (forall a b x, In a l -> In b l -> a <> b -> In x (f a) -> ~ In x (f b)) -> NoDup (flat_map f l).
Proof.
  induction l as [|a l IH]; intros Hn H1 H2; simpl; [constructor|]. inversion Hn; subst.
  assert (Hrest : NoDup (flat_map f l)).
  { apply IH; auto. intros; apply H1; right; assumption. intros b c x Hb Hc. apply H2; right; assumption. }
  assert (Ha : NoDup (f a)) by (apply H1; left; reflexivity).
  assert (Hd : forall x, In x (f a) -> ~ In x (flat_map f l)).
  { intros x Hx Hin. apply in_flat_map in Hin. destruct Hin as (b & Hb & Hxb).
    apply (H2 a b x); [left; reflexivity|right; exact Hb|intros ->; contradiction|exact Hx|exact Hxb]. }
  clear -Hrest Ha Hd. induction (f a) as [|x fa IH]; simpl; [exact Hrest|]. inversion Ha; subst. constructor.
  - intro Hin. apply in_app_or in Hin. destruct Hin as [H|H]; [contradiction|]. apply (Hd x); [left; reflexivity|exact H].
  - apply IH; [assumption|]. intros y Hy. apply Hd. right. exact Hy.
Qed.

Lemma walkers_independent rng ld user ops g :
  Forall (passes_own_arrays user) ops ->
  match do_ops rng ld (map (by_value user) ops) ([], g) with
  | Ok (vs, g') => exists ps h, run_hops rng ld user ops g = Ok (ps, h, g') /\
      Forall2 (shows h) ps vs /\ nothing_shared user h ps /\ firstn (length user) (h_arr h) = user
  | Err e => run_hops rng ld user ops g = Err e
  end.
Proof.
  intro Hok.
  assert (I0 : Inv user (mkHeap user []) [] []).
  { constructor; cbn [h_arr h_obj]; try (intros; contradiction); [apply firstn_all|constructor|constructor]. }
  pose proof (inv_hops rng ld user ops _ _ _ g I0 Hok) as H. unfold run_hops.
  destruct (do_ops _ _ _ _) as [[vs g']|e]; [|exact H].
  destruct H as (ps & h & E & I). exists ps, h. split; [exact E|]. split; [exact (iv_shows _ _ _ _ I)|].
  split; [|exact (iv_user _ _ _ _ I)].
  split; [exact (iv_nodup _ _ _ _ I)|]. split; [|exact (iv_low _ _ _ _ I)].
  apply nodup_flat_map.
  - exact (iv_nodup _ _ _ _ I).
  - intros s Hs. destruct (nth_error (h_obj h) s) as [o|] eqn:Ho; [|constructor].
    exact (iv_arr _ _ _ _ I s o Hs Ho).
  - intros s t l Hs Ht Hne. destruct (nth_error (h_obj h) s) as [o|] eqn:Ho; [|intros []].
    destruct (nth_error (h_obj h) t) as [q|] eqn:Hq; [|intros _ []].
    exact (iv_sep _ _ _ _ I s t o q l Hs Ht Hne Ho Hq).
Qed.
