(** Numbers as text, properties C90, C91 and C92: widths, time stamps, tables *)
From Coq Require Import Lia Lra Decimal DecimalString DecimalFacts DecimalPos DecimalZ DecimalN.
From Verif Require Import PyBase Model_xr Model_input Model_ini Model_files Model_text Spec_ini Spec_text Spec_files Proof_ini Proof_ini2 Proof_ini3 Proof_text.
Open Scope string_scope.
Open Scope Z_scope.
Ltac Zify.zify_post_hook ::= idtac.

(** ** widths *)
Lemma uint_length u : String.length (NilEmpty.string_of_uint u) = length (uint_digits u).
Proof. induction u; cbn; auto. Qed.
Lemma uint_digits_pos u : Forall (fun d => 0 <= d) (uint_digits u).
Proof. induction u; cbn; constructor; auto; lia. Qed.
Lemma number_nonneg ds : Forall (fun d => 0 <= d) ds -> 0 <= number ds.
Proof. induction 1; cbn [number]; [lia|]. assert (0 < 10 ^ Z.of_nat (length l)) by (apply Z.pow_pos_nonneg; lia). nia. Qed.
Lemma pos_first p : exists d t, uint_digits (Pos.to_uint p) = d :: t /\ 1 <= d.
Proof.
  pose proof (DecimalN.Unsigned.of_to (N.pos p)) as O. pose proof (DecimalN.Unsigned.to_of (N.to_uint (N.pos p))) as T.
  rewrite O in T. cbn [N.to_uint] in *. destruct (Pos.to_uint p) eqn:E; try (eexists _, _; split; [reflexivity|lia]); exfalso.
  - cbn in O. discriminate.
  - unfold unorm in T. cbn [nzhead] in T. destruct (nzhead u) eqn:N.
    + injection T as ->. cbn in O. discriminate.
    + exfalso. apply (nzhead_nonzero _ _ N).
    + discriminate. + discriminate. + discriminate. + discriminate. + discriminate. + discriminate. + discriminate. + discriminate. + discriminate.
Qed.
Lemma string_of_Z_length n k : (1 <= k)%nat -> 0 <= n < 10 ^ Z.of_nat k -> (String.length (string_of_Z n) <= k)%nat.
Proof.
  intros Hk Hn. unfold string_of_Z. destruct n as [|p|p]; [cbn; lia| |lia]. cbn [Z.to_int NilZero.string_of_int].
  destruct (pos_first p) as (d & t & E & D).
  assert (NilZero.string_of_uint (Pos.to_uint p) = NilEmpty.string_of_uint (Pos.to_uint p)) as ->.
  { unfold NilZero.string_of_uint. destruct (Pos.to_uint p); [discriminate E|reflexivity..]. }
  rewrite uint_length.
  assert (number (uint_digits (Pos.to_uint p)) = Zpos p) as V.
  { rewrite <- decimal_number, <- uint_value. unfold Z.of_uint. now rewrite DecimalPos.Unsigned.of_to. }
  pose proof (uint_digits_pos (Pos.to_uint p)) as F. rewrite E in *. cbn [number length] in *. inversion F as [|? ? _ F']; subst.
  pose proof (number_nonneg _ F'). assert (0 < 10 ^ Z.of_nat (length t)) by (apply Z.pow_pos_nonneg; lia).
  assert (10 ^ Z.of_nat (length t) < 10 ^ Z.of_nat k) as C by nia. apply Z.pow_lt_mono_r_iff in C; lia.
Qed.
Lemma fixed_length p x k : (1 <= k)%nat -> (1 <= p)%nat -> (Rabs x <= 10 ^ k - 1)%R ->
  (String.length (fixed_text p x) <= k + p + 2)%nat.
Proof.
  intros Hk Hp Hx. unfold fixed_text. set (n := round_even _). destruct p as [|p]; [lia|]. set (q := S p) in *.
  rewrite !length_app. cbn [String.length]. rewrite low_digits_length.
  assert (0 <= n) as Hn. { apply round_even_pos. pose proof (Rabs_pos x). pose proof (pow10_pos q). apply Rmult_le_pos; lra. }
  assert (0 < 10 ^ Z.of_nat q) as P by (apply Z.pow_pos_nonneg; lia).
  assert (n <= (10 ^ Z.of_nat k - 1) * 10 ^ Z.of_nat q) as U.
  { rewrite <- (round_even_int ((10 ^ Z.of_nat k - 1) * _)). apply round_even_mono. rewrite mult_IZR, minus_IZR, <- !pow10_IZR.
    apply Rmult_le_compat_r; [apply Rlt_le, pow10_pos|assumption]. }
  assert (String.length (string_of_Z (n / 10 ^ Z.of_nat q)) <= k)%nat.
  { apply string_of_Z_length; [assumption|]. split; [apply Z.div_pos; lia|]. apply Z.div_lt_upper_bound; nia. }
  destruct (Rlt_dec x 0); cbn [String.length]; lia.
Qed.
Lemma number_aligned w p x : (p + 3 <= w)%nat -> (1 <= p)%nat ->
  match x with Fin r => (Rabs r <= 10 ^ (w - p - 2) - 1)%R | _ => True end ->
  exists s, number_text (Fixed w p) x = Ok s /\ String.length s = w.
Proof.
  intros Hw Hp H. eexists. split; [reflexivity|]. rewrite length_pad. destruct x as [r| | |]; cbn [String.length]; try lia.
  pose proof (fixed_length p r (w - p - 2) ltac:(lia) Hp H). lia.
Qed.

(** ** distinct numbers *)
Lemma float_text_fun s x y : float_text s x -> float_text s y -> x = y.
Proof. intros H1 H2. apply float_all in H1, H2. congruence. Qed.
Lemma shown_distinct p D i j : (0 < D)%R -> (/ 10 ^ p <= D)%R -> (i < j)%nat -> shown p (INR i * D) <> shown p (INR j * D).
Proof.
  intros HD H Hij. pose proof (pow10_pos p) as P.
  assert (1 <= D * 10 ^ p)%R as G.
  { apply (Rmult_le_compat_r (10 ^ p)) in H; [|lra]. rewrite Rinv_l in H by lra. assumption. }
  assert (INR i + 1 <= INR j)%R as IJ. { rewrite <- S_INR. apply le_INR. lia. }
  pose proof (pos_INR i) as Pi. pose proof (pos_INR j) as Pj.
  unfold shown. assert (forall k, 0 <= INR k * D)%R as NN. { intros k. pose proof (pos_INR k). apply Rmult_le_pos; lra. }
  destruct (Rlt_dec _ _) as [C|_]; [pose proof (NN i); lra|]. destruct (Rlt_dec _ _) as [C|_]; [pose proof (NN j); lra|].
  rewrite !Rabs_right by (apply Rle_ge, NN).
  intros E. assert (round_even (INR i * D * 10 ^ p) = round_even (INR j * D * 10 ^ p)) as E'.
  { apply eq_IZR. apply (f_equal (fun v => v * 10 ^ p)%R) in E. field_simplify in E; [|lra..]. lra. }
  destruct (Rle_lt_or_eq_dec _ _ G) as [G'|G'].
  - pose proof (round_even_near (INR i * D * 10 ^ p)) as A. pose proof (round_even_near (INR j * D * 10 ^ p)) as B.
    rewrite E' in A. apply Rabs_bounds in A, B. assert ((INR i + 1) * (D * 10 ^ p) <= INR j * (D * 10 ^ p))%R by (apply Rmult_le_compat_r; lra). lra.
  - rewrite !Rmult_assoc, <- G', !Rmult_1_r, !INR_IZR_INZ, !round_even_int in E'. lia.
Qed.
Lemma times_distinct w p D i j : (0 < D)%R -> (/ 10 ^ p <= D)%R -> i <> j -> (INR i * D <= 10 ^ 300)%R -> (INR j * D <= 10 ^ 300)%R ->
  number_text (Fixed w p) (Fin (INR i * D)) <> number_text (Fixed w p) (Fin (INR j * D)).
Proof.
  intros HD H Hij Bi Bj E.
  assert (forall k, INR k * D <= 10 ^ 300 -> moderate (Fin (INR k * D)))%R as M.
  { intros k Hk. cbn. rewrite Rabs_right; [assumption|]. pose proof (pos_INR k). apply Rle_ge, Rmult_le_pos; lra. }
  destruct (number_float w p _ (M _ Bi)) as (s & S1 & F1). destruct (number_float w p _ (M _ Bj)) as (s' & S2 & F2).
  rewrite S1, S2 in E. injection E as <-. pose proof (float_text_fun _ _ _ F1 F2) as Q. cbn [read_back] in Q.
  destruct (Nat.lt_gt_cases i j) as [L _]. destruct (L Hij) as [C|C].
  - apply (shown_distinct p D i j HD H C). congruence.
  - apply (shown_distinct p D j i HD H C). congruence.
Qed.
Lemma round_down x : (0 <= x <= / 2)%R -> round_even x = 0.
Proof.
  intros H. unfold round_even. rewrite (int_part_unique x 0) by lra. destruct (Rlt_dec _ _); [reflexivity|]. destruct (Rlt_dec _ _); [lra|reflexivity].
Qed.
Lemma fixed_small p x : (0 <= x * 10 ^ p <= / 2)%R -> fixed_text p x = fixed_text p 0.
Proof.
  intros H. pose proof (pow10_pos p) as P.
  assert (0 <= x)%R as Hx. { destruct (Rle_lt_dec 0 x) as [|C]; [assumption|]. pose proof (Rmult_lt_compat_r _ _ _ P C). lra. }
  unfold fixed_text. rewrite (Rabs_right x), (Rabs_right 0), !round_down by lra.
  destruct (Rlt_dec x 0); [lra|]. destruct (Rlt_dec 0 0); [lra|]. reflexivity.
Qed.
Lemma times_equal w p D i j : (0 < D)%R -> (INR i * D * 10 ^ p <= / 2)%R -> (INR j * D * 10 ^ p <= / 2)%R ->
  number_text (Fixed w p) (Fin (INR i * D)) = number_text (Fixed w p) (Fin (INR j * D)).
Proof.
  intros HD Hi Hj. pose proof (pow10_pos p). cbn [number_text]. rewrite (fixed_small p (INR i * D)), (fixed_small p (INR j * D)); [reflexivity|..]; (split; [|assumption]);
  (apply Rmult_le_pos; [apply Rmult_le_pos; [apply pos_INR|lra]|lra]).
Qed.

(** ** words *)
Lemma word_cons c t : word (String c t) -> is_space c = false /\ every (fun c => ~ white_char c) t.
Proof. intros [_ [H1 H2]]. split; [|assumption]. now apply is_space_false. Qed.
Lemma split_white w s : white w -> split_from "" (w ++ s) = split_from "" s.
Proof. induction w as [|c w IH]; intros H; [reflexivity|]. destruct H as [Hc H]. cbn. apply is_space_spec in Hc. rewrite Hc. auto. Qed.
Lemma split_word w : forall cur s, every (fun c => ~ white_char c) w -> split_from cur (w ++ s) = split_from (cur ++ w) s.
Proof.
  induction w as [|c w IH]; intros cur s H; [now rewrite sapp_nil|]. destruct H as [Hc H]. cbn. apply is_space_false in Hc. rewrite Hc, IH by assumption.
  now rewrite sapp_assoc.
Qed.
Lemma words_split s ws : words_text s ws -> py_split s = ws.
Proof.
  unfold py_split. induction 1 as [s H|w1 w H1 H2|w1 w c rest ws H1 [N H2] H3 H4 IH].
  - rewrite <- (sapp_nil s), split_white by assumption. reflexivity.
  - destruct H2 as [N H2]. rewrite split_white by assumption. rewrite <- (sapp_nil w) at 1. rewrite split_word by assumption. cbn. destruct w; [congruence|reflexivity].
  - rewrite split_white, split_word by assumption. cbn. apply is_space_spec in H3. rewrite H3. destruct w; [congruence|]. now rewrite IH.
Qed.
Lemma split_words_from s : forall cur, every (fun c => ~ white_char c) cur ->
  (cur = "" -> words_text s (split_from "" s)) /\ (cur <> "" -> words_text (cur ++ s) (split_from cur s)).
Proof.
  induction s as [|c s IH]; intros cur Hc; split; intros Hn; cbn [split_from].
  - apply words_none. exact I.
  - rewrite sapp_nil. destruct cur; [congruence|]. apply (words_last ""); [exact I|]. split; [discriminate|assumption].
  - destruct (is_space c) eqn:E.
    + destruct (IH "" I) as [H _]. specialize (H eq_refl). apply is_space_spec in E. revert H. generalize (split_from "" s). intros ws H. inversion H; subst.
      * apply words_none. split; assumption.
      * apply (words_last (String c w1)); [split; assumption|assumption].
      * apply (words_more (String c w1)); [split; assumption|assumption..].
    + cbn. destruct (IH (String c "")) as [_ H]; [split; [now apply is_space_false|exact I]|]. apply H. discriminate.
  - destruct (is_space c) eqn:E.
    + destruct cur; [congruence|]. apply (words_more "" (String a cur) c s); [exact I|split; [discriminate|assumption]|now apply is_space_spec|].
      destruct (IH "" I) as [H _]. auto.
    + destruct (IH (cur ++ String c "")) as [_ H]; [apply every_app; split; [assumption|split; [now apply is_space_false|exact I]]|].
      rewrite sapp_assoc in H. cbn in H. apply H. destruct cur; discriminate.
Qed.
Lemma split_words s : words_text s (py_split s).
Proof. destruct (split_words_from s "" I) as [H _]. auto. Qed.
Lemma table_line_words line ws : table_line line ws <-> line_words line = ws.
Proof.
  split.
  - intros (body & comment & -> & H & C & W). unfold line_words. destruct C as [->|(c & t & -> & [<-|[]])].
    + rewrite sapp_nil, split_none by assumption. cbn. now apply words_split.
    + rewrite split_some by (cbn; auto). cbn. now apply words_split.
  - intros <-. unfold line_words. destruct (split_at ["#"%char] line) as [a o] eqn:E. destruct (split_inv _ _ _ _ E) as [H1 H2].
    exists a. destruct o as [b|].
    + destruct H2 as (c & Hc & ->). exists (String c b). repeat split; auto; [right; eexists _, _; eauto|apply split_words].
    + subst. exists "". rewrite sapp_nil. repeat split; auto. apply split_words.
Qed.
Lemma loose_spec w x : loose_float w = x <-> (float_text w x \/ (forall y, ~ float_text w y) /\ x = NaN).
Proof.
  unfold loose_float. destruct (py_float w) as [y|] eqn:E.
  - apply float_all in E. split; [intros <-; auto|]. intros [H|[H _]]; [eapply float_text_fun; eassumption|]. now apply H in E.
  - assert (forall y, ~ float_text w y) as N. { intros y H. apply float_all in H. congruence. }
    split; [intros <-; auto|]. intros [H|[_ ->]]; [now apply N in H|reflexivity].
Qed.
Lemma numbers_line_eq line row : numbers_line line row <-> map loose_float (line_words line) = row.
Proof.
  split.
  - intros (ws & T & F). apply table_line_words in T. rewrite T. clear T line. induction F; cbn; [reflexivity|]. f_equal; [|assumption]. now apply loose_spec.
  - intros <-. exists (line_words line). split; [now apply table_line_words|]. induction (line_words line); cbn; constructor; [|assumption]. now apply loose_spec.
Qed.
Lemma line_total line : exists row, numbers_line line row.
Proof. eexists. now apply numbers_line_eq. Qed.
Lemma genfromtxt_rows ls : filter (fun ws : list string => match ws with [] => false | _ => true end) (map line_words ls) = [] /\ rows_in (map (fun l => map loose_float (line_words l)) ls) = [] \/
  exists r0 t, filter (fun ws : list string => match ws with [] => false | _ => true end) (map line_words ls) = r0 :: t /\ rows_in (map (fun l => map loose_float (line_words l)) ls) = map (map loose_float) (r0 :: t).
Proof.
  assert (rows_in (map (fun l => map loose_float (line_words l)) ls) = map (map loose_float) (filter (fun ws : list string => match ws with [] => false | _ => true end) (map line_words ls))) as E.
  { unfold rows_in. induction ls as [|l ls IH]; [reflexivity|]. cbn. destruct (line_words l) eqn:E; cbn; [assumption|]. now rewrite IH. }
  rewrite E. destruct (filter _ _) as [|r0 t]; [auto|]. right. eauto.
Qed.
Lemma numbers_lines ls all : Forall2 numbers_line ls all -> all = map (fun l => map loose_float (line_words l)) ls.
Proof. induction 1; cbn; [reflexivity|]. f_equal; [|assumption]. symmetry. now apply numbers_line_eq. Qed.
Lemma genfromtxt_reads text ls all : text_of ls text -> Forall single_line ls -> Forall2 numbers_line ls all ->
  ((forall r r', In r (rows_in all) -> In r' (rows_in all) -> length r = length r') -> genfromtxt text = Ok (rows_in all)) /\
  ((exists r r', In r (rows_in all) /\ In r' (rows_in all) /\ length r <> length r') -> genfromtxt text = Err ValueError).
Proof.
  intros T S F. unfold genfromtxt. rewrite (lines_of _ _ T S). apply numbers_lines in F. subst all.
  destruct (genfromtxt_rows ls) as [[E1 E2]|(r0 & t & E1 & E2)]; rewrite E1, E2.
  - split; [reflexivity|]. intros (r & r' & [] & _).
  - split.
    + intros H. assert (forallb (fun r => Nat.eqb (length r) (length r0)) (r0 :: t) = true) as ->; [|reflexivity].
      apply forallb_forall. intros r Hr. apply Nat.eqb_eq. specialize (H (map loose_float r) (map loose_float r0)). rewrite !map_length in H.
      apply H; apply in_map; [assumption|left; reflexivity].
    + intros (r & r' & H1 & H2 & N). destruct (forallb _ _) eqn:B; [exfalso|reflexivity]. rewrite forallb_forall in B.
      apply in_map_iff in H1 as (a & <- & Ha). apply in_map_iff in H2 as (b & <- & Hb). apply B, Nat.eqb_eq in Ha. apply B, Nat.eqb_eq in Hb.
      rewrite !map_length in N. lia.
Qed.
