(** Numbers as text, properties C90 and C92 *)
From Coq Require Import Lia Lra Decimal DecimalString DecimalFacts DecimalPos DecimalZ DecimalN.
From Verif Require Import PyBase Model_xr Model_input Model_ini Model_files Model_text Spec_ini Spec_text Proof_ini Proof_ini2 Proof_ini3.
Open Scope string_scope.
Open Scope Z_scope.
Ltac Zify.zify_post_hook ::= idtac.

(** ** integers *)
Fixpoint uint_digits (u : uint) : list Z :=
  match u with
  | Nil => [] | D0 u => 0 :: uint_digits u | D1 u => 1 :: uint_digits u | D2 u => 2 :: uint_digits u | D3 u => 3 :: uint_digits u
  | D4 u => 4 :: uint_digits u | D5 u => 5 :: uint_digits u | D6 u => 6 :: uint_digits u | D7 u => 7 :: uint_digits u
  | D8 u => 8 :: uint_digits u | D9 u => 9 :: uint_digits u
  end.
Lemma uint_run u : u <> Nil -> digit_run (NilEmpty.string_of_uint u) (uint_digits u).
Proof.
  assert (forall c d u, digit_char c d -> (u <> Nil -> digit_run (NilEmpty.string_of_uint u) (uint_digits u)) ->
    digit_run (String c (NilEmpty.string_of_uint u)) (d :: uint_digits u)) as St.
  { intros c d v Hc IH. destruct v; try (apply run_more; [assumption|apply IH; discriminate]). apply run_one, Hc. }
  induction u; intros H; [congruence| | | | | | | | | |]; cbn [NilEmpty.string_of_uint uint_digits]; apply St; try assumption; split; cbn; lia.
Qed.
Lemma acc_digits u : forall p, Zpos (Pos.of_uint_acc u p) = fold_left (fun a d => 10 * a + d) (uint_digits u) (Zpos p).
Proof.
  induction u; intros p; cbn [Pos.of_uint_acc uint_digits fold_left]; [reflexivity| | | | | | | | | |]; rewrite IHu; f_equal; lia.
Qed.
Lemma uint_value u : Z.of_uint u = decimal (uint_digits u).
Proof.
  unfold Z.of_uint, decimal. assert (forall v p, Z.of_N (N.pos (Pos.of_uint_acc v p)) = fold_left (fun a d => 10 * a + d) (uint_digits v) (Z.pos p)) as A.
  { intros v p. apply acc_digits. }
  induction u; cbn [Pos.of_uint uint_digits fold_left Z.of_N Z.mul Z.add Pos.mul Pos.add]; [reflexivity|apply IHu| | | | | | | | |]; apply acc_digits.
Qed.
Lemma to_uint_nonnil n : N.to_uint n <> Nil.
Proof.
  intros H. pose proof (DecimalN.Unsigned.of_to n) as O. rewrite H in O. cbn in O. subst n. discriminate.
Qed.
Lemma string_of_Z_run n : 0 <= n -> exists ds, digit_run (string_of_Z n) ds /\ number ds = n.
Proof.
  intros H. unfold string_of_Z. destruct n as [|p|p]; [|..|lia].
  - exists [0]. split; [apply run_one; split; cbn; lia|reflexivity].
  - cbn [Z.to_int NilZero.string_of_int].
    pose proof (to_uint_nonnil (N.pos p)) as Hn. cbn [N.to_uint] in Hn.
    exists (uint_digits (Pos.to_uint p)). split.
    + unfold NilZero.string_of_uint. destruct (Pos.to_uint p) eqn:E; [congruence|..]; rewrite <- E in *; apply uint_run; congruence.
    + rewrite <- decimal_number, <- uint_value. unfold Z.of_uint.
      pose proof (DecimalPos.Unsigned.of_to p) as E. rewrite E. reflexivity.
Qed.

(** ** decimals *)
Lemma digit_ascii_char d : 0 <= d <= 9 -> digit_char (digit_ascii d) d.
Proof. intros H. split; [assumption|]. unfold digit_ascii. rewrite nat_ascii_embedding by lia. lia. Qed.
Lemma run_snoc s ds c d : digit_run s ds -> digit_char c d -> digit_run (s ++ String c "") (ds ++ [d])%list.
Proof.
  induction 1; intros Hc; cbn.
  - apply run_more; [assumption|]. now apply run_one.
  - apply run_more; auto.
  - apply run_under; auto.
Qed.
Lemma low_digits_run : forall p n, (0 < p)%nat -> 0 <= n < 10 ^ Z.of_nat p ->
  exists ds, digit_run (low_digits p n) ds /\ number ds = n /\ length ds = p.
Proof.
  induction p as [|p IH]; intros n Hp Hn; [lia|]. cbn [low_digits].
  assert (0 <= n mod 10 <= 9) as Hm by (pose proof (Z.mod_pos_bound n 10); lia).
  rewrite Nat2Z.inj_succ, Z.pow_succ_r in Hn by lia.
  destruct p as [|p].
  - exists [n mod 10]. split; [apply run_one, digit_ascii_char, Hm|]. cbn. split; [|reflexivity]. rewrite Z.mod_small by (cbn in Hn; lia). lia.
  - destruct (IH (n / 10) ltac:(lia)) as (ds & H1 & H2 & H3).
    { split; [apply Z.div_pos; lia|]. apply Z.div_lt_upper_bound; lia. }
    exists (ds ++ [n mod 10])%list. split; [apply run_snoc; [assumption|apply digit_ascii_char, Hm]|]. split.
    + rewrite number_app, H2. cbn. pose proof (Z.div_mod n 10). lia.
    + rewrite app_length. cbn. lia.
Qed.
Lemma length_app a b : String.length (a ++ b) = (String.length a + String.length b)%nat.
Proof. induction a; cbn; [reflexivity|]. now rewrite IHa. Qed.
Lemma low_digits_length p n : String.length (low_digits p n) = p.
Proof. revert n. induction p as [|p IH]; intros n; cbn [low_digits]; [reflexivity|]. rewrite length_app, IH. cbn. lia. Qed.
Lemma length_spaces n : String.length (spaces n) = n.
Proof. induction n; cbn; auto. Qed.
Lemma length_pad w s : String.length (pad w s) = Nat.max w (String.length s).
Proof. unfold pad. rewrite length_app, length_spaces. lia. Qed.
Lemma white_spaces n : white (spaces n).
Proof. induction n; cbn; [exact I|]. split; [|assumption]. cbn. tauto. Qed.

(** ** rounding *)
Lemma int_part_bounds x : (IZR (Int_part x) <= x < IZR (Int_part x) + 1)%R.
Proof. destruct (base_Int_part x). lra. Qed.
Lemma int_part_unique x k : (IZR k <= x < IZR k + 1)%R -> Int_part x = k.
Proof.
  intros H. pose proof (int_part_bounds x) as B. assert (Int_part x < k + 1) by (apply lt_IZR; rewrite plus_IZR; lra).
  assert (k < Int_part x + 1) by (apply lt_IZR; rewrite plus_IZR; lra). lia.
Qed.
Lemma round_even_near x : (Rabs (x - IZR (round_even x)) <= / 2)%R.
Proof.
  unfold round_even. pose proof (int_part_bounds x) as B.
  assert (Rabs (x - IZR (Int_part x)) = x - IZR (Int_part x))%R as A by (apply Rabs_right; lra).
  destruct (Rlt_dec _ _) as [H|H]; [rewrite A; lra|].
  destruct (Rlt_dec _ _) as [H'|H']; [rewrite plus_IZR, Rabs_left1; lra|].
  destruct (Z.even _); [rewrite A; lra|rewrite plus_IZR, Rabs_left1; lra].
Qed.
Lemma round_even_int k : round_even (IZR k) = k.
Proof.
  unfold round_even. rewrite (int_part_unique _ k) by lra. destruct (Rlt_dec _ _) as [H|H]; [reflexivity|]. lra.
Qed.
Lemma Rabs_bounds a b : (Rabs a <= b -> - b <= a <= b)%R.
Proof. unfold Rabs. destruct (Rcase_abs a); lra. Qed.
Lemma round_even_mono x y : (x <= y)%R -> round_even x <= round_even y.
Proof.
  intros H. destruct (Z.le_gt_cases (round_even x) (round_even y)) as [C|C]; [assumption|exfalso].
  pose proof (round_even_near x) as A. pose proof (round_even_near y) as B.
  apply Rabs_bounds in A, B.
  assert (IZR (round_even y) + 1 <= IZR (round_even x))%R by (rewrite <- plus_IZR; apply IZR_le; lia).
  assert (x = y) by lra. subst y. lia.
Qed.
Lemma round_even_pos x : (0 <= x)%R -> 0 <= round_even x.
Proof. intros H. rewrite <- (round_even_int 0). apply round_even_mono. assumption. Qed.

(** ** the value of the text of a number *)
Definition shown (p : nat) (x : R) : R :=
  ((if Rlt_dec x 0 then -1 else 1) * IZR (round_even (Rabs x * 10 ^ p)) / 10 ^ p)%R.
Lemma pow10_pos p : (0 < 10 ^ p)%R.
Proof. apply pow_lt. lra. Qed.
Lemma pow10_IZR p : (10 ^ p)%R = IZR (10 ^ Z.of_nat p).
Proof. now rewrite pow_IZR. Qed.
Lemma shown_near p x : (Rabs (x - shown p x) <= / 2 * / 10 ^ p)%R.
Proof.
  unfold shown. set (n := round_even _). pose proof (pow10_pos p) as P.
  pose proof (round_even_near (Rabs x * 10 ^ p)) as N. fold n in N. apply Rabs_bounds in N.
  assert (Rabs (Rabs x - IZR n / 10 ^ p) <= / 2 * / 10 ^ p)%R as A.
  { replace (Rabs x - IZR n / 10 ^ p)%R with ((Rabs x * 10 ^ p - IZR n) * / 10 ^ p)%R by (field; lra).
    rewrite Rabs_mult, (Rabs_right (/ 10 ^ p)) by (apply Rle_ge, Rlt_le, Rinv_0_lt_compat, P).
    apply Rmult_le_compat_r; [apply Rlt_le, Rinv_0_lt_compat, P|]. apply Rabs_le. lra. }
  destruct (Rlt_dec x 0) as [H|H].
  - rewrite (Rabs_left x) in A by assumption. replace (x - -1 * IZR n / 10 ^ p)%R with (- (- x - IZR n / 10 ^ p))%R by lra.
    now rewrite Rabs_Ropp.
  - rewrite (Rabs_right x) in A by lra. replace (x - 1 * IZR n / 10 ^ p)%R with (x - IZR n / 10 ^ p)%R by lra. assumption.
Qed.
Lemma shown_exact p x z : (x * 10 ^ p = IZR z)%R -> shown p x = x.
Proof.
  intros H. pose proof (pow10_pos p) as P. unfold shown. 
  assert (Rabs x * 10 ^ p = IZR (Z.abs z))%R as E.
  { rewrite abs_IZR, <- H, Rabs_mult, (Rabs_right (10 ^ p)); lra. }
  rewrite E, round_even_int, <- E. destruct (Rlt_dec x 0); [rewrite Rabs_left by assumption|rewrite Rabs_right by lra]; field; lra.
Qed.
Lemma div_le_pow a b p : (a <= b -> a / 10 ^ p <= b / 10 ^ p)%R.
Proof. intros H. apply Rmult_le_compat_r; [apply Rlt_le, Rinv_0_lt_compat, pow10_pos|assumption]. Qed.
Lemma shown_mono p x y : (x <= y -> shown p x <= shown p y)%R.
Proof.
  intros H. unfold shown. pose proof (pow10_pos p) as P.
  assert (forall z, 0 <= IZR (round_even (Rabs z * 10 ^ p)))%R as Q.
  { intros z. apply IZR_le, round_even_pos. pose proof (Rabs_pos z). apply Rmult_le_pos; lra. }
  assert (forall u v, Rabs u <= Rabs v -> IZR (round_even (Rabs u * 10 ^ p)) <= IZR (round_even (Rabs v * 10 ^ p)))%R as M.
  { intros u v U. apply IZR_le, round_even_mono, Rmult_le_compat_r; lra. }
  apply div_le_pow. destruct (Rlt_dec x 0) as [A|A], (Rlt_dec y 0) as [B|B].
  - specialize (M y x). rewrite (Rabs_left x), (Rabs_left y) in * by assumption. lra.
  - pose proof (Q x). pose proof (Q y). lra.
  - lra.
  - specialize (M x y). rewrite (Rabs_right x), (Rabs_right y) in * by lra. lra.
Qed.

Lemma fixed_parts p x : exists sg m ds fs, fixed_text p x = sg ++ m /\ sign_text sg (if Rlt_dec x 0 then -1 else 1) /\
  mantissa_text m ds fs /\ length fs = p /\
  number ds * 10 ^ Z.of_nat p + number fs = round_even (Rabs x * 10 ^ p).
Proof.
  unfold fixed_text. set (n := round_even _).
  assert (0 <= n) as Hn. { apply round_even_pos. pose proof (Rabs_pos x). pose proof (pow10_pos p). apply Rmult_le_pos; lra. }
  assert (0 < 10 ^ Z.of_nat p) as P by (apply Z.pow_pos_nonneg; lia).
  destruct (string_of_Z_run (n / 10 ^ Z.of_nat p)) as (ds & R1 & V1). { apply Z.div_pos; lia. }
  destruct p as [|p].
  - eexists _, _, ds, []. split; [reflexivity|]. split; [destruct (Rlt_dec x 0); cbn; unfold sign_text; auto|]. rewrite sapp_nil. split; [left; auto|].
    split; [reflexivity|]. change (10 ^ Z.of_nat 0) with 1 in *. cbn [number]. rewrite V1, Z.div_1_r. lia.
  - set (q := S p) in *. destruct (low_digits_run q (n mod 10 ^ Z.of_nat q)) as (fs & R2 & V2 & L2); [lia|apply Z.mod_pos_bound; lia|].
    eexists _, _, ds, fs. split; [reflexivity|]. split; [destruct (Rlt_dec x 0); cbn; unfold sign_text; auto|]. split; [|split; [assumption|]].
    + right. eexists _, _. split; [reflexivity|]. split; [right; exact R1|]. split; [right; exact R2|]. left. eapply run_nonempty, R1.
    + rewrite V1, V2. rewrite (Z.div_mod n (10 ^ Z.of_nat q)) at 3 by lia. lia.
Qed.
Lemma fixed_float w p x y : float_value (shown p x) y -> float_text (pad w (fixed_text p x)) y.
Proof.
  intros H. destruct (fixed_parts p x) as (sg & m & ds & fs & E & S & M & L & V).
  unfold pad. set (sp := spaces _). rewrite E. exists sp, sg, m, "", (if Rlt_dec x 0 then -1 else 1).
  rewrite sapp_nil. split; [reflexivity|]. split; [apply white_spaces|]. split; [exact I|]. split; [assumption|].
  right. right. exists m, "", ds, fs, 0. rewrite sapp_nil. split; [reflexivity|]. split; [assumption|]. split; [left; auto|].
  replace (IZR (if Rlt_dec x 0 then -1 else 1) * (IZR (number ds) + IZR (number fs) * powerRZ 10 (- Z.of_nat (length fs))) * powerRZ 10 0)%R with (shown p x); [assumption|].
  unfold shown. rewrite <- V, L, plus_IZR, mult_IZR, <- pow10_IZR, powerRZ_neg', <- pow_powerRZ. change (powerRZ 10 0) with 1%R.
  pose proof (pow10_pos p). destruct (Rlt_dec x 0); field; lra.
Qed.
Lemma big_limit : (10 ^ 300 + 1 < 2 ^ 1024 - 2 ^ 970)%R.
Proof.
  rewrite (pow10_IZR 300), !(pow_IZR 2), <- plus_IZR, <- minus_IZR. apply IZR_lt. reflexivity.
Qed.
Lemma shown_value p x : (Rabs x <= 10 ^ 300)%R -> float_value (shown p x) (Fin (shown p x)).
Proof.
  intros H. left. split; [|reflexivity]. pose proof (shown_near p x) as N. pose proof big_limit as B.
  assert (/ 2 * / 10 ^ p <= 1)%R as Q.
  { assert (/ 10 ^ p <= 1)%R; [|lra]. rewrite <- Rinv_1. apply Rinv_le_contravar; [lra|]. apply pow_R1_Rle. lra. }
  pose proof (Rabs_triang (shown p x - x) x) as T. rewrite Rabs_minus_sym in N.
  replace (shown p x - x + x)%R with (shown p x) in T by lra. lra.
Qed.

Definition read_back (p : nat) (x : xreal) : xreal := match x with Fin r => Fin (shown p r) | _ => x end.
Lemma read_back_near p x : near p x (read_back p x).
Proof. destruct x; cbn; auto. apply shown_near. Qed.
Lemma number_float w p x : moderate x -> exists s, number_text (Fixed w p) x = Ok s /\ float_text s (read_back p x).
Proof.
  intros H. eexists. split; [reflexivity|]. destruct x as [r| | |]; cbn [read_back].
  - apply fixed_float, shown_value, H.
  - unfold pad. exists (spaces (w - 3)), "", "inf", "", 1. repeat split; [apply white_spaces|left; auto|]. left. cbn. auto.
  - unfold pad. exists (spaces (w - 4)), "-", "inf", "", (-1). repeat split; [apply white_spaces|right; right; auto|]. left. cbn. auto.
  - unfold pad. exists (spaces (w - 3)), "", "nan", "", 1. repeat split; [apply white_spaces|left; auto|]. right. left. auto.
Qed.
