(** Proofs about ordinals (C55) *)
From Coq Require Import Lia Decimal DecimalString DecimalZ DecimalPos.
From Verif Require Import PyBase Model_xr Model_input Proof_base Proof_input Model_files Spec_files Proof_files.
Open Scope string_scope.
Open Scope Z_scope.
Ltac Zify.zify_post_hook ::= idtac.

Fixpoint val (acc : Z) (d : uint) : Z :=
  match d with
  | Nil => acc
  | D0 l => val (10 * acc) l | D1 l => val (10 * acc + 1) l | D2 l => val (10 * acc + 2) l | D3 l => val (10 * acc + 3) l
  | D4 l => val (10 * acc + 4) l | D5 l => val (10 * acc + 5) l | D6 l => val (10 * acc + 6) l | D7 l => val (10 * acc + 7) l
  | D8 l => val (10 * acc + 8) l | D9 l => val (10 * acc + 9) l
  end.
Definition chr (k : Z) : ascii := nth (Z.to_nat k) ["0"; "1"; "2"; "3"; "4"; "5"; "6"; "7"; "8"; "9"]%char "0"%char.

Lemma last_digit d : d <> Nil -> exists d0 k, 0 <= k < 10 /\
  NilEmpty.string_of_uint d = (NilEmpty.string_of_uint d0 ++ String (chr k) "")%string /\
  forall acc, val acc d = 10 * val acc d0 + k.
Proof.
  induction d as [|d IH|d IH|d IH|d IH|d IH|d IH|d IH|d IH|d IH|d IH]; [congruence|intros _..];
  match goal with
  | |- context [val _ (D0 d)] => pose (k := 0) | |- context [val _ (D1 d)] => pose (k := 1)
  | |- context [val _ (D2 d)] => pose (k := 2) | |- context [val _ (D3 d)] => pose (k := 3)
  | |- context [val _ (D4 d)] => pose (k := 4) | |- context [val _ (D5 d)] => pose (k := 5)
  | |- context [val _ (D6 d)] => pose (k := 6) | |- context [val _ (D7 d)] => pose (k := 7)
  | |- context [val _ (D8 d)] => pose (k := 8) | |- context [val _ (D9 d)] => pose (k := 9)
  end;
  (destruct (uint_eq_dec d Nil) as [->|Hd];
   [exists Nil, k; split; [unfold k; lia|]; split; [reflexivity|]; intro acc; unfold k; cbn [val]; lia
   |destruct (IH Hd) as (d0 & j & Hj & Hs & Hv);
    match goal with
    | |- context [val _ (?D d)] => exists (D d0), j; split; [exact Hj|]; split; [cbn [NilEmpty.string_of_uint]; rewrite Hs; reflexivity|];
        intro acc; cbn [val]; apply Hv
    end]).
Qed.

Lemma val_pos_acc d : forall acc, Zpos (Pos.of_uint_acc d acc) = val (Zpos acc) d.
Proof.
  induction d as [|d IH|d IH|d IH|d IH|d IH|d IH|d IH|d IH|d IH|d IH]; intro acc; cbn [Pos.of_uint_acc val]; [reflexivity|rewrite IH; f_equal; lia..].
Qed.
Lemma val_pos d : Z.of_N (Pos.of_uint d) = val 0 d.
Proof.
  induction d as [|d IH|d IH|d IH|d IH|d IH|d IH|d IH|d IH|d IH|d IH]; cbn [Pos.of_uint val]; [reflexivity|exact IH|..];
    cbn [Z.of_N]; rewrite val_pos_acc; reflexivity.
Qed.

Lemma digits_of n : 0 <= n -> exists d, d <> Nil /\ string_of_Z n = NilEmpty.string_of_uint d /\ n = val 0 d.
Proof.
  intro H. unfold string_of_Z. pose proof (DecimalZ.of_to n) as E. destruct n as [|p|p]; [|..|lia].
  - exists (D0 Nil). repeat split. discriminate.
  - cbn [Z.to_int] in *. exists (Pos.to_uint p). split; [apply Unsigned.to_uint_nonnil|]. split.
    + unfold NilZero.string_of_int, NilZero.string_of_uint. pose proof (Unsigned.to_uint_nonnil p). destruct (Pos.to_uint p); congruence.
    + rewrite <- val_pos. symmetry. exact E.
Qed.

Lemma ends_one p c x : ends_with (String x "") (p ++ String c "") <-> c = x.
Proof.
  split.
  - intros (q & E). revert q E. induction p as [|y p IH]; intros [|z q] E; cbn in E.
    + congruence.
    + destruct q; discriminate.
    + destruct p; discriminate.
    + injection E as _ E. eauto.
  - intros ->. exists p. reflexivity.
Qed.
Lemma ends_two p b c x y : ends_with (String x (String y "")) (p ++ String b (String c "")) <-> b = x /\ c = y.
Proof.
  split.
  - intros (q & E). revert q E. induction p as [|u p IH]; intros [|v q] E; cbn in E.
    + split; congruence.
    + destruct q as [|? [|? ?]]; discriminate.
    + destruct p as [|? [|? ?]]; discriminate.
    + injection E as _ E. eauto.
  - intros [-> ->]. exists p. reflexivity.
Qed.
Lemma ends_short c x y : ~ ends_with (String x (String y "")) (String c "").
Proof. intros ([|z q] & E); cbn in E; [discriminate|]. injection E as _ E. destruct q; discriminate. Qed.

Ltac digit k H := assert (k = 0 \/ k = 1 \/ k = 2 \/ k = 3 \/ k = 4 \/ k = 5 \/ k = 6 \/ k = 7 \/ k = 8 \/ k = 9) as H by lia.
Ltac nope := let X := fresh in intro X; vm_compute in X; discriminate X.
Ltac nope2 := let A := fresh in let B := fresh in intros [A B]; vm_compute in A, B; first [discriminate A|discriminate B].
Ltac pick1 :=
  first [left; split; reflexivity | right; left; split; reflexivity | right; right; left; split; reflexivity
        | right; right; right; split; [nope|]; split; [nope|]; split; [nope|reflexivity]].
Ltac pick := first [pick1
  | right; split; [nope2|]; split; [nope2|]; split; [nope2|]; pick1
  | left; split; [first [left; split; reflexivity | right; left; split; reflexivity | right; right; split; reflexivity]|reflexivity]].
Lemma ordinal_ok n : 0 <= n -> exists suffix, make_ordinal n = (string_of_Z n ++ suffix)%string /\ english_suffix (string_of_Z n) suffix.
Proof.
  intro Hn. destruct (digits_of n Hn) as (d & Hd & Es & En). destruct (last_digit d Hd) as (d0 & k & Hk & Hs & Hv).
  assert (Hm : n mod 10 = k). { rewrite En, Hv. rewrite Z.mul_comm, Z.add_comm, Z.mod_add by lia. apply Z.mod_small. exact Hk. }
  unfold make_ordinal. rewrite Hm. clear Hm. eexists. split; [reflexivity|]. rewrite Es.
  destruct (uint_eq_dec d0 Nil) as [->|Hd0].
  - assert (n mod 100 = k) as -> by (rewrite En, Hv; cbn [val]; apply Z.mod_small; lia).
    rewrite Hs. cbn [NilEmpty.string_of_uint append]. right.
    split; [apply ends_short|]. split; [apply ends_short|]. split; [apply ends_short|].
    assert (Q : forall x, ends_with (String x "") (String (chr k) "") <-> chr k = x) by (intro x; apply (ends_one "")).
    rewrite !Q.
    digit k H. decompose [or] H; subst k; clear; pick.
  - destruct (last_digit d0 Hd0) as (d1 & j & Hj & Hs1 & Hv1).
    assert (n mod 100 = 10 * j + k) as ->.
    { rewrite En, Hv, Hv1. replace (10 * (10 * val 0 d1 + j) + k) with (10 * j + k + val 0 d1 * 100) by lia.
      rewrite Z.mod_add by lia. apply Z.mod_small. lia. }
    rewrite Hs, Hs1. rewrite str_app_assoc. cbn [append]. unfold english_suffix. rewrite !ends_two.
    assert (Q : forall x, ends_with (String x "") (NilEmpty.string_of_uint d1 ++ String (chr j) (String (chr k) "")) <-> chr k = x).
    { intro x. change (String (chr j) (String (chr k) "")) with (String (chr j) "" ++ String (chr k) "")%string.
      rewrite <- str_app_assoc. apply ends_one. }
    rewrite !Q. clear Q.
    digit k H. digit j H'. decompose [or] H; subst k; decompose [or] H'; subst j; clear; pick.
Qed.
