(** The text of the input file: numbers *)
From Coq Require Import Lia Lra Reals.
From Verif Require Import PyBase Model_xr Model_input Model_ini Spec_ini Proof_base Proof_ini.
Open Scope string_scope.
Open Scope Z_scope.
Ltac Zify.zify_post_hook ::= idtac.

(** ** Digits *)
Lemma digit_spec c d : digit c = Some d <-> digit_char c d.
Proof.
  unfold digit, digit_char. unfold nat_of_ascii. set (n := N_of_ascii c). destruct (((48 <=? n) && (n <=? 57))%N) eqn:E.
  - apply andb_prop in E. destruct E as [E1 E2]. apply N.leb_le in E1, E2. split.
    + intro H. injection H as <-. lia.
    + intros [H1 H2]. f_equal. lia.
  - split; [discriminate|]. intros [H1 H2]. apply andb_false_iff in E. destruct E as [E|E]; apply N.leb_gt in E; lia.
Qed.
Lemma digit_char_not c d : digit_char c d -> c <> "_"%char /\ c <> "-"%char /\ c <> "+"%char /\ c <> "."%char /\ c <> "e"%char /\ c <> "E"%char /\ is_space c = false.
Proof.
  intro H. apply digit_spec in H. repeat split; try (intros ->; discriminate).
  destruct (is_space c) eqn:E; [|reflexivity]. exfalso. revert H E. 
  pose proof (all_ascii (fun c => negb (is_space c && match digit c with Some _ => true | None => false end)) ltac:(vm_compute; reflexivity) c) as G.
  cbn beta in G. intros E1 E2. rewrite E1, E2 in G. discriminate.
Qed.
Lemma eqb_false a b : a <> b -> Ascii.eqb a b = false.
Proof. apply Ascii.eqb_neq. Qed.

Lemma digits_sound : forall n s, (String.length s <= n)%nat -> 
  (forall ds, digits false s = Some ds -> digit_run s ds) /\
  (forall ds, digits true s = Some ds -> s = "" /\ ds = [] \/ digit_run s ds \/ exists t, s = String "_"%char t /\ digit_run t ds).
Proof.
  induction n as [|n IH]; intros s Hn.
  - destruct s; [|cbn in Hn; lia]. split; intros ds H; [discriminate|]. injection H as <-. now left.
  - assert (G : forall c t ds, s = String c t -> c <> "_"%char -> match digit c with Some d => option_map (cons d) (digits true t) | None => None end = Some ds -> digit_run s ds).
    { intros c t ds -> Hc H. cbn in Hn. destruct (digit c) as [d|] eqn:Ed; [|discriminate]. apply digit_spec in Ed. destruct (digits true t) as [ds'|] eqn:E; [|discriminate]. injection H as <-.
      destruct (proj2 (IH t ltac:(lia)) ds' E) as [[-> ->]|[H|(t' & -> & H)]]; [now constructor|now constructor|now constructor]. }
    split; intros ds H; (destruct s as [|c t]; [first [discriminate|injection H as <-; now left]|]); cbn [digits] in H.
    + destruct (Ascii.eqb_spec c "_"%char); [discriminate|]. now apply (G c t).
    + destruct (Ascii.eqb_spec c "_"%char) as [->|].
      * right. right. exists t. split; [reflexivity|]. apply (IH t); [cbn in Hn; lia|assumption].
      * right. left. now apply (G c t).
Qed.
Lemma digits_complete s ds : digit_run s ds -> digits false s = Some ds /\ digits true s = Some ds.
Proof.
  induction 1 as [c d H|c d s ds H _ [IH1 IH2]|c d s ds H _ [IH1 IH2]].
  - destruct (digit_char_not _ _ H) as (H1 & _). apply digit_spec in H. cbn. rewrite (eqb_false _ _ H1), H. now split.
  - destruct (digit_char_not _ _ H) as (H1 & _). apply digit_spec in H. cbn [digits]. rewrite (eqb_false _ _ H1), H, IH2. now split.
  - destruct (digit_char_not _ _ H) as (H1 & _). apply digit_spec in H. cbn [digits]. rewrite (eqb_false _ _ H1), H. cbn [Ascii.eqb Bool.eqb]. rewrite IH1. now split.
Qed.
Lemma digits_run s ds : digits false s = Some ds <-> digit_run s ds.
Proof. split; [intro H; apply (proj1 (digits_sound (String.length s) s (le_n _))); assumption|intro H; now apply digits_complete]. Qed.
Lemma decimal_number ds : decimal ds = number ds.
Proof.
  unfold decimal. assert (G : forall a, fold_left (fun a d => 10 * a + d) ds a = a * 10 ^ Z.of_nat (length ds) + number ds).
  { induction ds as [|d ds IH]; intro a; [cbn; lia|]. cbn [fold_left]. rewrite IH. cbn [length number]. rewrite Nat2Z.inj_succ, Z.pow_succ_r by lia. ring. }
  rewrite G. lia.
Qed.
Lemma number_app ds fs : number (ds ++ fs)%list = number ds * 10 ^ Z.of_nat (length fs) + number fs.
Proof.
  induction ds as [|d ds IH]; [cbn; lia|]. cbn [app number]. rewrite IH, app_length, Nat2Z.inj_add, Z.pow_add_r by lia. ring.
Qed.

(** ** Ends of texts *)
Lemma strip_parts s : exists w1 w2, s = w1 ++ strip s ++ w2 /\ white w1 /\ white w2.
Proof.
  assert (L : forall s, exists w, s = w ++ lstrip s /\ white w).
  { clear s. induction s as [|c s (w & E & W)]; [exists ""; now split|]. cbn. destruct (is_space c) eqn:Ec.
    - exists (String c w). apply is_space_spec in Ec. split; [cbn; congruence|now split].
    - exists "". now split. }
  assert (Rr : forall s, exists w, s = rstrip s ++ w /\ white w).
  { clear s. induction s as [|c s (w & E & W)]; [exists ""; now split|]. cbn. destruct (rstrip s) as [|d r].
    - destruct (is_space c) eqn:Ec.
      + exists (String c w). apply is_space_spec in Ec. split; [cbn in *; congruence|now split].
      + exists w. split; [cbn in *; congruence|assumption].
    - exists w. split; [cbn in *; congruence|assumption]. }
  destruct (L s) as (w1 & E1 & W1). destruct (Rr (lstrip s)) as (w2 & E2 & W2). exists w1, w2. split; [|now split]. unfold strip. rewrite <- E2. exact E1.
Qed.
(** last character *)
Definition nonwhite (c : ascii) : Prop := is_space c = false.
Fixpoint ends_ok (s : string) : Prop := match s with EmptyString => False | String c EmptyString => nonwhite c | String _ t => ends_ok t end.
Lemma ends_app a b : ends_ok b -> ends_ok (a ++ b).
Proof. intro H. induction a as [|c a IH]; [exact H|]. cbn. destruct (a ++ b) eqn:E; [destruct a; [destruct b; cbn in H; [tauto|discriminate]|discriminate]|exact IH]. Qed.
Lemma ends_last s : ends_ok s -> forall p c, s = p ++ String c "" -> ~ white_char c.
Proof.
  induction s as [|a s IH]; [intros []|]. intros H [|b p] c E; cbn in E; injection E as -> E.
  - subst s. now apply is_space_false.
  - subst s. destruct (p ++ String c "") eqn:E'; [destruct p; discriminate|]. apply (IH H p c). now rewrite E'.
Qed.
Lemma trimmed_intro c t : nonwhite c -> ends_ok (String c t) -> trimmed (String c t).
Proof.
  intros H1 H2. split; [|now apply ends_last]. intros a b E. injection E as <- <-. now apply is_space_false.
Qed.
Lemma run_first s ds : digit_run s ds -> exists c t d, s = String c t /\ digit_char c d.
Proof. destruct 1; do 3 eexists; split; reflexivity || eassumption. Qed.
Lemma run_ends s ds : digit_run s ds -> ends_ok s.
Proof.
  induction 1 as [c d H|c d s ds H H' IH|c d s ds H H' IH].
  - apply (digit_char_not c d H).
  - destruct (run_first _ _ H') as (c' & t & d' & -> & _). exact IH.
  - destruct (run_first _ _ H') as (c' & t & d' & -> & _). exact IH.
Qed.

(** ** Signs *)
Definition no_sign (s : string) : Prop := match s with String c _ => c <> "-"%char /\ c <> "+"%char | EmptyString => True end.
Lemma signed_text sg k t : sign_text sg k -> no_sign t -> signed (sg ++ t) = (k, t).
Proof.
  intros [[-> ->]|[[-> ->]|[-> ->]]] H; cbn; [|reflexivity|reflexivity]. destruct t as [|c t]; [reflexivity|]. destruct H as [H1 H2].
  cbn. now rewrite (eqb_false _ _ H1), (eqb_false _ _ H2).
Qed.
Lemma signed_inv s k t : signed s = (k, t) -> exists sg, s = sg ++ t /\ sign_text sg k.
Proof.
  destruct s as [|c s]; cbn; [intro H; injection H as <- <-; exists ""; split; [reflexivity|now left]|].
  destruct (Ascii.eqb_spec c "-"%char) as [->|]; [intro H; injection H as <- <-; exists "-"; split; [reflexivity|right; now right]|].
  destruct (Ascii.eqb_spec c "+"%char) as [->|]; intro H; injection H as <- <-; [exists "+"; split; [reflexivity|right; now left]|exists ""; split; [reflexivity|now left]].
Qed.
Lemma sign_trimmed sg k t : sign_text sg k -> trimmed t -> t <> "" -> trimmed (sg ++ t).
Proof.
  intros [[-> _]|[[-> _]|[-> _]]] Ht Hn; [exact Ht| |]; cbn; (split; [intros c u E; injection E as <- <-; intro W; apply is_space_spec in W; discriminate|]);
  (intros [|b p] c E; cbn in E; injection E as _ E; [congruence|]; eapply (proj2 Ht); eassumption).
Qed.
Lemma run_no_sign s ds t : digit_run s ds -> no_sign (s ++ t).
Proof. intro H. destruct (run_first _ _ H) as (c & u & d & -> & Hd). destruct (digit_char_not _ _ Hd) as (_ & H1 & H2 & _). now split. Qed.
Lemma run_trimmed s ds : digit_run s ds -> trimmed s.
Proof.
  intro H. pose proof (run_ends _ _ H) as E. destruct (run_first _ _ H) as (c & u & d & -> & Hd). apply trimmed_intro; [|assumption]. apply (digit_char_not _ _ Hd).
Qed.
Lemma run_nonempty s ds : digit_run s ds -> s <> "".
Proof. destruct 1; discriminate. Qed.

Lemma int_all s z : py_int s = Some z <-> int_text s z.
Proof.
  unfold py_int, int_text. split.
  - destruct (strip_parts s) as (w1 & w2 & E & W1 & W2). destruct (signed (strip s)) as [k t] eqn:Es. apply signed_inv in Es. destruct Es as (sg & Es & Sg).
    intro H. destruct (digits false t) as [ds|] eqn:Ed; [|discriminate]. cbn in H. injection H as <-. apply digits_run in Ed.
    exists w1, sg, t, w2, k, ds. rewrite Es, sapp_assoc in E. rewrite decimal_number. now repeat split.
  - intros (w1 & sg & run & w2 & k & ds & -> & W1 & W2 & Sg & Hr & ->).
    rewrite <- (sapp_assoc sg). rewrite (strip_around _ _ _ W1 W2); [|apply (sign_trimmed _ _ _ Sg); [eapply run_trimmed; eassumption|eapply run_nonempty; eassumption]].
    rewrite (signed_text _ _ _ Sg).
    + apply digits_run in Hr. rewrite Hr. cbn. now rewrite decimal_number.
    + rewrite <- (sapp_nil run). eapply run_no_sign. eassumption.
Qed.

(** ** float *)
Lemma split_none cs a : without cs a -> split_at cs a = (a, None).
Proof.
  induction a as [|c a IH]; [reflexivity|]. intros [H1 H2]. cbn. rewrite (IH H2).
  destruct (existsb (Ascii.eqb c) cs) eqn:E; [|reflexivity]. apply existsb_exists in E. destruct E as (x & Hx & Ex). apply Ascii.eqb_eq in Ex. subst. contradiction.
Qed.
Lemma split_some cs a c b : without cs a -> In c cs -> split_at cs (a ++ String c b) = (a, Some b).
Proof.
  intros H Hc. induction a as [|x a IH]; cbn.
  - replace (existsb (Ascii.eqb c) cs) with true; [reflexivity|]. symmetry. apply existsb_exists. exists c. now rewrite Ascii.eqb_refl.
  - destruct H as [H1 H2]. rewrite (IH H2). destruct (existsb (Ascii.eqb x) cs) eqn:E; [|reflexivity].
    apply existsb_exists in E. destruct E as (y & Hy & Ey). apply Ascii.eqb_eq in Ey. subst. contradiction.
Qed.
Lemma split_inv cs s a o : split_at cs s = (a, o) -> without cs a /\ match o with None => s = a | Some b => exists c, In c cs /\ s = a ++ String c b end.
Proof.
  revert a o. induction s as [|x s IH]; intros a o H; cbn in H.
  - injection H as <- <-. now split.
  - destruct (existsb (Ascii.eqb x) cs) eqn:E.
    + injection H as <- <-. split; [exact I|]. apply existsb_exists in E. destruct E as (y & Hy & Ey). apply Ascii.eqb_eq in Ey. subst. now exists y.
    + destruct (split_at cs s) as [a' o'] eqn:Es. injection H as <- <-. destruct (IH _ _ eq_refl) as [H1 H2]. split.
      * split; [|exact H1]. intro Hi. assert (F : existsb (Ascii.eqb x) cs = true) by (apply existsb_exists; exists x; now rewrite Ascii.eqb_refl). congruence.
      * destruct o' as [b|]; [destruct H2 as (c & Hc & ->); now exists c|congruence].
Qed.
Lemma run_without s ds cs : digit_run s ds -> (forall c, In c cs -> c = "."%char \/ c = "e"%char \/ c = "E"%char) -> without cs s.
Proof.
  intros H Hc. assert (D : forall c d, digit_char c d -> ~ In c cs).
  { intros c d Hd Hi. destruct (digit_char_not _ _ Hd) as (_ & _ & _ & H1 & H2 & H3 & _). destruct (Hc _ Hi) as [->|[->| ->]]; contradiction. }
  assert (U : ~ In "_"%char cs) by (intro Hi; destruct (Hc _ Hi) as [E|[E|E]]; discriminate).
  induction H as [c d H|c d s ds H _ IH|c d s ds H _ IH]; cbn; repeat split; eauto.
Qed.
Lemma opt_without s ds cs : digits_or_none s ds -> (forall c, In c cs -> c = "."%char \/ c = "e"%char \/ c = "E"%char) -> without cs s.
Proof. intros [[-> _]|H] Hc; [exact I|eapply run_without; eassumption]. Qed.

Lemma mantissa_all s ds k : mantissa s = Some (ds, k) <-> exists a b, mantissa_text s a b /\ ds = (a ++ b)%list /\ k = length b.
Proof.
  split.
  - unfold mantissa. destruct (split_at ["."%char] s) as [a o] eqn:Es. apply split_inv in Es. destruct Es as [_ Es]. destruct o as [b|].
    + destruct Es as (c & [<-|[]] & ->). destruct a as [|x a]; [|destruct b as [|y b]].
      * intro H. destruct (digits false b) as [fs|] eqn:Ed; [|discriminate]. injection H as <- <-. apply digits_run in Ed. exists [], fs. split; [|now split].
        right. exists "", b. split; [reflexivity|]. split; [now left|]. split; [now right|]. right. eapply run_nonempty. eassumption.
      * intro H. destruct (digits false (String x a)) as [fs|] eqn:Ed; [|discriminate]. injection H as <- <-. apply digits_run in Ed. exists fs, []. split; [|rewrite app_nil_r; now split].
        right. exists (String x a), "". split; [reflexivity|]. split; [now right|]. split; [now left|]. now left.
      * intro H. destruct (digits false (String x a)) as [fs|] eqn:Ed; [|discriminate]. destruct (digits false (String y b)) as [gs|] eqn:Eg; [|discriminate].
        injection H as <- <-. apply digits_run in Ed, Eg. exists fs, gs. split; [|now split].
        right. exists (String x a), (String y b). split; [reflexivity|]. split; [now right|]. split; [now right|]. now left.
    + subst a. intro H. assert (H' : option_map (fun ds => (ds, O)) (digits false s) = Some (ds, k)) by (destruct s; exact H). clear H.
      destruct (digits false s) as [fs|] eqn:Ed; [|discriminate]. injection H' as <- <-. apply digits_run in Ed. exists fs, []. split; [|rewrite app_nil_r; now split]. left. now split.
  - assert (P : forall c : ascii, In c ["."%char] -> c = "."%char \/ c = "e"%char \/ c = "E"%char) by (intros c [<-|[]]; tauto).
    intros (a & b & [[H ->]|(x & y & -> & Hx & Hy & Hn)] & -> & ->); unfold mantissa.
    + rewrite (split_none _ _ (run_without _ _ _ H P)). pose proof (run_nonempty _ _ H). destruct s; [congruence|]. apply digits_run in H. rewrite H. cbn. now rewrite app_nil_r.
    + change (x ++ "." ++ y) with (x ++ String "."%char y). rewrite (split_some _ _ _ _ (opt_without _ _ _ Hx P) (or_introl eq_refl)).
      destruct Hx as [[-> ->]|Hx], Hy as [[-> ->]|Hy].
      * destruct Hn; congruence.
      * apply digits_run in Hy. rewrite Hy. reflexivity.
      * pose proof (run_nonempty _ _ Hx). destruct x; [congruence|]. apply digits_run in Hx. rewrite Hx. cbn. now rewrite app_nil_r.
      * pose proof (run_nonempty _ _ Hx). destruct x; [congruence|]. pose proof (run_nonempty _ _ Hy). destruct y; [congruence|]. apply digits_run in Hx, Hy. now rewrite Hx, Hy.
Qed.

Lemma exponent_all s e : exponent s = Some e <-> exists sg run k ds, s = sg ++ run /\ sign_text sg k /\ digit_run run ds /\ e = k * number ds.
Proof.
  unfold exponent. split.
  - destruct (signed s) as [k t] eqn:Es. apply signed_inv in Es. destruct Es as (sg & -> & Sg). intro H. destruct (digits false t) as [ds|] eqn:Ed; [|discriminate].
    injection H as <-. apply digits_run in Ed. exists sg, t, k, ds. rewrite decimal_number. now repeat split.
  - intros (sg & run & k & ds & -> & Sg & Hr & ->). rewrite (signed_text _ _ _ Sg); [|rewrite <- (sapp_nil run); eapply run_no_sign; eassumption].
    apply digits_run in Hr. rewrite Hr. cbn. now rewrite decimal_number.
Qed.

Lemma limit_pos : (0 < 2 ^ 1024 - 2 ^ 970)%R.
Proof. apply Rlt_Rminus. apply Rlt_pow; [lra|lia]. Qed.
Lemma to_double_all r x : to_double r = x <-> float_value r x.
Proof.
  pose proof limit_pos as L. unfold to_double, float_value. cbv zeta. set (l := (2 ^ 1024 - 2 ^ 970)%R) in *. clearbody l.
  destruct (Rlt_dec (Rabs r) l) as [H|H].
  - apply Rabs_def2 in H as H'. split; [intros <-; left; now split|]. intros [[_ ->]|[[G _]|[G _]]]; [reflexivity|lra|lra].
  - apply Rnot_lt_le in H. destruct (Rlt_dec r 0) as [N|N].
    + rewrite Rabs_left in H by assumption. split; [intros <-; right; right; split; [lra|reflexivity]|]. intros [[G _]|[[G _]|[_ ->]]]; [|lra|reflexivity].
      apply Rabs_def2 in G. lra.
    + apply Rnot_lt_le in N. rewrite Rabs_pos_eq in H by assumption. split; [intros <-; right; left; split; [lra|reflexivity]|]. intros [[G _]|[[_ ->]|[G _]]]; [|reflexivity|lra].
      apply Rabs_def2 in G. lra.
Qed.
Lemma decimal_value k a b e : (IZR (k * decimal (a ++ b)%list) * powerRZ 10 (e - Z.of_nat (length b)) =
  IZR k * (IZR (number a) + IZR (number b) * powerRZ 10 (- Z.of_nat (length b))) * powerRZ 10 e)%R.
Proof.
  rewrite decimal_number, number_app, mult_IZR, plus_IZR, mult_IZR. unfold Z.sub. rewrite powerRZ_add by lra.
  assert (E : (IZR (10 ^ Z.of_nat (length b)) * powerRZ 10 (- Z.of_nat (length b)) = 1)%R).
  { rewrite <- pow_IZR. rewrite pow_powerRZ. rewrite <- powerRZ_add by lra. replace (_ + _) with 0 by lia. reflexivity. }
  set (p := powerRZ 10 (- Z.of_nat (length b))) in *. set (q := IZR (10 ^ Z.of_nat (length b))) in *. set (z := powerRZ 10 e). 
  transitivity (IZR k * (IZR (number a) * (q * p) + IZR (number b) * p) * z)%R; [ring|]. rewrite E. ring.
Qed.

(** texts like inf *)
Lemma lower_space c : is_space (lower_ascii c) = is_space c.
Proof. apply eqb_prop. revert c. apply all_ascii. vm_compute. reflexivity. Qed.
Lemma lower_ends s : ends_ok (lower s) -> ends_ok s.
Proof.
  induction s as [|c s IH]; [trivial|]. cbn. destruct s as [|d s]; cbn; [unfold nonwhite; now rewrite lower_space|exact IH].
Qed.
Lemma lower_sign c : (lower_ascii c = c \/ (lower_ascii c <> c /\ c <> "-"%char /\ c <> "+"%char)).
Proof.
  destruct (Ascii.eqb_spec (lower_ascii c) c) as [E|E]; [now left|right]. split; [assumption|]. split; intros ->; apply E; reflexivity.
Qed.
Lemma word_facts s c t : lower s = String c t -> is_space c = false -> c <> "-"%char -> c <> "+"%char -> ends_ok (String c t) -> trimmed s /\ s <> "" /\ no_sign s.
Proof.
  intros E H1 H2 H3 H4. destruct s as [|a s]; [discriminate|]. pose proof H4 as H5. rewrite <- E in H5. apply lower_ends in H5. cbn in E. injection E as E1 E2.
  split; [apply trimmed_intro; [|assumption]; unfold nonwhite; rewrite <- lower_space; congruence|]. split; [discriminate|]. cbn.
  destruct (lower_sign a) as [F|(_ & F1 & F2)]; [rewrite F in E1; now subst|now split].
Qed.

(** a decimal number is no such word *)
Lemma mantissa_first m a b : mantissa_text m a b -> exists c t, m = String c t /\ (c = "."%char \/ exists d, digit_char c d).
Proof.
  intros [[H _]|(x & y & -> & Hx & Hy & Hn)].
  - destruct (run_first _ _ H) as (c & t & d & -> & Hd). exists c, t. split; [reflexivity|]. right. now exists d.
  - destruct Hx as [[-> _]|Hx]; [exists "."%char, y; split; [reflexivity|now left]|].
    destruct (run_first _ _ Hx) as (c & t & d & -> & Hd). exists c, (t ++ "." ++ y). split; [reflexivity|]. right. now exists d.
Qed.
Lemma mantissa_ends m a b : mantissa_text m a b -> ends_ok m.
Proof.
  intros [[H _]|(x & y & -> & Hx & Hy & Hn)]; [eapply run_ends; eassumption|]. apply ends_app. destruct Hy as [[-> _]|Hy]; [reflexivity|].
  change ("." ++ y) with ("." ++ y). apply ends_app. eapply run_ends. eassumption.
Qed.
Lemma exponent_ends m ex e : exponent_text ex e -> ends_ok m -> ends_ok (m ++ ex).
Proof.
  intros [[-> _]|(c & sg & run & k & ds & -> & _ & _ & Hr & _)] H; [now rewrite sapp_nil|]. apply ends_app.
  change (String c (sg ++ run)) with (String c sg ++ run). apply ends_app. eapply run_ends. eassumption.
Qed.
Lemma first_lower c : (c = "."%char \/ exists d, digit_char c d) -> is_space c = false /\ c <> "-"%char /\ c <> "+"%char /\ lower_ascii c <> "i"%char /\ lower_ascii c <> "n"%char.
Proof.
  intro H. assert (G : (c = "."%char \/ exists d, digit c = Some d)) by (destruct H as [->|(d & Hd)]; [now left|right; exists d; now apply digit_spec]).
  pose proof (all_ascii (fun c => negb (Ascii.eqb c "."%char || match digit c with Some _ => true | None => false end) ||
     (negb (is_space c) && negb (Ascii.eqb c "-"%char) && negb (Ascii.eqb c "+"%char) && negb (Ascii.eqb (lower_ascii c) "i"%char) && negb (Ascii.eqb (lower_ascii c) "n"%char))) ltac:(vm_compute; reflexivity) c) as B.
  cbn beta in B. assert (E : Ascii.eqb c "."%char || match digit c with Some _ => true | None => false end = true).
  { destruct G as [->|(d & ->)]; [reflexivity|apply orb_true_r]. }
  rewrite E in B. cbn [negb orb] in B. repeat (apply andb_prop in B; destruct B as [B ?]).
  repeat match goal with H : negb ?x = true |- _ => apply negb_true_iff in H end. repeat split; try assumption; now apply Ascii.eqb_neq.
Qed.
Lemma mantissa_without m a b : mantissa_text m a b -> without ["e"%char; "E"%char] m.
Proof.
  assert (P : forall c : ascii, In c ["e"%char; "E"%char] -> c = "."%char \/ c = "e"%char \/ c = "E"%char) by (intros c [<-|[<-|[]]]; tauto).
  intros [[H _]|(x & y & -> & Hx & Hy & _)]; [eapply run_without; eassumption|]. apply every_app. split; [eapply opt_without; eassumption|].
  split; [intros [E|[E|[]]]; discriminate|eapply opt_without; eassumption].
Qed.

Lemma float_all s x : py_float s = Some x <-> float_text s x.
Proof.
  unfold py_float, float_text. split.
  - destruct (strip_parts s) as (w1 & w2 & E & W1 & W2). destruct (signed (strip s)) as [k t] eqn:Es. apply signed_inv in Es. destruct Es as (sg & Es & Sg).
    rewrite Es, sapp_assoc in E. intro H. exists w1, sg, t, w2, k. do 4 (split; [assumption|]).
    destruct (String.eqb_spec (lower t) "inf") as [Ei|_]; [left; injection H as <-; split; [left; congruence|reflexivity]|].
    destruct (String.eqb_spec (lower t) "infinity") as [Ei|_]; [left; injection H as <-; split; [right; left; congruence|reflexivity]|]. cbn [orb] in H.
    destruct (String.eqb_spec (lower t) "nan") as [Ei|_]; [right; left; injection H as <-; now split|].
    destruct (split_at _ t) as [m ex] eqn:Ep. apply split_inv in Ep. destruct Ep as [_ Ep]. destruct (mantissa m) as [[ds j]|] eqn:Em; [|discriminate].
    apply mantissa_all in Em. destruct Em as (a & b & Hm & -> & ->). right. right. destruct ex as [e|].
    + destruct Ep as (c & Hc & ->). destruct (exponent e) as [z|] eqn:Ee; [|discriminate]. injection H as H. apply exponent_all in Ee.
      destruct Ee as (sg' & run & k' & ds' & -> & Sg' & Hr & ->). exists m, (String c (sg' ++ run)), a, b, (k' * number ds'). split; [reflexivity|]. split; [assumption|]. split.
      * right. exists c, sg', run, k', ds'. split; [reflexivity|]. split; [destruct Hc as [<-|[<-|[]]]; tauto|]. now repeat split.
      * apply to_double_all. rewrite <- H. f_equal. symmetry. apply decimal_value.
    + subst t. injection H as H. exists m, "", a, b, 0. split; [now rewrite sapp_nil|]. split; [assumption|]. split; [left; now split|].
      apply to_double_all. rewrite <- H. f_equal. symmetry. exact (decimal_value k a b 0).
  - intros (w1 & sg & body & w2 & k & -> & W1 & W2 & Sg & H).
    assert (F : trimmed body /\ body <> "" /\ no_sign body).
    { destruct H as [[[E|[E|[]]] _]|[[E _]|(m & ex & a & b & e & -> & Hm & He & _)]].
      - symmetry in E. eapply word_facts; [exact E|reflexivity|discriminate|discriminate|reflexivity].
      - symmetry in E. eapply word_facts; [exact E|reflexivity|discriminate|discriminate|reflexivity].
      - eapply word_facts; [exact E|reflexivity|discriminate|discriminate|reflexivity].
      - pose proof (exponent_ends _ _ _ He (mantissa_ends _ _ _ Hm)) as HE. destruct (mantissa_first _ _ _ Hm) as (c & t & -> & Hc).
        destruct (first_lower _ Hc) as (L1 & L2 & L3 & _). split; [apply trimmed_intro; assumption|]. split; [discriminate|now split]. }
    destruct F as (F1 & F2 & F3). rewrite <- (sapp_assoc sg). rewrite (strip_around _ _ _ W1 W2 (sign_trimmed _ _ _ Sg F1 F2)). rewrite (signed_text _ _ _ Sg F3).
    destruct H as [[[E|[E|[]]] ->]|[[E ->]|(m & ex & a & b & e & -> & Hm & He & HV)]].
    + rewrite <- E. reflexivity.
    + rewrite <- E. reflexivity.
    + rewrite E. reflexivity.
    + destruct (mantissa_first _ _ _ Hm) as (c & t & Em & Hc). destruct (first_lower _ Hc) as (_ & _ & _ & L4 & L5).
      assert (N : forall w, (exists u, w = String "i"%char u \/ w = String "n"%char u) -> String.eqb (lower (m ++ ex)) w = false).
      { intros w (u & Hu). apply String.eqb_neq. rewrite Em. cbn. destruct Hu as [->| ->]; congruence. }
      rewrite !N by (eexists; first [left; reflexivity|right; reflexivity]). cbn [orb].
      assert (M : mantissa m = Some ((a ++ b)%list, length b)) by (apply mantissa_all; exists a, b; now repeat split).
      apply to_double_all in HV. pose proof (mantissa_without _ _ _ Hm) as Wm.
      destruct He as [[-> ->]|(ce & sg' & run & k' & ds' & -> & Hce & Sg' & Hr & ->)].
      * rewrite sapp_nil, (split_none _ _ Wm), M. f_equal. rewrite <- HV. f_equal. exact (decimal_value k a b 0).
      * rewrite (split_some _ _ _ _ Wm) by (destruct Hce as [->| ->]; cbn; tauto). rewrite M.
        assert (X : exponent (sg' ++ run) = Some (k' * number ds')) by (apply exponent_all; exists sg', run, k', ds'; now repeat split).
        rewrite X. f_equal. rewrite <- HV. f_equal. apply decimal_value.
Qed.
