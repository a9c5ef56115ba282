(** /repo/example_input fits the specification of input files *)
From Verif Require Import PyBase Model_xr Model_input Model_ini Spec_input Spec_main Spec_ini Spec_example
  Proof_input Proof_ini Proof_ini2 Proof_ini3 Proof_ini4.
From Coq Require Import Reals Lra Lia.
Open Scope string_scope.
Open Scope Z_scope.

(** ** Checks by computation *)
Fixpoint ends_b (s : string) : bool :=
  match s with EmptyString => true | String c EmptyString => negb (is_space c) | String _ t => ends_b t end.
Definition trimmed_b (s : string) : bool :=
  match s with EmptyString => true | String c _ => negb (is_space c) && ends_b s end.
Fixpoint every_b (p : ascii -> bool) (s : string) : bool :=
  match s with EmptyString => true | String c t => p c && every_b p t end.
Definition outside (cs : list ascii) (c : ascii) : bool := negb (existsb (Ascii.eqb c) cs).

Lemma trimmed_by s : trimmed_b s = true -> trimmed s.
Proof.
  destruct s as [|c t]; [intros _; exact trimmed_nil|]. unfold trimmed_b. intro H. apply andb_prop in H. destruct H as [H1 H2].
  apply trimmed_intro; [now apply negb_true_iff|]. clear H1. revert c H2. induction t as [|d t IH]; intros c H.
  - now apply negb_true_iff.
  - exact (IH d H).
Qed.
Lemma outside_spec cs c : outside cs c = true -> ~ In c cs.
Proof.
  unfold outside. intros H I. apply negb_true_iff in H. assert (E : existsb (Ascii.eqb c) cs = true); [|congruence].
  apply existsb_exists. exists c. split; [exact I|apply Ascii.eqb_refl].
Qed.
Lemma without_by cs s : every_b (outside cs) s = true -> without cs s.
Proof.
  induction s as [|c s IH]; cbn; [trivial|]. intro H. apply andb_prop in H. destruct H as [H1 H2]. split; [now apply outside_spec|now apply IH].
Qed.
Definition option_b (name value : string) : bool :=
  trimmed_b value && trimmed_b name && every_b (outside delimiters) name &&
  match name with EmptyString => false | String c _ => outside ("["%char :: comment_marks) c end.
Lemma option_by name value : option_b name value = true -> option_line (lower name) value (name ++ ": " ++ value).
Proof.
  unfold option_b. rewrite !andb_true_iff. intros [[[H1 H2] H3] H4].
  exists name, "", ":"%char, " ", "". split; [cbn; now rewrite sapp_nil|]. split; [cbn; tauto|]. split; [exact I|].
  split; [cbn; split; [|trivial]; cbn; tauto|]. split; [exact I|]. split; [now apply trimmed_by|]. split; [now apply trimmed_by|].
  split; [destruct name; [discriminate|discriminate]|]. split; [now apply without_by|]. split; [|reflexivity].
  intros (c & t & -> & Hc). exact (outside_spec _ _ H4 Hc).
Qed.
Lemma header_by name : name <> "" -> header_line name ("[" ++ name ++ "]").
Proof. intro H. exists "". split; [now rewrite sapp_nil|]. split; [exact H|exact I]. Qed.

(** sections in the style of the example: option lines, an empty line after each section *)
Definition plain_section (s : string * list (string * list string)) : list string :=
  ("[" ++ fst s ++ "]") :: map (fun o => fst o ++ ": " ++ String.concat "" (snd o)) (snd s).
Definition plain_b (s : string * list (string * list string)) : bool :=
  negb (String.eqb (fst s) "") &&
  forallb (fun o => match snd o with [v] => option_b (fst o) v && String.eqb (lower (fst o)) (fst o) | _ => false end) (snd s).

Lemma plain_options opts : forallb (fun o => match snd o with [v] => option_b (fst o) v && String.eqb (lower (fst o)) (fst o) | _ => false end) opts = true ->
  options_text (map (fun o => fst o ++ ": " ++ String.concat "" (snd o)) opts) opts.
Proof.
  induction opts as [|[k vs] opts IH]; cbn [forallb]; intro H; [constructor|]. apply andb_prop in H. destruct H as [H H'].
  cbn [fst snd] in H. destruct vs as [|v [|]]; try discriminate. apply andb_prop in H. destruct H as [H1 H2]. apply String.eqb_eq in H2.
  apply (options_cons k v (k ++ ": " ++ v) [] [] [] _ opts); [|constructor|constructor|apply IH, H'].
  pose proof (option_by _ _ H1) as O. rewrite H2 in O. exact O.
Qed.
Fixpoint plain_file (d : document) : list string :=
  match d with [] => [] | [s] => plain_section s | s :: d => (plain_section s ++ "" :: plain_file d)%list end.
Lemma sections_app name line notes ls opts extra rest d : header_line name line -> Forall note notes -> options_text ls opts -> opts <> [] ->
  Forall note extra -> sections_text rest d -> sections_text (line :: notes ++ (ls ++ extra) ++ rest)%list ((name, opts) :: d).
Proof.
  intros H1 H2 H3 Hne H4 H5. apply sections_cons; try assumption. clear -H3 H4 Hne. induction H3 as [|key v line ls ts notes rest opts O F N T IH]; [congruence|].
  destruct opts as [|o opts].
  - inversion T; subst. rewrite app_nil_r.
    replace ((line :: ls ++ notes) ++ extra)%list with (line :: ls ++ (notes ++ extra) ++ [])%list by (rewrite app_nil_r; cbn; now rewrite !app_assoc).
    apply options_cons; try assumption. apply Forall_app. now split.
  - replace ((line :: ls ++ notes ++ rest) ++ extra)%list with (line :: ls ++ notes ++ (rest ++ extra))%list by (cbn; now rewrite <- !app_assoc).
    apply options_cons; try assumption. apply IH. discriminate.
Qed.
Lemma plain_sections d : forallb (fun s => plain_b s && negb (match snd s with [] => true | _ => false end)) d = true -> sections_text (plain_file d) d.
Proof.
  induction d as [|[name opts] d IH]; [constructor|]. cbn [forallb]. intro H. apply andb_prop in H. destruct H as [H H'].
  apply andb_prop in H. destruct H as [H Hne]. unfold plain_b in H. apply andb_prop in H. destruct H as [H1 H2]. cbn [fst snd] in *.
  assert (N : name <> "") by (intros ->; discriminate). specialize (IH H').
  assert (G : forall extra rest, Forall note extra -> sections_text rest d ->
    sections_text (plain_section (name, opts) ++ extra ++ rest)%list ((name, opts) :: d)).
  { intros extra rest He Hr. unfold plain_section. cbn [fst snd]. 
    pose proof (sections_app name ("[" ++ name ++ "]") [] _ opts extra rest d (header_by _ N) (Forall_nil _) (plain_options _ H2)) as P.
    cbn [app] in P. rewrite <- app_comm_cons. rewrite <- app_assoc in P. apply P; [|exact He|exact Hr]. intros ->. discriminate. }
  destruct d as [|s d].
  - specialize (G [] [] (Forall_nil _) (sections_nil)). rewrite app_nil_r in G. exact G.
  - apply (G [""] (plain_file (s :: d))); [constructor; [left; exact I|constructor]|exact IH].
Qed.

Lemma text_of_lines ls : text_of ls (fold_right (fun l s => l ++ String LF "" ++ s) "" ls).
Proof. induction ls as [|l ls IH]; cbn [fold_right]; [constructor|]. apply text_cons; [left; reflexivity|exact IH]. Qed.

Lemma example_fits : text_of (plain_file example_document) example_text /\ Forall single_line (plain_file example_document) /\
  file_lines (plain_file example_document) example_document /\ distinct example_document.
Proof.
  split; [|split; [|split]].
  - replace example_text with (fold_right (fun l s => l ++ String LF "" ++ s) "" (plain_file example_document)) by (vm_compute; reflexivity).
    apply text_of_lines.
  - assert (H : forallb (every_b (outside [ascii_of_nat 10; ascii_of_nat 13])) (plain_file example_document) = true) by (vm_compute; reflexivity).
    apply Forall_forall. intros l Hl. apply without_by. exact (proj1 (forallb_forall _ _) H l Hl).
  - exists [], (plain_file example_document). split; [reflexivity|]. split; [constructor|]. apply plain_sections. vm_compute. reflexivity.
  - split.
    + cbn. repeat constructor; cbn; intuition discriminate.
    + repeat constructor; cbn; intuition discriminate.
Qed.
Lemma example_read : read_text example_text = Ok (meaning example_document).
Proof. destruct example_fits as (H1 & H2 & H3 & H4). exact (text_all _ _ _ H1 H2 H3 H4). Qed.

(** ** Its numbers *)
Lemma to_double_small r : (Rabs r < 1000000)%R -> to_double r = Fin r.
Proof.
  intro H. apply to_double_all. left. split; [|reflexivity]. apply (Rlt_trans _ _ _ H).
  replace (2 ^ 1024 - 2 ^ 970)%R with (2 ^ 970 * (2 ^ 54 - 1))%R by (replace 1024%nat with (970 + 54)%nat by reflexivity; rewrite pow_add; ring).
  assert (1 <= 2 ^ 970)%R by (apply pow_R1_Rle; lra). assert (1000000 < 2 ^ 54 - 1)%R by lra. 
  apply (Rlt_le_trans _ (1 * (2 ^ 54 - 1))); [lra|]. apply Rmult_le_compat_r; lra.
Qed.

Lemma p0 : powerRZ 10 0 = 1%R. Proof. reflexivity. Qed.
Lemma p1 : powerRZ 10 (-1) = (/ 10)%R. Proof. change (powerRZ 10 (-1)) with (/ (10 * 1))%R. f_equal. lra. Qed.
Lemma p3 : powerRZ 10 (-3) = (/ 1000)%R. Proof. change (powerRZ 10 (-3)) with (/ (10 * (10 * (10 * 1))))%R. f_equal. lra. Qed.
Ltac num :=
  match goal with |- context [to_double ?r] => rewrite (to_double_small r) by (apply Rabs_def1; lra) end.
Lemma example_accepted : parse_all py_conv (meaning example_document) = Ok example_config.
Proof.
  unfold parse_all. cbv - [Rlt_dec Rle_dec IZR Rmult Rinv powerRZ to_double].
  rewrite ?p0, ?p1, ?p3, ?Rmult_1_r, ?Rmult_0_l. repeat num. repeat one_section. reflexivity.
Qed.

(** ** Small texts *)
Lemma indented_option : read_text ("[ld]" ++ nl ++ "n_steps: 100" ++ nl ++ "  seed: 5" ++ nl) = Ok [("ld", [("n_steps", "100" ++ nl ++ "seed: 5")])].
Proof. vm_compute. reflexivity. Qed.
Lemma inline_comment : read_text ("[ld]" ++ nl ++ "n_steps: 100 # steps" ++ nl) = Ok [("ld", [("n_steps", "100 # steps")])].
Proof. vm_compute. reflexivity. Qed.
Lemma other_style : read_text ("; notes" ++ nl ++ "[ld] steps" ++ nl ++ nl ++ "N_Steps = 100" ++ nl ++ "# more" ++ nl ++ "seed:5") =
  Ok [("ld", [("n_steps", "100"); ("seed", "5")])].
Proof. vm_compute. reflexivity. Qed.
Lemma numbers_read : py_float "0.005" = Some (Fin (5 / 1000)) /\ py_float " -1_0.25e-3" = Some (Fin (-1025 / 100000)) /\
  py_float "1e400" = Some PInf /\ py_float "1.2.3" = None /\ py_float "0x10" = None /\ py_float "" = None /\ py_float "1,5" = None /\
  py_int " 1_000 " = Some 1000 /\ py_int "1e3" = None /\ py_int "-7" = Some (-7) /\ py_int "5.0" = None.
Proof.
  repeat apply conj; try reflexivity.
  - unfold py_float. cbv - [Rlt_dec IZR Rmult Rinv powerRZ to_double]. rewrite p3. num. reflexivity.
  - unfold py_float. cbv - [Rlt_dec IZR Rmult Rinv powerRZ to_double].
    replace (powerRZ 10 (-5)) with (/ 100000)%R by (change (powerRZ 10 (-5)) with (/ (10 * (10 * (10 * (10 * (10 * 1))))))%R; f_equal; lra).
    num. reflexivity.
  - apply float_all. exists "", "", "1e400", "", 1. repeat split; [left; now split|]. right. right.
    exists "1", "e400", [1], [], 400. split; [reflexivity|]. split; [left; split; [apply run_one; split; [lia|reflexivity]|reflexivity]|].
    split; [right; exists "e"%char, "", "400", 1, [4; 0; 0]; repeat split; [left; reflexivity|left; now split|];
      repeat (apply run_one || apply run_more); split; lia || reflexivity|].
    unfold float_value. cbv zeta. right. left. split; [|reflexivity].
    replace (IZR 1 * (IZR (number [1%Z]) + IZR (number []) * powerRZ 10 (- Z.of_nat (length (@nil Z)))) * powerRZ 10 400)%R with (10 ^ 400)%R.
    2:{ cbn [number length]. change (powerRZ 10 400) with (10 ^ Pos.to_nat 400)%R. replace (Pos.to_nat 400) with 400%nat by reflexivity.
        replace (1 * 10 ^ Z.of_nat 0 + 0) with 1 by reflexivity. ring. }
    replace (10 ^ 400)%R with ((10 ^ 4) ^ 100)%R by (rewrite <- pow_mult; reflexivity).
    assert (A : ((2 ^ 13) ^ 100 <= (10 ^ 4) ^ 100)%R) by (apply pow_incr; lra).
    rewrite <- pow_mult in A. assert (B : (2 ^ 1024 <= 2 ^ (13 * 100))%R) by (apply Rle_pow; [lra|lia]).
    assert (C : (0 <= 2 ^ 970)%R) by (apply pow_le; lra).
    apply (Rle_trans _ (2 ^ 1024)); [|exact (Rle_trans _ _ _ B A)].
    clear A B. revert C. generalize (2 ^ 970)%R, (2 ^ 1024)%R. intros. lra.
Qed.
