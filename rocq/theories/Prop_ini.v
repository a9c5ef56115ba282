(** Properties of the text of the input file: layout (C85), numbers (C86), unknown options (C87) *)
From Verif Require Import PyBase Model_xr Model_input Model_ini Model_main Spec_input Spec_main Spec_ini Spec_example
  Proof_ini2 Proof_ini3 Proof_ini4 Proof_example Proof_ini5.
From Coq Require Import Reals.
Open Scope string_scope.
Open Scope Z_scope.

(** ** C85 *)

(** A text with section headers, options and notes as documented is read as the sections it shows:
    every option of a section with its value, then the options of [DEFAULT]. *)
Theorem C85_layout :
  forall text ls d, text_of ls text -> Forall single_line ls -> file_lines ls d -> distinct d ->
  read_text text = Ok (meaning d).
Proof. exact text_all. Qed.
Print Assumptions C85_layout.

(** Repeated options and sections, options before the first section, and lines that are neither a
    header nor an option are never accepted, whatever follows. *)
Theorem C85_repeated_option :
  forall ls d name opts key v line rest,
  file_lines ls (d ++ [(name, opts)])%list -> distinct (d ++ [(name, opts)])%list ->
  option_line key v line -> In key (map fst opts) ->
  read_lines (ls ++ line :: rest)%list = Err DuplicateOptionError.
Proof. exact duplicate_option. Qed.
Print Assumptions C85_repeated_option.

Theorem C85_repeated_section :
  forall ls d name line rest, file_lines ls d -> distinct d -> header_line name line -> In name (map fst d) -> name <> "DEFAULT" ->
  read_lines (ls ++ line :: rest)%list = Err DuplicateSectionError.
Proof. exact duplicate_section. Qed.
Print Assumptions C85_repeated_section.

Theorem C85_no_section :
  forall notes key v line rest, Forall note notes -> option_line key v line ->
  read_lines (notes ++ line :: rest)%list = Err MissingSectionHeaderError.
Proof. exact no_section. Qed.
Print Assumptions C85_no_section.

Theorem C85_no_delimiter :
  forall ls d text w line rest, file_lines ls d -> distinct d -> line = text ++ w -> white w -> trimmed text -> text <> "" ->
  ~ starts_with ("["%char :: comment_marks) text -> without delimiters text ->
  exists x, read_lines (ls ++ line :: rest)%list = Err x.
Proof. exact no_delimiter. Qed.
Print Assumptions C85_no_delimiter.

(** A text is either read, or the program ends in a traceback of one of the four exceptions of
    configparser; nothing is simulated then. *)
Theorem C85_outcome :
  forall e cv text,
  (exists secs, read_text text = Ok secs /\ main e cv (Some (read_text text)) = main e cv (Some (Ok secs))) \/
  (exists x, In x syntax_errors /\ main e cv (Some (read_text text)) = Traceback x).
Proof. exact text_outcome. Qed.
Print Assumptions C85_outcome.

(** the file example_input of the repository *)
Example C85_case : exists ls, text_of ls example_text /\ Forall single_line ls /\ file_lines ls example_document /\ distinct example_document.
Proof. exact (ex_intro _ _ example_fits). Qed.
Example C85_case_other_style :
  read_text ("; notes" ++ nl ++ "[ld] steps" ++ nl ++ nl ++ "N_Steps = 100" ++ nl ++ "# more" ++ nl ++ "seed:5") =
  Ok [("ld", [("n_steps", "100"); ("seed", "5")])].
Proof. exact other_style. Qed.
(** an indented option belongs to the value before it, and there are no comments behind values *)
Example C85_case_indented :
  read_text ("[ld]" ++ nl ++ "n_steps: 100" ++ nl ++ "  seed: 5" ++ nl) = Ok [("ld", [("n_steps", "100" ++ nl ++ "seed: 5")])].
Proof. exact indented_option. Qed.
Example C85_case_inline : read_text ("[ld]" ++ nl ++ "n_steps: 100 # steps" ++ nl) = Ok [("ld", [("n_steps", "100 # steps")])].
Proof. exact inline_comment. Qed.

(** ** C86 *)

(** The texts that are read as an integer or as a number, and their values *)
Theorem C86_integers : forall text z, to_int py_conv text = Some z <-> int_text text z.
Proof. exact int_all. Qed.
Print Assumptions C86_integers.

Theorem C86_numbers : forall text x, to_float py_conv text = Some x <-> float_text text x.
Proof. exact float_all. Qed.
Print Assumptions C86_numbers.

Example C86_case :
  to_float py_conv "0.005" = Some (Fin (5 / 1000)) /\ to_float py_conv " -1_0.25e-3" = Some (Fin (-1025 / 100000)) /\
  to_float py_conv "1e400" = Some PInf /\ to_float py_conv "1.2.3" = None /\ to_float py_conv "0x10" = None /\ to_float py_conv "" = None /\ to_float py_conv "1,5" = None /\
  to_int py_conv " 1_000 " = Some 1000 /\ to_int py_conv "1e3" = None /\ to_int py_conv "-7" = Some (-7) /\ to_int py_conv "5.0" = None.
Proof. exact numbers_read. Qed.
(** the parameters in example_input *)
Example C86_case_example : read_input py_conv (Some (read_text example_text)) = Ok example_config.
Proof. exact example_input_read. Qed.

(** ** C87 *)

(** Options and sections with unknown names change nothing, if the input without them is accepted or
    no value contains a '%'. *)
Theorem C87_unknown :
  forall e cv secs secs',
  adds_unknown secs secs' -> percent_free secs /\ percent_free secs' \/ (exists c, parse_all cv secs = Ok c) ->
  main e cv (Some (Ok secs')) = main e cv (Some (Ok secs)).
Proof. exact unknown_main. Qed.
Print Assumptions C87_unknown.

(** the parameters are the same as well, or the same error is raised *)
Theorem C87_parameters :
  (forall cv secs secs' c, adds_unknown secs secs' -> parse_all cv secs = Ok c -> parse_all cv secs' = Ok c) /\
  (forall cv secs secs', percent_free secs -> percent_free secs' -> adds_unknown secs secs' -> parse_all cv secs' = parse_all cv secs).
Proof. exact (conj unknown_accepted unknown_ignored). Qed.
Print Assumptions C87_parameters.

(** example_input with misspelled options and a misspelled section *)
Example C87_case : adds_unknown (meaning example_document) (meaning with_typos) /\ meaning with_typos <> meaning example_document /\
  forall e, main e py_conv (Some (Ok (meaning with_typos))) = main e py_conv (Some (read_text example_text)).
Proof. exact (conj (proj1 typos_added) (conj (proj2 typos_added) typos_same)). Qed.
