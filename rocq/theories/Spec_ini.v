(** Notions for the text of the input file *)
From Verif Require Import PyBase Model_xr Model_input.
From Coq Require Import Reals.
Open Scope string_scope.
Open Scope Z_scope.

(** * Characters *)
Definition white_char (c : ascii) : Prop := In (nat_of_ascii c) [9; 10; 11; 12; 13; 28; 29; 30; 31; 32]%nat.
Fixpoint every (P : ascii -> Prop) (s : string) : Prop :=
  match s with EmptyString => True | String c t => P c /\ every P t end.
(** only white space *)
Definition white : string -> Prop := every white_char.
(** no white space at both ends *)
Definition trimmed (s : string) : Prop :=
  (forall c t, s = String c t -> ~ white_char c) /\ (forall p c, s = p ++ String c "" -> ~ white_char c).
Definition starts_with (cs : list ascii) (s : string) : Prop := exists c t, s = String c t /\ In c cs.
Definition without (cs : list ascii) : string -> Prop := every (fun c => ~ In c cs).
Definition delimiters : list ascii := ["="%char; ":"%char].
Definition comment_marks : list ascii := ["#"%char; ";"%char].

(** * Lines of the file *)
(** empty lines and comments *)
Definition blank_line (line : string) : Prop := white line.
Definition comment_line (line : string) : Prop := exists w t, line = w ++ t /\ white w /\ starts_with comment_marks t.
Definition note (line : string) : Prop := blank_line line \/ comment_line line.
(** [name], possibly with a remark behind it *)
Definition header_line (name line : string) : Prop :=
  exists rest, line = "[" ++ name ++ "]" ++ rest /\ name <> "" /\ without ["]"%char] rest.
(** name = value or name: value, not indented; the name is meant without regard to capitals *)
Definition option_line (key value line : string) : Prop :=
  exists name w1 d w2 w3, line = name ++ w1 ++ String d (w2 ++ value ++ w3) /\ In d delimiters /\
    white w1 /\ white w2 /\ white w3 /\ trimmed value /\ trimmed name /\ name <> "" /\
    without delimiters name /\ ~ starts_with ("["%char :: comment_marks) name /\ key = lower name.
(** a further line of a value: it is indented *)
Definition further_line (text line : string) : Prop :=
  exists w w', line = w ++ text ++ w' /\ white w /\ w <> "" /\ white w' /\ trimmed text /\ text <> "" /\
    ~ starts_with comment_marks text.

(** * Files *)
(** sections with their options and the lines of the values *)
Definition document := list (string * list (string * list string)).

(** further lines of a value, with comments in between *)
Inductive further_lines : list string -> list string -> Prop :=
| further_nil : further_lines [] []
| further_comment line ls ts : comment_line line -> further_lines ls ts -> further_lines (line :: ls) ts
| further_cons line t ls ts : further_line t line -> further_lines ls ts -> further_lines (line :: ls) (t :: ts).
(** the options of a section; empty lines and comments may follow each of them *)
Inductive options_text : list string -> list (string * list string) -> Prop :=
| options_nil : options_text [] []
| options_cons key v line ls ts notes rest opts :
    option_line key v line -> further_lines ls ts -> Forall note notes -> options_text rest opts ->
    options_text (line :: ls ++ notes ++ rest) ((key, v :: ts) :: opts).
Inductive sections_text : list string -> document -> Prop :=
| sections_nil : sections_text [] []
| sections_cons name line notes ls opts rest d :
    header_line name line -> Forall note notes -> options_text ls opts -> sections_text rest d ->
    sections_text (line :: notes ++ ls ++ rest) ((name, opts) :: d).
(** the lines of a file *)
Definition file_lines (ls : list string) (d : document) : Prop :=
  exists notes rest, ls = (notes ++ rest)%list /\ Forall note notes /\ sections_text rest d.

(** no section and no option of a section is given twice *)
Definition distinct (d : document) : Prop :=
  NoDup (map fst d) /\ Forall (fun s => NoDup (map fst (snd s))) d.

(** What a file means: each section has its own options, then those of [DEFAULT]; the lines of a value
    are joined by newlines. *)
Definition values (opts : list (string * list string)) : section :=
  map (fun o => (fst o, String.concat (String (ascii_of_nat 10) "") (snd o))) opts.
Definition default_options (d : document) : section :=
  flat_map (fun s => if String.eqb (fst s) "DEFAULT" then values (snd s) else []) d.
Definition meaning (d : document) : list (string * section) :=
  flat_map (fun s => if String.eqb (fst s) "DEFAULT" then [] else [(fst s, (values (snd s) ++ default_options d)%list)]) d.

(** the text made of the lines, each ended by \n or \r\n; the last newline may be missing *)
Definition line_end (s : string) : Prop := s = String (ascii_of_nat 10) "" \/ s = String (ascii_of_nat 13) (String (ascii_of_nat 10) "").
Inductive text_of : list string -> string -> Prop :=
| text_nil : text_of [] ""
| text_last l : l <> "" -> text_of [l] l
| text_cons l ls nl s : line_end nl -> text_of ls s -> text_of (l :: ls) (l ++ nl ++ s).
Definition single_line (l : string) : Prop := without [ascii_of_nat 10; ascii_of_nat 13] l.

(** the exceptions of configparser *)
Definition syntax_errors : list exn := [MissingSectionHeaderError; DuplicateSectionError; DuplicateOptionError; ParsingError].

(** * Numbers *)
Definition digit_char (c : ascii) (d : Z) : Prop := 0 <= d <= 9 /\ Z.of_nat (nat_of_ascii c) = 48 + d.
(** digits, where two of them may be separated by an underscore *)
Inductive digit_run : string -> list Z -> Prop :=
| run_one c d : digit_char c d -> digit_run (String c "") [d]
| run_more c d s ds : digit_char c d -> digit_run s ds -> digit_run (String c s) (d :: ds)
| run_under c d s ds : digit_char c d -> digit_run s ds -> digit_run (String c (String "_"%char s)) (d :: ds).
(** their value in the decimal system *)
Fixpoint number (ds : list Z) : Z :=
  match ds with [] => 0 | d :: t => d * 10 ^ Z.of_nat (length t) + number t end.
Definition sign_text (s : string) (k : Z) : Prop := s = "" /\ k = 1 \/ s = "+" /\ k = 1 \/ s = "-" /\ k = -1.

Definition int_text (s : string) (z : Z) : Prop :=
  exists w1 sg run w2 k ds, s = w1 ++ sg ++ run ++ w2 /\ white w1 /\ white w2 /\ sign_text sg k /\ digit_run run ds /\ z = k * number ds.

(** mantissa: digits before and after the decimal point, one of them may be missing *)
Definition digits_or_none (s : string) (ds : list Z) : Prop := s = "" /\ ds = [] \/ digit_run s ds.
Definition mantissa_text (s : string) (ds fs : list Z) : Prop :=
  digit_run s ds /\ fs = [] \/
  exists a b, s = a ++ "." ++ b /\ digits_or_none a ds /\ digits_or_none b fs /\ (a <> "" \/ b <> "").
Definition exponent_text (s : string) (e : Z) : Prop :=
  s = "" /\ e = 0 \/
  exists c sg run k ds, s = String c (sg ++ run) /\ (c = "e"%char \/ c = "E"%char) /\ sign_text sg k /\ digit_run run ds /\ e = k * number ds.
(** a number in the range of float64, or infinity *)
Definition float_value (r : R) (x : xreal) : Prop :=
  let limit := (2 ^ 1024 - 2 ^ 970)%R in
  (Rabs r < limit /\ x = Fin r \/ limit <= r /\ x = PInf \/ r <= - limit /\ x = MInf)%R.
Definition float_text (s : string) (x : xreal) : Prop :=
  exists w1 sg body w2 k, s = w1 ++ sg ++ body ++ w2 /\ white w1 /\ white w2 /\ sign_text sg k /\
  (In (lower body) ["inf"; "infinity"] /\ x = (if k <? 0 then MInf else PInf) \/
   lower body = "nan" /\ x = NaN \/
   exists m ex ds fs e, body = m ++ ex /\ mantissa_text m ds fs /\ exponent_text ex e /\
     float_value (IZR k * (IZR (number ds) + IZR (number fs) * powerRZ 10 (- Z.of_nat (length fs))) * powerRZ 10 e) x).

(** * Options that are not known *)
Definition section_names : list string :=
  ["ld"; "potential"; "particles"; "birth-death"; "trajectories"; "histogram"; "fes"; "delta-f"; "particle-distribution"].
(** the options of a section according to the documentation *)
Definition option_names (name : string) : list string :=
  match assoc name
    [("ld", ["type"; "timestep"; "n_steps"; "seed"; "kt"; "friction"]);
     ("potential", ["type"; "n_dim"; "coeffs"; "coeffs-file"; "min"; "max"; "scaling-factor"; "boundary-condition"]);
     ("particles", ["number"; "mass"; "seed"; "initial-distribution"; "fractions"]);
     ("birth-death", ["stride"; "correction-variant"; "approximation-variant"; "exponential-factor";
        "recalculate-probabilities"; "stats-stride"; "stats-filename"; "seed"; "kernel-bandwidth"]);
     ("trajectories", ["filename"; "stride"; "momentum"; "write-stride"; "fmt"]);
     ("histogram", ["stride"; "reset"; "filename"; "write-stride"; "fmt"; "min"; "max"; "bins"]);
     ("fes", ["kt"; "stride"; "filename"; "write-stride"; "fmt"; "plot-stride"; "plot-filename"; "plot-domain"; "plot-title"]);
     ("delta-f", ["stride"; "filename"; "write-stride"; "fmt"]);
     ("particle-distribution", ["stride"; "filename"; "write-stride"; "fmt"])] with
  | Some keys => keys
  | None => []
  end.
Definition known_option (name key : string) : Prop :=
  In key (option_names name) \/
  name = "particles" /\ (exists i, key = prefixed "pos" (S i) "") \/
  In name ["delta-f"; "particle-distribution"] /\
    (exists i, key = prefixed "state" (S i) "-min" \/ key = prefixed "state" (S i) "-max").
(** [sec'] has all options of [sec] and maybe further ones with unknown names *)
Definition only_unknown_added (name : string) (sec sec' : section) : Prop :=
  forall key, match assoc key sec with
              | Some v => assoc key sec' = Some v
              | None => known_option name key -> assoc key sec' = None
              end.
(** [secs'] has the sections of [secs], with further options in them, and maybe further sections with
    unknown names *)
Definition adds_unknown (secs secs' : list (string * section)) : Prop :=
  forall name, In name section_names ->
  match assoc name secs, assoc name secs' with
  | None, None => True
  | Some sec, Some sec' => only_unknown_added name sec sec'
  | _, _ => False
  end.
