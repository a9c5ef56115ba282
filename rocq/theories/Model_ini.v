(** Model of the text level of the input file: configparser.ConfigParser().read as called in
    bdld/inputparser.py:151-157, and python's int() and float() on strings, called in
    inputparser.py:88-91 and 102-103.

    configparser belongs to the standard library; the line numbers refer to configparser.py of
    python 3.11.  Characters are bytes; only the ASCII ones count as white space, letters or
    digits.  The decoding of the file is not modelled. *)
From Coq Require Export Reals.
From Verif Require Export Model_input.
Open Scope string_scope.
Open Scope Z_scope.

(** * Characters and lines *)
(** str.isspace, and \s of regular expressions *)
Definition is_space (c : ascii) : bool :=
  let n := N_of_ascii c in (((9 <=? n) && (n <=? 13)) || ((28 <=? n) && (n <=? 32)))%N.
(** str.lstrip, str.rstrip, str.strip *)
Fixpoint lstrip (s : string) : string :=
  match s with
  | EmptyString => EmptyString
  | String c t => if is_space c then lstrip t else s
  end.
Fixpoint rstrip (s : string) : string :=
  match s with
  | EmptyString => EmptyString
  | String c t => match rstrip t with
                  | EmptyString => if is_space c then EmptyString else String c EmptyString
                  | r => String c r
                  end
  end.
Definition strip (s : string) : string := rstrip (lstrip s).

Definition LF : ascii := ascii_of_nat 10.
Definition CR : ascii := ascii_of_nat 13.
(** the lines of a text file (1035: for lineno, line in enumerate(fp)), opened with universal
    newlines: \n, \r\n and \r end a line.  The newline itself is left out. *)
Fixpoint text_lines (s : string) : list string :=
  match s with
  | EmptyString => []
  | String c t =>
      if Ascii.eqb c LF then EmptyString :: text_lines t
      else if Ascii.eqb c CR then
        EmptyString :: match t with
                       | String c2 t2 => if Ascii.eqb c2 LF then text_lines t2 else text_lines t
                       | EmptyString => []
                       end
      else match text_lines t with
           | [] => [String c EmptyString]
           | w :: ws => String c w :: ws
           end
  end.

(** * configparser *)
(** 1049-1052: the first character of the line that is no white space is # or ; *)
Definition is_comment (line : string) : bool :=
  match lstrip line with
  | EmptyString => false
  | String c _ => Ascii.eqb c "#"%char || Ascii.eqb c ";"%char
  end.
(** 1071-1072: number of white space characters before the first other one *)
Fixpoint indentation (line : string) : nat :=
  match line with
  | EmptyString => O
  | String c t => if is_space c then S (indentation t) else O
  end.

(** the text before the last "]" *)
Fixpoint before_last_bracket (s : string) : option string :=
  match s with
  | EmptyString => None
  | String c t => match before_last_bracket t with
                  | Some r => Some (String c r)
                  | None => if Ascii.eqb c "]"%char then Some EmptyString else None
                  end
  end.
(** 574-578 SECTCRE.match: "[", at least one character, and the last "]"; what follows is ignored *)
Definition section_header (value : string) : option string :=
  match value with
  | String c t =>
      if Ascii.eqb c "["%char then
        match before_last_bracket t with
        | Some (String h hs) => Some (String h hs)
        | _ => None
        end
      else None
  | EmptyString => None
  end.
(** the parts before and after the first delimiter *)
Fixpoint split_delim (s : string) : option (string * string) :=
  match s with
  | EmptyString => None
  | String c t => if Ascii.eqb c "="%char || Ascii.eqb c ":"%char then Some (EmptyString, t)
                  else match split_delim t with
                       | Some (a, b) => Some (String c a, b)
                       | None => None
                       end
  end.
(** 579-586 OPTCRE.match, 1110, 1120 *)
Definition option_match (value : string) : option (string * string) :=
  match split_delim value with
  | Some (a, b) => Some (lower (rstrip a), strip b)
  | None => None
  end.

(** a section while it is read: options with the lines of their values *)
Definition raw_section := list (string * list string).
(** The local variables of _read (1029-1034).  [i_cur] is sectname, [i_opt] is optname ("" for None),
    [i_bad] whether e is set.  elements_added is not kept: it holds exactly the sections and options
    read so far. *)
Record ini := mkIni {
  i_defaults : raw_section; i_sections : list (string * raw_section);
  i_cur : option string; i_opt : string; i_indent : nat; i_bad : bool }.
Definition ini0 : ini := mkIni [] [] None "" O false.

(** change the entry of a key *)
Fixpoint update {A} (k : string) (f : A -> A) (l : list (string * A)) : list (string * A) :=
  match l with
  | [] => []
  | (k', v) :: t => if String.eqb k' k then (k', f v) :: t else (k', v) :: update k f t
  end.
(** cursect and its change *)
Definition cur_section (st : ini) (name : string) : raw_section :=
  if String.eqb name "DEFAULT" then i_defaults st
  else match assoc name (i_sections st) with Some s => s | None => [] end.
Definition change_section (st : ini) (name : string) (f : raw_section -> raw_section) : ini :=
  if String.eqb name "DEFAULT" then
    mkIni (f (i_defaults st)) (i_sections st) (i_cur st) (i_opt st) (i_indent st) (i_bad st)
  else mkIni (i_defaults st) (update name f (i_sections st)) (i_cur st) (i_opt st) (i_indent st) (i_bad st).
Definition set_opt (st : ini) (opt : string) : ini :=
  mkIni (i_defaults st) (i_sections st) (i_cur st) opt (i_indent st) (i_bad st).
Definition set_indent (st : ini) (n : nat) : ini :=
  mkIni (i_defaults st) (i_sections st) (i_cur st) (i_opt st) n (i_bad st).
Definition set_bad (st : ini) : ini :=
  mkIni (i_defaults st) (i_sections st) (i_cur st) (i_opt st) (i_indent st) true.

(** cursect[optname].append(value) *)
Definition append_line (st : ini) (name value : string) : ini :=
  change_section st name (update (i_opt st) (fun ls => (ls ++ [value])%list)).

(** 1082-1100: a section header *)
Definition enter_section (st : ini) (name : string) : res ini :=
  let entered secs := mkIni (i_defaults st) secs (Some name) "" (i_indent st) (i_bad st) in
  match assoc name (i_sections st) with
  | Some _ => Err DuplicateSectionError                                         (* 1084-1087 *)
  | None => if String.eqb name "DEFAULT" then Ok (entered (i_sections st))      (* 1090-1091 *)
            else Ok (entered (i_sections st ++ [(name, [])])%list)              (* 1092-1096 *)
  end.

(** 1104-1133: another line in a section *)
Definition read_option (st : ini) (name value : string) : res ini :=
  match option_match value with
  | None => Ok (set_bad st)                                                     (* 1128-1133 *)
  | Some (key, v) =>
      let st := if String.eqb key "" then set_bad st else st in                 (* 1108-1109 *)
      let st := set_opt st key in
      match assoc key (cur_section st name) with
      | Some _ => Err DuplicateOptionError                                      (* 1111-1114 *)
      | None => Ok (change_section st name (fun s => (s ++ [(key, [v])])%list)) (* 1118-1120 *)
      end
  end.

(** 1035-1133: one line.  There are no inline comments (inline_comment_prefixes is None). *)
Definition read_line (st : ini) (line : string) : res ini :=
  let value := if is_comment line then "" else strip line in                    (* 1048-1055 *)
  match value with
  | EmptyString =>                                                              (* 1056-1069 *)
      match i_cur st with
      | Some name => if negb (is_comment line) && negb (String.eqb (i_opt st) "") then Ok (append_line st name "") else Ok st
      | None => Ok st
      end
  | String _ _ =>
      let continued := match i_cur st with
                       | Some _ => negb (String.eqb (i_opt st) "") && Nat.ltb (i_indent st) (indentation line)
                       | None => false
                       end in
      match continued, i_cur st with
      | true, Some name => Ok (append_line st name value)                       (* 1073-1075 *)
      | _, _ =>
          let st := set_indent st (indentation line) in                         (* 1078 *)
          match section_header value with
          | Some name => enter_section st name
          | None => match i_cur st with
                    | None => Err MissingSectionHeaderError                     (* 1102-1103 *)
                    | Some name => read_option st name value
                    end
          end
      end
  end.

(** 1141-1146 _join_multiline_values *)
Definition newline : string := String LF EmptyString.
Definition joined (s : raw_section) : section :=
  map (fun kv => (fst kv, rstrip (String.concat newline (snd kv)))) s.

(** 1012-1138 _read of the lines, then the sections as the proxies show them: options of [DEFAULT]
    are looked up after those of the section (_unify_values, options) *)
Definition read_lines (ls : list string) : res (list (string * section)) :=
  do st <- foldM read_line ls ini0;
  if i_bad st then Err ParsingError                                             (* 1137-1138 *)
  else Ok (map (fun ns => (fst ns, (joined (snd ns) ++ joined (i_defaults st))%list)) (i_sections st)).

(** inputparser.py:151-157: the sections of a file with the given text *)
Definition read_text (text : string) : res (list (string * section)) := read_lines (text_lines text).

(** * int() and float() *)
Definition digit (c : ascii) : option Z :=
  let n := N_of_ascii c in if ((48 <=? n) && (n <=? 57))%N then Some (Z.of_N n - 48) else None.
(** one or more digits with single underscores between them; [after] tells whether a digit precedes *)
Fixpoint digits (after : bool) (s : string) : option (list Z) :=
  match s with
  | EmptyString => if after then Some [] else None
  | String c t =>
      if Ascii.eqb c "_"%char then (if after then digits false t else None)
      else match digit c with
           | Some d => option_map (cons d) (digits true t)
           | None => None
           end
  end.
Definition decimal (ds : list Z) : Z := fold_left (fun a d => 10 * a + d) ds 0.
(** an optional sign *)
Definition signed (s : string) : Z * string :=
  match s with
  | String c t => if Ascii.eqb c "-"%char then (-1, t) else if Ascii.eqb c "+"%char then (1, t) else (1, s)
  | EmptyString => (1, s)
  end.

(** int(s); the limit of 4300 digits of newer python versions is left out *)
Definition py_int (s : string) : option Z :=
  let (sg, t) := signed (strip s) in option_map (fun ds => sg * decimal ds) (digits false t).

(** the parts before and after the first character in [cs] *)
Fixpoint split_at (cs : list ascii) (s : string) : string * option string :=
  match s with
  | EmptyString => (EmptyString, None)
  | String c t => if existsb (Ascii.eqb c) cs then (EmptyString, Some t)
                  else let (a, b) := split_at cs t in (String c a, b)
  end.
(** the digits of the mantissa and how many of them are behind the decimal point *)
Definition mantissa (s : string) : option (list Z * nat) :=
  match split_at ["."%char] s with
  | (a, None) => option_map (fun ds => (ds, O)) (digits false a)
  | (EmptyString, Some b) => option_map (fun fs => (fs, length fs)) (digits false b)
  | (a, Some EmptyString) => option_map (fun ds => (ds, O)) (digits false a)
  | (a, Some b) => match digits false a, digits false b with
                   | Some ds, Some fs => Some ((ds ++ fs)%list, length fs)
                   | _, _ => None
                   end
  end.
(** the integer behind the e of a number *)
Definition exponent (s : string) : option Z :=
  let (sg, t) := signed s in option_map (fun ds => sg * decimal ds) (digits false t).

(** Numbers from 2^1024 - 2^970 on are rounded to infinity; all others keep their exact value here
    (python takes the nearest float64). *)
Definition to_double (x : R) : xreal :=
  if Rlt_dec (Rabs x) (2 ^ 1024 - 2 ^ 970) then Fin x else if Rlt_dec x 0 then MInf else PInf.

(** float(s) *)
Definition py_float (s : string) : option xreal :=
  let (sg, t) := signed (strip s) in
  let l := lower t in
  if String.eqb l "inf" || String.eqb l "infinity" then Some (if sg <? 0 then MInf else PInf)
  else if String.eqb l "nan" then Some NaN
  else
    let '(m, ex) := split_at ["e"%char; "E"%char] t in
    match mantissa m, match ex with None => Some 0 | Some e => exponent e end with
    | Some (ds, k), Some e => Some (to_double (IZR (sg * decimal ds) * powerRZ 10 (e - Z.of_nat k)))
    | _, _ => None
    end.

(** the conversions of python *)
Definition py_conv : conv := {| to_float := py_float; to_int := py_int |}.
