(** Model of numbers as text: np.savetxt with the formats used by bdld (bdld/actions/*_action.py,
    particle_distribution.py, birth_death.py:354-361, grid.py:192-213) and np.genfromtxt as called in
    bdld/potential/polynomial.py:100.

    Characters are bytes as in Model_ini.v. *)
From Verif Require Export Model_xr Model_ini Model_files.
Open Scope string_scope.
Open Scope Z_scope.

(** * Formats *)
(** the printf formats %<width>.<precision>f and %d; other formats the user may choose are not modelled *)
Inductive number_format := Fixed (width precision : nat) | Integer.

(** the digits at the start of a string *)
Fixpoint lead_digits (acc : Z) (s : string) : Z * string :=
  match s with
  | String c t => match digit c with Some d => lead_digits (10 * acc + d) t | None => (acc, s) end
  | EmptyString => (acc, EmptyString)
  end.
(** the meaning of a format; the default precision is 6; flags (0, -, +, space, #) are not modelled *)
Definition format_of (s : string) : option number_format :=
  match s with
  | String c t =>
      if Ascii.eqb c "%"%char then
        if match t with String c _ => Ascii.eqb c "0"%char | EmptyString => false end then None else
        let (w, t) := lead_digits 0 t in
        match t with
        | "d" => if w =? 0 then Some Integer else None
        | "f" => Some (Fixed (Z.to_nat w) 6)
        | String c t =>
            if Ascii.eqb c "."%char then
              let (p, t) := lead_digits 0 t in
              if String.eqb t "f" then Some (Fixed (Z.to_nat w) (Z.to_nat p)) else None
            else None
        | EmptyString => None
        end
      else None
  | EmptyString => None
  end.
(** trajectory_action.py:58, histogram_action.py:80, fes_action.py:92, delta_f_action.py:92,
    particle_distribution.py:81: write_fmt or "%14.9f"; the empty string counts as no format *)
Definition write_format (fmt : option string) : option number_format :=
  match fmt with Some (String c t) => format_of (String c t) | _ => format_of "%14.9f" end.
(** birth_death.py:360 *)
Definition stats_format : option number_format := format_of "%d".

(** * Formatting *)
(** nearest integer, ties to even *)
Definition round_even (x : R) : Z :=
  let k := Int_part x in
  let f := (x - IZR k)%R in
  if Rlt_dec f (1/2) then k else if Rlt_dec (1/2) f then k + 1 else if Z.even k then k else k + 1.
Fixpoint spaces (n : nat) : string := match n with O => "" | S k => String " "%char (spaces k) end.
Definition pad (w : nat) (s : string) : string := spaces (w - String.length s) ++ s.
Definition digit_ascii (d : Z) : ascii := ascii_of_nat (48 + Z.to_nat d).
(** the last p digits of n *)
Fixpoint low_digits (p : nat) (n : Z) : string :=
  match p with O => "" | S q => low_digits q (n / 10) ++ String (digit_ascii (n mod 10)) "" end.
(** sign, integer part and p decimals of the correctly rounded number.  A negative number keeps its
    sign if it is rounded to zero. *)
Definition fixed_text (p : nat) (x : R) : string :=
  let n := round_even (Rabs x * 10 ^ p) in
  (if Rlt_dec x 0 then "-" else "") ++ string_of_Z (n / 10 ^ Z.of_nat p)
  ++ match p with O => "" | _ => "." ++ low_digits p (n mod 10 ^ Z.of_nat p) end.
(** format % x; %d cuts off the decimals and refuses inf (OverflowError, here ValueError) and nan *)
Definition number_text (f : number_format) (x : xreal) : res string :=
  match f with
  | Fixed w p => Ok (pad w (match x with Fin r => fixed_text p r | PInf => "inf" | MInf => "-inf" | NaN => "nan" end))
  | Integer => match x with Fin r => Ok (string_of_Z (trunc r)) | _ => Err ValueError end
  end.

(** np.savetxt with delimiter " ": one row *)
Definition row_text (f : number_format) (row : list xreal) : res string :=
  do fields <- mapM (number_text f) row; Ok (String.concat " " fields).
(** lines of a file: header lines are written as they are.  Images have no lines of text. *)
Definition line_text (f : number_format) (l : line) : res string :=
  match l with
  | Text s => Ok s
  | Row row => row_text f row
  | Image _ => Err TypeError
  end.
(** the text of a file; every line ends with "\n" *)
Definition file_text (f : number_format) (lines : list line) : res string :=
  do ls <- mapM (line_text f) lines; Ok (String.concat "" (map (fun s => s ++ newline) ls)).

(** * np.genfromtxt(filename) of numpy 1.2x: the rows of numbers, before np.squeeze *)
(** str.split(): the words between white space *)
Fixpoint split_from (cur : string) (s : string) : list string :=
  match s with
  | EmptyString => match cur with EmptyString => [] | _ => [cur] end
  | String c t => if is_space c
                  then match cur with EmptyString => split_from "" t | _ => cur :: split_from "" t end
                  else split_from (cur ++ String c "") t
  end.
Definition py_split (s : string) : list string := split_from "" s.
(** lib/_iotools.py LineSplitter: without comment, split at white space *)
Definition line_words (line : string) : list string := py_split (fst (split_at ["#"%char] line)).
(** StringConverter._loose_call: nan if the word is no number *)
Definition loose_float (w : string) : xreal := match py_float w with Some x => x | None => NaN end.
(** lines without words are skipped; all others need the same number of columns *)
Definition genfromtxt (text : string) : res (list (list xreal)) :=
  let rows := filter (fun ws => match ws with [] => false | _ => true end) (map line_words (text_lines text)) in
  match rows with
  | [] => Ok []
  | r0 :: _ => if forallb (fun r => Nat.eqb (length r) (length r0)) rows
               then Ok (map (map loose_float) rows) else Err ValueError
  end.

(** polynomial.py:87-109 coefficients_from_file for a file with the given text.  [None]: the file
    contains nan or infinities, for which the code is not modelled. *)
Definition finite_row (row : list xreal) : option (list R) :=
  fold_right (fun x t => match x, t with Fin r, Some l => Some (r :: l) | _, _ => None end) (Some []) row.
Definition finite_rows (rows : list (list xreal)) : option (list (list R)) :=
  fold_right (fun x t => match finite_row x, t with Some r, Some l => Some (r :: l) | _, _ => None end) (Some []) rows.
Definition coefficients_from_text (text : string) (n_dim : nat) : option (res (arr R)) :=
  match genfromtxt text with
  | Err x => Some (Err x)
  | Ok rows => option_map (fun rows => coefficients_from_file rows n_dim) (finite_rows rows)
  end.
