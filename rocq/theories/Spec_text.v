(** Notions for numbers in output files and in tables *)
From Verif Require Import PyBase Model_xr Model_files Spec_ini.
From Coq Require Import Reals.
Open Scope string_scope.
Open Scope Z_scope.

(** the number read, [y], differs from the number written by at most half a unit of the last of p decimals *)
Definition near (p : nat) (x y : xreal) : Prop :=
  match x, y with
  | Fin a, Fin b => (Rabs (a - b) <= / 2 * / 10 ^ p)%R
  | PInf, PInf | MInf, MInf | NaN, NaN => True
  | _, _ => False
  end.
(** numbers of a size that occurs in files; infinities and nan are allowed *)
Definition moderate (x : xreal) : Prop := match x with Fin r => (Rabs r <= 10 ^ 300)%R | _ => True end.

(** * Tables of numbers as text *)
Definition word (w : string) : Prop := w <> "" /\ every (fun c => ~ white_char c) w.
(** the words of a text, separated by white space *)
Inductive words_text : string -> list string -> Prop :=
| words_none s : white s -> words_text s []
| words_last w1 w : white w1 -> word w -> words_text (w1 ++ w) [w]
| words_more w1 w c rest ws : white w1 -> word w -> white_char c -> words_text rest ws ->
    words_text (w1 ++ w ++ String c rest) (w :: ws).
(** a line of a table: words, then possibly a comment *)
Definition table_line (line : string) (ws : list string) : Prop :=
  exists body comment, line = body ++ comment /\ without ["#"%char] body /\ (comment = "" \/ starts_with ["#"%char] comment) /\
    words_text body ws.
(** the numbers in a line; words that are no numbers count as nan *)
Definition numbers_line (line : string) (row : list xreal) : Prop :=
  exists ws, table_line line ws /\
    Forall2 (fun w x => float_text w x \/ (forall y, ~ float_text w y) /\ x = NaN) ws row.
(** the non-empty rows *)
Definition rows_in (rows : list (list xreal)) : list (list xreal) :=
  filter (fun r => match r with [] => false | _ => true end) rows.

(** the rows of numbers of an output file *)
Definition file_rows (lines : list line) : list (list xreal) :=
  flat_map (fun l => match l with Row r => [r] | _ => [] end) lines.
(** lines of a header and empty lines *)
Definition remark (s : string) : Prop := single_line s /\ (s = "" \/ starts_with ["#"%char] s).
Definition table_file (lines : list line) : Prop :=
  Forall (fun l => match l with Text s => remark s | Row r => r <> [] /\ Forall moderate r | Image _ => False end) lines.

(** python's str() gives one line for numbers and states *)
Definition plain_texts (fe : files_env) : Prop :=
  (forall x, single_line (fe_float fe x)) /\ (forall s, single_line (fe_state fe s)).
