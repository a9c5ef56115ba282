(** Python and numpy basics used by all model files: exceptions as values,
    list indexing and slicing with python semantics, integer ranges.
    Definitions only (the lemmas are in Proof_base.v). *)
From Coq Require Export List ZArith Bool.
Export ListNotations.
Open Scope Z_scope.

(** The exception classes that the modelled code can raise. *)
Inductive exn :=
| ValueError | KeyError | IndexError | TypeError | ZeroDivisionError
| NotImplementedError | UnboundLocalError | FileNotFoundError
| NoSectionError           (* configparser.NoSectionError *)
| OptionError              (* bdld/inputparser.py:28-32 *)
| SectionError             (* bdld/inputparser.py:35-39 *)
| InterpolationError       (* configparser.InterpolationError and its subclasses *)
| MissingSectionHeaderError | DuplicateSectionError | DuplicateOptionError | ParsingError   (* configparser *)
| OSError | OverflowError | EOFError
| NoTermination            (* not a python exception: a loop that does not end *)
| NonFinite.               (* not a python exception: an infinite or nan parameter where the model
                              only has real numbers *)

(** Result of a python call: a value or a raised exception. *)
Inductive res (A : Type) := Ok (a : A) | Err (e : exn).
Arguments Ok {A} a.
Arguments Err {A} e.

Definition bind {A B} (r : res A) (f : A -> res B) : res B :=
  match r with Ok a => f a | Err e => Err e end.

Notation "'do' x <- r ; k" := (bind r (fun x => k))
  (at level 200, x pattern, r at level 100, k at level 200).

(** Sequential execution over a list, stopping at the first exception
    (python list comprehension / for loop collecting results). *)
Fixpoint mapM {A B} (f : A -> res B) (l : list A) : res (list B) :=
  match l with
  | [] => Ok []
  | x :: xs => do y <- f x; do ys <- mapM f xs; Ok (y :: ys)
  end.

(** Loop over a list threading a state, stopping at the first exception. *)
Fixpoint foldM {A S} (f : S -> A -> res S) (l : list A) (s : S) : res S :=
  match l with
  | [] => Ok s
  | x :: xs => do s' <- f s x; foldM f xs s'
  end.

(** python [range(a, b)] *)
Definition zrange (a b : Z) : list Z :=
  map (fun i => a + Z.of_nat i) (seq 0 (Z.to_nat (b - a))).

(** python list index: negative indices count from the end; [None] if out of range *)
Definition py_pos (len : nat) (i : Z) : option nat :=
  let n := Z.of_nat len in
  if (0 <=? i) && (i <? n) then Some (Z.to_nat i)
  else if (- n <=? i) && (i <? 0) then Some (Z.to_nat (i + n))
  else None.

(** [l[i]] *)
Definition py_get {A} (l : list A) (i : Z) : res A :=
  match py_pos (length l) i with
  | Some k => match nth_error l k with Some x => Ok x | None => Err IndexError end
  | None => Err IndexError
  end.

Fixpoint set_nth {A} (l : list A) (k : nat) (v : A) : list A :=
  match l, k with
  | [], _ => []
  | _ :: t, O => v :: t
  | x :: t, S k' => x :: set_nth t k' v
  end.

(** [l[i] = v] (list element or row of an array) *)
Definition py_set {A} (l : list A) (i : Z) (v : A) : res (list A) :=
  match py_pos (length l) i with
  | Some k => Ok (set_nth l k v)
  | None => Err IndexError
  end.

(** clamping of a slice bound, python semantics for positive step *)
Definition slice_bound (len : nat) (i : Z) : nat :=
  let n := Z.of_nat len in
  Z.to_nat (if i <? 0 then Z.max 0 (i + n) else Z.min i n).

(** every [step]-th element of [l], the first one taken after skipping [skip] *)
Fixpoint every_nth {A} (skip step : nat) (l : list A) : list A :=
  match l with
  | [] => []
  | x :: t => match skip with
              | O => x :: every_nth (step - 1) step t
              | S c => every_nth c step t
              end
  end.

(** [l[start:stop:step]] for [step >= 0]; [stop = None] is [l[start::step]].
    A zero step raises ValueError as in python.  Negative steps do not occur
    in the modelled code and are mapped to ValueError as well. *)
Definition py_slice {A} (l : list A) (start : Z) (stop : option Z) (step : Z)
  : res (list A) :=
  if step <=? 0 then Err ValueError
  else
    let a := slice_bound (length l) start in
    let b := match stop with Some s => slice_bound (length l) s | None => length l end in
    Ok (every_nth 0 (Z.to_nat step) (firstn (b - a) (skipn a l))).

(** python truth value of an optional integer option ([None] and [0] are falsy) *)
Definition truthyZ (o : option Z) : bool :=
  match o with Some z => negb (z =? 0) | None => false end.

(** [o or d] for an optional integer *)
Definition orZ (o : option Z) (d : Z) : Z :=
  match o with Some z => if z =? 0 then d else z | None => d end.
