(** Notions for the input parser *)
From Verif Require Import PyBase Model_xr Model_input.
Open Scope string_scope.
Open Scope Z_scope.

(** the words of a comma separated list *)
Fixpoint comma_free (s : string) : Prop :=
  match s with EmptyString => True | String c t => c <> ","%char /\ comma_free t end.
Definition comma_separated (words : list string) (s : string) : Prop :=
  words <> [] /\ Forall comma_free words /\ String.concat "," words = s.

(** text [t] read as a value of the given type *)
Inductive converts (cv : conv) : ktype -> string -> oval -> Prop :=
| conv_str t : converts cv KStr t (VStr t)
| conv_float t x : to_float cv t = Some x -> converts cv KFloat t (VFloat x)
| conv_int t z : to_int cv t = Some z -> converts cv KInt t (VInt z)
| conv_true t : In (lower t) ["1"; "yes"; "true"; "on"] -> converts cv KBool t (VBool true)
| conv_false t : In (lower t) ["0"; "no"; "false"; "off"] -> converts cv KBool t (VBool false)
| conv_floats words t l : comma_separated words t ->
    Forall2 (fun w x => to_float cv w = Some x) words l -> converts cv KFloats t (VFloats l)
| conv_ints words t l : comma_separated words t ->
    Forall2 (fun w z => to_int cv w = Some z) words l -> converts cv KInts t (VInts l).

(** order of (extended) numbers; nan is not comparable *)
Definition positive_number (x : xreal) : Prop := match x with Fin r => (0 < r)%R | PInf => True | _ => False end.
Definition nonnegative_number (x : xreal) : Prop := match x with Fin r => (0 <= r)%R | PInf => True | _ => False end.

(** what the conditions promise according to their descriptions *)
Definition satisfies (c : condition) (v : oval) : Prop :=
  match c, v with
  | Positive, VFloat x => positive_number x
  | Positive, VInt z => 0 < z
  | AllPositive, VFloats l => Forall positive_number l
  | AllPositive, VInts l => Forall (fun z => 0 < z) l
  | PositiveOrZero, VFloat x => nonnegative_number x
  | PositiveOrZero, VInt z => 0 <= z
  | AtMost3Dim, VInt z => 1 <= z <= 3
  | OneOf l, VStr s => In s l
  | _, _ => False
  end.
Definition satisfies_opt (c : option condition) (v : oval) : Prop :=
  match c with None => True | Some c => satisfies c v end.

Definition list_type (t : ktype) : Prop := match t with KFloats | KInts => True | _ => False end.

(** entries of a parsed section *)
Definition positive_int (d : dict) (k : string) : Prop := exists z, assoc k d = Some (VInt z) /\ 0 < z.
Definition positive_float (d : dict) (k : string) : Prop := exists x, assoc k d = Some (VFloat x) /\ positive_number x.
Definition nonnegative_float (d : dict) (k : string) : Prop :=
  exists x, assoc k d = Some (VFloat x) /\ nonnegative_number x.
(** the option is not given, or is a positive number *)
Definition none_or_positive_int (d : dict) (k : string) : Prop := assoc k d = Some VNone \/ positive_int d k.
Definition none_or_positive_float (d : dict) (k : string) : Prop := assoc k d = Some VNone \/ positive_float d k.
Definition positive_floats (d : dict) (k : string) : Prop :=
  exists l, assoc k d = Some (VFloats l) /\ l <> [] /\ Forall positive_number l.
Definition positive_ints (d : dict) (k : string) : Prop :=
  exists l, assoc k d = Some (VInts l) /\ l <> [] /\ Forall (fun z => 0 < z) l.

Definition on_section (o : option dict) (P : dict -> Prop) : Prop := match o with Some d => P d | None => True end.

(** all numerical parameters of an accepted input are usable *)
Definition usable (c : config) : Prop :=
  positive_int (c_ld c) "n_steps" /\ nonnegative_float (c_ld c) "timestep" /\
  (assoc "type" (c_ld c) = Some (VStr "overdamped") \/
   assoc "type" (c_ld c) = Some (VStr "bussi-parinello") /\
     positive_float (c_ld c) "kt" /\ nonnegative_float (c_ld c) "friction") /\
  positive_float (c_particles c) "mass" /\ positive_int (c_particles c) "number" /\
  on_section (c_birth_death c) (fun d =>
    positive_int d "stride" /\ none_or_positive_int d "stats-stride" /\
    none_or_positive_float d "exponential-factor" /\
    (positive_float d "kernel-bandwidth" \/ positive_floats d "kernel-bandwidth")) /\
  on_section (c_trajectories c) (fun d => none_or_positive_int d "stride" /\ none_or_positive_int d "write-stride") /\
  on_section (c_histogram c) (fun d => none_or_positive_int d "stride" /\ none_or_positive_int d "write-stride" /\
    (assoc "reset" d = Some VNone \/ positive_ints d "reset") /\ (positive_int d "bins" \/ positive_ints d "bins")) /\
  on_section (c_fes c) (fun d => none_or_positive_int d "stride" /\ none_or_positive_int d "write-stride" /\ positive_float d "kt") /\
  on_section (c_delta_f c) (fun d => none_or_positive_int d "stride" /\ none_or_positive_int d "write-stride") /\
  on_section (c_particle_distribution c) (fun d => none_or_positive_int d "stride" /\ none_or_positive_int d "write-stride").

(** the values of the keys pre1suf, pre2suf, ... up to the first that is missing *)
Definition all_numbered {A} (look : string -> option (res A)) (pre suf : string) (vs : list A) : Prop :=
  (forall i v, nth_error vs i = Some v -> look (prefixed pre (S i) suf) = Some (Ok v)) /\
  look (prefixed pre (S (length vs)) suf) = None.
(** the key numbered n is there, but its value cannot be fetched *)
Definition numbered_fails {A} (look : string -> option (res A)) (pre suf : string) (e : exn) : Prop :=
  exists n, look (prefixed pre (S n) suf) = Some (Err e) /\
    forall i, (i < n)%nat -> exists v, look (prefixed pre (S i) suf) = Some (Ok v).

(** number of states given by statei-min (suffix "-min") or statei-max keys *)
Definition has_states (sec : section) (suf : string) (n : nat) : Prop :=
  (forall i, (i < n)%nat -> assoc (prefixed "state" (S i) suf) sec <> None) /\
  assoc (prefixed "state" (S n) suf) sec = None.
(** no key of the section needs '%' interpolation *)
Definition plain (sec : section) : Prop := Forall (fun kv => has_percent (snd kv) = false) sec.

(** every % doubled *)
Fixpoint double_percent (s : string) : string :=
  match s with
  | EmptyString => EmptyString
  | String c t => if Ascii.eqb c "%"%char then String c (String c (double_percent t)) else String c (double_percent t)
  end.

(** all states have minima and maxima in the same number of dimensions *)
Definition same_dims (mins maxs : list (list xreal)) : Prop :=
  Forall2 (fun a b => length a = length b) mins maxs.
(** (min, max) per dimension *)
Definition is_zip (a b : list xreal) (r : list (xreal * xreal)) : Prop := map fst r = a /\ map snd r = b.

(** a float/int reader for the examples that understands a few literals *)
Definition demo_conv : conv := {|
  to_float := fun s => if String.eqb s "0.1" then Some (Fin (1/10)) else if String.eqb s "1" then Some (Fin 1)
                       else if String.eqb s "-2" then Some (Fin (-2)) else if String.eqb s "2" then Some (Fin 2)
                       else if String.eqb s "0" then Some (Fin 0) else if String.eqb s "inf" then Some PInf else None;
  to_int := fun s => if String.eqb s "1" then Some 1 else if String.eqb s "4" then Some 4
                     else if String.eqb s "100" then Some 100 else if String.eqb s "0" then Some 0 else None |}.

(** sections of a complete input for the examples *)
Definition demo_ld_section : section :=
  [("type", "bussi-parinello"); ("timestep", "0.1"); ("n_steps", "100"); ("kt", "1"); ("friction", "2")].
Definition demo_pot_section (n_dim : string) : section :=
  [("type", "polynomial"); ("n_dim", n_dim); ("coeffs-file", "coeffs.dat"); ("min", "-2"); ("max", "2")].
Definition demo_particles_section : section :=
  [("number", "100"); ("initial-distribution", "random-global")].
Definition demo_hist_section : section :=
  [("stride", "4"); ("min", "-2,-2"); ("max", "2,2"); ("bins", "100,100"); ("filename", "hist")].
Definition demo_input (n_dim : string) (more : list (string * section)) : list (string * section) :=
  ([("ld", demo_ld_section); ("potential", demo_pot_section n_dim); ("particles", demo_particles_section)] ++ more)%list.
