(** Model of bdld/inputparser.py.

    The text of the input file is read by configparser (standard library, Model_ini.v); this file
    starts from what it delivers: the sections with their (lower case) keys and raw values, entries of
    the [DEFAULT] section already added to each of them.  The interpolation of '%' that configparser
    applies when a value is fetched is modelled.  python's float() and int() on strings are given
    by the record [conv]: any functions that either deliver a value or raise ValueError (python's own
    are [py_conv] in Model_ini.v). *)
From Coq Require Export String Ascii.
From Coq Require Import DecimalString.
From Verif Require Export PyBase Model_xr.
Open Scope string_scope.
Open Scope Z_scope.

(** * Strings *)
Definition lower_ascii (c : ascii) : ascii :=
  let n := N_of_ascii c in
  if ((65 <=? n) && (n <=? 90))%N then ascii_of_N (n + 32) else c.
(** str.lower (ASCII only) *)
Fixpoint lower (s : string) : string :=
  match s with EmptyString => EmptyString | String c t => String (lower_ascii c) (lower t) end.
(** s.split(",") *)
Fixpoint split_comma (s : string) : list string :=
  match s with
  | EmptyString => [EmptyString]
  | String c t =>
      if Ascii.eqb c ","%char then EmptyString :: split_comma t
      else match split_comma t with
           | [] => [String c EmptyString]
           | w :: ws => String c w :: ws
           end
  end.
(** str(n) of a natural number *)
Definition string_of_nat (n : nat) : string := NilZero.string_of_uint (Nat.to_uint n).
Definition prefixed (pre : string) (n : nat) (suf : string) : string :=       (* f"{prefix}{n}{suffix}" *)
  pre ++ string_of_nat n ++ suf.
Fixpoint has_percent (s : string) : bool :=
  match s with EmptyString => false | String c t => Ascii.eqb c "%"%char || has_percent t end.

(** * configparser *)
Definition section := list (string * string).
Fixpoint assoc {A} (k : string) (l : list (string * A)) : option A :=
  match l with
  | [] => None
  | (k', v) :: t => if String.eqb k' k then Some v else assoc k t
  end.

(** name and rest in "name)rest" *)
Fixpoint until_paren (s : string) : option (string * string) :=
  match s with
  | EmptyString => None
  | String c t => if Ascii.eqb c ")"%char then Some (EmptyString, t)
                  else match until_paren t with
                       | Some (a, r) => Some (String c a, r)
                       | None => None
                       end
  end.

(** configparser.BasicInterpolation: %% stands for %, %(name)s for the value of another key,
    anything else after % is an error, as are more than 10 nested references. *)
Fixpoint interpolate (depth : nat) (sec : section) (s : string) : res string :=
  match depth with
  | O => Err InterpolationError
  | S d =>
      (fix go (fuel : nat) (rest : string) : res string :=
         match fuel, rest with
         | S f, String c t =>
             if negb (Ascii.eqb c "%"%char) then do r <- go f t; Ok (String c r)
             else match t with
                  | String c2 t2 =>
                      if Ascii.eqb c2 "%"%char then do r <- go f t2; Ok (String c r)
                      else if Ascii.eqb c2 "("%char then
                        match until_paren t2 with
                        | Some (String n0 ns, String c3 t3) =>
                            if Ascii.eqb c3 "s"%char then
                              match assoc (lower (String n0 ns)) sec with
                              | None => Err InterpolationError
                              | Some v =>
                                  do a <- (if has_percent v then interpolate d sec v else Ok v);
                                  do r <- go f t3;
                                  Ok (a ++ r)
                              end
                            else Err InterpolationError
                        | _ => Err InterpolationError
                        end
                      else Err InterpolationError
                  | EmptyString => Err InterpolationError
                  end
         | _, _ => Ok EmptyString
         end) (String.length s) s
  end.

(** section.get(key) / section[key] for a key that may be missing *)
Definition sec_get (sec : section) (key : string) : option (res string) :=
  match assoc key sec with
  | None => None
  | Some raw => Some (interpolate 10 sec raw)
  end.

(** ConfigParser.BOOLEAN_STATES and getboolean *)
Definition to_bool (s : string) : option bool :=
  let l := lower s in
  if existsb (String.eqb l) ["1"; "yes"; "true"; "on"] then Some true
  else if existsb (String.eqb l) ["0"; "no"; "false"; "off"] then Some false
  else None.

(** float(s), int(s): [None] is ValueError *)
Record conv := { to_float : string -> option xreal; to_int : string -> option Z }.

(** * Options *)

(** inputparser.py:24-25: values of options *)
Inductive oval :=
| VNone | VStr (s : string) | VFloat (x : xreal) | VInt (z : Z) | VBool (b : bool)
| VFloats (l : list xreal) | VInts (l : list Z).

(** the types used as keytype; [KFloats] is the list type [float], [KInts] is [int] *)
Inductive ktype := KStr | KFloat | KInt | KBool | KFloats | KInts.

(** comparisons of an int or float with 0 (false for nan) *)
Definition xpos (x : xreal) : bool := xltb (Fin 0) x.
Definition xnonneg (x : xreal) : bool :=
  match x with Fin r => if Rle_dec 0 r then true else false | PInf => true | _ => false end.

(** inputparser.py:119-124 and 252-260.  A condition is only ever attached to options of the
    fitting type; on others python would raise or compare strings, here it is false. *)
Inductive condition := Positive | AllPositive | PositiveOrZero | AtMost3Dim | OneOf (l : list string).
Definition check (c : condition) (v : oval) : bool :=
  match c, v with
  | Positive, VFloat x => xpos x
  | Positive, VInt z => z >? 0
  | AllPositive, VFloats l => forallb xpos l
  | AllPositive, VInts l => forallb (fun z => z >? 0) l
  | PositiveOrZero, VFloat x => xnonneg x
  | PositiveOrZero, VInt z => z >=? 0
  | AtMost3Dim, VInt x =>                       (* x > 0 & x < 4, i.e. x > (0 & x) < 4 *)
      let m := Z.land 0 x in (x >? m) && (m <? 4)
  | OneOf l, VStr s => existsb (String.eqb s) l
  | _, _ => false
  end.

(** inputparser.py:50-72 *)
Record input_option := mkOpt {
  io_key : string; io_type : ktype; io_compulsory : bool;
  io_cond : option condition; io_default : oval }.
Definition opt (key : string) (t : ktype) (compulsory : bool) : input_option :=
  mkOpt key t compulsory None VNone.
Definition optc (key : string) (t : ktype) (compulsory : bool) (c : condition) : input_option :=
  mkOpt key t compulsory (Some c) VNone.

(** ValueError of a scalar conversion is turned into OptionError (94-99) *)
Definition scalar {A} (o : option A) (f : A -> oval) : res oval :=
  match o with Some a => Ok (f a) | None => Err OptionError end.
(** ValueError of an element of a list is not caught (100-103) *)
Definition element {A} (o : option A) : res A :=
  match o with Some a => Ok a | None => Err ValueError end.

(** inputparser.py:74-107 InputOption.parse *)
Definition parse_option (cv : conv) (sec : section) (o : input_option) : res oval :=
  match sec_get sec (io_key o) with
  | None => if io_compulsory o then Err OptionError else Ok (io_default o)       (* 80-84 *)
  | Some text =>
      do text <- text;
      do val <- match io_type o with
                | KStr => Ok (VStr text)                                          (* 85-86 *)
                | KFloat => scalar (to_float cv text) VFloat                      (* 88-89 *)
                | KInt => scalar (to_int cv text) VInt                            (* 90-91 *)
                | KBool => scalar (to_bool text) VBool                            (* 92-93 *)
                | KFloats => do l <- mapM (fun x => element (to_float cv x)) (split_comma text);
                             Ok (VFloats l)
                | KInts => do l <- mapM (fun x => element (to_int cv x)) (split_comma text);
                           Ok (VInts l)
                end;
      match io_cond o with                                                       (* 104-106 *)
      | Some c => if check c val then Ok val else Err OptionError
      | None => Ok val
      end
  end.

(** a python dict: keys in insertion order *)
Definition dict := list (string * oval).
Fixpoint dict_set (k : string) (v : oval) (d : dict) : dict :=
  match d with
  | [] => [(k, v)]
  | (k', v') :: t => if String.eqb k' k then (k', v) :: t else (k', v') :: dict_set k v t
  end.

(** inputparser.py:374-387 parse_section *)
Definition parse_section (cv : conv) (sec : section) (opts : list input_option) : res dict :=
  foldM (fun d o => do v <- parse_option cv sec o; Ok (dict_set (io_key o) v d)) opts [].

(** inputparser.py:391-410 get_all_numbered_values; [look key] is section[key] with [None] for
    KeyError.  [fuel] bounds the number of iterations of the while loop. *)
Fixpoint numbered {A} (look : string -> option (res A)) (pre suf : string) (fuel counter : nat) : res (list A) :=
  match fuel with
  | O => Err NoTermination
  | S f => match look (prefixed pre counter suf) with
           | None => Ok []
           | Some v => do v <- v; do rest <- numbered look pre suf f (S counter); Ok (v :: rest)
           end
  end.
Definition numbered_in_section (sec : section) (pre suf : string) : res (list string) :=
  numbered (sec_get sec) pre suf (S (length sec)) 1.
Definition numbered_in_dict (d : dict) (pre suf : string) : res (list oval) :=
  numbered (fun k => option_map Ok (assoc k d)) pre suf (S (length d)) 1.

(** inputparser.py:413-442 numbered_state_options *)
Definition numbered_state_options (sec : section) : res (list input_option) :=
  do mins <- numbered_in_section sec "state" "-min";
  do maxs <- numbered_in_section sec "state" "-max";
  if negb (Nat.eqb (length mins) (length maxs)) then Err OptionError             (* 424-429 *)
  else
    let opts := flat_map (fun i => [opt (prefixed "state" (S i) "-min") KFloats true;
                                    opt (prefixed "state" (S i) "-max") KFloats true])
                         (seq 0 (length mins)) in                                (* 430-435 *)
    match opts with [] => Err OptionError | _ => Ok opts end.                    (* 436-441 *)

(** inputparser.py:445-480 min_max_to_ranges.  List elements are numbers or lists of numbers. *)
Inductive point := Num (x : xreal) | Nums (l : list xreal).
Definition py_len (p : point) : res nat := match p with Num _ => Err TypeError | Nums l => Ok (length l) end.
Fixpoint check_dims (n_dim : nat) (mins maxs : list point) : res unit :=          (* 470-472 *)
  match mins, maxs with
  | a :: mins', b :: maxs' =>
      do la <- py_len a;
      do lb <- py_len b;
      if negb (Nat.eqb la lb) && negb (Nat.eqb lb n_dim) then Err ValueError
      else check_dims n_dim mins' maxs'
  | _, _ => Ok tt
  end.
Definition as_number (p : point) : res xreal := match p with Num x => Ok x | Nums _ => Err TypeError end.
Definition as_list (p : point) : res (list xreal) := match p with Nums l => Ok l | Num _ => Err TypeError end.
Definition min_max_to_ranges (mins maxs : list point) : res (list (list (xreal * xreal))) :=
  if negb (Nat.eqb (length mins) (length maxs)) then Err ValueError               (* 464-465 *)
  else
    match mins with
    | [] => Err IndexError                                                        (* min_list[0] *)
    | m0 :: _ =>
        match (do n_dim <- py_len m0; check_dims n_dim mins maxs) with
        | Err TypeError =>                                                        (* 473-478 *)
            do xs <- mapM as_number (mins ++ maxs);
            let n := length mins in
            Ok (map (fun ab => [ab]) (combine (firstn n xs) (skipn n xs)))
        | Err e => Err e
        | Ok tt =>
            do a <- mapM as_list mins;
            do b <- mapM as_list maxs;
            Ok (map (fun lr => combine (fst lr) (snd lr)) (combine a b))          (* 480 *)
        end
    end.

(** * The sections *)

Definition vstr_is (v : oval) (s : string) : bool :=
  match v with VStr t => String.eqb t s | _ => false end.
Definition get_dict (d : dict) (k : string) : oval :=                    (* d[k]; VNone if missing *)
  match assoc k d with Some v => v | None => VNone end.
Definition vint_is (v : oval) (z : Z) : bool := match v with VInt x => x =? z | _ => false end.

(** inputparser.py:180-203 parse_ld *)
Definition type_option_ld := opt "type" KStr false.
Definition ld_options : list input_option :=
  [type_option_ld; optc "timestep" KFloat true PositiveOrZero; optc "n_steps" KInt true Positive;
   opt "seed" KInt false].
Definition parse_ld (cv : conv) (sec : section) : res dict :=
  do ld_type <- parse_option cv sec type_option_ld;
  do options <-
    (if vstr_is ld_type "bussi-parinello" then
       Ok (ld_options ++ [optc "kt" KFloat true Positive; optc "friction" KFloat true PositiveOrZero])%list
     else if vstr_is ld_type "overdamped" then Ok ld_options
     else Err OptionError);
  parse_section cv sec options.

(** inputparser.py:205-241 parse_potential *)
Definition type_option_pot := opt "type" KStr true.
Definition n_dim_option := optc "n_dim" KInt true AtMost3Dim.
Definition parse_potential (cv : conv) (sec : section) : res dict :=
  do pot_type <- parse_option cv sec type_option_pot;
  do options <-
    (if vstr_is pot_type "polynomial" then
       do n_dim <- parse_option cv sec n_dim_option;
       if vint_is n_dim 1 then
         Ok [type_option_pot; n_dim_option; opt "coeffs" KFloats false; opt "min" KFloat true; opt "max" KFloat true]
       else
         Ok [type_option_pot; n_dim_option; opt "coeffs-file" KStr true; opt "min" KFloats true; opt "max" KFloats true]
     else if vstr_is pot_type "mueller-brown" then
       Ok [type_option_pot; opt "scaling-factor" KFloat false; mkOpt "n_dim" KInt false None (VInt 2)]
     else Err OptionError);
  parse_section cv sec (options ++ [opt "boundary-condition" KStr false])%list.

(** inputparser.py:243-275 parse_particles *)
Definition init_dist_option : input_option :=
  optc "initial-distribution" KStr true (OneOf ["random-global"; "random-pos"; "fractions-pos"]).
Definition parse_particles (cv : conv) (sec : section) : res dict :=
  do init_dist <- parse_option cv sec init_dist_option;
  do pos_options <-
    (if vstr_is init_dist "random-pos" || vstr_is init_dist "fractions-pos" then
       do values <- numbered_in_section sec "pos" "";
       Ok (map (fun i => opt (prefixed "pos" (S i) "") KFloats true) (seq 0 (length values)))
     else Ok []);
  let fractions := if vstr_is init_dist "fractions-pos" then [opt "fractions" KFloats true] else [] in
  parse_section cv sec
    ([optc "number" KInt true Positive; mkOpt "mass" KFloat false (Some Positive) (VFloat (Fin 1));
      opt "seed" KInt false; init_dist_option] ++ pos_options ++ fractions)%list.

(** inputparser.py:277-298 parse_birth_death *)
Definition parse_birth_death (cv : conv) (potential : dict) (sec : section) : res dict :=
  parse_section cv sec
    ([optc "stride" KInt true Positive; opt "correction-variant" KStr false;
      opt "approximation-variant" KStr false; optc "exponential-factor" KFloat false Positive;
      mkOpt "recalculate-probabilities" KBool false None (VBool false);
      optc "stats-stride" KInt false Positive; opt "stats-filename" KStr false; opt "seed" KInt false] ++
     (if vint_is (get_dict potential "n_dim") 1 then [optc "kernel-bandwidth" KFloat true Positive]
      else [optc "kernel-bandwidth" KFloats true AllPositive]))%list.

(** inputparser.py:300-309 parse_trajectories *)
Definition parse_trajectories (cv : conv) (sec : section) : res dict :=
  parse_section cv sec
    [opt "filename" KStr false; optc "stride" KInt false Positive; opt "momentum" KBool false;
     optc "write-stride" KInt false Positive; opt "fmt" KStr false].

(** inputparser.py:311-332 parse_histogram *)
Definition parse_histogram (cv : conv) (potential : dict) (sec : section) : res dict :=
  parse_section cv sec
    ([optc "stride" KInt false Positive; optc "reset" KInts false AllPositive; opt "filename" KStr false;
      optc "write-stride" KInt false Positive; opt "fmt" KStr false] ++
     (if vint_is (get_dict potential "n_dim") 1 then
        [opt "min" KFloat true; opt "max" KFloat true; optc "bins" KInt true Positive]
      else [opt "min" KFloats true; opt "max" KFloats true; optc "bins" KInts true AllPositive]))%list.

(** truth value of an optional dict: None and {} are false *)
Definition truthy_dict (d : option dict) : bool :=
  match d with Some (_ :: _) => true | _ => false end.

(** inputparser.py:334-349 parse_fes *)
Definition parse_fes (cv : conv) (histogram : option dict) (sec : section) : res dict :=
  if negb (truthy_dict histogram) then Err NoSectionError
  else parse_section cv sec
    [optc "kt" KFloat true Positive; optc "stride" KInt false Positive; opt "filename" KStr false;
     optc "write-stride" KInt false Positive; opt "fmt" KStr false; opt "plot-stride" KInt false;
     opt "plot-filename" KStr false; opt "plot-domain" KFloats false; opt "plot-title" KStr false].

Definition output_options : list input_option :=
  [optc "stride" KInt false Positive; opt "filename" KStr false;
   optc "write-stride" KInt false Positive; opt "fmt" KStr false].

(** inputparser.py:351-362 parse_delta_f *)
Definition parse_delta_f (cv : conv) (fes : option dict) (sec : section) : res dict :=
  if negb (truthy_dict fes) then Err NoSectionError
  else do states <- numbered_state_options sec;
       parse_section cv sec (output_options ++ states)%list.

(** inputparser.py:364-372 parse_particle_distribution *)
Definition parse_particle_distribution (cv : conv) (sec : section) : res dict :=
  do states <- numbered_state_options sec;
  parse_section cv sec (output_options ++ states)%list.

(** inputparser.py:130-144 attributes of Input *)
Record config := mkConfig {
  c_ld : dict; c_potential : dict; c_particles : dict;
  c_birth_death : option dict; c_trajectories : option dict; c_histogram : option dict;
  c_fes : option dict; c_delta_f : option dict; c_particle_distribution : option dict }.

(** if infile.has_section(name): self.x = parse(infile[name]) *)
Definition optional_section (secs : list (string * section)) (name : string) (parse : section -> res dict)
  : res (option dict) :=
  match assoc name secs with
  | None => Ok None
  | Some sec => do d <- parse sec; Ok (Some d)
  end.

(** inputparser.py:146-178 parse_all on the sections of the file *)
Definition parse_all (cv : conv) (secs : list (string * section)) : res config :=
  if negb (forallb (fun n => match assoc n secs with Some _ => true | None => false end)
                   ["ld"; "potential"; "particles"]) then Err SectionError       (* 159-161 *)
  else
    match assoc "ld" secs, assoc "potential" secs, assoc "particles" secs with
    | Some s_ld, Some s_pot, Some s_part =>
        do ld <- parse_ld cv s_ld;
        do pot <- parse_potential cv s_pot;
        do part <- parse_particles cv s_part;
        do bd <- optional_section secs "birth-death" (parse_birth_death cv pot);
        do traj <- optional_section secs "trajectories" (parse_trajectories cv);
        do histo <- optional_section secs "histogram" (parse_histogram cv pot);
        do fes <- optional_section secs "fes" (parse_fes cv histo);
        do df <- optional_section secs "delta-f" (parse_delta_f cv fes);
        do pd <- optional_section secs "particle-distribution" (parse_particle_distribution cv);
        Ok (mkConfig ld pot part bd traj histo fes df pd)
    | _, _, _ => Err SectionError
    end.

(** inputparser.py:130-157: Input(filename).  [file] is what is found under the name: nothing, a
    text that configparser cannot parse, or the sections. *)
Definition read_input (cv : conv) (file : option (res (list (string * section)))) : res config :=
  match file with
  | None => Err FileNotFoundError
  | Some secs => do secs <- secs; parse_all cv secs
  end.
