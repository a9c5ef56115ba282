(** C39-C43, C59: the input parser *)
From Coq Require Import Lra.
From Verif Require Import PyBase Model_xr Model_input Spec_input Proof_input.
Open Scope string_scope.
Open Scope Z_scope.

(** An option is its default (missing and optional), the converted value if it satisfies the
    condition, or OptionError.  Elements of lists that cannot be converted raise ValueError. *)
Theorem C39_option :
  forall cv sec o, io_cond o <> Some AtMost3Dim ->
  match sec_get sec (io_key o) with
  | None => parse_option cv sec o = if io_compulsory o then Err OptionError else Ok (io_default o)
  | Some (Err e) => parse_option cv sec o = Err e
  | Some (Ok text) =>
      (forall v, parse_option cv sec o = Ok v <-> converts cv (io_type o) text v /\ satisfies_opt (io_cond o) v) /\
      (forall v, converts cv (io_type o) text v -> ~ satisfies_opt (io_cond o) v -> parse_option cv sec o = Err OptionError) /\
      (~ list_type (io_type o) -> (forall v, ~ converts cv (io_type o) text v) -> parse_option cv sec o = Err OptionError) /\
      (list_type (io_type o) -> (forall v, ~ converts cv (io_type o) text v) -> parse_option cv sec o = Err ValueError)
  end.
Proof. exact option_contract. Qed.
Print Assumptions C39_option.

(** A section holds the value of every option, or parsing stops at the first option that fails. *)
Theorem C39_section :
  forall cv sec opts, NoDup (map io_key opts) ->
  match parse_section cv sec opts with
  | Ok d => map fst d = map io_key opts /\
      forall o, In o opts -> exists v, parse_option cv sec o = Ok v /\ assoc (io_key o) d = Some v
  | Err e => exists before o after, opts = (before ++ o :: after)%list /\ parse_option cv sec o = Err e /\
      Forall (fun o' => exists v, parse_option cv sec o' = Ok v) before
  end.
Proof. exact section_contract. Qed.
Print Assumptions C39_section.

(** a present, an absent and a bad option *)
Example C39_case :
  parse_option demo_conv demo_ld_section (optc "n_steps" KInt true Positive) = Ok (VInt 100) /\
  parse_option demo_conv demo_hist_section (optc "bins" KInts true AllPositive) = Ok (VInts [100; 100]) /\
  parse_option demo_conv demo_ld_section (opt "seed" KInt false) = Ok VNone /\
  parse_option demo_conv demo_ld_section (opt "mass" KFloat true) = Err OptionError /\
  parse_option demo_conv [("n_steps", "0")] (optc "n_steps" KInt true Positive) = Err OptionError /\
  parse_option demo_conv [("n_steps", "many")] (optc "n_steps" KInt true Positive) = Err OptionError /\
  parse_option demo_conv [("bins", "100,many")] (optc "bins" KInts true AllPositive) = Err ValueError.
Proof. repeat split. Qed.

(** All numbers of an accepted input are usable. *)
Theorem C40_accepted_usable : forall cv secs c, parse_all cv secs = Ok c -> usable c.
Proof. exact accepted_usable. Qed.
Print Assumptions C40_accepted_usable.

Example C40_case : exists c,
  parse_all demo_conv (demo_input "100" [("histogram", demo_hist_section); ("fes", [("kt", "1"); ("stride", "100")])]) = Ok c /\
  c_fes c <> None /\ c_histogram c <> None.
Proof. exact demo_accepted. Qed.

(** n_dim = 4 is accepted *)
Theorem C41_refuted :
  exists cv secs c, parse_all cv secs = Ok c /\ assoc "type" (c_potential c) = Some (VStr "polynomial") /\
    assoc "n_dim" (c_potential c) = Some (VInt 4).
Proof. exact four_dims_accepted. Qed.
Print Assumptions C41_refuted.

(** missing: the upper limit *)
Theorem C41_partial :
  forall cv secs c, parse_all cv secs = Ok c -> assoc "type" (c_potential c) = Some (VStr "polynomial") ->
  positive_int (c_potential c) "n_dim".
Proof. exact polynomial_dim. Qed.
Print Assumptions C41_partial.

(** the option accepts exactly the positive numbers *)
Theorem C41_exact :
  forall cv sec text z, sec_get sec "n_dim" = Some (Ok text) -> to_int cv text = Some z ->
  parse_option cv sec n_dim_option = if 0 <? z then Ok (VInt z) else Err OptionError.
Proof. exact n_dim_accepts. Qed.
Print Assumptions C41_exact.

Example C41_case : sec_get (demo_pot_section "100") "n_dim" = Some (Ok "100") /\ to_int demo_conv "100" = Some 100.
Proof. split; reflexivity. Qed.

(** From a section or a dict all values prefix1suffix, prefix2suffix, ... up to the first missing
    number are returned in order, or, for a section, the exception of the first that cannot be fetched. *)
Theorem C42_section :
  forall sec pre suf,
  match numbered_in_section sec pre suf with
  | Ok vs => all_numbered (sec_get sec) pre suf vs
  | Err e => e = InterpolationError /\ numbered_fails (sec_get sec) pre suf e
  end.
Proof. exact numbered_section_spec. Qed.
Print Assumptions C42_section.

Theorem C42_dict :
  forall d pre suf, exists vs, numbered_in_dict d pre suf = Ok vs /\
  all_numbered (fun k => option_map Ok (assoc k d)) pre suf vs.
Proof. exact numbered_dict_spec. Qed.
Print Assumptions C42_dict.

(** State options: accepted with at least one state and as many minima as maxima. *)
Theorem C42_states :
  forall sec, plain sec -> exists n m, has_states sec "-min" n /\ has_states sec "-max" m /\
  numbered_state_options sec =
    if Nat.eqb n m && negb (Nat.eqb n 0) then
      Ok (flat_map (fun i => [opt (prefixed "state" (S i) "-min") KFloats true;
                              opt (prefixed "state" (S i) "-max") KFloats true]) (seq 0 n))
    else Err OptionError.
Proof. exact state_options_spec. Qed.
Print Assumptions C42_states.

Example C42_case :
  let sec := [("state2-min", "b"); ("state1-min", "a"); ("state4-min", "d"); ("state1-max", "A"); ("state2-max", "B")] in
  plain sec /\ has_states sec "-min" 2 /\ has_states sec "-max" 2 /\
  numbered_in_section sec "state" "-min" = Ok ["a"; "b"] /\
  numbered_state_options sec = Ok [opt "state1-min" KFloats true; opt "state1-max" KFloats true;
                                   opt "state2-min" KFloats true; opt "state2-max" KFloats true].
Proof. exact demo_states. Qed.

(** A state with two minima and one maximum does not always raise ValueError *)
Theorem C43_refuted :
  exists mins maxs rs, length mins = length maxs /\ ~ same_dims mins maxs /\
    min_max_to_ranges (map Nums mins) (map Nums maxs) = Ok rs.
Proof. exact bad_dims_accepted. Qed.
Print Assumptions C43_refuted.

(** missing: ValueError for all states with different dimensions *)
Theorem C43_partial :
  (forall mins maxs, length mins <> length maxs -> min_max_to_ranges mins maxs = Err ValueError) /\
  (forall mins maxs, mins <> [] -> same_dims mins maxs ->
    exists rs, min_max_to_ranges (map Nums mins) (map Nums maxs) = Ok rs /\ length rs = length mins /\
      forall i a b, nth_error mins i = Some a -> nth_error maxs i = Some b ->
        exists r, nth_error rs i = Some r /\ is_zip a b r) /\
  (forall mins maxs, mins <> [] -> length mins = length maxs ->
    min_max_to_ranges (map Num mins) (map Num maxs) = Ok (map (fun ab => [ab]) (combine mins maxs))).
Proof. exact (conj ranges_count (conj ranges_same_dims ranges_numbers)). Qed.
Print Assumptions C43_partial.

(** ValueError exactly if some state's maximum has neither the dimension of its minimum nor that
    of the first minimum; the pairs of the shorter length otherwise *)
Theorem C43_exact :
  forall mins maxs, mins <> [] ->
  min_max_to_ranges (map Nums mins) (map Nums maxs) =
    if negb (Nat.eqb (length mins) (length maxs)) then Err ValueError
    else if existsb (fun ab => negb (Nat.eqb (length (fst ab)) (length (snd ab))) &&
                               negb (Nat.eqb (length (snd ab)) (length (hd [] mins)))) (combine mins maxs)
    then Err ValueError
    else Ok (map (fun ab => combine (fst ab) (snd ab)) (combine mins maxs)).
Proof. exact ranges_exact. Qed.
Print Assumptions C43_exact.

Example C43_case :
  min_max_to_ranges [Nums [Fin 0; Fin 1]; Nums [Fin 5; Fin 6]] [Nums [Fin 2; Fin 3]; Nums [Fin 7; Fin 8]] =
    Ok [[(Fin 0, Fin 2); (Fin 1, Fin 3)]; [(Fin 5, Fin 7); (Fin 6, Fin 8)]] /\
  same_dims [[Fin 0; Fin 1]; [Fin 5; Fin 6]] [[Fin 2; Fin 3]; [Fin 7; Fin 8]] /\
  min_max_to_ranges [Nums [Fin 0; Fin 1]] [Nums [Fin 2]] = Err ValueError.
Proof. exact demo_ranges. Qed.

(** The format of the documentation (fmt = %14.9f) is not accepted *)
Theorem C59_refuted :
  forall cv sec, assoc "fmt" sec = Some "%14.9f" -> parse_option cv sec (opt "fmt" KStr false) = Err InterpolationError.
Proof. exact documented_fmt. Qed.
Print Assumptions C59_refuted.

(** missing: texts with '%' *)
Theorem C59_partial :
  forall cv sec key text compulsory, assoc key sec = Some text -> has_percent text = false ->
  parse_option cv sec (opt key KStr compulsory) = Ok (VStr text).
Proof. exact plain_text. Qed.
Print Assumptions C59_partial.

(** every text can be given by doubling '%' *)
Theorem C59_exact :
  forall cv sec key text compulsory, assoc key sec = Some (double_percent text) ->
  parse_option cv sec (opt key KStr compulsory) = Ok (VStr text).
Proof. exact doubled_text. Qed.
Print Assumptions C59_exact.

Example C59_case :
  double_percent "%14.9f" = "%%14.9f" /\
  parse_option demo_conv [("filename", "a"); ("fmt", "%%14.9f")] (opt "fmt" KStr false) = Ok (VStr "%14.9f").
Proof. split; reflexivity. Qed.
