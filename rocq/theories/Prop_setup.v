(** C12, C13, C46, C47: initial walkers, FES and delta-f setup *)
From Coq Require Import Lra Lia.
From Verif Require Import PyBase Model_setup Spec_rng Spec_ld Spec_input Spec_grid Spec_pdist Spec_setup
  Proof_setup Proof_setup2 Proof_setupex.
Open Scope string_scope.
Open Scope Z_scope.

(** C46: fractions-pos *)
Theorem C46_fractions_pos :
  forall (e : env) o ld mass number fractions positions,
  assoc "initial-distribution" o = Some (VStr "fractions-pos") ->
  assoc "mass" o = Some (VFloat (Fin mass)) -> assoc "number" o = Some (VInt number) -> 0 <= number ->
  assoc "fractions" o = Some (VFloats (map Fin fractions)) -> Forall (Rle 0) fractions -> (0 < total fractions)%R ->
  positions_given o positions -> Forall (fun p => length p = pot_ndim (ld_pot ld)) positions ->
  (length positions = length fractions ->
   exists ps counts, init_particles e o ld = Ok ps /\ Z.of_nat (length ps) = number /\
     map p_pos ps = copies positions counts /\ Forall (at_rest ld mass) ps /\
     length counts = length positions /\
     forall i f, (0 < i)%nat -> nth_error fractions i = Some f ->
       exists c, nth_error counts i = Some c /\ is_floor (IZR number * f / total fractions) c) /\
  (length positions <> length fractions -> init_particles e o ld = Err ValueError).
Proof. exact fractions_walkers. Qed.
Print Assumptions C46_fractions_pos.

(** 7 walkers, fractions 1 and 2: 3 at (0,0) and 4 at (1,1) *)
Example C46_case :
  assoc "initial-distribution" demo_fractions = Some (VStr "fractions-pos") /\
  assoc "fractions" demo_fractions = Some (VFloats (map Fin [1; 2]%R)) /\
  positions_given demo_fractions [[0; 0]; [1; 1]]%R /\
  forall e, exists ps, init_particles e demo_fractions (demo_ld Overdamped None) = Ok ps /\
    map p_pos ps = [[0; 0]; [0; 0]; [0; 0]; [1; 1]; [1; 1]; [1; 1]; [1; 1]]%R.
Proof. exact fractions_case. Qed.

(** C47: random-global *)
Theorem C47_random_global :
  forall (e : env) o ld mass number seed, rng_ok (e_rng e) ->
  assoc "initial-distribution" o = Some (VStr "random-global") ->
  assoc "mass" o = Some (VFloat (Fin mass)) -> assoc "number" o = Some (VInt number) -> 0 <= number ->
  optional_int o "seed" seed -> match seed with Some z => 0 <= z | None => True end ->
  proper_ranges (pot_ndim (ld_pot ld)) (pot_ranges (ld_pot ld)) ->
  exists ps, init_particles e o ld = Ok ps /\ Z.of_nat (length ps) = number /\
    Forall (fun p => inside (pot_ranges (ld_pot ld)) (p_pos p)) ps /\ Forall (at_rest ld mass) ps.
Proof. exact random_global_walkers. Qed.
Print Assumptions C47_random_global.

(** random-pos, for the options of any accepted section *)
Theorem C47_random_pos :
  forall (e : env) cv sec o ld mass number seed positions, rng_ok (e_rng e) ->
  parse_particles cv sec = Ok o ->
  assoc "initial-distribution" o = Some (VStr "random-pos") ->
  assoc "mass" o = Some (VFloat (Fin mass)) -> assoc "number" o = Some (VInt number) ->
  optional_int o "seed" seed -> match seed with Some z => 0 <= z | None => True end ->
  positions_given o positions -> positions <> [] -> Forall (fun p => length p = pot_ndim (ld_pot ld)) positions ->
  exists ps, init_particles e o ld = Ok ps /\ Z.of_nat (length ps) = number /\
    Forall (fun p => In (p_pos p) positions) ps /\ Forall (at_rest ld mass) ps.
Proof. exact random_pos_walkers. Qed.
Print Assumptions C47_random_pos.

Example C47_case :
  (exists o, parse_particles demo_conv demo_random_pos = Ok o /\
    assoc "initial-distribution" o = Some (VStr "random-pos") /\ assoc "mass" o = Some (VFloat (Fin 1)) /\
    assoc "number" o = Some (VInt 4) /\ optional_int o "seed" None /\
    positions_given o [[0; 0]; [1; -2]]%R /\
    forall e, e_rng e = demo_rng -> exists ps, init_particles e o (demo_ld Overdamped None) = Ok ps /\ length ps = 4%nat) /\
  proper_ranges (pot_ndim (ld_pot (demo_ld Overdamped None))) (pot_ranges (ld_pot (demo_ld Overdamped None))) /\
  rng_ok demo_rng.
Proof. exact random_case. Qed.

(** C12: with two or more dimensions the setup of delta-f always fails *)
Theorem C12_refuted :
  forall (e : env) o h mins maxs stride wstride,
  states_given o mins maxs -> (2 <= length mins)%nat ->
  Forall (fun s => length s = length (h_edges h)) mins -> Forall (fun s => length s = length (h_edges h)) maxs ->
  optional_int o "stride" stride -> optional_int o "write-stride" wstride ->
  length (h_edges h) <> 1%nat ->
  setup_delta_f e o h = Err ValueError.
Proof. exact delta_f_nd. Qed.
Print Assumptions C12_refuted.

(** missing: more than one dimension.  The masks select the bins whose centres are in the states. *)
Theorem C12_partial :
  forall (e : env) o h edges mins maxs stride wstride file,
  states_given o mins maxs -> (2 <= length mins)%nat -> length maxs = length mins ->
  Forall (fun s => length s = 1%nat) mins -> Forall (fun s => length s = 1%nat) maxs ->
  optional_int o "stride" stride -> optional_int o "write-stride" wstride ->
  v_true (get_dict o "filename") = file -> strides_fit stride wstride file ->
  h_edges h = [edges] ->
  exists masks r, setup_delta_f e o h = Ok (masks, r) /\ length masks = length mins /\
    forall k mask lo hi, nth_error masks k = Some mask -> nth_error mins k = Some [lo] -> nth_error maxs k = Some [hi] ->
      length mask = (length edges - 1)%nat /\
      forall i, (i < length edges - 1)%nat ->
        (nth i mask false = true <-> at_least lo (middle edges i) /\ at_most hi (middle edges i)).
Proof. exact delta_f_1d. Qed.
Print Assumptions C12_partial.

(** states that do not match, one state only, or none: the program stops *)
Theorem C12_few_states :
  forall (e : env) o h mins maxs, states_given o mins maxs ->
  (length mins <> length maxs -> setup_delta_f e o h = Err ValueError) /\
  (length mins = 1%nat -> setup_delta_f e o h = Err ValueError) /\
  (mins = [] -> maxs = [] -> setup_delta_f e o h = Err IndexError).
Proof. exact delta_f_few. Qed.
Print Assumptions C12_few_states.

Example C12_case :
  let mins := [[MInf]; [Fin 0]] in let maxs := [[Fin 0]; [PInf]] in
  states_given demo_delta_f1 mins maxs /\ strides_fit (Some 10) None true /\
  optional_int demo_delta_f1 "stride" (Some 10) /\ optional_int demo_delta_f1 "write-stride" None /\
  h_edges demo_hist1 = [[-1; 0; 1]]%R /\
  (forall e, exists r, setup_delta_f e demo_delta_f1 demo_hist1 = Ok ([[true; false]; [false; true]], r)) /\
  states_given demo_delta_f2 [[Fin 0; Fin 0]; [Fin 1; Fin 1]] [[Fin 1; Fin 1]; [Fin 2; Fin 2]] /\
  length (h_edges demo_hist2) = 2%nat /\
  forall e, setup_delta_f e demo_delta_f2 demo_hist2 = Err ValueError.
Proof. exact delta_f_case. Qed.

(** C13: the kt of [fes] has no effect, and the FES is not that of the given kt if it differs
    from the kt of the dynamics and two bins have different counts *)
Theorem C13_refuted :
  (forall (e : env) o ld ha v, setup_fes e (dict_set "kt" v o) ld ha = setup_fes e o ld ha) /\
  (forall (e : env) o ld ha fa hs junk n kt, assoc "kt" o = Some (VFloat (Fin kt)) -> (0 < kt)%R -> (0 < ld_kt ld)%R ->
   kt <> ld_kt ld -> (forall k, h_data (ha_hist (hs k)) <> []) -> setup_fes e o ld ha = Ok fa ->
   (exists i j, (i < length (h_data (ha_hist (hs (n + 1)%Z))))%nat /\ (j < length (h_data (ha_hist (hs (n + 1)%Z))))%nat /\
      (0 < nth i (h_data (ha_hist (hs (n + 1)%Z))) 0%nat)%nat /\
      (nth i (h_data (ha_hist (hs (n + 1)%Z))) 0%nat < nth j (h_data (ha_hist (hs (n + 1)%Z))) 0%nat)%nat) ->
   exists fa', fes_simulation hs junk n fa = Ok fa' /\ ~ is_fes kt (h_data (ha_hist (hs (n + 1)%Z))) (fa_fes fa')).
Proof. exact (conj fes_kt_ignored fes_other_kt). Qed.
Print Assumptions C13_refuted.

(** missing: different kt in [ld] and [fes] *)
Theorem C13_partial :
  forall (e : env) o ld ha fa hs junk n kt, assoc "kt" o = Some (VFloat (Fin kt)) -> (0 < kt)%R ->
  ld_kt ld = kt -> (forall k, h_data (ha_hist (hs k)) <> []) -> setup_fes e o ld ha = Ok fa ->
  exists fa', fes_simulation hs junk n fa = Ok fa' /\ is_fes kt (h_data (ha_hist (hs (n + 1)%Z))) (fa_fes fa') /\
    (fa_filename fa = true -> exists before, fa_written fa' = (before ++ [(None, fa_fes fa')])%list).
Proof. exact fes_same_kt. Qed.
Print Assumptions C13_partial.

(** the kt of the dynamics is used for every file, which is 1 for the overdamped one *)
Theorem C13_exact :
  (forall (e : env) o ld ha fa hs junk n, (0 < ld_kt ld)%R -> (forall k, h_data (ha_hist (hs k)) <> []) ->
   setup_fes e o ld ha = Ok fa ->
   exists fa', fes_simulation hs junk n fa = Ok fa' /\ is_fes (ld_kt ld) (h_data (ha_hist (hs (n + 1)%Z))) (fa_fes fa') /\
    (fa_filename fa = true -> exists before, fa_written fa' = (before ++ [(None, fa_fes fa')])%list)) /\
  (forall (e : env) o ld ha fa hs junk n, (0 < ld_kt ld)%R -> (forall k, h_data (ha_hist (hs k)) <> []) -> 0 <= n ->
   hs 0 = ha -> setup_fes e o ld ha = Ok fa ->
   exists fa', fes_simulation hs junk n fa = Ok fa' /\
    forall name f, In (name, f) (fa_written fa') -> exists k, 0 <= k <= n + 1 /\ is_fes (ld_kt ld) (h_data (ha_hist (hs k))) f) /\
  (forall (e : env) o pot ld g, setup_ld e o pot = Ok (ld, g) ->
   ld_pot ld = pot /\
   (assoc "type" o = Some (VStr "overdamped") -> ld_kt ld = 1%R) /\
   (assoc "type" o = Some (VStr "bussi-parinello") -> assoc "kt" o = Some (VFloat (Fin (ld_kt ld))))).
Proof. exact (conj final_fes (conj written_fes setup_ld_kt)). Qed.
Print Assumptions C13_exact.

Example C13_case :
  let o := [("kt", VFloat (Fin 2)); ("stride", VInt 10); ("write-stride", VNone); ("filename", VStr "fes");
            ("plot-stride", VNone); ("plot-filename", VNone)] in
  let ha := mkHA demo_hist1 1 [] None true 100 [] in
  forall e, exists fa, setup_fes e o (demo_ld1 1) ha = Ok fa /\ fa_filename fa = true /\
    ld_kt (demo_ld1 1) <> 2%R /\ h_data (ha_hist ha) = [3; 5]%nat.
Proof. exact fes_case. Qed.
