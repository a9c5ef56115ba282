(** Notions for the setup functions (C12, C13, C46, C47) *)
From Verif Require Import PyBase Model_xr Model_input Model_dyn Model_fes Spec_input Spec_grid.
Open Scope string_scope.
Open Scope R_scope.

(** a walker as it is created: given mass, at rest, energy and forces of its position *)
Definition at_rest (ld : ldpar) (mass : R) (p : particle) : Prop :=
  p_mass p = mass /\ p_mom p = repeat 0 (length (p_pos p)) /\
  p_energy p = pot_energy (ld_pot ld) (p_pos p) /\ p_forces p = pot_force (ld_pot ld) (p_pos p).

(** the positions pos1, pos2, ... in the parsed options *)
Definition positions_given (o : dict) (positions : list vec) : Prop :=
  all_numbered (fun k => option_map Ok (assoc k o)) "pos" "" (map (fun p => VFloats (map Fin p)) positions).

(** c is x rounded down *)
Definition is_floor (x : R) (c : nat) : Prop := INR c <= x < INR c + 1.

(** n_i copies of the i-th position *)
Definition copies (positions : list vec) (counts : list nat) : list vec :=
  concat (map (fun pn => repeat (fst pn) (snd pn)) (combine positions counts)).

(** the states state1, state2, ... with lower and upper bounds in the parsed options *)
Definition states_given (o : dict) (mins maxs : list (list xreal)) : Prop :=
  all_numbered (fun k => option_map Ok (assoc k o)) "state" "-min" (map VFloats mins) /\
  all_numbered (fun k => option_map Ok (assoc k o)) "state" "-max" (map VFloats maxs).

(** value of an option that may be missing *)
Definition optional_int (o : dict) (k : string) (v : option Z) : Prop :=
  assoc k o = Some (match v with Some z => VInt z | None => VNone end).

(** stride and write-stride as the recording actions (delta-f, particle-distribution) need them:
    a write-stride only together with a filename and as a multiple of the stride *)
Definition strides_fit (stride wstride : option Z) (filename : bool) : Prop :=
  match stride with
  | None => True
  | Some s => (0 < s)%Z /\ match wstride with
                           | None => True
                           | Some w => (0 < w)%Z /\ filename = true /\ (w mod s = 0)%Z
                           end
  end.
(** middle of the i-th bin *)
Definition middle (edges : list R) (i : nat) : R := (nth i edges 0 + nth (S i) edges 0) / 2.

(** the run of the fes action alone: run(1), ..., run(n), final_run(n); [hs k] is the histogram
    action and [junk k] the uninitialised memory at step k; n + 1 stands for final_run(n) *)
Definition fes_simulation (hs : Z -> histact) (junk : Z -> nat -> xreal) (n : Z) (fa : fesact) : res fesact :=
  do fa <- foldM (fun fa k => fes_run (hs k) (junk k) fa k) (zrange 1 (n + 1)) fa;
  fes_final_run (hs (n + 1)%Z) (junk (n + 1)%Z) fa n.

(** f is the free energy surface of the counts at thermal energy kt: infinite in empty bins,
    differences are -kt times the logarithms of the count ratios, the minimum is 0 *)
Definition is_fes (kt : R) (counts : list nat) (f : list xreal) : Prop :=
  length f = length counts /\
  (forall i, (i < length counts)%nat -> (nth i f NaN = PInf <-> nth i counts 0%nat = 0%nat)) /\
  (forall i, (i < length counts)%nat -> nth i counts 0%nat <> 0%nat -> exists x, nth i f NaN = Fin x /\ 0 <= x) /\
  ((exists i, (i < length counts)%nat /\ nth i counts 0%nat <> 0%nat) ->
     exists i, (i < length counts)%nat /\ nth i f NaN = Fin 0) /\
  (forall i j x y, (i < length counts)%nat -> (j < length counts)%nat ->
     nth i f NaN = Fin x -> nth j f NaN = Fin y ->
     x - y = - kt * ln (INR (nth i counts 0%nat) / INR (nth j counts 0%nat))).

(** for the examples *)
Definition demo_fractions : dict :=
  [("number", VInt 7); ("mass", VFloat (Fin 1)); ("seed", VNone); ("initial-distribution", VStr "fractions-pos");
   ("pos1", VFloats [Fin 0; Fin 0]); ("pos2", VFloats [Fin 1; Fin 1]); ("fractions", VFloats [Fin 1; Fin 2])].
Definition demo_random_pos : section :=
  [("number", "4"); ("initial-distribution", "random-pos"); ("pos1", "0,0"); ("pos2", "1,-2")].
Definition demo_delta_f1 : dict :=
  [("stride", VInt 10); ("write-stride", VNone); ("filename", VStr "delta_f"); ("fmt", VNone);
   ("state1-min", VFloats [MInf]); ("state1-max", VFloats [Fin 0]); ("state2-min", VFloats [Fin 0]); ("state2-max", VFloats [PInf])].
Definition demo_delta_f2 : dict :=
  [("stride", VInt 10); ("write-stride", VNone); ("filename", VStr "delta_f"); ("fmt", VNone);
   ("state1-min", VFloats [Fin 0; Fin 0]); ("state1-max", VFloats [Fin 1; Fin 1]);
   ("state2-min", VFloats [Fin 1; Fin 1]); ("state2-max", VFloats [Fin 2; Fin 2])].
Definition demo_hist1 : hist := mkH [[-1; 0; 1]] [3; 5]%nat.
Definition demo_hist2 : hist := mkH [[0; 1; 2]; [0; 2]] [4; 0]%nat.
Definition demo_ld1 (kt : R) : ldpar :=
  mkLD (BussiParinello 1) (mkPot 1 [(-1, 1)] (fun x => nth 0 x 0 * nth 0 x 0) (map (fun a => -2 * a)) None) (1/10) kt.
