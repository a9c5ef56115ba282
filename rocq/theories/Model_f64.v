(** Functions of the code in which rounding matters, on IEEE 754 binary64 numbers.  The other model files use real numbers;
    here python floats and numpy float64 values are the numbers of Flocq's [binary_float 53 1024] (with signed zeros,
    infinities and one nan) and every operation rounds to nearest even. *)
From Verif Require Export PyBase.
From Coq Require Export Permutation.
From Flocq Require Export IEEE754.BinarySingleNaN.
Open Scope Z_scope.

Definition f64 := binary_float 53 1024.
Definition prec_53 : FLX.Prec_gt_0 53 := eq_refl.
Definition emax_1024 : Prec_lt_emax 53 1024 := eq_refl.

(** x + y, x - y, x * y, x / y, -x of float64 values (numpy: no exception for a division by zero) *)
Definition fadd : f64 -> f64 -> f64 := @Bplus 53 1024 prec_53 emax_1024 mode_NE.
Definition fsub : f64 -> f64 -> f64 := @Bminus 53 1024 prec_53 emax_1024 mode_NE.
Definition fmul : f64 -> f64 -> f64 := @Bmult 53 1024 prec_53 emax_1024 mode_NE.
Definition fdiv : f64 -> f64 -> f64 := @Bdiv 53 1024 prec_53 emax_1024 mode_NE.
Definition fopp : f64 -> f64 := Bopp.
(** x < y, x <= y, x == y: false if one is nan *)
Definition flt : f64 -> f64 -> bool := Bltb.
Definition fle : f64 -> f64 -> bool := Bleb.
Definition feq : f64 -> f64 -> bool := Beqb.
Definition fzero : f64 := B754_zero false.
Definition finf : f64 := B754_infinity false.
(** m * 2^e, rounded *)
Definition fmake (m e : Z) : f64 := binary_normalize 53 1024 prec_53 emax_1024 mode_NE m e false.
(** float(z) for an int with |z| < 2^1023 (OverflowError for larger ones) *)
Definition f_of_Z (z : Z) : f64 := fmake z 0.
(** int(x) *)
Definition f_int (x : f64) : res Z :=
  match x with
  | B754_nan => Err ValueError
  | B754_infinity _ => Err OverflowError
  | _ => Ok (Btrunc x)
  end.

(** ** bdld/potential/potential.py:140-179 *)
Fixpoint f_bc_reflective (rs : list (f64 * f64)) (pos mom : list f64) : res (list f64 * list f64) :=
  match pos with
  | [] => Ok ([], mom)
  | x :: xs =>
    match rs with
    | [] => Err IndexError
    | (lo, hi) :: rs' =>
      match mom with
      | [] => Err IndexError
      | m :: ms =>
        do (p, q) <- f_bc_reflective rs' xs ms;
        if flt x lo then Ok (lo :: p, fopp m :: q)                              (* 155-157 *)
        else if flt hi x then Ok (hi :: p, fopp m :: q)                         (* 158-160 *)
        else Ok (x :: p, m :: q)
      end
    end
  end.
Fixpoint f_bc_periodic (rs : list (f64 * f64)) (pos mom : list f64) : res (list f64 * list f64) :=
  match pos with
  | [] => Ok ([], mom)
  | x :: xs =>
    match rs with
    | [] => Err IndexError
    | (lo, hi) :: rs' =>
      match mom with
      | [] => Err IndexError
      | m :: ms =>
        do (p, q) <- f_bc_periodic rs' xs ms;
        if flt x lo then Ok (fadd x (fsub hi lo) :: p, m :: q)                  (* 176-177 *)
        else if flt hi x then Ok (fsub x (fsub hi lo) :: p, m :: q)             (* 178-179 *)
        else Ok (x :: p, m :: q)
      end
    end
  end.

(** bdld/actions/bussi_parinello_ld.py:87-99 for one walker with reflective boundary; [force] is the force of the
    potential (any function), the mass and the thermostat constants are any numbers *)
Fixpoint fmap2 (f : f64 -> f64 -> f64) (a b : list f64) : list f64 :=
  match a, b with
  | x :: a', y :: b' => f x y :: fmap2 f a' b'
  | _, _ => []
  end.
Record fwalker := mkFW { fw_pos : list f64; fw_mom : list f64; fw_forces : list f64 }.
Definition fhalf : f64 := fmake 1 (-1).
Definition f_bp_update (ranges : list (f64 * f64)) (force : list f64 -> list f64) (c1 c2 mass dt : f64)
    (w : fwalker) (noise1 noise2 : list f64) : res fwalker :=
  let kick mom forces := fmap2 fadd mom (map (fun f => fmul (fmul fhalf f) dt) forces) in
  let thermostat mom noise := fmap2 fadd (map (fmul c1) mom) (map (fmul c2) noise) in
  let mom := thermostat (fw_mom w) noise1 in                                     (* 89 *)
  let mom := kick mom (fw_forces w) in                                           (* 91 *)
  let pos := fmap2 fadd (fw_pos w) (map (fun m => fmul (fdiv m mass) dt) mom) in (* 92 *)
  do (pos, mom) <- f_bc_reflective ranges pos mom;                               (* 94 *)
  let forces := force pos in                                                     (* 96 *)
  let mom := kick mom forces in                                                  (* 97 *)
  Ok (mkFW pos (thermostat mom noise2) forces).                                  (* 99 *)
(** n steps with the random numbers drawn in them *)
Fixpoint f_bp_run (ranges : list (f64 * f64)) (force : list f64 -> list f64) (c1 c2 mass dt : f64)
    (w : fwalker) (noises : list (list f64 * list f64)) : res fwalker :=
  match noises with
  | [] => Ok w
  | (n1, n2) :: rest =>
      do w' <- f_bp_update ranges force c1 c2 mass dt w n1 n2;
      f_bp_run ranges force c1 c2 mass dt w' rest
  end.

(** ** bdld/main.py:205-209.  np.sum adds the elements in an order that depends on their number and on the machine:
    [np_sum] is any function, see [sums] in Spec_f64.v. *)
Definition f_fraction_counts (np_sum : list f64 -> f64) (fractions : list f64) (number : Z) : res (list Z) :=
  let normalized := map (fun f => fdiv f (np_sum fractions)) fractions in       (* 205-207 *)
  do counts <- mapM (fun f => f_int (fmul f (f_of_Z number))) normalized;       (* 208 *)
  match counts with
  | [] => Err IndexError
  | c0 :: cs => Ok ((c0 + (number - fold_right Z.add 0 counts)) :: cs)          (* 209 *)
  end.

(** ** bdld/actions/fes_action.py:197-204.  [flog] is np.log; the masked positions do not enter the result. *)
Definition fmin2 (a b : f64) : f64 := if flt b a then b else a.
(** np.min of an array without nan *)
Definition f_min (l : list f64) : res f64 :=
  match l with [] => Err ValueError | x :: t => Ok (fold_left fmin2 t x) end.
Definition f_fes (flog : f64 -> f64) (kt : f64) (data : list Z) : res (list f64) :=
  let fes := map (fun c => if c =? 0 then finf else fmul (fopp kt) (flog (f_of_Z c))) data in  (* 198-200 *)
  do minimum <- f_min fes;                                                      (* 202 *)
  if negb (feq minimum finf) then Ok (map (fun x => fsub x minimum) fes)        (* 203-204 *)
  else Ok fes.

(** ** trajectory_action.py:79, delta_f_action.py:102: step * dt *)
Definition f_time (dt : f64) (step : Z) : f64 := fmul (f_of_Z step) dt.

(** ** birth_death.py:178, 207: 1 - np.exp(-np.abs(beta) * dt * rate_fac), and the acceptance rand <= prob *)
Definition f_event_prob (fexp : f64 -> f64) (dt rate beta : f64) : f64 :=
  fsub (f_of_Z 1) (fexp (fmul (fmul (fopp (Babs beta)) dt) rate)).
Definition f_accepted (fexp : f64 -> f64) (dt rate beta rand : f64) : bool := fle rand (f_event_prob fexp dt rate beta).
