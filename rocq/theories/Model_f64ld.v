(** Langevin dynamics and polynomial potentials on float64 numbers (compare Model_ld.v and Model_pot.v, which use real numbers) *)
From Verif Require Export Model_f64 Model_grid.
Open Scope Z_scope.

(** np.sqrt: nan for negative numbers *)
Definition fsqrt : f64 -> f64 := @Bsqrt 53 1024 prec_53 emax_1024 mode_NE.

(** bussi_parinello_ld.py:69 c1 = np.exp(-0.5 * friction * dt) *)
Definition f_c1 (fexp : f64 -> f64) (friction dt : f64) : f64 := fexp (fmul (fmul (fopp fhalf) friction) dt).
(** bussi_parinello_ld.py:124 c2 = np.sqrt((1 - c1 * c1) * mass * kt) *)
Definition f_c2 (c1 mass kt : f64) : f64 := fsqrt (fmul (fmul (fsub (f_of_Z 1) (fmul c1 c1)) mass) kt).

(** bussi_parinello_ld.py:116-124, particle.py:34-37: a new walker at rest *)
Definition f_new_walker (force : list f64 -> list f64) (pos : list f64) : fwalker :=
  mkFW pos (map (fun _ => fzero) pos) (force pos).
(** one walker in a Langevin simulation with reflective boundary; [noises] are the normal random numbers of the steps *)
Definition f_langevin (fexp : f64 -> f64) (ranges : list (f64 * f64)) (force : list f64 -> list f64) (dt friction kt mass : f64)
    (pos : list f64) (noises : list (list f64 * list f64)) : res fwalker :=
  let c1 := f_c1 fexp friction dt in
  f_bp_run ranges force c1 (f_c2 c1 mass kt) mass dt (f_new_walker force pos) noises.

(** ** numpy.polynomial.polynomial, as in Model_pot.v *)
(** polyval of one column of coefficients: c0 = c[-1] + x*0, then c0 = c[-i] + c0*x.  The empty list never occurs. *)
Fixpoint f_horner (x : f64) (c : list f64) : f64 :=
  match c with
  | [] => fzero
  | [a] => fadd a (fmul x fzero)
  | a :: c' => fadd a (fmul (f_horner x c') x)
  end.
(** polyval(x, c) along the first axis *)
Definition f_polyval (c : arr f64) (x : f64) : arr f64 :=
  match a_shape c with
  | [] => c
  | n :: s => mkArr s (map (fun idx => f_horner x (map (fun i => a_at fzero c (i :: idx)) (seq 0 n))) (indices s))
  end.
Definition f_polyvalnd (pos : list f64) (c : arr f64) : f64 := a_at fzero (fold_left f_polyval pos c) [].
(** polyder(c, axis=d) *)
Definition f_polyder (c : arr f64) (d : nat) : arr f64 :=
  let n := nth d (a_shape c) 0%nat in
  if Nat.leb n 1 then mkArr (a_shape c) (map (fun x => fmul x fzero) (a_flat c))
  else
    let shape := set_nth (a_shape c) d (n - 1)%nat in
    mkArr shape (map (fun idx => let j := S (nth d idx 0%nat) in
                                 fmul (f_of_Z (Z.of_nat j)) (a_at fzero c (set_nth idx d j))) (indices shape)).
(** polynomial.py:70-76 energy, 78-84 force *)
Definition f_poly_energy (coeffs : arr f64) (pos : list f64) : f64 := f_polyvalnd pos coeffs.
Definition f_poly_force (coeffs : arr f64) (pos : list f64) : list f64 :=
  map (fun d => fopp (f_polyvalnd pos (f_polyder coeffs d))) (seq 0 (length (a_shape coeffs))).
