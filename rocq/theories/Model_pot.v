(** Model of bdld/potential/polynomial.py and bdld/potential/mueller_brown.py *)
From Verif Require Export Model_dyn Model_grid.
Open Scope R_scope.

(** ** numpy.polynomial.polynomial *)
(** polyval of one column of coefficients (Horner): c0 = c[-1] + x*0, then for the others from
    the last to the first c0 = c[-i] + c0*x.  The value for an empty list is never used: numpy
    raises IndexError, see [poly_init]. *)
Fixpoint horner (x : R) (c : list R) : R :=
  match c with
  | [] => 0
  | [a] => a
  | a :: c' => a + horner x c' * x
  end.

(** polyval(x, c) for an array c: along the first axis, all other axes are kept *)
Definition polyval (c : arr R) (x : R) : arr R :=
  match a_shape c with
  | [] => c
  | n :: s => mkArr s (map (fun idx => horner x (map (fun i => a_at 0 c (i :: idx)) (seq 0 n))) (indices s))
  end.

(** polyval(x, c), polyval2d(x, y, c), polyval3d(x, y, z, c) for one, two, three coordinates:
    numpy evaluates the first axis with x, the next one with y, ... *)
Definition polyvalnd (pos : vec) (c : arr R) : R := a_at 0 (fold_left polyval pos c) [].

(** polyder(c, axis=d): j*c[j] at j-1; c[:1]*0 if there is only a constant *)
Definition polyder (c : arr R) (d : nat) : arr R :=
  let n := nth d (a_shape c) 0%nat in
  if Nat.leb n 1 then mkArr (a_shape c) (map (fun x => x * 0) (a_flat c))
  else
    let shape := set_nth (a_shape c) d (n - 1)%nat in
    mkArr shape (map (fun idx => let j := S (nth d idx 0%nat) in
                                 INR j * a_at 0 c (set_nth idx d j)) (indices shape)).

(** ** PolynomialPotential *)
(** polynomial.py:70-76 energy and 78-84 force.  [pos] has n_dim entries. *)
Definition poly_energy (coeffs : arr R) (pos : vec) : R := polyvalnd pos coeffs.
Definition poly_force (coeffs : arr R) (pos : vec) : vec :=
  map (fun d => - polyvalnd pos (polyder coeffs d)) (seq 0 (length (a_shape coeffs))).

(** polynomial.py:21-48 __init__ (with set_polyval, 59-68).  The boundary condition is set
    afterwards by the caller.  An array with an axis of length 0 raises IndexError only when it is
    evaluated; here it is raised at once. *)
Definition poly_init (coeffs : arr R) (ranges : option (list (R * R))) (bc : option bcond) : res potential :=
  let n_dim := length (a_shape coeffs) in
  if Nat.ltb 3 n_dim then Err NotImplementedError                              (* 35-38 *)
  else if Nat.eqb n_dim 0 then Err ValueError                                  (* 67-68 *)
  else if existsb (Nat.eqb 0) (a_shape coeffs) then Err IndexError
  else Ok (mkPot n_dim (match ranges with Some r => r | None => [] end)
                 (poly_energy coeffs) (poly_force coeffs) bc).

(** ** coefficients_from_file *)
(** int(x), row.astype(int): truncation towards zero *)
Definition trunc (x : R) : Z := if Rlt_dec x 0 then (- Int_part (- x))%Z else Int_part x.

(** max(column) *)
Definition rmax_list (l : list R) : res R :=
  match l with [] => Err ValueError | x :: t => Ok (fold_left Rmax t x) end.

(** row[i] / file_data[:, i] *)
Definition col (row : list R) (i : nat) : res R :=
  match nth_error row i with Some x => Ok x | None => Err IndexError end.

(** tuple index into an array: all indices with python semantics, then the flat position *)
Fixpoint nd_pos (shape : list nat) (idx : list Z) : res (list nat) :=
  match shape, idx with
  | [], [] => Ok []
  | n :: s, i :: is =>
      match py_pos n i with
      | None => Err IndexError
      | Some k => do t <- nd_pos s is; Ok (k :: t)
      end
  | _, _ => Err IndexError
  end.
Definition nd_set (a : arr R) (idx : list Z) (v : R) : res (arr R) :=
  do k <- nd_pos (a_shape a) idx;
  Ok (mkArr (a_shape a) (set_nth (a_flat a) (ravel 0 (a_shape a) k) v)).

(** polynomial.py:102 *)
Definition file_shape (rows : list (list R)) (n_dim : nat) : res (list nat) :=
  mapM (fun i => do c <- mapM (fun r => col r i) rows; do m <- rmax_list c;
                 if (trunc m + 1 <? 0)%Z then Err ValueError else Ok (Z.to_nat (trunc m + 1))) (seq 0 n_dim).

(** polynomial.py:105-107 *)
Definition file_row (n_dim : nat) (coeffs : arr R) (row : list R) : res (arr R) :=
  let indices := map trunc (firstn n_dim row) in
  do v <- col row n_dim;
  nd_set coeffs indices v.

(** polynomial.py:87-109 coefficients_from_file.  [rows] are the numbers in the lines of the file
    (without comments).  np.genfromtxt raises ValueError if the lines have different numbers of
    columns; it returns a one-dimensional array for less than two lines or for one column, for
    which file_data[:, i] raises IndexError.  Entries that are no numbers (nan) are not modelled. *)
Definition coefficients_from_file (rows : list (list R)) (n_dim : nat) : res (arr R) :=
  match rows with
  | r0 :: _ :: _ =>
      if negb (forallb (fun r => Nat.eqb (length r) (length r0)) rows) then Err ValueError
      else if Nat.eqb (length r0) 1 then Err IndexError
      else
        do shape <- file_shape rows n_dim;
        foldM (file_row n_dim) rows (mkArr shape (repeat 0 (prod_list shape)))  (* 104-109 *)
  | _ => Err IndexError
  end.

(** ** Mueller-Brown potential *)
(** mueller_brown.py:9-15.  A is a global array which is changed by the constructor: it is an
    argument of all functions; [mb_A0] is its value after import. *)
Definition mb_A0 : vec := [-200; -100; -175; 15].
Definition mb_a : vec := [-1; -1; -6.5; 0.7].
Definition mb_b : vec := [0; 0; 11; 0.6].
Definition mb_c : vec := [-10; -10; -6.5; 0.7].
Definition mb_x0 : vec := [1; 0; -0.5; -1].
Definition mb_y0 : vec := [0; 0.5; 1.5; 1].
Definition mb_shift : R := 30.33319242243656.

(** the exponential in the loops, mueller_brown.py:70-74, 95-99, 113-117 *)
Definition mb_exp (i : nat) (x y : R) : R :=
  exp (nth i mb_a 0 * (x - nth i mb_x0 0) ^ 2
       + nth i mb_b 0 * (x - nth i mb_x0 0) * (y - nth i mb_y0 0)
       + nth i mb_c 0 * (y - nth i mb_y0 0) ^ 2).

(** mueller_brown.py:56-83 evaluate *)
Definition mb_evaluate (A : vec) (pos : vec) : R * vec :=
  let x := nth 0 pos 0 in let y := nth 1 pos 0 in
  let '(pot, f0, f1) := fold_left (fun acc i =>
      let '(pot, f0, f1) := acc in
      let e := mb_exp i x y in
      (pot + nth i A 0 * e,
       f0 + - nth i A 0 * (2 * nth i mb_a 0 * (x - nth i mb_x0 0) + nth i mb_b 0 * (y - nth i mb_y0 0)) * e,
       f1 + - nth i A 0 * (nth i mb_b 0 * (x - nth i mb_x0 0) + 2 * nth i mb_c 0 * (y - nth i mb_y0 0)) * e))
    (seq 0 4) (0, 0, 0) in
  (pot + mb_shift, [f0; f1]).

(** mueller_brown.py:85-101 energy *)
Definition mb_energy (A : vec) (pos : vec) : R :=
  let x := nth 0 pos 0 in let y := nth 1 pos 0 in
  fold_left (fun pot i => pot + nth i A 0 * mb_exp i x y) (seq 0 4) 0 + mb_shift.

(** mueller_brown.py:103-124 force *)
Definition mb_force (A : vec) (pos : vec) : vec :=
  let x := nth 0 pos 0 in let y := nth 1 pos 0 in
  let '(f0, f1) := fold_left (fun acc i =>
      let '(f0, f1) := acc in
      let e := mb_exp i x y in
      (f0 + - nth i A 0 * (2 * nth i mb_a 0 * (x - nth i mb_x0 0) + nth i mb_b 0 * (y - nth i mb_y0 0)) * e,
       f1 + - nth i A 0 * (nth i mb_b 0 * (x - nth i mb_x0 0) + 2 * nth i mb_c 0 * (y - nth i mb_y0 0)) * e))
    (seq 0 4) (0, 0) in
  [f0; f1].

(** mueller_brown.py:35-50 __init__: the stored scaling factor and the new value of A *)
Definition mb_init (A : vec) (scaling_factor : option R) : R * vec :=
  let s := match scaling_factor with                                           (* 47 *)
           | Some s => if Req_EM_T s 0 then 1 else s
           | None => 1
           end in
  (s, match scaling_factor with                                                (* 48-50 *)
      | Some f => if Req_EM_T f 0 then A else vscale s A
      | None => A
      end).

(** what the dynamics sees of a Mueller-Brown potential while the global array is A (the method
    evaluate agrees with energy and force, theorem C30_evaluate) *)
Definition mb_potential (A : vec) (bc : option bcond) : potential :=
  mkPot 2 [(-1.5, 1.5); (-0.5, 2.5)] (mb_energy A) (mb_force A) bc.

(** a sequence of constructor calls *)
Definition mb_inits (A : vec) (factors : list (option R)) : vec :=
  fold_left (fun A f => snd (mb_init A f)) factors A.
