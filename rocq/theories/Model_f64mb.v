(** The Mueller-Brown potential on float64 numbers (compare Model_pot.v, which uses real numbers) *)
From Verif Require Export Model_f64ld.
Open Scope Z_scope.

(** mueller_brown.py:9-15, the float64 numbers that python reads: fmake m e is m * 2^e, for example 0.7 is 6305039478318694 * 2^-53 *)
Definition fmb_A0 : list f64 := [f_of_Z (-200); f_of_Z (-100); f_of_Z (-175); f_of_Z 15].
Definition f07 : f64 := fmake 6305039478318694 (-53).
Definition f06 : f64 := fmake 5404319552844595 (-53).
Definition fmb_a : list f64 := [f_of_Z (-1); f_of_Z (-1); fmake (-13) (-1); f07].
Definition fmb_b : list f64 := [fzero; fzero; f_of_Z 11; f06].
Definition fmb_c : list f64 := [f_of_Z (-10); f_of_Z (-10); fmake (-13) (-1); f07].
Definition fmb_x0 : list f64 := [f_of_Z 1; fzero; fmake (-1) (-1); f_of_Z (-1)].
Definition fmb_y0 : list f64 := [fzero; fmake 1 (-1); fmake 3 (-1); f_of_Z 1].
Definition fmb_shift : f64 := fmake 8538034630665178 (-48).
(** mueller_brown.py:46 *)
Definition fmb_ranges : list (f64 * f64) := [(fmake (-3) (-1), fmake 3 (-1)); (fmake (-1) (-1), fmake 5 (-1))].

Section Mueller_Brown.
(** np.exp, and ** 2 (the C library's pow, which may round differently from a multiplication) *)
Context (fexp fsq : f64 -> f64).
Definition fc (l : list f64) (i : nat) : f64 := nth i l fzero.

(** the exponential in the loops, mueller_brown.py:70-74, 95-99, 113-117 *)
Definition f_mb_exp (i : nat) (x y : f64) : f64 :=
  fexp (fadd (fadd (fmul (fc fmb_a i) (fsq (fsub x (fc fmb_x0 i))))
                   (fmul (fmul (fc fmb_b i) (fsub x (fc fmb_x0 i))) (fsub y (fc fmb_y0 i))))
             (fmul (fc fmb_c i) (fsq (fsub y (fc fmb_y0 i))))).
(** the terms added to the forces, mueller_brown.py:76-81, 118-123 *)
Definition f_mb_fx (A : list f64) (i : nat) (x y : f64) : f64 :=
  fmul (fmul (fopp (fc A i)) (fadd (fmul (fmul (f_of_Z 2) (fc fmb_a i)) (fsub x (fc fmb_x0 i))) (fmul (fc fmb_b i) (fsub y (fc fmb_y0 i)))))
       (f_mb_exp i x y).
Definition f_mb_fy (A : list f64) (i : nat) (x y : f64) : f64 :=
  fmul (fmul (fopp (fc A i)) (fadd (fmul (fc fmb_b i) (fsub x (fc fmb_x0 i))) (fmul (fmul (f_of_Z 2) (fc fmb_c i)) (fsub y (fc fmb_y0 i)))))
       (f_mb_exp i x y).

(** mueller_brown.py:56-83 evaluate *)
Definition f_mb_evaluate (A : list f64) (pos : list f64) : f64 * list f64 :=
  let x := fc pos 0 in let y := fc pos 1 in
  let '(pot, f0, f1) := fold_left (fun acc i =>
      let '(pot, f0, f1) := acc in
      (fadd pot (fmul (fc A i) (f_mb_exp i x y)), fadd f0 (f_mb_fx A i x y), fadd f1 (f_mb_fy A i x y)))
    (seq 0 4) (fzero, fzero, fzero) in
  (fadd pot fmb_shift, [f0; f1]).
(** mueller_brown.py:85-101 energy *)
Definition f_mb_energy (A : list f64) (pos : list f64) : f64 :=
  let x := fc pos 0 in let y := fc pos 1 in
  fadd (fold_left (fun pot i => fadd pot (fmul (fc A i) (f_mb_exp i x y))) (seq 0 4) fzero) fmb_shift.
(** mueller_brown.py:103-124 force *)
Definition f_mb_force (A : list f64) (pos : list f64) : list f64 :=
  let x := fc pos 0 in let y := fc pos 1 in
  let '(f0, f1) := fold_left (fun acc i =>
      let '(f0, f1) := acc in (fadd f0 (f_mb_fx A i x y), fadd f1 (f_mb_fy A i x y)))
    (seq 0 4) (fzero, fzero) in
  [f0; f1].
End Mueller_Brown.

(** mueller_brown.py:47-50: the global array after the constructor *)
Definition f_mb_init (A : list f64) (scaling_factor : option f64) : list f64 :=
  match scaling_factor with
  | Some f => if feq f fzero then A else map (fun a => fmul a f) A
  | None => A
  end.
