(** Densities and rates of the birth-death moves on float64 numbers (compare Model_bd.v, which uses real numbers) *)
From Verif Require Export Model_f64 Model_f64ld Model_bd.
Open Scope Z_scope.

(** np.pi *)
Definition fpi : f64 := fmake 884279719003555 (-48).
(** birth_death.py:467, 474: 1 / (np.sqrt(2 * np.pi) * bw) *)
Definition f_height (b : f64) : f64 := fdiv (f_of_Z 1) (fmul (fsqrt (fmul (f_of_Z 2) fpi)) b).
(** birth_death.py:466-468, 477-478: height * np.exp(-dist / (2 * bw ** 2)) for one pair in one dimension; pdist(., "sqeuclidean")
    of one coordinate is the square of the difference.  Simplification: the square of bw is rounded to nearest. *)
Definition f_pair (fexp : f64 -> f64) (b x y : f64) : f64 :=
  let d := fsub x y in
  fmul (f_height b) (fexp (fdiv (fopp (fmul d d)) (fmul (f_of_Z 2) (fmul b b)))).
(** np.prod of the values for the dimensions, one after another *)
Definition f_prod (l : list f64) : f64 :=
  match l with [] => f_of_Z 1 | x :: t => fold_left fmul t x end.
Fixpoint f_pairs (fexp : f64 -> f64) (bw p q : list f64) : list f64 :=
  match bw, p, q with
  | b :: bw', x :: p', y :: q' => f_pair fexp b x y :: f_pairs fexp bw' p' q'
  | _, _, _ => []
  end.
(** birth_death.py:469-470, 479-480: entry (i, j) of the matrix after squareform and fill_diagonal.  The entry of a pair is calculated
    once, with the walker of smaller index first. *)
Definition f_entry (fexp : f64 -> f64) (bw : list f64) (pos : list (list f64)) (i j : nat) : f64 :=
  if Nat.eqb i j then f_prod (map f_height bw)
  else f_prod (f_pairs fexp bw (nth (Nat.min i j) pos []) (nth (Nat.max i j) pos [])).
(** birth_death.py:449-481 _walker_density_pdist, used for up to 10000 walkers (413-426); np.mean(., axis=0) divides the sum by the
    number.  IndexError without walkers. *)
Definition f_density (fexp : f64 -> f64) (np_sum : list f64 -> f64) (bw : list f64) (pos : list (list f64)) : res (list f64) :=
  let n := length pos in
  if Nat.eqb n 0 then Err IndexError
  else Ok (map (fun j => fdiv (np_sum (map (fun i => f_entry fexp bw pos i j) (seq 0 n))) (f_of_Z (Z.of_nat n))) (seq 0 n)).

(** birth_death.py:234, 243: beta -= np.mean(beta[beta != -np.inf]).  If all are -inf the mean is nan (np_sum of nothing is 0). *)
Definition f_center (np_sum : list f64 -> f64) (beta : list f64) : list f64 :=
  let kept := filter (fun b => negb (feq b (fopp finf))) beta in
  let m := fdiv (np_sum kept) (f_of_Z (Z.of_nat (length kept))) in
  map (fun b => fsub b m) beta.
(** birth_death.py:94, 222-244 calc_betas; [corr] are the values interpolated from the approximation grid at the positions *)
Definition f_betas (fexp flog : f64 -> f64) (np_sum : list f64 -> f64) (v : variant) (kt : f64) (bw : list f64) (pos : list (list f64))
    (energies corr : list f64) : res (list f64) :=
  do dens <- f_density fexp np_sum bw pos;
  let beta := map flog dens in                                                      (* 229 *)
  let inv_kt := fdiv (f_of_Z 1) kt in                                               (* 94 *)
  let centered := f_center np_sum (fmap2 fadd beta (map (fun e => fmul e inv_kt) energies)) in  (* 233-234 *)
  match v with
  | VOrig => Ok centered
  | VAdd => Ok (fmap2 fadd centered corr)                                           (* 237-239 *)
  | VMult => Ok (f_center np_sum (fmap2 fadd beta corr))                            (* 242-243 *)
  end.
