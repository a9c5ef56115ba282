(** Densities and rates for more than 10000 walkers on float64 numbers (compare Model_bd.v, which uses real numbers, and Model_f64bd.v,
    which has the branch for up to 10000 walkers) *)
From Verif Require Export Model_f64bd.
Open Scope Z_scope.

(** birth_death.py:407-408: 1 / ((2 * np.pi) ** (len(bw) / 2) * np.prod(bw)); [fpow] is Python's power of two floats *)
Definition f_kernel_height (fpow : f64 -> f64 -> f64) (bw : list f64) : f64 :=
  fdiv (f_of_Z 1)
    (fmul (fpow (fmul (f_of_Z 2) fpi) (fdiv (f_of_Z (Z.of_nat (length bw))) (f_of_Z 2))) (f_prod bw)).
(** birth_death.py:409: dist**2 / (2 * bw**2) for one dimension; the squares are rounded to nearest *)
Definition f_term (d b : f64) : f64 := fdiv (fmul d d) (fmul (f_of_Z 2) (fmul b b)).
(** birth_death.py:397-410 calc_kernel for one row of distances; np.sum over the dimensions *)
Definition f_kernel (fexp : f64 -> f64) (fpow : f64 -> f64 -> f64) (np_sum : list f64 -> f64) (bw dist : list f64) : f64 :=
  fmul (f_kernel_height fpow bw) (fexp (fopp (np_sum (fmap2 f_term dist bw)))).
(** birth_death.py:429-446 _walker_density_manual; np.mean divides the sum by the number *)
Definition f_density_manual (fexp : f64 -> f64) (fpow : f64 -> f64 -> f64) (np_sum : list f64 -> f64) (bw : list f64)
    (pos : list (list f64)) : list f64 :=
  let n := length pos in
  map (fun i =>                                                                     (* 442 *)
         let kernel_values := map (fun j => f_kernel fexp fpow np_sum bw (fmap2 fsub (nth i pos []) (nth j pos []))) (seq 0 n) in  (* 443-444 *)
         fdiv (np_sum kernel_values) (f_of_Z (Z.of_nat n)))                         (* 445 *)
      (seq 0 n).
(** birth_death.py:413-426 walker_density *)
Definition f_walker_density (fexp : f64 -> f64) (fpow : f64 -> f64 -> f64) (np_sum : list f64 -> f64) (bw : list f64)
    (pos : list (list f64)) : res (list f64) :=
  if Z.of_nat (length pos) <=? 10000 then f_density fexp np_sum bw pos
  else Ok (f_density_manual fexp fpow np_sum bw pos).
(** birth_death.py:94, 222-244 calc_betas for any number of walkers; [corr] are the values interpolated from the approximation grid *)
Definition f_betas_any (fexp flog : f64 -> f64) (fpow : f64 -> f64 -> f64) (np_sum : list f64 -> f64) (v : variant) (kt : f64) (bw : list f64)
    (pos : list (list f64)) (energies corr : list f64) : res (list f64) :=
  do dens <- f_walker_density fexp fpow np_sum bw pos;
  let beta := map flog dens in                                                      (* 229 *)
  let inv_kt := fdiv (f_of_Z 1) kt in                                               (* 94 *)
  let centered := f_center np_sum (fmap2 fadd beta (map (fun e => fmul e inv_kt) energies)) in  (* 233-234 *)
  match v with
  | VOrig => Ok centered
  | VAdd => Ok (fmap2 fadd centered corr)                                           (* 237-239 *)
  | VMult => Ok (f_center np_sum (fmap2 fadd beta corr))                            (* 242-243 *)
  end.
