(** Model of the kernel, convolution and correction functions of
    bdld/actions/birth_death.py *)
From Verif Require Export Model_grid.
Open Scope R_scope.

(** birth_death.py:397-410 calc_kernel, for one row of distances:
    1 / ((2 pi)^(n/2) prod(bw)) * exp(-sum(dist^2 / (2 bw^2))).
    (2 pi)^(n/2) is written as sqrt(2 pi)^n. *)
Definition kernel_height (bw : vec) : R := 1 / (sqrt (2 * PI) ^ length bw * prod_R bw).
Definition calc_kernel1 (bw dist : vec) : R :=
  kernel_height bw * exp (- rsum (vmap2 (fun d b => d ^ 2 / (2 * b ^ 2)) dist bw)).
Definition calc_kernel (dists : list vec) (bw : vec) : list R := map (calc_kernel1 bw) dists.

(** np.trapz of one row *)
Fixpoint trapz1 (dx : R) (row : list R) : R :=
  match row with
  | y0 :: ((y1 :: _) as t) => dx * (y0 + y1) / 2 + trapz1 dx t
  | _ => 0
  end.

(** np.trapz(data, dx) along the last axis; a 0-dimensional array has no last axis *)
Definition trapz_last (a : arr R) (dx : R) : res (arr R) :=
  match rev (a_shape a) with
  | [] => Err IndexError
  | n :: s => Ok (mkArr (rev s) (map (trapz1 dx) (rows_of (prod_list s) n (a_flat a))))
  end.

(** birth_death.py:540-555 nd_trapz with a list dx: the last dimension first (dx[-1], dx[:-1]) *)
Fixpoint nd_trapz_rev (a : arr R) (rdx : list R) : res (arr R) :=
  match rdx with
  | [] => Ok a
  | d :: rest => do b <- trapz_last a d; nd_trapz_rev b rest
  end.
Definition nd_trapz (a : arr R) (dx : list R) : res (arr R) := nd_trapz_rev a (rev dx).

(** birth_death.py:484-509 dens_kernel_convolution *)
Definition dens_kernel_convolution (eq_density : grid R) (bw : vec) (m : convmode) : res (grid R) :=
  let kernel_ranges := map (fun b => (- (5 * b), 5 * b)) bw in                  (* 505 *)
  do kernel <- from_stepsizes kernel_ranges (SList (g_steps eq_density)) false; (* 506 *)
  do kernel <- set_data kernel (arr_of_list (calc_kernel (points kernel) bw));  (* 507 *)
  convolve eq_density kernel m.                                                 (* 509 *)

(** birth_death.py:512-537 calc_additive_correction.  np.log is applied to positive numbers
    (the arguments are quotients of positive densities).  The integral is a scalar, here an
    array without dimensions. *)
Definition calc_additive_correction (gd : griddata_t R) (nan : R) (eq_density : grid R) (bw : vec)
    (m : convmode) : res (grid R) :=
  do conv <- dens_kernel_convolution eq_density bw m;                           (* 526 *)
  do dens <- match m with
             | MValid =>                                                        (* 527-531 *)
                 do d <- copy_empty conv;
                 set_data d (arr_of_list (interpolate gd eq_density (points (A := R) d) nan))
             | _ => Ok eq_density
             end;
  do q <- perform_arithmetic 0 conv (OGrid dens) Rdiv;                          (* 532 *)
  do log_term <- perform_math q ln;
  do prod <- broadcast_op 0 Rmult (g_data log_term) (g_data dens);              (* 533 *)
  do integral <- nd_trapz prod (g_steps conv);
  do neg <- perform_math log_term Ropp;                                         (* 534 *)
  do correction <- perform_arithmetic 0 neg (OArr integral) Rplus;
  if existsb (fun n => Nat.ltb 101 n) (g_npoints correction)                    (* 535-536 *)
  then sparsify gd nan correction (repeat 101%nat (g_ndim correction))
  else Ok correction.

(** birth_death.py:133-136: approx_grid of the multiplicative variant *)
Definition multiplicative_grid (gd : griddata_t R) (nan : R) (eq_density : grid R) (bw : vec)
  : res (grid R) :=
  do conv <- dens_kernel_convolution eq_density bw MSame;
  do sp <- sparsify gd nan conv (repeat 101%nat (g_ndim conv));
  do l <- perform_math sp ln;
  perform_math l Ropp.
