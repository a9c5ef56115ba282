(** A simulation with Langevin dynamics and birth-death moves on float64 numbers (compare Model_dyn.v, Model_bd.v and Model_main.v, which
    use real numbers) *)
From Verif Require Export Model_f64bd.
Open Scope Z_scope.

(** numpy.random.Generator *)
Record frng_if := {
  fr_st : Type;
  fr_normal : nat -> fr_st -> list f64 * fr_st;
  fr_random : nat -> fr_st -> list f64 * fr_st;
  fr_shuffle : list nat -> fr_st -> list nat * fr_st;
  fr_integers : nat -> fr_st -> nat * fr_st }.

(** Settings: potential (force and energy are functions of the position, potential.py:44-57), dynamics (bussi_parinello_ld.py:46-69) with
    one mass for all walkers (main.py:189-193), birth-death (birth_death.py:57-137).  [fs_corr] are the values interpolated from the grid
    with the correction (birth_death.py:237, 242). *)
Record fsim := mkFSim {
  fs_ranges : list (f64 * f64); fs_force : list f64 -> list f64; fs_energy : list f64 -> f64;
  fs_dt : f64; fs_friction : f64; fs_kt : f64; fs_mass : f64;
  fs_stride : Z; fs_bw : list f64; fs_rate : f64; fs_recalc : bool; fs_variant : variant; fs_corr : list (list f64) -> list f64 }.
(** a walker and its energy *)
Record fpart := mkFP { fp_w : fwalker; fp_energy : f64 }.
Definition fp_pos (p : fpart) : list f64 := fw_pos (fp_w p).

Section Simulation.
Context (fexp flog : f64 -> f64) (np_sum : list f64 -> f64) (rng : frng_if) (s : fsim).

(** bussi_parinello_ld.py:116-124: evaluate the potential at the initial position *)
Definition f_add_particle (pos : list f64) : fpart := mkFP (f_new_walker (fs_force s) pos) (fs_energy s pos).

(** bussi_parinello_ld.py:83-99: one step of all walkers, one after another *)
Definition f_ld_walker (p : fpart) (g : fr_st rng) : res (fpart * fr_st rng) :=
  let (n1, g) := fr_normal rng (length (fs_ranges s)) g in
  let (n2, g) := fr_normal rng (length (fs_ranges s)) g in
  let c1 := f_c1 fexp (fs_friction s) (fs_dt s) in
  do w <- f_bp_update (fs_ranges s) (fs_force s) c1 (f_c2 c1 (fs_mass s) (fs_kt s)) (fs_mass s) (fs_dt s) (fp_w p) n1 n2;
  Ok (mkFP w (fs_energy s (fw_pos w)), g).
Fixpoint f_ld_run (ps : list fpart) (g : fr_st rng) : res (list fpart * fr_st rng) :=
  match ps with
  | [] => Ok ([], g)
  | p :: rest => do (p', g') <- f_ld_walker p g; do (rest', g'') <- f_ld_run rest g'; Ok (p' :: rest', g'')
  end.

(** birth_death.py:222-244 *)
Definition f_calc_betas (ps : list fpart) : res (list f64) :=
  let pos := map fp_pos ps in
  f_betas fexp flog np_sum (fs_variant s) (fs_kt s) (fs_bw s) pos (map fp_energy ps) (fs_corr s pos).
(** birth_death.py:91: self.dt = md_dt * stride *)
Definition f_bd_dt : f64 := fmul (fs_dt s) (f_of_Z (fs_stride s)).
(** birth_death.py:246-256 *)
Definition f_random_other (num_part excl : nat) (g : fr_st rng) : res (nat * fr_st rng) :=
  if Nat.leb num_part 1 then Err ValueError
  else let (num, g') := fr_integers rng (num_part - 1) g in
       Ok (if Nat.leb excl num then S num else num, g').
(** birth_death.py:258-264 *)
Definition f_move (ps : list fpart) (ev : nat * nat) : res (list fpart) :=
  match nth_error ps (fst ev) with
  | None => Err IndexError
  | Some p => if Nat.ltb (snd ev) (length ps) then Ok (set_nth ps (snd ev) p) else Err IndexError
  end.
Definition fat (l : list f64) (i : nat) : res f64 :=
  match nth_error l i with Some x => Ok x | None => Err IndexError end.
(** comparisons with 0 *)
Definition f_pos (b : f64) : bool := flt fzero b.
Definition f_neg (b : f64) : bool := flt b fzero.

(** birth_death.py:181-191 *)
Fixpoint f_bulk_loop (n : nat) (beta : list f64) (is_ : list nat) (dups kills : list nat) (st : stats) (g : fr_st rng)
  : res (list nat * list nat * stats * fr_st rng) :=
  match is_ with
  | [] => Ok (dups, kills, st, g)
  | i :: rest =>
      if memb i kills then f_bulk_loop n beta rest dups kills st g
      else
        do (other, g') <- f_random_other n i g;
        do b <- fat beta i;
        if f_pos b then f_bulk_loop n beta rest (dups ++ [other])%list (kills ++ [i])%list (add_kill st) g'
        else f_bulk_loop n beta rest (dups ++ [i])%list (kills ++ [other])%list (add_dup st) g'
  end.
(** birth_death.py:168-195 *)
Definition f_bulk (beta rand : list f64) (ps : list fpart) (st : stats) (g : fr_st rng) : res (list fpart * stats * fr_st rng) :=
  let n := length ps in
  let kills := length (filter f_pos beta) in
  let st := add_attempts st (n - kills) kills in
  let mask := map (fun br => f_accepted fexp f_bd_dt (fs_rate s) (fst br) (snd br)) (combine beta rand) in
  let (ev, g) := fr_shuffle rng (where_true mask) g in
  do (dups, kills, st, g) <- f_bulk_loop n beta ev [] [] st g;
  do ps <- foldM f_move (combine dups kills) ps;
  Ok (ps, st, g).
(** birth_death.py:201-217 *)
Fixpoint f_recalc_loop (n : nat) (rand : list f64) (is_ : list nat) (beta : list f64) (curr : option (nat * nat))
    (ps : list fpart) (st : stats) (g : fr_st rng) : res (list fpart * stats * fr_st rng) :=
  match is_ with
  | [] => Ok (ps, st, g)
  | i :: rest =>
      do b <- fat beta i;
      do r <- fat rand i;
      let st := if f_pos b then add_attempts st 0 1 else st in
      let st := if f_neg b then add_attempts st 1 0 else st in
      if f_accepted fexp f_bd_dt (fs_rate s) b r then
        do (other, g) <- f_random_other n i g;
        let '(curr, st) :=
          if f_pos b then (Some (i, other), add_kill st)
          else if f_neg b then (Some (other, i), add_dup st)
          else (curr, st) in
        match curr with
        | None => Err UnboundLocalError
        | Some ev =>
            do ps <- f_move ps ev;
            do beta <- f_calc_betas ps;
            f_recalc_loop n rand rest beta curr ps st g
        end
      else f_recalc_loop n rand rest beta curr ps st g
  end.
(** birth_death.py:154-219 *)
Definition f_birth_death (ps : list fpart) (st : stats) (g : fr_st rng) : res (list fpart * stats * fr_st rng) :=
  let n := length ps in
  do beta <- f_calc_betas ps;
  let (rand, g) := fr_random rng n g in
  if negb (fs_recalc s) then f_bulk beta rand ps st g
  else let (is_, g) := fr_shuffle rng (seq 0 n) g in f_recalc_loop n rand is_ beta None ps st g.

(** state of a simulation: walkers, counters, generator of the dynamics and of the birth-death moves *)
Record fstate := mkFS { st_ps : list fpart; st_stats : stats; st_ld : fr_st rng; st_bd : fr_st rng }.
(** main.py:115-117 with the first two actions only: dynamics (78) and birth-death (83, birth_death.py:144-145) of step i *)
Definition f_step (i : Z) (st : fstate) : res fstate :=
  do (ps, g1) <- f_ld_run (st_ps st) (st_ld st);
  if fs_stride s =? 0 then Err ZeroDivisionError
  else if i mod fs_stride s =? 0 then
    do (ps, c, g2) <- f_birth_death ps (st_stats st) (st_bd st); Ok (mkFS ps c g1 g2)
  else Ok (mkFS ps (st_stats st) g1 (st_bd st)).
(** steps 1 to n *)
Definition f_simulate (n : nat) (positions : list (list f64)) (g1 g2 : fr_st rng) : res fstate :=
  foldM (fun st i => f_step i st) (map Z.of_nat (seq 1 n)) (mkFS (map f_add_particle positions) stats0 g1 g2).
End Simulation.
