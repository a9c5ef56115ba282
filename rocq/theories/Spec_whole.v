(** The complete simulation as composition of the actions (C56) *)
From Verif Require Import PyBase Model_xr Model_input Model_dyn Model_bd Model_traj Model_histaction Model_fes Model_deltaf Model_pdist
  Model_setup Model_main Spec_traj Spec_trajrun Spec_histact Spec_setup Spec_fes Spec_pdist Spec_times Spec_rng Spec_bdrun Spec_main.
Open Scope Z_scope.

(** the moving part of a simulation: walkers, generator of the dynamics, birth-death action *)
Definition dyn (e : env) : Type :=
  (list particle * rng_st (e_rng e) * option (bdpar * rng_st (e_rng e) * stats * list report))%type.
Definition dyn_of {e : env} (w : world (e_rng e)) : dyn e := (w_ps w, w_rng w, w_bd w).

(** time step k: the Langevin update of all walkers, then, if there is a birth-death action, its step *)
Inductive dyn_step (e : env) (ld : ldpar) (k : Z) : dyn e -> dyn e -> Prop :=
| step_ld ps g ps' g' : ld_run (e_rng e) ld ps g = Ok (ps', g') ->
    dyn_step e ld k (ps, g, None) (ps', g', None)
| step_ld_bd ps g ps' g' par bg st out b out' : ld_run (e_rng e) ld ps g = Ok (ps', g') ->
    bd_run (e_rng e) (e_gd e) par k (mkBS ps' bg st, out) = Ok (b, out') ->
    dyn_step e ld k (ps, g, Some (par, bg, st, out)) (bs_ps b, g', Some (par, bs_rng b, bs_stats b, out')).

(** [D k] is the moving part after k time steps *)
Definition history (e : env) (w0 : world (e_rng e)) (n : Z) (D : Z -> dyn e) : Prop :=
  D 0 = dyn_of w0 /\ forall k, 1 <= k <= n -> dyn_step e (w_ld w0) k (D (k - 1)) (D k).
Definition walkers {e : env} (D : Z -> dyn e) (k : Z) : list particle := fst (fst (D k)).

(** final_run of the birth-death action *)
Definition bd_end (e : env) (n : Z) (d : dyn e) : option (bdpar * rng_st (e_rng e) * stats * list report) :=
  match d with
  | (ps, _, Some (par, g, st, out)) =>
      let (b, out') := bd_final_run (e_rng e) par n (mkBS ps g st, out) in Some (par, bs_rng b, bs_stats b, out')
  | (_, _, None) => None
  end.

(** What remains if the actions are taken apart: every output action runs alone on the history of
    the walkers (trajectory, histogram with the trajectory, particle-distribution), on the histograms [hs]
    (fes) and on the free energy surfaces of [fs] (delta-f). *)
Definition composed (e : env) (n : Z) (w0 w : world (e_rng e)) : Prop :=
  exists (D : Z -> dyn e) (hs : Z -> histact) (fs : Z -> fesact),
  let ld := w_ld w0 in
  history e w0 n D /\ w_ld w = ld /\ w_ps w = walkers D n /\ w_rng w = snd (fst (D n)) /\ w_bd w = bd_end e n (D n) /\
  match w_traj w0 with
  | None => w_traj w = None
  | Some t0 => exists t, w_traj w = Some t /\ traj_simulation (ld_dt ld) (walkers D) (fun _ => 0%nat) n t0 = Ok t
  end /\
  match w_hist w0 with
  | None => w_hist w = None
  | Some h0 => exists t0 t, w_traj w0 = Some t0 /\ w_traj w = Some t /\ w_hist w = Some (hs (n + 1)) /\
      (forall k, 0 <= k <= n -> exists tk, hist_loop (ld_dt ld) (walkers D) k (t0, h0) = Ok (tk, hs k)) /\
      hist_simulation (ld_dt ld) (walkers D) n (t0, h0) = Ok (t, hs (n + 1))
  end /\
  match w_fes w0 with
  | None => w_fes w = None
  | Some f0 => w_hist w0 <> None /\ w_fes w = Some (fs (n + 1)) /\
      (forall k, 0 <= k <= n ->
         foldM (fun fa j => fes_run (hs j) (e_junk_fes e j) fa j) (zrange 1 (k + 1)) f0 = Ok (fs k)) /\
      fes_simulation hs (e_junk_fes e) n f0 = Ok (fs (n + 1))
  end /\
  match w_df w0 with
  | None => w_df w = None
  | Some (masks, r0) => exists r, w_fes w0 <> None /\ w_df w = Some (masks, r) /\
      delta_f_simulation (fun k => fa_fes (fs k)) (ld_kt ld) (ld_dt ld) masks n r0 = Ok r
  end /\
  match w_pd w0 with
  | None => w_pd w = None
  | Some (states, r0) => exists r, w_pd w = Some (states, r) /\
      pdist_simulation (pot_ndim (ld_pot ld)) states (walkers D) n r0 = Ok r
  end.

(** What a run needs besides a successful setup: generators that keep the contract of numpy, at least
    one walker, ranges in all dimensions if there is a boundary condition; for the birth-death action
    at least two walkers, an interpolation that treats every point for itself (unless there is no
    correction), and, if the rates are recalculated after every event, a generator that does not draw
    exactly 0; states in as many dimensions as the potential for the particle-distribution. *)
Record runnable (e : env) (w0 : world (e_rng e)) : Prop := {
  ru_rng : rng_ok (e_rng e);
  ru_walkers : w_ps w0 <> [];
  ru_ranges : pot_bc (ld_pot (w_ld w0)) = None \/
              length (pot_ranges (ld_pot (w_ld w0))) = pot_ndim (ld_pot (w_ld w0));
  ru_bd : match w_bd w0 with
          | None => True
          | Some (par, _, _, _) => (2 <= length (w_ps w0))%nat /\
              (bd_variant par = VOrig \/ griddata_pointwise (e_gd e)) /\
              (bd_recalc par = false \/ forall m g, Forall (fun u => 0 < u)%R (fst (r_random (e_rng e) m g)))
          end;
  ru_pd : match w_pd w0 with
          | None => True
          | Some (states, _) => Forall (fun st => length st = pot_ndim (ld_pot (w_ld w0))) states
          end }.

(** options of a section of the input *)
Definition opt_int (o : dict) (k : string) : option Z := match assoc k o with Some (VInt z) => Some z | _ => None end.
Definition opt_ints (o : dict) (k : string) : list Z := match assoc k o with Some (VInts l) => l | _ => [] end.
(** a name that is not empty, or "on" *)
Definition opt_set (o : dict) (k : string) : bool :=
  match assoc k o with Some (VStr s) => negb (String.eqb s "") | Some (VBool b) => b | _ => false end.

(** input of the example *)
Definition running : list (string * section) :=
  (demo1 [("birth-death", demo1_bd []); ("trajectories", [("filename", "traj"); ("stride", "1"); ("write-stride", "4")])])%string.

(** the file of an action that records one row per multiple of the stride and writes every W steps
    (C03, C04): without stride one last row.  Complete unless n is less than a stride after
    a write; then the buffer of the last write (before the first write: uninitialised memory) comes again. *)
Definition recorded_file {A} (rows : Z -> A) (last : A) (junk : nat -> A) (stride wstride : option Z) (n : Z) : list A :=
  match stride with
  | None => [last]
  | Some s =>
      let W := option_or wstride (100 * s) in
      if (n mod W =? 0) || (s <=? n mod W) then map rows (times 0 n s)
      else (map rows (times 0 (W * (n / W)) s) ++
            (if n <? W then map junk (seq 0 (Z.to_nat (W / s)))
             else map rows (times (W * (n / W) - W) (W * (n / W)) s)))%list
  end.

(** the steps at which an action with an optional stride acts, and the last of them up to k (0: none) *)
Definition moments (stride : option Z) (n : Z) : list Z := match stride with Some s => times 0 n s | None => [] end.
Definition latest (stride : option Z) (k : Z) : Z := match stride with Some s => s * (k / s) | None => 0 end.
(** free energies of the states with respect to the first one (C11) *)
Definition differences (kt : R) (masks : list (list bool)) (counts : list nat) : list xreal :=
  match masks with
  | [] => []
  | m1 :: ms => map (fun m => free_energy_difference kt (count_in counts m) (count_in counts m1)) ms
  end.
(** [counts k] is the histogram after step k (see C05, C06), [counts (n + 1)] the one after the end *)
Definition counted (e : env) (w0 : world (e_rng e)) (n : Z) (ot oh : dict) (edges : list (list R)) (D : Z -> dyn e) (counts : Z -> list nat) : Prop :=
  let fn := opt_set ot "filename" in
  let W := option_or (opt_int ot "write-stride") 100 in
  let s := option_or (opt_int oh "stride") 1 in
  let resets := opt_ints oh "reset" in
  let origin := repeat 0%R (pot_ndim (ld_pot (w_ld w0))) in
  (forall k, 0 <= k <= n -> data_holds edges (content fn W s (walkers D) origin resets k k) (counts k)) /\
  data_holds edges (content fn W s (walkers D) origin resets n n ++ sampled (walkers D) (final_batch fn W s n))%list (counts (n + 1)).
