(** Model of bdld/tools.py and bdld/actions/particle_distribution.py *)
From Verif Require Export Model_dyn Model_rec Model_xr.
Open Scope R_scope.

(** a <= b as tested by numpy (false for nan) *)
Definition xleb (a b : xreal) : bool :=
  match a, b with
  | NaN, _ | _, NaN => false
  | Fin x, Fin y => if Rle_dec x y then true else false
  | MInf, _ | _, PInf => true
  | _, _ => false
  end.

(** [inside & (pos[:, i] >= lo) & (pos[:, i] <= hi)] for column i (tools.py:21) *)
Definition and_in_range (i : nat) (r : xreal * xreal) (pos : list vec) (inside : list bool) : list bool :=
  map (fun pb => snd pb && xleb (fst r) (Fin (nth i (fst pb) 0)) && xleb (Fin (nth i (fst pb) 0)) (snd r))
      (combine pos inside).

(** loop over the dimensions i, i+1, ... (tools.py:20-21); [state[i]] raises IndexError if
    the state has fewer ranges *)
Fixpoint inside_loop (i m : nat) (pos : list vec) (state : list (xreal * xreal)) (inside : list bool)
  : res (list bool) :=
  match m with
  | O => Ok inside
  | S m' => match nth_error state i with
            | None => Err IndexError
            | Some r => inside_loop (S i) m' pos state (and_in_range i r pos inside)
            end
  end.

(** bdld/tools.py:8-23 pos_inside_ranges; the bounds may be infinite (or nan).  [n_dim] is pos.shape[-1]; the initial scalar True
    is modelled by an array of True (they broadcast to the same result for n_dim >= 1). *)
Definition pos_inside_ranges (n_dim : nat) (pos : list vec) (ranges : list (list (xreal * xreal)))
  : res (list (list bool)) :=
  mapM (fun state => inside_loop 0 n_dim pos state (map (fun _ => true) pos)) ranges.

(** python sum() over a boolean array *)
Definition sum_bools (l : list bool) : nat := length (filter (fun b => b) l).

(** particle_distribution.py:102-110.  Without walkers np.array([]) has shape (0,), so that
    sum(True) is tried: TypeError. *)
Definition count_particles (n_dim : nat) (parts : list particle) (states : list (list (xreal * xreal)))
  : res (list nat) :=
  match parts with
  | [] => match states with [] => Ok [] | _ => Err TypeError end
  | _ => do bs <- pos_inside_ranges n_dim (map p_pos parts) states;
         Ok (map sum_bools bs)
  end.

(** one row: step and the counts (91-92, 98-99) *)
Definition pdist_row (n_dim : nat) (parts : list particle) (states : list (list (xreal * xreal))) (step : Z)
  : res (list Z) :=
  do c <- count_particles n_dim parts states; Ok (step :: map Z.of_nat c).

(** particle_distribution.py:84-94 *)
Definition pdist_run (n_dim : nat) (parts : list particle) (states : list (list (xreal * xreal)))
    (r : recorder (list Z)) (step : Z) : res (recorder (list Z)) :=
  rec_run (pdist_row n_dim parts states step) r step.

(** particle_distribution.py:96-100 *)
Definition pdist_final_run (n_dim : nat) (parts : list particle) (states : list (list (xreal * xreal)))
    (r : recorder (list Z)) (step : Z) : res (recorder (list Z)) :=
  rec_final_run (pdist_row n_dim parts states step) r step.

(** particle_distribution.py:25-82 (buffers; header in Model_files.v) *)
Definition pdist_init (stride write_stride : option Z) (filename : bool)
    (junk : nat -> list (list Z)) (single0 : list Z) : res (recorder (list Z)) :=
  rec_init stride write_stride filename junk single0.
