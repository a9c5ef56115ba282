(** Model of bdld/actions/trajectory_action.py *)
From Verif Require Export Model_valid Model_dyn.
Open Scope R_scope.

(** State of a TrajectoryAction (trajectory_action.py:42-57).
    [tr_pos], [tr_mom], [tr_times] are the rows of the three buffer arrays.
    [tr_mom] is [None] if momentum is not stored (falsy [momentum]).
    [tr_files] is [None] without filename, else one list of rows (without header) per
    walker; rows are the numbers written by np.savetxt, formatting is not modelled. *)
Record traj := mkTraj {
  tr_stride : Z; tr_wstride : Z; tr_npart : nat;
  tr_times : list R;
  tr_pos : list (list vec);
  tr_mom : option (list (list vec));
  tr_last_write : Z;
  tr_files : option (list (list vec)) }.

(** trajectory_action.py:24-70 __init__.  The np.empty buffers have arbitrary initial
    content: arguments [times0 pos0 mom0] (the theorems quantify over them; numpy
    guarantees their shapes).  Header writing is modelled in Model_files.v. *)
Definition traj_init (n_particles : nat) (stride : option Z) (filename momentum : bool)
    (write_stride : option Z)
    (times0 : list R) (pos0 mom0 : list (list vec)) : traj :=
  mkTraj (orZ stride 1)                                        (* 46 *)
         (orZ write_stride 100)                                (* 47 *)
         n_particles
         times0                                                (* 53 *)
         pos0                                                  (* 49 *)
         (if momentum then Some mom0 else None)                (* 50-52 *)
         0%Z                                                   (* 54 *)
         (if filename then Some (repeat [] n_particles) else None). (* 45, 56-57 *)

(** [save_pos[:, i]]: column of walker i *)
Definition column (i : nat) (frames : list (list vec)) : list vec :=
  map (fun fr => nth i fr []) frames.

(** rows of np.c_[save_times, save_pos[:, i], save_momentum[:, i]] (118-121) *)
Fixpoint c_rows (ts : list R) (ps : list vec) (ms : option (list vec)) : list vec :=
  match ts, ps with
  | t :: ts', p :: ps' =>
      match ms with
      | None => (t :: p) :: c_rows ts' ps' None
      | Some (m :: ms') => (t :: p ++ m) :: c_rows ts' ps' (Some ms')
      | Some [] => []
      end
  | _, _ => []
  end.

(** append rows to the file of every walker *)
Fixpoint append_files (i : nat) (files : list (list vec)) (ts : list R)
    (ps : list (list vec)) (ms : option (list (list vec))) : list (list vec) :=
  match files with
  | [] => []
  | f :: fs =>
      (f ++ c_rows ts (column i ps) (option_map (column i) ms))
        :: append_files (S i) fs ts ps ms
  end.

(** trajectory_action.py:93-130 write.  [if self.filenames] is false for None and for the
    empty list; [last_write] is set inside the loop over the files (130). *)
Definition traj_write (t : traj) (step : Z) : res traj :=
  match tr_files t with
  | None | Some [] => Ok t
  | Some files =>
      do ts <- get_valid_data (tr_times t) step (tr_stride t) 1 (tr_last_write t); (* 106-108 *)
      do ps <- get_valid_data (tr_pos t) step (tr_stride t) 1 (tr_last_write t);   (* 109-111 *)
      do ms <- match tr_mom t with                                                  (* 112-115 *)
               | None => Ok None
               | Some m => do m' <- get_valid_data m step (tr_stride t) 1 (tr_last_write t);
                           Ok (Some m')
               end;
      Ok (mkTraj (tr_stride t) (tr_wstride t) (tr_npart t)
                 (tr_times t) (tr_pos t) (tr_mom t)
                 step                                                               (* 130 *)
                 (Some (append_files 0 files ts ps ms)))                            (* 116-129 *)
  end.

(** trajectory_action.py:72-87 run.  Assigning a list of positions to an array row needs
    as many walkers as at construction (numpy raises ValueError; a single walker
    would be broadcast, which is not modelled). *)
Definition traj_run (dt : R) (parts : list particle) (t : traj) (step : Z) : res traj :=
  if (tr_wstride t =? 0)%Z then Err ZeroDivisionError else
  let row := (step mod tr_wstride t - 1)%Z in                                       (* 80 *)
  do times' <- py_set (tr_times t) row (IZR step * dt);                             (* 81 *)
  if negb (Nat.eqb (length parts) (tr_npart t)) then Err ValueError else
  do pos' <- py_set (tr_pos t) row (map p_pos parts);                               (* 82 *)
  do mom' <- match tr_mom t with                                                    (* 83-84 *)
             | None => Ok None
             | Some m => do m' <- py_set m row (map p_mom parts); Ok (Some m')
             end;
  let t' := mkTraj (tr_stride t) (tr_wstride t) (tr_npart t) times' pos' mom'
                   (tr_last_write t) (tr_files t) in
  if (step mod tr_wstride t =? 0)%Z then traj_write t' step else Ok t'.             (* 86-87 *)

(** trajectory_action.py:89-91 *)
Definition traj_final_run (t : traj) (step : Z) : res traj := traj_write t step.
