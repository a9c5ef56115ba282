(** Specification of the trajectory files (property C01) *)
From Verif Require Import PyBase Model_dyn Spec_times.
Open Scope R_scope.

(** the line a walker has to get for time step k *)
Definition traj_row (dt : R) (momentum : bool) (w : particle) (k : Z) : vec :=
  IZR k * dt :: p_pos w ++ (if momentum then p_mom w else []).

(** only used as default for [nth]; never reached for existing walkers *)
Definition no_walker : particle := mkP [] [] 0 0 [] 0.

(** the file (without header) of walker [i]: one row per multiple of the stride in 1..n;
    [hist k] are the walkers at the time step k is recorded *)
Definition traj_file (dt : R) (momentum : bool) (hist : Z -> list particle)
    (stride n : Z) (i : nat) : list vec :=
  map (fun k => traj_row dt momentum (nth i (hist k) no_walker) k) (times 0 n stride).

Definition traj_files (dt : R) (momentum : bool) (hist : Z -> list particle)
    (stride n : Z) (npart : nat) : list (list vec) :=
  map (traj_file dt momentum hist stride n) (seq 0 npart).

(** value of an optional integer option: the given one or the documented default *)
Definition option_or (o : option Z) (d : Z) : Z := match o with Some z => z | None => d end.
(** a given option value is positive (guaranteed by the input parser, property C40) *)
Definition positive_option (o : option Z) : Prop := forall z, o = Some z -> (0 < z)%Z.
