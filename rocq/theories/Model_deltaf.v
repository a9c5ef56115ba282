(** Model of bdld/actions/delta_f_action.py *)
From Verif Require Export Model_xr Model_rec.
Open Scope R_scope.

(** probabilities[m] for a boolean mask; IndexError for another length *)
Fixpoint select (p : list xreal) (m : list bool) : res (list xreal) :=
  match p, m with
  | [], [] => Ok []
  | x :: p', b :: m' => do r <- select p' m'; Ok (if b then x :: r else r)
  | _, _ => Err IndexError
  end.

(** delta_f_action.py:148-166 calculate_delta_f (the FES is flattened, row-major).
    -fes / kt with finite kt <> 0; ZeroDivisionError does not occur with numpy arrays. *)
Definition calculate_delta_f (fes : list xreal) (kt : R) (masks : list (list bool)) : res (list xreal) :=
  let probabilities := map (fun f => xexp (xdiv (xneg f) (Fin kt))) fes in              (* 160 *)
  do state_probs <- mapM (fun m => do s <- select probabilities m; Ok (xsum s)) masks;  (* 161 *)
  match state_probs with                                                                (* 162-165 *)
  | [] => Ok []
  | p0 :: ps => Ok (map (fun p => xscale (- kt) (xlog (xdiv p p0))) ps)
  end.

(** delta_f_action.py:142-145 check_mask_shapes; shapes as lists of dimensions *)
Definition check_mask_shapes (mask_shapes : list (list nat)) (fes_shape : list nat) : res unit :=
  if existsb (fun m => if list_eq_dec Nat.eq_dec m fes_shape then false else true) mask_shapes
  then Err ValueError else Ok tt.

(** one row (102-105, 111-114) *)
Definition delta_f_row (fes : list xreal) (kt dt : R) (masks : list (list bool)) (step : Z)
  : res (list xreal) :=
  do d <- calculate_delta_f fes kt masks; Ok (Fin (IZR step * dt) :: d).

(** delta_f_action.py:21-93 __init__ (without header): the shape check comes first (50).
    The warning of lines 55-56 only prints. *)
Definition delta_f_init (mask_shapes : list (list nat)) (fes_shape : list nat)
    (stride write_stride : option Z) (filename : bool)
    (junk : nat -> list (list xreal)) (single0 : list xreal) : res (recorder (list xreal)) :=
  do _ <- check_mask_shapes mask_shapes fes_shape;
  rec_init stride write_stride filename junk single0.

(** delta_f_action.py:95-107 and 109-115; [fes] is fes_action.fes.data *)
Definition delta_f_run (fes : list xreal) (kt dt : R) (masks : list (list bool))
    (r : recorder (list xreal)) (step : Z) : res (recorder (list xreal)) :=
  rec_run (delta_f_row fes kt dt masks step) r step.
Definition delta_f_final_run (fes : list xreal) (kt dt : R) (masks : list (list bool))
    (r : recorder (list xreal)) (step : Z) : res (recorder (list xreal)) :=
  rec_final_run (delta_f_row fes kt dt masks step) r step.
