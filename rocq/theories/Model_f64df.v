(** Free energy differences on float64 numbers (compare Model_deltaf.v, which uses extended real numbers) *)
From Verif Require Export Model_f64.
Open Scope Z_scope.

(** delta_f_action.py:161: probabilities[m] for a boolean mask; IndexError for another length *)
Fixpoint f_select (p : list f64) (m : list bool) : res (list f64) :=
  match p, m with
  | [], [] => Ok []
  | x :: p', b :: m' => do r <- f_select p' m'; Ok (if b then x :: r else r)
  | _, _ => Err IndexError
  end.
(** delta_f_action.py:148-166 calculate_delta_f; np.sum of an empty array is 0.  float(kt) is kt for a float64. *)
Definition f_delta_f (fexp flog : f64 -> f64) (np_sum : list f64 -> f64) (fes : list f64) (kt : f64) (masks : list (list bool)) : res (list f64) :=
  let probabilities := map (fun f => fexp (fdiv (fopp f) kt)) fes in                    (* 160 *)
  do state_probs <- mapM (fun m => do s <- f_select probabilities m;                   (* 161 *)
                                   Ok (match s with [] => fzero | _ => np_sum s end)) masks;
  match state_probs with                                                                (* 162-165 *)
  | [] => Ok []
  | p0 :: ps => Ok (map (fun p => fmul (fopp kt) (flog (fdiv p p0))) ps)
  end.
