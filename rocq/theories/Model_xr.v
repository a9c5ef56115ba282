(** Extended reals: the numpy float operations where the code produces or tests for
    infinities or nan.  IEEE semantics without rounding; signed zeros are not modelled. *)
From Coq Require Export Reals.
From Verif Require Export PyBase.
Open Scope R_scope.

Inductive xreal := Fin (r : R) | PInf | MInf | NaN.

Definition xneg (a : xreal) : xreal :=
  match a with Fin r => Fin (- r) | PInf => MInf | MInf => PInf | NaN => NaN end.

Definition xadd (a b : xreal) : xreal :=
  match a, b with
  | NaN, _ | _, NaN => NaN
  | Fin x, Fin y => Fin (x + y)
  | PInf, MInf | MInf, PInf => NaN
  | PInf, _ | _, PInf => PInf
  | MInf, _ | _, MInf => MInf
  end.

Definition xsub (a b : xreal) : xreal := xadd a (xneg b).

(** multiplication with a finite number *)
Definition xscale (c : R) (a : xreal) : xreal :=
  match a with
  | Fin r => Fin (c * r)
  | NaN => NaN
  | PInf => if Rlt_dec 0 c then PInf else if Rlt_dec c 0 then MInf else NaN
  | MInf => if Rlt_dec 0 c then MInf else if Rlt_dec c 0 then PInf else NaN
  end.

(** division; x/0 is taken with the sign of x (a positive zero, as for sums of
    non-negative numbers) *)
Definition xdiv (a b : xreal) : xreal :=
  match a, b with
  | NaN, _ | _, NaN => NaN
  | Fin x, Fin y =>
      if Req_EM_T y 0 then
        if Rlt_dec 0 x then PInf else if Rlt_dec x 0 then MInf else NaN
      else Fin (x / y)
  | Fin _, _ => Fin 0
  | PInf, Fin y => if Rlt_dec y 0 then MInf else PInf
  | MInf, Fin y => if Rlt_dec y 0 then PInf else MInf
  | _, _ => NaN
  end.

(** np.exp *)
Definition xexp (a : xreal) : xreal :=
  match a with Fin r => Fin (exp r) | PInf => PInf | MInf => Fin 0 | NaN => NaN end.

(** np.log *)
Definition xlog (a : xreal) : xreal :=
  match a with
  | Fin r => if Rlt_dec 0 r then Fin (ln r) else if Req_EM_T r 0 then MInf else NaN
  | PInf => PInf
  | MInf | NaN => NaN
  end.

(** a < b as tested by numpy (false for nan) *)
Definition xltb (a b : xreal) : bool :=
  match a, b with
  | NaN, _ | _, NaN => false
  | Fin x, Fin y => if Rlt_dec x y then true else false
  | MInf, MInf => false
  | MInf, _ => true
  | _, MInf => false
  | PInf, _ => false
  | _, PInf => true
  end.

(** np.minimum: nan propagates *)
Definition xmin2 (a b : xreal) : xreal :=
  match a, b with
  | NaN, _ | _, NaN => NaN
  | _, _ => if xltb b a then b else a
  end.

(** np.min; ValueError for an empty array *)
Definition xmin (l : list xreal) : res xreal :=
  match l with
  | [] => Err ValueError
  | x :: t => Ok (fold_left xmin2 t x)
  end.

(** np.sum *)
Definition xsum (l : list xreal) : xreal := fold_left xadd l (Fin 0).

Definition is_pinf (a : xreal) : bool := match a with PInf => true | _ => false end.
