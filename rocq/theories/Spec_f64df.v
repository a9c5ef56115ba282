(** Vocabulary for free energy differences in float64 arithmetic (C100) *)
From Verif Require Export Model_f64df Spec_f64 Spec_f64bd.
Open Scope R_scope.

(** number of samples in the bins selected by the mask *)
Fixpoint samples_in (data : list Z) (mask : list bool) : Z :=
  match data, mask with
  | c :: cs, b :: bs => ((if b then c else 0) + samples_in cs bs)%Z
  | _, _ => 0%Z
  end.
(** np.exp and np.log at the ends: exp(-inf) = 0, log(0) = -inf, log(inf) = inf, log(nan) = nan *)
Definition ends_ok (fexp flog : f64 -> f64) : Prop :=
  fexp (B754_infinity true) = fzero /\ flog fzero = B754_infinity true /\ flog finf = finf /\ (forall x, is_nan x = true -> is_nan (flog x) = true).
(** The value d is the free energy difference of a state with N samples to one with N1 samples: - kt ln (N / N1) up to kt / 2^29 if both
    have samples, +inf if only the second has, -inf if only the first has, nan if none has. *)
Definition difference_ok (kt : f64) (N N1 : Z) (d : f64) : Prop :=
  if (N =? 0)%Z then if (N1 =? 0)%Z then is_nan d = true else d = finf
  else if (N1 =? 0)%Z then d = B754_infinity true
  else finite d /\ Rabs (val d - - val kt * ln (IZR N / IZR N1)) <= val kt * / 2 ^ 29.
