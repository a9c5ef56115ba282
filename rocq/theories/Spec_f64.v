(** Contracts and vocabulary for the statements about binary64 numbers *)
From Verif Require Export Model_f64.
From Coq Require Export Reals.
Open Scope R_scope.

(** the real number that a finite float64 is *)
Notation val := (@B2R 53 1024).
Definition finite (x : f64) : Prop := is_finite x = true.
Definition not_nan (x : f64) : Prop := is_nan x = false.

(** sum of the real values *)
Definition vsum (l : list f64) : R := fold_right (fun x s => val x + s) 0 l.

(** ** np.sum *)
(** A way to add numbers: which two partial results are added in which order *)
Inductive sum_tree := Leaf (x : f64) | Node (a b : sum_tree).
Fixpoint tree_leaves (t : sum_tree) : list f64 :=
  match t with Leaf x => [x] | Node a b => tree_leaves a ++ tree_leaves b end.
Fixpoint tree_sum (t : sum_tree) : f64 :=
  match t with Leaf x => x | Node a b => fadd (tree_sum a) (tree_sum b) end.
(** [np_sum] adds the elements (and possibly some zeros to start with) in some order *)
Definition sums (np_sum : list f64 -> f64) : Prop :=
  forall l, l <> [] -> exists t k, (k <= length l)%nat /\
    Permutation (tree_leaves t) (l ++ repeat fzero k) /\ np_sum l = tree_sum t.

(** the simplest one: from left to right *)
Definition left_sum (l : list f64) : f64 := fold_left fadd l fzero.

(** ** np.log (of the counts) and np.exp: finite results with a small relative error *)
Definition log_ok (flog : f64 -> f64) : Prop :=
  forall c, (1 <= c <= 2 ^ 53)%Z ->
    finite (flog (f_of_Z c)) /\ Rabs (val (flog (f_of_Z c)) - ln (IZR c)) <= / 2 ^ 50 * ln (IZR c).
(** for negative arguments; the result is 0 if it is too small (2^-1000 is far above the smallest float64) *)
Definition exp_ok (fexp : f64 -> f64) : Prop :=
  (forall x, finite x -> val x <= 0 ->
     finite (fexp x) /\ 0 <= val (fexp x) <= 1 /\ (val x = 0 -> val (fexp x) = 1) /\
     Rabs (val (fexp x) - exp (val x)) <= / 2 ^ 50 * exp (val x) + powerRZ 2 (-1000)) /\
  finite (fexp (B754_infinity true)) /\ val (fexp (B754_infinity true)) = 0.

(** x lies in the range (never for a nan) *)
Definition inside (range : f64 * f64) (x : f64) : Prop := fle (fst range) x = true /\ fle x (snd range) = true.
(** a range as in the input: two numbers (possibly infinite), the first not larger *)
Definition range_ok (range : f64 * f64) : Prop := fle (fst range) (snd range) = true.
