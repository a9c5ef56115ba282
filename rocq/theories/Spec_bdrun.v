(** Histories of birth-death executions *)
From Verif Require Import PyBase Model_dyn Model_grid Model_bd Spec_bd.
Open Scope R_scope.

(** states reachable from zeroed counters by birth-death executions, with any change of the
    walkers and of the generator in between *)
Inductive bd_reach (rng : rng_if) (gd : griddata_t R) (par : bdpar) : bdst rng -> Prop :=
| reach_start ps g : bd_reach rng gd par (mkBS ps g stats0)
| reach_bd st evs st' : bd_reach rng gd par st ->
    do_birth_death rng gd par st = Ok (evs, st') -> bd_reach rng gd par st'
| reach_other st ps g : bd_reach rng gd par st -> bd_reach rng gd par (mkBS ps g (bs_stats st)).

(** simulation of n time steps as seen by the birth-death action: in time step k the other
    actions change the walkers by [move k], then birth-death runs *)
Definition bd_loop (rng : rng_if) (gd : griddata_t R) (par : bdpar)
    (move : Z -> list particle -> list particle) (n : Z) (st : bdst rng)
  : res (bdst rng * list report) :=
  foldM (fun (s : bdst rng * list report) k => let (b, out) := s in
           bd_run rng gd par k (mkBS (move k (bs_ps b)) (bs_rng b) (bs_stats b), out))
        (zrange 1 (n + 1)) (st, []).
Definition bd_simulation (rng : rng_if) (gd : griddata_t R) (par : bdpar)
    (move : Z -> list particle -> list particle) (n : Z) (st : bdst rng)
  : res (bdst rng * list report) :=
  do s <- bd_loop rng gd par move n st; Ok (bd_final_run rng par n s).

(** [v] is c * a / b, or nan (None) for b = 0 *)
Definition quotient (c : R) (a b : nat) (v : option R) : Prop :=
  match v with Some q => b <> 0%nat /\ q * INR b = c * INR a | None => b = 0%nat end.

(** griddata interpolates every point for itself *)
Definition griddata_pointwise (gd : griddata_t R) : Prop :=
  exists f, forall pts vals qs fill, gd pts vals qs fill = map (f pts vals fill) qs.

(** what happens in recalculate mode: walkers visited in [order], rates after every event
    given by [rates]; the event of a walker with positive rate duplicates it, with negative rate
    kills it, and with rate zero repeats the previous event *)
Inductive recalc_events (n : nat) (rates : list particle -> list R -> Prop) (prob : R -> R)
    (rand : list R) : list nat -> list R -> option (nat * nat) -> list particle ->
                      list (nat * nat) -> Prop :=
| re_none beta last ws : recalc_events n rates prob rand [] beta last ws []
| re_reject i order beta last ws evs :
    prob (nth i beta 0) < nth i rand 0 ->
    recalc_events n rates prob rand order beta last ws evs ->
    recalc_events n rates prob rand (i :: order) beta last ws evs
| re_accept i order beta last ws ev beta' evs :
    nth i rand 0 <= prob (nth i beta 0) ->
    (0 < nth i beta 0 -> fst ev = i /\ snd ev <> i) ->
    (nth i beta 0 < 0 -> snd ev = i /\ fst ev <> i) ->
    (nth i beta 0 = 0 -> last = Some ev) ->
    (fst ev < n)%nat -> (snd ev < n)%nat ->
    rates (execute ws [ev]) beta' ->
    recalc_events n rates prob rand order beta' (Some ev) (execute ws [ev]) evs ->
    recalc_events n rates prob rand (i :: order) beta last ws (ev :: evs).
