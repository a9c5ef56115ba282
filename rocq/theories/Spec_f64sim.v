(** Vocabulary for simulations on float64 numbers *)
From Verif Require Export Model_f64sim Spec_f64bd.
From Flocq Require Import Core.Raux.
Open Scope R_scope.

(** Contract of numpy.random.Generator; numpy's normal random numbers are smaller than 20 *)
Record frng_ok (rng : frng_if) : Prop := {
  okf_normal : forall n g, length (fst (fr_normal rng n g)) = n /\ Forall (bounded (bpow radix2 10)) (fst (fr_normal rng n g));
  okf_random : forall n g, length (fst (fr_random rng n g)) = n /\ Forall (fun x => finite x /\ 0 <= val x < 1) (fst (fr_random rng n g));
  okf_shuffle : forall l g, Permutation l (fst (fr_shuffle rng l g));
  okf_integers : forall n g, (0 < n)%nat -> (fst (fr_integers rng n g) < n)%nat }.
(** random() never returns exactly 0 *)
Definition never_zero (rng : frng_if) : Prop := forall n g, Forall (fun x => 0 < val x) (fst (fr_random rng n g)).

(** Settings of moderate size, with a potential that is finite inside the box *)
Record sim_ok (s : fsim) : Prop := {
  so_dim : (1 <= length (fs_ranges s) <= 3)%nat;
  so_ranges : Forall (fun r => bounded (bpow radix2 200) (fst r) /\ bounded (bpow radix2 200) (snd r) /\ val (fst r) <= val (snd r)) (fs_ranges s);
  so_force : forall p, in_box (fs_ranges s) p -> length (fs_force s p) = length (fs_ranges s) /\ Forall (bounded (bpow radix2 200)) (fs_force s p);
  so_energy : forall p, in_box (fs_ranges s) p -> bounded (bpow radix2 200) (fs_energy s p);
  so_dt : moderate (fs_dt s); so_friction : finite (fs_friction s) /\ 0 <= val (fs_friction s);
  so_kt : moderate (fs_kt s); so_mass : moderate (fs_mass s);
  so_stride : (1 <= fs_stride s <= 2 ^ 50)%Z;
  so_bw : length (fs_bw s) = length (fs_ranges s) /\ Forall moderate (fs_bw s);
  so_rate : moderate (fs_rate s);
  so_corr : forall pos, Forall (in_box (fs_ranges s)) pos -> length (fs_corr s pos) = length pos /\ Forall (bounded (bpow radix2 200)) (fs_corr s pos) }.

(** A walker after k steps: inside the box, no nan or infinity anywhere, and energy and forces belong to its position *)
Definition healthy (s : fsim) (k : nat) (p : fpart) : Prop :=
  in_box (fs_ranges s) (fp_pos p) /\ Forall finite (fp_pos p) /\
  length (fw_mom (fp_w p)) = length (fs_ranges s) /\ Forall (bounded (INR (4 * k) * bpow radix2 300)) (fw_mom (fp_w p)) /\
  fw_forces (fp_w p) = fs_force s (fp_pos p) /\ Forall finite (fw_forces (fp_w p)) /\
  fp_energy p = fs_energy s (fp_pos p) /\ finite (fp_energy p).

(** [beta] are the birth-death rates of the walkers [ws] up to rounding: no nan or infinity, and the distance from the exact rates is at most
    n * (2^-38 + M * 2^-48) *)
Definition near_rates (s : fsim) (M : R) (ws : list fpart) (beta : list f64) : Prop :=
  length beta = length ws /\
  forall i b, nth_error beta i = Some b ->
    bounded (bpow radix2 310) b /\
    Rabs (val b - exact_rate (fs_variant s) (fs_kt s) (fs_bw s) (map fp_pos ws) (map fp_energy ws) (fs_corr s (map fp_pos ws)) i)
      <= INR (length ws) * (/ 2 ^ 38 + M * / 2 ^ 48).
(** [prob] is the probability of an event up to rounding, with the time between two birth-death steps *)
Definition near_prob (s : fsim) (prob : f64 -> f64) : Prop :=
  forall b, bounded (bpow radix2 310) b ->
    finite (prob b) /\ Rabs (val (prob b) - accept_prob (val (fs_dt s) * IZR (fs_stride s)) (val (fs_rate s)) (val b)) <= / 2 ^ 47.
(** M bounds the energies in units of kt and the corrections in the box *)
Definition energies_below (s : fsim) (M : R) : Prop :=
  0 <= M <= bpow radix2 300 /\
  (forall p, in_box (fs_ranges s) p -> Rabs (val (fs_energy s p) / val (fs_kt s)) <= M) /\
  (forall pos, Forall (in_box (fs_ranges s)) pos -> Forall (bounded M) (fs_corr s pos)).

(** Recalculation mode (compare [recalc_events] of Spec_bdrun.v): walkers visited in [order], new rates after every event; the event (dup, kill)
    of a walker with positive rate has dup = this walker, with negative rate kill = this walker, and with rate zero it is the previous event *)
Inductive recalc_moves (n : nat) (rates : list fpart -> list f64 -> Prop) (prob : f64 -> f64) (rand : list f64) :
    list nat -> list f64 -> option (nat * nat) -> list fpart -> list (nat * nat) -> Prop :=
| rm_none beta last ws : recalc_moves n rates prob rand [] beta last ws []
| rm_reject i order beta last ws evs :
    val (prob (nth i beta fzero)) < val (nth i rand fzero) ->
    recalc_moves n rates prob rand order beta last ws evs ->
    recalc_moves n rates prob rand (i :: order) beta last ws evs
| rm_accept i order beta last ws ev beta' evs :
    val (nth i rand fzero) <= val (prob (nth i beta fzero)) ->
    (0 < val (nth i beta fzero) -> fst ev = i /\ snd ev <> i) ->
    (val (nth i beta fzero) < 0 -> snd ev = i /\ fst ev <> i) ->
    (val (nth i beta fzero) = 0 -> last = Some ev) ->
    (fst ev < n)%nat -> (snd ev < n)%nat ->
    rates (execute ws [ev]) beta' ->
    recalc_moves n rates prob rand order beta' (Some ev) (execute ws [ev]) evs ->
    recalc_moves n rates prob rand (i :: order) beta last ws (ev :: evs).
