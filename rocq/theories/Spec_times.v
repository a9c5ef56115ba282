(** Specification vocabulary for recorded time series, independent of the model. *)
From Verif Require Import PyBase.

(** The time steps t with lo < t <= hi that are multiples of [stride], increasing. *)
Definition times (lo hi stride : Z) : list Z :=
  filter (fun t => t mod stride =? 0) (zrange (lo + 1) (hi + 1)).

(** Ring buffer with [length data] rows, one row every [us] time steps, filled from row 0
    starting with time step [us]; [W] is the time after which it wraps around.
    [cycle_start W step] is the time step after which the current filling began. *)
Definition cycle_start (W step : Z) : Z := W * ((step - 1) / W).

(** At time [step] the buffer row [r] holds [f t] where t is the r-th update time of
    the current cycle, for all update times of the cycle that have passed. *)
Definition buffer_holds {A} (data : list A) (us : Z) (f : Z -> A) (step : Z) : Prop :=
  let base := cycle_start (Z.of_nat (length data) * us) step in
  forall r, (r < length data)%nat ->
    base + (Z.of_nat r + 1) * us <= step ->
    nth_error data r = Some (f (base + (Z.of_nat r + 1) * us)).
