(** Notions for C71 and C72 *)
From Verif Require Import PyBase Model_input Model_dyn Model_main Model_warn Spec_times Spec_histact Spec_whole.
Open Scope Z_scope.

(** step k is a multiple of the stride, if there is one *)
Definition acts_at (stride : option Z) (k : Z) : Prop := match stride with Some s => k mod s = 0 | None => False end.

(** All samples (one every s steps) until step k: since the start, where the histogram also has one count for the origin
    (see C07), or since the beginning of the batch of W steps with the last reset (see C09) *)
Definition until (s W : Z) (hist : Z -> list particle) (origin : vec) (resets : list Z) (k : Z) : list vec :=
  match resets_upto resets k with
  | [] => origin :: sampled hist (times 0 k s)
  | r :: _ => sampled hist (times (W * (r / W)) k s)
  end.

(** the kinds of messages --log-level asks for; names are case-insensitive, without a known name it is "warning" *)
Definition shows_errors (level : string) : Prop := lower level <> "critical"%string.
Definition shows_warnings (level : string) : Prop := ~ In (lower level) ["critical"; "error"]%string.
Definition shows_infos (level : string) : Prop := In (lower level) ["info"; "debug"]%string.

(** input of the example: histogram and free energies every step, free energies written and delta-f every 4 steps *)
Open Scope string_scope.
Definition current_outputs : list (string * section) :=
  Spec_main.demo1 [("trajectories", [("stride", "1"); ("write-stride", "1"); ("filename", "traj")]);
         ("histogram", [("stride", "1"); ("min", "-2"); ("max", "2"); ("bins", "4"); ("filename", "hist"); ("reset", "1")]);
         ("fes", [("kt", "1"); ("filename", "fes"); ("stride", "1"); ("write-stride", "4")]);
         ("delta-f", [("stride", "4"); ("write-stride", "4"); ("filename", "delta_f"); ("state1-min", "-2"); ("state1-max", "0"); ("state2-min", "0"); ("state2-max", "2")])].
