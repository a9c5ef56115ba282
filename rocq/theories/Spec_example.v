(** /repo/example_input *)
From Verif Require Import PyBase Model_xr Model_input Spec_ini.
From Coq Require Import Reals.
Open Scope string_scope.

Definition example_text : string :=
"[DEFAULT]
kt: 1
seed: 632683

[ld]
type: bussi-parinello
timestep: 0.005
friction: 10.0
n_steps: 10000

[potential]
type: polynomial
n_dim: 1
coeffs: 0, 0.2, -4, 0, 1
min: -2.5
max: 2.5

[particles]
number: 10
initial-distribution: random-global

[birth-death]
stride: 100
kernel-bandwidth: 0.3
correction-variant: multiplicative

[trajectories]
stride: 5
filename: traj

[histogram]
bins: 200
min: -2.5
max: 2.5
filename: histo

[fes]
stride: 100
write-stride: 500
filename: fes
plot-filename: fes.png
plot-domain: 0,8

[delta-f]
stride: 100
state1-min: -2.5
state1-max: 0.0
state2-min: 0.0
state2-max: 2.5
filename: delta_f
".

(** its sections, options and values *)
Definition example_document : document :=
  [("DEFAULT", [("kt", ["1"]); ("seed", ["632683"])]);
   ("ld", [("type", ["bussi-parinello"]); ("timestep", ["0.005"]); ("friction", ["10.0"]); ("n_steps", ["10000"])]);
   ("potential", [("type", ["polynomial"]); ("n_dim", ["1"]); ("coeffs", ["0, 0.2, -4, 0, 1"]); ("min", ["-2.5"]); ("max", ["2.5"])]);
   ("particles", [("number", ["10"]); ("initial-distribution", ["random-global"])]);
   ("birth-death", [("stride", ["100"]); ("kernel-bandwidth", ["0.3"]); ("correction-variant", ["multiplicative"])]);
   ("trajectories", [("stride", ["5"]); ("filename", ["traj"])]);
   ("histogram", [("bins", ["200"]); ("min", ["-2.5"]); ("max", ["2.5"]); ("filename", ["histo"])]);
   ("fes", [("stride", ["100"]); ("write-stride", ["500"]); ("filename", ["fes"]); ("plot-filename", ["fes.png"]); ("plot-domain", ["0,8"])]);
   ("delta-f", [("stride", ["100"]); ("state1-min", ["-2.5"]); ("state1-max", ["0.0"]); ("state2-min", ["0.0"]); ("state2-max", ["2.5"]); ("filename", ["delta_f"])])].

(** the parameters it stands for *)
Definition example_config : config := {|
  c_ld := [("type", VStr "bussi-parinello"); ("timestep", VFloat (Fin (5 / 1000))); ("n_steps", VInt 10000); ("seed", VInt 632683);
           ("kt", VFloat (Fin 1)); ("friction", VFloat (Fin (100 / 10)))];
  c_potential := [("type", VStr "polynomial"); ("n_dim", VInt 1); ("coeffs", VFloats [Fin 0; Fin (2 / 10); Fin (-4); Fin 0; Fin 1]);
           ("min", VFloat (Fin (-25 / 10))); ("max", VFloat (Fin (25 / 10))); ("boundary-condition", VNone)];
  c_particles := [("number", VInt 10); ("mass", VFloat (Fin 1)); ("seed", VInt 632683); ("initial-distribution", VStr "random-global")];
  c_birth_death := Some [("stride", VInt 100); ("correction-variant", VStr "multiplicative"); ("approximation-variant", VNone);
           ("exponential-factor", VNone); ("recalculate-probabilities", VBool false); ("stats-stride", VNone);
           ("stats-filename", VNone); ("seed", VInt 632683); ("kernel-bandwidth", VFloat (Fin (3 / 10)))];
  c_trajectories := Some [("filename", VStr "traj"); ("stride", VInt 5); ("momentum", VNone); ("write-stride", VNone); ("fmt", VNone)];
  c_histogram := Some [("stride", VNone); ("reset", VNone); ("filename", VStr "histo"); ("write-stride", VNone); ("fmt", VNone);
           ("min", VFloat (Fin (-25 / 10))); ("max", VFloat (Fin (25 / 10))); ("bins", VInt 200)];
  c_fes := Some [("kt", VFloat (Fin 1)); ("stride", VInt 100); ("filename", VStr "fes"); ("write-stride", VInt 500); ("fmt", VNone);
           ("plot-stride", VNone); ("plot-filename", VStr "fes.png"); ("plot-domain", VFloats [Fin 0; Fin 8]); ("plot-title", VNone)];
  c_delta_f := Some [("stride", VInt 100); ("filename", VStr "delta_f"); ("write-stride", VNone); ("fmt", VNone);
           ("state1-min", VFloats [Fin (-25 / 10)]); ("state1-max", VFloats [Fin 0]);
           ("state2-min", VFloats [Fin 0]); ("state2-max", VFloats [Fin (25 / 10)])];
  c_particle_distribution := None |}.

(** the example with misspelled options and sections *)
Definition with_typos : document :=
  (map (fun s => if String.eqb (fst s) "birth-death" then (fst s, (snd s ++ [("recalculate-probability", ["true"])])%list)
                 else if String.eqb (fst s) "trajectories" then (fst s, (snd s ++ [("write_stride", ["many"]); ("stride1", ["0"])])%list)
                 else s) example_document ++ [("particle-distributions", [("stride", ["-1"])])])%list.
(** a newline *)
Definition nl : string := String (ascii_of_nat 10) "".
