(** Notions for C67 and C68: inputs that differ in their output sections or in the number of steps *)
From Verif Require Import PyBase Model_input Spec_main Spec_files.
Open Scope string_scope.
Open Scope list_scope.

(** both inputs have the same of these sections, with the same options *)
Definition same_sections (secs secs' : list (string * section)) (names : list string) : Prop :=
  forall name, In name names -> assoc name secs = assoc name secs'.
(** the sections that define the simulation *)
Definition simulation_sections : list string := ["ld"; "potential"; "particles"; "birth-death"].

(** the options of two inputs agree except for the number of steps *)
Record same_but_steps (c c' : config) : Prop := {
  sb_ld : forall key, key <> "n_steps" -> assoc key (c_ld c) = assoc key (c_ld c');
  sb_potential : c_potential c = c_potential c';
  sb_particles : c_particles c = c_particles c';
  sb_birth_death : c_birth_death c = c_birth_death c';
  sb_trajectories : c_trajectories c = c_trajectories c';
  sb_histogram : c_histogram c = c_histogram c';
  sb_fes : c_fes c = c_fes c';
  sb_delta_f : c_delta_f c = c_delta_f c';
  sb_particle_distribution : c_particle_distribution c = c_particle_distribution c' }.

(** inputs of the examples: the same simulation with one output more, and one with more steps *)
Definition running_more : list (string * section) :=
  demo1 [("birth-death", demo1_bd []); ("trajectories", [("filename", "traj"); ("stride", "1"); ("write-stride", "4")]);
         ("particle-distribution", [("stride", "1"); ("write-stride", "4"); ("filename", "dist"); ("state1-min", "0"); ("state1-max", "2")])].
Definition running_longer : list (string * section) :=
  [("ld", [("type", "overdamped"); ("timestep", "0.1"); ("n_steps", "100"); ("seed", "1")]); ("potential", demo1_pot "0,0,1");
   ("particles", demo1_particles); ("birth-death", demo1_bd []);
   ("trajectories", [("filename", "traj"); ("stride", "1"); ("write-stride", "4")])].
