(** Notions for C69 and C70 *)
From Verif Require Import PyBase Model_dyn Model_bd.
Open Scope R_scope.

(** the same birth-death parameters without correction *)
Definition original (par : bdpar) : bdpar :=
  mkBD (bd_stride par) (bd_dt par) (bd_bw par) (bd_kt par) (bd_rate par) (bd_recalc par) VOrig None (bd_stats_stride par) (bd_to_file par).
