(** Vocabulary for the statements about bins and grids in binary64 numbers (C81, C82) *)
From Coq Require Import Reals Sorted.
From Verif Require Import Spec_f64 Spec_hist.
Open Scope R_scope.

(** the real numbers which the edges are *)
Definition vals (l : list f64) : list R := map (fun x => val x) l.

(** finite, strictly increasing edges of at least one bin *)
Definition f_edges_ok (e : list f64) : Prop := Forall finite e /\ edges_ok (vals e).

(** a sample lies in a cell: all coordinates are finite and in the bins (half open, the last one closed, see Spec_hist.v) *)
Definition f_in_cell (edges : list (list f64)) (idx : list nat) (s : list f64) : Prop :=
  Forall finite s /\ in_cell (map vals edges) idx (vals s).

(** a float64 that is the integer n *)
Definition is_count (x : f64) (n : nat) : Prop := finite x /\ val x = INR n.

(** smallest integer not below x *)
Definition is_ceil (x : R) (z : Z) : Prop := IZR z - 1 < x <= IZR z.
