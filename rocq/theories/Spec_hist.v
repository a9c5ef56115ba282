(** What histogram bins are: independent of the model *)
From Coq Require Import Reals List Sorted.
From Verif Require Import Spec_box.
Import ListNotations.
Open Scope R_scope.

(** strictly increasing edges of at least one bin *)
Definition edges_ok (e : list R) : Prop := StronglySorted Rlt e /\ (2 <= length e)%nat.

(** bin i of one dimension: half open, the last one closed *)
Definition in_bin (e : list R) (i : nat) (x : R) : Prop :=
  (S i < length e)%nat /\
  nth i e 0 <= x /\ (x < nth (S i) e 0 \/ (S (S i) = length e /\ x = nth (S i) e 0)).

(** cell with one bin number per dimension *)
Inductive in_cell : list (list R) -> list nat -> list R -> Prop :=
| in_cell_nil : in_cell [] [] []
| in_cell_cons e es i is x xs :
    in_bin e i x -> in_cell es is xs -> in_cell (e :: es) (i :: is) (x :: xs).

(** bin numbers of an existing cell *)
Definition cell_ok (edges : list (list R)) (idx : list nat) : Prop :=
  Forall2 (fun e i => (S i < length e)%nat) edges idx.

(** position of a cell in the flattened (row-major) data array: the last index is fastest *)
Fixpoint row_major (acc : nat) (edges : list (list R)) (idx : list nat) : nat :=
  match edges, idx with
  | e :: es, i :: is => row_major (acc * (length e - 1) + i) es is
  | _, _ => acc
  end.
Definition cell_pos (edges : list (list R)) (idx : list nat) : nat := row_major 0 edges idx.

(** number of cells *)
Fixpoint n_cells (edges : list (list R)) : nat :=
  match edges with [] => 1%nat | e :: es => ((length e - 1) * n_cells es)%nat end.

(** edges of n equal bins covering the range exactly *)
Definition uniform_edges (n : nat) (r : R * R) (e : list R) : Prop :=
  length e = S n /\ forall i, (i <= n)%nat -> nth i e 0 = fst r + INR i * ((snd r - fst r) / INR n).
