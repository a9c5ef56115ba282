(** Interpolation contract used for the grids of the corrections *)
From Coq Require Import Reals List.
From Verif Require Import Model_grid.
Import ListNotations.

(** scipy's griddata returns one value per requested point, and the value itself at a point of
    the data (the points of the data being different) *)
Definition griddata_exact {A} (gd : griddata_t A) : Prop :=
  forall pts vals qs fill,
    length (gd pts vals qs fill) = length qs /\
    (NoDup pts -> length vals = length pts ->
     forall j k d, (j < length pts)%nat -> (k < length qs)%nat -> nth j pts [] = nth k qs [] ->
       nth k (gd pts vals qs fill) d = nth j vals d).

(** an interpolation with this contract: the fill value everywhere else *)
Fixpoint lookup_value {A} (pts : list (list R)) (vals : list A) (q : list R) (fill : A) : A :=
  match pts, vals with
  | p :: pts', v :: vals' => if list_eq_dec Req_EM_T p q then v else lookup_value pts' vals' q fill
  | _, _ => fill
  end.
Definition lookup_griddata {A} : griddata_t A := fun pts vals qs fill => map (fun q => lookup_value pts vals q fill) qs.
