(** Model of bdld/grid.py and of the numpy array operations it uses *)
From Verif Require Export Model_dyn.
Open Scope R_scope.

(** ** numpy arrays: shape and elements in row-major (C) order *)
Record arr (A : Type) := mkArr { a_shape : list nat; a_flat : list A }.
Arguments mkArr {A}. Arguments a_shape {A}. Arguments a_flat {A}.

Definition prod_list (l : list nat) : nat := fold_right Nat.mul 1%nat l.

(** all indices of an array in row-major order *)
Fixpoint indices (shape : list nat) : list (list nat) :=
  match shape with
  | [] => [[]]
  | n :: s => flat_map (fun i => map (cons i) (indices s)) (seq 0 n)
  end.

(** flat position of an index *)
Fixpoint ravel (acc : nat) (shape idx : list nat) : nat :=
  match shape, idx with
  | n :: s, i :: is => ravel (acc * n + i) s is
  | _, _ => acc
  end.

Definition a_at {A} (d : A) (a : arr A) (idx : list nat) : A := nth (ravel 0 (a_shape a) idx) (a_flat a) d.

(** numpy.reshape (C order) *)
Definition reshape {A} (a : arr A) (shape : list nat) : res (arr A) :=
  if Nat.eqb (length (a_flat a)) (prod_list shape) then Ok (mkArr shape (a_flat a)) else Err ValueError.

Definition arr_of_list {A} (l : list A) : arr A := mkArr [length l] l.

(** numpy broadcasting of two arrays; shapes and indices are handled in reversed order *)
Fixpoint bcast_rev (s1 s2 : list nat) : option (list nat) :=
  match s1, s2 with
  | [], s => Some s
  | s, [] => Some s
  | a :: s1', b :: s2' =>
      match bcast_rev s1' s2' with
      | None => None
      | Some s => if Nat.eqb a b then Some (a :: s)
                  else if Nat.eqb a 1 then Some (b :: s)
                  else if Nat.eqb b 1 then Some (a :: s)
                  else None
      end
  end.
Fixpoint clip_rev (shape idx : list nat) : list nat :=
  match shape, idx with
  | n :: s, i :: is => (if Nat.eqb n 1 then 0%nat else i) :: clip_rev s is
  | _, _ => []
  end.
Definition broadcast_op {A} (d : A) (op : A -> A -> A) (a b : arr A) : res (arr A) :=
  match bcast_rev (rev (a_shape a)) (rev (a_shape b)) with
  | None => Err ValueError
  | Some s =>
      let shape := rev s in
      let clip x idx := rev (clip_rev (rev (a_shape x)) (rev idx)) in
      Ok (mkArr shape (map (fun idx => op (a_at d a (clip a idx)) (a_at d b (clip b idx))) (indices shape)))
  end.

(** numpy.linspace(lo, hi, n) *)
Definition linspace (lo hi : R) (n : nat) : list R :=
  map (fun i => lo + INR i * ((hi - lo) / INR (n - 1))) (seq 0 n).

(** exchange of the first two entries (numpy.meshgrid, indexing='xy') *)
Definition swap01 {A} (l : list A) : list A :=
  match l with a :: b :: t => b :: a :: t | _ => l end.

(** np.array(np.meshgrid(axes)): shape and element function.  Array c of meshgrid has the
    value axes[c][i_c] where the first two dimensions of the arrays are exchanged. *)
Definition meshgrid_shape (axes : list (list R)) : list nat :=
  length axes :: swap01 (map (@length R) axes).
Definition meshgrid_at (axes : list (list R)) (idx : list nat) : R :=
  match idx with
  | [] => 0
  | c :: is => nth (nth c (swap01 is) 0%nat) (nth c axes []) 0
  end.

(** .T : all axes reversed *)
Definition transpose_shape (shape : list nat) : list nat := rev shape.
Definition transpose_at (at_ : list nat -> R) (idx : list nat) : R := at_ (rev idx).

(** array with shape (n, d) as list of its rows *)
Fixpoint rows_of {A} (n d : nat) (flat : list A) : list (list A) :=
  match n with
  | O => []
  | S n' => firstn d flat :: rows_of n' d (skipn d flat)
  end.

(** ** grid.py:17-35.  The data elements have an arbitrary type A (finite numbers or extended
    reals); [g_data] is np.empty(0) until it is set. *)
Record grid (A : Type) := mkGrid {
  g_data : arr A; g_ranges : list (R * R); g_npoints : list nat; g_steps : list R; g_ndim : nat }.
Arguments mkGrid {A}. Arguments g_data {A}. Arguments g_ranges {A}. Arguments g_npoints {A}.
Arguments g_steps {A}. Arguments g_ndim {A}.

(** grid.py:45-51 data.setter *)
Definition set_data {A} (g : grid A) (v : arr A) : res (grid A) :=
  do a <- reshape v (g_npoints g);
  Ok (mkGrid a (g_ranges g) (g_npoints g) (g_steps g) (g_ndim g)).

(** grid.py:140-144 axes; grids made by from_npoints/from_stepsizes have n_dim ranges and
    point numbers *)
Definition axes_of (ranges : list (R * R)) (n_points : list nat) : list (list R) :=
  map (fun rn => linspace (fst (fst rn)) (snd (fst rn)) (snd rn)) (combine ranges n_points).
Definition axes {A} (g : grid A) : list (list R) := axes_of (g_ranges g) (g_npoints g).

(** grid.py:146-150 points, from given axes:
    np.array(np.meshgrid(axes)).T.reshape(prod(n_points), n_dim) *)
Definition points_of (axes : list (list R)) (n_points : list nat) (n_dim : nat) : list vec :=
  let shape := transpose_shape (meshgrid_shape axes) in
  let flat := map (transpose_at (meshgrid_at axes)) (indices shape) in
  rows_of (prod_list n_points) n_dim flat.
Definition points {A} (g : grid A) : list vec := points_of (axes g) (g_npoints g) (g_ndim g).

(** grid.py:152-156 set_from_func *)
Definition set_from_func {A} (g : grid A) (f : vec -> A) : res (grid A) :=
  set_data g (arr_of_list (map f (points g))).

(** grid.py:255-263 stepsizes_from_npoints, for python floats (numpy floats give inf or nan
    instead of ZeroDivisionError) *)
Fixpoint stepsizes_from_npoints (ranges : list (R * R)) (n_points : list nat) : res (list R) :=
  match ranges, n_points with
  | [], _ => Ok []
  | _ :: _, [] => Err IndexError
  | r :: rs, n :: ns =>
      if Nat.eqb n 1 then Err ZeroDivisionError
      else do t <- stepsizes_from_npoints rs ns;
           Ok ((snd r - fst r) / (INR n - 1) :: t)
  end.

(** n_points argument: one number for all dimensions or a list *)
Inductive npts := NInt (n : nat) | NList (l : list nat).

(** grid.py:266-288 from_npoints *)
Definition from_npoints {A} (ranges : list (R * R)) (n_points : npts) : res (grid A) :=
  let n_dim := length ranges in
  let ns := match n_points with
            | NInt n => if Nat.eqb n_dim 1 then [n] else repeat n n_dim    (* 278-282 *)
            | NList l => l
            end in
  if negb (Nat.eqb (length ns) n_dim) then Err ValueError                   (* 283-284 *)
  else do st <- stepsizes_from_npoints ranges ns;                           (* 286 *)
       Ok (mkGrid (mkArr [0%nat] []) ranges ns st n_dim).

(** np.ceil *)
Definition Rceil (x : R) : Z := (- Int_part (- x))%Z.

Inductive stepsarg := SOne (s : R) | SList (l : list R).

(** grid.py:312-315 loop of from_stepsizes: ranges and point numbers.
    A division by a zero step raises ZeroDivisionError. *)
Fixpoint from_stepsizes_loop (ranges : list (R * R)) (steps : list R) (shrink : bool)
  : res (list (R * R) * list Z) :=
  match ranges, steps with
  | [], _ => Ok ([], [])
  | _ :: _, [] => Err IndexError
  | r :: rs, s :: ss =>
      if Req_EM_T s 0 then Err ZeroDivisionError
      else
        let n := (Rceil ((snd r - fst r) / s) + 1 - (if shrink then 1 else 0))%Z in  (* 313 *)
        do (rs', ns) <- from_stepsizes_loop rs ss shrink;
        Ok ((fst r, fst r + s * IZR (n - 1)) :: rs', n :: ns)                        (* 314-315 *)
  end.

(** grid.py:291-316 from_stepsizes.  The point numbers are python integers, only positive
    numbers give a usable grid; they are converted with Z.to_nat. *)
Definition from_stepsizes {A} (ranges : list (R * R)) (stepsizes : stepsarg) (shrink : bool)
  : res (grid A) :=
  let n_dim := length ranges in
  let ss := match stepsizes with
            | SOne s => if Nat.eqb n_dim 1 then [s] else repeat s n_dim
            | SList l => l
            end in
  do (rs, ns) <- from_stepsizes_loop ranges ss shrink;
  Ok (mkGrid (mkArr [0%nat] []) rs (map Z.to_nat ns) ss n_dim).

(** grid.py:158-160 copy_empty *)
Definition copy_empty {A B} (g : grid A) : res (grid B) := from_npoints (g_ranges g) (NList (g_npoints g)).

(** grid.py:115-118 _perform_math_on_self (neg, pos, exp, log) *)
Definition perform_math {A} (g : grid A) (f : A -> A) : res (grid A) :=
  do n <- copy_empty g;
  set_data n (mkArr (a_shape (g_data g)) (map f (a_flat (g_data g)))).

(** second operand of arithmetic operations (grid.py:14) *)
Inductive operand (A : Type) := ONum (x : A) | OArr (a : arr A) | OGrid (g : grid A) | OOther.
Arguments ONum {A}. Arguments OArr {A}. Arguments OGrid {A}. Arguments OOther {A}.

Definition ranges_eqb (r1 r2 : list (R * R)) : bool :=
  if list_eq_dec (fun a b : R * R =>
        match Req_EM_T (fst a) (fst b), Req_EM_T (snd a) (snd b) with
        | left p, left q =>
            left (match a, b return fst a = fst b -> snd a = snd b -> a = b with
                  | (a1, a2), (b1, b2) => fun p q => f_equal2 pair p q
                  end p q)
        | right n, _ => right (fun E => n (f_equal fst E))
        | _, right n => right (fun E => n (f_equal snd E))
        end) r1 r2 then true else false.
Definition npoints_eqb (n1 n2 : list nat) : bool :=
  if list_eq_dec Nat.eq_dec n1 n2 then true else false.

(** grid.py:61-62 *)
Definition same_points {A B} (g : grid A) (h : grid B) : bool :=
  npoints_eqb (g_npoints g) (g_npoints h) && ranges_eqb (g_ranges g) (g_ranges h).

(** grid.py:64-67 __eq__ with another grid; np.array_equal compares shapes and elements with the
    comparison [eqb] of the elements *)
Fixpoint all_equal {A} (eqb : A -> A -> bool) (l1 l2 : list A) : bool :=
  match l1, l2 with
  | [], [] => true
  | x :: l1', y :: l2' => eqb x y && all_equal eqb l1' l2'
  | _, _ => false
  end.
Definition grid_eq {A} (eqb : A -> A -> bool) (g h : grid A) : bool :=
  same_points g h &&
  (npoints_eqb (a_shape (g_data g)) (a_shape (g_data h)) && all_equal eqb (a_flat (g_data g)) (a_flat (g_data h))).

(** grid.py:120-138 _perform_arithmetic_operation.  [d] is only used for reading outside of
    an array, which does not happen. *)
Definition perform_arithmetic {A} (d : A) (g : grid A) (other : operand A) (op : A -> A -> A)
  : res (grid A) :=
  do n <- copy_empty g;                                                     (* 123 *)
  match other with
  | ONum x => set_data n (mkArr (a_shape (g_data g)) (map (fun y => op y x) (a_flat (g_data g))))
  | OArr a => do r <- broadcast_op d op (g_data g) a; set_data n r          (* 124-125 *)
  | OGrid h =>
      if negb (npoints_eqb (g_npoints g) (g_npoints h)) || negb (ranges_eqb (g_ranges g) (g_ranges h))
      then Err ValueError                                                   (* 127-132 *)
      else do r <- broadcast_op d op (g_data g) (g_data h); set_data n r    (* 133 *)
  | OOther => Err ValueError                                                (* 134-137 *)
  end.

(** ** grid.py:215-252 convolve *)
Inductive convmode := MSame | MValid | MFull.

(** sum of a list *)
Definition rsum (l : list R) : R := fold_right Rplus 0 l.

(** index i + off - j per dimension; [None] if negative or outside of the shape *)
Fixpoint conv_index (shape i off j : list nat) : option (list nat) :=
  match shape, i, off, j with
  | [], [], [], [] => Some []
  | n :: s, a :: i', o :: off', b :: j' =>
      if (Nat.leb b (a + o) && Nat.ltb (a + o - b) n)%bool
      then match conv_index s i' off' j' with
           | Some t => Some ((a + o - b)%nat :: t)
           | None => None
           end
      else None
  | _, _, _, _ => None
  end.

(** element i of the convolution of a and b, where [off] is the start of the output in the
    full convolution (per dimension) *)
Definition conv_at (a b : arr R) (off i : list nat) : R :=
  rsum (map (fun j => match conv_index (a_shape a) i off j with
                      | Some k => a_at 0 a k * a_at 0 b j
                      | None => 0
                      end) (indices (a_shape b))).

Definition all_ge (s1 s2 : list nat) : bool :=
  Nat.eqb (length s1) (length s2) && forallb (fun p => Nat.leb (snd p) (fst p)) (combine s1 s2).

(** scipy.signal.convolve: 'same' is centered with the shape of the first argument,
    'valid' only where the smaller array lies completely inside the larger one (ValueError
    if neither is at least as large in all dimensions), the arguments may be exchanged.
    The result does not depend on the method ("direct", "fft", "auto") over the reals. *)
Definition signal_convolve (a b : arr R) (m : convmode) : res (arr R) :=
  if negb (Nat.eqb (length (a_shape a)) (length (a_shape b))) then Err ValueError else
  match m with
  | MSame =>
      let off := map (fun n => ((n - 1) / 2)%nat) (a_shape b) in
      Ok (mkArr (a_shape a) (map (conv_at a b off) (indices (a_shape a))))
  | MFull =>
      let s := map (fun p => (fst p + snd p - 1)%nat) (combine (a_shape a) (a_shape b)) in
      Ok (mkArr s (map (conv_at a b (map (fun _ => 0%nat) s)) (indices s)))
  | MValid =>
      let valid l s :=
        let shape := map (fun p => (fst p - snd p + 1)%nat) (combine (a_shape l) (a_shape s)) in
        Ok (mkArr shape (map (conv_at l s (map (fun n => (n - 1)%nat) (a_shape s))) (indices shape))) in
      if all_ge (a_shape a) (a_shape b) then valid a b
      else if all_ge (a_shape b) (a_shape a) then valid b a
      else Err ValueError
  end.

Definition prod_R (l : list R) : R := fold_right Rmult 1 l.

(** python comparison of lists: lexicographic *)
Fixpoint list_ltb (l1 l2 : list nat) : bool :=
  match l1, l2 with
  | _, [] => false
  | [], _ :: _ => true
  | a :: t1, b :: t2 => if Nat.ltb a b then true else if Nat.eqb a b then list_ltb t1 t2 else false
  end.

(** 240-247: points and ranges of the valid convolution of a larger and a smaller grid *)
Fixpoint valid_ranges (rl : list (R * R)) (ns : list nat) (steps : list R) : list (R * R) :=
  match rl, ns, steps with
  | r :: rl', n :: ns', s :: steps' =>
      let offset := (INR n - 1) / 2 * s in
      (fst r + offset, snd r - offset) :: valid_ranges rl' ns' steps'
  | _, _, _ => []
  end.

Definition steps_eqb (s1 s2 : list R) : bool := if list_eq_dec Req_EM_T s1 s2 then true else false.

Definition convolve (g1 g2 : grid R) (m : convmode) : res (grid R) :=
  if negb (steps_eqb (g_steps g1) (g_steps g2)) then Err ValueError         (* 228-229 *)
  else
    do c <- signal_convolve (g_data g1) (g_data g2) m;                      (* 233-235 *)
    let conv := mkArr (a_shape c) (map (fun x => x * prod_R (g_steps g1)) (a_flat c)) in
    match m with
    | MSame => do g <- copy_empty g1; set_data g conv                       (* 237-238 *)
    | MValid =>
        (* sorted() is stable *)
        let (gs, gl) := if list_ltb (g_npoints g2) (g_npoints g1) then (g2, g1) else (g1, g2) in
        let ns := map (fun p => (fst p - snd p + 1)%nat) (combine (g_npoints gl) (g_npoints gs)) in
        let rs := valid_ranges (g_ranges gl) (g_npoints gs) (g_steps g1) in
        do g <- from_npoints rs (NList ns); set_data g conv                 (* 239-251 *)
    | MFull => Err NotImplementedError                                      (* 249-250 *)
    end.

(** ** interpolation: scipy.interpolate.griddata is an unspecified function of the grid
    points, the values, the requested points and the fill value *)
Definition griddata_t (A : Type) := list vec -> list A -> list vec -> A -> list A.

(** grid.py:162-181 interpolate *)
Definition interpolate {A} (gd : griddata_t A) (g : grid A) (pts : list vec) (fill : A) : list A :=
  gd (points g) (a_flat (g_data g)) pts fill.

(** grid.py:319-335 sparsify; max_points[i] raises IndexError if too short *)
Fixpoint min_points (ns max_points : list nat) : res (list nat) :=
  match ns, max_points with
  | [], _ => Ok []
  | _ :: _, [] => Err IndexError
  | n :: ns', m :: ms => do t <- min_points ns' ms; Ok ((if Nat.leb n m then n else m) :: t)
  end.
Definition sparsify {A} (gd : griddata_t A) (nan : A) (g : grid A) (max_points : list nat) : res (grid A) :=
  do ns <- min_points (g_npoints g) max_points;
  do s <- from_npoints (g_ranges g) (NList ns);
  set_data s (arr_of_list (interpolate gd g (points s) nan)).
