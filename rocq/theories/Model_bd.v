(** Model of bdld/actions/birth_death.py (class BirthDeath and the density functions; the
    grid functions are in Model_corr.v) *)
From Verif Require Export Model_dyn Model_grid Model_corr.
Open Scope R_scope.

(** birth_death.py:16-34 *)
Inductive variant := VOrig | VAdd | VMult.

(** np.mean of a non-empty array *)
Definition mean (l : list R) : R := rsum l / INR (length l).

(** ** densities *)
(** birth_death.py:429-446 _walker_density_manual *)
Definition vsub : vec -> vec -> vec := vmap2 Rminus.
Definition walker_density_manual (pos : list vec) (bw : vec) : list R :=
  map (fun p => mean (calc_kernel (map (vsub p) pos) bw)) pos.

(** scipy.spatial.distance.pdist(x, "sqeuclidean"): condensed distance matrix, i.e. the rows of
    the upper triangle without the diagonal one after another *)
Definition sqeuclidean (a b : vec) : R := rsum (map (fun d => d ^ 2) (vsub a b)).
Fixpoint pdist (pos : list vec) : list R :=
  match pos with
  | [] => []
  | p :: t => map (sqeuclidean p) t ++ pdist t
  end.
(** position of the pair i < j of n points in the condensed matrix *)
Fixpoint condensed_index (n i j : nat) : nat :=
  match i, n, j with
  | O, _, S j' => j'
  | S i', S n', S j' => (n' + condensed_index n' i' j')%nat
  | _, _, _ => 0%nat
  end.
(** scipy.spatial.distance.squareform followed by np.fill_diagonal(., diag): entry (i, j) *)
Definition squareform_at (v : list R) (n : nat) (diag : R) (i j : nat) : R :=
  if Nat.eqb i j then diag
  else if Nat.ltb i j then nth (condensed_index n i j) v 0 else nth (condensed_index n j i) v 0.
(** np.mean(matrix, axis=0) of an n x n matrix *)
Definition column_means (n : nat) (m : nat -> nat -> R) : list R :=
  map (fun j => mean (map (fun i => m i j) (seq 0 n))) (seq 0 n).

(** x[i] of an array *)
Definition at_ (l : vec) (i : nat) : res R :=
  match nth_error l i with Some x => Ok x | None => Err IndexError end.

(** birth_death.py:449-481 _walker_density_pdist.  [pos.shape[1]] raises IndexError without
    walkers.  All positions have the same number of coordinates. *)
Definition walker_density_pdist (pos : list vec) (bw : vec) : res (list R) :=
  match pos with
  | [] => Err IndexError
  | p0 :: _ =>
      let n := length pos in
      let n_dim := length p0 in
      if Nat.eqb n_dim 1 then                                                 (* 465-470 *)
        do b0 <- at_ bw 0;
        let height := 1 / (sqrt (2 * PI) * b0) in
        let gauss := map (fun d => height * exp (- d / (2 * b0 ^ 2))) (pdist pos) in
        Ok (column_means n (squareform_at gauss n height))
      else                                                                    (* 471-480 *)
        let heights := map (fun b => 1 / (sqrt (2 * PI) * b)) bw in
        do per_dim <- mapM (fun i =>
            do hi <- at_ heights i; do bi <- at_ bw i;
            let dist := pdist (map (fun p => [nth i p 0]) pos) in
            Ok (map (fun d => hi * exp (- d / (2 * bi ^ 2))) dist)) (seq 0 n_dim);
        let gauss := fold_right (vmap2 Rmult) (repeat 1 (n * (n - 1) / 2)) per_dim in
        Ok (column_means n (squareform_at gauss n (prod_R heights)))
  end.

(** birth_death.py:413-426 walker_density *)
Definition walker_density (pos : list vec) (bw : vec) : res (list R) :=
  if (Z.of_nat (length pos) <=? 10000)%Z then walker_density_pdist pos bw
  else Ok (walker_density_manual pos bw).

(** ** birth_death.py:57-137: attributes *)
Record bdpar := mkBD {
  bd_stride : Z; bd_dt : R; bd_bw : vec; bd_kt : R; bd_rate : R; bd_recalc : bool;
  bd_variant : variant; bd_grid : option (grid R); bd_stats_stride : option Z;
  bd_to_file : bool }.

Definition orR (o : option R) (d : R) : R :=
  match o with Some x => if Req_EM_T x 0 then d else x | None => d end.

(** birth_death.py:57-137 __init__ without seeding of the generator and statistics file *)
Definition bd_init (gd : griddata_t R) (nan : R) (md_dt : R) (stride : Z) (bw : vec) (kt : R)
    (rate_fac : option R) (recalc : bool) (var : option variant) (eq_density : option (grid R))
    (stats_stride : option Z) (to_file : bool) : res bdpar :=
  if Req_EM_T kt 0 then Err ZeroDivisionError                                 (* 93 *)
  else
    let v := match var with Some v => v | None => VOrig end in                (* 112 *)
    let mk g := Ok (mkBD stride (md_dt * IZR stride) bw kt (orR rate_fac 1) recalc v g
                         stats_stride to_file) in
    match v with
    | VOrig => mk None                                                        (* 114-115 *)
    | VAdd => match eq_density with                                           (* 116-124 *)
              | None => Err ValueError
              | Some d => do g <- calc_additive_correction gd nan d bw MSame; mk (Some g)
              end
    | VMult => match eq_density with                                          (* 125-136 *)
               | None => Err ValueError
               | Some d => do g <- multiplicative_grid gd nan d bw; mk (Some g)
               end
    end.

(** subtract the mean, birth_death.py:234 and 243.  Over the reals the densities are positive
    (theorem C21), so no rate is -inf and nothing is filtered. *)
Definition center (beta : list R) : list R := let m := mean beta in map (fun b => b - m) beta.

(** self.approx_grid.interpolate(pos, "linear", 0.0).reshape(len(pos)) *)
Definition interpolated (gd : griddata_t R) (par : bdpar) (pos : list vec) : res (list R) :=
  match bd_grid par with
  | None => Err TypeError  (* does not happen: bd_init sets the grid of these variants *)
  | Some g => let c := interpolate gd g pos 0 in
              if Nat.eqb (length c) (length pos) then Ok c else Err ValueError
  end.

(** birth_death.py:222-244 calc_betas *)
Definition calc_betas (gd : griddata_t R) (par : bdpar) (ps : list particle) : res (list R) :=
  let pos := map p_pos ps in
  do dens <- walker_density pos (bd_bw par);
  let beta := map ln dens in
  match bd_variant par with
  | VOrig =>
      Ok (center (vadd beta (map (fun p => p_energy p * (1 / bd_kt par)) ps)))
  | VAdd =>
      let beta := center (vadd beta (map (fun p => p_energy p * (1 / bd_kt par)) ps)) in
      do c <- interpolated gd par pos; Ok (vadd beta c)
  | VMult =>
      do c <- interpolated gd par pos; Ok (center (vadd beta c))
  end.

(** birth_death.py:246-256 random_other; rng.integers(n) raises ValueError for n <= 0 *)
Definition random_other (rng : rng_if) (num_part excl : nat) (g : rng_st rng)
  : res (nat * rng_st rng) :=
  if Nat.leb num_part 1 then Err ValueError
  else let (num, g') := r_integers rng (num_part - 1) g in
       Ok (if Nat.leb excl num then S num else num, g').

(** birth_death.py:258-264 perform_moves: events (dup, kill) one after another.
    deepcopy gives the values of the duplicated walker (sharing is treated in Model_heap.v). *)
Definition perform_move (ps : list particle) (ev : nat * nat) : res (list particle) :=
  match nth_error ps (fst ev) with
  | None => Err IndexError
  | Some p => if Nat.ltb (snd ev) (length ps) then Ok (set_nth ps (snd ev) p) else Err IndexError
  end.
Definition perform_moves (ps : list particle) (evs : list (nat * nat)) : res (list particle) :=
  foldM perform_move evs ps.

(** birth_death.py:299-320 Stats: counters *)
Record stats := mkStats { dup_count : nat; dup_attempts : nat; kill_count : nat; kill_attempts : nat }.
Definition stats0 : stats := mkStats 0 0 0 0.
Definition add_kill (s : stats) := mkStats (dup_count s) (dup_attempts s) (S (kill_count s)) (kill_attempts s).
Definition add_dup (s : stats) := mkStats (S (dup_count s)) (dup_attempts s) (kill_count s) (kill_attempts s).
Definition add_attempts (s : stats) (d k : nat) :=
  mkStats (dup_count s) (dup_attempts s + d)%nat (kill_count s) (kill_attempts s + k)%nat.

(** comparisons of numbers *)
Definition gtb (x y : R) : bool := if Rlt_dec y x then true else false.
Definition ltb (x y : R) : bool := if Rlt_dec x y then true else false.
Definition leb (x y : R) : bool := if Rle_dec x y then true else false.

(** birth_death.py:178, 206 *)
Definition event_prob (par : bdpar) (beta : R) : R := 1 - exp (- Rabs beta * bd_dt par * bd_rate par).

(** np.where(mask)[0] *)
Definition where_true (mask : list bool) : list nat :=
  filter (fun i => nth i mask false) (seq 0 (length mask)).

Definition memb (i : nat) (l : list nat) : bool := existsb (Nat.eqb i) l.

(** birth_death.py:181-191 loop over the shuffled event particles: kill and dup lists, counters *)
Fixpoint bulk_loop (rng : rng_if) (n : nat) (beta : list R) (is_ : list nat)
    (dup_list kill_list : list nat) (s : stats) (g : rng_st rng)
  : res (list nat * list nat * stats * rng_st rng) :=
  match is_ with
  | [] => Ok (dup_list, kill_list, s, g)
  | i :: rest =>
      if memb i kill_list then bulk_loop rng n beta rest dup_list kill_list s g
      else
        do (other, g') <- random_other rng n i g;
        do b <- at_ beta i;
        if gtb b 0
        then bulk_loop rng n beta rest (dup_list ++ [other]) (kill_list ++ [i]) (add_kill s) g'
        else bulk_loop rng n beta rest (dup_list ++ [i]) (kill_list ++ [other]) (add_dup s) g'
  end.

(** state changed by a birth-death step: walkers, generator and counters *)
Record bdst (rng : rng_if) := mkBS { bs_ps : list particle; bs_rng : rng_st rng; bs_stats : stats }.
Arguments mkBS {rng}. Arguments bs_ps {rng}. Arguments bs_rng {rng}. Arguments bs_stats {rng}.

(** birth_death.py:168-195, bulk mode *)
Definition bd_bulk (rng : rng_if) (par : bdpar) (beta rand : list R) (st : bdst rng)
  : res (list (nat * nat) * bdst rng) :=
  let n := length (bs_ps st) in
  let kills := length (filter (fun b => gtb b 0) beta) in                     (* 170-172 *)
  let s := add_attempts (bs_stats st) (n - kills) kills in
  let mask := map (fun br => leb (snd br) (event_prob par (fst br))) (combine beta rand) in
  let ev := where_true mask in                                                (* 178-179 *)
  let (ev, g) := r_shuffle rng ev (bs_rng st) in                              (* 180 *)
  do (dups, kills, s, g) <- bulk_loop rng n beta ev [] [] s g;
  let event_list := combine dups kills in                                     (* 194 *)
  do ps <- perform_moves (bs_ps st) event_list;
  Ok (event_list, mkBS ps g s).

(** birth_death.py:201-217, loop of the mode that recalculates.  [curr] is the local variable
    curr_event: it keeps its value if the rate is exactly zero and is unbound at first. *)
Fixpoint recalc_loop (rng : rng_if) (gd : griddata_t R) (par : bdpar) (n : nat) (rand : list R)
    (is_ : list nat) (beta : list R) (curr : option (nat * nat)) (events : list (nat * nat))
    (st : bdst rng) : res (list (nat * nat) * bdst rng) :=
  match is_ with
  | [] => Ok (events, st)
  | i :: rest =>
      do b <- at_ beta i;
      do r <- at_ rand i;
      let s := bs_stats st in
      let s := if gtb b 0 then add_attempts s 0 1 else s in                   (* 202-203 *)
      let s := if ltb b 0 then add_attempts s 1 0 else s in                   (* 204-205 *)
      if leb r (event_prob par b) then                                        (* 207-208 *)
        do (other, g) <- random_other rng n i (bs_rng st);                    (* 209 *)
        let '(curr, s) :=
          if gtb b 0 then (Some (i, other), add_kill s)                       (* 210-212 *)
          else if ltb b 0 then (Some (other, i), add_dup s)                   (* 213-215 *)
          else (curr, s) in
        match curr with
        | None => Err UnboundLocalError
        | Some ev =>
            do ps <- perform_moves (bs_ps st) [ev];
            do beta <- calc_betas gd par ps;
            recalc_loop rng gd par n rand rest beta curr (events ++ [ev]) (mkBS ps g s)
        end
      else recalc_loop rng gd par n rand rest beta curr events (mkBS (bs_ps st) (bs_rng st) s)
  end.

(** birth_death.py:154-219 do_birth_death *)
Definition do_birth_death (rng : rng_if) (gd : griddata_t R) (par : bdpar) (st : bdst rng)
  : res (list (nat * nat) * bdst rng) :=
  let n := length (bs_ps st) in
  do beta <- calc_betas gd par (bs_ps st);                                    (* 165 *)
  let (rand, g) := r_random rng n (bs_rng st) in                              (* 166 *)
  let st := mkBS (bs_ps st) g (bs_stats st) in
  if negb (bd_recalc par) then bd_bulk rng par beta rand st
  else
    let (is_, g) := r_shuffle rng (seq 0 n) (bs_rng st) in                    (* 198-199 *)
    recalc_loop rng gd par n rand is_ beta None [] (mkBS (bs_ps st) g (bs_stats st)).

(** ** Stats.print, birth_death.py:342-394: one record per call, appended to the file or
    printed.  The percentages and ratios of the screen output are [None] (nan) for a zero
    denominator. *)
Record report := mkRep { rep_step : Z; rep_stats : stats;
  rep_screen : option (option R * option R * option R * option R) }.
Definition ratio (c : R) (a b : nat) : option R :=
  if Nat.eqb b 0 then None else Some (c * INR a / INR b).
Definition stats_print (to_file : bool) (step : Z) (s : stats) : report :=
  mkRep step s (if to_file then None
    else Some (ratio 100 (kill_count s) (kill_attempts s), ratio 100 (dup_count s) (dup_attempts s),
               ratio 1 (dup_count s) (kill_count s), ratio 1 (dup_attempts s) (kill_attempts s))).

(** birth_death.py:139-147 run; step % 0 raises ZeroDivisionError *)
Definition bd_run (rng : rng_if) (gd : griddata_t R) (par : bdpar) (step : Z)
    (st : bdst rng * list report) : res (bdst rng * list report) :=
  let (s, out) := st in
  if (bd_stride par =? 0)%Z then Err ZeroDivisionError else
  do s' <- (if (step mod bd_stride par =? 0)%Z
            then do (_, s') <- do_birth_death rng gd par s; Ok s' else Ok s);
  match bd_stats_stride par with
  | Some k => if (k =? 0)%Z then Ok (s', out)
              else if (step mod k =? 0)%Z
              then Ok (s', out ++ [stats_print (bd_to_file par) step (bs_stats s')])
              else Ok (s', out)
  | None => Ok (s', out)
  end.

(** birth_death.py:149-152 final_run *)
Definition bd_final_run (rng : rng_if) (par : bdpar) (step : Z) (st : bdst rng * list report)
  : bdst rng * list report :=
  if truthyZ (bd_stats_stride par) then st
  else (fst st, snd st ++ [stats_print (bd_to_file par) step (bs_stats (fst st))]).
