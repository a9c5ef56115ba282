(** Model of the warnings and log messages of the program: bdld/main.py:392-412 init_logger and the calls of print and
    logging that report a problem.  All other printed text is not modelled. *)
From Verif Require Export Model_main.
Open Scope string_scope.
Open Scope Z_scope.

(** "... is no multiple of ...": FES stride and histogram update stride (fes_action.py:76-79), FES write stride and FES
    stride (99), FES plot stride and FES stride (117), delta-f stride and FES stride (delta_f_action.py:56) *)
Inductive warning := WFesStride | WFesWriteStride | WFesPlotStride | WDeltaFStride.

(** [a and a % b != 0] for optional integers; with a missing or zero b the constructor has raised before *)
Definition no_multiple (a b : option Z) : bool :=
  match a, b with Some x, Some y => negb (x =? 0) && negb (x mod y =? 0) | _, _ => false end.

(** fes_action.py:74-79, 94-99, 112-117, in the order of the code *)
Definition fes_warnings (update : Z) (stride write_stride plot_stride : option Z) : list warning :=
  ((if no_multiple stride (Some update) then [WFesStride] else []) ++
   (if no_multiple write_stride stride then [WFesWriteStride] else []) ++
   (if no_multiple plot_stride stride then [WFesPlotStride] else []))%list.
(** delta_f_action.py:54-56 *)
Definition delta_f_warnings (stride : Z) (fes_stride : option Z) : list warning :=
  if negb (stride =? 0) && (negb (truthyZ fes_stride) || no_multiple (Some stride) fes_stride) then [WDeltaFStride] else [].

(** the warnings given while the actions of the world are set up (main.py:88-92) *)
Definition setup_warnings {rng} (w : world rng) : list warning :=
  (match w_hist w, w_fes w with
   | Some h, Some f => fes_warnings (ha_update h) (fa_stride f) (fa_wstride f) (fa_pstride f)
   | _, _ => []
   end ++
   match w_fes w, w_df w with
   | Some f, Some (_, r) => delta_f_warnings (rc_stride r) (fa_stride f)
   | _, _ => []
   end)%list.

(** levels of the logging module *)
Definition CRITICAL := 50.
Definition ERROR := 40.
Definition WARNING := 30.
Definition INFO := 20.
Definition DEBUG := 10.

(** main.py:397-410: the level of the root logger.  str.lower is modelled for ASCII; levels.get returns None for an unknown name,
    with which basicConfig leaves the level at WARNING.  A log record is shown if its level is not below. *)
Definition init_logger (level_str : string) : Z :=
  let levels := [("critical", CRITICAL); ("error", ERROR); ("warn", WARNING); ("warning", WARNING); ("info", INFO); ("debug", DEBUG)] in
  match assoc (lower level_str) levels with Some l => l | None => WARNING end.

(** log records: the message of main() before sys.exit(1) (main.py:62, 65, 99, 106), the warning of the FES action and the
    message about the reset of the histogram at a step (histogram_action.py:112) *)
Inductive record := LExit | LFesStride | LReset (step : Z).
Definition level_of (m : record) : Z := match m with LExit => ERROR | LFesStride => WARNING | LReset _ => INFO end.

(** records of action.run(step) *)
Definition run_log {rng} (w : world rng) (step : Z) (a : action) : list record :=
  match a, w_hist w with
  | AHistogram, Some h => if existsb (Z.eqb step) (ha_reset h) then [LReset step] else []
  | _, _ => []
  end.
(** records of the setup of the actions; only print is used for the other warnings *)
Definition setup_log {rng} (w : world rng) : list record :=
  if existsb (fun x => match x with WFesStride => true | _ => false end) (setup_warnings w) then [LFesStride] else [].
(** The log of a complete run: [None] if it ends with a traceback.  If the setup of a later section fails after a warning of
    the FES action, this warning is left out. *)
Definition main_log (e : env) (cv : conv) (file : option (res (list (string * section)))) : option (list record) :=
  match main e cv file with
  | Exit1 => Some [LExit]
  | Finished _ =>
      match read_input cv file with
      | Ok c =>
          match (do w <- setup_dynamics e c; do (acts, w) <- setup_actions e c w; do n <- v_int (get_dict (c_ld c) "n_steps"); Ok (acts, w, n)) with
          | Ok (acts, w, n) => Some (setup_log w ++ flat_map (fun step => flat_map (run_log w step) acts) (zrange 1 (n + 1)))%list
          | Err _ => None
          end
      | Err _ => None
      end
  | _ => None
  end.
(** what is written to the terminal with --log-level [level_str] *)
Definition shown (level_str : string) (log : list record) : list record := filter (fun m => init_logger level_str <=? level_of m) log.
