(** Model of bdld/actions/action.py *)
From Verif Require Export PyBase.

(** bdld/actions/action.py:27-83 [get_valid_data].
    [data] is the list of rows of the numpy array (rows are points in time);
    a returned "view" is modelled as the list of its rows.
    ZeroDivisionError is python's reaction to a modulo by zero. *)
Definition get_valid_data {A} (data : list A)
    (step stride update_stride last_write : Z) : res (list A) :=
  if step =? last_write then Ok []                                   (* 66-67 *)
  else
    let write_stride := Z.of_nat (length data) * update_stride in    (* 69 *)
    if write_stride =? 0 then Err ZeroDivisionError
    else
      let already_written := (last_write mod write_stride) / update_stride in (* 70 *)
      let last_element := (step mod write_stride) / update_stride in (* 71 *)
      if (stride =? update_stride) && (already_written =? 0) && (last_element =? 0)
      then Ok data                                                   (* 73-74 *)
      else if stride =? 0 then Err ZeroDivisionError
      else
        let first_element :=
          already_written + (stride / update_stride - 1)             (* 76-78 *)
          - (last_write mod stride) / update_stride in               (* 80 *)
        if last_element =? 0
        then py_slice data first_element None (stride / update_stride)       (* 81-82 *)
        else py_slice data first_element (Some last_element) (stride / update_stride). (* 83 *)
