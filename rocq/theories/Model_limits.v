(** Model of the solver limits of a builder: recourse/builder.py (24-31, 220-271, 524-550, 584-587, 627-629,
    965, 1095-1102) and cplex_helper.py (404-443).
    Not modelled: what a solver does with its limits (Model_mip.v allows any outcome), and the console output that
    the display flag switches on.  float(value) of integers too large for a float is not modelled. *)
From Verif Require Export Py Model_mip Model_builder.
#[local] Open Scope list_scope.
#[local] Open Scope Qc_scope.

(** The limits stored in a solver object (Cplex(): timelimit and mip.limits.nodes; mip.Model(): max_seconds and
    max_nodes). *)
Record solver_limits := { sl_time : fl; sl_nodes : Z }.
(** Facts about the solver library: the largest values of the two CPLEX parameters, and the limits of a newly
    built solver object (for CPLEX after set_cpx_parameters, 803 and cplex_helper.py:334-338). *)
Record lib := { lib_max_time : Qc; lib_max_nodes : Z; lib_start : solver_limits }.
(** The attributes _mip_time_limit and _mip_node_limit (None: never assigned) and the limits of the object _mip
    (None: no mip yet).  _mip_node_limit may hold the display flag, a bool (271). *)
Record limstate := { li_time : option fl; li_node : option pyval; li_mip : option solver_limits }.
Definition with_ltime s v := {| li_time := v; li_node := li_node s; li_mip := li_mip s |}.
Definition with_lnode s v := {| li_time := li_time s; li_node := v; li_mip := li_mip s |}.
Definition with_lmip s v := {| li_time := li_time s; li_node := li_node s; li_mip := v |}.

(** 237-242 / 249-254: None, or a float or int (bools are ints) that is > 0; the result is the float stored. *)
Definition parse_limit (v : pyval) : res fl :=
  match v with
  | PNone => Ok PosInf
  | PBool b => if b then Ok (Fin 1) else Err ValueError
  | PInt z => if (0 <? z)%Z then Ok (Fin (qz z)) else Err ValueError
  | PFloat (Fin q) => if 0 <? q then Ok (Fin q) else Err ValueError
  | PFloat PosInf => Ok PosInf
  | _ => Err ValueError
  end.
(** cplex_helper.py:404-421, and 1095-1096 *)
Definition put_time (k : backend) (L : lib) (v : fl) (m : solver_limits) : solver_limits :=
  let v' := match k with
            | CPX => match v with Fin q => if lib_max_time L <? q then Fin (lib_max_time L) else Fin q | _ => Fin (lib_max_time L) end
            | PyMIP => v end in
  {| sl_time := v'; sl_nodes := sl_nodes m |}.
(** cplex_helper.py:424-443, and 1098-1102: Python-MIP keeps the current limit when asked for none. *)
Definition put_nodes (k : backend) (L : lib) (v : fl) (m : solver_limits) : solver_limits :=
  let n := match k, v with
           | CPX, Fin q => Z.min (qtrunc q) (lib_max_nodes L)
           | CPX, _ => lib_max_nodes L
           | PyMIP, Fin q => qtrunc q
           | PyMIP, _ => sl_nodes m end in
  {| sl_time := sl_time m; sl_nodes := n |}.

(** 235-244 *)
Definition set_time_limit (k : backend) (L : lib) (s : limstate) (v : pyval) : limstate * res unit :=
  match parse_limit v with
  | Err e => (s, Err e)
  | Ok f => match li_mip s with
            | None => (s, Err ValueError)
            | Some m => (with_ltime (with_lmip s (Some (put_time k L f m))) (Some f), Ok tt)
            end
  end.
(** 247-256 *)
Definition set_node_limit (k : backend) (L : lib) (s : limstate) (v : pyval) : limstate * res unit :=
  match parse_limit v with
  | Err e => (s, Err e)
  | Ok f => match li_mip s with
            | None => (s, Err ValueError)
            | Some m => (with_lnode (with_lmip s (Some (put_nodes k L f m))) (Some (PFloat f)), Ok tt)
            end
  end.
(** 259-271: the flag is stored in _mip_node_limit.  The default of the flag is True (29). *)
Definition set_display (s : limstate) (v : pyval) : limstate * res unit :=
  match v with
  | PNone | PBool _ => match li_mip s with
                       | None => (s, Err ValueError)
                       | Some _ => (with_lnode s (Some (PBool match v with PBool b => b | _ => true end)), Ok tt)
                       end
  | _ => (s, Err ValueError)
  end.
(** 220-232: getters.  _mip_display_flag is never assigned. *)
Definition get_time_limit (s : limstate) : res fl := of_option AttributeError (li_time s).
Definition get_node_limit (s : limstate) : res pyval := of_option AttributeError (li_node s).
Definition get_display (s : limstate) : res pyval := Err AttributeError.

(** 535-540 / 576-587: what fit and populate do before they call the solver.  All solver calls they make run with
    the limits that the solver object has then. *)
Definition apply_limits (k : backend) (L : lib) (s : limstate) (time node display : pyval) : limstate * res unit :=
  match li_mip s with
  | None => (s, Err AssertionError)
  | Some _ =>
      match set_display s display with
      | (s1, Err e) => (s1, Err e)
      | (s1, Ok _) =>
          match set_time_limit k L s1 time with
          | (s2, Err e) => (s2, Err e)
          | (s2, Ok _) => set_node_limit k L s2 node
          end
      end
  end.
(** 89-103 and 636-806 / 971-1091: a successful assignment of x builds a new solver object; a failing one keeps the
    old one. *)
Definition rebuild (L : lib) (s : limstate) : limstate := with_lmip s (Some (lib_start L)).
Definition new_limits : limstate := {| li_time := None; li_node := None; li_mip := None |}.
