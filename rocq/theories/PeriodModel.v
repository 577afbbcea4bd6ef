(** Model of time-periodic fields whose data end before the period does: the frame added at the end.

    Sources: parcels/field.py 147-156, 169-171 (Field.__init__), 1080-1099 (eval); parcels/grid.py 273, 400 (tdim); parcels/include/parcels.h
    485-511; index_search.h 433-458.

    Simplifications: those of TimeModel; np.isclose is equality. Fields that are not deferred. *)
From Coq Require Import List ZArith Bool QArith Qround.
From Verif Require Import IdxModel TimeModel.
Import ListNotations.
Open Scope Z_scope.

(** field.py 150-156: grid.time of a field with a period; None is ValueError. grid.tdim stays the number of times given: grid.py 273
    (400) sets it when the grid is made. *)
Definition periodic_times (period : Q) (given : list Q) : option (list Q) :=
  match pyget given 0, pyget given (-1) with
  | Some t0, Some tn =>
      if Qeq_bool (tn - t0) period then Some given
      else if qlt period (tn - t0) then None
      else Some (given ++ [t0 + period])%Q
  | _, _ => None
  end.
(** 170-171: frame [n] of the data, the first again after the last. *)
Definition frame_or_first (given : list Q) (v : Z -> ires) (n : Z) : ires := if n =? zlen given then v 0 else v n.

(** 1080-1099, with grid.tdim apart from the length of grid.time. *)
Definition py_eval_tdim (tdim : Z) (tm : list Q) (v : Z -> ires) (time : Q) : ires :=
  match pyget tm 0, pyget tm (-1) with
  | Some f0, Some fn =>
      match py_time_index true false tm f0 fn time with
      | TExtrap => IExtrap
      | TBad => IBad
      | TAt ti periods =>
          let time' := (time - inject_Z periods * (fn - f0))%Q in
          match pyget tm ti with
          | None => IBad
          | Some t0 =>
              if (ti <? tdim - 1) && qlt t0 time' then
                match pyget tm (ti + 1) with
                | None => IBad
                | Some t1 =>
                    match v ti with
                    | IVal q0 => match v (ti + 1) with IVal q1 => IVal (lin q0 q1 t0 t1 time') | e => e end
                    | e => e
                    end
                end
              else v ti
          end
      end
  | _, _ => IBad
  end.
(** Sampling a field of [given] times and period [period] at [time]. None: the field cannot be made. *)
Definition py_period (period : Q) (given : list Q) (v : Z -> ires) (time : Q) : option ires :=
  match periodic_times period given with
  | None => None
  | Some tm => Some (py_eval_tdim (zlen given) tm (frame_or_first given v) time)
  end.
(** parcels.h 485-511 with grid->tdim the number of times given; tfull_max is the last of grid.time_full (field.py 156). The times after
    the first tdim are not looked at. *)
Definition c_period (k : nat) (period : Q) (given : list Q) (v : Z -> ires) (time : Q) (ti0 : Z) : option ires :=
  match periodic_times period given with
  | None => None
  | Some tm =>
      match pyget tm 0, pyget tm (-1) with
      | Some f0, Some fn => Some (c_eval k true false given f0 fn (frame_or_first given v) time ti0)
      | _, _ => None
      end
  end.
