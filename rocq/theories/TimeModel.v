(** Model of the time index and of interpolation in time.

    Sources: parcels/field.py 1048-1078 (time_index), 1080-1104 (eval), 1014-1031 (temporal_interpolate_fullfield);
    parcels/include/index_search.h 433-458 (search_time_index); parcels/include/parcels.h 477-585.

    Simplifications: times are rationals. [tm] is grid.time (the frames in memory), [f0] and [fn] the first and
    last of grid.time_full (tfull_min, tfull_max in C). The values of grid.periods kept between calls are not
    modelled (field.py 1062-1065 stores them; nothing here reads them). *)
From Coq Require Import List ZArith Bool QArith Qround.
From Verif Require Import IdxModel.
Import ListNotations.
Open Scope Z_scope.

(** Outcome of sampling. *)
Inductive ires :=
  | IVal (q : Q)
  | ISearch (e : sres)      (* the error of the index search *)
  | IExtrap                 (* TimeExtrapolationError, ERROR_TIME_EXTRAPOLATION *)
  | IBad                    (* IndexError or ZeroDivisionError; in C undefined behaviour *)
  | IRuntime.               (* RuntimeError, ERROR: method not implemented *)

Inductive tres := TAt (ti periods : Z) | TExtrap | TBad.

(** field.py 1054-1078. *)
Definition py_time_index (periodic extrapolate : bool) (tm : list Q) (f0 fn : Q) (time : Q) : tres :=
  match pyget tm 0, pyget tm (-1) with
  | Some t0, Some tn =>
      if negb periodic && negb extrapolate && (qlt time t0 || qlt tn time) then TExtrap
      else
        let le := map (fun v => qle v time) tm in
        let inner le' := if np_any le' then np_argmin le' - 1 else 0 in
        if periodic then
          if np_all le || np_all (map negb le) then
            if Qeq_bool fn f0 then TBad
            else
              let periods := Qfloor ((time - f0) / (fn - f0)) in
              let time' := (time - inject_Z periods * (fn - f0))%Q in
              TAt (inner (map (fun v => qle v time') tm)) periods
          else TAt (inner le) 0
        else if np_all le then TAt (zlen tm - 1) 0
        else if np_all (map negb le) then TAt 0 0
        else TAt (inner le) 0
  | _, _ => TBad
  end.

(** field.py 1080-1099; [v i] is spatial_interpolation(i, ...). Negative frame numbers count from the end. *)
Definition lin (q0 q1 t0 t1 t : Q) : Q := (q0 + (q1 - q0) * ((t - t0) / (t1 - t0)))%Q.

Definition py_eval (periodic extrapolate : bool) (tm : list Q) (f0 fn : Q) (v : Z -> ires) (time : Q) : ires :=
  match py_time_index periodic extrapolate tm f0 fn time with
  | TExtrap => IExtrap
  | TBad => IBad
  | TAt ti periods =>
      let time' := (time - inject_Z periods * (fn - f0))%Q in
      match pyget tm ti with
      | None => IBad
      | Some t0 =>
          if (ti <? zlen tm - 1) && qlt t0 time' then
            match pyget tm (ti + 1) with
            | None => IBad
            | Some t1 =>
                match v ti with
                | IVal q0 => match v (ti + 1) with IVal q1 => IVal (lin q0 q1 t0 t1 time') | e => e end
                | e => e
                end
            end
          else v ti
      end
  end.

(** index_search.h 433-458: time, frame and periods after the search. [k] bounds the recursion; 442-447 reduce
    the time a second time by periods (not by one period) when it is still before the first frame. *)
Fixpoint c_time (k : nat) (periodic : bool) (tm : list Q) (fmin fmax : Q) (t : Q) (ti : Z) : option (Q * Z) :=
  match k with
  | O => None
  | S k' =>
      match cget tm 0, cget tm (zlen tm - 1) with
      | Some t0, Some tn =>
          let ti0 := if ti <? 0 then 0 else ti in
          let r :=
            if periodic then
              if qlt t t0 then
                let p := Qfloor ((t - fmin) / (fmax - fmin)) in
                let t1 := (t - inject_Z p * (fmax - fmin))%Q in
                let t2 := if qlt t1 t0 then (t1 - inject_Z (p - 1) * (fmax - fmin))%Q else t1 in
                c_time k' periodic tm fmin fmax t2 (zlen tm - 1)
              else if qlt tn t then
                let p := Qfloor ((t - fmin) / (fmax - fmin)) in
                c_time k' periodic tm fmin fmax (t - inject_Z p * (fmax - fmin))%Q 0
              else Some (t, ti0)
            else Some (t, ti0) in
          match r with
          | None => None
          | Some (t', ti') =>
              match c_walk false tm t' ti' with
              | None => None
              | Some j => Some (t', j)
              end
          end
      | _, _ => None
      end
  end.

(** parcels.h 485-511, 583-585: [v i] is the value interpolated in frame i. *)
Definition c_eval (k : nat) (periodic extrapolate : bool) (tm : list Q) (fmin fmax : Q) (v : Z -> ires)
    (time : Q) (ti0 : Z) : ires :=
  match cget tm 0, cget tm (zlen tm - 1) with
  | Some t0, Some tn =>
      if negb periodic && negb extrapolate && (qlt time t0 || qlt tn time) then IExtrap
      else
        match c_time k periodic tm fmin fmax time ti0 with
        | None => IBad
        | Some (t, ti) =>
            match cget tm ti with
            | None => IBad
            | Some a =>
                if (ti <? zlen tm - 1) && qlt a t then
                  match cget tm (ti + 1) with
                  | None => IBad
                  | Some b =>
                      match v ti with
                      | IVal q0 => match v (ti + 1) with IVal q1 => IVal (lin q0 q1 a b t) | e => e end
                      | e => e
                      end
                  end
                else match v ti with IVal q0 => IVal (lin q0 0 a (a + 1) a) | e => e end
            end
        end
  | _, _ => IBad
  end.

(** field.py 1014-1031: the whole field at one time; [None] is TimeExtrapolationError or IndexError. *)
Definition fullfield (tm : list Q) (v : Z -> Q) (ti : Z) (time : Q) : option Q :=
  match pyget tm ti with
  | None => None
  | Some t0 =>
      if Qeq_bool time t0 then Some (v ti)
      else if zlen tm <=? ti + 1 then None
      else match pyget tm (ti + 1) with
           | None => None
           | Some t1 => Some (lin (v ti) (v (ti + 1)) t0 t1 time)
           end
  end.
