(** AdvectionRK45 in the particle loop, with the time steps it chooses.

    Source: parcels/kernels/advection.py 57-102 (AdvModel), parcels/kernel.py (execute_python 273-368, execute 397-465),
    parcels/compilation/codegenerator.py (LoopGenerator.generate 999-1068), parcels/particlesets/collectionsoa.py 945-951,
    parcels/particlesets/baseparticleset.py (the loop of execute).

    The loop of KLoopModel has whole ticks for times; here steps are halved any number of times, so times are real numbers.
    Rounding is not modelled.  AdvectionRK45 is the only kernel, so particles do not affect each other and a call ends in one of three
    ways: it succeeds with dt unchanged (so kernel.py 322 and codegenerator.py 1022 do not apply), asks for repetition, or a sample fails.
    update_next_dt is called in calls that succeed only, and is consumed at once. A failed sample ends the run (recovery_map's
    default kernels raise); deletions and the user's recovery kernels are those of KLoopModel. *)
From Coq Require Import Reals List ZArith Bool.
From Verif Require Import AdvModel.
Import ListNotations.
Open Scope R_scope.

(** The states a particle can be in (tools/statuscodes.py 9-28). *)
Inductive pstate : Type := Evaluate | Success | Repeat | Failed.

(** lon, lat, depth; time; dt; state. *)
Record rp : Type := mkRp { p_pos : R * R * R; p_time : R; p_dt : R; p_state : pstate }.
Definition set_state (p : rp) (s : pstate) : rp := mkRp (p_pos p) (p_time p) (p_dt p) s.

(** np.sign. *)
Definition sgn (x : R) : Z := if Rlt_dec 0 x then 1%Z else if Rlt_dec x 0 then (-1)%Z else 0%Z.
(** [x > 0 ? 1 : -1], codegenerator.py 1010, 1012. *)
Definition csgn (x : R) : Z := if Rlt_dec 0 x then 1%Z else (-1)%Z.
(** np.isclose(x, 0) and is_close_dbl(x, 0) with the absolute tolerance [atol]. *)
Definition close0 (atol x : R) : bool := if Rle_dec (Rabs x) atol then true else false.
(** is_zero_dbl. *)
Definition is_zero (x : R) : bool := if Req_EM_T x 0 then true else false.
(** kernel.py 307: the state is Evaluate or Repeat. *)
Definition running (p : rp) : bool := match p_state p with Evaluate | Repeat => true | _ => false end.

Section Loop.
Variable UV : R -> R -> R -> R -> option (R * R).

(** The kernel called with the step [h]: kernel.py 312-315. *)
Definition call (p : rp) (h : R) : aout :=
  let '(x, y, z) := p_pos p in rk45 UV (mkA x y z (p_time p) h None).

(** kernel.py 340-343, codegenerator.py 1041, 1015: dt after the call. *)
Definition next_dt (a : apart) : R := match a_next a with Some d => d | None => a_dt a end.

(** kernel.py 357-363: all variables but dt and state are restored. *)
Definition undone (p : rp) (a : apart) (s : pstate) : rp := mkRp (p_pos p) (p_time p) (a_dt a) s.

(** kernel.py 307-368; [None]: fuel exhausted. *)
Fixpoint py_loop (fuel : nat) (atol dt endt : R) (p : rp) (dt_pos : R) : option rp :=
  match fuel with
  | O => None
  | S f =>
      if running p || close0 atol dt then
        match call p (IZR (sgn dt) * dt_pos) with
        | ADone a =>
            let time2 := p_time p + a_dt a in                                             (* 342 *)
            let dt2 := next_dt a in                                                       (* 343 *)
            let dp := Rmin (Rabs dt2) (Rabs (endt - time2)) in                            (* 346 *)
            let ahead := (sgn (endt - time2) =? sgn dt)%Z in                              (* 348 *)
            let st := if negb (close0 atol dp) && ahead then Evaluate else Success in     (* 349-350 *)
            let p2 := mkRp (a_lon a, a_lat a, a_depth a) time2 dt2 st in                  (* 354 *)
            if close0 atol dt then Some p2                                                (* 355-356 *)
            else py_loop f atol dt endt p2 (if ahead then dp else 0)                      (* 351-352 *)
        | ARepeat a => Some (undone p a Repeat)
        | AFail a => Some (undone p a Failed)
        end
      else Some p
  end.

(** kernel.py 294-307. *)
Definition py_particle (fuel : nat) (atol dt endt : R) (p : rp) : option rp :=
  let dp := Rmin (Rabs (p_dt p)) (Rabs (endt - p_time p)) in                              (* 298 *)
  if (negb (sgn (endt - p_time p) =? sgn dt)%Z || close0 atol dp) && negb (close0 atol dt)  (* 302 *)
  then Some (if Rle_dec (Rabs endt) (Rabs (p_time p)) then set_state p Success else p)    (* 303-305 *)
  else py_loop fuel atol dt endt p dp.

(** codegenerator.py 1034-1059. *)
Fixpoint c_loop (fuel : nat) (atol dt endt : R) (p : rp) (dt_pos : R) : option rp :=
  match fuel with
  | O => None
  | S f =>
      if running p || is_zero (p_dt p) then
        match call p (dt_pos * IZR (csgn dt)) with                                        (* 1020 *)
        | ADone a =>
            let time2 := p_time p + a_dt a in                                             (* 1041 *)
            let dt2 := next_dt a in                                                       (* 1015-1016 *)
            let dp := Rmin (Rabs dt2) (Rabs (endt - time2)) in                            (* 1018 *)
            let ahead := (csgn (endt - time2) =? csgn dt)%Z in                            (* 1012 *)
            let st := if negb (close0 atol dp) && ahead then Evaluate else Success in     (* 1045-1046 *)
            let p2 := mkRp (a_lon a, a_lat a, a_depth a) time2 dt2 st in                  (* 1048 *)
            if is_zero dt2 then Some p2                                                   (* 1049 *)
            else c_loop f atol dt endt p2 (if ahead then dp else 0)                       (* 1047 *)
        | ARepeat a => Some (undone p a Repeat)                                           (* 1051-1056 *)
        | AFail a => Some (undone p a Failed)
        end
      else Some p
  end.

(** codegenerator.py 1060-1061 with 1026-1031. *)
Definition c_particle (fuel : nat) (atol dt endt : R) (p : rp) : option rp :=
  let dp := Rmin (Rabs (p_dt p)) (Rabs (endt - p_time p)) in
  if (negb (csgn (endt - p_time p) =? csgn dt)%Z || close0 atol dp) && negb (is_zero (p_dt p))
  then Some (if Rle_dec (Rabs endt) (Rabs (p_time p)) then set_state p Success else p)
  else c_loop fuel atol dt endt p dp.

(** One pass over the set: kernel.py 294, codegenerator.py 1060. *)
Fixpoint pass (one : rp -> option rp) (ps : list rp) : option (list rp) :=
  match ps with
  | [] => Some []
  | p :: t => match one p, pass one t with Some p', Some t' => Some (p' :: t') | _, _ => None end
  end.

(** How a run ends: with the particles, with the exception of a failed sample, or not within the fuel. *)
Inductive outcome : Type := Done (ps : list rp) | Raised | Unfinished.

(** particlesetsoa.py 227-243. *)
Definition in_error (p : rp) : bool := match p_state p with Repeat | Failed => true | _ => false end.
Definition is_failed (p : rp) : bool := match p_state p with Failed => true | _ => false end.
(** kernel.py 439-440. *)
Definition resume (p : rp) : rp := match p_state p with Repeat => set_state p Evaluate | _ => p end.

(** kernel.py 429-465. *)
Fixpoint rounds (fuel : nat) (one : rp -> option rp) (ps : list rp) : outcome :=
  if negb (existsb in_error ps) then Done ps
  else match fuel with
       | O => Unfinished
       | S f => if existsb is_failed ps then Raised
                else match pass one (map resume ps) with
                     | Some ps' => rounds f one ps'
                     | None => Unfinished
                     end
       end.

(** Kernel.execute: kernel.py 399, 419-425. *)
Definition execute (rf : nat) (one : rp -> option rp) (ps : list rp) : outcome :=
  match pass one (map (fun p => set_state p Evaluate) ps) with
  | Some ps' => rounds rf one ps'
  | None => Unfinished
  end.

(** The calls of Kernel.execute by ParticleSet.execute, up to the times [ends]: output, release and callback times and the end of
    the run (SchedModel).  particle.dt keeps its value from one to the next. *)
Fixpoint windows (jit : bool) (lf rf : nat) (atol dt : R) (ends : list R) (ps : list rp) : outcome :=
  match ends with
  | [] => Done ps
  | endt :: r =>
      match execute rf ((if jit then c_particle else py_particle) lf atol dt endt) ps with
      | Done ps' => windows jit lf rf atol dt r ps'
      | o => o
      end
  end.
End Loop.
