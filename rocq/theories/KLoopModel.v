(** Model of the particle time loop (Scipy and JIT) and of error recovery.

    Source: parcels/kernel.py (Kernel.execute_python 273-368, remove_deleted_soa 384-395,
    Kernel.execute 397-465), parcels/compilation/codegenerator.py (LoopGenerator.generate 999-1068),
    parcels/include/parcels.h 33-60, parcels/particlesets/collectionsoa.py 945-951,
    parcels/particlesets/particlesetsoa.py 227-243, parcels/tools/statuscodes.py.

    Times and time steps are integers (ticks of an arbitrary but fixed length): floating point
    rounding and NaN are not modelled.  The analytical-advection variant of the loop
    (kernel.py 277-283, 344-345) is not modelled here.
    The user's kernel is an arbitrary function [K] from a state [E] of the rest of the world (random
    number generator, globals, fields) and a particle to its effect. *)
From Coq Require Import List ZArith Bool.
From Verif Require Import CollModel.
Import ListNotations.
Open Scope Z_scope.

Section KLoop.
Context {E X H : Type}.

(** One particle: time, dt and state are read by the loop; [q_x] is the tuple of all other
    variables; [q_id] is the identity. *)
Record pcl := mkPcl { q_id : Z; q_time : Z; q_dt : Z; q_st : Z; q_x : X }.

(** Effect of one kernel call.  [k_res] is the returned code; [None] and falling off the end are
    Success (kernel.py 316-317); an exception is the code the handlers at 325-337 give it.
    [k_next] is the pending argument of update_next_dt (collectionsoa.py 945-951; in JIT the globals
    of codegenerator.py 983-992). *)
Record kres := mkKres {
  k_res : Z; k_time : Z; k_dt : Z; k_st : Z; k_x : X; k_next : option Z
}.

Variable K : E -> pcl -> E * kres.

(** [np.isclose(a, 0)] with absolute tolerance [atol]; is_close_dbl(a, 0) of parcels.h 34-36. *)
Definition close0 (atol a : Z) : bool := Z.abs a <=? atol.
(** [np.isclose(a, b)] with rtol = 1e-5. *)
Definition close (atol a b : Z) : bool := 100000 * Z.abs (a - b) <=? 100000 * atol + Z.abs b.

(** Recovery kernels: the ones the user passes are known by a name in [H]; the ones of
    recovery_map (statuscodes.py 219-224) all raise. *)
Inductive rkernel : Type := RUser (h : H) | RDefault.

(** What is observed of the execution, in order. *)
Inductive ev : Type :=
| ECall (id t h : Z) (out : Z)
    (* the kernel is called on particle [id] at time [t] with dt [h] and ends with code [out] *)
| EHandler (id code : Z) (h : rkernel) (out : option Z)
    (* recovery kernel [h] is called on particle [id] because of [code]; it leaves the particle in
       state [out], or raises *)
| EUnhandled (id code : Z)
    (* the particle is deleted because there is no recovery kernel for [code] *)
| EWriteDeleted (ids : list Z).
    (* these particles are handed to the output file as deleted *)

Definition set_st (p : pcl) (s : Z) : pcl := mkPcl (q_id p) (q_time p) (q_dt p) s (q_x p).

(** kernel.py 307-368: the while loop of one particle. [None]: fuel exhausted. *)
Fixpoint py_loop (fuel : nat) (atol dt endt : Z) (e : E) (p : pcl) (dt_pos : Z)
  : option (E * pcl * list ev) :=
  match fuel with
  | O => None
  | S f =>
      if (q_st p =? st_Evaluate) || (q_st p =? op_Repeat) || close0 atol dt then
        let pdt := Z.sgn dt * dt_pos in                                         (* 312 *)
        let p1 := mkPcl (q_id p) (q_time p) pdt (q_st p) (q_x p) in             (* 313 *)
        let '(e', r) := K e p1 in                                               (* 315 *)
                let res1 := if (k_res r =? st_Success) && negb (k_st r =? q_st p)
                    then k_st r else k_res r in                                 (* 319-320 *)
        let res2 := if (res1 =? st_Success) && negb (close atol (k_dt r) pdt)
                    then op_Repeat else res1 in                                 (* 322-323 *)
        let call := ECall (q_id p) (q_time p) pdt res2 in
        if (res2 =? st_Success) || (res2 =? op_Delete) then                     (* 340 *)
          let time2 := k_time r + k_dt r in                                     (* 342 *)
          let dt2 := match k_next r with Some d => d | None => k_dt r end in    (* 343 *)
          let dp := Z.min (Z.abs dt2) (Z.abs (endt - time2)) in                 (* 346 *)
          let se := Z.sgn (endt - time2) in                                     (* 348 *)
          let res3 := if negb (res2 =? op_Delete) && negb (close0 atol dp) && (se =? Z.sgn dt)
                      then st_Evaluate else res2 in                             (* 349-350 *)
          let dp' := if negb (se =? Z.sgn dt) then 0 else dp in                 (* 351-352 *)
          let p2 := mkPcl (q_id p) time2 dt2 res3 (k_x r) in                    (* 354 *)
          if close0 atol dt then Some (e', p2, [call])                          (* 355-356 *)
          else match py_loop f atol dt endt e' p2 dp' with
               | Some (e2, p3, tr) => Some (e2, p3, call :: tr)
               | None => None
               end
        else
          (* 357-368: all variables but dt and state are restored *)
          Some (e', mkPcl (q_id p) (q_time p) (k_dt r) res2 (q_x p), [call])
      else Some (e, p, [])
  end.

(** kernel.py 294-307: one particle in one pass. *)
Definition py_particle (fuel : nat) (atol dt endt : Z) (e : E) (p : pcl)
  : option (E * pcl * list ev) :=
  let se := Z.sgn (endt - q_time p) in                                          (* 296 *)
  let dp := Z.min (Z.abs (q_dt p)) (Z.abs (endt - q_time p)) in                 (* 298 *)
  if (negb (se =? Z.sgn dt) || close0 atol dp) && negb (close0 atol dt) then    (* 302 *)
    Some (e, if Z.abs endt <=? Z.abs (q_time p) then set_st p st_Success else p, [])  (* 303-305 *)
  else py_loop fuel atol dt endt e p dp.

(** codegenerator.py 1010, 1012: [x > 0 ? 1 : -1]. *)
Definition csgn (x : Z) : Z := if 0 <? x then 1 else -1.

(** codegenerator.py 1034-1059: the while loop of the generated C code; [g] is the pair of globals
    [_next_dt_set]/[_next_dt].  is_equal_dbl and is_zero_dbl are equalities on ticks. *)
Fixpoint c_loop (fuel : nat) (atol dt endt : Z) (g : option Z) (e : E) (p : pcl) (dt_pos : Z)
  : option (option Z * E * pcl * list ev) :=
  match fuel with
  | O => None
  | S f =>
      if (q_st p =? st_Evaluate) || (q_st p =? op_Repeat) || (q_dt p =? 0) then
        let pdt := dt_pos * csgn dt in                                          (* 1020 *)
        let p1 := mkPcl (q_id p) (q_time p) pdt (q_st p) (q_x p) in
        let '(e', r) := K e p1 in
        let g1 := match k_next r with Some d => Some d | None => g end in       (* 987-988 *)
                let res1 := if (k_res r =? st_Success) && negb (k_st r =? q_st p)
                    then k_st r else k_res r in                                 (* 1039 *)
        let res2 := if (res1 =? st_Success) && negb (k_dt r =? pdt)
                    then op_Repeat else res1 in                                 (* 1022 *)
        let call := ECall (q_id p) (q_time p) pdt res2 in
        if (res2 =? st_Success) || (res2 =? op_Delete) then
          let time2 := k_time r + k_dt r in                                     (* 1041 *)
          let dt2 := match g1 with Some d => d | None => k_dt r end in          (* 1015-1016 *)
          let dp := Z.min (Z.abs dt2) (Z.abs (endt - time2)) in                 (* 1018 *)
          let se := csgn (endt - time2) in                                      (* 1012 *)
          let res3 := if negb (res2 =? op_Delete) && negb (close0 atol dp) && (se =? csgn dt)
                      then st_Evaluate else res2 in                             (* 1045-1046 *)
          let dp' := if negb (se =? csgn dt) then 0 else dp in                  (* 1047 *)
          let p2 := mkPcl (q_id p) time2 dt2 res3 (k_x r) in                    (* 1048 *)
          if dt2 =? 0 then Some (None, e', p2, [call])                          (* 1049 *)
          else match c_loop f atol dt endt None e' p2 dp' with
               | Some (g2, e2, p3, tr) => Some (g2, e2, p3, call :: tr)
               | None => None
               end
        else
          Some (g1, e', mkPcl (q_id p) (q_time p) (k_dt r) res2 (q_x p), [call]) (* 1051-1056 *)
      else Some (g, e, p, [])
  end.

(** codegenerator.py 1060-1061 with 1026-1031. *)
Definition c_particle (fuel : nat) (atol dt endt : Z) (g : option Z) (e : E) (p : pcl)
  : option (option Z * E * pcl * list ev) :=
  let se := csgn (endt - q_time p) in
  let dp := Z.min (Z.abs (q_dt p)) (Z.abs (endt - q_time p)) in
  if (negb (se =? csgn dt) || close0 atol dp) && negb (q_dt p =? 0) then
    Some (g, e, if Z.abs endt <=? Z.abs (q_time p) then set_st p st_Success else p, [])
  else c_loop fuel atol dt endt g e p dp.

(** One pass over the set (kernel.py 294; codegenerator.py 1060), generic in the loop of one
    particle; [S] is the state threaded through. *)
Fixpoint pass {S} (one : S -> pcl -> option (S * pcl * list ev)) (s : S) (ps : list pcl)
  : option (S * list pcl * list ev) :=
  match ps with
  | [] => Some (s, [], [])
  | p :: t => match one s p with
              | None => None
              | Some (s1, p1, tr1) => match pass one s1 t with
                                      | None => None
                                      | Some (s2, ps2, tr2) => Some (s2, p1 :: ps2, tr1 ++ tr2)
                                      end
              end
  end.

(** kernel.py 384-395 remove_deleted_soa. *)
Definition is_deleted (p : pcl) : bool := q_st p =? op_Delete.
Definition remove_deleted (has_output : bool) (ps : list pcl) : list pcl * list ev :=
  let gone := filter is_deleted ps in
  (filter (fun p => negb (is_deleted p)) ps,
   match gone with
   | [] => []
   | _ => if has_output then [EWriteDeleted (map q_id gone)] else []
   end).

(** particlesetsoa.py 227-243. *)
Definition in_error (p : pcl) : bool := negb ((q_st p =? st_Success) || (q_st p =? st_Evaluate)).

(** What a user's recovery kernel does: returns, with its effect on the particle, or raises.
    Kernels and recovery kernels are taken not to assign particle.id. *)
Definition handlers := H -> E -> pcl -> E * option pcl.
Variable interp : handlers.
Definition run_rkernel (r : rkernel) (e : E) (p : pcl) : E * option pcl :=
  match r with RUser h => interp h e p | RDefault => (e, None) end.

(** statuscodes.py 218-224: the codes of the default recovery map. *)
Definition default_codes : list Z :=
  [err_Error; err_Interpolation; err_OutOfBounds; err_TimeExtrapolation; err_ThroughSurface].

(** kernel.py 404-409: the map in force, from the user's one. *)
Definition recovery_map (user : Z -> option H) (code : Z) : option rkernel :=
  let recovery c :=
    match user c with
    | Some h => Some h
    | None => if c =? err_ThroughSurface then user err_OutOfBounds else None      (* 406-407 *)
    end in
  match recovery code with
  | Some h => Some (RUser h)
  | None => if existsb (Z.eqb code) default_codes then Some RDefault else None
  end.

(** kernel.py 436-451: the recovery loop over the particles in error. *)
Inductive rstat := RNext | RStop | RRaise.

Fixpoint recover (rmap : Z -> option rkernel) (e : E) (ps : list pcl)
  : E * list pcl * list ev * rstat :=
  match ps with
  | [] => (e, [], [], RNext)
  | p :: t =>
      if negb (in_error p) then
        let '(e1, t1, tr, r) := recover rmap e t in (e1, p :: t1, tr, r)
      else if q_st p =? op_StopExecution then (e, ps, [], RStop)                 (* 437-438 *)
      else if q_st p =? op_Repeat then                                           (* 439-440 *)
        let '(e1, t1, tr, r) := recover rmap e t in (e1, set_st p st_Evaluate :: t1, tr, r)
      else if q_st p =? op_Delete then                                           (* 441-442 *)
        let '(e1, t1, tr, r) := recover rmap e t in (e1, p :: t1, tr, r)
      else match rmap (q_st p) with
           | Some h =>                                                           (* 443-448 *)
               match run_rkernel h e (set_st p st_Success) with
               | (e1, None) =>
                   (e1, set_st p st_Success :: t, [EHandler (q_id p) (q_st p) h None], RRaise)
               | (e1, Some p1) =>
                   let st2 := if q_st p1 =? st_Success then st_Evaluate else q_st p1 in
                   let p2 := mkPcl (q_id p) (q_time p1) (q_dt p1) st2 (q_x p1) in
                   let '(e2, t1, tr, r) := recover rmap e1 t in
                   (e2, p2 :: t1, EHandler (q_id p) (q_st p) h (Some (q_st p1)) :: tr, r)
               end
           | None =>                                                             (* 449-451 *)
               let '(e1, t1, tr, r) := recover rmap e t in
               (e1, set_st p op_Delete :: t1, EUnhandled (q_id p) (q_st p) :: tr, r)
           end
  end.

Inductive xstat := XDone | XStop | XRaise | XFuel.

(** kernel.py 429-465: recovery rounds. [run_pass] is execute_python or execute_jit. *)
Fixpoint rounds (fuel : nat) {S} (run_pass : S -> list pcl -> option (S * list pcl * list ev))
         (get_e : S -> E) (put_e : S -> E -> S)
         (rmap : Z -> option rkernel) (out : bool) (s : S) (ps : list pcl)
  : S * list pcl * list ev * xstat :=
  if negb (existsb in_error ps) then (s, ps, [], XDone)
  else match fuel with
       | O => (s, ps, [], XFuel)
       | Datatypes.S f =>
           match recover rmap (get_e s) ps with
           | (e1, ps1, tr1, RStop) => (put_e s e1, ps1, tr1, XStop)
           | (e1, ps1, tr1, RRaise) => (put_e s e1, ps1, tr1, XRaise)
           | (e1, ps1, tr1, RNext) =>
               let '(ps2, tr2) := remove_deleted out ps1 in
               match run_pass (put_e s e1) ps2 with
               | None => (put_e s e1, ps2, tr1 ++ tr2, XFuel)
               | Some (s3, ps3, tr3) =>
                   let '(s4, ps4, tr4, r) := rounds f run_pass get_e put_e rmap out s3 ps3 in
                   (s4, ps4, tr1 ++ tr2 ++ tr3 ++ tr4, r)
               end
           end
       end.

(** kernel.py 397-465 Kernel.execute, without the field chunk bookkeeping (411-415, modelled in
    ChunkModel) and the warning (401-402). *)
Definition execute {S} (fuel : nat) (run_pass : S -> list pcl -> option (S * list pcl * list ev))
           (get_e : S -> E) (put_e : S -> E -> S)
           (user : Z -> option H) (out : bool) (s : S) (ps : list pcl)
  : S * list pcl * list ev * xstat :=
  let ps0 := map (fun p => set_st p st_Evaluate) ps in                            (* 399 *)
  match run_pass s ps0 with
  | None => (s, ps0, [], XFuel)
  | Some (s1, ps1, tr1) =>
      let '(ps2, tr2) := remove_deleted out ps1 in                                (* 424-425 *)
      let '(s3, ps3, tr3, r) := rounds fuel run_pass get_e put_e (recovery_map user) out s1 ps2 in
      (s3, ps3, tr1 ++ tr2 ++ tr3, r)
  end.

(** Scipy mode. *)
Definition py_pass (lf : nat) (atol dt endt : Z) : E -> list pcl -> option (E * list pcl * list ev) :=
  pass (py_particle lf atol dt endt).
Definition py_execute (lf rf : nat) (atol dt endt : Z) (user : Z -> option H) (out : bool)
           (e : E) (ps : list pcl) : E * list pcl * list ev * xstat :=
  execute rf (py_pass lf atol dt endt) (fun e => e) (fun _ e => e) user out e ps.

(** JIT mode; the state is the pair of C globals and [E]. *)
Definition c_one (lf : nat) (atol dt endt : Z) (s : option Z * E) (p : pcl)
  : option ((option Z * E) * pcl * list ev) :=
  match c_particle lf atol dt endt (fst s) (snd s) p with
  | Some (g, e, p', tr) => Some ((g, e), p', tr)
  | None => None
  end.
Definition c_execute (lf rf : nat) (atol dt endt : Z) (user : Z -> option H) (out : bool)
           (s : option Z * E) (ps : list pcl) : (option Z * E) * list pcl * list ev * xstat :=
  execute rf (pass (c_one lf atol dt endt)) snd (fun s e => (fst s, e)) user out s ps.

End KLoop.

Arguments pcl : clear implicits.
Arguments kres : clear implicits.
Arguments ev : clear implicits.
Arguments rkernel : clear implicits.
Arguments handlers : clear implicits.
