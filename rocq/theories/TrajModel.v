(** Model of a run with an output file: pset.execute with every call of output_file.write that it makes.

    Sources: parcels/particlesets/baseparticleset.py 403-407, 434-481 (the regular writes),
    parcels/kernel.py 384-395 (remove_deleted_soa, which hands the deleted particles to the file),
    397-465 (Kernel.execute).

    The parts are those of KLoopModel, SchedModel and OutModel; here they also give the arguments of the calls of write, in
    order.  Kernel.execute restarts with the same kernel environment in every window (as in SplitSpec.run_set). *)
From Coq Require Import String List ZArith Bool.
From Verif Require Import CollModel KLoopModel KLoopSpec SchedModel SplitSpec OutModel.
Import ListNotations.
Open Scope Z_scope.

(** The arguments of output_file.write(pset, time, deleted_only): time, deleted_only, and the set at the call. *)
Definition wcall (X : Type) : Type := (Z * dmode * list (pcl X))%type.

Section Exec.
Context {E X H : Type}.
Notation pcl := (pcl X).
Notation ev := (ev H).
Variable interp : handlers E X H.

(** kernel.py 391-394: bool_indices of the deleted particles; the file is written when there are any, with the set as it is
    before the removal. *)
Definition hand_over (out : bool) (endt : Z) (ps : list pcl) : list (wcall X) :=
  if existsb is_deleted ps && out then [(endt, DMask (map is_deleted ps), ps)] else [].

(** kernel.py 429-465, as KLoopModel.rounds. *)
Fixpoint wrounds (fuel : nat) {S} (run_pass : S -> list pcl -> option (S * list pcl * list ev))
         (get_e : S -> E) (put_e : S -> E -> S) (rmap : Z -> option (rkernel H)) (out : bool) (endt : Z) (s : S) (ps : list pcl)
  : list pcl * list (wcall X) * xstat :=
  if negb (existsb in_error ps) then (ps, [], XDone)
  else match fuel with
       | O => (ps, [], XFuel)
       | Datatypes.S f =>
           match recover interp rmap (get_e s) ps with
           | (e1, ps1, _, RStop) => (ps1, [], XStop)
           | (e1, ps1, _, RRaise) => (ps1, [], XRaise)
           | (e1, ps1, _, RNext) =>
               let ps2 := filter (fun p => negb (is_deleted p)) ps1 in              (* 454, 395 *)
               match run_pass (put_e s e1) ps2 with
               | None => (ps2, hand_over out endt ps1, XFuel)
               | Some (s3, ps3, _) =>
                   let '(ps4, log, r) := wrounds f run_pass get_e put_e rmap out endt s3 ps3 in
                   (ps4, hand_over out endt ps1 ++ log, r)
               end
           end
       end.

(** kernel.py 397-465, as KLoopModel.execute. *)
Definition wexecute {S} (fuel : nat) (run_pass : S -> list pcl -> option (S * list pcl * list ev))
           (get_e : S -> E) (put_e : S -> E -> S) (user : Z -> option H) (out : bool) (endt : Z) (s : S) (ps : list pcl)
  : list pcl * list (wcall X) * xstat :=
  let ps0 := map (fun p => set_st p st_Evaluate) ps in                            (* 399 *)
  match run_pass s ps0 with
  | None => (ps0, [], XFuel)
  | Some (s1, ps1, _) =>
      let ps2 := filter (fun p => negb (is_deleted p)) ps1 in                     (* 424-425, 395 *)
      let '(ps3, log, r) := wrounds fuel run_pass get_e put_e (recovery_map user) out endt s1 ps2 in
      (ps3, hand_over out endt ps1 ++ log, r)
  end.

(** Kernel.execute in JIT and in Scipy mode. *)
Definition mode_wexecute (jit : bool) (K : E -> pcl -> E * kres X) (lf rf : nat) (atol dt endt : Z) (user : Z -> option H) (out : bool)
           (e : E) (ps : list pcl) : list pcl * list (wcall X) * xstat :=
  if jit then wexecute rf (pass (c_one K lf atol dt endt)) snd (fun s e => (fst s, e)) user out endt (None, e) ps
  else wexecute rf (py_pass K lf atol dt endt) (fun e => e) (fun _ e => e) user out endt e ps.
End Exec.

Section Run.
Context {E X H : Type}.
Notation pcl := (pcl X).
Notation world := (list pcl * list (wcall X))%type.

Definition wexec (jit : bool) (K : E -> pcl -> E * kres X) (interp : handlers E X H) (lf rf : nat) (atol : Z) (user : Z -> option H)
           (out : bool) (e : E) (w : world) (t dt : Z) : option world :=
  match mode_wexecute interp jit K lf rf atol dt t user out e (fst w) with
  | (ps', log, XDone) => Some (ps', snd w ++ log)
  | _ => None
  end.

(** baseparticleset.py 403. *)
Definition wbegin (w : world) (dt : Z) : world := (set_all_dt (fst w) dt, snd w).

(** baseparticleset.py 449-472, 406-407, 480-481: a release adds the batch, a write hands the set to the file. *)
Definition wact (batch : Z -> list pcl) (k : kind) (w : world) (t dt : Z) : world :=
  match k with
  | KRelease => (fst w ++ set_all_dt (batch t) dt, snd w)
  | KOutput => (fst w, snd w ++ [(t, DFalse, fst w)])
  | _ => w
  end.

(** pset.execute with an output file ([a_out a]): the particles at the end and the calls of write. *)
Definition run_written (jit : bool) (K : E -> pcl -> E * kres X) (interp : handlers E X H) (lf rf fuel : nat)
           (atol : Z) (user : Z -> option H) (e : E) (batch : Z -> list pcl)
           (next : Z -> option Z) (eps : Z) (a : args) (start : Z) (rs : option Z) (dflt : Z) (ps : list pcl)
  : list pcl * list (wcall X) * list sev * sstat :=
  let '(w, tr, r) := sexecute (wexec jit K interp lf rf atol user (a_out a) e) wbegin (wact batch) (fun w t _ => Some (w, next t))
                              fuel eps a start rs dflt (ps, []) in
  (fst w, snd w, tr, r).
End Run.

(** The set as the file sees it: [val] gives the value of a variable of a particle by name. *)
Definition as_wp {X V} (val : string -> pcl X -> V) (p : pcl X) : wp V := mkWp (q_id p) (q_time p) (q_dt p) (q_st p) (fun v => val v p).
Definition as_write {X V} (val : string -> pcl X -> V) (c : wcall X) : Z * dmode * list (wp V) :=
  let '(t, m, ps) := c in (t, m, map (as_wp val) ps).

(** The file after a run: ParticleFile(..., write_ondelete=False) and the writes; [None]: one of them raises. *)
Definition file_after {X V} (close : Z -> Z -> bool) (warn_tol : Z) (val : string -> pcl X -> V) (vars once : list string) (log : list (wcall X))
  : option (pfile V) := writes close warn_tol (pfile0 false vars once) (map (as_write val) log).
