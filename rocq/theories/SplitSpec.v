(** Vocabulary for C43: when interrupting a run leaves its result unchanged. *)
From Coq Require Import List ZArith Bool.
From Verif Require Import CollModel KLoopModel KLoopSpec SchedModel.
Import ListNotations.
Open Scope Z_scope.

Section Spec.
Context {E X H : Type}.
Notation pcl := (pcl X).

(** A kernel that never writes particle.time or particle.dt and never calls update_next_dt.  It may
    fail, delete the particle, or do anything to the other variables. *)
Definition steady_kernel (K : E -> pcl -> E * kres X) : Prop :=
  forall e p, k_time (snd (K e p)) = q_time p /\ k_dt (snd (K e p)) = q_dt p /\
              k_next (snd (K e p)) = None.

(** Recovery kernels that never write particle.time or particle.dt. *)
Definition steady_handlers (interp : handlers E X H) : Prop :=
  forall h e p e' p1, interp h e p = (e', Some p1) -> q_time p1 = q_time p /\ q_dt p1 = q_dt p.

(** What a user sees of a particle: everything but the bookkeeping state. *)
Definition seen (p : pcl) : Z * Z * Z * X := (q_id p, q_time p, q_dt p, q_x p).

(** The same particles in the same order. *)
Definition same_particles (ps qs : list pcl) : Prop := map seen ps = map seen qs.

(** [t'] is a whole number of steps [dt] away from [t]. *)
Definition whole_steps (dt t t' : Z) : Prop := (dt | t' - t).

(** Every particle has time step [dt] and is a whole number of steps away from [t]. *)
Definition in_step (dt t : Z) (ps : list pcl) : Prop :=
  Forall (fun p => q_dt p = dt /\ whole_steps dt (q_time p) t) ps.

(** [b] is not before [a] in the direction of [dt]. *)
Definition onward (dt a b : Z) : Prop := 0 <= Z.sgn dt * (b - a).

(** kernel.execute up to each of the [ends] in turn, as the loop of pset.execute does it; [None] if
    one of the calls does not complete. *)
Fixpoint in_windows (one : list pcl -> Z -> option (list pcl)) (ends : list Z) (ps : list pcl)
  : option (list pcl) :=
  match ends with
  | [] => Some ps
  | t :: rest => match one ps t with
                 | Some ps1 => in_windows one rest ps1
                 | None => None
                 end
  end.

(** The ends lie a whole number of steps from one another, in order, from [t] on. *)
Fixpoint onward_ends (dt t : Z) (ends : list Z) : Prop :=
  match ends with
  | [] => True
  | t1 :: rest => onward dt t t1 /\ whole_steps dt t t1 /\ onward_ends dt t1 rest
  end.

(** The result of a call of kernel.execute that completes. *)
Definition completed {S T} (r : S * list pcl * T * xstat) : option (list pcl) :=
  match r with (_, ps', _, XDone) => Some ps' | _ => None end.

(** kernel.execute as a part of pset.execute, in Scipy and in JIT mode. *)
Definition scipy_exec (K : E -> pcl -> E * kres X) (interp : handlers E X H) (lf rf : nat) (atol : Z)
           (user : Z -> option H) (out : bool) (e : E) (ps : list pcl) (t dt : Z) : option (list pcl) :=
  completed (py_execute K interp lf rf atol dt t user out e ps).
Definition jit_exec (K : E -> pcl -> E * kres X) (interp : handlers E X H) (lf rf : nat) (atol : Z)
           (user : Z -> option H) (out : bool) (e : E) (ps : list pcl) (t dt : Z) : option (list pcl) :=
  completed (c_execute K interp lf rf atol dt t user out (None, e) ps).

Definition mode_exec (jit : bool) (K : E -> pcl -> E * kres X) (interp : handlers E X H) (lf rf : nat) (atol : Z)
           (user : Z -> option H) (out : bool) (e : E) : list pcl -> Z -> Z -> option (list pcl) :=
  if jit then jit_exec K interp lf rf atol user out e else scipy_exec K interp lf rf atol user out e.

(** The kernels and recovery kernels for which interruptions are claimed not to matter. *)
Definition uninterruptible (K : E -> pcl -> E * kres X) (interp : handlers E X H) : Prop :=
  self_contained K interp /\ steady_kernel K /\ steady_handlers interp /\ never_evaluate K.

(** The other parts of pset.execute, seen from the particles: all get the run's dt
    (baseparticleset.py 403); a release adds the batch of that time, which has the run's dt
    (449-457); writing, showing and callbacks change nothing; reading the forcing changes nothing and
    announces the time of the next reading. *)
Definition set_all_dt (ps : list pcl) (dt : Z) : list pcl :=
  map (fun p => mkPcl (q_id p) (q_time p) dt (q_st p) (q_x p)) ps.
Definition only_release (batch : Z -> list pcl) (k : kind) (ps : list pcl) (t dt : Z) : list pcl :=
  match k with KRelease => ps ++ set_all_dt (batch t) dt | _ => ps end.
Definition announces (next : Z -> option Z) (ps : list pcl) (t d : Z) : option (list pcl * option Z) :=
  Some (ps, next t).

(** Periods of whole numbers of steps. *)
Definition period_in_step (dt : Z) (per : option Z) : Prop :=
  match per with Some p => 0 < p /\ (dt | p) | None => True end.

(** A call of pset.execute with step [dt] and release period [r], all of whose interruptions (output,
    animation, callbacks, releases, reading of forcing data) come after whole numbers of steps. *)
Definition run_in_step (dt : Z) (r : option Z) (a : args) (next : Z -> option Z) : Prop :=
  a_dt a = dt /\ a_repeat a = r /\
  period_in_step dt (a_output a) /\ period_in_step dt (a_movie a) /\
  period_in_step dt (a_callback a) /\ period_in_step dt (a_repeat a) /\
  (forall t x, next t = Some x -> 0 < Z.sgn dt * (x - t) /\ whole_steps dt t x).

(** Batches that start at the time of their release. *)
Definition batch_in_step (batch : Z -> list pcl) : Prop :=
  forall t, Forall (fun p => q_time p = t) (batch t).

(** The release clock of the set, if it has been started, was started a whole number of steps before
    [start]. *)
Definition clock_in_step (dt : Z) (rs : option Z) (start : Z) : Prop :=
  match rs with Some r => whole_steps dt r start /\ onward dt r start | None => True end.

End Spec.

(** pset.execute on a set of particles. *)
Definition run_set {E X H} (jit : bool) (K : E -> pcl X -> E * kres X) (interp : handlers E X H) (lf rf fuel : nat)
           (atol : Z) (user : Z -> option H) (out : bool) (e : E) (batch : Z -> list (pcl X))
           (next : Z -> option Z) (eps : Z) (a : args) (start : Z) (rs : option Z) (dflt : Z) (ps : list (pcl X))
  : list (pcl X) * list sev * sstat :=
  sexecute (mode_exec jit K interp lf rf atol user out e) set_all_dt (only_release batch) (announces next)
           fuel eps a start rs dflt ps.
