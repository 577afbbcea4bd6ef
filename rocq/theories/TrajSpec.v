(** Vocabulary for C51: what the output file of a run holds, in terms of runs. *)
From Coq Require Import String List ZArith Bool Sorted.
From Verif Require Import CollModel KLoopModel SchedModel SchedSpec SplitSpec.
Import ListNotations.
Open Scope Z_scope.

(** The same call of execute, but only up to [t]. *)
Definition until (a : args) (t : Z) : args :=
  mkArgs (a_dt a) None (Some t) (a_repeat a) (a_output a) (a_movie a) (a_callback a) (a_out a) (a_cbs a).

(** [ts]: the start, then in order and once each the multiples of outputdt up to the end, and the end. *)
Definition output_times (dt start o endt : Z) (ts : list Z) : Prop :=
  exists rest, ts = start :: rest /\ ordered_after dt start rest /\
    forall t, In t rest <-> t = endt \/ (exists k, 1 <= k /\ t = start + Z.sgn dt * (k * o)) /\ 0 <= Z.sgn dt * (endt - t).

Section S.
Context {E X H V : Type}.
Notation pcl := (pcl X).

(** The particles that are in the set, with their variables, when the run has got to time [t]: at the start those handed to
    execute, with its dt, and later those of the run that goes only up to [t]. *)
Definition set_at (jit : bool) (K : E -> pcl -> E * kres X) (interp : handlers E X H) (lf rf fuel : nat)
           (atol : Z) (user : Z -> option H) (e : E) (batch : Z -> list pcl) (next : Z -> option Z) (eps : Z) (a : args)
           (start : Z) (rs : option Z) (dflt : Z) (ps : list pcl) (t : Z) (qs : list pcl) : Prop :=
  if t =? start then qs = set_all_dt ps (a_dt a)
  else exists tr, run_set jit K interp lf rf fuel atol user (a_out a) e batch next eps (until a t) start rs dflt ps = (qs, tr, SDone).

(** A particle is recorded at [t] when its own time is within half a time step. *)
Definition there (t : Z) (p : pcl) : bool := 2 * Z.abs (t - q_time p) <=? Z.abs (q_dt p).

(** What a file should hold of particle [i]: its values in the snapshots [regs] in which it is there, and then, if it is one
    of the deleted particles [gone], its value at deletion. *)
Definition history (val : pcl -> V) (regs : list (Z * list pcl)) (gone : list pcl) (i : Z) : list V :=
  flat_map (fun '(t, qs) => map val (filter (fun p => (q_id p =? i) && there t p) qs)) regs ++
  map val (filter (fun p => q_id p =? i) gone).

(** The same for runs in step, where a particle is there when its own time is [t]. *)
Definition exact_history (val : pcl -> V) (regs : list (Z * list pcl)) (gone : list pcl) (i : Z) : list V :=
  flat_map (fun '(t, qs) => map val (filter (fun p => (q_id p =? i) && (q_time p =? t)) qs)) regs ++
  map val (filter (fun p => q_id p =? i) gone).

(** A matrix with one row per particle that has a history, by id, holding its history and then missing values up to the
    length of the longest. *)
Definition rows_of (hist : Z -> list V) (rows : list (list (option V))) : Prop :=
  exists ids width,
    StronglySorted Z.lt ids /\ (forall i, In i ids <-> hist i <> []) /\
    rows = map (fun i => map Some (hist i) ++ repeat None (width - length (hist i))%nat) ids /\
    (forall i, (length (hist i) <= width)%nat) /\
    (width = O \/ exists i, In i ids /\ length (hist i) = width).

(** One variable of a matrix of particles. *)
Definition column (val : pcl -> V) (states : list (list (option pcl))) : list (list (option V)) := map (map (option_map val)) states.

(** The ids of the particles that were released during the run. *)
Definition released (batch : Z -> list pcl) (tr : list sev) : list Z := flat_map (fun t => map (@q_id X) (batch t)) (release_times tr).
End S.

(** Every particle of a matrix. *)
Definition each_state {X} (P : pcl X -> Prop) (states : list (list (option (pcl X)))) : Prop :=
  Forall (Forall (fun o => match o with Some p => P p | None => True end)) states.
