(** What a set restarted from an output file should hold, in terms of the writes that were made (C42). *)
From Coq Require Import String List ZArith Bool Sorted.
From Verif Require Import CollModel OutModel OutSpec RestartModel.
Import ListNotations.
Local Open Scope string_scope.
Local Open Scope list_scope.
Local Open Scope Z_scope.

Section S.
Context {V : Type}.

(** All the records of a session of writes: what each recorded particle was at the time of the write. *)
Definition records (log : list (Z * list (wp V))) : list (wp V) := flat_map snd log.

(** The particle class of the restart is the one of the run: the file's variables are those of the class. *)
Definition is_tw (w : tw) (vw : string * tw) : bool :=
  match w, snd vw with WYes, WYes => true | WNo, WNo => true | WOnce, WOnce => true | _, _ => false end.
Definition class_ok (pvars : list (string * tw)) : Prop :=
  NoDup (map fst pvars) /\ ~ In "z" (map fst pvars) /\ ~ In "trajectory" (map fst pvars) /\
  In ("lon", WYes) pvars /\ In ("lat", WYes) pvars /\ In ("depth", WYes) pvars /\ In ("time", WYes) pvars /\ In ("id", WYes) pvars.
Definition written (pvars : list (string * tw)) : list string := map fst (filter (is_tw WYes) pvars).
Definition written_once (pvars : list (string * tw)) : list string := map fst (filter (is_tw WOnce) pvars).

(** The particles of the file, by id. *)
Definition file_ids (log : list (Z * list (wp V))) (ids : list Z) : Prop :=
  StronglySorted Z.lt ids /\ forall i, In i ids <-> exists p, In p (records log) /\ w_id p = i.
(** The records at the particle's own time [t], by id. *)
Definition records_at (log : list (Z * list (wp V))) (ids : list Z) (t : Z) : list (wp V) :=
  flat_map (fun i => filter (fun p => (w_id p =? i) && (w_time p =? t)) (records log)) ids.

(** The time asked for.  When a function of the times gives NaN, that is any time at which nothing was recorded. *)
Definition chosen_time (log : list (Z * list (wp V))) (ids : list Z) (rt : rtime) (t : Z) : Prop :=
  match rt with
  | RLast => (exists p, In p (records log) /\ w_time p = t) /\ forall p, In p (records log) -> w_time p <= t
  | RAt t' => t = t'
  | RFun g => match g (flat_map (fun i => map w_time (filter (fun p => w_id p =? i) (records log))) ids) with
              | Some t' => t = t'
              | None => forall p, In p (records log) -> w_time p <> t
              end
  end.

(** A row of the new set has the values of a record. [close], [eff]: as in C20, for the variables written once. *)
Definition has_values (pvars : list (string * tw)) (row : prec (option V)) (p : wp V) : Prop :=
  p_state row = st_Evaluate /\
  forall v, In (v, WYes) pvars -> v <> "id" -> assoc v (p_vals row) = Some (Some (w_val p v)).
Definition has_once (close : Z -> Z -> bool) (pvars : list (string * tw)) (eff : list (Z * list (wp V)))
  (row : prec (option V)) (p : wp V) : Prop :=
  forall v, In (v, WOnce) pvars ->
    exists q rest, appearances close (w_id p) eff = q :: rest /\ assoc v (p_vals row) = Some (Some (w_val q v)).

(** Records are of the particles: 'time' and 'id' are among the values. *)
Definition own_values (num : V -> Z) (log : list (Z * list (wp V))) : Prop :=
  forall p, In p (records log) -> num (w_val p "time") = w_time p /\ num (w_val p "id") = w_id p.

(** Every recorded particle has its variables that are written once in the file, and no other has. *)
Definition once_complete (close : Z -> Z -> bool) (od : bool) (ws : list (Z * dmode * list (wp V))) : Prop :=
  forall i, appearances close i (effective od None ws) <> [] <-> recorded_at i (expected od None ws) <> [].

(** A new set at the end, all the others as they were. *)
Definition only_adds (w w' : world (option V)) (rows : list (prec (option V))) : Prop :=
  iterate w' (length (w_colls w)) = Some rows /\
  length (w_colls w') = S (length (w_colls w)) /\
  (forall i, (i < length (w_colls w))%nat -> (exists r, iterate w i = Some r) -> iterate w' i = iterate w i).
End S.

(** The number the next release starts from. *)
Definition next_id (ids : list Z) (n : Z) : Prop :=
  (ids = [] -> n = 0) /\ (ids <> [] -> In (n - 1) ids) /\ forall i, In i ids -> i < n.
