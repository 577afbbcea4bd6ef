(** What should be in an output file, in terms of the writes that were made (C18-C20). *)
From Coq Require Import String List ZArith Bool Sorted.
From Verif Require Import CollModel OutModel.
Import ListNotations.
Open Scope Z_scope.

Section S.
Context {V : Type}.

(** A particle is active at a write when its own time is within half a time step of it. *)
Definition active (time : Z) (p : wp V) : bool := 2 * Z.abs (time - w_time p) <=? Z.abs (w_dt p).

(** The particles that a boolean vector points at. *)
Definition pointed (m : list bool) (ps : list (wp V)) : list (wp V) :=
  map snd (filter fst (combine m ps)).

(** The particles one write should record. *)
Definition to_record (time : Z) (m : dmode) (ps : list (wp V)) : list (wp V) :=
  match m with
  | DFalse => filter (active time) ps
  | DTrue => filter (fun p => w_st p =? op_Delete) ps
  | DMask b => pointed b ps
  end.

(** What a sequence of writes should have recorded. [last]: the time of the last regular write. A write
    at that same time records nothing; with write_ondelete, regular writes record nothing. *)
Fixpoint expected (ondelete : bool) (last : option Z) (ws : list (Z * dmode * list (wp V)))
  : list (Z * list (wp V)) :=
  match ws with
  | [] => []
  | (t, m, ps) :: rest =>
      if (match last with Some l => l =? t | None => false end)
         || (ondelete && match m with DFalse => true | _ => false end)
      then expected ondelete last rest
      else (t, to_record t m ps)
             :: expected ondelete (match m with DFalse => Some t | _ => last end) rest
  end.

(** The writes that take place, with the whole set (for the 'once' variables). *)
Fixpoint effective (ondelete : bool) (last : option Z) (ws : list (Z * dmode * list (wp V)))
  : list (Z * list (wp V)) :=
  match ws with
  | [] => []
  | (t, m, ps) :: rest =>
      if (match last with Some l => l =? t | None => false end)
         || (ondelete && match m with DFalse => true | _ => false end)
      then effective ondelete last rest
      else (t, ps) :: effective ondelete (match m with DFalse => Some t | _ => last end) rest
  end.

(** The values of [var] recorded for particle [i], in order; the times at which it was recorded. *)
Definition values (i : Z) (var : string) (log : list (Z * list (wp V))) : list V :=
  flat_map (fun tp => map (fun p => w_val p var) (filter (fun p => w_id p =? i) (snd tp))) log.
Definition recorded_at (i : Z) (log : list (Z * list (wp V))) : list Z :=
  flat_map (fun tp => map (fun _ => fst tp) (filter (fun p => w_id p =? i) (snd tp))) log.

(** Sets handed to write: ids distinct and not negative, boolean vectors of the right length; with
    deleted_only=True the deleted particles are not just the very first one of the set. *)
Definition good_write (w : Z * dmode * list (wp V)) : Prop :=
  let '(t, m, ps) := w in
  NoDup (map w_id ps) /\ Forall (fun p => 0 <= w_id p) ps /\
  match m with
  | DMask b => length b = length ps
  | DTrue => (exists p, In p (tl ps) /\ w_st p = op_Delete) \/ (forall p, In p ps -> w_st p <> op_Delete)
  | DFalse => True
  end.

Definition nonempty {A} (l : list A) : bool := match l with [] => false | _ => true end.

(** A write of deleted particles that has at least one to record. *)
Definition records_something (w : Z * dmode * list (wp V)) : Prop :=
  let '(t, m, ps) := w in
  match m with
  | DFalse => True
  | _ => to_record t m ps <> []
  end.

(** The exported matrix [rows] of [var] is what [log] says: a row per recorded particle, by id, holding
    its values in order and then missing values up to the length of the longest row. *)
Definition exact_matrix (var : string) (log : list (Z * list (wp V))) (rows : list (list (option V))) : Prop :=
  exists ids width,
    StronglySorted Z.lt ids /\
    (forall i, In i ids <-> recorded_at i log <> []) /\
    rows = map (fun i => map Some (values i var log) ++
                         repeat None (width - length (values i var log))%nat) ids /\
    (forall i, (length (values i var log) <= width)%nat) /\
    (width = O \/ exists i, In i ids /\ length (values i var log) = width).

(** The appearances of particle [i] as active and started, in the writes that take place. *)
Definition appearances (close : Z -> Z -> bool) (i : Z) (eff : list (Z * list (wp V))) : list (wp V) :=
  flat_map (fun tp => filter (fun p => (w_id p =? i) && active (fst tp) p &&
     ((w_dt p * w_time p <=? w_dt p * fst tp) || close (w_time p) (fst tp))) (snd tp)) eff.

(** What the 'once' files hold for particle [i]. *)
Definition once_values (i : Z) (var : string) (fs : list (npy V)) : list V :=
  flat_map (fun f => match assoc var (n_cols f) with
                     | Some vals => map snd (filter (fun iv => fst iv =? i) (combine (n_ids f) vals))
                     | None => []
                     end) fs.
End S.
