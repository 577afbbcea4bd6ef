(** Specification of particle sets as seen by a user: every set is a list of records, one per
    particle.  Nothing here mentions columns, dicts, references, [_ncount] or the sorted flag. *)
From Coq Require Import String List ZArith Bool Arith Sorting.Sorted.
From Verif Require Import CollModel.
Import ListNotations.
Open Scope Z_scope.

Section Spec.
Context {V : Type}.
Notation rec := (prec V).

(** [rows'] are the records of [rows] whose position is not in [ks], in the same order. *)
Definition removed_exactly (rows : list rec) (ks : list nat) (rows' : list rec) : Prop :=
  exists pos : list nat,
    StronglySorted lt pos /\
    (forall p, In p pos <-> (p < length rows)%nat /\ ~ In p ks) /\
    map Some rows' = map (nth_error rows) pos.

(** [rows'] is [rows] with [f] applied to the record at position [k] and to nothing else. *)
Definition updated_at (rows : list rec) (k : nat) (f : rec -> rec) (rows' : list rec) : Prop :=
  (k < length rows)%nat /\
  forall m, nth_error rows' m =
            if Nat.eqb m k then option_map f (nth_error rows m) else nth_error rows m.

Definition with_state (s : Z) (r : rec) : rec := mkPrec (p_id r) s (p_vals r).
Definition with_val (name : string) (v : V) (r : rec) : rec :=
  mkPrec (p_id r) (p_state r)
         (map (fun nv => if String.eqb (fst nv) name then (fst nv, v) else nv) (p_vals r)).

(** Python index [k] into a sequence of length [n] means position [p]. *)
Definition means_position (n : nat) (k : Z) (p : nat) : Prop :=
  (p < n)%nat /\ (Z.of_nat p = k \/ Z.of_nat p = k + Z.of_nat n).

(** [k] is the first position holding a particle with identity [x]. *)
Definition first_with_id (rows : list rec) (x : Z) (k : nat) : Prop :=
  (exists r, nth_error rows k = Some r /\ p_id r = x) /\
  forall m r, (m < k)%nat -> nth_error rows m = Some r -> p_id r <> x.

Definition has_id (rows : list rec) (x : Z) : Prop := exists r, In r rows /\ p_id r = x.

(** [ks] are exactly the positions of particles with identity in [xs], in increasing order. *)
Definition positions_of (rows : list rec) (xs : list Z) (ks : list nat) : Prop :=
  StronglySorted lt ks /\
  forall k, In k ks <-> exists r, nth_error rows k = Some r /\ In (p_id r) xs.

Definition increasing_ids (rows : list rec) : Prop := StronglySorted Z.le (map (@p_id V) rows).

(** The records a construction must produce from its arguments. *)
Definition built_from (ids : list Z) (cols : list (string * list V)) (rows : list rec) : Prop :=
  length rows = length ids /\
  forall k r, nth_error rows k = Some r ->
    nth_error ids k = Some (p_id r) /\ p_state r = st_Evaluate /\
    Forall2 (fun nc nv => fst nc = fst nv /\ nth_error (snd nc) k = Some (snd nv)) cols (p_vals r).

(** Abstract state. [None]: the set was merged into an empty set and must not be used any more
    (see [add_to_empty_shares_storage_refuted] in CollProps). *)
Record spec : Type := mkSpec { s_sets : list (option (list rec)); s_last : Z }.
Definition spec0 : spec := mkSpec [] 0.

Definition live (s : spec) (i : nat) (rows : list rec) : Prop :=
  nth_error (s_sets s) i = Some (Some rows).
Definition set_to (s : spec) (i : nat) (x : option (list rec)) : spec :=
  mkSpec (list_set (s_sets s) i x) (s_last s).
Definition no_such (s : spec) (i : nat) : Prop := nth_error (s_sets s) i = None.

Definition fails (s s' : spec) (r : out) : Prop := s' = s /\ exists e, r = ORaise e.

Definition good_new (s : spec) (pid : option (list Z)) (n : nat) (cols : list (string * list V)) :=
  (forall nc, In nc cols -> length (snd nc) = n) /\
  match pid with None => True | Some l => length l = n end.
Definition new_ids (s : spec) (pid : option (list Z)) (n : nat) : list Z :=
  match pid with
  | None => map (fun k => Z.of_nat k + s_last s) (seq 0 n)
  | Some l => map (fun x => x + s_last s) l
  end.
(** One more than the largest of the ids; 0 if there are none. *)
Definition next_last (ids : list Z) (m : Z) : Prop :=
  (ids = [] /\ m = 0) \/ (In (m - 1) ids /\ forall x, In x ids -> x < m).

Definition spec_step (s : spec) (o : op V) (s' : spec) (r : out) : Prop :=
  match o with
  | New pid n cols =>
      (good_new s pid n cols /\ r = ODone /\
       exists rows, built_from (new_ids s pid n) cols rows /\
                    s_sets s' = s_sets s ++ [Some rows] /\
                    next_last (new_ids s pid n) (s_last s'))
      \/ (~ good_new s pid n cols /\ s_sets s' = s_sets s /\ exists e, r = ORaise e)
  | Add i j =>
      (exists li lj, live s i li /\ live s j lj /\ r = ODone /\
        ((lj = [] /\ s' = s) \/
         (lj <> [] /\ li = [] /\ s' = set_to (set_to s i (Some lj)) j None) \/
         (lj <> [] /\ li <> [] /\ s' = set_to s i (Some (li ++ lj))) \/
         (lj <> [] /\ li <> [] /\ s' = set_to s i (Some (lj ++ li)))))
      \/ ((no_such s i \/ no_such s j) /\ fails s s' r)
  | RemoveIndex i k =>
      (exists l l' p, live s i l /\ means_position (length l) k p /\ removed_exactly l [p] l' /\
                      s' = set_to s i (Some l') /\ r = ODone)
      \/ (exists l, live s i l /\ (forall p, ~ means_position (length l) k p) /\ fails s s' r)
      \/ (no_such s i /\ fails s s' r)
  | RemoveIndices i ks =>
      (exists l l' ps, live s i l /\ Forall2 (means_position (length l)) ks ps /\
                       removed_exactly l ps l' /\ s' = set_to s i (Some l') /\ r = ODone)
      \/ (exists l, live s i l /\ (forall ps, ~ Forall2 (means_position (length l)) ks ps) /\ fails s s' r)
      \/ (no_such s i /\ fails s s' r)
  | RemoveBool i bs =>
      (exists l l' ps, live s i l /\ StronglySorted lt ps /\
                       (forall p, In p ps <-> nth_error bs p = Some true) /\
                       (forall p, In p ps -> (p < length l)%nat) /\
                       removed_exactly l ps l' /\ s' = set_to s i (Some l') /\ r = ODone)
      \/ (exists l p, live s i l /\ nth_error bs p = Some true /\ (length l <= p)%nat /\ fails s s' r)
      \/ (no_such s i /\ fails s s' r)
  | RemoveID i x =>
      (exists l l' p, live s i l /\ first_with_id l x p /\ removed_exactly l [p] l' /\
                      s' = set_to s i (Some l') /\ r = ODone)
      \/ (exists l, live s i l /\ ~ has_id l x /\ fails s s' r)
      \/ (no_such s i /\ fails s s' r)
  | RemoveIDs i xs =>
      (exists l l' ps, live s i l /\ positions_of l xs ps /\ removed_exactly l ps l' /\
                       s' = set_to s i (Some l') /\ r = ODone)
      \/ (no_such s i /\ fails s s' r)
  | DeleteIndex i k =>
      (exists l l' p, live s i l /\ means_position (length l) k p /\
                      updated_at l p (with_state op_Delete) l' /\
                      s' = set_to s i (Some l') /\ r = ODone)
      \/ (exists l, live s i l /\ (forall p, ~ means_position (length l) k p) /\ fails s s' r)
      \/ (no_such s i /\ fails s s' r)
  | DeleteID i x =>
      (exists l l' p, live s i l /\ first_with_id l x p /\
                      updated_at l p (with_state op_Delete) l' /\
                      s' = set_to s i (Some l') /\ r = ODone)
      \/ (exists l, live s i l /\ ~ has_id l x /\ fails s s' r)
      \/ (no_such s i /\ fails s s' r)
  | SetVar i name k v =>
      (exists l l' p, live s i l /\ means_position (length l) k p /\
                      updated_at l p (with_val name v) l' /\
                      s' = set_to s i (Some l') /\ r = ODone)
      \/ (exists l, live s i l /\ fails s s' r /\
          ((forall p, ~ means_position (length l) k p) \/
           exists p r0, nth_error l p = Some r0 /\ ~ In name (map fst (p_vals r0))))
      \/ (no_such s i /\ fails s s' r)
  | GetID i x =>
      (exists l p, live s i l /\ first_with_id l x p /\ s' = s /\ r = OIndex p)
      \/ (exists l, live s i l /\ ~ has_id l x /\ fails s s' r)
      \/ (no_such s i /\ fails s s' r)
  | GetIDs i xs =>
      (exists l ps, live s i l /\ positions_of l xs ps /\ s' = s /\ r = OIndices ps)
      \/ (no_such s i /\ fails s s' r)
  end.

(** When the specification promises something.  [names] are the variables of the particle class.
    Excluded (each exclusion has a [_refuted] theorem in CollProps showing it is needed):
    - using a set after it was added into an empty one;
    - adding a set whose ids are not increasing into an empty set;
    - naming the same position twice in one removal by positions;
    - asking for two or more ids at once from a set whose ids are increasing. *)
Definition usable (s : spec) (i : nat) : Prop := nth_error (s_sets s) i <> Some None.
Definition allowed (names : list string) (s : spec) (o : op V) : Prop :=
  match o with
  | New _ _ cols => map fst cols = names
  | Add i j =>
      usable s i /\ usable s j /\
      (forall lj, live s i [] -> live s j lj -> increasing_ids lj)
  | RemoveIndices i ks =>
      usable s i /\ (forall l ps, live s i l -> Forall2 (means_position (length l)) ks ps -> NoDup ps)
  | RemoveIDs i xs | GetIDs i xs =>
      usable s i /\ ((length xs <= 1)%nat \/ forall l, live s i l -> ~ increasing_ids l) /\
      (forall l, live s i l -> NoDup (map (@p_id V) l))
  | RemoveIndex i _ | RemoveBool i _ | RemoveID i _ | DeleteIndex i _ | DeleteID i _
  | SetVar i _ _ _ | GetID i _ => usable s i
  end.

(** Abstract runs and histories all of whose operations are allowed whatever choice the
    specification leaves open. *)
Inductive spec_run : spec -> list (op V) -> spec -> list out -> Prop :=
| sr_nil : forall s, spec_run s [] s []
| sr_cons : forall s o s1 r ops s2 rs,
    spec_step s o s1 r -> spec_run s1 ops s2 rs -> spec_run s (o :: ops) s2 (r :: rs).

Fixpoint guarded (names : list string) (s : spec) (ops : list (op V)) : Prop :=
  match ops with
  | [] => True
  | o :: t => allowed names s o /\ forall s' r, spec_step s o s' r -> guarded names s' t
  end.

(** What the user observes of the concrete world equals the abstract state. *)
Definition observed (w : world V) (s : spec) : Prop :=
  length (w_colls w) = length (s_sets s) /\
  forall i rows, live s i rows ->
    iterate w i = Some rows /\ set_len w i = Some (Z.of_nat (length rows)).

(** [w] is the state of the program after the session [ops], and the next operation [o] is allowed. *)
Definition session (names : list string) (ops : list (op V)) (o : op V) (w : world V) : Prop :=
  NoDup names /\ guarded names spec0 (ops ++ [o]) /\ w = fst (run world0 ops).

(** The set an operation is applied to. *)
Definition target (w : world V) (o : op V) : nat :=
  match o with
  | New _ _ _ => length (w_colls w)
  | Add i _ | RemoveIndex i _ | RemoveIndices i _ | RemoveBool i _ | RemoveID i _ | RemoveIDs i _
  | DeleteIndex i _ | DeleteID i _ | SetVar i _ _ _ | GetID i _ | GetIDs i _ => i
  end.

(** Constructions that create at least one particle, with the default ids or with explicitly requested
    offsets that are distinct and non-negative. *)
Definition fresh_request (o : op V) : Prop :=
  match o with
  | New None n _ => (0 < n)%nat
  | New (Some l) _ _ => l <> [] /\ NoDup l /\ forall x, In x l -> 0 <= x
  | _ => True
  end.

(** The ids a user reads off every newly constructed set, in order of construction. *)
Fixpoint handed_out (w : world V) (ops : list (op V)) : list Z :=
  match ops with
  | [] => []
  | o :: t =>
      (match o with
       | New _ _ _ => match iterate (fst (step w o)) (length (w_colls w)) with
                      | Some rows => map (@p_id V) rows
                      | None => []
                      end
       | _ => []
       end) ++ handed_out (fst (step w o)) t
  end.

End Spec.
Arguments spec : clear implicits.
