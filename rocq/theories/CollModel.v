(** Model of the structure-of-arrays particle store.

    Source: parcels/particlesets/collectionsoa.py, parcels/particlesets/particlesetsoa.py,
    parcels/particle.py (class attribute [lastID]).

    A collection object owns a *reference* to a Python dict of numpy arrays ([_data]); the heap of
    dicts is explicit so that aliasing between collections is visible.
    [V] is the type of the values held by the particle variables other than id and state. *)
From Coq Require Import String List ZArith Bool Arith.
Import ListNotations.
Open Scope Z_scope.

(** statuscodes.py 10-26 (class attributes of StateCode / OperationCode / ErrorCode). *)
Definition st_Success : Z := 0.
Definition st_Evaluate : Z := 1.
Definition op_Repeat : Z := 2.
Definition op_Delete : Z := 3.
Definition op_StopExecution : Z := 4.
Definition err_Error : Z := 5.
Definition err_OutOfBounds : Z := 6.
Definition err_TimeExtrapolation : Z := 7.
Definition err_Interpolation : Z := 51.
Definition err_ThroughSurface : Z := 61.

(** Python exceptions that the modelled operations can raise. *)
Inductive pyerr : Type :=
| EAssert | EValue | EIndex | EKey | ENoSuchSet | EType.

Section Coll.
Context {V : Type}.

(** collectionsoa.py 140-147, 157-173: [self._data], one array per variable.  The columns 'id' and
    'state' are singled out because the code reads them; all other columns are in [d_vars]. *)
Record dict := mkDict {
  d_id    : list Z;
  d_state : list Z;
  d_vars  : list (string * list V)
}.

(** collectionsoa.py 70-197: attributes of a ParticleCollectionSOA used here
    ([_data] as a reference, [_ncount], [_sorted]). *)
Record coll := mkColl {
  c_ref    : nat;
  c_ncount : Z;
  c_sorted : bool
}.

(** The Python process: the dicts, the collections (in creation order), and
    [_Particle.lastID] (particle.py 121, 157-159). *)
Record world := mkWorld {
  w_heap  : list dict;
  w_colls : list coll;
  w_last  : Z
}.

Definition world0 : world := mkWorld [] [] 0.

(** [np.all(np.diff(pid) >= 0)], collectionsoa.py 81. *)
Fixpoint all_diff_nonneg (l : list Z) : bool :=
  match l with
  | x :: ((y :: _) as t) => (0 <=? y - x) && all_diff_nonneg t
  | _ => true
  end.

(** [np.max(pid)] on a non-empty array, collectionsoa.py 98. *)
Fixpoint list_max_from (m : Z) (l : list Z) : Z :=
  match l with [] => m | x :: t => list_max_from (Z.max m x) t end.

(** collectionsoa.py 98: [offset = np.max(pid) if len(pid) > 0 else -1]. *)
Definition id_offset (pid : list Z) : Z :=
  match pid with [] => -1 | x :: t => list_max_from x t end.

(** [np.arange(n)], particlesetsoa.py 92. *)
Definition arange (n : nat) : list Z := map Z.of_nat (seq 0 n).

(** numpy index normalisation: a negative index counts from the end; out of range is an IndexError. *)
Definition norm_index (n : nat) (k : Z) : option nat :=
  if (0 <=? k) && (k <? Z.of_nat n) then Some (Z.to_nat k)
  else if (- Z.of_nat n <=? k) && (k <? 0) then Some (Z.to_nat (k + Z.of_nat n))
  else None.

Fixpoint norm_indices (n : nat) (ks : list Z) : option (list nat) :=
  match ks with
  | [] => Some []
  | k :: t => match norm_index n k, norm_indices n t with
              | Some a, Some b => Some (a :: b)
              | _, _ => None
              end
  end.

(** [np.delete(arr, idx, axis=0)]: a copy of [arr] without the rows whose position is in [idx]. *)
Fixpoint np_delete_from {A} (pos : nat) (idx : list nat) (l : list A) : list A :=
  match l with
  | [] => []
  | x :: t => if existsb (Nat.eqb pos) idx then np_delete_from (S pos) idx t
              else x :: np_delete_from (S pos) idx t
  end.
Definition np_delete {A} (idx : list nat) (l : list A) : list A := np_delete_from 0 idx l.

Definition dict_delete (idx : list nat) (d : dict) : dict :=
  mkDict (np_delete idx (d_id d)) (np_delete idx (d_state d))
         (map (fun nc => (fst nc, np_delete idx (snd nc))) (d_vars d)).

(** [arr[k] = v] in place. *)
Fixpoint list_set {A} (l : list A) (k : nat) (v : A) : list A :=
  match l, k with
  | [], _ => []
  | _ :: t, O => v :: t
  | x :: t, S k' => x :: list_set t k' v
  end.

Definition dict_set_state (k : nat) (s : Z) (d : dict) : dict :=
  mkDict (d_id d) (list_set (d_state d) k s) (d_vars d).

Definition dict_set_var (name : string) (k : nat) (v : V) (d : dict) : dict :=
  mkDict (d_id d) (d_state d)
         (map (fun nc => if String.eqb (fst nc) name then (fst nc, list_set (snd nc) k v) else nc)
              (d_vars d)).

Fixpoint assoc {A} (name : string) (l : list (string * A)) : option A :=
  match l with
  | [] => None
  | (n, a) :: t => if String.eqb n name then Some a else assoc name t
  end.

(** [for d in self._data: self._data[d] = np.concatenate((x[d], y[d]))]; the iteration is over the
    columns of [self] ([keys]); a column missing in the other dict is a KeyError. *)
Fixpoint concat_vars (keys x y : list (string * list V)) : option (list (string * list V)) :=
  match keys with
  | [] => Some []
  | (n, _) :: t =>
      match assoc n x, assoc n y, concat_vars t x y with
      | Some a, Some b, Some r => Some ((n, a ++ b) :: r)
      | _, _, _ => None
      end
  end.
Definition dict_concat (self x y : dict) : option dict :=
  match concat_vars (d_vars self) (d_vars x) (d_vars y) with
  | Some vs => Some (mkDict (d_id x ++ d_id y) (d_state x ++ d_state y) vs)
  | None => None
  end.

(** Python's bisect.bisect_left (used at collectionsoa.py 285, 373, 535, 591):
    binary search between [lo] and [hi]. *)
Fixpoint bisect_loop (fuel : nat) (a : list Z) (x : Z) (lo hi : nat) : nat :=
  match fuel with
  | O => lo
  | S f =>
      if (lo <? hi)%nat then
        let mid := Nat.div2 (lo + hi) in
        match nth_error a mid with
        | Some v => if v <? x then bisect_loop f a x (S mid) hi else bisect_loop f a x lo mid
        | None => lo
        end
      else lo
  end.
Definition bisect_left (a : list Z) (x : Z) : nat :=
  bisect_loop (S (length a)) a x 0 (length a).

(** [np.where(arr == id)[0][0]]: first position, IndexError when there is none. *)
Fixpoint where_first_from (pos : nat) (x : Z) (l : list Z) : option nat :=
  match l with
  | [] => None
  | y :: t => if y =? x then Some pos else where_first_from (S pos) x t
  end.

(** collectionsoa.py 282-289, 532-540, 588-596: id -> position, by binary or linear search. *)
Definition index_of_id (sorted : bool) (ids : list Z) (x : Z) : nat + pyerr :=
  if sorted then
    let index := bisect_left ids x in
    match nth_error ids index with
    | None => inr EValue                       (* index == len(ids) *)
    | Some v => if v =? x then inl index else inr EValue
    end
  else
    match where_first_from 0 x ids with
    | Some k => inl k
    | None => inr EIndex
    end.

(** [np.where(np.in1d(ids, xs))[0]], collectionsoa.py 360 and 669. *)
Fixpoint where_in_from (pos : nat) (xs : list Z) (l : list Z) : list nat :=
  match l with
  | [] => []
  | y :: t => if existsb (Z.eqb y) xs then pos :: where_in_from (S pos) xs t
              else where_in_from (S pos) xs t
  end.

(** Python slice [l[low:high]] for 0 <= low, 0 <= high. *)
Definition slice {A} (l : list A) (low high : nat) : list A := firstn (high - low) (skipn low l).

(** collectionsoa.py 364-397: [_recursive_ID_lookup].  [inr EIndex] for [sublist[median]] on an empty
    list (373); [inr EValue] for line 397: np.concatenate refuses the 0-dimensional
    [np.array(index)]. *)
Fixpoint rec_lookup (fuel : nat) (ids : list Z) (low high : nat) (sub : list Z)
  : option (list nat + pyerr) :=
  match fuel with
  | O => None
  | S f =>
      let median := Nat.div2 (length sub) in
      match nth_error sub median with
      | None => Some (inr EIndex)
      | Some m =>
          let index := bisect_left (slice ids low high) m in
          if (length sub =? 1)%nat then
            match nth_error ids index with
            | None => Some (inl [])
            | Some v => if v =? m then Some (inl [index]) else Some (inl [])
            end
          else
            match nth_error ids index with
            | None => rec_lookup f ids low high (np_delete [median] sub)
            | Some v =>
                if negb (v =? m) then
                  match rec_lookup f ids low index (firstn median sub) with
                  | Some (inl l) =>
                      match rec_lookup f ids index high (skipn (S median) sub) with
                      | Some (inl r) => Some (inl (l ++ r))
                      | o => o
                      end
                  | o => o
                  end
                else
                  match rec_lookup f ids low index (firstn median sub) with
                  | Some (inl l) =>
                      match rec_lookup f ids (S index) high (skipn (S median) sub) with
                      | Some (inl r) => Some (inr EValue)
                      | o => o
                      end
                  | o => o
                  end
            end
      end
  end.

(** Insertion sort standing for np.sort (collectionsoa.py 357, 666). *)
Fixpoint insert_sorted (x : Z) (l : list Z) : list Z :=
  match l with
  | [] => [x]
  | y :: t => if x <=? y then x :: l else y :: insert_sorted x t
  end.
Fixpoint np_sort (l : list Z) : list Z :=
  match l with [] => [] | x :: t => insert_sorted x (np_sort t) end.

(** collectionsoa.py 346-360 and 655-669: positions of a list of ids ([None]: fuel exhausted, which
    CollProofs excludes). *)
Definition indices_of_ids (sorted : bool) (ids xs : list Z) : option (list nat + pyerr) :=
  match xs with
  | [] => Some (inl [])
  | _ => if sorted then rec_lookup (S (length xs)) ids 0 (length ids) (np_sort xs)
         else Some (inl (where_in_from 0 xs ids))
  end.

(** One call of the public API of particle sets. Sets are named by creation order. *)
Inductive op : Type :=
| New (pid_orig : option (list Z)) (size : nat) (cols : list (string * list V))
                                               (* ParticleSet(...)                        *)
| Add (i j : nat)                              (* pset_i.add(pset_j), pset_i += pset_j     *)
| RemoveIndex (i : nat) (k : Z)                (* pset_i.remove_indices(k)                 *)
| RemoveIndices (i : nat) (ks : list Z)        (* pset_i.remove_indices([..])              *)
| RemoveBool (i : nat) (bs : list bool)        (* pset_i.remove_booleanvector(..)          *)
| RemoveID (i : nat) (x : Z)                   (* collection.remove_single_by_ID           *)
| RemoveIDs (i : nat) (xs : list Z)            (* collection.remove_multi_by_IDs           *)
| DeleteIndex (i : nat) (k : Z)                (* collection.delete_by_index / p.delete()  *)
| DeleteID (i : nat) (x : Z)                   (* collection.delete_by_ID                  *)
| SetVar (i : nat) (name : string) (k : Z) (v : V)   (* pset_i[k].name = v                 *)
| GetID (i : nat) (x : Z)                      (* collection.get_single_by_ID              *)
| GetIDs (i : nat) (xs : list Z).              (* collection.get_multi_by_IDs              *)

Inductive out : Type :=
| ODone
| OIndex (k : nat)
| OIndices (ks : list nat)
| ORaise (e : pyerr)
| OFuel.                                       (* never produced, see CollProofs           *)

Definition get_coll (w : world) (i : nat) : option (coll * dict) :=
  match nth_error (w_colls w) i with
  | None => None
  | Some c => match nth_error (w_heap w) (c_ref c) with
              | None => None
              | Some d => Some (c, d)
              end
  end.

(** Assignment to entries of the dict a collection refers to, and to its own fields. *)
Definition put (w : world) (i : nat) (c : coll) (d : dict) : world :=
  mkWorld (list_set (w_heap w) (c_ref c) d) (list_set (w_colls w) i c) (w_last w).

(** particlesetsoa.py 78-158 with collectionsoa.py 70-197, reduced to ids, sizes and columns.
    Not modelled: MPI (one process), Variable initialisers (the initial columns are given), the
    broadcasting of a length-1 [pid_orig]. *)
Definition do_new (w : world) (pid_orig : option (list Z)) (size : nat)
           (cols : list (string * list V)) : world * out :=
  let pid0 := match pid_orig with None => arange size | Some l => l end in
  let pid := map (fun k => k + w_last w) pid0 in                                  (* 79 *)
  let sorted := all_diff_nonneg pid in                                            (* 81 *)
  if negb (forallb (fun nc => (length (snd nc) =? size)%nat) cols) then
    (w, ORaise EAssert)                                                           (* 84-96 *)
  else
    let w' := mkWorld (w_heap w) (w_colls w) (id_offset pid + 1) in               (* 98, 128 *)
    if negb (length pid =? size)%nat then (w', ORaise EValue)                     (* 161 *)
    else
      (mkWorld (w_heap w ++ [mkDict pid (repeat st_Evaluate size) cols])
               (w_colls w ++ [mkColl (length (w_heap w)) (Z.of_nat size) sorted])
               (w_last w'), ODone).

(** collectionsoa.py 415-443 [add_same]. *)
Definition do_add (w : world) (i j : nat) : world * out :=
  match get_coll w i, get_coll w j with
  | Some (ci, di), Some (cj, dj) =>
      if c_ncount cj =? 0 then (w, ODone)                                         (* 423-424 *)
      else if c_ncount ci =? 0 then                                               (* 426-429 *)
        (mkWorld (w_heap w)
                 (list_set (w_colls w) i (mkColl (c_ref cj) (c_ncount cj) (c_sorted ci)))
                 (w_last w), ODone)
      else
        match d_id di, d_id dj with
        | _ :: _, _ :: _ =>
          let i0 := hd 0 (d_id di) in let il := last (d_id di) 0 in
          let j0 := hd 0 (d_id dj) in let jl := last (d_id dj) 0 in
          if c_sorted ci && c_sorted cj && (jl <? i0) then                        (* 432-436 *)
            match dict_concat di dj di with
            | Some d => (put w i (mkColl (c_ref ci) (c_ncount ci + c_ncount cj) (c_sorted ci)) d, ODone)
            | None => (w, ORaise EKey)
            end
          else                                                                    (* 437-443 *)
            let s := if negb (c_sorted cj && (il <? j0)) then false else c_sorted ci in
            match dict_concat di di dj with
            | Some d => (put w i (mkColl (c_ref ci) (c_ncount ci + c_ncount cj) s) d, ODone)
            | None => (w, ORaise EKey)
            end
        | _, _ => (w, ORaise EIndex)                                              (* ids[0] of an empty array *)
        end
  | _, _ => (w, ORaise ENoSuchSet)
  end.

(** collectionsoa.py 554-559 [remove_single_by_index]. *)
Definition remove_at (w : world) (i : nat) (c : coll) (d : dict) (k : nat) : world :=
  put w i (mkColl (c_ref c) (c_ncount c - 1) (c_sorted c)) (dict_delete [k] d).

(** collectionsoa.py 640-647 [remove_multi_by_indices]. *)
Definition remove_many (w : world) (i : nat) (c : coll) (d : dict) (ks : list nat) : world :=
  put w i (mkColl (c_ref c) (c_ncount c - Z.of_nat (length ks)) (c_sorted c)) (dict_delete ks d).

(** [np.where(bool_vector)[0]], particlesetsoa.py 460. *)
Fixpoint where_true_from (pos : nat) (bs : list bool) : list nat :=
  match bs with
  | [] => []
  | b :: t => if b then pos :: where_true_from (S pos) t else where_true_from (S pos) t
  end.

Definition step (w : world) (o : op) : world * out :=
  match o with
  | New pid n cols => do_new w pid n cols
  | Add i j => do_add w i j
  | RemoveIndex i k =>                                   (* particlesetsoa.py 451-454 *)
      match get_coll w i with
      | None => (w, ORaise ENoSuchSet)
      | Some (c, d) => match norm_index (length (d_id d)) k with
                       | None => (w, ORaise EIndex)
                       | Some p => (remove_at w i c d p, ODone)
                       end
      end
  | RemoveIndices i ks =>                                (* particlesetsoa.py 455-456 *)
      match get_coll w i with
      | None => (w, ORaise ENoSuchSet)
      | Some (c, d) => match norm_indices (length (d_id d)) ks with
                       | None => (w, ORaise EIndex)
                       | Some ps => (remove_many w i c d ps, ODone)
                       end
      end
  | RemoveBool i bs =>                                   (* particlesetsoa.py 458-460 *)
      match get_coll w i with
      | None => (w, ORaise ENoSuchSet)
      | Some (c, d) =>
          let ks := where_true_from 0 bs in
          if forallb (fun k => (k <? length (d_id d))%nat) ks
          then (remove_many w i c d ks, ODone)
          else (w, ORaise EIndex)
      end
  | RemoveID i x =>                                      (* collectionsoa.py 577-598 *)
      match get_coll w i with
      | None => (w, ORaise ENoSuchSet)
      | Some (c, d) => match index_of_id (c_sorted c) (d_id d) x with
                       | inr e => (w, ORaise e)
                       | inl k => (remove_at w i c d k, ODone)
                       end
      end
  | RemoveIDs i xs =>                                    (* collectionsoa.py 649-671 *)
      match get_coll w i with
      | None => (w, ORaise ENoSuchSet)
      | Some (c, d) => match indices_of_ids (c_sorted c) (d_id d) xs with
                       | None => (w, OFuel)
                       | Some (inr e) => (w, ORaise e)
                       | Some (inl ks) => (remove_many w i c d ks, ODone)
                       end
      end
  | DeleteIndex i k =>                                   (* collectionsoa.py 510-520 *)
      match get_coll w i with
      | None => (w, ORaise ENoSuchSet)
      | Some (c, d) => match norm_index (length (d_id d)) k with
                       | None => (w, ORaise EIndex)
                       | Some p => (put w i c (dict_set_state p op_Delete d), ODone)
                       end
      end
  | DeleteID i x =>                                      (* collectionsoa.py 522-542 *)
      match get_coll w i with
      | None => (w, ORaise ENoSuchSet)
      | Some (c, d) => match index_of_id (c_sorted c) (d_id d) x with
                       | inr e => (w, ORaise e)
                       | inl p => (put w i c (dict_set_state p op_Delete d), ODone)
                       end
      end
  | SetVar i name k v =>                                 (* collectionsoa.py 933-943 *)
      match get_coll w i with
      | None => (w, ORaise ENoSuchSet)
      | Some (c, d) =>
          match norm_index (length (d_id d)) k, assoc name (d_vars d) with
          | None, _ => (w, ORaise EIndex)
          | _, None => (w, ORaise EKey)
          | Some p, Some _ => (put w i c (dict_set_var name p v d), ODone)
          end
      end
  | GetID i x =>                                         (* collectionsoa.py 269-291 *)
      match get_coll w i with
      | None => (w, ORaise ENoSuchSet)
      | Some (c, d) => match index_of_id (c_sorted c) (d_id d) x with
                       | inr e => (w, ORaise e)
                       | inl k => (w, OIndex k)
                       end
      end
  | GetIDs i xs =>                                       (* collectionsoa.py 334-362 *)
      match get_coll w i with
      | None => (w, ORaise ENoSuchSet)
      | Some (c, d) => match indices_of_ids (c_sorted c) (d_id d) xs with
                       | None => (w, OFuel)
                       | Some (inr e) => (w, ORaise e)
                       | Some (inl ks) => (w, OIndices ks)
                       end
      end
  end.

(** A session: the operations in order; each operation yields an outcome. *)
Fixpoint run (w : world) (ops : list op) : world * list out :=
  match ops with
  | [] => (w, [])
  | o :: t => let '(w1, r) := step w o in
              let '(w2, rs) := run w1 t in (w2, r :: rs)
  end.

(** What a user sees of set [i]: [len(pset)] (collections.py [__len__] returns [_ncount]) and, by
    iteration (iterator over [range(len(pcoll))], collectionsoa.py 986-990, accessor 922-931), the
    [k]-th particle: its id, state and variables. *)
Record prec := mkPrec { p_id : Z; p_state : Z; p_vals : list (string * V) }.

Fixpoint row_vals (k : nat) (vs : list (string * list V)) : option (list (string * V)) :=
  match vs with
  | [] => Some []
  | (n, c) :: t => match nth_error c k, row_vals k t with
                   | Some v, Some r => Some ((n, v) :: r)
                   | _, _ => None
                   end
  end.
Definition row (d : dict) (k : nat) : option prec :=
  match nth_error (d_id d) k, nth_error (d_state d) k, row_vals k (d_vars d) with
  | Some i, Some s, Some vs => Some (mkPrec i s vs)
  | _, _, _ => None
  end.

(** Iterating over a set: [None] if some access is an IndexError. *)
Fixpoint rows_upto (d : dict) (ks : list nat) : option (list prec) :=
  match ks with
  | [] => Some []
  | k :: t => match row d k, rows_upto d t with
              | Some r, Some rs => Some (r :: rs)
              | _, _ => None
              end
  end.
Definition iterate (w : world) (i : nat) : option (list prec) :=
  match get_coll w i with
  | None => None
  | Some (c, d) => rows_upto d (seq 0 (Z.to_nat (c_ncount c)))
  end.
Definition set_len (w : world) (i : nat) : option Z :=
  match get_coll w i with None => None | Some (c, _) => Some (c_ncount c) end.

End Coll.

Arguments dict : clear implicits.
Arguments world : clear implicits.
Arguments op : clear implicits.
Arguments prec : clear implicits.
