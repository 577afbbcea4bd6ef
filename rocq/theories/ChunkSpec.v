(** Specification of chunked access. *)
From Coq Require Import List ZArith Bool.
From Verif Require Import IdxModel ChunkModel.
Import ListNotations.
Open Scope Z_scope.

(** Index [i] along a dimension with chunk sizes [c] is at place [l] of chunk [j]. *)
Definition chunk_of (c : list Z) (i j l : Z) : Prop :=
  exists s, 0 <= j /\ nth_error c (Z.to_nat j) = Some s /\ 0 <= l < s /\ i = zsum (firstn (Z.to_nat j) c) + l.
(** The chunk with block indices [blk] holds the point [idx]. *)
Inductive holds : chunks -> list Z -> list Z -> Prop :=
  | holds_nil : holds [] [] []
  | holds_cons : forall c cs b blk i idx l, chunk_of c i b l -> holds cs blk idx -> holds (c :: cs) (b :: blk) (i :: idx).

(** The corner of the cell at [idx] in direction [b]; along a dimension of one point there is one corner only. *)
Fixpoint corner (cs : chunks) (idx b : list Z) : list Z :=
  match cs, idx, b with
  | c :: cs', i :: idx', x :: b' => (if zsum c =? 1 then i else i + x) :: corner cs' idx' b'
  | _, _, _ => []
  end.
(** Chunk number [bid] holds a corner of the cell. *)
Definition needed (cs : chunks) (idx : list Z) (bid : Z) : Prop :=
  0 <= bid < npartitions cs /\ exists b, In b (bits (length idx)) /\ holds cs (unravel (shape cs) bid) (corner cs idx b).
Definition loaded (flags : list Z) (bid : Z) : Prop := exists f, rd flags bid = Some f /\ 2 <= f.

(** The cell exists and no chunk but the last of a dimension has size 1. *)
Definition split_ok (cs : chunks) (idx : list Z) : Prop :=
  Forall2 (fun c i => Forall (fun s => 0 < s) c /\ 0 <= i /\ i + 1 < zsum c /\ Forall (fun s => 2 <= s) (removelast c)) cs idx.
(** The field is in one chunk; dimensions of one point are allowed. *)
Definition unsplit_ok (cs : chunks) (idx : list Z) : Prop :=
  Forall2 (fun c i => exists n, c = [n] /\ 0 <= i /\ (i + 1 < n \/ n = 1 /\ i = 0)) cs idx.
Definition cell_ok (cs : chunks) (idx : list Z) : Prop := split_ok cs idx \/ unsplit_ok cs idx.

Definition times_ok (tdim ti : Z) (first : bool) : Prop := 0 <= ti /\ (if first then ti < tdim else ti + 1 < tdim).

(** What a read must give: the values of the array at the corners, the chunks needed marked as touched and no
    other flag changed; or a request for one chunk needed that is not loaded. *)
Definition right_cell {V} (cs : chunks) (a : array V) (flags : list Z) (idx : list Z) (ti : Z) (first : bool) (r : cellres V) : Prop :=
  match r with
  | Cell vals fl =>
      vals = flat_map (fun t => map (fun b => a (ti + t) (corner cs idx b)) (bits (length idx))) (tsteps first) /\
      length fl = length flags /\
      forall bid f, rd flags bid = Some f ->
        (needed cs idx bid -> 2 <= f /\ rd fl bid = Some 2) /\ (~ needed cs idx bid -> rd fl bid = Some f)
  | Repeat fl =>
      length fl = length flags /\
      exists bid, needed cs idx bid /\ ~ loaded flags bid /\ rd fl bid = Some 1 /\
        forall bid' f, bid' <> bid -> rd flags bid' = Some f ->
          rd fl bid' = Some f \/ (needed cs idx bid' /\ 2 <= f /\ rd fl bid' = Some 2)
  | CellBad => False
  end.

(** The chunks marked as loaded hold the values of the array. *)
Definition memory_right {V} (cs : chunks) (tdim : Z) (a : array V) (flags : list Z) (mem : memory V) : Prop :=
  forall bid, 0 <= bid < npartitions cs -> loaded flags bid -> rd mem bid = Some (Some (block_values cs tdim a bid)).

(** The data last given to the fields. *)
Fixpoint latest {V} (data : nat -> array V) (es : list (event V)) : nat -> array V :=
  match es with [] => data | NewData d :: rest => latest d rest | _ :: rest => latest data rest end.
Definition no_python {V} (es : list (event V)) : Prop := ~ In Python es.

(** A cell is read; after each request the C function is called again with the same fields. *)
Fixpoint rounds {V} (cs : chunks) (tdim : Z) (nf k : nat) (used : nat -> bool) (g : grid V) (n : nat) (idx : list Z) (ti : Z) (first : bool) : option (list V) :=
  match step cs tdim nf g (Sample n idx ti first) with
  | Some (_, Some (Cell v _)) => Some v
  | Some (g', Some (Repeat _)) =>
      match k with
      | O => None
      | S k' => match step cs tdim nf g' (Launch used) with
                | Some (g'', _) => rounds cs tdim nf k' used g'' n idx ti first
                | None => None
                end
      end
  | _ => None
  end.
