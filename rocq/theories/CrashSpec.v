(** What a file made after a crash should hold (C53). *)
From Coq Require Import String List ZArith Bool Arith Sorted.
From Verif Require Import CollModel OutModel OutSpec CrashModel.
Import ListNotations.

Section S.
Context {V : Type}.

(** A process: the calls of write it would make, and the number of steps on disk after which it dies
    (beyond the end: it does not die). *)
Record process := mkProcess { pr_writes : list (Z * dmode * list (wp V)); pr_dies : nat }.

(** How many calls of write had returned after [n] steps. *)
Fixpoint returned (n : nat) (l : list (list (step V))) : nat :=
  match l with
  | [] => O
  | s :: r => if (length s <=? n)%nat then S (returned (n - length s) r) else O
  end.

(** Saving pset_info.npy is the last thing a call of write does: two steps, of which the first empties
    the file. The process dies between the two. *)
Definition dies_in_info (n : nat) (l : list (list (step V))) : Prop :=
  match nth_error l (returned n l) with
  | None => False
  | Some s => (n + 1 = length (concat (firstn (S (returned n l)) l)))%nat
  end.

(** A process with the steps of its calls of write: what is left in its directory, and the calls of
    write that had returned. *)
Definition left_by (pl : process * list (list (step V))) : disk V := disk_after (pr_dies (fst pl)) (snd pl).
Definition done_by (pl : process * list (list (step V))) : list (Z * dmode * list (wp V)) :=
  firstn (returned (pr_dies (fst pl)) (snd pl)) (pr_writes (fst pl)).

(** The process wrote at least once and did not die while saving pset_info.npy. *)
Definition info_intact (pl : process * list (list (step V))) : Prop :=
  done_by pl <> [] /\ ~ dies_in_info (pr_dies (fst pl)) (snd pl).

(** The records of several processes, those of the first one first. *)
Definition joint_log (ondelete : bool) (wss : list (list (Z * dmode * list (wp V)))) : list (Z * list (wp V)) :=
  flat_map (expected ondelete None) wss.

(** No particle is recorded by two processes. *)
Fixpoint apart (logs : list (list (Z * list (wp V)))) : Prop :=
  match logs with
  | [] => True
  | a :: r => (forall b i, In b r -> recorded_at i a <> [] -> recorded_at i b = []) /\ apart r
  end.

(** The exported vector of a 'once' variable: one value for each particle that was active at a write. *)
Definition exact_vector (close : Z -> Z -> bool) (ondelete : bool) (var : string)
    (wss : list (list (Z * dmode * list (wp V)))) (rows : list (list (option V))) : Prop :=
  exists ids, StronglySorted Z.lt ids /\
    (forall i, In i ids <-> exists ws, In ws wss /\ appearances close i (effective ondelete None ws) <> []) /\
    rows = map (fun i => map Some (firstn 1 (map (fun p => w_val p var)
             (flat_map (fun ws => appearances close i (effective ondelete None ws)) wss)))) ids.
End S.
Arguments process : clear implicits.
