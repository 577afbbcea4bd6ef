(** Model of restarting from an output file.

    Sources: parcels/particlesets/particlesetsoa.py 331-397 (from_particlefile), parcels/particlefile.py 105-190
    (open_netcdf_file, names of the variables), 312-323 (export).

    Simplifications: the file holds what was handed to netCDF4 (no rounding to float32, no NaN other than missing
    values); times are integers in seconds (with a calendar they are decoded to dates, and the constructor subtracts the
    time origin again); one MPI process. [V] is the type of values; [num] the number a value of time or trajectory is. *)
From Coq Require Import String List ZArith Bool Arith.
From Verif Require Import CollModel OutModel.
Import ListNotations.
Local Open Scope string_scope.
Local Open Scope list_scope.
Local Open Scope Z_scope.

Section Restart.
Context {V : Type}.
Variable num : V -> Z.

(** A variable of the file: over (traj, obs), or over traj. [None] is a missing value. *)
Inductive fvar := F2 (rows : list (list (option V))) | F1 (col : list (option V)).

(** particlefile.py 130, 164-165, 317. *)
Definition out_name (v : string) : string :=
  if String.eqb v "depth" then "z" else if String.eqb v "id" then "trajectory" else v.

Fixpoint sequence {A} (l : list (option A)) : option (list A) :=
  match l with
  | [] => Some []
  | Some a :: t => match sequence t with Some r => Some (a :: r) | None => None end
  | None :: _ => None
  end.

(** particlefile.py 312-323. A variable over traj is assigned the matrix of the 'once' records, of one column. *)
Definition nc_file (f : pfile V) : option (list (string * fvar)) :=
  sequence (map (fun v => match export_var false f v with Some m => Some (out_name v, F2 m) | None => None end) (f_vars f)
         ++ map (fun v => match export_once f v with Some m => Some (v, F1 (map (fun r => hd None r) m)) | None => None end)
                (f_vars_once f)).

(** The to_write attribute of a Variable. *)
Inductive tw := WYes | WNo | WOnce.

(** 364: variables of the class that need not be in the file. *)
Definition internal : list string := ["xi"; "yi"; "zi"; "ti"; "dt"; "_next_dt"; "depth"; "id"; "fileid"; "state"].

(** 359-369. *)
Fixpoint load_vars (pvars : list (string * tw)) (nc : list (string * fvar)) : list (string * fvar) + pyerr :=
  match pvars with
  | [] => match assoc "z" nc, assoc "trajectory" nc with
          | Some z, Some i => inl [("depth", z); ("id", i)]
          | _, _ => inr EKey
          end
  | (v, w) :: t =>
      match assoc v nc with
      | Some x => match load_vars t nc with inl r => inl ((v, x) :: r) | inr e => inr e end
      | None => if existsb (String.eqb v) internal then load_vars t nc
                else match w with WNo => load_vars t nc | _ => inr EType end         (* RuntimeError *)
      end
  end.

(** 374-379: None, a number, or a function such as np.nanmin of the times that are not NaN. *)
Inductive rtime := RLast | RAt (t : Z) | RFun (g : list Z -> option Z).
Definition finite (rows : list (list (option V))) : list Z :=
  flat_map (fun r => flat_map (fun o => match o with Some v => [num v] | None => [] end) r) rows.
Definition nanmax (l : list Z) : option Z :=
  match l with [] => None | x :: t => Some (fold_left Z.max t x) end.
Definition restart_time (r : rtime) (rows : list (list (option V))) : option Z :=
  match r with RLast => nanmax (finite rows) | RAt t => Some t | RFun g => g (finite rows) end.

(** 381: np.where(time == restarttime), in row-major order; nothing equals NaN. *)
Fixpoint where_row (c : nat) (t : Z) (r : list (option V)) : list nat :=
  match r with
  | [] => []
  | Some v :: r' => if num v =? t then c :: where_row (S c) t r' else where_row (S c) t r'
  | None :: r' => where_row (S c) t r'
  end.
Fixpoint where_rows (k : nat) (t : Z) (rows : list (list (option V))) : list (nat * nat) :=
  match rows with
  | [] => []
  | r :: rest => map (pair k) (where_row 0 t r) ++ where_rows (S k) t rest
  end.

(** 382-386, flattened by the constructor (particlesetsoa.py 33-42); [None]: IndexError. *)
Definition take (w : tw) (x : fvar) (inds : list (nat * nat)) : option (list (option V)) :=
  match w, x with
  | WYes, F2 rows => sequence (map (fun rc => match nth_error rows (fst rc) with Some r => nth_error r (snd rc) | None => None end) inds)
  | WYes, F1 _ => None
  | WOnce, F1 col => sequence (map (fun rc => nth_error col (fst rc)) inds)
  | WOnce, F2 rows => option_map (@concat _) (sequence (map (fun rc => nth_error rows (fst rc)) inds))
  | WNo, F2 rows => Some (concat rows)
  | WNo, F1 col => Some col
  end.
Fixpoint take_all (pvars : list (string * tw)) (inds : list (nat * nat)) (vs : list (string * fvar))
  : list (string * list (option V)) + pyerr :=
  match vs with
  | [] => inl []
  | (v, x) :: t =>
      match assoc v pvars with
      | None => inr EKey
      | Some w => match take w x inds with
                  | None => inr EIndex
                  | Some c => match take_all pvars inds t with inl r => inl ((v, c) :: r) | inr e => inr e end
                  end
      end
  end.

(** 331-397. The new set's values are [option V], [None] for NaN; a NaN id is an error here (numpy stores an arbitrary
    integer). *)
Definition from_file (w : world (option V)) (pvars : list (string * tw)) (nc : list (string * fvar)) (restart : bool) (rt : rtime)
  : world (option V) * out :=
  match load_vars pvars nc with
  | inr e => (w, ORaise e)
  | inl vs =>
      match assoc "time" vs with
      | Some (F2 ((x :: r) :: rest)) =>
          let times := (x :: r) :: rest in
          let inds := match restart_time rt times with Some t => where_rows 0 t times | None => [] end in
          match take_all pvars inds vs with
          | inr e => (w, ORaise e)
          | inl cols =>
              let w1 := mkWorld (w_heap w) (w_colls w) (if restart then 0 else w_last w) in     (* 390-391 *)
              match assoc "lon" cols, assoc "id" cols with
              | Some lon, Some ids =>
                  let kept := filter (fun nc => negb (String.eqb (fst nc) "id")) cols in
                  if restart then
                    match sequence ids with
                    | Some vids => do_new w1 (Some (map num vids)) (length lon) kept
                    | None => (w1, ORaise EValue)
                    end
                  else do_new w1 None (length lon) kept
              | _, _ => (w1, ORaise EKey)
              end
          end
      | Some (F2 _) => (w, ORaise EIndex)                                     (* 371: time[0, 0] *)
      | Some (F1 _) => (w, ORaise EIndex)
      | None => (w, ORaise EKey)
      end
  end.

End Restart.
Arguments fvar : clear implicits.
