(** Model of the temporary output directories on disk, of a process that dies while it writes, and of
    making the netCDF file from what is left.

    Sources: parcels/particlefile.py 88-102 (directories), 212-249 (dump_dict_to_npy, dump_psetinfo_to_npy,
    write), 251-325 (read_from_npy, export), parcels/scripts/convert_npydir_to_netcdf.py 10-27.

    Simplifications: a file is opened with 'wb' (and is empty) in one step and holds all its contents
    after the next one; in between np.load of it raises. The steps reach the disk in the order in which
    the process makes them (the process dies, not the machine). Each MPI process has a directory of its
    own and makes its steps independently of the others. The in-memory bookkeeping is that of OutModel. *)
From Coq Require Import String List ZArith Bool Arith.
From Verif Require Import CollModel OutModel.
Import ListNotations.

Section Crash.
Context {V : Type}.
Variable close : Z -> Z -> bool.
Variable warn_tol : Z.

(** '<k>.npy', '<k>_once.npy', 'pset_info.npy' (216, 222, 236). *)
Inductive fname := Main (k : nat) | Once (k : nat) | PsetInfo.

(** The dictionary saved as pset_info (227-237), as far as export uses it. Paths of files are numbers, the
    directory is the one the dictionary is in. *)
Record info := mkInfo {
  i_vars : list string; i_vars_once : list string;
  i_files : list nat; i_once : list nat; i_maxid : Z; i_times : list Z }.

Inductive content := Broken | Npy (d : npy V) | Info (i : info).

Definition step : Type := fname * content.
(** A directory: the steps made so far, latest first. *)
Definition disk := list step.

Definition fname_eqb (a b : fname) : bool :=
  match a, b with
  | Main j, Main k => (j =? k)%nat
  | Once j, Once k => (j =? k)%nat
  | PsetInfo, PsetInfo => true
  | _, _ => false
  end.
Fixpoint contents (d : disk) (n : fname) : option content :=
  match d with
  | [] => None
  | (m, c) :: rest => if fname_eqb m n then Some c else contents rest n
  end.

(** open(..., 'wb') and np.save (217-218, 223-224, 236-237). *)
Definition save (n : fname) (c : content) : list step := [(n, Broken); (n, c)].

(** 227-235. The names in file_list are those of the files saved before, in order (216). *)
Definition info_of (f : pfile V) : info :=
  mkInfo (f_vars f) (f_vars_once f) (seq 0 (length (f_files f))) (f_once_list f) (f_maxid f) (f_times f).

(** The steps of one call of write (239-249) that leaves the bookkeeping as [f']: dump_dict_to_npy saves
    the dictionary that toDictionary has made, if it is not empty (215-219), then that of the 'once'
    variables (221-225); dump_psetinfo_to_npy follows in every call. *)
Definition write_steps (f f' : pfile V) : list step :=
  (match nth_error (f_files f') (length (f_files f)) with
   | Some d => save (Main (length (f_files f))) (Npy d)
   | None => []
   end) ++
  (match nth_error (f_once_list f') (length (f_once_list f)), f_once_store f' with
   | Some k, (_, d) :: _ => save (Once k) (Npy d)
   | _, _ => []
   end) ++
  save PsetInfo (Info (info_of f')).

(** The steps of each call of write of a process. [None]: a call raises. *)
Fixpoint run_steps (f : pfile V) (ws : list (Z * dmode * list (wp V))) : option (list (list step)) :=
  match ws with
  | [] => Some []
  | (t, m, ps) :: rest =>
      match write close warn_tol f t m ps with
      | None => None
      | Some f1 => match run_steps f1 rest with None => None | Some l => Some (write_steps f f1 :: l) end
      end
  end.

(** The directory of a process that has made [n] steps. *)
Definition disk_after (n : nat) (l : list (list step)) : disk := rev (firstn n (concat l)).

(** np.load(...).item() of a pset_info.npy (304) and of a file of data (260). *)
Definition load_info (d : disk) : option info :=
  match contents d PsetInfo with Some (Info i) => Some i | _ => None end.
Definition load_npy (d : disk) (n : fname) : option (npy V) :=
  match contents d n with Some (Npy x) => Some x | _ => None end.

Fixpoint each {A B} (f : A -> option B) (l : list A) : option (list B) :=
  match l with
  | [] => Some []
  | a :: r => match f a, each f r with Some b, Some bs => Some (b :: bs) | _, _ => None end
  end.

(** export, 290-313: the dictionaries of all directories in numerical order; the largest id; the number
    of distinct times; the files of all directories. [None] when any of them cannot be loaded. *)
Definition all_infos (ds : list disk) : option (list info) := each load_info ds.
Definition global_maxid (is : list info) : Z := fold_left (fun m i => Z.max m (i_maxid i)) is (-1)%Z.
Definition global_steps (is : list info) : nat := length (nodup Z.eq_dec (flat_map i_times is)).
Definition global_files (pick : info -> list fname) (ds : list disk) (is : list info) : option (list (npy V)) :=
  match each (fun di => each (load_npy (fst di)) (pick (snd di))) (combine ds is) with
  | Some fss => Some (concat fss)
  | None => None
  end.
Definition main_names (i : info) : list fname := map Main (i_files i).
Definition once_names (i : info) : list fname := map Once (i_once i).

(** 315-320 for one variable, 322-324 for one 'once' variable. *)
Definition export_disks (dir_has_once : bool) (ds : list disk) (var : string) : option (list (list (option V))) :=
  match all_infos ds with
  | None => None
  | Some is =>
      match global_files main_names ds is with
      | None => None
      | Some fs => read_from_npy dir_has_once (global_maxid is) (global_steps is) fs var
      end
  end.
Definition export_disks_once (ds : list disk) (var : string) : option (list (list (option V))) :=
  match all_infos ds with
  | None => None
  | Some is =>
      match global_files once_names ds is with
      | None => None
      | Some fs => read_from_npy true (global_maxid is) 1 fs var
      end
  end.

(** convert_npydir_to_netcdf.py 16-27: the names of the variables come from the dictionary of the first
    directory, which must exist; then export. The result is the matrix of each variable. *)
Definition convert (dir_has_once : bool) (ds : list disk)
  : option (list (string * list (list (option V))) * list (string * list (list (option V)))) :=
  match ds with
  | [] => None
  | d0 :: _ =>
      match load_info d0 with
      | None => None
      | Some i0 =>
          match each (fun v => option_map (pair v) (export_disks dir_has_once ds v)) (i_vars i0),
                each (fun v => option_map (pair v) (export_disks_once ds v)) (i_vars_once i0) with
          | Some a, Some b => Some (a, b)
          | _, _ => None
          end
      end
  end.

End Crash.
Arguments content : clear implicits.
Arguments step : clear implicits.
Arguments disk : clear implicits.
