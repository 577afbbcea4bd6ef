(** Model of trajectory output.

    Sources: parcels/particlesets/collectionsoa.py 36-52, 815-871 (toDictionary), parcels/particlefile.py
    212-249 (dump, write), 251-325 (read_from_npy, export).

    Simplifications: one MPI process (one temporary directory); particle times are finite integers
    (NaN times are replaced before execute writes); a temporary file keeps what was saved in it and the
    files listed are read back in the order of the list; netCDF storage (conversion to float32/float64)
    is not modelled, the exported variable is the matrix handed to netCDF4. [V] is the type of values. *)
From Coq Require Import String List ZArith Bool Arith.
From Verif Require Import CollModel.
Import ListNotations.
Open Scope Z_scope.

Section Out.
Context {V : Type}.

(** A particle as toDictionary sees it; [w_val] gives the value of a variable by name. *)
Record wp := mkWp { w_id : Z; w_time : Z; w_dt : Z; w_st : Z; w_val : string -> V }.

(** A saved dictionary: 'id' and one array per variable (np.save of data_dict). *)
Record npy := mkNpy { n_ids : list Z; n_cols : list (string * list V) }.

(** The ParticleFile attributes that writing uses (particlefile.py 54-93). Names of 'once' files are the
    numbers put in front of '_once.npy' (223); [f_once_store] is the directory, latest save first. *)
Record pfile := mkPfile {
  f_ondelete : bool;
  f_vars : list string;
  f_vars_once : list string;
  f_last : option Z;               (* lasttime_written *)
  f_maxid : Z;                     (* maxid_written *)
  f_times : list Z;                (* time_written *)
  f_files : list npy;              (* file_list *)
  f_written : list Z;              (* written_once *)
  f_once_list : list nat;          (* file_list_once *)
  f_once_store : list (nat * npy)
}.
Definition pfile0 (ondelete : bool) (vars once : list string) : pfile :=
  mkPfile ondelete vars once None (-1) [] [] [] [] [].

(** np.isclose(p.time, time) and the 1e-3 of the warning (852). *)
Variable close : Z -> Z -> bool.
Variable warn_tol : Z.

(** collectionsoa.py 36-43. *)
Definition to_write (time : Z) (p : wp) : bool :=
  (2 * time - Z.abs (w_dt p) <=? 2 * w_time p) && (2 * w_time p <=? 2 * time + Z.abs (w_dt p)).

(** collectionsoa.py 46-52. *)
Definition started (time : Z) (p : wp) : bool :=
  (w_dt p * w_time p <=? w_dt p * time) || close (w_time p) time.

(** The deleted_only argument: False, True, or a boolean vector. *)
Inductive dmode := DFalse | DTrue | DMask (m : list bool).

Fixpoint select {A} (m : list bool) (l : list A) : list A :=
  match m, l with
  | true :: m', x :: l' => x :: select m' l'
  | false :: m', _ :: l' => select m' l'
  | _, _ => []
  end.

Definition is_del (p : wp) : bool := w_st p =? op_Delete.

(** 839-846: the boolean vector of the particles to write; for deleted_only=True the code has positions
    instead, and np.any of the positions is false when the only one is position 0. *)
Definition chosen (time : Z) (m : dmode) (ps : list wp) : list bool :=
  match m with
  | DFalse => map (to_write time) ps
  | DTrue => map is_del ps
  | DMask b => b
  end.
Definition any_chosen (m : dmode) (bs : list bool) : bool :=
  match m with DTrue => existsb (fun b => b) (tl bs) | _ => existsb (fun b => b) bs end.

Definition columns (vars : list string) (ps : list wp) : list (string * list V) :=
  map (fun v => (v, map (fun p => w_val p v) ps)) vars.

Definition id_max (m : Z) (ps : list wp) : Z := fold_left (fun m p => Z.max m (w_id p)) ps m.

(** 860-866: the particles whose 'once' variables are written now. *)
Definition first_write (f : pfile) (time : Z) (p : wp) : bool :=
  to_write time p && started time p && negb (existsb (Z.eqb (w_id p)) (f_written f)).

(** ParticleFile.write: collectionsoa.py 815-871 and particlefile.py 212-249.  [None]: IndexError from
    the warning at 854, which indexes all particles with the vector of the chosen ones. *)
Definition write (f : pfile) (time : Z) (m : dmode) (ps : list wp) : option pfile :=
  let same := match f_last f with Some t => t =? time | None => false end in
  let regular := match m with DFalse => true | _ => false end in
  if negb same && (negb (f_ondelete f) || negb regular) then                     (* 834-835 *)
    let last' := if regular then Some time else f_last f in                      (* 868-869 *)
    match ps with
    | [] => Some (mkPfile (f_ondelete f) (f_vars f) (f_vars_once f) last' (f_maxid f) (f_times f)
                          (f_files f) (f_written f) (f_once_list f) (f_once_store f))
    | _ =>
        let bs := chosen time m ps in
        let sel := select bs ps in
        let rec_main := any_chosen m bs in
        let files' := if rec_main then f_files f ++ [mkNpy (map w_id sel) (columns (f_vars f) sel)]
                      else f_files f in                                          (* 847-849, 215-219 *)
        let maxid' := if rec_main then id_max (f_maxid f) sel else f_maxid f in  (* 850 *)
        if existsb (fun p => negb (is_del p) && (warn_tol <? Z.abs (time - w_time p))) sel
           && negb (length sel =? length ps)%nat then None                       (* 852-854 *)
        else
          let times' := if existsb (Z.eqb time) (f_times f) then f_times f else f_times f ++ [time] in
          let once := match f_vars_once f with [] => [] | _ => filter (first_write f time) ps end in
          let name := length files' in                                           (* 222: after the append *)
          Some (mkPfile (f_ondelete f) (f_vars f) (f_vars_once f) last' maxid' times' files'
                  (f_written f ++ map w_id once)
                  (match once with [] => f_once_list f | _ => f_once_list f ++ [name] end)
                  (match once with
                   | [] => f_once_store f
                   | _ => (name, mkNpy (map w_id once) (columns (f_vars_once f) once)) :: f_once_store f
                   end))
    end
  else Some f.

(** A sequence of writes. *)
Fixpoint writes (f : pfile) (ws : list (Z * dmode * list wp)) : option pfile :=
  match ws with
  | [] => Some f
  | (t, m, ps) :: rest => match write f t m ps with Some f1 => writes f1 rest | None => None end
  end.

(** ** Reading back: particlefile.py 251-280 *)

(** State of the loop: data matrix ([None] is NaN), time_index, t_ind_used. *)
Record rstate := mkRst { r_data : list (list (option V)); r_ti : list nat; r_used : list bool }.

Definition set2 (d : list (list (option V))) (i j : nat) (v : V) : list (list (option V)) :=
  list_set d i (list_set (nth i d []) j (Some v)).

(** One file (267-275): [t_ind = time_index[id_ind]] (or 0), then the assignments, all with the old
    time_index. [None]: IndexError, KeyError or shape mismatch. *)
Definition read_file (once : bool) (var : string) (st : rstate) (f : npy) : option rstate :=
  match norm_indices (length (r_ti st)) (n_ids f), assoc var (n_cols f) with
  | Some ps, Some vals =>
      let ts := map (fun p => if once then O else nth p (r_ti st) O) ps in
      if (length vals =? length ps)%nat && forallb (fun t => (t <? length (r_used st))%nat) ts then
        Some (mkRst
          (fold_left (fun d ptv => set2 d (fst (fst ptv)) (snd (fst ptv)) (snd ptv))
                     (combine (combine ps ts) vals) (r_data st))
          (fold_left (fun ti p => list_set ti p (S (nth p (r_ti st) O))) ps (r_ti st))
          (fold_left (fun u t => list_set u t true) ts (r_used st)))
      else None
  | _, _ => None
  end.

Fixpoint read_files (once : bool) (var : string) (st : rstate) (fs : list npy) : option rstate :=
  match fs with
  | [] => Some st
  | f :: rest => match read_file once var st f with Some st1 => read_files once var st1 rest | None => None end
  end.

(** 277-280: drop the rows never written and the columns never used. *)
Definition read_from_npy (once : bool) (maxid : Z) (steps : nat) (fs : list npy) (var : string)
  : option (list (list (option V))) :=
  let n := Z.to_nat (maxid + 1) in
  match read_files once var (mkRst (repeat (repeat None steps) n) (repeat O n) (repeat false steps)) fs with
  | None => None
  | Some st => Some (map (select (r_used st)) (select (map (fun k => (0 <? k)%nat) (r_ti st)) (r_data st)))
  end.

(** np.load of the files in the order of the list: a file overwritten by a later save under the same
    name has the later contents. *)
Fixpoint load (store : list (nat * npy)) (name : nat) : option npy :=
  match store with
  | [] => None
  | (n, f) :: rest => if (n =? name)%nat then Some f else load rest name
  end.
Fixpoint load_all (store : list (nat * npy)) (names : list nat) : option (list npy) :=
  match names with
  | [] => Some []
  | n :: rest => match load store n, load_all store rest with
                 | Some f, Some fs => Some (f :: fs)
                 | _, _ => None
                 end
  end.

(** export, 282-325, for one variable. [dir_has_once]: the path of the temporary directory contains
    "once" (the test at 269 looks at the whole path). *)
Definition export_var (dir_has_once : bool) (f : pfile) (var : string) : option (list (list (option V))) :=
  read_from_npy dir_has_once (f_maxid f) (length (nodup Z.eq_dec (f_times f))) (f_files f) var.
Definition export_once (f : pfile) (var : string) : option (list (list (option V))) :=
  match load_all (f_once_store f) (f_once_list f) with
  | None => None
  | Some fs => read_from_npy true (f_maxid f) 1 fs var
  end.

End Out.
Arguments wp : clear implicits.
Arguments npy : clear implicits.
Arguments pfile : clear implicits.
