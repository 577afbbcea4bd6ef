(** How a particle set is made from its arguments: parcels/particlesets/particlesetsoa.py 78-133, collectionsoa.py 70-194 and
    particle.py 58-84, including the division of the particles over processes (MPI).

    Simplifications: values are rationals (no rounding to the dtype); lon, lat, depth, time and the further arguments are given as
    one-dimensional arrays or (time) one number, dates are not; the arrays xi, yi, zi, ti of one index per
    grid are one column here; class attributes that are not Variables are not accepted as further arguments (the code
    raises KeyError for them, and RuntimeError for the rest); repeatdt is left out (see SchedModel). *)
From Coq Require Import String List ZArith QArith Bool Arith.
Import ListNotations.
Open Scope string_scope.

(** A stored value: a number, NaN, or what np.empty left in the memory. *)
Inductive cell := Val (q : Q) | Nan | Junk.
(** [Variable.initial]: a constant, attrgetter(name), or a Field (its eval at time, depth, lat, lon; [None] when that raises). *)
Inductive initial := IConst (c : cell) | ICopy (name : string) | ISample (f : Q -> Q -> Q -> Q -> option Q).
Record vdecl := mkVar { v_name : string; v_64 : bool; v_init : initial }.

Inductive exc := AssertionError | RuntimeError | ValueError | IndexError | AttributeError | SampleError.
Inductive res (A : Type) := Ok (a : A) | Err (e : exc).
Arguments Ok {A}. Arguments Err {A}.
Definition bind {A B} (r : res A) (f : A -> res B) : res B := match r with Ok a => f a | Err e => Err e end.

Definition mem (n : string) (l : list string) : bool := existsb (String.eqb n) l.

(** particle.py 175-187; [wide] is lonlatdepth_dtype = np.float64 (particle.py 224-228). state starts as Evaluate, which is 1. *)
Definition base_vars (wide : bool) : list vdecl :=
  [mkVar "lon" wide (IConst (Val 0)); mkVar "lat" wide (IConst (Val 0)); mkVar "depth" wide (IConst (Val 0)); mkVar "time" true (IConst (Val 0));
   mkVar "xi" false (IConst (Val 0)); mkVar "yi" false (IConst (Val 0)); mkVar "zi" false (IConst (Val 0)); mkVar "ti" false (IConst (Val (-1)));
   mkVar "id" true (IConst (Val 0)); mkVar "fileid" false (IConst (Val (-1))); mkVar "dt" true (IConst (Val 0));
   mkVar "state" false (IConst (Val 1)); mkVar "_next_dt" true (IConst Nan)].

(** particle.py 79-80. *)
Definition sort64 (l : list vdecl) : list vdecl := filter v_64 l ++ filter (fun v => negb (v_64 v)) l.
(** particle.py 58-80 for a chain of classes, each with one base: [bodies] are the Variables of the classes derived from ScipyParticle,
    the nearest to it first. *)
Fixpoint derive (vars : list vdecl) (bodies : list (list vdecl)) : res (list vdecl) :=
  match bodies with
  | [] => Ok vars
  | b :: rest =>
      if existsb (fun v => mem (v_name v) (map v_name vars) || String.eqb (v_name v) "z") b then Err AttributeError
      else derive (sort64 (vars ++ b)) rest
  end.
Definition ptype (wide : bool) (bodies : list (list vdecl)) : res (list vdecl) := derive (sort64 (base_vars wide)) bodies.

(** The arguments of ParticleSet. [a_mindepth] is fieldset.gridset.dimrange('depth')[0], or 0 without a fieldset. *)
Inductive parts := Auto | Already | Given (l : list Z).
Record cargs := mkCargs {
  a_lon : list Q; a_lat : list Q; a_depth : option (list Q); a_mindepth : Q; a_time : option (list Q);
  a_pid : option (list Z); a_kw : list (string * list Q); a_parts : parts
}.
Definition count_of (a : cargs) : nat := length (a_lon a).

(** particlesetsoa.py 91-92, 94-98, 102-103, 110: the arrays the collection gets. No time is an array of one None. *)
Definition pids (a : cargs) : list Z := match a_pid a with Some l => l | None => map Z.of_nat (seq 0 (count_of a)) end.
Definition depths (a : cargs) : list Q := match a_depth a with Some l => l | None => repeat (a_mindepth a) (count_of a) end.
Definition times (a : cargs) : list (option Q) :=
  match a_time a with None => repeat None (count_of a) | Some [t] => repeat (Some t) (count_of a) | Some l => map Some l end.

(** particlesetsoa.py 99-100, 111-112, 122-125. *)
Definition lengths_ok (a : cargs) : bool :=
  (length (a_lat a) =? count_of a)%nat && (length (depths a) =? count_of a)%nat && (length (times a) =? count_of a)%nat
  && forallb (fun k => (length (snd k) =? count_of a)%nat) (a_kw a).

(** The arrays of one process. *)
Record arrays := mkArrays { r_lon : list Q; r_lat : list Q; r_depth : list Q; r_time : list (option Q); r_pid : list Z; r_kw : list (string * list Q) }.

(** x[labels == rank]. *)
Fixpoint pick {A} (rank : Z) (labels : list Z) (l : list A) : list A :=
  match labels, l with
  | lab :: labels, x :: l => if (lab =? rank)%Z then x :: pick rank labels l else pick rank labels l
  | _, _ => []
  end.

(** collectionsoa.py 81, 100, 115: the ids, and the offset before and after the other processes ([offsets]) are asked. *)
Definition new_ids (lastID : Z) (a : cargs) : list Z := map (fun p => (p + lastID)%Z) (pids a).
Definition zmax (l : list Z) : Z := match l with [] => (-1)%Z | p :: t => fold_left Z.max t p end.
Definition offset (lastID : Z) (a : cargs) : Z := zmax (new_ids lastID a).

(** collectionsoa.py 101-125: the part of process [rank] of [size]; [labels] is what KMeans finds. *)
Definition divide (size rank : Z) (labels : list Z) (a : cargs) (r : arrays) : res arrays :=
  if (Z.of_nat (count_of a) <? size)%Z && (1 <? size)%Z then Err RuntimeError
  else if (1 <? size)%Z then
    match a_parts a with
    | Already => Ok r
    | p =>
        bind (match p with
              | Given [] => Err ValueError
              | Given l => if (size <=? zmax l)%Z then Err RuntimeError else Ok l
              | _ => Ok labels
              end)
          (fun l => if negb (length l =? count_of a)%nat || negb (length (r_pid r) =? count_of a)%nat then Err IndexError
                    else Ok (mkArrays (pick rank l (r_lon r)) (pick rank l (r_lat r)) (pick rank l (r_depth r)) (pick rank l (r_time r))
                               (pick rank l (r_pid r)) (map (fun k => (fst k, pick rank l (snd k))) (r_kw r))))
    end
  else Ok r.

(** The columns of the set, in the order of the variables. *)
Definition data := list (string * list cell).
Definition column (d : data) (n : string) : option (list cell) :=
  match find (fun c => String.eqb (fst c) n) d with Some c => Some (snd c) | None => None end.
Definition set_column (d : data) (n : string) (c : list cell) : data :=
  map (fun k => if String.eqb (fst k) n then (fst k, c) else k) d.
(** x[:] = l for an array of [n] entries: an array of one entry is spread. *)
Definition assign {A} (n : nat) (l : list A) : res (list A) :=
  if (length l =? n)%nat then Ok l else match l with [x] => Ok (repeat x n) | _ => Err ValueError end.

Definition val_time (t : option Q) : cell := match t with Some q => Val q | None => Nan end.

(** collectionsoa.py 168-173. *)
Fixpoint further (names : list string) (kw : list (string * list Q)) (d : data) : res data :=
  match kw with
  | [] => Ok d
  | (n, l) :: rest => if negb (mem n names) then Err RuntimeError else further names rest (set_column d n (map Val l))
  end.

(** collectionsoa.py 180-187: sampling a field at each particle. *)
Fixpoint sample_all (f : Q -> Q -> Q -> Q -> option Q) (ts : list (option Q)) (zs ys xs : list Q) : res (list cell) :=
  match ts, zs, ys, xs with
  | t :: ts, z :: zs, y :: ys, x :: xs =>
      match t with
      | None => Err RuntimeError
      | Some t => match f t z y x with
                  | None => Err SampleError
                  | Some q => bind (sample_all f ts zs ys xs) (fun l => Ok (Val q :: l))
                  end
      end
  | _, _, _, _ => Ok []
  end.

(** collectionsoa.py 176-194. attrgetter(name) asks the collection, which answers False for a name that is no variable (227-236). *)
Definition fill_one (r : arrays) (v : vdecl) (d : data) : res (list cell) :=
  let n := length (r_lon r) in
  match v_init v with
  | IConst c => Ok (repeat c n)
  | ICopy b => match column d b with Some c => Ok c | None => Ok (repeat (Val 0) n) end
  | ISample f => sample_all f (r_time r) (r_depth r) (r_lat r) (r_lon r)
  end.
Fixpoint fill (r : arrays) (done : list string) (vars : list vdecl) (d : data) : res data :=
  match vars with
  | [] => Ok d
  | v :: rest =>
      if mem (v_name v) done then fill r done rest d
      else bind (fill_one r v d) (fun c => fill r (v_name v :: done) rest (set_column d (v_name v) c))
  end.

(** collectionsoa.py 140-194. *)
Definition collect (vars : list vdecl) (r : arrays) : res data :=
  let n := length (r_lon r) in
  let d := map (fun v => (v_name v, repeat Junk n)) vars in
  let d := set_column d "lat" (map Val (r_lat r)) in
  let d := set_column d "lon" (map Val (r_lon r)) in
  let d := set_column d "depth" (map Val (r_depth r)) in
  let d := set_column d "time" (map val_time (r_time r)) in
  bind (assign n (r_pid r)) (fun pid =>
    let d := set_column d "id" (map (fun p => Val (inject_Z p)) pid) in
    let d := set_column d "fileid" (repeat (Val (-1)) n) in
    bind (further (map v_name vars) (r_kw r) d) (fun d =>
      fill r (["lat"; "lon"; "depth"; "time"; "id"] ++ map fst (r_kw r)) vars d)).

(** particlesetsoa.py 78-133 and collectionsoa.py 70-194 in process [rank] of [size]: the new lastID and the set. [lastID] is
    kept when the lengths do not match; after a later failure it is already the new one (not shown by the result). *)
Definition construct (size rank : Z) (offsets labels : list Z) (vars : list vdecl) (lastID : Z) (a : cargs) : res (Z * data) :=
  if negb (lengths_ok a) then Err AssertionError
  else
    let r := mkArrays (a_lon a) (a_lat a) (depths a) (times a) (new_ids lastID a) (a_kw a) in
    bind (divide size rank labels a r) (fun r =>
      bind (collect vars r) (fun d =>
        Ok ((fold_left Z.max offsets (offset lastID a) + 1)%Z, d))).

(** One process: no MPI. *)
Definition make_set (vars : list vdecl) (lastID : Z) (a : cargs) : res (Z * data) := construct 1 0 [] [] vars lastID a.
(** Every process of [size] is given the same arguments and has the same lastID. *)
Definition make_part (size : Z) (labels : list Z) (vars : list vdecl) (lastID : Z) (a : cargs) (rank : Z) : res (Z * data) :=
  construct size rank (repeat (offset lastID a) (Z.to_nat size)) labels vars lastID a.
