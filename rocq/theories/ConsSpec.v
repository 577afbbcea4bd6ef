(** Specification for C50: a particle set is what its arguments say. *)
From Coq Require Import String List ZArith QArith.
From Verif Require Import ConsModel.
Import ListNotations.
Open Scope string_scope.

(** Arguments as Python allows them: lon, lat, depth and time are not further arguments, none is given twice, and explicit ids are one per particle. *)
Definition proper (a : cargs) : Prop :=
  NoDup (map fst (a_kw a)) /\ (forall n, In n ["lon"; "lat"; "depth"; "time"] -> ~ In n (map fst (a_kw a))) /\
  match a_pid a with None => True | Some l => length l = count_of a end.

(** The value variable [name] of particle [i] starts with. *)
Inductive starts_as (vars : list vdecl) (lastID : Z) (a : cargs) (i : nat) : string -> cell -> Prop :=
| from_lon : forall x, nth_error (a_lon a) i = Some x -> starts_as vars lastID a i "lon" (Val x)
| from_lat : forall y, nth_error (a_lat a) i = Some y -> starts_as vars lastID a i "lat" (Val y)
| from_depth : forall l z, a_depth a = Some l -> nth_error l i = Some z -> starts_as vars lastID a i "depth" (Val z)
| from_mindepth : a_depth a = None -> starts_as vars lastID a i "depth" (Val (a_mindepth a))
| from_time : forall l t, a_time a = Some l -> length l = count_of a -> nth_error l i = Some t -> starts_as vars lastID a i "time" (Val t)
| from_one_time : forall t, a_time a = Some [t] -> starts_as vars lastID a i "time" (Val t)
| no_time : a_time a = None -> starts_as vars lastID a i "time" Nan
| from_kw : forall n l q, In (n, l) (a_kw a) -> nth_error l i = Some q -> starts_as vars lastID a i n (Val q)
| from_count : a_pid a = None -> ~ In "id" (map fst (a_kw a)) -> starts_as vars lastID a i "id" (Val (inject_Z (Z.of_nat i + lastID)))
| from_pid : forall l p, a_pid a = Some l -> ~ In "id" (map fst (a_kw a)) -> nth_error l i = Some p ->
    starts_as vars lastID a i "id" (Val (inject_Z (p + lastID)))
| from_const : forall v c, In v vars -> ~ In (v_name v) (["lat"; "lon"; "depth"; "time"; "id"] ++ map fst (a_kw a)) -> v_init v = IConst c ->
    starts_as vars lastID a i (v_name v) c
| from_copy : forall v b c, In v vars -> ~ In (v_name v) (["lat"; "lon"; "depth"; "time"; "id"] ++ map fst (a_kw a)) -> v_init v = ICopy b ->
    starts_as vars lastID a i b c -> starts_as vars lastID a i (v_name v) c
| from_field : forall v f t z y x q, In v vars -> ~ In (v_name v) (["lat"; "lon"; "depth"; "time"; "id"] ++ map fst (a_kw a)) -> v_init v = ISample f ->
    starts_as vars lastID a i "time" (Val t) -> starts_as vars lastID a i "depth" (Val z) ->
    starts_as vars lastID a i "lat" (Val y) -> starts_as vars lastID a i "lon" (Val x) -> f t z y x = Some q ->
    starts_as vars lastID a i (v_name v) (Val q).

(** The value at [i] in the column [n] of a set. *)
Definition value_of (d : data) (n : string) (i : nat) : option cell :=
  match column d n with Some c => nth_error c i | None => None end.

(** Copies are of variables given by the arguments, or declared before in the order of the particle type. *)
Definition copies_back (a : cargs) (vars : list vdecl) : Prop :=
  forall pre v post b, vars = (pre ++ v :: post)%list -> v_init v = ICopy b ->
    In (v_name v) (["lat"; "lon"; "depth"; "time"; "id"] ++ map fst (a_kw a)) \/
    In b (["lat"; "lon"; "depth"; "time"; "id"] ++ map fst (a_kw a)) \/ In b (map v_name pre).

(** What a set needs: one value of each argument per particle (or one time for all), further arguments that are variables of the particle class,
    and fields to start from that have a value at every particle. *)
Definition complete (vars : list vdecl) (a : cargs) : Prop :=
  length (a_lat a) = count_of a /\ (forall l, a_depth a = Some l -> length l = count_of a) /\
  (forall l, a_time a = Some l -> length l = count_of a \/ length l = 1%nat) /\
  (forall n l, In (n, l) (a_kw a) -> length l = count_of a /\ In n (map v_name vars)) /\
  (forall v f i, In v vars -> ~ In (v_name v) (["lat"; "lon"; "depth"; "time"; "id"] ++ map fst (a_kw a)) -> v_init v = ISample f -> (i < count_of a)%nat ->
     exists t z y x q, starts_as vars 0 a i "time" (Val t) /\ starts_as vars 0 a i "depth" (Val z) /\
       starts_as vars 0 a i "lat" (Val y) /\ starts_as vars 0 a i "lon" (Val x) /\ f t z y x = Some q).

(** The particles of a set of [n], each with all its variables. *)
Definition particles (d : data) (n : nat) : list (list (string * cell)) :=
  map (fun i => map (fun k => (fst k, nth i (snd k) Junk)) d) (seq 0 n).
(** The labels the particles have: those given, or those found by KMeans. *)
Definition labels_of (a : cargs) (labels : list Z) : list Z := match a_parts a with Given l => l | _ => labels end.
