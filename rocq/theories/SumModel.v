(** Model of SummedField and NestedField.

    Sources: parcels/field.py 1381-1388 (Field.__add__), 1718-1778 (SummedField), 1780-1840 (NestedField);
    parcels/compilation/codegenerator.py 286-331 (the value substituted in the kernel), 822-895 (the C statements).

    Simplifications: the outcome of sampling each component is given; a sample is the list of its components
    (one for scalar fields, two or three for vector fields), of rationals. Unit conversion is part of the sample. *)
From Coq Require Import List ZArith Bool QArith.
Import ListNotations.

(** Exceptions in Scipy mode, status codes in JIT mode. *)
Inductive serr :=
  | EBounds          (* FieldOutOfBoundError, ERROR_OUT_OF_BOUNDS *)
  | ESurface         (* FieldOutOfBoundSurfaceError, ERROR_THROUGH_SURFACE *)
  | EInterp          (* FieldSamplingError, ERROR_INTERPOLATION *)
  | ETime            (* TimeExtrapolationError, ERROR_TIME_EXTRAPOLATION *)
  | EOther (n : nat). (* anything else, including REPEAT *)
Inductive outcome (A : Type) := Val (a : A) | Err (e : serr).
Arguments Val {A} a. Arguments Err {A} e.

Definition sample := list Q.
Fixpoint vadd (a b : sample) : sample :=
  match a, b with x :: a', y :: b' => (x + y)%Q :: vadd a' b' | _, _ => [] end.
(** np.sum(vals, 0): from the first row on. *)
Definition np_sum (vals : list sample) : sample :=
  match vals with [] => [0%Q] | v :: vs => fold_left vadd vs v end.

(** field.py 1754-1767: each component is evaluated in turn; an exception stops the loop. *)
Fixpoint py_values (outs : list (outcome sample)) : outcome (list sample) :=
  match outs with
  | [] => Val []
  | Val v :: rest => match py_values rest with Val vs => Val (v :: vs) | Err e => Err e end
  | Err e :: _ => Err e
  end.
Definition py_summed (outs : list (outcome sample)) : outcome sample :=
  match py_values outs with Val vs => Val (np_sum vs) | Err e => Err e end.

(** codegenerator.py 822-832 and 290: err = ...; tmp *= ...; CHECKSTATUS(err) for each component, the value
    being tmp1+tmp2+... *)
Fixpoint c_values (outs : list (outcome sample)) : outcome (list sample) :=
  match outs with
  | [] => Val []
  | Val v :: rest => match c_values rest with Val vs => Val (v :: vs) | Err e => Err e end
  | Err e :: _ => Err e
  end.
Definition c_summed (outs : list (outcome sample)) : outcome sample :=
  match c_values outs with Val vs => Val (np_sum vs) | Err e => Err e end.

(** codegenerator.py 834-855: err is tested once, after the last component. [old] are the values the temporaries
    hold before: a component in error leaves its own unchanged. *)
Fixpoint c_vector_values (outs : list (outcome sample)) (old : list sample) (err : option serr)
    : list sample * option serr :=
  match outs, old with
  | Val v :: rest, _ :: old' => let '(vs, e) := c_vector_values rest old' None in (v :: vs, e)
  | Err e :: rest, o :: old' => let '(vs, e') := c_vector_values rest old' (Some e) in (o :: vs, e')
  | _, _ => ([], err)
  end.
Definition c_summed_vector (old : list sample) (outs : list (outcome sample)) : outcome sample :=
  match c_vector_values outs old None with
  | (vs, None) => Val (np_sum vs)
  | (_, Some e) => Err e
  end.

(** field.py 1825-1840: the loop over the components; with no component [val] is unbound (UnboundLocalError). *)
Fixpoint py_nested (outs : list (outcome sample)) : outcome sample :=
  match outs with
  | [] => Err (EOther 0)
  | Val v :: _ => Val v
  | Err e :: rest =>
      match e with
      | EBounds | EInterp => match rest with [] => Err e | _ => py_nested rest end
      | _ => Err e
      end
  end.

(** codegenerator.py 857-895: while (1==1) { err = ...; if (err != ERROR_OUT_OF_BOUNDS) {CHECKSTATUS(err); break;}
    ...; CHECKSTATUS(err); break; }. [err] is the status left by the component before. *)
Fixpoint c_nested (outs : list (outcome sample)) (err : serr) : outcome sample :=
  match outs with
  | [] => Err err
  | Val v :: _ => Val v
  | Err EBounds :: rest => c_nested rest EBounds
  | Err e :: _ => Err e
  end.

(** ** Addition of fields *)
(** Field objects and VectorField objects, SummedField objects by their place on the heap. *)
Inductive obj := OField (n : nat) | OVector (n : nat) | OSum (loc : nat).
Inductive item := IField (n : nat) | IVector (n : nat).
Definition heap := list (list item).
Definition hget (h : heap) (l : nat) : list item := nth l h [].
Definition hset (h : heap) (l : nat) (v : list item) : heap := firstn l h ++ v :: skipn (S l) h.

Inductive addres := Added (h : heap) (o : obj) | AddNone (h : heap) | AddError | AddLoops.
Definition is_field (i : item) : bool := match i with IField _ => true | _ => false end.

(** field.py 1775-1776: for fld in field: self.append(fld). Iteration reads the list as it is at each step;
    when both are the same object it grows as it is read and the loop never ends. *)
Fixpoint append_loop (k : nat) (h : heap) (dst src i : nat) : option heap :=
  match k with
  | O => None
  | S k' =>
      match nth_error (hget h src) i with
      | None => Some h
      | Some x => append_loop k' (hset h dst (hget h dst ++ [x])) dst src (S i)
      end
  end.

(** field.py 1381-1388 and 1769-1777. The assertions compare the types of the first elements. [k] bounds the
    loop. *)
Definition py_add (k : nat) (h : heap) (a b : obj) : addres :=
  match a with
  | OVector _ => AddError
  | OField m =>
      match b with
      | OField n => Added (h ++ [[IField m; IField n]]) (OSum (length h))
      | OSum l =>
          match hget h l with
          | x :: _ => if is_field x then Added (hset h l (IField m :: hget h l)) (OSum l) else AddError
          | [] => AddError
          end
      | OVector _ => AddNone h
      end
  | OSum l =>
      match b with
      | OField n =>
          match hget h l with
          | x :: _ => if is_field x then Added (hset h l (hget h l ++ [IField n])) (OSum l) else AddError
          | [] => AddError
          end
      | OSum m =>
          match hget h l, hget h m with
          | x :: _, y :: _ =>
              if eqb (is_field x) (is_field y)
              then match append_loop k h l m 0 with Some h' => Added h' (OSum l) | None => AddLoops end
              else AddError
          | _, _ => AddError
          end
      | OVector _ => Added h (OSum l)
      end
  end.

(** A Python expression with + over fields. *)
Inductive fexpr := FLeaf (n : nat) | FAdd (a b : fexpr).
Fixpoint fleaves (e : fexpr) : list nat := match e with FLeaf n => [n] | FAdd a b => fleaves a ++ fleaves b end.
Fixpoint feval (k : nat) (h : heap) (e : fexpr) : option (heap * obj) :=
  match e with
  | FLeaf n => Some (h, OField n)
  | FAdd a b =>
      match feval k h a with
      | None => None
      | Some (h1, oa) =>
          match feval k h1 b with
          | None => None
          | Some (h2, ob) => match py_add k h2 oa ob with Added h3 o => Some (h3, o) | _ => None end
          end
      end
  end.

(** The outcomes of the components of an object. *)
Definition components (h : heap) (o : obj) : list item :=
  match o with OField n => [IField n] | OVector n => [IVector n] | OSum l => hget h l end.
