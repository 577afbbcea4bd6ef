(** Specification for periods longer than the data (C24). *)
From Coq Require Import List ZArith QArith.
From Verif Require Import IdxModel IdxSpec TimeModel InterpSpec.
Import ListNotations.
Open Scope Q_scope.

(** [t'] is the time of the first period that corresponds to [t]. *)
Definition in_period (period : Q) (given : list Q) (t t' : Q) : Prop :=
  first_ given <= t' < first_ given + period /\ exists n, t == t' + inject_Z n * period.

(** The value at a time of the first period: between the frames; after the last one, between it and the first. *)
Definition periodic_value (period : Q) (given : list Q) (w : Z -> Q) (t' q : Q) : Prop :=
  (t' <= last_ given -> time_value given w t' q) /\
  (last_ given < t' ->
   let r := (t' - last_ given) / (first_ given + period - last_ given) in
   q == (1 - r) * w (zlen given - 1)%Z + r * w 0%Z).
