(** Specification of summed and nested fields. *)
From Coq Require Import List ZArith Bool QArith.
From Verif Require Import SumModel.
Import ListNotations.

Definition total (l : list Q) : Q := fold_right Qplus 0%Q l.
Definition comp (i : nat) (v : sample) : Q := nth i v 0%Q.

(** The components of [r] are the sums of those of the samples [vs], all of [n] components. *)
Definition sum_of (n : nat) (vs : list sample) (r : sample) : Prop :=
  length r = n /\ forall i, (i < n)%nat -> (comp i r == total (map (comp i) vs))%Q.
Definition same_shape (n : nat) (vs : list sample) : Prop := (0 < n)%nat /\ forall v, In v vs -> length v = n.

(** The first error among the outcomes. *)
Definition first_error (outs : list (outcome sample)) (e : serr) : Prop :=
  exists vs rest, outs = map Val vs ++ Err e :: rest.

(** The first outcome that is not one of the errors [skip]. *)
Definition first_not (skip : serr -> Prop) (outs : list (outcome sample)) (o : outcome sample) : Prop :=
  exists es rest, outs = map Err es ++ o :: rest /\ (forall e, In e es -> skip e) /\ (forall e, o = Err e -> ~ skip e).
Definition all_skipped (skip : serr -> Prop) (outs : list (outcome sample)) (last : serr) : Prop :=
  exists es, outs = map Err (es ++ [last]) /\ (forall e, In e (es ++ [last]) -> skip e).
Definition out_of_bounds (e : serr) : Prop := e = EBounds.
Definition bounds_or_sampling (e : serr) : Prop := e = EBounds \/ e = EInterp.
