(** Specification of land-aware interpolation: averages of the corner values in which land has no weight. *)
From Coq Require Import List ZArith Bool QArith Qabs.
From Verif Require Import IdxModel InterpModel.
Import ListNotations.
Open Scope Q_scope.

Definition qsum (l : list Q) : Q := fold_right Qplus 0 l.
Fixpoint dot (ws vs : list Q) : Q :=
  match ws, vs with w :: ws', v :: vs' => w * v + dot ws' vs' | _, _ => 0 end.

(** [q] is an average of [vals] with weights that are zero on land, and positive elsewhere if [strict]. *)
Definition sea_average (land : Q -> Prop) (strict : Prop) (vals : list Q) (q : Q) : Prop :=
  exists ws, Forall2 (fun v w => 0 <= w /\ (land v -> w == 0) /\ (~ land v -> strict -> 0 < w)) vals ws /\
             qsum ws == 1 /\ q == dot ws vals.

(** Land in Scipy mode (np.isclose to 0) and in JIT mode. *)
Definition near_zero (v : Q) : Prop := Qabs v <= 1 # 100000000.
Definition zero_value (v : Q) : Prop := v == 0.

(** The corner values of the cell (zi, yi, xi), the x index running fastest. *)
Definition corners2 (f : frame) (yi xi : Z) : list Q :=
  [f_at f 0 yi xi; f_at f 0 yi (xi + 1); f_at f 0 (yi + 1) xi; f_at f 0 (yi + 1) (xi + 1)].
Definition corners3 (f : frame) (zi yi xi : Z) : list Q :=
  [f_at f zi yi xi; f_at f zi yi (xi + 1); f_at f zi (yi + 1) xi; f_at f zi (yi + 1) (xi + 1);
   f_at f (zi + 1) yi xi; f_at f (zi + 1) yi (xi + 1); f_at f (zi + 1) (yi + 1) xi; f_at f (zi + 1) (yi + 1) (xi + 1)].
Definition all_land (land : Q -> Prop) (vals : list Q) : Prop := forall v, In v vals -> land v.
Definition some_land (land : Q -> Prop) (vals : list Q) : Prop := exists v, In v vals /\ land v.
Definition some_sea (land : Q -> Prop) (vals : list Q) : Prop := exists v, In v vals /\ ~ land v.
(** Exactly one corner is not land. *)
Definition one_sea (land : Q -> Prop) (vals : list Q) : Prop :=
  exists a v b, vals = a ++ v :: b /\ ~ land v /\ (forall u, In u a \/ In u b -> land u).

(** The cell has its four (eight) corners; a 2D field has one level. *)
Definition cell2_ok (f : frame) (yi xi : Z) : Prop :=
  f_zdim f = 1%Z /\ (0 <= yi /\ yi + 1 < f_ydim f /\ 0 <= xi /\ xi + 1 < f_xdim f)%Z.
Definition cell3_ok (f : frame) (zi yi xi : Z) : Prop :=
  (0 <= zi /\ zi + 1 < f_zdim f /\ 0 <= yi /\ yi + 1 < f_ydim f /\ 0 <= xi /\ xi + 1 < f_xdim f)%Z.

Definition unit_coord (r : Q) : Prop := 0 <= r /\ r <= 1.
Definition inner_coord (r : Q) : Prop := 0 < r /\ r < 1.

(** Squared distance to a corner; being away from all corners by more than the tolerance. *)
Definition dist2 (xsi eta : Q) (j i : bool) : Q := (eta - b2q j) * (eta - b2q j) + (xsi - b2q i) * (xsi - b2q i).
Definition dist3 (xsi eta zeta : Q) (k j i : bool) : Q := (zeta - b2q k) * (zeta - b2q k) + dist2 xsi eta j i.
Definition away2 (tol xsi eta : Q) : Prop := forall j i, tol < dist2 xsi eta j i.
Definition away3 (tol xsi eta zeta : Q) : Prop := forall k j i, tol < dist3 xsi eta zeta k j i.
Definition py_tol : Q := 1 # 100000000.
