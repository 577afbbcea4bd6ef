(** What an index search should return (C21-C23), in terms of the grid axes. *)
From Coq Require Import List ZArith QArith.
From Verif Require Import IdxModel.
Import ListNotations.
Open Scope Q_scope.

Definition at_ (l : list Q) (i : Z) : Q := nth (Z.to_nat i) l 0.

Definition increasing (l : list Q) : Prop :=
  forall i j, (0 <= i < j)%Z -> (j < zlen l)%Z -> at_ l i < at_ l j.
Definition decreasing (l : list Q) : Prop :=
  forall i j, (0 <= i < j)%Z -> (j < zlen l)%Z -> at_ l j < at_ l i.
Definition first_ (l : list Q) : Q := at_ l 0.
Definition last_ (l : list Q) : Q := at_ l (zlen l - 1).

(** Cell [i] of axis [l] contains [x], at relative coordinate [r]. *)
Definition in_cell (l : list Q) (x : Q) (i : Z) (r : Q) : Prop :=
  (0 <= i)%Z /\ (i + 1 < zlen l)%Z /\ 0 <= r /\ r <= 1 /\ x == at_ l i + r * (at_ l (i + 1) - at_ l i).

(** An axis of one point has no cells: the field does not depend on it. *)
Definition located (l : list Q) (x : Q) (i : Z) (r : Q) : Prop :=
  (zlen l = 1%Z /\ r == 0) \/ ((1 < zlen l)%Z /\ in_cell l x i r).
Definition inside (l : list Q) (x : Q) : Prop :=
  zlen l = 1%Z \/ first_ l <= x <= last_ l.
Definition axis_ok (l : list Q) : Prop := (1 <= zlen l)%Z /\ increasing l.

(** Depth: the first level is the surface; the last level the bottom; the axis may increase or decrease. *)
Definition depth_ok (l : list Q) : Prop := (1 <= zlen l)%Z /\ (increasing l \/ decreasing l).
Definition above_first (l : list Q) (z : Q) : Prop :=
  (1 < zlen l)%Z /\ ((increasing l /\ z < first_ l) \/ (decreasing l /\ first_ l < z)).
Definition below_last (l : list Q) (z : Q) : Prop :=
  (1 < zlen l)%Z /\ ((increasing l /\ last_ l < z) \/ (decreasing l /\ z < last_ l)).

(** The indices a particle may carry for an axis. *)
Definition valid_start (l : list Q) (i : Z) : Prop := zlen l = 1%Z \/ (0 <= i /\ i + 1 < zlen l)%Z.

(** Longitudes on the sphere.  Cells narrower than 135 degrees. *)
Definition narrow_cells (l : list Q) : Prop := forall i, (0 <= i)%Z -> (i + 1 < zlen l)%Z -> at_ l (i + 1) - at_ l i < 135.

(** [l] passes from 180 to -180 before index [k]: [m] are the same longitudes without the jump. *)
Definition wraps (l m : list Q) (k : Z) : Prop :=
  zlen m = zlen l /\ (1 <= k < zlen l)%Z /\
  forall i, (0 <= i < zlen l)%Z -> at_ l i == at_ m i - (if (i <? k)%Z then 0 else 360).

(** Less than a full circle, and not too many points for the iterations of the search. *)
Definition arc (l : list Q) : Prop := last_ l - first_ l < 360 /\ narrow_cells l /\ (zlen l <= 10002)%Z.

(** No special surface treatment; on a spherical mesh, the longitudes increase along an arc. *)
Definition plain (g : rgrid) : Prop :=
  (g_spherical g = false \/ arc (g_lon g)) /\ g_zonal_periodic g = false /\ g_mom5 g = false /\
  axis_ok (g_lon g) /\ axis_ok (g_lat g) /\ depth_ok (g_depth g).

(** The depth is within range when it is between the first and the last level, whatever the order. *)
Definition within (l : list Q) (z : Q) : Prop := first_ l <= z <= last_ l \/ last_ l <= z <= first_ l.
Definition depth_inside (d : list Q) (z : Q) : Prop := zlen d = 1%Z \/ within d z.

(** The indices a particle may carry for the grid; along depth the last index is allowed too. *)
Definition valid_starts (g : rgrid) (xi yi zi : Z) : Prop :=
  valid_start (g_lon g) xi /\ valid_start (g_lat g) yi /\ (zlen (g_depth g) = 1%Z \/ (0 <= zi < zlen (g_depth g))%Z).
