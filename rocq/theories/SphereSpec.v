(** Longitudes on the sphere (C39). *)
From Coq Require Import List ZArith QArith.
From Verif Require Import IdxModel IdxSpec InterpModel InterpSpec.
Open Scope Q_scope.

(** The longitudes [l] of a grid go round the sphere as [m] does: they increase, or they pass from 180 to -180. *)
Definition circle_axis (l m : list Q) : Prop :=
  (1 < zlen m)%Z /\ increasing m /\ arc m /\ (l = m \/ exists k, wraps l m k).

(** [x'] is [x], whole turns away. *)
Definition turned (x x' : Q) : Prop := exists J : Z, x' == x - 360 * inject_Z J.

(** Between the smallest and the largest longitude of the grid. *)
Definition in_bounds (l : list Q) (x : Q) : Prop :=
  (exists i, (0 <= i < zlen l)%Z /\ at_ l i <= x) /\ (exists i, (0 <= i < zlen l)%Z /\ x <= at_ l i).

(** [x] is on the grid, as longitude [x'] of the axis. *)
Definition on_axis (m : list Q) (x x' : Q) : Prop := turned x x' /\ first_ m <= x' <= last_ m.

(** A grid with a spherical mesh, and its other axes. *)
Definition sphere_grid (g : rgrid) (m : list Q) : Prop :=
  g_spherical g = true /\ g_zonal_periodic g = false /\ g_mom5 g = false /\ circle_axis (g_lon g) m /\ axis_ok (g_lat g) /\ depth_ok (g_depth g).

(** A grid with a halo: longitudes that may reach past the circle, by 90 degrees at most; zonally periodic. *)
Definition halo_lons (g : rgrid) : Prop :=
  g_spherical g = true /\ g_zonal_periodic g = true /\ g_mom5 g = false /\ axis_ok (g_lon g) /\ (1 < zlen (g_lon g) <= 10002)%Z /\
  narrow_cells (g_lon g) /\ last_ (g_lon g) - first_ (g_lon g) <= 450 /\ axis_ok (g_lat g) /\ depth_ok (g_depth g).

(** The outcome: cell of longitude [x'] on axis [m]. *)
Definition found_in (g : rgrid) (m : list Q) (x' y z : Q) (r : sres) : Prop :=
  exists xsi eta zeta xi yi zi, r = Found xsi eta zeta xi yi zi /\
    in_cell m x' xi xsi /\ located (g_lat g) y yi eta /\ located (g_depth g) z zi zeta.

(** The same field on longitudes without the jump, on a flat mesh. *)
Definition on_lon (m : list Q) (f : sfield) : sfield :=
  mkField m (s_lat f) (s_depth f) false false (s_indexing f) (s_method f) (s_time f) (s_periodic f) (s_extrapolate f) (s_data f).
