(** Specification for C49: what the interpolation methods other than plain linear interpolation promise. *)
From Coq Require Import List ZArith QArith Qabs.
From Verif Require Import IdxModel IdxSpec TimeModel InterpModel InterpSpec.
Import ListNotations.
Open Scope Q_scope.

(** Rectilinear meshes, flat or increasing along an arc, of any indexing and method. *)
Definition gridded (f : sfield) : Prop :=
  (s_spherical f = false \/ arc (s_lon f)) /\ s_zonal_periodic f = false /\
  axis_ok (s_lon f) /\ axis_ok (s_lat f) /\ depth_ok (s_depth f) /\ axis_ok (s_time f).

(** Node [a] of an axis is nearest to [x]: no other is nearer. (An axis of one point has only that.) *)
Definition nearest (l : list Q) (x : Q) (a : Z) : Prop :=
  (0 <= a < zlen l)%Z /\ ((1 < zlen l)%Z -> forall b, (0 <= b < zlen l)%Z -> Qabs (x - at_ l a) <= Qabs (x - at_ l b)).

(** The ends of cell [i] of an axis. *)
Definition low_end (l : list Q) (i : Z) : Z := if (zlen l =? 1)%Z then 0%Z else i.
Definition far_end (l : list Q) (i : Z) : Z := if (zlen l =? 1)%Z then 0%Z else (i + 1)%Z.

(** [q] is the bilinear interpolation at the position of the data [d y x] of a level. *)
Definition at_level (f : sfield) (d : Z -> Z -> Q) (x y q : Q) : Prop :=
  exists xi yi xsi eta, located (s_lon f) x xi xsi /\ located (s_lat f) y yi eta /\
    q == lin1 (s_lat f) (fun j => lin1 (s_lon f) (fun i => d j i) xi xsi) yi eta.
(** [q] is the value of the data [d y x] of a level at the north-east corner of the cell around the position. *)
Definition at_corner (f : sfield) (d : Z -> Z -> Q) (x y q : Q) : Prop :=
  exists xi yi xsi eta, located (s_lon f) x xi xsi /\ located (s_lat f) y yi eta /\
    q == d (far_end (s_lat f) yi) (far_end (s_lon f) xi).

(** Linear between the two levels of the layer, which have the values [q0], [q1]; in the lowest layer of POP, whose
    levels are the tops of the layers, to zero at its lower end. *)
Definition in_layer (f : sfield) (zi : Z) (zeta q0 q1 : Q) : Q :=
  if (is_pop (s_indexing f) && (zi =? zlen (s_depth f) - 2)%Z)%bool then (1 - zeta) * q0 else (1 - zeta) * q0 + zeta * q1.

(** The value of frame [n] at a position within the levels, method by method. *)
Definition nearest_value (f : sfield) (n : Z) (x y z q : Q) : Prop :=
  exists i j k, nearest (s_lon f) x i /\ nearest (s_lat f) y j /\ nearest (s_depth f) z k /\ q == s_data f n k j i.
Definition tracer_value (f : sfield) (n : Z) (x y z q : Q) : Prop :=
  exists zi zeta, located (s_depth f) z zi zeta /\ at_corner f (s_data f n (low_end (s_depth f) zi)) x y q.
(** U and V on a B-grid: the same in the whole layer; MOM5 names levels by the lower ends of the layers. *)
Definition layer_value (f : sfield) (n : Z) (x y z q : Q) : Prop :=
  exists zi zeta, located (s_depth f) z zi zeta /\
    at_level f (s_data f n (if is_mom5 (s_indexing f) then far_end (s_depth f) zi else low_end (s_depth f) zi)) x y q.
(** W on a B-grid. *)
Definition w_value (f : sfield) (n : Z) (x y z q : Q) : Prop :=
  exists zi zeta q0 q1, in_cell (s_depth f) z zi zeta /\
    at_corner f (s_data f n zi) x y q0 /\ at_corner f (s_data f n (zi + 1)%Z) x y q1 /\ q == in_layer f zi zeta q0 q1.
Definition linear_value (f : sfield) (n : Z) (x y z q : Q) : Prop :=
  (zlen (s_depth f) = 1%Z /\ at_level f (s_data f n 0%Z) x y q) \/
  ((1 < zlen (s_depth f))%Z /\ exists zi zeta q0 q1, in_cell (s_depth f) z zi zeta /\
    at_level f (s_data f n zi) x y q0 /\ at_level f (s_data f n (zi + 1)%Z) x y q1 /\ q == in_layer f zi zeta q0 q1).
Definition method_value (f : sfield) (n : Z) (x y z q : Q) : Prop :=
  match s_method f with
  | Nearest => nearest_value f n x y z q
  | CgridTracer | BgridTracer => tracer_value f n x y z q
  | BgridVelocity => layer_value f n x y z q
  | BgridWVelocity => w_value f n x y z q
  | Linear => linear_value f n x y z q
  | LandTracer | CgridVelocity => False
  end.
(** Methods covered here: all but the land tracer (C27) and C-grid velocities (C37); W needs levels. *)
Definition offered (f : sfield) : Prop :=
  match s_method f with LandTracer | CgridVelocity => False | BgridWVelocity => (1 < zlen (s_depth f))%Z | _ => True end.

(** The thin layer above the first level that MOM5 fields have (the surface is at depth 0). *)
Definition surface_layer (f : sfield) (z : Q) : Prop :=
  s_indexing f = Mom5 /\ (1 < zlen (s_depth f))%Z /\ increasing (s_depth f) /\ 0 <= z /\ z < first_ (s_depth f) /\
  2 * first_ (s_depth f) - at_ (s_depth f) 1 < z.
(** There U and V are those of the first level, and W falls linearly to zero at the surface. *)
Definition surface_value (f : sfield) (n : Z) (x y z q : Q) : Prop :=
  match s_method f with
  | BgridVelocity => at_level f (s_data f n 0%Z) x y q
  | BgridWVelocity => exists q1, at_corner f (s_data f n 0%Z) x y q1 /\ q == z / first_ (s_depth f) * q1
  | _ => False
  end.
Definition surface_offered (f : sfield) : Prop := s_method f = BgridVelocity \/ s_method f = BgridWVelocity.

(** What sampling gives when frame [n] has a value [q] with [V n q] at the position: linear in time between frames,
    wrapped into the first period for a periodic field; outside the time axis an error, or the end frame when extrapolation
    is allowed. *)
Definition in_time (f : sfield) (V : Z -> Q -> Prop) (t q : Q) : Prop :=
  exists w, (forall n, (0 <= n < zlen (s_time f))%Z -> V n (w n)) /\ time_value (s_time f) w t q.
Definition samples_by (f : sfield) (V : Z -> Q -> Prop) (t : Q) (r : ires) : Prop :=
  let tm := s_time f in
  if s_periodic f then
    (1 < zlen tm)%Z -> exists q t', r = IVal q /\ wraps_to tm t t' /\ in_time f V t' q
  else
    (first_ tm <= t <= last_ tm -> exists q, r = IVal q /\ in_time f V t q) /\
    ((t < first_ tm \/ last_ tm < t) -> s_extrapolate f = false -> r = IExtrap) /\
    (t < first_ tm -> s_extrapolate f = true -> exists q, r = IVal q /\ V 0%Z q) /\
    (last_ tm < t -> s_extrapolate f = true -> exists q, r = IVal q /\ V (zlen tm - 1)%Z q).

(** The indices a particle may carry; a visit to the surface layer of a MOM5 field leaves -1. *)
Definition carried (f : sfield) (xi yi zi : Z) : Prop :=
  valid_start (s_lon f) xi /\ valid_start (s_lat f) yi /\
  (zlen (s_depth f) = 1%Z \/ (0 <= zi < zlen (s_depth f))%Z \/ (s_indexing f = Mom5 /\ zi = -1)%Z).
Definition carries (f : sfield) (z : Q) (xi yi zi : Z) : Prop :=
  carried f xi yi zi /\ ((1 < zlen (s_depth f))%Z -> zi = (-1)%Z -> ~ z == first_ (s_depth f)).

(** Where the C routines do the same: W not on MITgcm; POP with three levels or more, and the nearest node not in its lowest layer. *)
Definition lowest_layer (f : sfield) (z : Q) : Prop :=
  exists zeta, in_cell (s_depth f) z (zlen (s_depth f) - 2) zeta.
Definition jit_offered (f : sfield) (z : Q) : Prop :=
  (s_method f = BgridWVelocity -> s_indexing f <> Mitgcm) /\
  (s_indexing f = Pop -> zlen (s_depth f) <> 2%Z /\ (s_method f = Nearest -> ~ lowest_layer f z)).

(** Away from the nodes of an axis, and from the middles of its cells. *)
Definition off_nodes (l : list Q) (x : Q) : Prop := (1 < zlen l)%Z -> forall a, (0 <= a < zlen l)%Z -> ~ x == at_ l a.
Definition off_middles (l : list Q) (x : Q) : Prop :=
  (1 < zlen l)%Z -> forall a, (0 <= a)%Z -> (a + 1 < zlen l)%Z -> ~ 2 * x == at_ l a + at_ l (a + 1).
(** Positions at which there is no choice of cell or node. *)
Definition settled (f : sfield) (x y z : Q) : Prop :=
  match s_method f with
  | Nearest => off_middles (s_lon f) x /\ off_middles (s_lat f) y /\ off_middles (s_depth f) z
  | CgridTracer | BgridTracer => off_nodes (s_lon f) x /\ off_nodes (s_lat f) y /\ off_nodes (s_depth f) z
  | BgridVelocity => off_nodes (s_depth f) z
  | BgridWVelocity => off_nodes (s_lon f) x /\ off_nodes (s_lat f) y
  | _ => True
  end.
