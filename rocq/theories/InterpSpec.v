(** What sampling a field should return (C23-C27). *)
From Coq Require Import List ZArith QArith.
From Verif Require Import IdxModel IdxSpec TimeModel InterpModel.
Import ListNotations.
Open Scope Q_scope.

(** Linear interpolation along one axis, in cell [i] at relative coordinate [r]. *)
Definition lin1 (l : list Q) (f : Z -> Q) (i : Z) (r : Q) : Q :=
  if (zlen l =? 1)%Z then f 0%Z else (1 - r) * f i + r * f (i + 1)%Z.

(** [q] is the (tri)linear interpolation of the data [d z y x] at the position. *)
Definition interpolant (lon lat depth : list Q) (d : Z -> Z -> Z -> Q) (x y z q : Q) : Prop :=
  exists xi yi zi xsi eta zeta,
    located lon x xi xsi /\ located lat y yi eta /\ located depth z zi zeta /\
    q == lin1 depth (fun k => lin1 lat (fun j => lin1 lon (fun i => d k j i) xi xsi) yi eta) zi zeta.

(** [q] is the linear interpolation in time of the values [w n] of frames at times [tm]. *)
Definition time_value (tm : list Q) (w : Z -> Q) (t q : Q) : Prop :=
  first_ tm <= t <= last_ tm /\ exists i r, located tm t i r /\ q == lin1 tm w i r.

(** The time of the first period that corresponds to [t]. *)
Definition wraps_to (tm : list Q) (t t' : Q) : Prop :=
  first_ tm <= t' /\ t' < last_ tm /\ exists n, t == t' + inject_Z n * (last_ tm - first_ tm).

(** Fields of the theorems: rectilinear mesh, flat or increasing along an arc, linear interpolation, indexing without special levels. *)
Definition linear_field (f : sfield) : Prop :=
  (s_spherical f = false \/ arc (s_lon f)) /\ s_zonal_periodic f = false /\ s_method f = Linear /\
  (s_indexing f = Nemo \/ s_indexing f = Mitgcm) /\
  axis_ok (s_lon f) /\ axis_ok (s_lat f) /\ depth_ok (s_depth f) /\ axis_ok (s_time f).
Definition position_inside (f : sfield) (x y z : Q) : Prop :=
  inside (s_lon f) x /\ inside (s_lat f) y /\
  (zlen (s_depth f) = 1%Z \/ first_ (s_depth f) <= z <= last_ (s_depth f) \/ last_ (s_depth f) <= z <= first_ (s_depth f)).

(** Value of frame [n] at a position. *)
Definition frame_value (f : sfield) (n : Z) (x y z q : Q) : Prop :=
  interpolant (s_lon f) (s_lat f) (s_depth f) (s_data f n) x y z q.
(** Value of the field at a time of its time axis. *)
Definition field_value (f : sfield) (t x y z q : Q) : Prop :=
  exists w, (forall n, (0 <= n < zlen (s_time f))%Z -> frame_value f n x y z (w n)) /\ time_value (s_time f) w t q.

(** The indices kept by a particle for the grid of the field. *)
Definition indices_ok (f : sfield) (xi yi zi : Z) : Prop :=
  valid_start (s_lon f) xi /\ valid_start (s_lat f) yi /\
  (zlen (s_depth f) = 1%Z \/ (0 <= zi < zlen (s_depth f))%Z).

(** Polynomials of degree one in each coordinate. *)
Definition trilin (c : bool -> bool -> bool -> Q) (x y z : Q) : Q :=
  c false false false + c true false false * x + c false true false * y + c false false true * z
  + c true true false * x * y + c true false true * x * z + c false true true * y * z + c true true true * x * y * z.
(** Along an axis of one point the coordinate is that point. *)
Definition coord (l : list Q) (x : Q) : Q := if (zlen l =? 1)%Z then first_ l else x.

(** The indices of the nodes of cell [i] of an axis. *)
Definition cell_node (l : list Q) (i a : Z) : Prop :=
  (zlen l = 1%Z /\ a = 0%Z) \/ ((1 < zlen l)%Z /\ (a = i \/ a = (i + 1)%Z)).

(** The same outcome: equal values, or the same error. *)
Definition same_result (r r' : ires) : Prop :=
  match r, r' with IVal q, IVal q' => q == q' | IVal _, _ => False | _, IVal _ => False | _, _ => r = r' end.

(** What sampling should give at a position inside the grid: the value at the time, wrapped into the first
    period for a periodic field; outside the time axis an error, or the end frame when extrapolation is allowed. *)
Definition samples_as (f : sfield) (t x y z : Q) (r : ires) : Prop :=
  let tm := s_time f in
  if s_periodic f then
    (1 < zlen tm)%Z -> exists q t', r = IVal q /\ wraps_to tm t t' /\ field_value f t' x y z q
  else
    (first_ tm <= t <= last_ tm -> exists q, r = IVal q /\ field_value f t x y z q) /\
    ((t < first_ tm \/ last_ tm < t) -> s_extrapolate f = false -> r = IExtrap) /\
    (t < first_ tm -> s_extrapolate f = true -> exists q, r = IVal q /\ frame_value f 0 x y z q) /\
    (last_ tm < t -> s_extrapolate f = true -> exists q, r = IVal q /\ frame_value f (zlen tm - 1) x y z q).

(** A time at which the field can be sampled. *)
Definition time_ok (f : sfield) (t : Q) : Prop :=
  (s_periodic f = true /\ (1 < zlen (s_time f))%Z) \/
  (s_periodic f = false /\ (s_extrapolate f = true \/ first_ (s_time f) <= t <= last_ (s_time f))).

(** The error a position outside the grid gives. *)
Definition position_error (f : sfield) (x y z : Q) (e : sres) : Prop :=
  (~ (inside (s_lon f) x /\ inside (s_lat f) y) /\ e = OutOfBounds) \/
  (inside (s_lon f) x /\ inside (s_lat f) y /\ above_first (s_depth f) z /\ e = ThroughSurface) \/
  (inside (s_lon f) x /\ inside (s_lat f) y /\ below_last (s_depth f) z /\ e = OutOfBounds).

