(** Specification for C54: cells between two s-levels, their faces, and what flows through them. *)
From Coq Require Import List ZArith Reals.
From Verif Require Import UnitModel UnitSpec CGridModel CGridSpec HexModel.
Import ListNotations.
Open Scope R_scope.

Definition vec3 : Type := (R * R * R)%type.
Definition minus3 (a b : vec3) : vec3 :=
  let '(a1, a2, a3) := a in let '(b1, b2, b3) := b in (a1 - b1, a2 - b2, a3 - b3).
Definition dot3 (a b : vec3) : R := let '(a1, a2, a3) := a in let '(b1, b2, b3) := b in a1 * b1 + a2 * b2 + a3 * b3.
Definition cross3 (a b : vec3) : vec3 :=
  let '(a1, a2, a3) := a in let '(b1, b2, b3) := b in (a2 * b3 - a3 * b2, a3 * b1 - a1 * b3, a1 * b2 - a2 * b1).
Definition norm3 (a : vec3) : R := sqrt (dot3 a a).

(** The component of a velocity along a direction. *)
Definition along3 (v n : vec3) : R := dot3 v n / norm3 n.

(** A displacement in degrees (or flat units) and metres of depth, in metres. *)
Definition in_metres3 (m : mesh) (lat : R) (d : vec3) : vec3 :=
  let '(d1, d2, d3) := d in let '(e1, e2) := in_metres m lat (d1, d2) in (e1, e2, d3).

(** A cell stands on a horizontal cell, between two levels given at its corners. *)
Record level := Level { z_sw : R; z_se : R; z_ne : R; z_nw : R }.
Record cell3 := Cell3 { base : cell; lower : level; upper : level }.
Definition depth_of (l : level) (xsi eta : R) : R := blend (blend (z_sw l) (z_se l) xsi) (blend (z_nw l) (z_ne l) xsi) eta.
(** The point at (xsi, eta, zet). *)
Definition place3 (h : cell3) (xsi eta zet : R) : vec3 :=
  (fst (place (base h) xsi eta), snd (place (base h) xsi eta), blend (depth_of (lower h) xsi eta) (depth_of (upper h) xsi eta) zet).
(** The upper level has the greater depths, at every corner. *)
Definition thick (h : cell3) : Prop :=
  z_sw (lower h) < z_sw (upper h) /\ z_se (lower h) < z_se (upper h) /\
  z_ne (lower h) < z_ne (upper h) /\ z_nw (lower h) < z_nw (upper h).
Definition unit_cube (xsi eta zet : R) : Prop := 0 <= xsi <= 1 /\ 0 <= eta <= 1 /\ 0 <= zet <= 1.

(** The straight lines through a point of the cell along which one of xsi, eta, zet goes from 0 to 1. *)
Definition line_x (h : cell3) (eta zet : R) : vec3 := minus3 (place3 h 1 eta zet) (place3 h 0 eta zet).
Definition line_y (h : cell3) (xsi zet : R) : vec3 := minus3 (place3 h xsi 1 zet) (place3 h xsi 0 zet).
Definition line_z (h : cell3) (xsi eta : R) : vec3 := minus3 (place3 h xsi eta 1) (place3 h xsi eta 0).
(** The direction, at a point, at right angles to the surface through it on which xsi (eta, zet) is constant. *)
Definition normal_x (m : mesh) (h : cell3) (xsi eta zet : R) : vec3 :=
  let lat := snd (place (base h) xsi eta) in cross3 (in_metres3 m lat (line_y h xsi zet)) (in_metres3 m lat (line_z h xsi eta)).
Definition normal_y (m : mesh) (h : cell3) (xsi eta zet : R) : vec3 :=
  let lat := snd (place (base h) xsi eta) in cross3 (in_metres3 m lat (line_z h xsi eta)) (in_metres3 m lat (line_x h eta zet)).
Definition normal_z (m : mesh) (h : cell3) (xsi eta zet : R) : vec3 :=
  let lat := snd (place (base h) xsi eta) in cross3 (in_metres3 m lat (line_x h eta zet)) (in_metres3 m lat (line_y h xsi zet)).

(** [uvw] (horizontally in degrees per second, or flat units) at (xsi, eta, zet) crosses the faces of [h] at the given
    speeds: of the faces where xsi is 0, 1, where eta is 0, 1, where zet is 0, 1. *)
Record speeds := Speeds { s_w : R; s_e : R; s_s : R; s_n : R; s_l : R; s_u : R }.
Definition crosses_faces3 (m : mesh) (h : cell3) (xsi eta zet : R) (uvw : vec3) (s : speeds) : Prop :=
  let v := in_metres3 m (snd (place (base h) xsi eta)) uvw in
  (xsi = 0 -> along3 v (normal_x m h xsi eta zet) = s_w s) /\ (xsi = 1 -> along3 v (normal_x m h xsi eta zet) = s_e s) /\
  (eta = 0 -> along3 v (normal_y m h xsi eta zet) = s_s s) /\ (eta = 1 -> along3 v (normal_y m h xsi eta zet) = s_n s) /\
  (zet = 0 -> along3 v (normal_z m h xsi eta zet) = s_l s) /\ (zet = 1 -> along3 v (normal_z m h xsi eta zet) = s_u s).

(** The levels of a grid, and the cell (xi, yi, zi) on the horizontal cell [c]. *)
Definition level_of (d : Z -> Z -> Z -> R) (xi yi zi : Z) : level :=
  Level (d zi yi xi) (d zi yi (xi + 1)%Z) (d zi (yi + 1)%Z (xi + 1)%Z) (d zi (yi + 1)%Z xi).
Definition cell3_of (d : Z -> Z -> Z -> R) (c : cell) (xi yi zi : Z) : cell3 :=
  Cell3 c (level_of d xi yi zi) (level_of d xi yi (zi + 1)).

(** The values given for the faces of a cell (NEMO indexing). *)
Definition face_values (U V W : Z -> Z -> Z -> R) (xi yi zi : Z) : speeds :=
  Speeds (west_value Nemo (U zi) xi yi) (east_value Nemo (U zi) xi yi) (south_value Nemo (V zi) xi yi) (north_value Nemo (V zi) xi yi)
         (W zi (yi + 1)%Z (xi + 1)%Z) (W (zi + 1)%Z (yi + 1)%Z (xi + 1)%Z).

(** A level that is part of a plane. *)
Definition planar (c : cell) (l : level) : Prop := exists a b d,
  z_sw l = a + b * fst (sw c) + d * snd (sw c) /\ z_se l = a + b * fst (se c) + d * snd (se c) /\
  z_ne l = a + b * fst (ne c) + d * snd (ne c) /\ z_nw l = a + b * fst (nw c) + d * snd (nw c).

(** A flow [v] crosses all points of the faces of [h] at the given speeds. *)
Definition flows_through (h : cell3) (v : vec3) (s : speeds) : Prop := forall xsi eta zet, unit_cube xsi eta zet ->
  crosses_faces3 Flat h xsi eta zet v s.

(** A box. *)
Definition flat_level (z : R) : level := Level z z z z.
Definition box (x0 x1 y0 y1 z0 z1 : R) : cell3 := Cell3 (rectangle x0 x1 y0 y1) (flat_level z0) (flat_level z1).
(** What flows into a box flows out of it. *)
Definition balanced (dx dy dz : R) (s : speeds) : Prop :=
  (s_e s - s_w s) * dy * dz + (s_n s - s_s s) * dx * dz + (s_u s - s_l s) * dx * dy = 0.

(** Speeds between two times: linear in time, from the values [f] of each time; those of the last time after it. *)
Definition blend_speeds (w : R) (a b : speeds) : speeds :=
  let f x y := x + (y - x) * w in
  Speeds (f (s_w a) (s_w b)) (f (s_e a) (s_e b)) (f (s_s a) (s_s b)) (f (s_n a) (s_n b)) (f (s_l a) (s_l b)) (f (s_u a) (s_u b)).
Definition speeds_at (times : Z -> R) (tdim ti : Z) (time : R) (f : Z -> speeds) : speeds :=
  blend_speeds (if Z.ltb ti (tdim - 1) then (time - times ti) / (times (ti + 1)%Z - times ti) else 0) (f ti) (f (ti + 1)%Z).
