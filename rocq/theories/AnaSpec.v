(** Specification for C47: the exact path of a particle through a cell of a C-grid. *)
From Coq Require Import Reals ZArith List.
From Verif Require Import UnitModel UnitSpec CGridModel CGridSpec AdvModel AnaModel.
Import ListNotations.
Open Scope R_scope.

(** [X], [Y], [Z] is the path of a water parcel in the velocity field [vel] (of lon, lat, depth) from time 0 to [T]. *)
Definition trajectory (vel : R -> R -> R -> option (R * R * R)) (p : apart) (T : R) (X Y Z : R -> R) : Prop :=
  X 0 = a_lon p /\ Y 0 = a_lat p /\ Z 0 = a_depth p /\
  forall t, 0 <= t <= T -> exists u v w, vel (X t) (Y t) (Z t) = Some (u, v, w) /\
    derivable_pt_lim X t u /\ derivable_pt_lim Y t v /\ derivable_pt_lim Z t w.

(** The data at a time between two frames, at a level. *)
Definition frozen (f : flow) (ti : Z) (tau : R) (D : Z -> Z -> Z -> Z -> R) (k j i : Z) : R :=
  if (fl_tdim f <=? 1)%Z then D ti k j i else (1 - tau) * D ti k j i + tau * D (ti + 1)%Z k j i.

(** A box: the cell (xi, yi) of a rectilinear grid, and with W the layer zi. *)
Record box := mkBox { b_x0 : R; b_x1 : R; b_y0 : R; b_y1 : R; b_z0 : R; b_z1 : R }.
Definition box_of (f : flow) (lon lat : Z -> R) (w : found) : box :=
  mkBox (lon (s_xi w)) (lon (s_xi w + 1)%Z) (lat (s_yi w)) (lat (s_yi w + 1)%Z)
        (fl_depth f (s_zi w)) (fl_depth f (s_zi w + 1)%Z).
Definition solid (withW : bool) (b : box) : Prop :=
  b_x0 b < b_x1 b /\ b_y0 b < b_y1 b /\ (withW = true -> b_z0 b < b_z1 b).
Definition inside (withW : bool) (b : box) (x y z : R) : Prop :=
  b_x0 b <= x <= b_x1 b /\ b_y0 b <= y <= b_y1 b /\ (withW = true -> b_z0 b <= z <= b_z1 b).
Definition on_face (withW : bool) (b : box) (x y z : R) : Prop :=
  x = b_x0 b \/ x = b_x1 b \/ y = b_y0 b \/ y = b_y1 b \/ (withW = true /\ (z = b_z0 b \/ z = b_z1 b)).
(** The particle is where the search has found it. *)
Definition located (withW : bool) (b : box) (w : found) (p : apart) : Prop :=
  a_lon p = blend (b_x0 b) (b_x1 b) (s_xsi w) /\ a_lat p = blend (b_y0 b) (b_y1 b) (s_eta w) /\
  (withW = true -> a_depth p = blend (b_z0 b) (b_z1 b) (s_zeta w)).

(** The velocity that fieldset.UV (and W) give in the cell, with the horizontal velocities of level [k]. *)
Definition velocity (f : flow) (ti : Z) (tau : R) (k : Z) (w : found) (b : box) (x y z : R) : option (R * R * R) :=
  let xsi := (x - b_x0 b) / (b_x1 b - b_x0 b) in
  let eta := (y - b_y0 b) / (b_y1 b - b_y0 b) in
  let zeta := (z - b_z0 b) / (b_z1 b - b_z0 b) in
  match py_uv (fl_mesh f) Nemo (fl_grid f) (frozen f ti tau (fl_U f) k) (frozen f ti tau (fl_V f) k)
          xsi eta (s_xi w) (s_yi w) x y with
  | Some (u, v) => Some (u, v, if fl_withW f then py_w Nemo (fun l => frozen f ti tau (fl_W f) l) zeta (s_xi w) (s_yi w) (s_zi w) else 0)
  | None => None
  end.

(** One direction: the flow through the cell is [F0] at its near face (r = 0), [F1] at its far face (r = 1).  The tolerances
    of the kernel do not come into play: the two are equal or differ by more than 1e-10; where the flow is uniform it is 0
    or at least 1e-10; the particle is not just about to cross the face it is heading for, and the flow at its place and at
    that face is not nearly 0. *)
Definition flow_at (F0 F1 r : R) : R := (1 - r) * F0 + r * F1.
Definition heading (F0 F1 r : R) : R := if Rle_dec 0 (flow_at F0 F1 r) then 1 else 0.
Definition clear (F0 F1 r : R) : Prop :=
  let here := flow_at F0 F1 r in
  let there := flow_at F0 F1 (heading F0 F1 r) in
  0 <= r <= 1 /\
  ((F0 = F1 /\ (F0 = 0 \/ (tol <= Rabs F0 /\ tol * Rabs F0 <= Rabs (heading F0 F1 r - r)))) \/
   (tol < Rabs (F0 - F1) /\
    (here * there <= 0 \/ (tol * (F0 - F1) ^ 2 <= here * there /\ tol * Rabs (F0 - F1) <= Rabs (ln (there / here)))))).
(** In all directions: volume (without W: area) per time through the faces. *)
Definition width (m : mesh) (b : box) (lat : R) : R :=
  match m with Flat => b_x1 b - b_x0 b | Spherical => metres_of_lon (b_x1 b - b_x0 b) lat end.
Definition height (m : mesh) (b : box) : R :=
  match m with Flat => b_y1 b - b_y0 b | Spherical => metres_of_lat (b_y1 b - b_y0 b) end.
Definition thickness (f : flow) (b : box) : R := if fl_withW f then b_z1 b - b_z0 b else 1.
Definition clear_box (f : flow) (ti : Z) (tau : R) (w : found) (b : box) : Prop :=
  let m := fl_mesh f in
  let dz := thickness f b in
  let U := frozen f ti tau (fl_U f) (level f (s_zi w)) in
  let V := frozen f ti tau (fl_V f) (level f (s_zi w)) in
  let W := frozen f ti tau (fl_W f) in
  let floor := width m b (blend (b_y0 b) (b_y1 b) (s_eta w)) * height m b in
  clear (west_value Nemo U (s_xi w) (s_yi w) * height m b * dz) (east_value Nemo U (s_xi w) (s_yi w) * height m b * dz) (s_xsi w) /\
  clear (south_value Nemo V (s_xi w) (s_yi w) * width m b (b_y0 b) * dz)
        (north_value Nemo V (s_xi w) (s_yi w) * width m b (b_y1 b) * dz) (s_eta w) /\
  (fl_withW f = true ->
   clear (W (s_zi w) (s_yi w + 1)%Z (s_xi w + 1)%Z * floor) (W (s_zi w + 1)%Z (s_yi w + 1)%Z (s_xi w + 1)%Z * floor) (s_zeta w)).

(** The time of the particle is between two frames (or there is one frame only); the weight of the second. *)
Definition in_time (f : flow) (ti : Z) (time : R) : Prop :=
  (1 < fl_tdim f)%Z -> (ti + 1 < fl_tdim f)%Z /\ fl_times f ti <= time < fl_times f (ti + 1)%Z.
Definition weight (f : flow) (ti : Z) (time : R) : R :=
  if (fl_tdim f <=? 1)%Z then 0 else (time - fl_times f ti) / (fl_times f (ti + 1)%Z - fl_times f ti).
(** Between two frames a step is no longer than the first ninth of the interval that is longer than the time since the
    first frame. *)
Definition ninth (f : flow) (ti : Z) (time T : R) : Prop :=
  (1 < fl_tdim f)%Z /\ exists k, (1 <= k <= 9)%nat /\
    T = INR k * (fl_times f (ti + 1)%Z - fl_times f ti) / 9 /\
    INR (k - 1) * (fl_times f (ti + 1)%Z - fl_times f ti) / 9 <= time - fl_times f ti < T.

(** A spherical cell away from the poles, fewer than 135 degrees wide, whose longitudes need not be changed by a turn. *)
Definition plain (m : mesh) (b : box) (p : apart) : Prop :=
  match m with
  | Flat => True
  | Spherical => between_poles (b_y0 b) /\ between_poles (b_y1 b) /\ b_x1 b - b_x0 b < 135 /\ b_x0 b <= a_lat p + 225
  end.

(** Index and coordinate in one direction: the next cell, from its near face, if the particle is crossing; as they were if not. *)
Definition moved_on (crossing : Prop) (i i' : Z) (r r' : R) : Prop :=
  (crossing -> i' = (i + 1)%Z /\ r' = 0) /\ (~ crossing -> i' = i /\ r' = r).
