(** C37: velocities on C-grids. *)
From Coq Require Import List ZArith Reals.
From Verif Require Import UnitModel UnitSpec CGridModel CGridSpec CGridProofs.
Import ListNotations.
Open Scope R_scope.

(** C37: in every convex cell of a rectilinear or curvilinear grid, flat or spherical, of either indexing: the velocity is
    defined everywhere in the cell, and its component through a face, in metres, is the value given for that face at every
    point of the face. *)
Theorem face_velocity : forall m gi g Ud Vd xi yi c xsi eta,
  same_cell m (cell_of g xi yi) c -> convex c -> unit_square xsi eta -> away m (snd (place c xsi eta)) ->
  exists uv, py_uv m gi g Ud Vd xsi eta xi yi (fst (place c xsi eta)) (snd (place c xsi eta)) = Some uv /\
    crosses_faces m c xsi eta uv
      (east_value gi Ud xi yi) (west_value gi Ud xi yi) (north_value gi Vd xi yi) (south_value gi Vd xi yi).
Proof. exact py_faces. Qed.
Print Assumptions face_velocity.

(** A cell of 10 by 60 degrees (or flat units), and a sloping cell across the date line. *)
Example face_velocity_case : forall m,
  same_cell m (cell_of tall 0 0) (rectangle 0 10 0 60) /\ convex (rectangle 0 10 0 60) /\ narrow (rectangle 0 10 0 60) /\
  unit_square 1 (1/2) /\ away m (snd (place (rectangle 0 10 0 60) 1 (1/2))).
Proof. exact tall_case. Qed.
Example face_velocity_seam_case :
  same_cell Spherical (cell_of seam 0 0) seam_cell /\ convex seam_cell /\ unit_square 1 (1/2) /\
  away Spherical (snd (place seam_cell 1 (1/2))).
Proof. exact seam_case. Qed.

(** C37: between two times the component through a face is interpolated linearly between the values given for the face;
    in particular it is zero if both are. *)
Theorem face_velocity_in_time : forall times tdim m gi g Ud Vd ti time xi yi c xsi eta,
  same_cell m (cell_of g xi yi) c -> convex c -> unit_square xsi eta -> away m (snd (place c xsi eta)) ->
  (0 <= ti < tdim)%Z -> ((ti < tdim - 1)%Z -> times ti < times (ti + 1)%Z) -> times ti <= time ->
  let w := if Z.ltb ti (tdim - 1) then (time - times ti) / (times (ti + 1)%Z - times ti) else 0 in
  let now f := f ti + (f (ti + 1)%Z - f ti) * w in
  exists uv, py_uv_at times tdim m gi g Ud Vd ti time xsi eta xi yi (fst (place c xsi eta)) (snd (place c xsi eta)) = Some uv /\
    crosses_faces m c xsi eta uv
      (now (fun k => east_value gi (Ud k) xi yi)) (now (fun k => west_value gi (Ud k) xi yi))
      (now (fun k => north_value gi (Vd k) xi yi)) (now (fun k => south_value gi (Vd k) xi yi)).
Proof. exact py_faces_at. Qed.
Print Assumptions face_velocity_in_time.

(** C37: neighbouring cells agree on what flows through their shared face. *)
Theorem shared_face_east_west : forall m gi g Ud Vd xi yi c c' eta,
  same_cell m (cell_of g xi yi) c -> same_cell m (cell_of g (xi + 1) yi) c' ->
  sw c' = se c -> nw c' = ne c -> convex c -> convex c' -> 0 <= eta <= 1 ->
  let p := place c 1 eta in
  away m (snd p) ->
  exists uv uv', py_uv m gi g Ud Vd 1 eta xi yi (fst p) (snd p) = Some uv /\
    py_uv m gi g Ud Vd 0 eta (xi + 1) yi (fst p) (snd p) = Some uv' /\
    let face := in_metres m (snd p) (minus (ne c) (se c)) in
    to_right (in_metres m (snd p) uv) face = east_value gi Ud xi yi /\
    to_right (in_metres m (snd p) uv') face = east_value gi Ud xi yi.
Proof. exact neighbours_x. Qed.
Print Assumptions shared_face_east_west.

Example shared_face_case : forall m,
  same_cell m (cell_of tall 0 0) (rectangle 0 10 0 60) /\ same_cell m (cell_of tall 1 0) (rectangle 10 20 0 60) /\
  sw (rectangle 10 20 0 60) = se (rectangle 0 10 0 60) /\ nw (rectangle 10 20 0 60) = ne (rectangle 0 10 0 60) /\
  convex (rectangle 0 10 0 60) /\ convex (rectangle 10 20 0 60) /\ away m (snd (place (rectangle 0 10 0 60) 1 (1/2))).
Proof. exact tall_neighbours. Qed.

Theorem shared_face_north_south : forall m gi g Ud Vd xi yi c c' xsi,
  same_cell m (cell_of g xi yi) c -> same_cell m (cell_of g xi (yi + 1)) c' ->
  sw c' = nw c -> se c' = ne c -> convex c -> convex c' -> 0 <= xsi <= 1 ->
  let p := place c xsi 1 in
  away m (snd p) ->
  exists uv uv', py_uv m gi g Ud Vd xsi 1 xi yi (fst p) (snd p) = Some uv /\
    py_uv m gi g Ud Vd xsi 0 xi (yi + 1) (fst p) (snd p) = Some uv' /\
    let face := in_metres m (snd p) (minus (nw c) (ne c)) in
    to_right (in_metres m (snd p) uv) face = north_value gi Vd xi yi /\
    to_right (in_metres m (snd p) uv') face = north_value gi Vd xi yi.
Proof. exact neighbours_y. Qed.
Print Assumptions shared_face_north_south.

(** C37: inside a rectangular cell the zonal velocity is linear in xsi and does not depend on eta; the meridional velocity
    times the width of the cell is linear in eta (on a flat mesh, so is the velocity itself). *)
Theorem rectangular_cell : forall m gi g Ud Vd xi yi x0 x1 y0 y1 xsi eta,
  same_cell m (cell_of g xi yi) (rectangle x0 x1 y0 y1) -> x0 < x1 -> y0 < y1 -> unit_square xsi eta ->
  away m y0 -> away m y1 ->
  let y := blend y0 y1 eta in
  exists u v, py_uv m gi g Ud Vd xsi eta xi yi (blend x0 x1 xsi) y = Some (u, v) /\
    let '(U, V) := in_metres m y (u, v) in
    let width lat := match m with Flat => 1 | Spherical => cos (lat * pi / 180) end in
    U = blend (west_value gi Ud xi yi) (east_value gi Ud xi yi) xsi /\
    V * width y = blend (south_value gi Vd xi yi * width y0) (north_value gi Vd xi yi * width y1) eta.
Proof. exact rect_inside. Qed.
Print Assumptions rectangular_cell.

(** C37 as stated is false on a spherical mesh: with the meridional velocity 1 on both faces it is not 1 between them. *)
Theorem meridional_velocity_linear_refuted :
  exists u v, py_uv Spherical Nemo tall one one (1/2) (1/2) 0 0 5 30 = Some (u, v) /\
    snd (in_metres Spherical 30 (u, v)) <> 1.
Proof. exact tall_not_linear. Qed.
Print Assumptions meridional_velocity_linear_refuted.

(** C37: both modes compute the same velocity; on a flat mesh, for cells at most 180 units wide. *)
Theorem cgrid_modes_agree_partial : forall times tdim m gi g Ud Vd ti time xi yi c xsi eta,
  same_cell m (cell_of g xi yi) c -> (m = Flat -> narrow c) ->
  convex c -> unit_square xsi eta -> away m (snd (place c xsi eta)) ->
  c_uv_at times tdim m gi g Ud Vd ti time xsi eta xi yi
  = py_uv_at times tdim m gi g Ud Vd ti time xsi eta xi yi (fst (place c xsi eta)) (snd (place c xsi eta)).
Proof. exact modes_agree_at. Qed.
Print Assumptions cgrid_modes_agree_partial.

(** Missing above: in JIT mode longitudes are adjusted by a turn of 360 on flat meshes too; in cells 200 metres wide the
    meridional velocity is reversed. *)
Theorem wide_flat_cell_refuted :
  py_uv Flat Nemo wide one one (1/2) (1/2) 0 0 100 50 = Some (1, 1) /\
  c_uv Flat Nemo wide one one (1/2) (1/2) 0 0 = Some (1, -1).
Proof. exact wide_wrong. Qed.
Print Assumptions wide_flat_cell_refuted.

(** C37: the vertical velocity on z-levels is the value given at each level, linear between them, and continuous. *)
Theorem vertical_velocity : forall gi W zeta xi yi zi,
  py_w gi W zeta xi yi zi = blend (py_w gi W 0 xi yi zi) (py_w gi W 1 xi yi zi) zeta /\
  py_w gi W 1 xi yi zi = py_w gi W 0 xi yi (zi + 1) /\
  py_w gi W 0 xi yi zi = match gi with Nemo => W zi (yi + 1)%Z (xi + 1)%Z | Mitgcm => W zi yi xi end.
Proof. exact w_faces. Qed.
Print Assumptions vertical_velocity.

Theorem vertical_velocity_in_both_modes : forall gi W xsi eta zeta xi yi zi,
  c_w gi W xsi eta zeta xi yi zi = py_w gi W zeta xi yi zi.
Proof. exact w_modes. Qed.
Print Assumptions vertical_velocity_in_both_modes.
