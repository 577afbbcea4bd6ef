(** Model of velocity interpolation on C-grids with s-levels, over the real numbers (no rounding).

    Source: parcels/field.py 1505-1630 (spatial_c_grid_interpolation3D_full, spatial_c_grid_interpolation3D),
    1644-1672 (VectorField.eval), parcels/tools/interpolation_utils.py 13-19, 43-129, 160-161;
    parcels/include/interpolation_utils.h, parcels/include/parcels.h 767-896 (spatial_interpolation_UVW_c_grid),
    898-956 (temporal_interpolationUVW_c_grid).
    The cell (xi, yi, zi) and the position (xsi, eta, zet) in it come from search_indices and are arguments here.
    Data are functions of the indices. The rectilinear and curvilinear nodes and the turns of longitudes are as in
    CGridModel (1509-1522 and parcels.h 776-799 repeat the lines modelled there). *)
From Coq Require Import List ZArith Reals Bool.
From Verif Require Import UnitModel CGridModel.
Import ListNotations.
Open Scope R_scope.

(** Eight numbers, one for each corner of a cell: the four corners of level zi as in [quad], then those of zi+1. *)
Record oct := Oct { o0 : R; o1 : R; o2 : R; o3 : R; o4 : R; o5 : R; o6 : R; o7 : R }.
Definition dot8 (a b : oct) : R :=
  o0 a * o0 b + o1 a * o1 b + o2 a * o2 b + o3 a * o3 b + o4 a * o4 b + o5 a * o5 b + o6 a * o6 b + o7 a * o7 b.
(** np.concatenate((px, px)), 1524-1525; parcels.h 808-811. *)
Definition twice (q : quad) : oct := Oct (q0 q) (q1 q) (q2 q) (q3 q) (q0 q) (q1 q) (q2 q) (q3 q).

(** interpolate(phi1D_quad, [a, b, c], x), interpolation_utils.py 13-19 and 160-161; the same in C. *)
Definition quad_of (a b c x : R) : R := (2 * x ^ 2 - 3 * x + 1) * a + (-4 * x ^ 2 + 4 * x) * b + (2 * x ^ 2 - x) * c.

(** dphidxsi3D_lin, 43-68; interpolation_utils.h 27-55. *)
Definition dphidxsi (eta zet : R) : oct :=
  Oct (- (1 - eta) * (1 - zet)) ((1 - eta) * (1 - zet)) (eta * (1 - zet)) (- eta * (1 - zet))
      (- (1 - eta) * zet) ((1 - eta) * zet) (eta * zet) (- eta * zet).
Definition dphideta (xsi zet : R) : oct :=
  Oct (- (1 - xsi) * (1 - zet)) (- xsi * (1 - zet)) (xsi * (1 - zet)) ((1 - xsi) * (1 - zet))
      (- (1 - xsi) * zet) (- xsi * zet) (xsi * zet) ((1 - xsi) * zet).
Definition dphidzet (xsi eta : R) : oct :=
  Oct (- (1 - xsi) * (1 - eta)) (- xsi * (1 - eta)) (- xsi * eta) (- (1 - xsi) * eta)
      ((1 - xsi) * (1 - eta)) (xsi * (1 - eta)) (xsi * eta) ((1 - xsi) * eta).

(** dxdxsi, dxdeta, ..., dzdzet. *)
Record jacM := JacM { xx : R; xe : R; xz : R; yx : R; ye : R; yz : R; zx : R; ze : R; zz : R }.

Definition lat_at (hy : oct) (xsi eta : R) : R :=
  (1 - xsi) * (1 - eta) * o0 hy + xsi * (1 - eta) * o1 hy + xsi * eta * o2 hy + (1 - xsi) * eta * o3 hy.
Definition jac_lon (m : mesh) (lat : R) : R :=
  match m with Spherical => 1852 * 60 * cos (pi / 180 * lat) | Flat => 1 end.
Definition jac_lat (m : mesh) : R := match m with Spherical => 1852 * 60 | Flat => 1 end.

(** dxdxsi3D_lin, 71-98. *)
Definition py_jacM (m : mesh) (hx hy hz : oct) (xsi eta zet : R) : jacM :=
  let jlon := jac_lon m (lat_at hy xsi eta) in
  let jlat := jac_lat m in
  JacM (dot8 hx (dphidxsi eta zet) * jlon) (dot8 hx (dphideta xsi zet) * jlon) (dot8 hx (dphidzet xsi eta) * jlon)
       (dot8 hy (dphidxsi eta zet) * jlat) (dot8 hy (dphideta xsi zet) * jlat) (dot8 hy (dphidzet xsi eta) * jlat)
       (dot8 hz (dphidxsi eta zet)) (dot8 hz (dphideta xsi zet)) (dot8 hz (dphidzet xsi eta)).

(** jacobian3D_lin, 101-107; interpolation_utils.h 112-125. *)
Definition jacobian3D (j : jacM) : R :=
  xx j * (ye j * zz j - ze j * yz j) - xe j * (yx j * zz j - zx j * yz j) + xz j * (yx j * ze j - zx j * ye j).

(** jacobian3D_lin_face, 110-129; interpolation_utils.h 86-110. *)
Inductive orientation : Set := Zonal | Meridional | Vertical.
Definition face3D (j : jacM) (o : orientation) : R :=
  let '(a, b, c) :=
    match o with
    | Zonal => (ye j * zz j - yz j * ze j, - xe j * zz j + xz j * ze j, xe j * yz j - xz j * ye j)
    | Meridional => (yx j * zz j - yz j * zx j, - xx j * zz j + xz j * zx j, xx j * yz j - xz j * yx j)
    | Vertical => (yx j * ze j - ye j * zx j, - xx j * ze j + xe j * zx j, xx j * ye j - xe j * yx j)
    end in
  sqrt (a ^ 2 + b ^ 2 + c ^ 2).

(** The halves of a cell, 1548, 1559, 1570. *)
Definition half_left (p : oct) : oct :=
  Oct (o0 p) ((o0 p + o1 p) / 2) ((o2 p + o3 p) / 2) (o3 p) (o4 p) ((o4 p + o5 p) / 2) ((o6 p + o7 p) / 2) (o7 p).
Definition half_front (p : oct) : oct :=
  Oct (o0 p) (o1 p) ((o1 p + o2 p) / 2) ((o0 p + o3 p) / 2) (o4 p) (o5 p) ((o5 p + o6 p) / 2) ((o4 p + o7 p) / 2).
Definition half_lower (p : oct) : oct :=
  Oct (o0 p) (o1 p) (o2 p) (o3 p) ((o0 p + o4 p) / 2) ((o1 p + o5 p) / 2) ((o2 p + o6 p) / 2) ((o3 p + o7 p) / 2).

(** 1540-1601; parcels.h 828-893 is the same text. [jm] is dxdxsi3D_lin of either mode. None for a division by zero
    (which gives inf or nan). *)
Definition uvw_of (jm : oct -> oct -> oct -> R -> R -> R -> jacM) (px py pz : oct) (u0 u1 v0 v1 w0 w1 xsi eta zet : R)
  : option (R * R * R) :=
  let face hx hy hz xsi eta zet o := face3D (jm hx hy hz xsi eta zet) o in
  let U0 := u0 * face px py pz 0 eta zet Zonal in
  let U1 := u1 * face px py pz 1 eta zet Zonal in
  let V0 := v0 * face px py pz xsi 0 zet Meridional in
  let V1 := v1 * face px py pz xsi 1 zet Meridional in
  let W0 := w0 * face px py pz xsi eta 0 Vertical in
  let W1 := w1 * face px py pz xsi eta 1 Vertical in
  let h := 1 / 2 in
  let flux_u05 :=
    let X := half_left px in let Y := half_left py in let Z := half_left pz in
    u0 * face X Y Z 0 h h Zonal + v0 * face X Y Z h 0 h Meridional - v1 * face X Y Z h 1 h Meridional
    + w0 * face X Y Z h h 0 Vertical - w1 * face X Y Z h h 1 Vertical in
  let flux_v05 :=
    let X := half_front px in let Y := half_front py in let Z := half_front pz in
    u0 * face X Y Z 0 h h Zonal - u1 * face X Y Z 1 h h Zonal + v0 * face X Y Z h 0 h Meridional
    + w0 * face X Y Z h h 0 Vertical - w1 * face X Y Z h h 1 Vertical in
  let flux_w05 :=
    let X := half_lower px in let Y := half_lower py in let Z := half_lower pz in
    u0 * face X Y Z 0 h h Zonal - u1 * face X Y Z 1 h h Zonal
    + v0 * face X Y Z h 0 h Meridional - v1 * face X Y Z h 1 h Meridional + w0 * face X Y Z h h 0 Vertical in
  let surf_u05 := face px py pz h h h Zonal in
  let surf_v05 := face px py pz h h h Meridional in
  let surf_w05 := face px py pz h h h Vertical in
  let U05 := flux_u05 / surf_u05 * face px py pz h eta zet Zonal in
  let V05 := flux_v05 / surf_v05 * face px py pz xsi h zet Meridional in
  let W05 := flux_w05 / surf_w05 * face px py pz xsi eta h Vertical in
  let jac := jacobian3D (jm px py pz xsi eta zet) in
  if Req_EM_T surf_u05 0 then None else if Req_EM_T surf_v05 0 then None else if Req_EM_T surf_w05 0 then None
  else if Req_EM_T jac 0 then None
  else
    let dxsidt := quad_of U0 U05 U1 xsi / jac in
    let detadt := quad_of V0 V05 V1 eta / jac in
    let dzetdt := quad_of W0 W05 W1 zet / jac in
    let along p := dot8 (dphidxsi eta zet) p * dxsidt + dot8 (dphideta xsi zet) p * detadt
                   + dot8 (dphidzet xsi eta) p * dzetdt in
    Some (along px, along py, along pz).

(** grid.depth: of s-grids, (zi, yi, xi), or (ti, zi, yi, xi) when the levels move (z4d). *)
Inductive levels : Type := Fixed (d : Z -> Z -> Z -> R) | Moving (d : Z -> Z -> Z -> Z -> R).

(** 1526-1531: of moving levels those of the first time are taken. *)
Definition py_pz (l : levels) (xi yi zi : Z) : oct :=
  let d := match l with Fixed d => d | Moving d => d 0%Z end in
  Oct (d zi yi xi) (d zi yi (xi + 1)%Z) (d zi (yi + 1)%Z (xi + 1)%Z) (d zi (yi + 1)%Z xi)
      (d (zi + 1)%Z yi xi) (d (zi + 1)%Z yi (xi + 1)%Z) (d (zi + 1)%Z (yi + 1)%Z (xi + 1)%Z) (d (zi + 1)%Z (yi + 1)%Z xi).

(** spatial_c_grid_interpolation3D_full, 1505-1607; None when the assertion of 1522 fails. The values of the faces are
    those of the NEMO indexing, whatever the indexing of the fields (1533-1538). *)
Definition py_uvw (m : mesh) (g : hgrid) (l : levels) (Ud Vd Wd : Z -> Z -> Z -> R) (xsi eta zet : R) (xi yi zi : Z) (x : R)
  : option (R * R * R) :=
  let qx := py_wrap m x (py_px g xi yi) in
  let xx := (1 - xsi) * (1 - eta) * q0 qx + xsi * (1 - eta) * q1 qx + xsi * eta * q2 qx + (1 - xsi) * eta * q3 qx in
  if Rlt_dec (Rabs (xx - x)) (1 / 10000) then
    uvw_of (py_jacM m) (twice qx) (twice (py_py g xi yi)) (py_pz l xi yi zi)
      (Ud zi (yi + 1)%Z xi) (Ud zi (yi + 1)%Z (xi + 1)%Z) (Vd zi yi (xi + 1)%Z) (Vd zi (yi + 1)%Z (xi + 1)%Z)
      (Wd zi (yi + 1)%Z (xi + 1)%Z) (Wd (zi + 1)%Z (yi + 1)%Z (xi + 1)%Z) xsi eta zet
  else None.

(** VectorField.eval, 1644-1672. *)
Definition blend3 (w : R) (a b : option (R * R * R)) : option (R * R * R) :=
  match a, b with
  | Some (u0, v0, w0), Some (u1, v1, w1) => Some (u0 + (u1 - u0) * w, v0 + (v1 - v0) * w, w0 + (w1 - w0) * w)
  | _, _ => None
  end.
Definition py_uvw_at (times : Z -> R) (tdim : Z) (m : mesh) (g : hgrid) (l : levels) (Ud Vd Wd : Z -> Z -> Z -> Z -> R)
    (ti : Z) (time xsi eta zet : R) (xi yi zi : Z) (x : R) : option (R * R * R) :=
  if Z.ltb ti (tdim - 1) && (if Rlt_dec (times ti) time then true else false) then
    blend3 ((time - times ti) / (times (ti + 1)%Z - times ti))
      (py_uvw m g l (Ud ti) (Vd ti) (Wd ti) xsi eta zet xi yi zi x)
      (py_uvw m g l (Ud (ti + 1)%Z) (Vd (ti + 1)%Z) (Wd (ti + 1)%Z) xsi eta zet xi yi zi x)
  else py_uvw m g l (Ud ti) (Vd ti) (Wd ti) xsi eta zet xi yi zi x.

(** * JIT mode *)

(** The sums of interpolation_utils.h 73-83: every term times the factor of the mesh. *)
Definition c_sum (p d : oct) (f : R) : R :=
  0 + o0 p * o0 d * f + o1 p * o1 d * f + o2 p * o2 d * f + o3 p * o3 d * f + o4 p * o4 d * f + o5 p * o5 d * f
  + o6 p * o6 d * f + o7 p * o7 d * f.
(** dxdxsi3D_lin, interpolation_utils.h 57-84. *)
Definition c_jacM (m : mesh) (px py pz : oct) (xsi eta zet : R) : jacM :=
  let jlon := jac_lon m (lat_at py xsi eta) in
  let jlat := jac_lat m in
  JacM (c_sum px (dphidxsi eta zet) jlon) (c_sum px (dphideta xsi zet) jlon) (c_sum px (dphidzet xsi eta) jlon)
       (c_sum py (dphidxsi eta zet) jlat) (c_sum py (dphideta xsi zet) jlat) (c_sum py (dphidzet xsi eta) jlat)
       (c_sum pz (dphidxsi eta zet) 1) (c_sum pz (dphideta xsi zet) 1) (c_sum pz (dphidzet xsi eta) 1).

(** parcels.h 812-826: of moving levels those of index ti. *)
Definition c_pz (l : levels) (ti xi yi zi : Z) : oct :=
  let d := match l with Fixed d => d | Moving d => d ti end in
  let lower := c_corner (fun iN => d zi (c_row yi iN) (c_column xi iN)) in
  let upper := c_corner (fun iN => d (zi + 1)%Z (c_row yi iN) (c_column xi iN)) in
  Oct (q0 lower) (q1 lower) (q2 lower) (q3 lower) (q0 upper) (q1 upper) (q2 upper) (q3 upper).

(** getCell3D: data[k][i][j] is the value at level zi+k, row yi+i, column xi+j (see ChunkModel). *)
Definition c_cell3 (D : Z -> Z -> Z -> R) (xi yi zi : Z) (k i j : Z) : R := D (zi + k)%Z (yi + i)%Z (xi + j)%Z.

(** spatial_interpolation_UVW_c_grid, parcels.h 767-896. *)
Definition c_uvw_cell (m : mesh) (g : hgrid) (l : levels) (dataU dataV dataW : Z -> Z -> Z -> R) (ti : Z) (xsi eta zet : R)
    (xi yi zi : Z) : option (R * R * R) :=
  uvw_of (c_jacM m) (twice (c_wrap (c_xgrid g xi yi))) (twice (c_ygrid g xi yi)) (c_pz l ti xi yi zi)
    (dataU 0 1 0)%Z (dataU 0 1 1)%Z (dataV 0 0 1)%Z (dataV 0 1 1)%Z (dataW 0 1 1)%Z (dataW 1 1 1)%Z xsi eta zet.

(** temporal_interpolationUVW_c_grid, 898-956, once the time index and the cell are found. *)
Definition c_uvw (m : mesh) (g : hgrid) (l : levels) (Ud Vd Wd : Z -> Z -> Z -> R) (ti : Z) (xsi eta zet : R) (xi yi zi : Z)
  : option (R * R * R) :=
  c_uvw_cell m g l (c_cell3 Ud xi yi zi) (c_cell3 Vd xi yi zi) (c_cell3 Wd xi yi zi) ti xsi eta zet xi yi zi.
Definition c_uvw_at (times : Z -> R) (tdim : Z) (m : mesh) (g : hgrid) (l : levels) (Ud Vd Wd : Z -> Z -> Z -> Z -> R)
    (ti : Z) (time xsi eta zet : R) (xi yi zi : Z) : option (R * R * R) :=
  if Z.ltb ti (tdim - 1) && (if Rlt_dec (times ti) time then true else false) then
    blend3 ((time - times ti) / (times (ti + 1)%Z - times ti))
      (c_uvw m g l (Ud ti) (Vd ti) (Wd ti) ti xsi eta zet xi yi zi)
      (c_uvw m g l (Ud (ti + 1)%Z) (Vd (ti + 1)%Z) (Wd (ti + 1)%Z) (ti + 1) xsi eta zet xi yi zi)
  else c_uvw m g l (Ud ti) (Vd ti) (Wd ti) ti xsi eta zet xi yi zi.
