(** Model of velocity interpolation on C-grids, over the real numbers (no rounding).

    Source: parcels/field.py 1422-1503 (dist, jacobian, spatial_c_grid_interpolation2D), 933-951 (W), 1632-1672
    (VectorField.eval), tools/interpolation_utils.py phi2D_lin; parcels/include/parcels.h 593-675
    (dist, spatial_interpolation_UV_c_grid), 678-766 (temporal_interpolationUV_c_grid), 544-570 (W),
    interpolation_utils.h 11-17.
    The cell (xi, yi) and the position (xsi, eta, zeta) in it come from search_indices and are arguments here.
    Data are functions of the indices (row yi, column xi); a level zi of 3D data is such a function. *)
From Coq Require Import List ZArith Reals Bool.
From Verif Require Import UnitModel.
Import ListNotations.
Open Scope R_scope.

Inductive mesh : Set := Flat | Spherical.
Inductive indexing : Set := Nemo | Mitgcm.

(** Four numbers, one for each corner of a cell: (yi, xi), (yi, xi+1), (yi+1, xi+1), (yi+1, xi). *)
Record quad := Quad { q0 : R; q1 : R; q2 : R; q3 : R }.
Definition dotq (a b : quad) : R := q0 a * q0 b + q1 a * q1 b + q2 a * q2 b + q3 a * q3 b.

(** interpolation_utils phi2D_lin. *)
Definition phi2D_lin (xsi eta : R) : quad :=
  Quad ((1 - xsi) * (1 - eta)) (xsi * (1 - eta)) (xsi * eta) ((1 - xsi) * eta).

(** Rectilinear grids have one longitude per column and one latitude per row, curvilinear grids a pair per node. *)
Inductive hgrid : Type :=
| Rectilinear (lon lat : Z -> R)
| Curvilinear (lon lat : Z -> Z -> R).

(** dist, field.py 1422-1428. *)
Definition py_dist (lon1 lon2 lat1 lat2 : R) (m : mesh) (lat : R) : R :=
  match m with
  | Spherical =>
      let rad := pi / 180 in
      let deg2m := 1852 * 60 in
      sqrt (((lon2 - lon1) * deg2m * cos (rad * lat)) ^ 2 + ((lat2 - lat1) * deg2m) ^ 2)
  | Flat => sqrt ((lon2 - lon1) ^ 2 + (lat2 - lat1) ^ 2)
  end.

(** jacobian, 1430-1439. *)
Definition py_jacobian (xsi eta : R) (px py : quad) : R :=
  let dphidxsi := Quad (eta - 1) (1 - eta) eta (- eta) in
  let dphideta := Quad (xsi - 1) (- xsi) xsi (1 - xsi) in
  let dxdxsi := dotq px dphidxsi in
  let dxdeta := dotq px dphideta in
  let dydxsi := dotq py dphidxsi in
  let dydeta := dotq py dphideta in
  dxdxsi * dydeta - dxdeta * dydxsi.

(** 1445-1450. *)
Definition py_px (g : hgrid) (xi yi : Z) : quad :=
  match g with
  | Rectilinear lon _ => Quad (lon xi) (lon (xi + 1)%Z) (lon (xi + 1)%Z) (lon xi)
  | Curvilinear lon _ => Quad (lon yi xi) (lon yi (xi + 1)%Z) (lon (yi + 1)%Z (xi + 1)%Z) (lon (yi + 1)%Z xi)
  end.
Definition py_py (g : hgrid) (xi yi : Z) : quad :=
  match g with
  | Rectilinear _ lat => Quad (lat yi) (lat yi) (lat (yi + 1)%Z) (lat (yi + 1)%Z)
  | Curvilinear _ lat => Quad (lat yi xi) (lat yi (xi + 1)%Z) (lat (yi + 1)%Z (xi + 1)%Z) (lat (yi + 1)%Z xi)
  end.

(** 1452-1456: longitudes across the date line. *)
Definition py_near (p0 p : R) : R :=
  let p := if Rlt_dec 180 (p - p0) then p - 360 else p in
  if Rlt_dec 180 (- p + p0) then p + 360 else p.
Definition py_wrap (m : mesh) (x : R) (px : quad) : quad :=
  match m with
  | Flat => px
  | Spherical =>
      let p0 := if Rlt_dec (q0 px) (x - 225) then q0 px + 360 else q0 px in
      let p0 := if Rlt_dec (x + 225) p0 then p0 - 360 else p0 in
      Quad p0 (py_near p0 (q1 px)) (py_near p0 (q2 px)) (py_near p0 (q3 px))
  end.

(** The four values of a cell, 1463-1486: U on the faces 3-0 and 1-2, V on the faces 0-1 and 2-3. *)
Definition py_u0 (gi : indexing) (U : Z -> Z -> R) (xi yi : Z) : R :=
  match gi with Nemo => U (yi + 1)%Z xi | Mitgcm => U yi xi end.
Definition py_u1 (gi : indexing) (U : Z -> Z -> R) (xi yi : Z) : R :=
  match gi with Nemo => U (yi + 1)%Z (xi + 1)%Z | Mitgcm => U yi (xi + 1)%Z end.
Definition py_v0 (gi : indexing) (V : Z -> Z -> R) (xi yi : Z) : R :=
  match gi with Nemo => V yi (xi + 1)%Z | Mitgcm => V yi xi end.
Definition py_v1 (gi : indexing) (V : Z -> Z -> R) (xi yi : Z) : R :=
  match gi with Nemo => V (yi + 1)%Z (xi + 1)%Z | Mitgcm => V (yi + 1)%Z xi end.

(** 1493-1500; None for a division by zero (which gives inf or nan). *)
Definition uv_of (xsi eta U V : R) (px py : quad) (jac : R) : option (R * R) :=
  if Req_EM_T jac 0 then None
  else Some
    (((- (1 - eta) * U - (1 - xsi) * V) * q0 px + ((1 - eta) * U - xsi * V) * q1 px
      + (eta * U + xsi * V) * q2 px + (- eta * U + (1 - xsi) * V) * q3 px) / jac,
     ((- (1 - eta) * U - (1 - xsi) * V) * q0 py + ((1 - eta) * U - xsi * V) * q1 py
      + (eta * U + xsi * V) * q2 py + (- eta * U + (1 - xsi) * V) * q3 py) / jac).

(** spatial_c_grid_interpolation2D, 1441-1503; None when the assertion of 1458 fails. *)
Definition py_uv (m : mesh) (gi : indexing) (g : hgrid) (Ud Vd : Z -> Z -> R)
    (xsi eta : R) (xi yi : Z) (x y : R) : option (R * R) :=
  let px := py_wrap m x (py_px g xi yi) in
  let py := py_py g xi yi in
  let xx := (1 - xsi) * (1 - eta) * q0 px + xsi * (1 - eta) * q1 px + xsi * eta * q2 px + (1 - xsi) * eta * q3 px in
  if Rlt_dec (Rabs (xx - x)) (1 / 10000) then
    let c1 := py_dist (q0 px) (q1 px) (q0 py) (q1 py) m (dotq (phi2D_lin xsi 0) py) in
    let c2 := py_dist (q1 px) (q2 px) (q1 py) (q2 py) m (dotq (phi2D_lin 1 eta) py) in
    let c3 := py_dist (q2 px) (q3 px) (q2 py) (q3 py) m (dotq (phi2D_lin xsi 1) py) in
    let c4 := py_dist (q3 px) (q0 px) (q3 py) (q0 py) m (dotq (phi2D_lin 0 eta) py) in
    let U0 := py_u0 gi Ud xi yi * c4 in
    let U1 := py_u1 gi Ud xi yi * c2 in
    let V0 := py_v0 gi Vd xi yi * c1 in
    let V1 := py_v1 gi Vd xi yi * c3 in
    let U := (1 - xsi) * U0 + xsi * U1 in
    let V := (1 - eta) * V0 + eta * V1 in
    let rad := pi / 180 in
    let deg2m := 1852 * 60 in
    let meshJac := match m with Spherical => deg2m * deg2m * cos (rad * y) | Flat => 1 end in
    let jac := py_jacobian xsi eta px py * meshJac in
    uv_of xsi eta U V px py jac
  else None.

(** VectorField.eval for 'cgrid_velocity', 1644-1672, of the values at two times. *)
Definition py_blend (t0 t1 time : R) (a b : option (R * R)) : option (R * R) :=
  match a, b with
  | Some (u0, v0), Some (u1, v1) =>
      Some (u0 + (u1 - u0) * ((time - t0) / (t1 - t0)), v0 + (v1 - v0) * ((time - t0) / (t1 - t0)))
  | _, _ => None
  end.
Definition py_uv_at (times : Z -> R) (tdim : Z) (m : mesh) (gi : indexing) (g : hgrid) (Ud Vd : Z -> Z -> Z -> R)
    (ti : Z) (time xsi eta : R) (xi yi : Z) (x y : R) : option (R * R) :=
  if Z.ltb ti (tdim - 1) && (if Rlt_dec (times ti) time then true else false) then
    py_blend (times ti) (times (ti + 1)%Z) time
      (py_uv m gi g (Ud ti) (Vd ti) xsi eta xi yi x y)
      (py_uv m gi g (Ud (ti + 1)%Z) (Vd (ti + 1)%Z) xsi eta xi yi x y)
  else py_uv m gi g (Ud ti) (Vd ti) xsi eta xi yi x y.

(** W on z-levels, interpolator3D 940-948. *)
Definition py_w (gi : indexing) (W : Z -> Z -> Z -> R) (zeta : R) (xi yi zi : Z) : R :=
  match gi with
  | Nemo => (1 - zeta) * W zi (yi + 1)%Z (xi + 1)%Z + zeta * W (zi + 1)%Z (yi + 1)%Z (xi + 1)%Z
  | Mitgcm => (1 - zeta) * W zi yi xi + zeta * W (zi + 1)%Z yi xi
  end.

(** * JIT mode *)

(** dist, parcels.h 593-603. *)
Definition c_dist (lon1 lon2 lat1 lat2 : R) (m : mesh) (lat : R) : R :=
  match m with
  | Spherical =>
      let rad := pi / 180 in
      let deg2m := 1852 * 60 in
      sqrt ((lon2 - lon1) * (lon2 - lon1) * deg2m * deg2m * cos (rad * lat) * cos (rad * lat)
            + (lat2 - lat1) * (lat2 - lat1) * deg2m * deg2m)
  | Flat => sqrt ((lon2 - lon1) * (lon2 - lon1) + (lat2 - lat1) * (lat2 - lat1))
  end.

(** 614-632: corner iN is in column xi+min(1, iN%3) and row yi+iN/2. *)
Definition c_column (xi iN : Z) : Z := xi + Z.min 1 (iN mod 3).
Definition c_row (yi iN : Z) : Z := yi + iN / 2.
Definition c_corner (f : Z -> R) : quad := Quad (f 0%Z) (f 1%Z) (f 2%Z) (f 3%Z).
Definition c_xgrid (g : hgrid) (xi yi : Z) : quad :=
  match g with
  | Rectilinear lon _ => c_corner (fun iN => lon (c_column xi iN))
  | Curvilinear lon _ => c_corner (fun iN => lon (c_row yi iN) (c_column xi iN))
  end.
Definition c_ygrid (g : hgrid) (xi yi : Z) : quad :=
  match g with
  | Rectilinear _ lat => c_corner (fun iN => lat (c_row yi iN))
  | Curvilinear _ lat => c_corner (fun iN => lat (c_row yi iN) (c_column xi iN))
  end.

(** 633-637; done on flat meshes too. *)
Definition c_near (p0 p : R) : R :=
  let p := if Rlt_dec p (p0 - 180) then p + 360 else p in
  if Rlt_dec (p0 + 180) p then p - 360 else p.
Definition c_wrap (px : quad) : quad :=
  Quad (q0 px) (c_near (q0 px) (q1 px)) (c_near (q0 px) (q2 px)) (c_near (q0 px) (q3 px)).

(** getCell2D: data[i][j] is the value in row yi+i and column xi+j (see ChunkModel).  For MITGCM the cells read are
    one row (U) and one column (V) lower, 703-710. *)
Definition c_cell (D : Z -> Z -> R) (xi yi : Z) (i j : Z) : R := D (yi + i)%Z (xi + j)%Z.
Definition c_dataU (gi : indexing) (U : Z -> Z -> R) (xi yi : Z) : Z -> Z -> R :=
  match gi with Nemo => c_cell U xi yi | Mitgcm => c_cell U xi (yi - 1) end.
Definition c_dataV (gi : indexing) (V : Z -> Z -> R) (xi yi : Z) : Z -> Z -> R :=
  match gi with Nemo => c_cell V xi yi | Mitgcm => c_cell V (xi - 1) yi end.

(** spatial_interpolation_UV_c_grid, 606-675. *)
Definition c_uv_cell (m : mesh) (xsi eta : R) (xi yi : Z) (g : hgrid) (dataU dataV : Z -> Z -> R) : option (R * R) :=
  let px := c_wrap (c_xgrid g xi yi) in
  let py := c_ygrid g xi yi in
  let U0 := dataU 1%Z 0%Z * c_dist (q3 px) (q0 px) (q3 py) (q0 py) m (dotq (phi2D_lin 0 eta) py) in
  let U1 := dataU 1%Z 1%Z * c_dist (q1 px) (q2 px) (q1 py) (q2 py) m (dotq (phi2D_lin 1 eta) py) in
  let V0 := dataV 0%Z 1%Z * c_dist (q0 px) (q1 px) (q0 py) (q1 py) m (dotq (phi2D_lin xsi 0) py) in
  let V1 := dataV 1%Z 1%Z * c_dist (q2 px) (q3 px) (q2 py) (q3 py) m (dotq (phi2D_lin xsi 1) py) in
  let U := (1 - xsi) * U0 + xsi * U1 in
  let V := (1 - eta) * V0 + eta * V1 in
  let dphidxsi := Quad (eta - 1) (1 - eta) eta (- eta) in
  let dphideta := Quad (xsi - 1) (- xsi) xsi (1 - xsi) in
  let dxdxsi := dotq px dphidxsi in
  let dxdeta := dotq px dphideta in
  let dydxsi := dotq py dphidxsi in
  let dydeta := dotq py dphideta in
  let meshJac :=
    match m with
    | Spherical => (1852 * 60) * (1852 * 60) * cos (pi / 180 * dotq (phi2D_lin xsi eta) py)
    | Flat => 1
    end in
  let jac := (dxdxsi * dydeta - dxdeta * dydxsi) * meshJac in
  uv_of xsi eta U V px py jac.

Definition c_uv (m : mesh) (gi : indexing) (g : hgrid) (Ud Vd : Z -> Z -> R) (xsi eta : R) (xi yi : Z) : option (R * R) :=
  c_uv_cell m xsi eta xi yi g (c_dataU gi Ud xi yi) (c_dataV gi Vd xi yi).

(** temporal_interpolationUV_c_grid, 678-766, once the time index is found: the data of both times in one cell. *)
Definition c_uv_at (times : Z -> R) (tdim : Z) (m : mesh) (gi : indexing) (g : hgrid) (Ud Vd : Z -> Z -> Z -> R)
    (ti : Z) (time xsi eta : R) (xi yi : Z) : option (R * R) :=
  if Z.ltb ti (tdim - 1) && (if Rlt_dec (times ti) time then true else false) then
    let t0 := times ti in
    let t1 := times (ti + 1)%Z in
    match c_uv m gi g (Ud ti) (Vd ti) xsi eta xi yi, c_uv m gi g (Ud (ti + 1)%Z) (Vd (ti + 1)%Z) xsi eta xi yi with
    | Some (u0, v0), Some (u1, v1) =>
        Some (u0 + (u1 - u0) * ((time - t0) / (t1 - t0)), v0 + (v1 - v0) * ((time - t0) / (t1 - t0)))
    | _, _ => None
    end
  else c_uv m gi g (Ud ti) (Vd ti) xsi eta xi yi.

(** W: bilinear between the four values of each level at (xsi, eta) replaced by (1, 1) or (0, 0), then linear between the
    levels, 544-555, 67-74. *)
Definition c_w (gi : indexing) (W : Z -> Z -> Z -> R) (xsi eta zeta : R) (xi yi zi : Z) : R :=
  let '(xsi, eta) := match gi with Nemo => (1, 1) | Mitgcm => (0, 0) end in
  let level z := (1 - xsi) * (1 - eta) * c_cell (W z) xi yi 0 0 + xsi * (1 - eta) * c_cell (W z) xi yi 0 1
                 + xsi * eta * c_cell (W z) xi yi 1 1 + (1 - xsi) * eta * c_cell (W z) xi yi 1 0 in
  (1 - zeta) * level zi + zeta * level (zi + 1)%Z.
