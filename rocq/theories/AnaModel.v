(** Model of AdvectionAnalytical, over the real numbers.

    Source: parcels/kernels/advection.py 106-261 (to the end).  The geometry of cells is that of CGridModel
    (field.py 1422-1439, interpolation_utils.py phi2D_lin).

    Numbers are real: rounding is not modelled.  [np.inf] is None in a travel time.  The result of search_indices (135) and
    of time_index (121) are arguments; fields are functions of the indices.  AFail stands for the exceptions: the frame
    after the last one (124), no intermediate time left (126), a difference of fluxes of exactly 1e-10 (None * None, 222),
    and a cell of size zero (a division by zero, 247; numpy would go on with an infinite value). *)
From Coq Require Import Reals ZArith List Bool.
From Verif Require Import UnitModel CGridModel AdvModel.
Import ListNotations.
Open Scope R_scope.

(** 117-118 *)
Definition tol : R := 1 / 10000000000.
Definition I_s : nat := 10.

(** fieldset.U, V and W with their grid; [fl_depth] and [fl_W] are only used with W.  Data: time, depth, row, column; without
    W the data have no depth index (level 0 here). *)
Record flow := mkFlow {
  fl_mesh : mesh; fl_grid : hgrid;
  fl_withW : bool; fl_depth : Z -> R;
  fl_tdim : Z; fl_times : Z -> R;
  fl_U : Z -> Z -> Z -> Z -> R; fl_V : Z -> Z -> Z -> Z -> R; fl_W : Z -> Z -> Z -> Z -> R }.
(** xsi, eta, zeta, xi, yi, zi *)
Record found := mkFound { s_xsi : R; s_eta : R; s_zeta : R; s_xi : Z; s_yi : Z; s_zi : Z }.

(** 137-158: at the upper face of the cell with the flow going on, take the next cell.  The data are those of the first
    frame. *)
Definition level (f : flow) (zi : Z) : Z := if fl_withW f then (zi + 1)%Z else 0%Z.
Definition shift (f : flow) (w : found) : found :=
  let at_1 r := if Rlt_dec (Rabs (r - 1)) tol then true else false in
  let up (D : Z -> Z -> Z -> Z -> R) k xi yi := if Rlt_dec 0 (D 0%Z k (yi + 1)%Z (xi + 1)%Z) then true else false in
  let w := if at_1 (s_xsi w) && up (fl_U f) (level f (s_zi w)) (s_xi w) (s_yi w)
           then mkFound 0 (s_eta w) (s_zeta w) (s_xi w + 1)%Z (s_yi w) (s_zi w) else w in
  let w := if at_1 (s_eta w) && up (fl_V f) (level f (s_zi w)) (s_xi w) (s_yi w)
           then mkFound (s_xsi w) 0 (s_zeta w) (s_xi w) (s_yi w + 1)%Z (s_zi w) else w in
  if fl_withW f && at_1 (s_zeta w) && up (fl_W f) (level f (s_zi w)) (s_xi w) (s_yi w)
  then mkFound (s_xsi w) (s_eta w) 0 (s_xi w) (s_yi w) (s_zi w + 1)%Z else w.

(** 170-173: the second comparison is with the latitude *)
Definition ana_wrap (m : mesh) (lon lat : R) (px : quad) : quad :=
  match m with
  | Flat => px
  | Spherical =>
      let p0 := if Rlt_dec (q0 px) (lon - 225) then q0 px + 360 else q0 px in
      let p0 := if Rlt_dec (lat + 225) p0 then p0 - 360 else p0 in
      Quad p0 (py_near p0 (q1 px)) (py_near p0 (q2 px)) (py_near p0 (q3 px))
  end.

(** compute_ds, 211-234; None outside: the exception. *)
Definition compute_ds (F0 F1 r direction : R) : option (option R * R * R) :=
  let up := F0 * (1 - r) + F1 * r in
  let r_target := if Rle_dec 0 (direction * up) then 1 else 0 in
  let B := F0 - F1 in
  let delta := - F0 in
  let B := if Rlt_dec (Rabs B) tol then 0 else B in
  let near (ds : R) : option R := if Rlt_dec (Rabs ds) tol then None else Some ds in
  if Rlt_dec (Rabs B) tol then
    if Rlt_dec (Rabs delta) tol then Some (None, B, delta)
    else Some (near (- (r_target - r) / delta), B, delta)
  else if Rlt_dec tol (Rabs B) then
    let F_r1 := r_target + delta / B in
    let F_r0 := r + delta / B in
    if Rlt_dec (F_r1 * F_r0) tol then Some (None, B, delta)
    else Some (near (- 1 / B * ln (F_r1 / F_r0)), B, delta)
  else None.

(** compute_rs, 250-254 *)
Definition compute_rs (r B delta s_min : R) : R :=
  if Rlt_dec (Rabs B) tol then - delta * s_min + r
  else (r + delta / B) * exp (- B * s_min) - delta / B.

(** min of abs, 247 *)
Definition min_abs (ds : option R) (s : R) : R := match ds with None => s | Some d => Rmin (Rabs d) s end.

(** 121-126: the weight of the next frame and the longest step. *)
Fixpoint first_after (o step : R) (k n : nat) : option R :=
  match n with
  | O => None
  | S m => if Rlt_dec o (INR k * step) then Some (INR k * step) else first_after o step (S k) m
  end.
Definition frames (f : flow) (ti : Z) (time dt : R) : option (R * R) :=
  if (fl_tdim f <=? 1)%Z then Some (0, dt)
  else if (fl_tdim f <=? ti + 1)%Z then None
  else
    let t0 := fl_times f ti in
    let t1 := fl_times f (ti + 1)%Z in
    match first_after (time - t0) ((t1 - t0) / INR (I_s - 1)) 0 I_s with
    | None => None
    | Some t_i => Some ((time - t0) / (t1 - t0), Rmin dt t_i)
    end.

(** A flux, 188-209, 239-244: of the frame, or between two frames. *)
Definition flux (f : flow) (ti : Z) (direction tau : R) (D : Z -> Z -> Z -> Z -> R) (k j i : Z) (area : R) : R :=
  let F := direction * D ti k j i * area in
  if (fl_tdim f <=? 1)%Z then F else F * (1 - tau) + tau * direction * D (ti + 1)%Z k j i * area.

(** 106-261 *)
Definition analytical (f : flow) (ti : Z) (w : found) (p : apart) : aout :=
  let direction := if Rlt_dec 0 (a_dt p) then 1 else -1 in
  match frames f ti (a_time p) (a_dt p) with
  | None => AFail p
  | Some (tau, ds_t) =>
  let w := shift f w in
  let xsi := s_xsi w in let eta := s_eta w in let zeta := s_zeta w in
  let xi := s_xi w in let yi := s_yi w in let zi := s_zi w in
  let px := ana_wrap (fl_mesh f) (a_lon p) (a_lat p) (py_px (fl_grid f) xi yi) in
  let py := py_py (fl_grid f) xi yi in
  let z0 := fl_depth f zi in let z1 := fl_depth f (zi + 1)%Z in
  let dz := if fl_withW f then z1 - z0 else 1 in
  let m := fl_mesh f in
  let c1 := py_dist (q0 px) (q1 px) (q0 py) (q1 py) m (dotq (phi2D_lin xsi 0) py) in
  let c2 := py_dist (q1 px) (q2 px) (q1 py) (q2 py) m (dotq (phi2D_lin 1 eta) py) in
  let c3 := py_dist (q2 px) (q3 px) (q2 py) (q3 py) m (dotq (phi2D_lin xsi 1) py) in
  let c4 := py_dist (q3 px) (q0 px) (q3 py) (q0 py) m (dotq (phi2D_lin 0 eta) py) in
  let rad := pi / 180 in
  let deg2m := 1852 * 60 in
  let meshJac := match m with Spherical => deg2m * deg2m * cos (rad * a_lat p) | Flat => 1 end in
  let dxdy := py_jacobian xsi eta px py * meshJac in
  let k := level f zi in
  let U0 := flux f ti direction tau (fl_U f) k (yi + 1) xi (c4 * dz) in
  let U1 := flux f ti direction tau (fl_U f) k (yi + 1) (xi + 1) (c2 * dz) in
  let V0 := flux f ti direction tau (fl_V f) k yi (xi + 1) (c1 * dz) in
  let V1 := flux f ti direction tau (fl_V f) k (yi + 1) (xi + 1) (c3 * dz) in
  let W0 := flux f ti direction tau (fl_W f) zi (yi + 1) (xi + 1) dxdy in
  let W1 := flux f ti direction tau (fl_W f) (zi + 1) (yi + 1) (xi + 1) dxdy in
  match compute_ds U0 U1 xsi direction, compute_ds V0 V1 eta direction,
        (if fl_withW f then compute_ds W0 W1 zeta direction else Some (None, 0, 0)) with
  | Some (ds_x, B_x, delta_x), Some (ds_y, B_y, delta_y), Some (ds_z, B_z, delta_z) =>
    if Req_EM_T (dxdy * dz) 0 then AFail p else
    let s_min := min_abs ds_x (min_abs ds_y (min_abs ds_z (Rabs (ds_t / (dxdy * dz))))) in
    let rs_x := compute_rs xsi B_x delta_x s_min in
    let rs_y := compute_rs eta B_y delta_y s_min in
    let rs_z := compute_rs zeta B_z delta_z s_min in
    let at_ (c : quad) := (1 - rs_x) * (1 - rs_y) * q0 c + rs_x * (1 - rs_y) * q1 c + rs_x * rs_y * q2 c + (1 - rs_x) * rs_y * q3 c in
    let depth := if fl_withW f then (1 - rs_z) * z0 + rs_z * z1 else a_depth p in
    ADone (mkA (at_ px) (at_ py) depth (a_time p) (direction * s_min * (dxdy * dz)) (a_next p))
  | _, _, _ => AFail p
  end
  end.
