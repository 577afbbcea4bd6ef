(** Model of the search of the cell of a curvilinear grid that contains a position.

    Sources: parcels/field.py 682-699 (reconnect_bnd_indices), 788-878 (search_indices_curvilinear);
    parcels/include/index_search.h 141-165 (reconnect_bnd_indices), 271-405 (search_indices_curvilinear);
    parcels/grid.py 62 (lonlat_minmax).

    The Python and the C function are the same text up to four differences, marked by the argument [m]:
    reading outside an array, the order of the two moves of 360 degrees, the test of the discriminant,
    and the flag that [reconnect_bnd_indices] receives.

    Simplifications: coordinates are reals (float32/float64 rounding is not modelled); a division by zero,
    which gives an infinity or NaN in both languages, ends the search with [HUndef]; the depth is searched
    by the functions of IdxModel, on rational levels; no missing values in the coordinates. *)
From Coq Require Import List ZArith Bool QArith Reals Qreals.
From Verif Require Import IdxModel.
Import ListNotations.
Open Scope R_scope.

Inductive mode := Py | Jit.

Definition rlt (a b : R) : bool := if Rlt_dec a b then true else false.
Definition rle (a b : R) : bool := if Rle_dec a b then true else false.
Definition req (a b : R) : bool := if Req_EM_T a b then true else false.

(** lon[yi, xi] and lat[yi, xi] for 0 <= yi < ydim, 0 <= xi < xdim. *)
Record curv := mkCurv {
  v_lon : Z -> Z -> R; v_lat : Z -> Z -> R; v_xdim : Z; v_ydim : Z;
  v_spherical : bool; v_zonal_periodic : bool
}.

(** numpy accepts the indices -n..n-1; in C reading outside 0..n-1 is undefined. *)
Definition index (m : mode) (n i : Z) : option Z :=
  if (0 <=? i)%Z && (i <? n)%Z then Some i
  else match m with
       | Py => if (- n <=? i)%Z && (i <? 0)%Z then Some (i + n)%Z else None
       | Jit => None
       end.
Definition read2 (m : mode) (g : curv) (f : Z -> Z -> R) (yi xi : Z) : option R :=
  match index m (v_ydim g) yi, index m (v_xdim g) xi with
  | Some j, Some i => Some (f j i)
  | _, _ => None
  end.

(** The corners (yi, xi), (yi, xi+1), (yi+1, xi+1), (yi+1, xi). *)
Definition quad := (R * R * R * R)%type.
Definition corners (m : mode) (g : curv) (f : Z -> Z -> R) (yi xi : Z) : option quad :=
  match read2 m g f yi xi, read2 m g f yi (xi + 1), read2 m g f (yi + 1) (xi + 1), read2 m g f (yi + 1) xi with
  | Some p0, Some p1, Some p2, Some p3 => Some (p0, p1, p2, p3)
  | _, _, _, _ => None
  end.

(** field.py 816-819: px[0] near x, the others near px[0] (first down, then up);
    index_search.h 315-319 (first up, then down). *)
Definition near0 (x p : R) : R :=
  let p1 := if rlt p (x - 225) then p + 360 else p in
  if rlt (x + 225) p1 then p1 - 360 else p1.
Definition near1 (m : mode) (p0 p : R) : R :=
  match m with
  | Py => let q := if rlt 180 (p - p0) then p - 360 else p in
          if rlt 180 (- q + p0) then q + 360 else q
  | Jit => let q := if rlt p (p0 - 180) then p + 360 else p in
           if rlt (p0 + 180) q then q - 360 else q
  end.
Definition near_quad (m : mode) (g : curv) (x : R) (p : quad) : quad :=
  if v_spherical g then
    let '(p0, p1, p2, p3) := p in
    let q := near0 x p0 in (q, near1 m q p1, near1 m q p2, near1 m q p3)
  else p.

(** np.dot(invA, p): field.py 798-801, 821-822; index_search.h 323-330. *)
Definition c0 (p : quad) : R := let '(p0, p1, p2, p3) := p in p0.
Definition c1 (p : quad) : R := let '(p0, p1, p2, p3) := p in - p0 + p1.
Definition c2 (p : quad) : R := let '(p0, p1, p2, p3) := p in - p0 + p3.
Definition c3 (p : quad) : R := let '(p0, p1, p2, p3) := p in p0 - p1 + p2 - p3.

Definition tol : R := / 10 ^ 10.
Definition small : R := / 10 ^ 12.

(** field.py 824-826, index_search.h 332-334. *)
Definition q_aa (a b : quad) : R := c3 a * c2 b - c2 a * c3 b.
Definition q_bb (a b : quad) (x y : R) : R :=
  c3 a * c0 b - c0 a * c3 b + c1 a * c2 b - c2 a * c1 b + x * c3 b - y * c3 a.
Definition q_cc (a b : quad) (x y : R) : R := c1 a * c0 b - c0 a * c1 b + x * c1 b - y * c1 a.

(** field.py 827-833 ([det2 > 0]), index_search.h 335-341 ([det == det], that is, det2 >= 0): eta, or the one
    of the previous iteration [eta0]. *)
Definition new_eta (m : mode) (a b : quad) (x y eta0 : R) : option R :=
  let aa := q_aa a b in let bb := q_bb a b x y in let cc := q_cc a b x y in
  if rlt (Rabs aa) small then if req bb 0 then None else Some (- cc / bb)
  else
    let det2 := bb * bb - 4 * aa * cc in
    if match m with Py => rlt 0 det2 | Jit => rle 0 det2 end
    then Some ((- bb + sqrt det2) / (2 * aa)) else Some eta0.

(** field.py 834-837, index_search.h 342-346. *)
Definition new_xsi (a b : quad) (x y eta : R) : option R :=
  if rlt (Rabs (c1 a + c3 a * eta)) small then
    let '(p0, p1, p2, p3) := b in
    if req (p1 - p0) 0 || req (p2 - p3) 0 then None
    else Some (((y - p0) / (p1 - p0) + (y - p3) / (p2 - p3)) * / 2)
  else Some ((x - c0 a - c2 a * eta) / (c1 a + c3 a * eta)).

(** field.py 682-699, index_search.h 141-165 with onlyX = 0. *)
Definition reconnect (sphere_mesh : bool) (xdim ydim xi yi : Z) : Z * Z :=
  let xi1 := if (xi <? 0)%Z then (if sphere_mesh then xdim - 2 else 0)%Z else xi in
  let xi2 := if (xdim - 2 <? xi1)%Z then (if sphere_mesh then 0 else xdim - 2)%Z else xi1 in
  let yi1 := if (yi <? 0)%Z then 0%Z else yi in
  if (ydim - 2 <? yi1)%Z then ((if sphere_mesh then xdim - xi2 else xi2)%Z, (ydim - 2)%Z) else (xi2, yi1).
(** field.py 851 passes grid.mesh, a non-empty string whatever the mesh; index_search.h 359 the flag. *)
Definition sphere_flag (m : mode) (g : curv) : bool := match m with Py => true | Jit => v_spherical g end.

Inductive hres :=
  | HFound (xsi eta : R) (xi yi : Z)
  | HOut        (* FieldOutOfBoundError, ERROR_OUT_OF_BOUNDS *)
  | HBad        (* IndexError, undefined behaviour *)
  | HUndef.

Definition clamp (r : R) : R :=
  let r1 := if rlt r 0 then 0 else r in if rlt 1 r1 then 1 else r1.
(** The condition of the while loop: field.py 813, index_search.h 311. *)
Definition off (xsi eta : R) : bool :=
  rlt xsi (- tol) || rlt (1 + tol) xsi || rlt eta (- tol) || rlt (1 + tol) eta.

(** xi -= 1 / xi += 1: field.py 842-849, index_search.h 351-358. *)
Definition move (r : R) (i : Z) : Z :=
  if rlt r (- tol) then (i - 1)%Z else if rlt (1 + tol) r then (i + 1)%Z else i.

(** One pass of the loop gives the cell's local coordinates. *)
Definition local (m : mode) (g : curv) (x y eta0 : R) (xi yi : Z) : hres :=
  match corners m g (v_lon g) yi xi, corners m g (v_lat g) yi xi with
  | Some p, Some b =>
      let a := near_quad m g x p in
      match new_eta m a b x y eta0 with
      | None => HUndef
      | Some eta => match new_xsi a b x y eta with None => HUndef | Some xsi => HFound xsi eta xi yi end
      end
  | _, _ => HBad
  end.

(** field.py 813-859, index_search.h 311-385; [k] counts the iterations that are left. *)
Fixpoint curv_loop (m : mode) (g : curv) (x y : R) (k : nat) (eta0 : R) (xi yi : Z) : hres :=
  match local m g x y eta0 xi yi with
  | HFound xsi eta _ _ =>
      if rlt xsi 0 && rlt eta 0 && (xi =? 0)%Z && (yi =? 0)%Z then HOut
      else if rlt 1 xsi && rlt 1 eta && (xi =? v_xdim g - 1)%Z && (yi =? v_ydim g - 1)%Z then HOut
      else
        let '(xi', yi') := reconnect (sphere_flag m g) (v_xdim g) (v_ydim g) (move xsi xi) (move eta yi) in
        match k with
        | O => HOut
        | S k' => if off xsi eta then curv_loop m g x y k' eta xi' yi'
                  else HFound (clamp xsi) (clamp eta) xi' yi'
        end
  | r => r
  end.
Definition max_iter : nat := Z.to_nat 1000000.

(** np.nanmin(lon), np.nanmax(lon): over all nodes. *)
Definition nodes (g : curv) : list (Z * Z) :=
  flat_map (fun j => map (fun i => (Z.of_nat j, Z.of_nat i)) (seq 0 (Z.to_nat (v_xdim g))))
           (seq 0 (Z.to_nat (v_ydim g))).
Definition all_min (g : curv) (f : Z -> Z -> R) : R :=
  fold_left (fun r ji => Rmin r (f (fst ji) (snd ji))) (nodes g) (f 0%Z 0%Z).
Definition all_max (g : curv) (f : Z -> Z -> R) : R :=
  fold_left (fun r ji => Rmax r (f (fst ji) (snd ji))) (nodes g) (f 0%Z 0%Z).

(** field.py 804-811, index_search.h 293-301. *)
Definition curv_outside (g : curv) (x y : R) : bool :=
  let west := v_lon g 0%Z 0%Z in let east := v_lon g 0%Z (v_xdim g - 1)%Z in
  (negb (v_zonal_periodic g) && (rlt x (all_min g (v_lon g)) || rlt (all_max g (v_lon g)) x) &&
     (rlt west east || (rlt x west && rlt east x)))
  || rlt y (all_min g (v_lat g)) || rlt (all_max g (v_lat g)) y.

(** The horizontal part, from the indices the particle carries. *)
Definition curv_search (m : mode) (g : curv) (x y : R) (xi0 yi0 : Z) : hres :=
  if curv_outside g x y then HOut else curv_loop m g x y max_iter (-1) xi0 yi0.

(** field.py 889-900, parcels.h 67-74: 2D linear interpolation of the data [f] of one time. *)
Definition curv_linear (m : mode) (g : curv) (f : Z -> Z -> R) (x y : R) (xi0 yi0 : Z) : option R :=
  match curv_search m g x y xi0 yi0 with
  | HFound xsi eta xi yi =>
      match corners m g f yi xi with
      | Some (d0, d1, d2, d3) =>
          Some ((1 - xsi) * (1 - eta) * d0 + xsi * (1 - eta) * d1 + xsi * eta * d2 + (1 - xsi) * eta * d3)
      | None => None
      end
  | _ => None
  end.
