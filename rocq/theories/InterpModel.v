(** Model of interpolation in space on rectilinear z grids, and of sampling a scalar field.

    Sources: parcels/field.py 888-931 (interpolator2D), 933-1012 (interpolator3D), 1033-1046;
    parcels/include/parcels.h 67-282 (the spatial_interpolation functions), 360-371 and 457-474 (cell on one chunk),
    477-590 (temporal_interpolation_structured_grid).

    Simplifications: values are rationals (float32 rounding and NaN are not modelled). Here the data are not
    split into chunks; chunk lookup is modelled in ChunkModel. Dask arrays are the same as arrays. *)
From Coq Require Import List ZArith Bool QArith Qabs.
From Verif Require Import IdxModel TimeModel.
Import ListNotations.
Open Scope Z_scope.

Inductive indexing := Nemo | Mitgcm | Mom5 | Pop.
Inductive method :=
  | Linear | Nearest | LandTracer | CgridTracer | BgridTracer | CgridVelocity | BgridVelocity | BgridWVelocity.

Definition is_mom5 (ix : indexing) : bool := match ix with Mom5 => true | _ => false end.
Definition is_pop (ix : indexing) : bool := match ix with Pop => true | _ => false end.

(** One frame of data, [d z y x], with the lengths of its axes. *)
Record frame := mkFrame { f_zdim : Z; f_ydim : Z; f_xdim : Z; f_at : Z -> Z -> Z -> Q }.

(** numpy indexing data[z, y, x] *)
Definition py_index (n i : Z) : option Z :=
  let j := if i <? 0 then i + n else i in
  if (0 <=? j) && (j <? n) then Some j else None.
Definition py_read (f : frame) (z y x : Z) : option Q :=
  match py_index (f_zdim f) z, py_index (f_ydim f) y, py_index (f_xdim f) x with
  | Some k, Some j, Some i => Some (f_at f k j i)
  | _, _, _ => None
  end.

Definition opt (o : option Q) : ires := match o with Some q => IVal q | None => IBad end.

(** field.py 895-898, 971-974, 988-991. *)
Definition py_bilinear (f : frame) (zi yi xi : Z) (xsi eta : Q) : option Q :=
  match py_read f zi yi xi, py_read f zi yi (xi + 1), py_read f zi (yi + 1) (xi + 1), py_read f zi (yi + 1) xi with
  | Some d00, Some d01, Some d11, Some d10 =>
      Some ((1 - xsi) * (1 - eta) * d00 + xsi * (1 - eta) * d01 + xsi * eta * d11 + (1 - xsi) * eta * d10)%Q
  | _, _, _, _ => None
  end.

(** np.isclose(a, 0) *)
Definition py_zero (a : Q) : bool := qle (Qabs a) (1 # 100000000).
(** is_zero_flt: |a| <= FLT_EPSILON * |a| *)
Definition c_zero (a : Q) : bool := Qeq_bool a 0.

(** An inverse-distance pass over the corners, as the loops of field.py 906-919, 953-967 and
    parcels.h 109-130, 211-234. A corner: its squared distance, its value returned when the position is on it,
    whether it is land for that test, whether it is land for the sum, and its value in the sum. *)
Record corner := mkCorner { k_dist : Q; k_here : Q; k_land : bool; k_skip : bool; k_val : Q }.
Fixpoint invdist (zero : Q -> bool) (cs : list corner) (val w : Q) : option Q :=
  match cs with
  | [] => if Qeq_bool w 0 then None else Some (val / w)%Q
  | c :: rest =>
      if zero (k_dist c) then Some (if k_land c then 0%Q else k_here c)
      else if k_skip c then invdist zero rest val w
      else invdist zero rest (val + k_val c / k_dist c)%Q (w + 1 / k_dist c)%Q
  end.

Definition b2z (b : bool) : Z := if b then 1 else 0.
Definition b2q (b : bool) : Q := if b then 1%Q else 0%Q.
Definition sq (a : Q) : Q := (a * a)%Q.
Definition count (bs : list bool) : nat := length (filter (fun b => b) bs).

(** field.py 900-925. The slice data[ti, yi:yi+2, xi:xi+2] has all four corners only when both axes have a cell
    (otherwise land[1] does not exist and IndexError is raised, or the few existing corners are counted);
    that case is [None] here. 916 reads land[i][j] where the other reads are [j][i]. *)
Definition py_land2 (f : frame) (zi yi xi : Z) (xsi eta : Q) : option Q :=
  if (f_ydim f <=? 1) || (f_xdim f <=? 1) then None
  else
    match py_read f zi yi xi, py_read f zi yi (xi + 1), py_read f zi (yi + 1) xi, py_read f zi (yi + 1) (xi + 1) with
    | Some d00, Some d01, Some d10, Some d11 =>
        let d (j i : bool) := match j, i with false, false => d00 | false, true => d01 | true, false => d10 | true, true => d11 end in
        let land j i := py_zero (d j i) in
        let nb := count [land false false; land false true; land true false; land true true] in
        if (nb =? 4)%nat then Some 0%Q
        else if (0 <? nb)%nat then
          let k (j i : bool) := mkCorner (sq (eta - b2q j) + sq (xsi - b2q i))%Q (d j i) (land j i) (land i j) (d j i) in
          invdist py_zero [k false false; k false true; k true false; k true true] 0 0
        else py_bilinear f zi yi xi xsi eta
    | _, _, _, _ => None
    end.

(** field.py 888-931. *)
Definition half : Q := 1 # 2.
Definition py_interp2D (m : method) (f : frame) (xsi eta : Q) (xi yi : Z) : ires :=
  match m with
  | Nearest => opt (py_read f 0 (if qle eta half then yi else yi + 1) (if qle xsi half then xi else xi + 1))
  | Linear | BgridVelocity => opt (py_bilinear f 0 yi xi xsi eta)
  | LandTracer => opt (py_land2 f 0 yi xi xsi eta)
  | CgridTracer | BgridTracer => opt (py_read f 0 (yi + 1) (xi + 1))
  | CgridVelocity | BgridWVelocity => IRuntime
  end.

(** field.py 946-979; 961 returns data[zi+i, yi+j, xi+k] where the corner is (k, j, i). Axes of one point: as
    in [py_land2]. *)
Definition py_trilinear (f : frame) (zi yi xi : Z) (xsi eta zeta : Q) : option Q :=
  match py_bilinear f zi yi xi xsi eta, py_bilinear f (zi + 1) yi xi xsi eta with
  | Some f0, Some f1 => Some ((1 - zeta) * f0 + zeta * f1)%Q
  | _, _ => None
  end.
Definition bits3 : list (bool * bool * bool) :=
  [(false, false, false); (false, false, true); (false, true, false); (false, true, true);
   (true, false, false); (true, false, true); (true, true, false); (true, true, true)].
Definition py_land3 (f : frame) (zi yi xi : Z) (xsi eta zeta : Q) : option Q :=
  if (zi <? 0) || (yi <? 0) || (xi <? 0) || (f_zdim f <=? zi + 1) || (f_ydim f <=? yi + 1) || (f_xdim f <=? xi + 1)
  then None
  else
    let d (k j i : bool) := f_at f (zi + b2z k) (yi + b2z j) (xi + b2z i) in
    let land k j i := py_zero (d k j i) in
    let nb := count (map (fun b => let '(k, j, i) := b in land k j i) bits3) in
    if (nb =? 8)%nat then Some 0%Q
    else if (0 <? nb)%nat then
      invdist py_zero
        (map (fun b => let '(k, j, i) := b in
                mkCorner (sq (zeta - b2q k) + sq (eta - b2q j) + sq (xsi - b2q i))%Q
                         (d i j k) (land k j i) (land k j i) (d k j i)) bits3) 0 0
    else py_trilinear f zi yi xi xsi eta zeta.

(** field.py 933-1012. *)
Definition py_interp3D (ix : indexing) (m : method) (f : frame) (xsi eta zeta : Q) (xi yi zi : Z) : ires :=
  match m with
  | Nearest => opt (py_read f (if qle zeta half then zi else zi + 1) (if qle eta half then yi else yi + 1)
                              (if qle xsi half then xi else xi + 1))
  | CgridVelocity =>
      match ix with
      | Nemo | Mitgcm =>
          let s := match ix with Nemo => 1 | _ => 0 end in
          match py_read f zi (yi + s) (xi + s), py_read f (zi + 1) (yi + s) (xi + s) with
          | Some f0, Some f1 => IVal ((1 - zeta) * f0 + zeta * f1)%Q
          | _, _ => IBad
          end
      | _ => IBad                           (* f0 unbound: UnboundLocalError *)
      end
  | LandTracer => opt (py_land3 f zi yi xi xsi eta zeta)
  | Linear | BgridVelocity | BgridWVelocity =>
      let zeta := match m with BgridVelocity => if is_mom5 ix then 1%Q else 0%Q | _ => zeta end in
      let eta := match m with BgridWVelocity => 1%Q | _ => eta end in
      let xsi := match m with BgridWVelocity => 1%Q | _ => xsi end in
      match py_bilinear f zi yi xi xsi eta with
      | None => IBad
      | Some f0 =>
          if is_pop ix && (f_zdim f - 2 <=? zi) then IVal ((1 - zeta) * f0)%Q
          else
            match py_bilinear f (zi + 1) yi xi xsi eta with
            | None => IBad
            | Some f1 =>
                if match m with BgridWVelocity => is_mom5 ix && (zi =? -1) | _ => false end then IVal (zeta * f1)%Q
                else IVal ((1 - zeta) * f0 + zeta * f1)%Q
            end
      end
  | CgridTracer | BgridTracer => opt (py_read f zi (yi + 1) (xi + 1))
  end.

(** A scalar field. [s_data t] is frame t of the data in memory. *)
Record sfield := mkField {
  s_lon : list Q; s_lat : list Q; s_depth : list Q; s_spherical : bool; s_zonal_periodic : bool;
  s_indexing : indexing; s_method : method;
  s_time : list Q; s_periodic : bool; s_extrapolate : bool;
  s_data : Z -> Z -> Z -> Z -> Q
}.
Definition s_grid (f : sfield) : rgrid :=
  mkRgrid (s_lon f) (s_lat f) (s_depth f) (s_spherical f) (s_zonal_periodic f) (is_mom5 (s_indexing f)).
Definition s_frame (f : sfield) (t : Z) : frame :=
  mkFrame (zlen (s_depth f)) (zlen (s_lat f)) (zlen (s_lon f)) (s_data f t).
Definition s_f0 (f : sfield) : Q := nth 0 (s_time f) 0%Q.
Definition s_fn (f : sfield) : Q := nth (length (s_time f) - 1) (s_time f) 0%Q.

(** field.py 1033-1041: spatial_interpolation. *)
Definition py_spatial (f : sfield) (x y z : Q) (t : Z) : ires :=
  match py_search (s_grid f) x y z with
  | Found xsi eta zeta xi yi zi =>
      match py_index (zlen (s_time f)) t with
      | None => IBad
      | Some t' =>
          if zlen (s_depth f) =? 1 then py_interp2D (s_method f) (s_frame f t') xsi eta xi yi
          else py_interp3D (s_indexing f) (s_method f) (s_frame f t') xsi eta zeta xi yi zi
      end
  | e => ISearch e
  end.

(** field.py 1080-1099: field.eval without unit conversion, all frames in memory. *)
Definition py_sample (f : sfield) (time x y z : Q) : ires :=
  py_eval (s_periodic f) (s_extrapolate f) (s_time f) (s_f0 f) (s_fn f) (py_spatial f x y z) time.

(** ** C *)
Definition cell2 := bool -> bool -> Q.            (* data[lat][lon] *)
Definition cell3 := bool -> bool -> bool -> Q.    (* data[depth][lat][lon] *)

(** parcels.h 67-74. *)
Definition c_bilinear (xsi eta : Q) (d : cell2) : Q :=
  ((1 - xsi) * (1 - eta) * d false false + xsi * (1 - eta) * d false true
   + xsi * eta * d true true + (1 - xsi) * eta * d true false)%Q.
(** parcels.h 134-148, 151-161, 163-173. *)
Definition c_trilinear (xsi eta zeta : Q) (d : cell3) : Q :=
  ((1 - zeta) * c_bilinear xsi eta (d false) + zeta * c_bilinear xsi eta (d true))%Q.
Definition c_trilinear_surface (xsi eta zeta : Q) (d : cell3) : Q := (zeta * c_bilinear xsi eta (d false))%Q.
Definition c_trilinear_bottom (xsi eta zeta : Q) (d : cell3) : Q := ((1 - zeta) * c_bilinear xsi eta (d true))%Q.

(** parcels.h 77-131: the last non-land corner found is kept in [single]. *)
Definition bits2 : list (bool * bool) := [(false, false); (false, true); (true, false); (true, true)].
Definition c_land2 (xsi eta : Q) (d : cell2) : option Q :=
  let land i j := c_zero (d i j) in
  let nb := count (map (fun b => land (fst b) (snd b)) bits2) in
  let single := fold_left (fun a b => if land (fst b) (snd b) then a else d (fst b) (snd b)) bits2 0%Q in
  match nb with
  | 0%nat => Some (c_bilinear xsi eta d)
  | 3%nat => Some single
  | 4%nat => Some 0%Q
  | _ => invdist c_zero
           (map (fun b => let '(i, j) := b in
                   mkCorner (sq (xsi - b2q j) + sq (eta - b2q i))%Q (d i j) (land i j) (land i j) (d i j)) bits2) 0 0
  end.
(** parcels.h 176-235. *)
Definition c_land3 (xsi eta zeta : Q) (d : cell3) : option Q :=
  let land i j k := c_zero (d i j k) in
  let nb := count (map (fun b => let '(i, j, k) := b in land i j k) bits3) in
  let single := fold_left (fun a b => let '(i, j, k) := b in if land i j k then a else d i j k) bits3 0%Q in
  match nb with
  | 0%nat => Some (c_trilinear xsi eta zeta d)
  | 7%nat => Some single
  | 8%nat => Some 0%Q
  | _ => invdist c_zero
           (map (fun b => let '(i, j, k) := b in
                   mkCorner (sq (zeta - b2q i) + sq (eta - b2q j) + sq (xsi - b2q k))%Q
                            (d i j k) (land i j k) (land i j k) (d i j k)) bits3) 0 0
  end.
(** parcels.h 238-247, 273-282. *)
Definition c_nearest2 (xsi eta : Q) (d : cell2) : Q := d (negb (qlt eta half)) (negb (qlt xsi half)).
Definition c_nearest3 (xsi eta zeta : Q) (d : cell3) : Q := d (negb (qlt zeta half)) (negb (qlt eta half)) (negb (qlt xsi half)).

(** parcels.h 360-371 and 457-474 for data in one chunk: along an axis of one point both corners are that
    point; the corner past the end of a longer axis is read from a chunk that does not exist ([None]). *)
Definition c_index (n i : Z) (b : bool) : option Z :=
  let j := if n =? 1 then i else i + b2z b in
  if (0 <=? j) && (j <? n) then Some j else None.
Definition c_cell_ok (f : frame) (zi yi xi : Z) : bool :=
  let ok n i := match c_index n i false, c_index n i true with Some _, Some _ => true | _, _ => false end in
  ok (f_zdim f) zi && ok (f_ydim f) yi && ok (f_xdim f) xi.
Definition c_cell (f : frame) (zi yi xi : Z) : cell3 :=
  fun k j i =>
    f_at f (if f_zdim f =? 1 then zi else zi + b2z k) (if f_ydim f =? 1 then yi else yi + b2z j)
           (if f_xdim f =? 1 then xi else xi + b2z i).

(** parcels.h 513-581: interpolation in one frame, given the search. [zdim = 1]: the 2D routines. *)
Definition c_interp (ix : indexing) (m : method) (f : frame) (xsi eta zeta : Q) (xi yi zi : Z) : ires :=
  let two := f_zdim f =? 1 in
  let surface := is_mom5 ix && (zi =? -1) in
  let bottom := is_pop ix && (zi =? f_zdim f - 2) in
  let z := if two then 0 else if surface then 0 else if bottom then zi - 1 else zi in
  if negb (c_cell_ok f z yi xi) then IBad
  else
    let d := c_cell f z yi xi in
    match m with
    | Linear | CgridVelocity | BgridVelocity | BgridWVelocity =>
        let ne := match m, ix with
                  | (CgridVelocity | BgridWVelocity), (Nemo | Mom5 | Pop) => Some 1%Q
                  | (CgridVelocity | BgridWVelocity), Mitgcm => Some 0%Q
                  | _, _ => None
                  end in
        let xsi := match ne with Some q => q | None => xsi end in
        let eta := match ne with Some q => q | None => eta end in
        let zeta := match m with BgridVelocity => if is_mom5 ix then 1%Q else 0%Q | _ => zeta end in
        if two then IVal (c_bilinear xsi eta (d false))
        else if surface then IVal (c_trilinear_surface xsi eta zeta d)
        else if bottom then IVal (c_trilinear_bottom xsi eta zeta d)
        else IVal (c_trilinear xsi eta zeta d)
    | Nearest => IVal (if two then c_nearest2 xsi eta (d false) else c_nearest3 xsi eta zeta d)
    | CgridTracer | BgridTracer => IVal (if two then d false true true else if bottom then d true true true else d false true true)
    | LandTracer => opt (if two then c_land2 xsi eta (d false) else c_land3 xsi eta zeta d)
    end.

(** parcels.h 477-590: the outcome; [k] bounds the recursion of the time search. The search of indices comes
    after the test of the time, and before reading either frame. *)
Definition c_spatial (f : sfield) (x y z : Q) (xi0 yi0 zi0 : Z) (t : Z) : ires :=
  match c_search (s_grid f) x y z xi0 yi0 zi0 with
  | Found xsi eta zeta xi yi zi =>
      if (0 <=? t) && (t <? zlen (s_time f))
      then c_interp (s_indexing f) (s_method f) (s_frame f t) xsi eta zeta xi yi zi
      else IBad
  | e => ISearch e
  end.
Definition c_sample (k : nat) (f : sfield) (time x y z : Q) (xi0 yi0 zi0 ti0 : Z) : ires :=
  c_eval k (s_periodic f) (s_extrapolate f) (s_time f) (s_f0 f) (s_fn f) (c_spatial f x y z xi0 yi0 zi0) time ti0.

(** Where the search leaves the particle's indices (index_search.h 192-262 writes through the pointers): they
    keep what was found along each axis even when the search fails later. (After 10000 rounds on a sphere the last
    xi is left; it is [xi0] here.) *)
Definition c_indices (f : sfield) (x y z : Q) (xi0 yi0 zi0 : Z) : Z * Z * Z :=
  let g := s_grid f in
  if outside g x y then (xi0, yi0, zi0)
  else
    match (if zlen (g_lon g) =? 1 then Some (Some (0, 0%Q))
           else if g_spherical g then c_sphere itmax (g_lon g) x xi0
           else match c_axis (g_lon g) x xi0 with Some r => Some (Some r) | None => None end) with
    | Some (Some (xi, _)) =>
        match (if zlen (g_lat g) =? 1 then Some (0, 0%Q) else c_axis (g_lat g) y yi0) with
        | Some (yi, _) =>
            match (if 1 <? zlen (g_depth g) then c_vertical_z (g_mom5 g) (g_depth g) z zi0 else VFound zi0 0) with
            | VFound zi _ => (xi, yi, zi)
            | _ => (xi, yi, zi0)
            end
        | None => (xi, yi0, zi0)
        end
    | _ => (xi0, yi0, zi0)
    end.

(** The indices after a history of searches, from the zeros a particle starts with (particle.py 202-206,
    collectionsoa.py 143-144, 175-192). *)
Definition c_history (f : sfield) (hist : list (Q * Q * Q)) : Z * Z * Z :=
  fold_left (fun i p => let '(xi, yi, zi) := i in let '(x, y, z) := p in c_indices f x y z xi yi zi) hist (0, 0, 0).
