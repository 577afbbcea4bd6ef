(** Model of terrain-following (s) depth levels on rectilinear grids: the search of the vertical index and
    sampling a scalar field on such a grid.

    Sources: parcels/field.py 629-680 (search_indices_vertical_s), 701-786 (search_indices_rectilinear),
    933-1012 (interpolator3D), 1033-1046, 1080-1099 (eval); parcels/grid.py 340-380 (RectilinearSGrid);
    parcels/include/index_search.h 84-139, 168-268; parcels/include/parcels.h 477-590.

    Simplifications: coordinates and values are rationals (float32 rounding and NaN are not modelled). Depths that are read
    lazily from files (grid.depth_field) are not modelled: the depth array is complete and in memory. Curvilinear s
    grids use the same vertical search but are not modelled here. *)
From Coq Require Import List ZArith Bool QArith.
From Verif Require Import IdxModel TimeModel InterpModel.
Import ListNotations.
Open Scope Z_scope.

(** A scalar field on a RectilinearSGrid. [l_mem] is the depth array, in row-major order: [zdim, ydim, xdim], or
    [tdim, zdim, ydim, xdim] when z4d (grid.py 365-378). *)
Record lfield := mkLfield {
  l_lon : list Q; l_lat : list Q; l_zdim : Z; l_z4d : bool; l_mem : Z -> Q;
  l_spherical : bool; l_zonal_periodic : bool; l_indexing : indexing; l_method : method;
  l_time : list Q; l_periodic : bool; l_extrapolate : bool;
  l_data : Z -> Z -> Z -> Z -> Q
}.
Definition l_tdim (f : lfield) : Z := zlen (l_time f).
Definition l_ydim (f : lfield) : Z := zlen (l_lat f).
Definition l_xdim (f : lfield) : Z := zlen (l_lon f).

(** Position of depth[k, j, i] or depth[n, k, j, i] in memory, and the number of elements. *)
Definition flat (f : lfield) (n k j i : Z) : Z :=
  (((if l_z4d f then n else 0) * l_zdim f + k) * l_ydim f + j) * l_xdim f + i.
Definition mem_size (f : lfield) : Z := (if l_z4d f then l_tdim f else 1) * l_zdim f * l_ydim f * l_xdim f.

(** Python reads depth[n, k, j, i] with negative indices from the end; C computes the address from the indices,
    whether or not each is within its axis; outside the array is [None]. *)
Definition py_depth (f : lfield) (n k j i : Z) : option Q :=
  match py_index (if l_z4d f then l_tdim f else 1) (if l_z4d f then n else 0),
        py_index (l_zdim f) k, py_index (l_ydim f) j, py_index (l_xdim f) i with
  | Some n', Some k', Some j', Some i' => Some (l_mem f (flat f n' k' j' i'))
  | _, _, _, _ => None
  end.
Definition c_depth (f : lfield) (n k j i : Z) : option Q :=
  let m := flat f n k j i in
  if (0 <=? m) && (m <? mem_size f) then Some (l_mem f m) else None.

(** The weighted sum of four corners (field.py 638-641, 643-646, 651-654; index_search.h 100-107, 116-119). *)
Definition corners4 (rd : Z -> Z -> option Q) (yi xi : Z) (xsi eta : Q) : option Q :=
  match rd yi xi, rd yi (xi + 1), rd (yi + 1) (xi + 1), rd (yi + 1) xi with
  | Some a, Some b, Some c, Some d =>
      Some ((1 - xsi) * (1 - eta) * a + xsi * (1 - eta) * b + xsi * eta * c + (1 - xsi) * eta * d)%Q
  | _, _, _, _ => None
  end.

Fixpoint all_some (l : list (option Q)) : option (list Q) :=
  match l with
  | [] => Some []
  | Some q :: t => match all_some t with Some r => Some (q :: r) | None => None end
  | None :: _ => None
  end.
Definition zrange (n : Z) : list Z := map Z.of_nat (seq 0 (Z.to_nat n)).

(** field.py 631-633, index_search.h 88-91. *)
Definition is_bgrid (m : method) : bool :=
  match m with BgridVelocity | BgridWVelocity | BgridTracer => true | _ => false end.

(** field.py 634-654: the depths of the levels at the position; [None]: IndexError, or the assertion of 648 fails. *)
Definition py_column (f : lfield) (xi yi : Z) (xsi eta : Q) (ti : Z) (time : Q) : option (list Q) :=
  let xsi := if is_bgrid (l_method f) then 1%Q else xsi in
  let eta := if is_bgrid (l_method f) then 1%Q else eta in
  match pyget (l_time f) ti with
  | None => None
  | Some tv =>
      let ti := if qlt time tv then ti - 1 else ti in
      let col n := map (fun k => corners4 (fun j i => py_depth f n k j i) yi xi xsi eta) (zrange (l_zdim f)) in
      if l_z4d f then
        if ti =? l_tdim f - 1 then all_some (col (-1))
        else if ti <? 0 then None                 (* depth[-1:1] does not have two frames *)
        else
          match pyget (l_time f) ti, pyget (l_time f) (ti + 1), all_some (col ti), all_some (col (ti + 1)) with
          | Some t0, Some t1, Some d0, Some d1 =>
              let tt := ((time - t0) / (t1 - t0))%Q in
              if qle 0 tt && qle tt 1
              then Some (map (fun p => (fst p * (1 - tt) + snd p * tt)%Q) (combine d0 d1))
              else None
          | _, _, _, _ => None
          end
      else all_some (col 0)
  end.

(** field.py 657-680. *)
Definition py_vertical_s (d : list Q) (z : Q) : vres :=
  match pyget d 0, pyget d (-1) with
  | Some d0, Some dn =>
      if qlt d0 dn then
        let le := map (fun v => qle v z) d in
        let zi := if qle dn z then zlen d - 2 else if qle d0 z then np_argmin le - 1 else 0 in
        match pyget d zi, pyget d (zi + 1) with
        | Some a, Some b => if qlt z a then VSurface else if qlt b z then VOut else VFound zi ((z - a) / (b - a))%Q
        | _, _ => VBad
        end
      else
        let ge := map (fun v => qle z v) d in
        let zi := if qle z dn then zlen d - 2 else if qle z d0 then np_argmin ge - 1 else 0 in
        match pyget d zi, pyget d (zi + 1) with
        | Some a, Some b => if qlt a z then VSurface else if qlt z b then VOut else VFound zi ((z - a) / (b - a))%Q
        | _, _ => VBad
        end
  | _, _ => VBad
  end.

(** field.py 704-708, index_search.h 185-190. *)
Definition l_outside (f : lfield) (x y : Q) : bool :=
  outside (mkRgrid (l_lon f) (l_lat f) [] (l_spherical f) (l_zonal_periodic f) false) x y.

(** field.py 701-786 for a RectilinearSGrid. *)
Definition py_search_s (f : lfield) (x y z : Q) (ti : Z) (time : Q) : sres :=
  if l_outside f x y then OutOfBounds
  else
    match (if 1 <? zlen (l_lon f)
           then py_axis (if l_spherical f then lon_fixed (l_lon f) x else l_lon f) x
           else Some (-1, 0%Q)),
          (if 1 <? zlen (l_lat f) then py_axis (l_lat f) y else Some (-1, 0%Q)) with
    | Some (xi, xsi), Some (yi, eta) =>
        match (if 1 <? l_zdim f
               then match py_column f xi yi xsi eta ti time with Some d => py_vertical_s d z | None => VBad end
               else VFound (-1) 0) with
        | VFound zi zeta =>
            if in01 xsi && in01 eta && in01 zeta then Found xsi eta zeta xi yi zi else Sampling
        | VOut => OutOfBounds
        | VSurface => ThroughSurface
        | VBad => BadIndex
        end
    | _, _ => BadIndex
    end.

Definition l_frame (f : lfield) (t : Z) : frame := mkFrame (l_zdim f) (l_ydim f) (l_xdim f) (l_data f t).
Definition l_f0 (f : lfield) : Q := nth 0 (l_time f) 0%Q.
Definition l_fn (f : lfield) : Q := nth (length (l_time f) - 1) (l_time f) 0%Q.

(** field.py 1033-1041 with 888-889 (no time is given to the 2D search, which does not use it) and 933-934. *)
Definition py_spatial_s (f : lfield) (x y z : Q) (ti : Z) (time : Q) : ires :=
  match py_search_s f x y z ti time with
  | Found xsi eta zeta xi yi zi =>
      match py_index (l_tdim f) ti with
      | None => IBad
      | Some t' =>
          if l_zdim f =? 1 then py_interp2D (l_method f) (l_frame f t') xsi eta xi yi
          else py_interp3D (l_indexing f) (l_method f) (l_frame f t') xsi eta zeta xi yi zi
      end
  | e => ISearch e
  end.

(** field.py 1080-1099 where [v i time] is spatial_interpolation(i, ..., time). *)
Definition py_eval_s (periodic extrapolate : bool) (tm : list Q) (f0 fn : Q) (v : Z -> Q -> ires) (time : Q) : ires :=
  match py_time_index periodic extrapolate tm f0 fn time with
  | TExtrap => IExtrap
  | TBad => IBad
  | TAt ti periods =>
      let time' := (time - inject_Z periods * (fn - f0))%Q in
      match pyget tm ti with
      | None => IBad
      | Some t0 =>
          if (ti <? zlen tm - 1) && qlt t0 time' then
            match pyget tm (ti + 1) with
            | None => IBad
            | Some t1 =>
                match v ti time' with
                | IVal q0 => match v (ti + 1) time' with IVal q1 => IVal (lin q0 q1 t0 t1 time') | e => e end
                | e => e
                end
            end
          else v ti t0
      end
  end.

Definition py_sample_s (f : lfield) (time x y z : Q) : ires :=
  py_eval_s (l_periodic f) (l_extrapolate f) (l_time f) (l_f0 f) (l_fn f) (py_spatial_s f x y z) time.

(** ** C *)

(** index_search.h 88-120. *)
Definition c_column (f : lfield) (xi yi : Z) (xsi eta : Q) (ti : Z) (time t0 t1 : Q) : option (list Q) :=
  let xsi := if is_bgrid (l_method f) then 1%Q else xsi in
  let eta := if is_bgrid (l_method f) then 1%Q else eta in
  let col n := map (fun k => corners4 (fun j i => c_depth f n k j i) yi xi xsi eta) (zrange (l_zdim f)) in
  if l_z4d f then
    let ti1 := if ti <? l_tdim f - 1 then ti + 1 else ti in
    match all_some (col ti), all_some (col ti1) with
    | Some d0, Some d1 =>
        Some (map (fun p => (fst p + (snd p - fst p) * ((time - t0) / (t1 - t0)))%Q) (combine d0 d1))
    | _, _ => None
    end
  else all_some (col 0).

(** index_search.h 168-268 for a RECTILINEAR_S_GRID; lines 122-138 are lines 61-81 on the column, without the MOM5 case. *)
Definition c_search_s (f : lfield) (x y z : Q) (xi0 yi0 zi0 ti : Z) (time t0 t1 : Q) : sres :=
  if l_outside f x y then OutOfBounds
  else
    match (if zlen (l_lon f) =? 1 then Some (Some (0, 0%Q))
           else if l_spherical f then c_sphere itmax (l_lon f) x xi0
           else match c_axis (l_lon f) x xi0 with Some r => Some (Some r) | None => None end) with
    | None => BadIndex
    | Some None => OutOfBounds
    | Some (Some (xi, xsi)) =>
        match (if zlen (l_lat f) =? 1 then Some (0, 0%Q) else c_axis (l_lat f) y yi0) with
        | None => BadIndex
        | Some (yi, eta) =>
            match (if 1 <? l_zdim f
                   then match c_column f xi yi xsi eta ti time t0 t1 with
                        | Some d => c_vertical_z false d z zi0
                        | None => VBad
                        end
                   else VFound zi0 0) with
            | VFound zi zeta =>
                if in01 xsi && in01 eta && in01 zeta then Found xsi eta zeta xi yi zi else Sampling
            | VOut => OutOfBounds
            | VSurface => ThroughSurface
            | VBad => BadIndex
            end
        end
    end.

(** parcels.h 477-590: one search, then the value of one frame or of two. *)
Definition c_sample_s (k : nat) (f : lfield) (time x y z : Q) (xi0 yi0 zi0 ti0 : Z) : ires :=
  let tm := l_time f in
  match cget tm 0, cget tm (zlen tm - 1) with
  | Some ta, Some tn =>
      if negb (l_periodic f) && negb (l_extrapolate f) && (qlt time ta || qlt tn time) then IExtrap
      else
        match c_time k (l_periodic f) tm (l_f0 f) (l_fn f) time ti0 with
        | None => IBad
        | Some (t, ti) =>
            match cget tm ti with
            | None => IBad
            | Some t0 =>
                let two := (ti <? zlen tm - 1) && qlt t0 t in
                match (if two then cget tm (ti + 1) else Some (t0 + 1)%Q) with
                | None => IBad
                | Some t1 =>
                    let tsrch := if two then t else t0 in
                    match c_search_s f x y z xi0 yi0 zi0 ti tsrch t0 t1 with
                    | Found xsi eta zeta xi yi zi =>
                        let val n := c_interp (l_indexing f) (l_method f) (l_frame f n) xsi eta zeta xi yi zi in
                        match val ti, (if two then val (ti + 1) else IVal 0) with
                        | IVal q0, IVal q1 => IVal (lin q0 q1 t0 t1 tsrch)
                        | IVal _, e => e
                        | e, _ => e
                        end
                    | e => ISearch e
                    end
                end
            end
        end
  | _, _ => IBad
  end.
