(** Model of index search on rectilinear grids.

    Sources: parcels/field.py 600-627 (vertical z), 701-785 (rectilinear); parcels/include/index_search.h
    59-82 (vertical z), 141-165 (reconnect), 168-268 (rectilinear); parcels/grid.py 62 (lonlat_minmax).

    Simplifications: coordinates are rationals, so float32 rounding of axes and positions and NaN are not
    modelled (in exact arithmetic the corrections of xsi < 0 and xsi > 1 at field.py 722-727 are kept but
    never needed); S grids are not modelled here. Array reads outside the array are
    [None] / [BadIndex]: Python raises IndexError, C has undefined behaviour. *)
From Coq Require Import List ZArith Bool QArith.
Import ListNotations.
Open Scope Z_scope.

Definition qle (a b : Q) : bool := Qle_bool a b.
Definition qlt (a b : Q) : bool := negb (Qle_bool b a).

Definition zlen {A} (l : list A) : Z := Z.of_nat (length l).

(** C reads l[i]; Python reads l[i], negative indices counting from the end. *)
Definition cget (l : list Q) (i : Z) : option Q :=
  if (0 <=? i) && (i <? zlen l) then Some (nth (Z.to_nat i) l 0%Q) else None.
Definition pyget (l : list Q) (i : Z) : option Q := cget l (if i <? 0 then i + zlen l else i).

(** numpy: .all(), .any(), and argmin of a boolean vector (first False, 0 if there is none). *)
Definition np_all (bs : list bool) : bool := forallb (fun b => b) bs.
Definition np_any (bs : list bool) : bool := existsb (fun b => b) bs.
Fixpoint first_false (bs : list bool) : option Z :=
  match bs with
  | [] => None
  | false :: _ => Some 0
  | true :: t => match first_false t with Some k => Some (k + 1) | None => None end
  end.
Definition np_argmin (bs : list bool) : Z := match first_false bs with Some k => k | None => 0 end.

(** (x - l[i]) / (l[i+1] - l[i]) *)
Definition py_rel (l : list Q) (i : Z) (x : Q) : option Q :=
  match pyget l i, pyget l (i + 1) with
  | Some a, Some b => Some ((x - a) / (b - a))%Q
  | _, _ => None
  end.
Definition c_rel (l : list Q) (i : Z) (x : Q) : option Q :=
  match cget l i, cget l (i + 1) with
  | Some a, Some b => Some ((x - a) / (b - a))%Q
  | _, _ => None
  end.

(** field.py 714-727 (lon, flat mesh), 740-752 (lon_fixed), 757-770 (lat). *)
Definition py_axis (l : list Q) (x : Q) : option (Z * Q) :=
  let below := map (fun v => qlt v x) l in
  let xi := if np_all below then zlen l - 2
            else if np_any below then np_argmin below - 1 else 0 in
  match py_rel l xi x with
  | None => None
  | Some xsi =>
      if qlt xsi 0 then match py_rel l (xi - 1) x with Some r => Some (xi - 1, r) | None => None end
      else if qlt 1 xsi then match py_rel l (xi + 1) x with Some r => Some (xi + 1, r) | None => None end
      else Some (xi, xsi)
  end.

(** The two while loops of the C search (index_search.h 197-198, 239-240):
    while (i < dim-1 && x > l[i+1]) ++i;  while (i > 0 && x < l[i]) --i;
    for a decreasing depth axis (75-76) with the comparisons swapped: [before dec v x] is v < x resp. v > x.
    [k] bounds the iterations (dim-1-i resp. i are enough, see [c_walk]). *)
Definition before (dec : bool) (v x : Q) : bool := if dec then qlt x v else qlt v x.
Fixpoint c_up (dec : bool) (k : nat) (l : list Q) (x : Q) (i : Z) : option Z :=
  match k with
  | O => Some i
  | S k' =>
      if i <? zlen l - 1 then
        match cget l (i + 1) with
        | None => None
        | Some v => if before dec v x then c_up dec k' l x (i + 1) else Some i
        end
      else Some i
  end.
Fixpoint c_down (dec : bool) (k : nat) (l : list Q) (x : Q) (i : Z) : option Z :=
  match k with
  | O => Some i
  | S k' =>
      if 0 <? i then
        match cget l i with
        | None => None
        | Some v => if before dec x v then c_down dec k' l x (i - 1) else Some i
        end
      else Some i
  end.
Definition c_walk (dec : bool) (l : list Q) (x : Q) (i : Z) : option Z :=
  match c_up dec (Z.to_nat (zlen l - 1 - i)) l x i with
  | None => None
  | Some j => c_down dec (Z.to_nat j) l x j
  end.
Definition c_axis (l : list Q) (x : Q) (i : Z) : option (Z * Q) :=
  match c_walk false l x i with
  | None => None
  | Some j => match c_rel l j x with Some r => Some (j, r) | None => None end
  end.

(** Outcome of a search. *)
Inductive sres :=
  | Found (xsi eta zeta : Q) (xi yi zi : Z)
  | OutOfBounds          (* FieldOutOfBoundError, ERROR_OUT_OF_BOUNDS *)
  | ThroughSurface       (* FieldOutOfBoundSurfaceError, ERROR_THROUGH_SURFACE *)
  | Sampling             (* FieldSamplingError, ERROR_INTERPOLATION *)
  | BadIndex.

Inductive vres := VFound (zi : Z) (zeta : Q) | VOut | VSurface | VBad.

(** field.py 600-627. [mom5]: gridindexingtype == "mom5". *)
Definition py_vertical_z (mom5 : bool) (d : list Q) (z : Q) : vres :=
  match pyget d 0, pyget d (-1) with
  | Some d0, Some dn =>
      if qlt d0 dn then
        if qlt z d0 then
          match pyget d 1 with
          | None => VBad
          | Some d1 => if mom5 && qlt (2 * d0 - d1) z then VFound (-1) (z / d0) else VSurface
          end
        else if qlt dn z then VOut
        else
          let le := map (fun v => qle v z) d in
          let zi := if qle dn z then zlen d - 2 else if qle d0 z then np_argmin le - 1 else 0 in
          match py_rel d zi z with Some r => VFound zi r | None => VBad end
      else
        if qlt d0 z then VSurface
        else if qlt z dn then VOut
        else
          let ge := map (fun v => qle z v) d in
          let zi := if qle z dn then zlen d - 2 else if qle z d0 then np_argmin ge - 1 else 0 in
          match py_rel d zi z with Some r => VFound zi r | None => VBad end
  | _, _ => VBad
  end.

(** index_search.h 59-82. *)
Definition c_vertical_z (mom5 : bool) (d : list Q) (z : Q) (zi0 : Z) : vres :=
  match cget d 0, cget d (zlen d - 1) with
  | Some d0, Some dn =>
      if qlt d0 dn then
        if qlt z d0 && mom5 && match cget d 1 with Some d1 => qlt (2 * d0 - d1) z | None => false end
        then VFound (-1) (z / d0)
        else if qlt z d0 then VSurface
        else if qlt dn z then VOut
        else match c_walk false d z zi0 with
             | None => VBad
             | Some j => let zi := if j =? zlen d - 1 then j - 1 else j in
                         match c_rel d zi z with Some r => VFound zi r | None => VBad end
             end
      else
        if qlt d0 z then VSurface
        else if qlt z dn then VOut
        else match c_walk true d z zi0 with
             | None => VBad
             | Some j => let zi := if j =? zlen d - 1 then j - 1 else j in
                         match c_rel d zi z with Some r => VFound zi r | None => VBad end
             end
  | _, _ => VBad
  end.

(** np.nanmin / np.nanmax of an axis. *)
Definition qmin (a b : Q) : Q := if qle a b then a else b.
Definition qmax (a b : Q) : Q := if qle a b then b else a.
Definition axis_min (l : list Q) : Q := match l with [] => 0%Q | a :: t => fold_left qmin t a end.
Definition axis_max (l : list Q) : Q := match l with [] => 0%Q | a :: t => fold_left qmax t a end.

Record rgrid := mkRgrid {
  g_lon : list Q; g_lat : list Q; g_depth : list Q;
  g_spherical : bool; g_zonal_periodic : bool; g_mom5 : bool
}.

(** field.py 730-738: longitudes made increasing by adding 360 after the first one below lon[0], and
    moved down by 360 when x is west of the first. *)
Definition lon_fixed (l : list Q) (x : Q) : list Q :=
  let l0 := hd 0%Q l in
  let ge := map (fun v => qle l0 v) l in
  let l1 := if np_all ge then l
            else let k := Z.to_nat (np_argmin ge) in
                 firstn k l ++ map (fun v => (v + 360)%Q) (skipn k l) in
  if qlt x (hd 0%Q l1) then map (fun v => (v - 360)%Q) l1 else l1.

(** field.py 704-708, index_search.h 185-190. *)
Definition outside (g : rgrid) (x y : Q) : bool :=
  ((1 <? zlen (g_lon g)) && negb (g_zonal_periodic g) &&
     (qlt x (axis_min (g_lon g)) || qlt (axis_max (g_lon g)) x))
  || ((1 <? zlen (g_lat g)) && (qlt y (axis_min (g_lat g)) || qlt (axis_max (g_lat g)) y)).

Definition in01 (r : Q) : bool := qle 0 r && qle r 1.

(** field.py 701-795 for a RectilinearZGrid. *)
Definition py_search (g : rgrid) (x y z : Q) : sres :=
  if outside g x y then OutOfBounds
  else
    match (if 1 <? zlen (g_lon g)
           then py_axis (if g_spherical g then lon_fixed (g_lon g) x else g_lon g) x
           else Some (-1, 0%Q)),
          (if 1 <? zlen (g_lat g) then py_axis (g_lat g) y else Some (-1, 0%Q)) with
    | Some (xi, xsi), Some (yi, eta) =>
        match (if 1 <? zlen (g_depth g) then py_vertical_z (g_mom5 g) (g_depth g) z else VFound (-1) 0) with
        | VFound zi zeta =>
            if in01 xsi && in01 eta && in01 zeta then Found xsi eta zeta xi yi zi else Sampling
        | VOut => OutOfBounds
        | VSurface => ThroughSurface
        | VBad => BadIndex
        end
    | _, _ => BadIndex
    end.

(** index_search.h 141-165 with onlyX = 1 and sphere_mesh = 1. *)
Definition reconnect_x (xdim xi : Z) : Z :=
  let xi1 := if xi <? 0 then xdim - 2 else xi in
  if xdim - 2 <? xi1 then 0 else xi1.

(** index_search.h 203-209, 219-224: the ends of cell [i], moved next to x. *)
Definition near_x (v x : Q) : Q :=
  let v1 := if qlt v (x - 225) then (v + 360)%Q else v in
  if qlt (x + 225) v1 then (v1 - 360)%Q else v1.
Definition near_cell (v1 v : Q) : Q :=
  let v2 := if qlt v1 (v - 180) then (v1 + 360)%Q else v1 in
  if qlt (v + 180) v2 then (v2 - 360)%Q else v2.

(** index_search.h 201-231: [k] = itMax + 1 iterations are allowed. *)
Fixpoint c_sphere (k : nat) (l : list Q) (x : Q) (i : Z) : option (option (Z * Q)) :=
  match cget l i, cget l (i + 1) with
  | Some a0, Some b0 =>
      let a := near_x a0 x in
      let b := near_cell b0 a in
      if qlt x a || qlt b x then
        match k with
        | O => Some None                                   (* it > itMax: ERROR_OUT_OF_BOUNDS *)
        | S k' => c_sphere k' l x (reconnect_x (zlen l) (if qlt b x then i + 1 else i - 1))
        end
      else Some (Some (i, ((x - a) / (b - a))%Q))
  | _, _ => None
  end.
Definition itmax : nat := Z.to_nat 10000.

(** index_search.h 168-268 for a RECTILINEAR_Z_GRID, from the particle's indices xi0, yi0, zi0. *)
Definition c_search (g : rgrid) (x y z : Q) (xi0 yi0 zi0 : Z) : sres :=
  if outside g x y then OutOfBounds
  else
    match (if zlen (g_lon g) =? 1 then Some (Some (0, 0%Q))
           else if g_spherical g then c_sphere itmax (g_lon g) x xi0
           else match c_axis (g_lon g) x xi0 with Some r => Some (Some r) | None => None end) with
    | None => BadIndex
    | Some None => OutOfBounds
    | Some (Some (xi, xsi)) =>
        match (if zlen (g_lat g) =? 1 then Some (0, 0%Q) else c_axis (g_lat g) y yi0) with
        | None => BadIndex
        | Some (yi, eta) =>
            match (if 1 <? zlen (g_depth g) then c_vertical_z (g_mom5 g) (g_depth g) z zi0
                   else VFound zi0 0) with
            | VFound zi zeta =>
                if in01 xsi && in01 eta && in01 zeta then Found xsi eta zeta xi yi zi else Sampling
            | VOut => OutOfBounds
            | VSurface => ThroughSurface
            | VBad => BadIndex
            end
        end
    end.
