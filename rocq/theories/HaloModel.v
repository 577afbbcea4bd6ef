(** Model of periodic halos.

    Sources: parcels/grid.py 168-186 (add_Sdepth_periodic_halo), 279-306 (RectilinearGrid.add_periodic_halo), 402-438
    (CurvilinearGrid.add_periodic_halo); parcels/field.py 521-538 (the end of reshape), 1224-1267 (Field.add_periodic_halo);
    parcels/fieldset.py 957-971 (FieldSet.add_periodic_halo).

    Simplifications: coordinates and values are rationals. The warnings (np.allclose) and lonlat_minmax are not modelled,
    and numpy and dask arrays are the same. A value is [None] when Python raises an IndexError or an AssertionError. *)
From Coq Require Import List ZArith Bool QArith.
From Verif Require Import IdxModel.
Import ListNotations.
Open Scope Z_scope.

(** Bounds of Python slices: [i] as a position in a dimension of size [n]. *)
Definition py_bound (n i : Z) : Z := if i <? 0 then Z.max 0 (i + n) else Z.min i n.

(** l[lo:hi] for vectors. *)
Definition vslice (l : list Q) (lo hi : Z) : list Q :=
  let n := zlen l in
  let a := py_bound n lo in
  let b := py_bound n hi in
  firstn (Z.to_nat (b - a)) (skipn (Z.to_nat a) l).
(** l[lo:]. *)
Definition vtail (l : list Q) (lo : Z) : list Q := skipn (Z.to_nat (py_bound (zlen l) lo)) l.

(** Arrays of two dimensions or more: the sizes of the last two, and the value at the leading indices, y and x. *)
Record arr := mkArr { a_y : Z; a_x : Z; a_at : list Z -> Z -> Z -> Q }.

Definition slice_x (a : arr) (lo hi : Z) : arr :=
  let p := py_bound (a_x a) lo in
  let q := py_bound (a_x a) hi in
  mkArr (a_y a) (Z.max 0 (q - p)) (fun t j i => a_at a t j (p + i)).
Definition tail_x (a : arr) (lo : Z) : arr :=
  let p := py_bound (a_x a) lo in
  mkArr (a_y a) (a_x a - p) (fun t j i => a_at a t j (p + i)).
Definition slice_y (a : arr) (lo hi : Z) : arr :=
  let p := py_bound (a_y a) lo in
  let q := py_bound (a_y a) hi in
  mkArr (Z.max 0 (q - p)) (a_x a) (fun t j i => a_at a t (p + j) i).
Definition tail_y (a : arr) (lo : Z) : arr :=
  let p := py_bound (a_y a) lo in
  mkArr (a_y a - p) (a_x a) (fun t j i => a_at a t (p + j) i).

(** np.concatenate of two arrays along x and along y. *)
Definition join_x (a b : arr) : arr :=
  mkArr (a_y a) (a_x a + a_x b) (fun t j i => if i <? a_x a then a_at a t j i else a_at b t j (i - a_x a)).
Definition join_y (a b : arr) : arr :=
  mkArr (a_y a + a_y b) (a_x a) (fun t j i => if j <? a_y a then a_at a t j i else a_at b t (j - a_y a) i).

(** field.py 1244-1250, 1254-1260; grid.py 170-177, 179-186. The values do not depend on the number of leading indices. *)
Definition halo_x (h : Z) (a : arr) : arr := join_x (join_x (tail_x a (- h)) a) (slice_x a 0 h).
Definition halo_y (h : Z) (a : arr) : arr := join_y (join_y (tail_y a (- h)) a) (slice_y a 0 h).

(** The coordinates of a grid. *)
Inductive coords :=
  | Rect (lon lat : list Q)
  | Curv (lon lat : arr).
Record hgrid := mkHgrid {
  h_coords : coords; h_xdim : Z; h_ydim : Z;
  h_sdepth : option arr;                             (* the depths of an S grid *)
  h_zonal_periodic : bool; h_zonal_halo : Z; h_meridional_halo : Z; h_defer : bool }.

(** grid.py 288, 298: l[-1] - 2 * l[0] + l[1]; lines 289 and 296 also read l[-2]. *)
Definition shift_of (l : list Q) : option Q :=
  match pyget l (-1), pyget l 0, pyget l 1, pyget l (-2) with
  | Some b, Some a, Some a1, Some _ => Some (b - 2 * a + a1)%Q
  | _, _, _, _ => None
  end.
(** grid.py 291-292, 299-300. *)
Definition halo_axis (h : Z) (l : list Q) : option (list Q) :=
  match shift_of l with
  | Some s => Some (map (fun v => (v - s)%Q) (vtail l (- h)) ++ l ++ map (fun v => (v + s)%Q) (vslice l 0 h))
  | None => None
  end.

(** grid.py 411, 429: the shift of every row of lon (every column of lat). *)
Definition row_shift (a : arr) (j : Z) : Q := (a_at a [] j (a_x a - 1)%Z - 2 * a_at a [] j 0 + a_at a [] j 1)%Q.
Definition col_shift (a : arr) (i : Z) : Q := (a_at a [] (a_y a - 1)%Z i - 2 * a_at a [] 0 i + a_at a [] 1 i)%Q.
Definition add_rows (a : arr) (k : Q) (s : Z -> Q) : arr :=
  mkArr (a_y a) (a_x a) (fun t j i => (a_at a t j i + k * s j)%Q).
Definition add_cols (a : arr) (k : Q) (s : Z -> Q) : arr :=
  mkArr (a_y a) (a_x a) (fun t j i => (a_at a t j i + k * s i)%Q).
(** grid.py 414-416, 430-432. *)
Definition curv_x (h : Z) (a : arr) : arr :=
  join_x (join_x (add_rows (tail_x a (- h)) (-1) (row_shift a)) a) (add_rows (slice_x a 0 h) 1 (row_shift a)).
Definition curv_y (h : Z) (a : arr) : arr :=
  join_y (join_y (add_cols (tail_y a (- h)) (-1) (col_shift a)) a) (add_cols (slice_y a 0 h) 1 (col_shift a)).

(** grid.py 287-295, 410-424: the zonal part. *)
Definition zonal_coords (h : Z) (c : coords) : option (coords * Z * Z) :=
  match c with
  | Rect lon lat =>
      match halo_axis h lon with
      | Some lon' => Some (Rect lon' lat, zlen lon', zlen lat)
      | None => None
      end
  | Curv lon lat =>
      if a_x lon <? 2 then None
      else let lon' := curv_x h lon in let lat' := halo_x h lat in Some (Curv lon' lat', a_x lon', a_y lat')
  end.
(** grid.py 296-302, 425-436: the meridional part. *)
Definition meridional_coords (h : Z) (c : coords) : option (coords * Z * Z) :=
  match c with
  | Rect lon lat =>
      match halo_axis h lat with
      | Some lat' => Some (Rect lon lat', zlen lon, zlen lat')
      | None => None
      end
  | Curv lon lat =>
      if a_y lat <? 2 then None
      else let lat' := curv_y h lat in let lon' := halo_y h lon in Some (Curv lon' lat', a_x lon', a_y lat')
  end.

(** field.py 1242-1267, grid.py 168-186: an array extended, with the asserts on the sizes. *)
Definition array_halo (zonal meridional : bool) (h : Z) (xdim ydim : Z) (a : arr) : option arr :=
  let a1 := if zonal then halo_x h a else a in
  if zonal && negb (a_x a1 =? xdim) then None
  else
    let a2 := if meridional then halo_y h a1 else a1 in
    if meridional && negb (a_y a2 =? ydim) then None else Some a2.
(** grid.py 305-306, 437-438. *)
Definition sdepth_halo (zonal meridional : bool) (h : Z) (xdim ydim : Z) (d : option arr) : option (option arr) :=
  match d with
  | None => Some None
  | Some a => match array_halo zonal meridional h xdim ydim a with Some a' => Some (Some a') | None => None end
  end.

(** grid.py 279-306, 402-438. *)
Definition grid_halo (zonal meridional : bool) (h : Z) (g : hgrid) : option hgrid :=
  match (if zonal then zonal_coords h (h_coords g) else Some (h_coords g, h_xdim g, h_ydim g)) with
  | None => None
  | Some (c1, x1, y1) =>
      match (if meridional then meridional_coords h c1 else Some (c1, x1, y1)) with
      | None => None
      | Some (c2, x2, y2) =>
          match sdepth_halo zonal meridional h x2 y2 (h_sdepth g) with
          | None => None
          | Some d =>
              Some {| h_coords := c2; h_xdim := x2; h_ydim := y2; h_sdepth := d;
                      h_zonal_periodic := if zonal then true else h_zonal_periodic g;
                      h_zonal_halo := if zonal then h else h_zonal_halo g;
                      h_meridional_halo := if meridional then h else h_meridional_halo g;
                      h_defer := h_defer g |}
          end
      end
  end.

(** field.py 1239-1267: the data of a field; nothing is done when loading is deferred. *)
Definition field_halo (zonal meridional : bool) (h : Z) (g : hgrid) (a : arr) : option arr :=
  if h_defer g then Some a else array_halo zonal meridional h (h_xdim g) (h_ydim g) a.

(** field.py 521-538: data read from a file. Only the sizes along y and x are checked here. *)
Definition reshape_halo (g : hgrid) (a : arr) : option arr :=
  if (a_y a =? h_ydim g - 2 * h_meridional_halo g) && (a_x a =? h_xdim g - 2 * h_zonal_halo g) then
    if (0 <? h_meridional_halo g) || (0 <? h_zonal_halo g) then
      array_halo (0 <? h_zonal_halo g) (0 <? h_meridional_halo g) (Z.max (h_meridional_halo g) (h_zonal_halo g)) (h_xdim g) (h_ydim g) a
    else Some a
  else None.

(** The attributes of a fieldset: fields with the number of their grid, and summed and nested fields. *)
Inductive attr := AField (igrid : nat) (data : arr) | AGroup (l : list (nat * arr)).
Record fset := { fs_grids : list hgrid; fs_attrs : list attr }.

Fixpoint map_opt {A B} (f : A -> option B) (l : list A) : option (list B) :=
  match l with
  | [] => Some []
  | a :: r => match f a, map_opt f r with Some b, Some bs => Some (b :: bs) | _, _ => None end
  end.

(** fieldset.py 967-971: summed and nested fields are lists, not instances of Field. *)
Definition attr_halo (zonal meridional : bool) (h : Z) (gs : list hgrid) (x : attr) : option attr :=
  match x with
  | AField n a =>
      match nth_error gs n with
      | Some g => match field_halo zonal meridional h g a with Some a' => Some (AField n a') | None => None end
      | None => None
      end
  | AGroup l => Some (AGroup l)
  end.
Definition fset_halo (zonal meridional : bool) (h : Z) (fs : fset) : option fset :=
  match map_opt (grid_halo zonal meridional h) (fs_grids fs) with
  | None => None
  | Some gs =>
      match map_opt (attr_halo zonal meridional h gs) (fs_attrs fs) with
      | Some l => Some {| fs_grids := gs; fs_attrs := l |}
      | None => None
      end
  end.
