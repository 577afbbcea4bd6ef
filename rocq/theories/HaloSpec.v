(** What a periodic halo should be (C31). *)
From Coq Require Import List ZArith QArith.
From Verif Require Import IdxModel IdxSpec InterpModel HaloModel.
Import ListNotations.
Open Scope Z_scope.

(** Index [k] of an axis of [n] points with [h] more on each side is the index [origin h n k] of the axis, [turns h n k]
    periods away. *)
Definition origin (h n k : Z) : Z := (k - h) mod n.
Definition turns (h n k : Z) : Z := (k - h) / n.

(** The period of an axis: from the first point to one spacing after the last. *)
Definition axis_period (l : list Q) : Q := (last_ l - first_ l + (at_ l 1 - at_ l 0))%Q.

(** [l'] is axis [l] repeated periodically, with [h] more points on each side. *)
Definition extends_axis (h : Z) (l l' : list Q) : Prop :=
  let n := zlen l in
  zlen l' = n + 2 * h /\
  (forall i, 0 <= i < n -> at_ l' (h + i) = at_ l i) /\
  (forall k, 0 <= k < n + 2 * h -> (at_ l' k == at_ l (origin h n k) + inject_Z (turns h n k) * axis_period l)%Q).

(** [a'] is [a] repeated periodically along x or y or both. *)
Definition extends_array (zonal meridional : bool) (h : Z) (a a' : arr) : Prop :=
  let hx := if zonal then h else 0 in
  let hy := if meridional then h else 0 in
  a_x a' = a_x a + 2 * hx /\ a_y a' = a_y a + 2 * hy /\
  forall t j i, 0 <= j < a_y a' -> 0 <= i < a_x a' -> a_at a' t j i = a_at a t (origin hy (a_y a) j) (origin hx (a_x a) i).

(** Coordinates of a curvilinear grid: the period of each row of lon, of each column of lat. *)
Definition row_period (a : arr) (j : Z) : Q := (a_at a [] j (a_x a - 1) - a_at a [] j 0 + (a_at a [] j 1 - a_at a [] j 0))%Q.
Definition col_period (a : arr) (i : Z) : Q := (a_at a [] (a_y a - 1) i - a_at a [] 0 i + (a_at a [] 1 i - a_at a [] 0 i))%Q.
Definition extends_curv (zonal meridional : bool) (h : Z) (lon lat lon' lat' : arr) : Prop :=
  let hx := if zonal then h else 0 in
  let hy := if meridional then h else 0 in
  a_x lon' = a_x lon + 2 * hx /\ a_y lon' = a_y lon + 2 * hy /\ a_x lat' = a_x lat + 2 * hx /\ a_y lat' = a_y lat + 2 * hy /\
  forall j i, 0 <= j < a_y lon' -> 0 <= i < a_x lon' ->
    let j0 := origin hy (a_y lon) j in
    let i0 := origin hx (a_x lon) i in
    (a_at lon' [] j i == a_at lon [] j0 i0 + inject_Z (turns hx (a_x lon) i) * row_period lon j0)%Q /\
    (a_at lat' [] j i == a_at lat [] j0 i0 + inject_Z (turns hy (a_y lat) j) * col_period lat i0)%Q.

(** A grid with its sizes. *)
Definition grid_ok (g : hgrid) : Prop :=
  match h_coords g with
  | Rect lon lat => axis_ok lon /\ axis_ok lat /\ h_xdim g = zlen lon /\ h_ydim g = zlen lat
  | Curv lon lat => h_xdim g = a_x lon /\ h_ydim g = a_y lon /\ a_x lat = a_x lon /\ a_y lat = a_y lon /\ 1 <= a_x lon /\ 1 <= a_y lon
  end /\
  match h_sdepth g with Some a => a_x a = h_xdim g /\ a_y a = h_ydim g | None => True end.
(** The halo fits: between 1 point and all points of the dimensions it is added to, which have two at least. *)
Definition fits (zonal meridional : bool) (h : Z) (g : hgrid) : Prop :=
  1 <= h /\ (zonal = true -> 2 <= h_xdim g /\ h <= h_xdim g) /\ (meridional = true -> 2 <= h_ydim g /\ h <= h_ydim g).

(** [g'] is [g] with a halo. *)
Definition extends_grid (zonal meridional : bool) (h : Z) (g g' : hgrid) : Prop :=
  match h_coords g, h_coords g' with
  | Rect lon lat, Rect lon' lat' =>
      (if zonal then extends_axis h lon lon' /\ increasing lon' else lon' = lon) /\
      (if meridional then extends_axis h lat lat' /\ increasing lat' else lat' = lat)
  | Curv lon lat, Curv lon' lat' => extends_curv zonal meridional h lon lat lon' lat'
  | _, _ => False
  end /\
  match h_sdepth g, h_sdepth g' with
  | Some a, Some a' => extends_array zonal meridional h a a'
  | None, None => True
  | _, _ => False
  end /\
  h_xdim g' = h_xdim g + 2 * (if zonal then h else 0) /\ h_ydim g' = h_ydim g + 2 * (if meridional then h else 0) /\
  h_zonal_periodic g' = (if zonal then true else h_zonal_periodic g) /\ h_defer g' = h_defer g.

(** A field: data of the sizes of its grid. *)
Definition on_grid (gs : list hgrid) (n : nat) (a : arr) : Prop :=
  exists g, nth_error gs n = Some g /\ a_x a = h_xdim g /\ a_y a = h_ydim g.

(** Data read from a file of a deferred field are those of the original grid, and are extended when they are read. *)
Definition loads_extended (zonal meridional : bool) (h : Z) (g g' : hgrid) : Prop :=
  forall a, a_x a = h_xdim g -> a_y a = h_ydim g ->
    exists a', reshape_halo g' a = Some a' /\ extends_array zonal meridional h a a'.

(** An attribute before and after. *)
Definition extends_attr (zonal meridional : bool) (h : Z) (gs : list hgrid) (x x' : attr) : Prop :=
  match x, x' with
  | AField n a, AField n' a' =>
      n' = n /\ forall g, nth_error gs n = Some g ->
        if h_defer g then a' = a else extends_array zonal meridional h a a'
  | AGroup l, AGroup l' => l' = l
  | _, _ => False
  end.
(** A fieldset of fields, none of them with a halo. *)
Definition fset_ok (zonal meridional : bool) (h : Z) (fs : fset) : Prop :=
  Forall (fun g => grid_ok g /\ fits zonal meridional h g /\ h_zonal_halo g = 0 /\ h_meridional_halo g = 0) (fs_grids fs) /\
  Forall (fun x => match x with AField n a => on_grid (fs_grids fs) n a | AGroup _ => True end) (fs_attrs fs).

(** The field sampled: rectilinear coordinates and data; the other settings are those of [f]. *)
Definition field_on (lon lat : list Q) (zonal_periodic : bool) (a : arr) (f : sfield) : sfield :=
  {| s_lon := lon; s_lat := lat; s_depth := s_depth f; s_spherical := s_spherical f; s_zonal_periodic := zonal_periodic;
     s_indexing := s_indexing f; s_method := s_method f; s_time := s_time f; s_periodic := s_periodic f; s_extrapolate := s_extrapolate f;
     s_data := fun t k j i => a_at a [t; k] j i |}.

(** A field on a rectilinear grid in memory, and the grid and data after add_periodic_halo. *)
Definition grid_lon (g : hgrid) : list Q := match h_coords g with Rect lon _ => lon | Curv _ _ => [] end.
Definition grid_lat (g : hgrid) : list Q := match h_coords g with Rect _ lat => lat | Curv _ _ => [] end.
Definition field_of (g : hgrid) (a : arr) (f : sfield) : sfield := field_on (grid_lon g) (grid_lat g) (h_zonal_periodic g) a f.
Definition halo_added (zonal meridional : bool) (h : Z) (g : hgrid) (a : arr) (g' : hgrid) (a' : arr) : Prop :=
  grid_ok g /\ fits zonal meridional h g /\ (exists lon lat, h_coords g = Rect lon lat) /\ h_zonal_periodic g = false /\
  h_defer g = false /\ a_x a = h_xdim g /\ a_y a = h_ydim g /\
  grid_halo zonal meridional h g = Some g' /\ field_halo zonal meridional h g' a = Some a'.
(** What JIT mode needs on a spherical mesh: the longitudes with the halo do not reach more than 90 degrees past the circle,
    and when they reach past it, the period is the circle. *)
Definition sphere_halo (zonal : bool) (lon lon' : list Q) (f : sfield) : Prop :=
  s_spherical f = false \/
  narrow_cells lon' /\ (last_ lon' - first_ lon' <= 450)%Q /\ zlen lon' <= 10002 /\
  ((last_ lon' - first_ lon' < 360)%Q \/ zonal = true /\ (axis_period lon == 360)%Q).
