(** What the search on a curvilinear grid should return (C40). *)
From Coq Require Import ZArith QArith Reals.
From Verif Require Import CurvModel.
Open Scope R_scope.

(** The point of a cell at relative coordinates (s, t): corners in the order of [quad]. *)
Definition bil (p : quad) (s t : R) : R :=
  let '(p0, p1, p2, p3) := p in (1 - s) * (1 - t) * p0 + s * (1 - t) * p1 + s * t * p2 + (1 - s) * t * p3.
(** Its extent along s at t, and along t at s. *)
Definition along_s (p : quad) (t : R) : R := bil p 1 t - bil p 0 t.
Definition along_t (p : quad) (s : R) : R := bil p s 1 - bil p s 0.
(** The signed area of the cell at (s, t): positive when t is to the left of s. *)
Definition area (a b : quad) (s t : R) : R := along_s a t * along_t b s - along_t a s * along_s b t.

Definition is_cell (g : curv) (j i : Z) : Prop := (0 <= i)%Z /\ (i + 1 < v_xdim g)%Z /\ (0 <= j)%Z /\ (j + 1 < v_ydim g)%Z.
Definition cell (f : Z -> Z -> R) (j i : Z) : quad := (f j i, f j (i + 1)%Z, f (j + 1)%Z (i + 1)%Z, f (j + 1)%Z i).

Definition turns (p q : R) : Prop := exists k : Z, q = p + 360 * IZR k.
(** The longitudes of the corners of a cell; on a spherical mesh up to whole turns, corners next to each other. *)
Definition unrolled (g : curv) (j i : Z) (q : quad) : Prop :=
  if v_spherical g then
    let '(p0, p1, p2, p3) := cell (v_lon g) j i in
    let '(q0, q1, q2, q3) := q in
    turns p0 q0 /\ turns p1 q1 /\ turns p2 q2 /\ turns p3 q3 /\
    Rabs (q1 - q0) <= 180 /\ Rabs (q2 - q0) <= 180 /\ Rabs (q3 - q0) <= 180
  else q = cell (v_lon g) j i.

(** On a spherical mesh: the longitudes of the nodes and of the position are in the same range of 360 degrees. *)
Definition same_turn (g : curv) (x : R) : Prop :=
  v_spherical g = true ->
  exists w, w <= x <= w + 360 /\
    forall j i, (0 <= j < v_ydim g)%Z -> (0 <= i < v_xdim g)%Z -> w <= v_lon g j i <= w + 360.

(** (x, y) is the point at (s, t) of the cell. *)
Definition point_of (g : curv) (j i : Z) (q : quad) (x y s t : R) : Prop :=
  unrolled g j i q /\ bil q s t = x /\ bil (cell (v_lat g) j i) s t = y.
Definition unit_ (r : R) : Prop := 0 <= r <= 1.

(** The rows of the cells run eastward: both edges along s are at least 1e-11 long eastward, and of
    comparable length. *)
Definition eastward (q : quad) : Prop :=
  / 10 ^ 11 <= along_s q 0 /\ / 10 ^ 11 <= along_s q 1 /\
  along_s q 0 <= 10 ^ 9 * along_s q 1 /\ along_s q 1 <= 10 ^ 9 * along_s q 0.
Definition eastward_cells (g : curv) : Prop := forall j i q, is_cell g j i -> unrolled g j i q -> eastward q.

(** The position is a point of the plane of every cell, the cell being extended beyond its sides; on a spherical
    mesh the cell is taken at most 225 degrees from the position. *)
Definition first_corner (q : quad) : R := let '(q0, _, _, _) := q in q0.
Definition reached (g : curv) (x y : R) : Prop :=
  forall j i q, is_cell g j i -> unrolled g j i q -> (v_spherical g = true -> Rabs (first_corner q - x) <= 225) ->
    exists s t, bil q s t = x /\ bil (cell (v_lat g) j i) s t = y /\ area q (cell (v_lat g) j i) s t <> 0.

(** The sides of the cell along t are parallel, or clearly not. *)
Definition sides_ok (a b : quad) : Prop :=
  let cross := along_t a 1 * along_t b 0 - along_t a 0 * along_t b 1 in cross = 0 \/ / 10 ^ 12 <= Rabs cross.

(** The longitude is between those of the grid: in the plain sense, or for a grid that passes from 180 to -180. *)
Definition lon_range (g : curv) (x : R) : Prop :=
  let west := v_lon g 0%Z 0%Z in let east := v_lon g 0%Z (v_xdim g - 1)%Z in
  v_spherical g = false \/ v_zonal_periodic g = true \/
  (exists j i j' i', (0 <= j < v_ydim g)%Z /\ (0 <= i < v_xdim g)%Z /\ (0 <= j' < v_ydim g)%Z /\ (0 <= i' < v_xdim g)%Z /\
     v_lon g j i <= x <= v_lon g j' i') \/
  (east <= west /\ (x <= east \/ west <= x)).

(** A grid whose nodes are an affine image of a rectangular one: nodes (u i, v j), for instance rotated. *)
Record affine := mkAffine { m_x0 : R; m_y0 : R; m_xu : R; m_xv : R; m_yu : R; m_yv : R }.
Definition to_x (A : affine) (u v : R) : R := m_x0 A + m_xu A * u + m_xv A * v.
Definition to_y (A : affine) (u v : R) : R := m_y0 A + m_yu A * u + m_yv A * v.
Definition mono (n : Z) (u : Z -> R) : Prop := forall i, (0 <= i)%Z -> (i + 1 < n)%Z -> u i < u (i + 1)%Z.
Definition lattice (g : curv) (A : affine) (u v : Z -> R) : Prop :=
  (2 <= v_xdim g)%Z /\ (2 <= v_ydim g)%Z /\ (v_xdim g + v_ydim g <= 1000000)%Z /\
  mono (v_xdim g) u /\ mono (v_ydim g) v /\
  (forall j i, (0 <= j < v_ydim g)%Z -> (0 <= i < v_xdim g)%Z ->
     v_lon g j i = to_x A (u i) (v j) /\ v_lat g j i = to_y A (u i) (v j)) /\
  m_xu A * m_yv A - m_xv A * m_yu A <> 0 /\
  (** rows run neither north nor south, or the grid is turned by exactly 90 degrees *)
  ((forall i, (0 <= i)%Z -> (i + 1 < v_xdim g)%Z -> / 10 ^ 12 <= Rabs (m_xu A * (u (i + 1)%Z - u i))) \/
   (m_xu A = 0 /\ m_yv A = 0)).
(** Nodes and position within half a turn: no wrapping is needed. *)
Definition half_turn (g : curv) (x : R) : Prop :=
  v_spherical g = true ->
  exists w, w <= x <= w + 180 /\
    forall j i, (0 <= j < v_ydim g)%Z -> (0 <= i < v_xdim g)%Z -> w <= v_lon g j i <= w + 180.

(** Cell [i] contains [U] at relative coordinate [r], up to 1e-10 of the cell. *)
Definition in_cell_tol (n : Z) (u : Z -> R) (U : R) (i : Z) (r : R) : Prop :=
  (0 <= i)%Z /\ (i + 1 < n)%Z /\ 0 <= r <= 1 /\
  exists s, Rabs (s - r) <= / 10 ^ 10 /\ U = u i + s * (u (i + 1)%Z - u i) /\ (0 <= s <= 1 -> r = s).
Definition between (n : Z) (u : Z -> R) (U : R) : Prop := u 0%Z <= U <= u (n - 1)%Z.
(** In no cell, not even up to 1e-10 of it. *)
Definition beyond (n : Z) (u : Z -> R) (U : R) : Prop :=
  forall i, (0 <= i)%Z -> (i + 1 < n)%Z ->
    U < u i - / 10 ^ 10 * (u (i + 1)%Z - u i) \/ u (i + 1)%Z + / 10 ^ 10 * (u (i + 1)%Z - u i) < U.
(** Corners of a cell less than 135 degrees from each other. *)
Definition narrow_cell (g : curv) (q : quad) : Prop :=
  v_spherical g = true ->
  let '(q0, q1, q2, q3) := q in Rabs (q1 - q0) < 135 /\ Rabs (q2 - q0) < 135 /\ Rabs (q3 - q0) < 135.

(** The position is outside the box of the nodes: north or south of all of them, or, when the first row runs from west to east and the
    grid is not zonally periodic, east or west of all of them. *)
Definition every_node (g : curv) (P : Z -> Z -> Prop) : Prop := forall j i, (0 <= j < v_ydim g)%Z -> (0 <= i < v_xdim g)%Z -> P j i.
Definition outside_box (g : curv) (x y : R) : Prop :=
  every_node g (fun j i => v_lat g j i < y) \/ every_node g (fun j i => y < v_lat g j i) \/
  (v_zonal_periodic g = false /\ v_lon g 0%Z 0%Z < v_lon g 0%Z (v_xdim g - 1)%Z /\
   (every_node g (fun j i => v_lon g j i < x) \/ every_node g (fun j i => x < v_lon g j i))).
