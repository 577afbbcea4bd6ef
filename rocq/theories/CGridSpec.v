(** Specification for C37: cells, their faces, and what flows through them. *)
From Coq Require Import List ZArith Reals.
From Verif Require Import UnitModel UnitSpec CGridModel.
Import ListNotations.
Open Scope R_scope.

Definition vec : Type := (R * R)%type.
Definition minus (a b : vec) : vec := (fst a - fst b, snd a - snd b).
Definition cross (a b : vec) : R := fst a * snd b - snd a * fst b.

(** The length in metres (or in the units of a flat mesh) of a displacement in degrees at a latitude. *)
Definition in_metres (m : mesh) (lat : R) (d : vec) : vec :=
  match m with
  | Flat => d
  | Spherical => (metres_of_lon (fst d) lat, metres_of_lat (snd d))
  end.

(** The component of a velocity to the right of a direction. *)
Definition to_right (v direction : vec) : R :=
  cross v direction / sqrt (fst direction * fst direction + snd direction * snd direction).

(** A cell has four corners; going from one to the next it is always on the left. *)
Record cell := Cell { sw : vec; se : vec; ne : vec; nw : vec }.
Definition convex (c : cell) : Prop :=
  0 < cross (minus (se c) (sw c)) (minus (nw c) (sw c)) /\
  0 < cross (minus (ne c) (se c)) (minus (sw c) (se c)) /\
  0 < cross (minus (nw c) (ne c)) (minus (se c) (ne c)) /\
  0 < cross (minus (sw c) (nw c)) (minus (ne c) (nw c)).

(** The point at (xsi, eta): bilinear in the corners. *)
Definition blend (a b w : R) : R := (1 - w) * a + w * b.
Definition place (c : cell) (xsi eta : R) : vec :=
  (blend (blend (fst (sw c)) (fst (se c)) xsi) (blend (fst (nw c)) (fst (ne c)) xsi) eta,
   blend (blend (snd (sw c)) (snd (se c)) xsi) (blend (snd (nw c)) (snd (ne c)) xsi) eta).
Definition unit_square (xsi eta : R) : Prop := 0 <= xsi <= 1 /\ 0 <= eta <= 1.

(** The nodes of a grid, and the cell in column xi and row yi. *)
Definition node (g : hgrid) (row column : Z) : vec :=
  match g with
  | Rectilinear lon lat => (lon column, lat row)
  | Curvilinear lon lat => (lon row column, lat row column)
  end.
Definition cell_of (g : hgrid) (xi yi : Z) : cell :=
  Cell (node g yi xi) (node g yi (xi + 1)) (node g (yi + 1) (xi + 1)) (node g (yi + 1) xi).

(** On a spherical mesh the longitudes of a cell may be given in different turns: [c] is the cell with coherent
    longitudes, fewer than 135 degrees wide; the data are at most one turn off, and by one turn between them. *)
Definition turned (k : Z) (raw c : vec) : Prop := fst raw = fst c + 360 * IZR k /\ snd raw = snd c.
Definition same_cell (m : mesh) (raw c : cell) : Prop :=
  match m with
  | Flat => raw = c
  | Spherical =>
      (exists k0 k1 k2 k3,
        turned k0 (sw raw) (sw c) /\ turned k1 (se raw) (se c) /\
        turned k2 (ne raw) (ne c) /\ turned k3 (nw raw) (nw c) /\
        (Z.abs k0 <= 1 /\ Z.abs k1 <= 1 /\ Z.abs k2 <= 1 /\ Z.abs k3 <= 1)%Z /\
        (Z.abs (k1 - k0) <= 1 /\ Z.abs (k2 - k0) <= 1 /\ Z.abs (k3 - k0) <= 1)%Z) /\
      (Rabs (fst (se c) - fst (sw c)) < 135 /\ Rabs (fst (ne c) - fst (sw c)) < 135 /\
       Rabs (fst (nw c) - fst (sw c)) < 135)
  end.

(** Away from the poles. *)
Definition away (m : mesh) (lat : R) : Prop := match m with Flat => True | Spherical => between_poles lat end.

(** The value given for each face of a cell.  NEMO: node (row, column) is the north-east corner of the tracer cell, U is on
    its east face and V on its north face.  MITGCM: node (row, column) is the south-west corner, U is on the west face, V on
    the south face. *)
Definition east_value (gi : indexing) (U : Z -> Z -> R) (xi yi : Z) : R :=
  match gi with Nemo => U (yi + 1)%Z (xi + 1)%Z | Mitgcm => U yi (xi + 1)%Z end.
Definition west_value (gi : indexing) (U : Z -> Z -> R) (xi yi : Z) : R := east_value gi U (xi - 1) yi.
Definition north_value (gi : indexing) (V : Z -> Z -> R) (xi yi : Z) : R :=
  match gi with Nemo => V (yi + 1)%Z (xi + 1)%Z | Mitgcm => V (yi + 1)%Z xi end.
Definition south_value (gi : indexing) (V : Z -> Z -> R) (xi yi : Z) : R := north_value gi V xi (yi - 1).

(** [uv] (in degrees per second, or flat units) at (xsi, eta) crosses the faces of [c] at the given speeds. *)
Definition crosses_faces (m : mesh) (c : cell) (xsi eta : R) (uv : vec) (e w n s : R) : Prop :=
  let lat := snd (place c xsi eta) in
  let flow from to := to_right (in_metres m lat uv) (in_metres m lat (minus to from)) in
  (xsi = 1 -> flow (se c) (ne c) = e) /\ (xsi = 0 -> flow (sw c) (nw c) = w) /\
  (eta = 1 -> flow (ne c) (nw c) = n) /\ (eta = 0 -> flow (se c) (sw c) = s).

(** A rectangle with sides along the axes. *)
Definition rectangle (x0 x1 y0 y1 : R) : cell := Cell (x0, y0) (x1, y0) (x1, y1) (x0, y1).

(** Less than half a turn between the first corner and the others. *)
Definition narrow (c : cell) : Prop :=
  Rabs (fst (se c) - fst (sw c)) <= 180 /\ Rabs (fst (ne c) - fst (sw c)) <= 180 /\ Rabs (fst (nw c) - fst (sw c)) <= 180.
