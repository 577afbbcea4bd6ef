(** What sampling on terrain-following levels should return (C41). *)
From Coq Require Import List ZArith QArith.
From Verif Require Import IdxModel IdxSpec TimeModel InterpModel InterpSpec SlevModel.
Open Scope Q_scope.

(** Depth of level [k] above the node (j, i), at frame [n]. *)
Definition level_depth (f : lfield) (n k j i : Z) : Q := l_mem f (flat f n k j i).

(** Bilinear interpolation of [d j i] in the cell. *)
Definition bilin (f : lfield) (d : Z -> Z -> Q) (xi : Z) (xsi : Q) (yi : Z) (eta : Q) : Q :=
  lin1 (l_lat f) (fun j => lin1 (l_lon f) (fun i => d j i) xi xsi) yi eta.

(** A place: a horizontal position and a time of the time axis, as the cell that contains them. *)
Record place := mkPlace { p_xi : Z; p_xsi : Q; p_yi : Z; p_eta : Q; p_ti : Z; p_r : Q }.
Definition place_of (f : lfield) (t x y : Q) (p : place) : Prop :=
  located (l_lon f) x (p_xi p) (p_xsi p) /\ located (l_lat f) y (p_yi p) (p_eta p) /\
  located (l_time f) t (p_ti p) (p_r p).

(** Linear interpolation of [d n j i] at the place: in the horizontal, then in time. *)
Definition at_place (f : lfield) (p : place) (d : Z -> Z -> Z -> Q) : Q :=
  lin1 (l_time f) (fun n => bilin f (d n) (p_xi p) (p_xsi p) (p_yi p) (p_eta p)) (p_ti p) (p_r p).
(** Depth of level [k] at the place, and the data of level [k] there. *)
Definition depth_at (f : lfield) (p : place) (k : Z) : Q := at_place f p (fun n j i => level_depth f n k j i).
Definition data_at (f : lfield) (p : place) (k : Z) : Q := at_place f p (fun n j i => l_data f n k j i).

(** The field at depth [z]: linear between the two levels around [z], where the levels are at that place and time. *)
Definition level_value (f : lfield) (t x y z q : Q) : Prop :=
  exists p zi zeta, place_of f t x y p /\ (0 <= zi)%Z /\ (zi + 1 < l_zdim f)%Z /\ 0 <= zeta /\ zeta <= 1 /\
    z == depth_at f p zi + zeta * (depth_at f p (zi + 1) - depth_at f p zi) /\
    q == (1 - zeta) * data_at f p zi + zeta * data_at f p (zi + 1).

(** [z] is between the first and the last level, beyond the first, beyond the last. *)
Definition level_inside (f : lfield) (t x y z : Q) : Prop :=
  exists p, place_of f t x y p /\
    (depth_at f p 0 <= z <= depth_at f p (l_zdim f - 1) \/ depth_at f p (l_zdim f - 1) <= z <= depth_at f p 0).
Definition level_above (f : lfield) (t x y z : Q) : Prop :=
  exists p, place_of f t x y p /\
    ((depth_at f p 0 < depth_at f p (l_zdim f - 1) /\ z < depth_at f p 0) \/
     (depth_at f p (l_zdim f - 1) < depth_at f p 0 /\ depth_at f p 0 < z)).
Definition level_below (f : lfield) (t x y z : Q) : Prop :=
  exists p, place_of f t x y p /\
    ((depth_at f p 0 < depth_at f p (l_zdim f - 1) /\ depth_at f p (l_zdim f - 1) < z) \/
     (depth_at f p (l_zdim f - 1) < depth_at f p 0 /\ z < depth_at f p (l_zdim f - 1))).

(** Nodes of the grid: a frame, a row and a column. *)
Definition is_node (f : lfield) (n j i : Z) : Prop :=
  (0 <= n < l_tdim f)%Z /\ (0 <= j < l_ydim f)%Z /\ (0 <= i < l_xdim f)%Z.

(** Along every column of the depth array the levels increase, or along every one they decrease. *)
Definition levels_ok (f : lfield) : Prop :=
  (1 < l_zdim f)%Z /\
  ((forall n j i k k', is_node f n j i -> (0 <= k < k')%Z -> (k' < l_zdim f)%Z -> level_depth f n k j i < level_depth f n k' j i) \/
   (forall n j i k k', is_node f n j i -> (0 <= k < k')%Z -> (k' < l_zdim f)%Z -> level_depth f n k' j i < level_depth f n k j i)).

(** Fields of the theorems. *)
Definition slev_field (f : lfield) : Prop :=
  (l_spherical f = false \/ arc (l_lon f)) /\ l_zonal_periodic f = false /\ l_method f = Linear /\
  (l_indexing f = Nemo \/ l_indexing f = Mitgcm) /\
  axis_ok (l_lon f) /\ axis_ok (l_lat f) /\ axis_ok (l_time f) /\ levels_ok f.

(** The time of the time axis at which the field is sampled: wrapped into the period, or the end frame when
    extrapolation is allowed. *)
Definition sampled_at (f : lfield) (t t' : Q) : Prop :=
  let tm := l_time f in
  if l_periodic f then (1 < zlen tm)%Z /\ wraps_to tm t t'
  else (first_ tm <= t <= last_ tm /\ t' == t) \/
       (l_extrapolate f = true /\ t < first_ tm /\ t' == first_ tm) \/
       (l_extrapolate f = true /\ last_ tm < t /\ t' == last_ tm).

(** The indices a particle may carry. *)
Definition l_indices_ok (f : lfield) (xi yi zi : Z) : Prop :=
  valid_start (l_lon f) xi /\ valid_start (l_lat f) yi /\ (0 <= zi < l_zdim f)%Z.

(** What sampling should give at a position inside the grid horizontally. *)
Definition level_sampled (f : lfield) (t x y z : Q) (r : ires) : Prop :=
  forall t', sampled_at f t t' ->
    (level_inside f t' x y z -> exists q, r = IVal q /\ level_value f t' x y z q) /\
    (level_above f t' x y z -> r = ISearch ThroughSurface) /\
    (level_below f t' x y z -> r = ISearch OutOfBounds).

(** The same data on levels that are at the same depths everywhere and always: a z grid. *)
Definition flat_levels (f : lfield) (d : list Q) : Prop :=
  zlen d = l_zdim f /\
  forall n j i k, is_node f n j i -> (0 <= k < l_zdim f)%Z -> level_depth f n k j i == at_ d k.
Definition z_field (f : lfield) (d : list Q) : sfield :=
  mkField (l_lon f) (l_lat f) d (l_spherical f) (l_zonal_periodic f) (l_indexing f) (l_method f) (l_time f)
    (l_periodic f) (l_extrapolate f) (l_data f).
