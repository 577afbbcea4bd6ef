(** C39: longitudes on spherical meshes that pass from 180 to -180, or go round the whole circle. *)
From Coq Require Import List ZArith Bool QArith Lia Lqa ZifyBool.
From Verif Require Import IdxModel IdxSpec IdxProofs TimeModel InterpModel InterpSpec InterpProofs SphereSpec SphereProofs2.
Import ListNotations.
Open Scope Q_scope.

(** * A position on the grid is found in the cell that contains it, whole turns away, from any cell *)
(** Missing for Scipy mode: positions in the gap (refuted below). *)
Theorem sphere_found_partial : forall g m x x' y z, sphere_grid g m -> in_bounds (g_lon g) x -> on_axis m x x' ->
  inside (g_lat g) y -> depth_inside (g_depth g) z -> found_in g m x' y z (py_search g x y z).
Proof. exact sphere_py_found. Qed.
Print Assumptions sphere_found_partial.

Theorem sphere_found_jit : forall g m x x' y z xi yi zi, sphere_grid g m -> in_bounds (g_lon g) x -> on_axis m x x' ->
  inside (g_lat g) y -> depth_inside (g_depth g) z -> valid_starts g xi yi zi -> found_in g m x' y z (c_search g x y z xi yi zi).
Proof. exact sphere_c_found. Qed.
Print Assumptions sphere_found_jit.

(** * A position off the grid *)
Theorem sphere_outside : forall g m x y z xi yi zi, sphere_grid g m -> ~ (in_bounds (g_lon g) x /\ inside (g_lat g) y) ->
  py_search g x y z = OutOfBounds /\ c_search g x y z xi yi zi = OutOfBounds.
Proof. exact sphere_out. Qed.
Print Assumptions sphere_outside.

Theorem sphere_gap_jit : forall g m x y z xi yi zi, sphere_grid g m -> valid_starts g xi yi zi -> (forall x', ~ on_axis m x x') ->
  c_search g x y z xi yi zi = OutOfBounds.
Proof. exact sphere_c_gap. Qed.
Print Assumptions sphere_gap_jit.

(** * Sampled values: those of the field on longitudes without the jump, in both modes *)
Theorem sphere_sampled : forall f m t x x' y z, sphere_grid (s_grid f) m -> s_method f = Linear -> s_indexing f = Nemo \/ s_indexing f = Mitgcm ->
  axis_ok (s_time f) -> in_bounds (s_lon f) x -> on_axis m x x' -> inside (s_lat f) y -> depth_inside (s_depth f) z ->
  samples_as (on_lon m f) t x' y z (py_sample f t x y z).
Proof. intros f m t x x' y z SG M IX AT. exact (sphere_py_sample f m SG M IX AT t x x' y z). Qed.
Print Assumptions sphere_sampled.

(** (In JIT mode not at the very end of a time-periodic series, see modes_sample_same_refuted.) *)
Theorem sphere_sampled_jit_partial : forall f m k t x x' y z xi yi zi ti, sphere_grid (s_grid f) m -> s_method f = Linear -> s_indexing f = Nemo \/ s_indexing f = Mitgcm ->
  axis_ok (s_time f) -> in_bounds (s_lon f) x -> on_axis m x x' -> inside (s_lat f) y -> depth_inside (s_depth f) z ->
  indices_ok f xi yi zi -> (ti < zlen (s_time f))%Z -> (1 < k)%nat -> s_periodic f = false \/ ~ t == last_ (s_time f) ->
  samples_as (on_lon m f) t x' y z (c_sample k f t x y z xi yi zi ti).
Proof. intros f m k t x x' y z xi yi zi ti SG M IX AT. exact (sphere_c_sample f m SG M IX AT k t x x' y z xi yi zi ti). Qed.
Print Assumptions sphere_sampled_jit_partial.

(** * Zonally periodic grids: longitudes one turn away from the grid are found too *)
(** Missing in Scipy mode: east of the last longitude (refuted below). *)
Theorem halo_found_partial : forall g x y z, halo_lons g ->
  first_ (g_lon g) <= x <= last_ (g_lon g) \/ first_ (g_lon g) - 360 <= x <= last_ (g_lon g) - 360 /\ x < first_ (g_lon g) ->
  inside (g_lat g) y -> depth_inside (g_depth g) z ->
  exists x', turned x x' /\ found_in g (g_lon g) x' y z (py_search g x y z).
Proof. exact halo_py_found. Qed.
Print Assumptions halo_found_partial.

Theorem halo_found_jit : forall g x J y z xi yi zi, halo_lons g -> (-1 <= J <= 1)%Z ->
  first_ (g_lon g) + 360 * inject_Z J <= x <= last_ (g_lon g) + 360 * inject_Z J ->
  inside (g_lat g) y -> depth_inside (g_depth g) z -> valid_starts g xi yi zi ->
  exists x', turned x x' /\ found_in g (g_lon g) x' y z (c_search g x y z xi yi zi).
Proof. exact halo_c_found. Qed.
Print Assumptions halo_found_jit.

Theorem halo_gap_jit : forall g x y z xi yi zi, halo_lons g -> valid_starts g xi yi zi ->
  (forall x', turned x x' -> ~ (first_ (g_lon g) <= x' <= last_ (g_lon g))) -> c_search g x y z xi yi zi = OutOfBounds.
Proof. exact halo_c_safe. Qed.
Print Assumptions halo_gap_jit.

(** ** Cases *)
(** From 160 east to 170 west. *)
Definition dateline_grid : rgrid := mkRgrid [160; 175; -175; -170] [0; 10] [0] true false false.
Definition dateline_lon : list Q := [160; 175; 185; 190].
Lemma dateline_ok : sphere_grid dateline_grid dateline_lon.
Proof.
  split; [reflexivity|]. split; [reflexivity|]. split; [reflexivity|]. split; [|split; [apply axis_ok_b; reflexivity|split; [discriminate|left; apply inc_b_spec; reflexivity]]].
  split; [reflexivity|]. split; [apply inc_b_spec; reflexivity|]. split; [apply arc_b; reflexivity|]. right. exists 2%Z.
  split; [reflexivity|]. split; [split; [discriminate|reflexivity]|]. intros i I. change (zlen (g_lon dateline_grid)) with 4%Z in I.
  assert (C : (i = 0 \/ i = 1 \/ i = 2 \/ i = 3)%Z) by lia. destruct C as [-> | [-> | [-> | ->]]]; reflexivity.
Qed.
Example dateline_case : sphere_grid dateline_grid dateline_lon /\ in_bounds (g_lon dateline_grid) (-172) /\ on_axis dateline_lon (-172) 188 /\
  valid_starts dateline_grid 0 0 0 /\ valid_starts dateline_grid 1 0 0 /\
  (exists r eta, py_search dateline_grid (-172) 5 0 = Found r eta 0 2 0 (-1) /\ r == 3 # 5) /\
  (exists r eta, c_search dateline_grid (-172) 5 0 0 0 0 = Found r eta 0 2 0 0 /\ r == 3 # 5) /\
  (exists r eta, c_search dateline_grid (-172) 5 0 1 0 0 = Found r eta 0 2 0 0 /\ r == 3 # 5).
Proof.
  split; [exact dateline_ok|].
  split; [split; [exists 2%Z|exists 0%Z]; (split; [split; [discriminate|reflexivity]|discriminate])|].
  split; [split; [exists (-1)%Z; reflexivity|split; discriminate]|].
  split; [unfold valid_starts, valid_start; cbn; repeat split; lia|]. split; [unfold valid_starts, valid_start; cbn; repeat split; lia|].
  split; [|split]; do 2 eexists; (split; [vm_compute; reflexivity|reflexivity]).
Qed.
(** In the middle of the grid, but outside its smallest and largest longitudes. *)
Example dateline_out : ~ in_bounds (g_lon dateline_grid) 180 /\ on_axis dateline_lon 180 180.
Proof.
  split.
  - intros (_ & (i & I & V)). change (zlen (g_lon dateline_grid)) with 4%Z in I. assert (C : (i = 0 \/ i = 1 \/ i = 2 \/ i = 3)%Z) by lia.
    destruct C as [-> | [-> | [-> | ->]]]; vm_compute in V; exact (V eq_refl).
  - split; [exists 0%Z; reflexivity|split; discriminate].
Qed.
(** A longitude on the other side of the world. *)
Lemma dateline_gap : forall x', ~ on_axis dateline_lon 0 x'.
Proof.
  intros x' ((J & E) & A & B). change (first_ dateline_lon) with 160 in A. change (last_ dateline_lon) with 190 in B. rewrite E in A, B.
  assert (U : inject_Z J < 0) by lra. assert (V : -(1) < inject_Z J) by lra.
  change 0 with (inject_Z 0) in U. rewrite <- Zlt_Qlt in U. change (-(1)) with (inject_Z (-1)) in V. rewrite <- Zlt_Qlt in V. lia.
Qed.
(** Longitudes round the whole circle and 60 degrees more. *)
Definition round_grid : rgrid := mkRgrid [-60; 0; 60; 120; 180; 240; 300; 360] [0; 10] [0] true true false.
Example round_case : halo_lons round_grid /\ valid_starts round_grid 0 0 0 /\
  (exists r eta, c_search round_grid 700 5 0 0 0 0 = Found r eta 0 6 0 0 /\ r == 2 # 3) /\
  (exists r eta, c_search round_grid 700 5 0 5 0 0 = Found r eta 0 6 0 0 /\ r == 2 # 3) /\
  (exists r eta, py_search round_grid (-80) 5 0 = Found r eta 0 5 0 (-1) /\ r == 2 # 3).
Proof.
  split.
  { split; [reflexivity|]. split; [reflexivity|]. split; [reflexivity|]. split; [apply axis_ok_b; reflexivity|]. split; [split; [reflexivity|discriminate]|].
    split; [apply narrow_b_spec; reflexivity|]. split; [discriminate|]. split; [apply axis_ok_b; reflexivity|]. split; [discriminate|left; apply inc_b_spec; reflexivity]. }
  split; [unfold valid_starts, valid_start; cbn; repeat split; lia|].
  split; [|split]; do 2 eexists; (split; [vm_compute; reflexivity|reflexivity]).
Qed.

(** ** What is false *)
(** In Scipy mode a longitude in the gap of a grid across 180 degrees raises IndexError, not the out-of-bounds error. *)
Theorem sphere_gap_refuted : exists g m x y z, sphere_grid g m /\ in_bounds (g_lon g) x /\ (forall x', ~ on_axis m x x') /\ inside (g_lat g) y /\
  py_search g x y z = BadIndex.
Proof.
  exists dateline_grid, dateline_lon, 0, 5, 0. split; [exact dateline_ok|].
  split; [split; [exists 2%Z|exists 0%Z]; (split; [split; [discriminate|reflexivity]|discriminate])|].
  split; [exact dateline_gap|]. split; [right; split; discriminate|reflexivity].
Qed.
Print Assumptions sphere_gap_refuted.

(** On a zonally periodic grid, east of the last longitude, Scipy mode raises IndexError where JIT mode finds the cell. *)
Theorem halo_east_refuted : exists g x y z xsi eta zeta xi yi zi, halo_lons g /\ valid_starts g 0 0 0 /\
  py_search g x y z = BadIndex /\ c_search g x y z 0 0 0 = Found xsi eta zeta xi yi zi.
Proof.
  exists round_grid, 700, 5, 0. do 6 eexists. split; [apply round_case|]. split; [apply round_case|]. split; [reflexivity|vm_compute; reflexivity].
Qed.
Print Assumptions halo_east_refuted.

(** When both -180 and 180 are longitudes of the grid, the value JIT mode samples there depends on the previous cell. *)
Definition closed_field : sfield :=
  mkField [-180; -60; 60; 180] [0; 10] [0] true false Nemo Linear [0] false true (fun t k j i => inject_Z i).
Theorem closed_circle_refuted : exists f x y z xi xi' q q', axis_ok (s_lon f) /\ position_inside f x y z /\ indices_ok f xi 0 0 /\ indices_ok f xi' 0 0 /\
  c_sample 2 f 0 x y z xi 0 0 0 = IVal q /\ c_sample 2 f 0 x y z xi' 0 0 0 = IVal q' /\ ~ q == q'.
Proof.
  exists closed_field, (-180), 5, 0, 0%Z, 2%Z. do 2 eexists. split; [apply axis_ok_b; reflexivity|].
  split; [split; [right; split; discriminate|]; split; [right; split; discriminate|left; reflexivity]|].
  split; [unfold indices_ok, valid_start; cbn; repeat split; lia|]. split; [unfold indices_ok, valid_start; cbn; repeat split; lia|].
  split; [vm_compute; reflexivity|]. split; [vm_compute; reflexivity|]. vm_compute. discriminate.
Qed.
Print Assumptions closed_circle_refuted.

(** A cell wider than 180 degrees is never entered in JIT mode. *)
Theorem wide_cell_refuted : exists g x y z xsi eta zeta xi yi zi, g_spherical g = true /\ axis_ok (g_lon g) /\ inside (g_lon g) x /\
  py_search g x y z = Found xsi eta zeta xi yi zi /\ c_search g x y z 0 0 0 = OutOfBounds.
Proof.
  exists (mkRgrid [0; 200] [0; 10] [0] true false false), 100, 5, 0. do 6 eexists. split; [reflexivity|]. split; [apply axis_ok_b; reflexivity|].
  split; [right; split; discriminate|]. split; [vm_compute; reflexivity|vm_compute; reflexivity].
Qed.
Print Assumptions wide_cell_refuted.
