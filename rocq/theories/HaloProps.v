(** C31: periodic halos. *)
From Coq Require Import List ZArith Bool QArith Lia.
From Verif Require Import IdxModel IdxSpec IdxProofs TimeModel InterpModel InterpSpec HaloModel HaloSpec HaloProofs HaloProofs2 HaloProofs3.
Import ListNotations.
Open Scope Z_scope.

(** C31, coordinates: the axis with its halo increases, keeps the original coordinates, and repeats them periodically;
    for any increasing axis, equally spaced or not. *)
Theorem halo_axis_extended : forall h l, axis_ok l -> 2 <= zlen l -> 1 <= h <= zlen l ->
  exists l', halo_axis h l = Some l' /\ extends_axis h l l' /\ increasing l'.
Proof. exact halo_axis_spec. Qed.
Print Assumptions halo_axis_extended.

(** C31, grids: rectilinear and curvilinear, with the depths of S grids. *)
Theorem halo_grid : forall zonal meridional h g, grid_ok g -> fits zonal meridional h g ->
  exists g', grid_halo zonal meridional h g = Some g' /\ extends_grid zonal meridional h g g' /\
    h_zonal_halo g' = (if zonal then h else h_zonal_halo g) /\ h_meridional_halo g' = (if meridional then h else h_meridional_halo g).
Proof. exact grid_halo_spec. Qed.
Print Assumptions halo_grid.

(** C31, fieldsets: FieldSet.add_periodic_halo succeeds, extends every grid and the data of every field in memory, and the data
    of deferred fields when they are read. Missing: components of summed and nested fields (see halo_groups_refuted), and
    halos added in two calls (see halo_twice_refuted). *)
Theorem halo_fieldset_partial : forall zonal meridional h fs, fset_ok zonal meridional h fs ->
  exists fs', fset_halo zonal meridional h fs = Some fs' /\
    Forall2 (fun g g' => extends_grid zonal meridional h g g' /\ loads_extended zonal meridional h g g') (fs_grids fs) (fs_grids fs') /\
    Forall2 (extends_attr zonal meridional h (fs_grids fs)) (fs_attrs fs) (fs_attrs fs').
Proof. exact fset_halo_spec. Qed.
Print Assumptions halo_fieldset_partial.

(** C31, values inside the original grid are unchanged. *)
Theorem halo_values_inside : forall zonal meridional h g a g' a' f t x y z, halo_added zonal meridional h g a g' a' ->
  linear_field (field_of g a f) -> 1 < zlen (s_time f) \/ s_periodic f = false -> position_inside (field_of g a f) x y z ->
  same_result (py_sample (field_of g a f) t x y z) (py_sample (field_of g' a' f) t x y z).
Proof. exact halo_py_inner. Qed.
Print Assumptions halo_values_inside.

(** C31, values one period apart are equal. *)
Theorem halo_values_periodic : forall zonal meridional h g a g' a' f t x y z x' y', halo_added zonal meridional h g a g' a' ->
  linear_field (field_of g a f) -> 1 < zlen (s_time f) \/ s_periodic f = false ->
  (zonal = true /\ x' = x + axis_period (grid_lon g) /\ y' = y \/ meridional = true /\ x' = x /\ y' = y + axis_period (grid_lat g))%Q ->
  position_inside (field_of g' a' f) x y z -> position_inside (field_of g' a' f) x' y' z ->
  same_result (py_sample (field_of g' a' f) t x y z) (py_sample (field_of g' a' f) t x' y' z).
Proof. exact halo_py_period. Qed.
Print Assumptions halo_values_periodic.

(** The same in JIT mode, whatever the indices left by earlier samples (except the end of a time-periodic series, see
    modes_sample_same_refuted). *)
Theorem halo_values_inside_jit_partial : forall zonal meridional h g a g' a' f k t x y z xi yi zi ti xi' yi' zi' ti', halo_added zonal meridional h g a g' a' ->
  linear_field (field_of g a f) -> 1 < zlen (s_time f) \/ s_periodic f = false -> (1 < k)%nat -> sphere_halo zonal (grid_lon g) (grid_lon g') f ->
  position_inside (field_of g a f) x y z -> s_periodic f = false \/ ~ (t == last_ (s_time f))%Q ->
  indices_ok (field_of g a f) xi yi zi -> ti < zlen (s_time f) -> indices_ok (field_of g' a' f) xi' yi' zi' -> ti' < zlen (s_time f) ->
  same_result (c_sample k (field_of g a f) t x y z xi yi zi ti) (c_sample k (field_of g' a' f) t x y z xi' yi' zi' ti').
Proof. exact halo_c_inner. Qed.
Print Assumptions halo_values_inside_jit_partial.
Theorem halo_values_periodic_jit_partial : forall zonal meridional h g a g' a' f k t x y z x' y' xi yi zi ti xi' yi' zi' ti', halo_added zonal meridional h g a g' a' ->
  linear_field (field_of g a f) -> 1 < zlen (s_time f) \/ s_periodic f = false -> (1 < k)%nat -> sphere_halo zonal (grid_lon g) (grid_lon g') f ->
  (zonal = true /\ x' = x + axis_period (grid_lon g) /\ y' = y \/ meridional = true /\ x' = x /\ y' = y + axis_period (grid_lat g))%Q ->
  position_inside (field_of g' a' f) x y z -> position_inside (field_of g' a' f) x' y' z ->
  s_periodic f = false \/ ~ (t == last_ (s_time f))%Q ->
  indices_ok (field_of g' a' f) xi yi zi -> ti < zlen (s_time f) -> indices_ok (field_of g' a' f) xi' yi' zi' -> ti' < zlen (s_time f) ->
  same_result (c_sample k (field_of g' a' f) t x y z xi yi zi ti) (c_sample k (field_of g' a' f) t x' y' z xi' yi' zi' ti').
Proof. exact halo_c_period. Qed.
Print Assumptions halo_values_periodic_jit_partial.

(** ** A case: four longitudes, three latitudes, halo of 2 *)
Definition case_grid (defer : bool) : hgrid := {| h_coords := Rect [0; 1; 2; 4]%Q [0; 1; 2]%Q; h_xdim := 4; h_ydim := 3; h_sdepth := None;
  h_zonal_periodic := false; h_zonal_halo := 0; h_meridional_halo := 0; h_defer := defer |}.
Definition case_data : arr := mkArr 3 4 (fun t j i => inject_Z (10 * j * j + i)).
Definition case_settings : sfield := mkField [] [] [0%Q] false false Nemo Linear [0%Q] false true (fun _ _ _ _ => 0%Q).
Lemma case_grid_ok : forall d, grid_ok (case_grid d) /\ fits true true 2 (case_grid d).
Proof.
  intros d. split; [|unfold fits; cbn; lia]. split; [|exact I]. split; [apply axis_ok_b; reflexivity|]. split; [apply axis_ok_b; reflexivity|]. split; reflexivity.
Qed.
Example axis_case : halo_axis 2 [0; 1; 2; 4]%Q = Some [2 - 5; 4 - 5; 0; 1; 2; 4; 0 + 5; 1 + 5]%Q /\ axis_ok [0; 1; 2; 4]%Q.
Proof. split; [reflexivity|apply axis_ok_b; reflexivity]. Qed.
Example fieldset_case : fset_ok true true 2 {| fs_grids := [case_grid false; case_grid true]; fs_attrs := [AField 0 case_data; AField 1 case_data] |}.
Proof.
  split.
  - constructor; [|constructor; [|constructor]]; (split; [apply case_grid_ok|]; split; [apply case_grid_ok|]; split; reflexivity).
  - constructor; [|constructor; [|constructor]]; (eexists; split; [reflexivity|]; split; reflexivity).
Qed.
Example sample_case : exists g' a', halo_added true true 2 (case_grid false) case_data g' a' /\
  linear_field (field_of (case_grid false) case_data case_settings) /\
  position_inside (field_of (case_grid false) case_data case_settings) 3 (1 # 2) 0 /\
  position_inside (field_of g' a' case_settings) (-1 # 2) (1 # 2) 0 /\ position_inside (field_of g' a' case_settings) (9 # 2) (1 # 2) 0 /\
  exists q q', py_sample (field_of g' a' case_settings) 0 (-1 # 2) (1 # 2) 0 = IVal q /\ py_sample (field_of g' a' case_settings) 0 (9 # 2) (1 # 2) 0 = IVal q' /\
    (q == 13 # 2 /\ q' == 13 # 2)%Q.
Proof.
  eexists. eexists. split; [|split; [|split; [|split; [|split]]]].
  - split; [apply case_grid_ok|]. split; [apply case_grid_ok|]. split; [eexists; eexists; reflexivity|]. split; [reflexivity|]. split; [reflexivity|].
    split; [reflexivity|]. split; [reflexivity|]. split; reflexivity.
  - split; [left; reflexivity|]. split; [reflexivity|]. split; [reflexivity|]. split; [left; reflexivity|]. split; [apply axis_ok_b; reflexivity|].
    split; [apply axis_ok_b; reflexivity|]. split; [split; [discriminate|left; apply inc_b_spec; reflexivity]|apply axis_ok_b; reflexivity].
  - split; [right; split; vm_compute; discriminate|]. split; [right; split; vm_compute; discriminate|left; reflexivity].
  - split; [right; split; vm_compute; discriminate|]. split; [right; split; vm_compute; discriminate|left; reflexivity].
  - split; [right; split; vm_compute; discriminate|]. split; [right; split; vm_compute; discriminate|left; reflexivity].
  - eexists. eexists. split; [vm_compute; reflexivity|]. split; [vm_compute; reflexivity|]. split; vm_compute; reflexivity.
Qed.
(** The whole circle on a spherical mesh; the search may return the cell a turn away. *)
Definition circle_grid : hgrid := {| h_coords := Rect [0; 60; 120; 180; 240; 300]%Q [0; 1; 2]%Q; h_xdim := 6; h_ydim := 3; h_sdepth := None;
  h_zonal_periodic := false; h_zonal_halo := 0; h_meridional_halo := 0; h_defer := false |}.
Definition circle_data : arr := mkArr 3 6 (fun t j i => inject_Z (10 * j * j + i)).
Definition circle_settings : sfield := mkField [] [] [0%Q] true false Nemo Linear [0%Q] false true (fun _ _ _ _ => 0%Q).
Example circle_case : exists g' a', halo_added true false 1 circle_grid circle_data g' a' /\
  linear_field (field_of circle_grid circle_data circle_settings) /\ sphere_halo true (grid_lon circle_grid) (grid_lon g') circle_settings /\
  position_inside (field_of g' a' circle_settings) (-30) (1 # 2) 0 /\ indices_ok (field_of g' a' circle_settings) 6 0 0 /\
  exists q q', c_sample 2 (field_of g' a' circle_settings) 0 (-30) (1 # 2) 0 6 0 0 0 = IVal q /\
    c_sample 2 (field_of g' a' circle_settings) 0 330 (1 # 2) 0 0 0 0 0 = IVal q' /\ (q == 15 # 2 /\ q' == 15 # 2)%Q /\
    c_indices (field_of g' a' circle_settings) (-30) (1 # 2) 0 6 0 0 = (6, 0, 0) /\ c_indices (field_of g' a' circle_settings) 330 (1 # 2) 0 0 0 0 = (0, 0, 0).
Proof.
  eexists. eexists. split; [|split; [|split; [|split; [|split]]]].
  - split; [split; [|exact I]; split; [apply axis_ok_b; reflexivity|]; split; [apply axis_ok_b; reflexivity|]; split; reflexivity|].
    split; [unfold fits; cbn; lia|]. split; [eexists; eexists; reflexivity|]. split; [reflexivity|]. split; [reflexivity|].
    split; [reflexivity|]. split; [reflexivity|]. split; reflexivity.
  - split; [right; apply arc_b; reflexivity|]. split; [reflexivity|]. split; [reflexivity|]. split; [left; reflexivity|]. split; [apply axis_ok_b; reflexivity|].
    split; [apply axis_ok_b; reflexivity|]. split; [split; [discriminate|left; apply inc_b_spec; reflexivity]|apply axis_ok_b; reflexivity].
  - right. split; [apply narrow_b_spec; reflexivity|]. split; [vm_compute; discriminate|]. split; [vm_compute; discriminate|]. right. split; reflexivity.
  - split; [right; split; vm_compute; discriminate|]. split; [right; split; vm_compute; discriminate|left; reflexivity].
  - split; [right; vm_compute; split; [discriminate|reflexivity]|]. split; [right; vm_compute; split; [discriminate|reflexivity]|left; reflexivity].
  - eexists. eexists. split; [vm_compute; reflexivity|]. split; [vm_compute; reflexivity|]. split; [split; vm_compute; reflexivity|]. split; vm_compute; reflexivity.
Qed.
(** Curvilinear coordinates with a shear. *)
Example curvilinear_case : let lon := mkArr 3 4 (fun _ j i => inject_Z (10 * i + j)) in let lat := mkArr 3 4 (fun _ j i => inject_Z (5 * j + i)) in
  let g := {| h_coords := Curv lon lat; h_xdim := 4; h_ydim := 3; h_sdepth := Some case_data; h_zonal_periodic := false; h_zonal_halo := 0; h_meridional_halo := 0; h_defer := false |} in
  grid_ok g /\ fits true true 3 g.
Proof. cbv zeta. split; [split; cbn; lia|unfold fits; cbn; lia]. Qed.

(** ** What is false *)
(** The components of a summed or nested field are not extended, although their grid is. *)
Theorem halo_groups_refuted : exists fs fs' g' a, fset_ok true false 1 fs /\ fs_attrs fs = [AGroup [(0%nat, a)]] /\ on_grid (fs_grids fs) 0 a /\
  fset_halo true false 1 fs = Some fs' /\ fs_grids fs' = [g'] /\ fs_attrs fs' = [AGroup [(0%nat, a)]] /\ a_x a <> h_xdim g'.
Proof.
  exists {| fs_grids := [case_grid false]; fs_attrs := [AGroup [(0%nat, case_data)]] |}. eexists. eexists. exists case_data.
  split; [split; [constructor; [|constructor]; split; [apply case_grid_ok|]; split; [unfold fits; cbn; lia|split; reflexivity]|constructor; [exact I|constructor]]|].
  split; [reflexivity|]. split; [eexists; split; [reflexivity|]; split; reflexivity|]. split; [reflexivity|]. split; [reflexivity|]. split; [reflexivity|]. discriminate.
Qed.
Print Assumptions halo_groups_refuted.

(** After a zonal halo of 1 and a meridional halo of 2, added in two calls, the data of a deferred field are refused. *)
Theorem halo_twice_refuted : exists g1 g2, grid_halo true false 1 (case_grid true) = Some g1 /\ grid_halo false true 2 g1 = Some g2 /\
  reshape_halo g2 case_data = None.
Proof. eexists. eexists. split; [reflexivity|]. split; [reflexivity|]. vm_compute. reflexivity. Qed.
Print Assumptions halo_twice_refuted.

(** A second zonal halo on a deferred field: the same. *)
Theorem halo_again_refuted : exists g1 g2, grid_halo true false 1 (case_grid true) = Some g1 /\ grid_halo true false 1 g1 = Some g2 /\
  reshape_halo g2 case_data = None.
Proof. eexists. eexists. split; [reflexivity|]. split; [reflexivity|]. vm_compute. reflexivity. Qed.
Print Assumptions halo_again_refuted.
