(** C21-C22: the searches of the cell that contains a position, on rectilinear z grids with a flat mesh, or with
    a spherical mesh whose longitudes increase along an arc (see SphereProps for the others). *)
From Coq Require Import List ZArith Bool QArith Lia Lqa ZifyBool.
From Verif Require Import IdxModel IdxSpec IdxProofs.
Import ListNotations.
Open Scope Q_scope.

(** An axis of unequal steps, one of a single point and a decreasing one. *)
Definition ex_grid : rgrid := mkRgrid [0; 1; 5 # 2; 7] [3] [-1; -3; -10] false false false.
Lemma ex_plain : plain ex_grid.
Proof.
  unfold plain, depth_ok. cbn [ex_grid g_lon g_lat g_depth g_spherical g_zonal_periodic g_mom5].
  split; [left; reflexivity|]. repeat (split; [reflexivity|]). repeat (split; [apply axis_ok_b; reflexivity|]).
  split; [vm_compute; discriminate|]. right. apply dec_b_spec. reflexivity.
Qed.
(** A spherical mesh across 180 degrees. *)
Definition ex_sphere : rgrid := mkRgrid [100; 170; 190; 300] [-30; 3] [0; 5] true false false.
Lemma ex_sphere_plain : plain ex_sphere.
Proof.
  unfold plain, depth_ok. cbn [ex_sphere g_lon g_lat g_depth g_spherical g_zonal_periodic g_mom5].
  split; [right; apply arc_b; reflexivity|]. repeat (split; [reflexivity|]). repeat (split; [apply axis_ok_b; reflexivity|]).
  left. apply inc_b_spec. reflexivity.
Qed.

(** * C21, C22: inside the grid *)
Theorem position_in_cell : forall g x y z, plain g -> inside (g_lon g) x -> inside (g_lat g) y -> depth_inside (g_depth g) z ->
  exists xsi eta zeta xi yi zi, py_search g x y z = Found xsi eta zeta xi yi zi /\
    located (g_lon g) x xi xsi /\ located (g_lat g) y yi eta /\ located (g_depth g) z zi zeta /\
    (zlen (g_lon g) = 1 -> xi = -1)%Z /\ (zlen (g_lat g) = 1 -> yi = -1)%Z.
Proof. exact py_search_found. Qed.
Print Assumptions position_in_cell.

Theorem position_in_cell_jit : forall g x y z xi0 yi0 zi0, plain g -> inside (g_lon g) x -> inside (g_lat g) y ->
  depth_inside (g_depth g) z -> valid_starts g xi0 yi0 zi0 ->
  exists xsi eta zeta xi yi zi, c_search g x y z xi0 yi0 zi0 = Found xsi eta zeta xi yi zi /\
    located (g_lon g) x xi xsi /\ located (g_lat g) y yi eta /\ located (g_depth g) z zi zeta /\
    valid_starts g xi yi zi /\ (zlen (g_lon g) = 1 -> xi = 0)%Z /\ (zlen (g_lat g) = 1 -> yi = 0)%Z.
Proof. exact c_search_found. Qed.
Print Assumptions position_in_cell_jit.

Example position_in_cell_case :
  plain ex_grid /\ inside (g_lon ex_grid) (5 # 2) /\ inside (g_lat ex_grid) 100 /\ depth_inside (g_depth ex_grid) (-5) /\
  valid_starts ex_grid 2 0 0 /\ valid_starts ex_grid 0 7 2 /\
  exists xsi zeta, py_search ex_grid (5 # 2) 100 (-5) = Found xsi 0 zeta 1 (-1) 1 /\ xsi == 1 /\ zeta == 2 # 7.
Proof.
  split; [exact ex_plain|]. split; [right; vm_compute; split; discriminate|]. split; [left; reflexivity|].
  split; [right; right; vm_compute; split; discriminate|].
  unfold valid_starts, valid_start. split; [cbn; repeat split; lia|]. split; [cbn; repeat split; lia|].
  eexists. eexists. split; [vm_compute; reflexivity|]. split; vm_compute; reflexivity.
Qed.
(** At a node the cell found depends on where the search starts; C23 shows the value does not. *)
Example position_in_cell_node :
  exists a b, c_search ex_grid (5 # 2) 100 (-5) 2 0 0 = Found a 0 b 2 0 1 /\ a == 0 /\
  exists a' b', c_search ex_grid (5 # 2) 100 (-5) 0 0 0 = Found a' 0 b' 1 0 1 /\ a' == 1.
Proof. do 2 eexists. split; [vm_compute; reflexivity|]. split; [reflexivity|]. do 2 eexists. split; [vm_compute; reflexivity|reflexivity]. Qed.

Example position_in_cell_sphere :
  plain ex_sphere /\ inside (g_lon ex_sphere) 185 /\ inside (g_lat ex_sphere) 0 /\ depth_inside (g_depth ex_sphere) 5 /\ valid_starts ex_sphere 2 0 0 /\
  (exists a b c, c_search ex_sphere 185 0 5 2 0 0 = Found a b c 1 0 0 /\ a == 3 # 4) /\
  exists a b c, py_search ex_sphere 185 0 5 = Found a b c 1 0 0 /\ a == 3 # 4.
Proof.
  split; [exact ex_sphere_plain|]. split; [right; vm_compute; split; discriminate|]. split; [right; vm_compute; split; discriminate|].
  split; [right; left; vm_compute; split; discriminate|]. split; [unfold valid_starts, valid_start; cbn; repeat split; lia|].
  split; do 3 eexists; (split; [vm_compute; reflexivity|reflexivity]).
Qed.

(** * C21: outside the grid *)
Theorem outside_error : forall g x y z, plain g -> ~ (inside (g_lon g) x /\ inside (g_lat g) y) ->
  py_search g x y z = OutOfBounds.
Proof. exact py_search_outside. Qed.
Print Assumptions outside_error.

Theorem outside_error_jit : forall g x y z xi0 yi0 zi0, plain g -> ~ (inside (g_lon g) x /\ inside (g_lat g) y) ->
  c_search g x y z xi0 yi0 zi0 = OutOfBounds.
Proof. exact c_search_outside. Qed.
Print Assumptions outside_error_jit.

Example outside_error_case : plain ex_grid /\ ~ (inside (g_lon ex_grid) (15 # 2) /\ inside (g_lat ex_grid) 3).
Proof.
  split; [exact ex_plain|]. intros [[H|[_ H]] _]; vm_compute in H; [discriminate|contradiction].
Qed.

(** * C22: above the first level and below the last *)
Theorem depth_errors : forall g x y z, plain g -> inside (g_lon g) x -> inside (g_lat g) y ->
  (above_first (g_depth g) z -> py_search g x y z = ThroughSurface) /\
  (below_last (g_depth g) z -> py_search g x y z = OutOfBounds).
Proof. exact py_search_depth. Qed.
Print Assumptions depth_errors.

Theorem depth_errors_jit : forall g x y z xi0 yi0 zi0, plain g -> inside (g_lon g) x -> inside (g_lat g) y ->
  valid_starts g xi0 yi0 zi0 ->
  (above_first (g_depth g) z -> c_search g x y z xi0 yi0 zi0 = ThroughSurface) /\
  (below_last (g_depth g) z -> c_search g x y z xi0 yi0 zi0 = OutOfBounds).
Proof. exact c_search_depth. Qed.
Print Assumptions depth_errors_jit.

Example depth_errors_case : above_first (g_depth ex_grid) 0 /\ below_last (g_depth ex_grid) (-11).
Proof.
  destruct ex_plain as (_ & _ & _ & _ & _ & _ & [I|D]).
  - exfalso. specialize (I 0%Z 1%Z ltac:(lia) eq_refl). vm_compute in I. discriminate.
  - split; (split; [reflexivity|]); right; (split; [exact D|reflexivity]).
Qed.
