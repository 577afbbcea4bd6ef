(** C27: with linear_invdist_land_tracer, land has no weight. One cell of a 2D field (one level) or of a 3D field
    with nemo or mitgcm indexing, for all corner values and all relative coordinates. *)
From Coq Require Import List ZArith Bool QArith Qabs Lia Lqa ZifyBool.
From Verif Require Import IdxModel TimeModel InterpModel InterpSpec LandSpec LandProofs.
Import ListNotations.
Open Scope Q_scope.

(** A 2 x 2 field with given rows. *)
Definition sq_field (a b c d : Q) : frame :=
  mkFrame 1 2 2 (fun _ j i => match j, i with 0%Z, 0%Z => a | 0%Z, _ => b | _, 0%Z => c | _, _ => d end).
Definition cube_field (v : Z -> Z -> Z -> Q) : frame := mkFrame 2 2 2 v.
Lemma sq_ok : forall a b c d, cell2_ok (sq_field a b c d) 0 0.
Proof. intros. repeat split; cbn; lia. Qed.
Lemma cube_ok : forall v, cell3_ok (cube_field v) 0 0 0.
Proof. intros. repeat split; cbn; lia. Qed.
Lemma coords_ok : unit_coord (1 # 4) /\ unit_coord (2 # 3) /\ away2 py_tol (1 # 4) (2 # 3) /\ away3 py_tol (1 # 4) (2 # 3) (1 # 8) /\ unit_coord (1 # 8).
Proof.
  split; [split; vm_compute; discriminate|]. split; [split; vm_compute; discriminate|].
  split; [intros [] []; vm_compute; reflexivity|]. split; [intros [] [] []; vm_compute; reflexivity|]. split; vm_compute; discriminate.
Qed.

(** * Averages of sea values *)
Theorem land_average_jit : forall ix f xsi eta zeta xi yi zi, cell2_ok f yi xi -> unit_coord xsi -> unit_coord eta -> away2 0 xsi eta ->
  some_sea zero_value (corners2 f yi xi) ->
  exists q, c_interp ix LandTracer f xsi eta zeta xi yi zi = IVal q /\
    sea_average zero_value (some_land zero_value (corners2 f yi xi) \/ inner_coord xsi /\ inner_coord eta) (corners2 f yi xi) q.
Proof. exact jit_average2. Qed.
Print Assumptions land_average_jit.

Theorem land_average_jit_3D : forall ix f xsi eta zeta xi yi zi, ix = Nemo \/ ix = Mitgcm -> cell3_ok f zi yi xi ->
  unit_coord xsi -> unit_coord eta -> unit_coord zeta -> away3 0 xsi eta zeta ->
  some_sea zero_value (corners3 f zi yi xi) ->
  exists q, c_interp ix LandTracer f xsi eta zeta xi yi zi = IVal q /\
    sea_average zero_value (some_land zero_value (corners3 f zi yi xi) \/ inner_coord xsi /\ inner_coord eta /\ inner_coord zeta)
      (corners3 f zi yi xi) q.
Proof. exact jit_average3. Qed.
Print Assumptions land_average_jit_3D.

(** In Scipy mode the 2D routine tests the mask transposed: it needs masks symmetric in x and y. *)
Theorem land_average_partial : forall f xsi eta xi yi, cell2_ok f yi xi -> unit_coord xsi -> unit_coord eta -> away2 py_tol xsi eta ->
  some_sea near_zero (corners2 f yi xi) ->
  (near_zero (f_at f 0 yi (xi + 1)) <-> near_zero (f_at f 0 (yi + 1) xi)) \/ (forall v, In v (corners2 f yi xi) -> ~ near_zero v) ->
  exists q, py_interp2D LandTracer f xsi eta xi yi = IVal q /\
    sea_average near_zero (some_land near_zero (corners2 f yi xi) \/ inner_coord xsi /\ inner_coord eta) (corners2 f yi xi) q.
Proof. exact scipy_average2. Qed.
Print Assumptions land_average_partial.

Theorem land_average_3D : forall ix f xsi eta zeta xi yi zi, cell3_ok f zi yi xi -> unit_coord xsi -> unit_coord eta -> unit_coord zeta ->
  away3 py_tol xsi eta zeta -> some_sea near_zero (corners3 f zi yi xi) ->
  exists q, py_interp3D ix LandTracer f xsi eta zeta xi yi zi = IVal q /\
    sea_average near_zero (some_land near_zero (corners3 f zi yi xi) \/ inner_coord xsi /\ inner_coord eta /\ inner_coord zeta)
      (corners3 f zi yi xi) q.
Proof. exact scipy_average3. Qed.
Print Assumptions land_average_3D.

(** What being such an average means. *)
Theorem average_bounds : forall land P vals q lo hi, sea_average land P vals q ->
  (forall v, In v vals -> ~ land v -> lo <= v <= hi) -> (forall v, land v \/ ~ land v) -> lo <= q <= hi.
Proof. exact sea_average_bounds. Qed.
Print Assumptions average_bounds.
Theorem average_positive : forall land (P : Prop) vals q, sea_average land P vals q -> P -> some_sea land vals ->
  (forall v, In v vals -> ~ land v -> 0 < v) -> (forall v, land v \/ ~ land v) -> 0 < q.
Proof. exact sea_average_pos. Qed.
Print Assumptions average_positive.

Example land_average_case :
  cell2_ok (sq_field 3 0 0 5) 0 0 /\ some_sea zero_value (corners2 (sq_field 3 0 0 5) 0 0) /\ some_land near_zero (corners2 (sq_field 3 0 0 5) 0 0) /\
  some_sea near_zero (corners2 (sq_field 3 0 0 5) 0 0) /\
  exists q, c_interp Nemo LandTracer (sq_field 3 0 0 5) (1 # 4) (2 # 3) 0 0 0 0 = IVal q /\
            py_interp2D LandTracer (sq_field 3 0 0 5) (1 # 4) (2 # 3) 0 0 = IVal q /\ q == 328 # 85.
Proof.
  split; [apply sq_ok|]. split; [exists 3; split; [left; reflexivity|intros H; vm_compute in H; discriminate]|].
  split; [exists 0; split; [right; left; reflexivity|vm_compute; discriminate]|].
  split; [exists 3; split; [left; reflexivity|intros H; apply H; reflexivity]|].
  eexists. split; [vm_compute; reflexivity|]. split; [vm_compute; reflexivity|]. vm_compute. reflexivity.
Qed.

(** The only sea corner is ignored in Scipy mode when it is off the diagonal, and the land next to it is used. *)
Theorem land_average_refuted : exists f xsi eta, cell2_ok f 0 0 /\ unit_coord xsi /\ unit_coord eta /\ away2 py_tol xsi eta /\
  some_sea near_zero (corners2 f 0 0) /\ (forall v, In v (corners2 f 0 0) -> v == 0 \/ 7 <= v) /\
  exists q, py_interp2D LandTracer f xsi eta 0 0 = IVal q /\ q == 0 /\ c_interp Nemo LandTracer f xsi eta 0 0 0 0 = IVal 7.
Proof.
  exists (sq_field 0 7 0 0), (1 # 2), (1 # 2). split; [apply sq_ok|]. split; [split; vm_compute; discriminate|]. split; [split; vm_compute; discriminate|].
  split; [intros [] []; vm_compute; reflexivity|].
  split; [exists 7; split; [right; left; reflexivity|intros H; vm_compute in H; apply H; reflexivity]|].
  split; [intros v [<-|[<-|[<-|[<-|[]]]]]; [left|right|left|left]; vm_compute; congruence|].
  eexists. split; [vm_compute; reflexivity|]. split; vm_compute; reflexivity.
Qed.
Print Assumptions land_average_refuted.

(** * Only land *)
Theorem land_only_zero : forall ix f xsi eta zeta xi yi zi,
  (cell2_ok f yi xi ->
     (all_land near_zero (corners2 f yi xi) -> py_interp2D LandTracer f xsi eta xi yi = IVal 0) /\
     (all_land zero_value (corners2 f yi xi) -> c_interp ix LandTracer f xsi eta zeta xi yi zi = IVal 0)) /\
  (cell3_ok f zi yi xi ->
     (all_land near_zero (corners3 f zi yi xi) -> py_interp3D ix LandTracer f xsi eta zeta xi yi zi = IVal 0) /\
     (ix = Nemo \/ ix = Mitgcm -> all_land zero_value (corners3 f zi yi xi) -> c_interp ix LandTracer f xsi eta zeta xi yi zi = IVal 0)).
Proof. exact all_land_zero. Qed.
Print Assumptions land_only_zero.

Example land_only_case : cell2_ok (sq_field 0 0 0 0) 0 0 /\ all_land zero_value (corners2 (sq_field 0 0 0 0) 0 0) /\
  cell3_ok (cube_field (fun _ _ _ => 0)) 0 0 0 /\ all_land near_zero (corners3 (cube_field (fun _ _ _ => 0)) 0 0 0).
Proof.
  split; [apply sq_ok|]. split; [intros v H; cbn in H; intuition (subst; reflexivity)|]. split; [apply cube_ok|].
  intros v H. cbn in H. intuition (subst; vm_compute; discriminate).
Qed.

(** * On a node *)
(** Missing in JIT mode: a land node of a cell with a single sea corner (refuted below). *)
Theorem land_node_jit_partial : forall ix f xsi eta zeta xi yi zi j i, cell2_ok f yi xi -> xsi == b2q i -> eta == b2q j ->
  (f_at f 0 (yi + b2z j) (xi + b2z i) == 0 -> ~ one_sea zero_value (corners2 f yi xi)) ->
  exists q, c_interp ix LandTracer f xsi eta zeta xi yi zi = IVal q /\ q == f_at f 0 (yi + b2z j) (xi + b2z i).
Proof. exact jit_node2. Qed.
Print Assumptions land_node_jit_partial.

Theorem land_node_jit_3D_partial : forall ix f xsi eta zeta xi yi zi k j i, ix = Nemo \/ ix = Mitgcm -> cell3_ok f zi yi xi ->
  xsi == b2q i -> eta == b2q j -> zeta == b2q k ->
  (f_at f (zi + b2z k) (yi + b2z j) (xi + b2z i) == 0 -> ~ one_sea zero_value (corners3 f zi yi xi)) ->
  exists q, c_interp ix LandTracer f xsi eta zeta xi yi zi = IVal q /\ q == f_at f (zi + b2z k) (yi + b2z j) (xi + b2z i).
Proof. exact jit_node3. Qed.
Print Assumptions land_node_jit_3D_partial.

Theorem land_node : forall f xsi eta xi yi j i, cell2_ok f yi xi -> xsi == b2q i -> eta == b2q j ->
  (near_zero (f_at f 0 (yi + b2z j) (xi + b2z i)) -> f_at f 0 (yi + b2z j) (xi + b2z i) == 0) ->
  exists q, py_interp2D LandTracer f xsi eta xi yi = IVal q /\ q == f_at f 0 (yi + b2z j) (xi + b2z i).
Proof. exact scipy_node2. Qed.
Print Assumptions land_node.

(** Missing in Scipy mode in 3D: nodes with different x and z ends (refuted below). *)
Theorem land_node_3D_partial : forall ix f xsi eta zeta xi yi zi k j, cell3_ok f zi yi xi -> xsi == b2q k -> eta == b2q j -> zeta == b2q k ->
  (near_zero (f_at f (zi + b2z k) (yi + b2z j) (xi + b2z k)) -> f_at f (zi + b2z k) (yi + b2z j) (xi + b2z k) == 0) ->
  exists q, py_interp3D ix LandTracer f xsi eta zeta xi yi zi = IVal q /\ q == f_at f (zi + b2z k) (yi + b2z j) (xi + b2z k).
Proof. exact scipy_node3. Qed.
Print Assumptions land_node_3D_partial.

Example land_node_case :
  ~ one_sea zero_value (corners2 (sq_field 3 0 0 5) 0 0) /\ c_interp Nemo LandTracer (sq_field 3 0 0 5) 1 0 0 0 0 0 = IVal 0 /\
  c_interp Nemo LandTracer (sq_field 3 0 0 5) 1 1 0 0 0 0 = IVal 5 /\ py_interp2D LandTracer (sq_field 3 0 0 5) 1 1 0 0 = IVal 5.
Proof.
  split; [|repeat split; vm_compute; reflexivity]. intros H. apply (one_sea_count c_zero zero_value c_zero_spec) in H. vm_compute in H. discriminate.
Qed.

Theorem land_node_jit_refuted : exists f, cell2_ok f 0 0 /\ f_at f 0 0 0 == 0 /\
  c_interp Nemo LandTracer f 0 0 0 0 0 0 = IVal 7 /\ py_interp2D LandTracer f 0 0 0 0 = IVal 0.
Proof. exists (sq_field 0 7 0 0). split; [apply sq_ok|]. split; [reflexivity|]. split; vm_compute; reflexivity. Qed.
Print Assumptions land_node_jit_refuted.

(** On the node with z = 0, x = 1 (value 1) the value of the node with z = 1, x = 0 is returned, even if it is land. *)
Theorem land_node_3D_refuted : exists f, cell3_ok f 0 0 0 /\ f_at f 0 0 1 == 1 /\
  py_interp3D Nemo LandTracer f 1 0 0 0 0 0 = IVal 0 /\ c_interp Nemo LandTracer f 1 0 0 0 0 0 = IVal 1.
Proof.
  exists (cube_field (fun k j i => if (k =? 1)%Z then 0 else inject_Z (i + 4 * j))). split; [apply cube_ok|]. split; [reflexivity|]. split; vm_compute; reflexivity.
Qed.
Print Assumptions land_node_3D_refuted.

(** * The two modes *)
Theorem land_modes_partial : forall ix f xsi eta zeta xi yi zi, cell2_ok f yi xi -> unit_coord xsi -> unit_coord eta -> away2 py_tol xsi eta ->
  (forall v, In v (corners2 f yi xi) -> v == 0 \/ ~ near_zero v) ->
  (near_zero (f_at f 0 yi (xi + 1)) <-> near_zero (f_at f 0 (yi + 1) xi)) \/ (forall v, In v (corners2 f yi xi) -> ~ near_zero v) ->
  same_result (py_interp2D LandTracer f xsi eta xi yi) (c_interp ix LandTracer f xsi eta zeta xi yi zi).
Proof. exact modes_land2. Qed.
Print Assumptions land_modes_partial.

Theorem land_modes_3D_partial : forall ix f xsi eta zeta xi yi zi, ix = Nemo \/ ix = Mitgcm -> cell3_ok f zi yi xi ->
  unit_coord xsi -> unit_coord eta -> unit_coord zeta -> away3 py_tol xsi eta zeta ->
  (forall v, In v (corners3 f zi yi xi) -> v == 0 \/ ~ near_zero v) ->
  same_result (py_interp3D ix LandTracer f xsi eta zeta xi yi zi) (c_interp ix LandTracer f xsi eta zeta xi yi zi).
Proof. exact modes_land3. Qed.
Print Assumptions land_modes_3D_partial.

Example land_modes_case :
  let f := cube_field (fun k j i => if (j =? 1)%Z then 0 else inject_Z (2 + i + 4 * k)) in
  cell3_ok f 0 0 0 /\ (forall v, In v (corners3 f 0 0 0) -> v == 0 \/ ~ near_zero v) /\
  exists q q', py_interp3D Nemo LandTracer f (1 # 4) (2 # 3) (1 # 8) 0 0 0 = IVal q /\ c_interp Nemo LandTracer f (1 # 4) (2 # 3) (1 # 8) 0 0 0 = IVal q' /\ q == q' /\ 2 < q.
Proof.
  cbv zeta. split; [apply cube_ok|]. split.
  - intros v H. cbn in H. repeat (destruct H as [<-|H]; [first [left; reflexivity|right; intros K; apply K; reflexivity]|]). destruct H.
  - do 2 eexists. split; [vm_compute; reflexivity|]. split; [vm_compute; reflexivity|]. split; vm_compute; reflexivity.
Qed.
