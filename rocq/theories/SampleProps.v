(** C23-C26: sampling a field by linear interpolation in space and time, on rectilinear z grids with a flat
    mesh, or a spherical one whose longitudes increase along an arc, and all frames in memory. [k] bounds the recursion of the time search in C: two levels are enough. *)
From Coq Require Import List ZArith Bool QArith Lia Lqa ZifyBool.
From Verif Require Import IdxModel IdxSpec IdxProofs TimeModel InterpModel InterpSpec TimeProofs InterpProofs InterpProofs2.
Import ListNotations.
Open Scope Q_scope.

Definition ex_field (periodic extrapolate : bool) : sfield :=
  mkField [0; 1; 5 # 2; 7] [0; 2] [-1; -3; -10] false false Nemo Linear [10; 12; 20] periodic extrapolate
    (fun t k j i => inject_Z (1000 * t * t + 100 * k + 10 * j * j + i * i * i)).
Lemma ex_field_linear : forall p e, linear_field (ex_field p e).
Proof.
  intros p e. unfold linear_field. cbn [ex_field s_spherical s_zonal_periodic s_method s_indexing s_lon s_lat s_depth s_time].
  repeat (split; [first [reflexivity|left; reflexivity|apply axis_ok_b; reflexivity]|]).
  split; [split; [vm_compute; discriminate|right; apply dec_b_spec; reflexivity]|]. apply axis_ok_b; reflexivity.
Qed.
(** The same on a spherical mesh. *)
Example sphere_field_linear : forall lon, inc_b lon = true -> (1 <=? zlen lon)%Z = true -> qlt (last_ lon - first_ lon) 360 && narrow_b lon && (zlen lon <=? 10002)%Z = true ->
  linear_field (mkField lon [0; 2] [-1; -3; -10] true false Nemo Linear [10; 12; 20] true false (fun t k j i => inject_Z (1000 * t * t + i * i * i))).
Proof.
  intros lon I L A. unfold linear_field. cbn [s_spherical s_zonal_periodic s_method s_indexing s_lon s_lat s_depth s_time].
  split; [right; apply arc_b; exact A|]. repeat (split; [first [reflexivity|left; reflexivity|apply axis_ok_b; assumption || reflexivity]|]).
  split; [split; [vm_compute; discriminate|right; apply dec_b_spec; reflexivity]|]. apply axis_ok_b; reflexivity.
Qed.
Lemma ex_inside : forall p e, position_inside (ex_field p e) (5 # 2) (1 # 2) (-2).
Proof. intros p e. split; [right; split; vm_compute; discriminate|]. split; [right; split; vm_compute; discriminate|]. right. right. split; vm_compute; discriminate. Qed.

(** * C23: the value sampled does not depend on the particle's previous cell, and is that of Scipy mode. *)

(** Inside the grid both modes give the linear interpolation, outside both give the same error. In a
    time-periodic field the very end of the time axis is excluded (refuted below). *)
Theorem modes_sample_same_partial : forall k f t x y z xi0 yi0 zi0 ti0, linear_field f ->
  (1 < zlen (s_time f))%Z \/ s_periodic f = false ->
  indices_ok f xi0 yi0 zi0 -> (ti0 < zlen (s_time f))%Z -> (1 < k)%nat ->
  (s_periodic f = false \/ ~ t == last_ (s_time f)) ->
  same_result (py_sample f t x y z) (c_sample k f t x y z xi0 yi0 zi0 ti0).
Proof. exact modes_sample_same. Qed.
Print Assumptions modes_sample_same_partial.

Example modes_sample_same_case :
  linear_field (ex_field true false) /\ indices_ok (ex_field true false) 2 0 2 /\ indices_ok (ex_field true false) 0 0 0 /\
  exists q q' q'', py_sample (ex_field true false) 35 (5 # 2) (1 # 2) (-2) = IVal q /\
    c_sample 2 (ex_field true false) 35 (5 # 2) (1 # 2) (-2) 2 0 2 1 = IVal q' /\
    c_sample 2 (ex_field true false) 35 (5 # 2) (1 # 2) (-2) 0 0 0 (-1) = IVal q'' /\ q == q' /\ q == q''.
Proof.
  split; [apply ex_field_linear|]. split; [unfold indices_ok, valid_start; cbn; repeat split; lia|].
  split; [unfold indices_ok, valid_start; cbn; repeat split; lia|].
  do 3 eexists. split; [vm_compute; reflexivity|]. split; [vm_compute; reflexivity|]. split; [vm_compute; reflexivity|].
  split; reflexivity.
Qed.

(** The indices a particle has after any history of samplings are such. *)
Theorem history_indices : forall f hist xi yi zi, linear_field f -> c_history f hist = (xi, yi, zi) -> indices_ok f xi yi zi.
Proof. exact c_history_ok. Qed.
Print Assumptions history_indices.

Theorem history_time_index : forall k per tm f0 fn t ti t' j, (1 <= zlen tm)%Z -> (ti < zlen tm)%Z ->
  c_time k per tm f0 fn t ti = Some (t', j) -> (0 <= j < zlen tm)%Z.
Proof. exact c_time_range. Qed.
Print Assumptions history_time_index.

Example history_case :
  c_history (ex_field false false) [(6, 1, -9); (1 # 2, 2, -1); (50, 0, 0); (3, 1, -10)] = (2, 0, 1)%Z /\
  c_time 2 true [10; 12; 20] 10 20 (115 # 2) 0 = Some ((115 # 2) - inject_Z 4 * (20 - 10), 1%Z).
Proof. split; vm_compute; reflexivity. Qed.

(** At the end of the time axis of a periodic field Scipy mode uses the first frame and JIT mode the last. *)
Theorem modes_sample_same_refuted : exists f t x y z, linear_field f /\ (1 < zlen (s_time f))%Z /\
  forall k, (1 < k)%nat -> ~ same_result (py_sample f t x y z) (c_sample k f t x y z 0 0 0 0).
Proof.
  exists (ex_field true false), 20, (5 # 2), (1 # 2), (-2). split; [apply ex_field_linear|]. split; [reflexivity|].
  intros [|[|k]] K; [lia..|]. vm_compute. discriminate.
Qed.
Print Assumptions modes_sample_same_refuted.

(** * C24: the frames used bracket the time *)
Theorem sample_value : forall f t x y z, linear_field f -> position_inside f x y z ->
  samples_as f t x y z (py_sample f t x y z).
Proof. exact py_sample_value. Qed.
Print Assumptions sample_value.

Theorem sample_value_jit_partial : forall k f t x y z xi0 yi0 zi0 ti0, linear_field f -> position_inside f x y z ->
  indices_ok f xi0 yi0 zi0 -> (ti0 < zlen (s_time f))%Z -> (1 < k)%nat ->
  (s_periodic f = false \/ ~ t == last_ (s_time f)) ->
  samples_as f t x y z (c_sample k f t x y z xi0 yi0 zi0 ti0).
Proof. exact c_sample_value. Qed.
Print Assumptions sample_value_jit_partial.

(** Sampling in the middle of the second interval, before the axis and after it. *)
Example sample_value_case :
  linear_field (ex_field false true) /\ position_inside (ex_field false true) (5 # 2) (1 # 2) (-2) /\
  exists q0 q1 q2, py_sample (ex_field false true) 5 (5 # 2) (1 # 2) (-2) = IVal q0 /\
    py_sample (ex_field false true) 16 (5 # 2) (1 # 2) (-2) = IVal q1 /\ py_sample (ex_field false true) 50 (5 # 2) (1 # 2) (-2) = IVal q2 /\
    q0 == (121 # 2) /\ q1 == 2500 + (121 # 2) /\ q2 == 4000 + (121 # 2) /\
    py_sample (ex_field false false) 50 (5 # 2) (1 # 2) (-2) = IExtrap.
Proof.
  split; [apply ex_field_linear|]. split; [apply ex_inside|].
  do 3 eexists. repeat (split; [vm_compute; reflexivity|]). vm_compute. reflexivity.
Qed.

(** Errors: outside the grid at a time at which the field can be sampled. *)
Theorem sample_error : forall f t x y z e, linear_field f -> position_error f x y z e -> time_ok f t ->
  py_sample f t x y z = ISearch e.
Proof. exact py_sample_error. Qed.
Print Assumptions sample_error.

Theorem sample_error_jit : forall k f t x y z e xi0 yi0 zi0 ti0, linear_field f -> position_error f x y z e -> time_ok f t ->
  indices_ok f xi0 yi0 zi0 -> (ti0 < zlen (s_time f))%Z -> (1 < k)%nat ->
  c_sample k f t x y z xi0 yi0 zi0 ti0 = ISearch e.
Proof. exact c_sample_error. Qed.
Print Assumptions sample_error_jit.

Example sample_error_case :
  position_error (ex_field false false) 8 (1 # 2) (-2) OutOfBounds /\ time_ok (ex_field false false) 20 /\
  position_error (ex_field false false) 7 2 0 ThroughSurface.
Proof.
  split; [left; split; [|reflexivity]; intros [[H|[_ H]] _]; vm_compute in H; [discriminate|apply H; reflexivity]|].
  split; [right; split; [reflexivity|right; split; vm_compute; discriminate]|].
  right. left. split; [right; split; vm_compute; discriminate|]. split; [right; split; vm_compute; discriminate|].
  split; [|reflexivity]. split; [reflexivity|]. right. split; [apply dec_b_spec; reflexivity|reflexivity].
Qed.

(** Whole numbers of periods, positive or negative. *)
Theorem sample_periodic : forall f t n x y z, linear_field f -> s_periodic f = true -> (1 < zlen (s_time f))%Z ->
  same_result (py_sample f t x y z) (py_sample f (t + inject_Z n * (last_ (s_time f) - first_ (s_time f))) x y z).
Proof. exact py_sample_periodic. Qed.
Print Assumptions sample_periodic.

(** Missing in JIT mode: times at the ends of the periods (refuted below). *)
Theorem sample_periodic_jit_partial : forall k f t n x y z xi0 yi0 zi0 ti0 xi1 yi1 zi1 ti1,
  linear_field f -> s_periodic f = true -> (1 < zlen (s_time f))%Z ->
  indices_ok f xi0 yi0 zi0 -> (ti0 < zlen (s_time f))%Z -> indices_ok f xi1 yi1 zi1 -> (ti1 < zlen (s_time f))%Z -> (1 < k)%nat ->
  (forall m, ~ t == first_ (s_time f) + inject_Z m * (last_ (s_time f) - first_ (s_time f))) ->
  same_result (c_sample k f t x y z xi0 yi0 zi0 ti0)
              (c_sample k f (t + inject_Z n * (last_ (s_time f) - first_ (s_time f))) x y z xi1 yi1 zi1 ti1).
Proof. exact c_sample_periodic. Qed.
Print Assumptions sample_periodic_jit_partial.

Example sample_periodic_case : linear_field (ex_field true false) /\ s_periodic (ex_field true false) = true /\
  (1 < zlen (s_time (ex_field true false)))%Z /\ (forall m, ~ (115 # 2) == first_ (s_time (ex_field true false)) +
     inject_Z m * (last_ (s_time (ex_field true false)) - first_ (s_time (ex_field true false)))).
Proof.
  split; [apply ex_field_linear|]. split; [reflexivity|]. split; [reflexivity|].
  intros m H. change (first_ (s_time (ex_field true false))) with 10 in H. change (last_ (s_time (ex_field true false))) with 20 in H.
  assert (E : inject_Z (20 * m) == inject_Z 95) by (rewrite inject_Z_mult; generalize dependent (inject_Z m); intros r H; change (inject_Z 20) with 20; change (inject_Z 95) with 95; lra).
  unfold inject_Z, Qeq in E. cbn [Qnum Qden] in E. lia.
Qed.

Theorem sample_periodic_jit_refuted : exists f t n x y z, linear_field f /\ s_periodic f = true /\ (1 < zlen (s_time f))%Z /\
  forall k, (1 < k)%nat -> ~ same_result (c_sample k f t x y z 0 0 0 0)
    (c_sample k f (t + inject_Z n * (last_ (s_time f) - first_ (s_time f))) x y z 0 0 0 0).
Proof.
  exists (ex_field true false), 20, 1%Z, (5 # 2), (1 # 2), (-2). split; [apply ex_field_linear|]. split; [reflexivity|]. split; [reflexivity|].
  intros [|[|k]] K; [lia..|]. vm_compute. discriminate.
Qed.
Print Assumptions sample_periodic_jit_refuted.

(** With fewer frames in memory than the time axis has (deferred loading), a time between the frames in
    memory and the end of the period makes the C search call itself without end. *)
Theorem time_search_ends_refuted : exists tm fmin fmax t, axis_ok tm /\ fmin <= first_ tm /\ last_ tm < fmax /\ fmin <= t <= fmax /\
  forall k, c_time k true tm fmin fmax t 0 = None.
Proof.
  exists [0; 1], 0, 4, (5 # 2). split; [apply axis_ok_b; reflexivity|]. split; [vm_compute; discriminate|]. split; [reflexivity|].
  split; [split; vm_compute; discriminate|].
  assert (H : forall k t, t == 5 # 2 -> c_time k true [0; 1] 0 4 t 0 = None).
  { induction k as [|k IH]; intros t T; [reflexivity|]. cbn [c_time].
    change (cget [0; 1] 0) with (Some 0). change (cget [0; 1] (zlen [0; 1] - 1)) with (Some 1).
    assert (A : qlt t 0 = false) by (apply qlt_false; lra). assert (B : qlt 1 t = true) by (apply qlt_spec; lra).
    assert (F : Qround.Qfloor ((t - 0) / (4 - 0)) = 0%Z).
    { rewrite T. reflexivity. }
    cbv zeta iota. rewrite F, A, B, IH; [reflexivity|]. change (inject_Z 0) with 0. lra. }
  intros k. apply H. reflexivity.
Qed.
Print Assumptions time_search_ends_refuted.

(** * C25: linear interpolation is exact, bounded and continuous. [frame_value] is what both modes return: *)
Theorem frame_sample : forall f x y z n, linear_field f -> position_inside f x y z -> (0 <= n < zlen (s_time f))%Z ->
  exists q, py_spatial f x y z n = IVal q /\ frame_value f n x y z q.
Proof. exact py_spatial_value. Qed.
Print Assumptions frame_sample.
Theorem frame_sample_jit : forall f x y z n xi0 yi0 zi0, linear_field f -> position_inside f x y z -> (0 <= n < zlen (s_time f))%Z ->
  indices_ok f xi0 yi0 zi0 ->
  exists q, c_spatial f x y z xi0 yi0 zi0 n = IVal q /\ frame_value f n x y z q.
Proof. exact c_spatial_value. Qed.
Print Assumptions frame_sample_jit.

(** The value at a node is that of the node. *)
Theorem node_exact : forall f n x y z q i j k, linear_field f -> frame_value f n x y z q ->
  (0 <= i < zlen (s_lon f))%Z -> (0 <= j < zlen (s_lat f))%Z -> (0 <= k < zlen (s_depth f))%Z ->
  x == at_ (s_lon f) i -> y == at_ (s_lat f) j -> z == at_ (s_depth f) k -> q == s_data f n k j i.
Proof. exact frame_value_node. Qed.
Print Assumptions node_exact.

(** The value is in the range of the corners of any cell that contains the position. *)
Theorem corners_bound : forall f n x y z q xi yi zi xsi eta zeta lo hi, linear_field f -> frame_value f n x y z q ->
  located (s_lon f) x xi xsi -> located (s_lat f) y yi eta -> located (s_depth f) z zi zeta ->
  (forall i j k, cell_node (s_lon f) xi i -> cell_node (s_lat f) yi j -> cell_node (s_depth f) zi k -> lo <= s_data f n k j i <= hi) ->
  lo <= q <= hi.
Proof. exact frame_value_bounds. Qed.
Print Assumptions corners_bound.

(** A field that is linear in each coordinate is reproduced. *)
Theorem trilinear_exact : forall f n x y z q c, linear_field f -> frame_value f n x y z q ->
  (forall i j k, (0 <= i < zlen (s_lon f))%Z -> (0 <= j < zlen (s_lat f))%Z -> (0 <= k < zlen (s_depth f))%Z ->
     s_data f n k j i == trilin c (at_ (s_lon f) i) (at_ (s_lat f) j) (at_ (s_depth f) k)) ->
  q == trilin c (coord (s_lon f) x) (coord (s_lat f) y) (coord (s_depth f) z).
Proof. exact frame_value_trilinear. Qed.
Print Assumptions trilinear_exact.

(** Whatever cell is used to interpolate (on a shared face there are several), the value is the same. *)
Theorem faces_agree : forall f n x y z q q', linear_field f -> frame_value f n x y z q -> frame_value f n x y z q' -> q == q'.
Proof. exact frame_value_unique. Qed.
Print Assumptions faces_agree.

Example linear_case :
  linear_field (ex_field false false) /\ exists q, frame_value (ex_field false false) 1 (5 # 2) (1 # 2) (-2) q /\ q == 1000 + (121 # 2) /\
  located (s_lon (ex_field false false)) (5 # 2) 1 1 /\ located (s_lon (ex_field false false)) (5 # 2) 2 0.
Proof.
  split; [apply ex_field_linear|]. destruct (py_spatial_value (ex_field false false) (5 # 2) (1 # 2) (-2) 1 (ex_field_linear _ _) (ex_inside _ _) ltac:(cbn; lia)) as (q & E & V).
  exists q. split; [exact V|]. split; [|split; right; (split; [reflexivity|]); repeat split; vm_compute; congruence].
  vm_compute in E. inversion E. reflexivity.
Qed.

(** * C26: interpolation in time *)
Theorem frame_time_exact : forall tm w t q n, axis_ok tm -> time_value tm w t q -> (0 <= n < zlen tm)%Z -> t == at_ tm n -> q == w n.
Proof. exact time_value_node. Qed.
Print Assumptions frame_time_exact.

Theorem between_frames : forall tm w t q n, axis_ok tm -> time_value tm w t q -> (0 <= n)%Z -> (n + 1 < zlen tm)%Z ->
  at_ tm n <= t <= at_ tm (n + 1) ->
  q == w n + (w (n + 1)%Z - w n) * ((t - at_ tm n) / (at_ tm (n + 1) - at_ tm n)).
Proof. exact time_value_between. Qed.
Print Assumptions between_frames.

Example between_frames_case : axis_ok [10; 12; 20] /\ time_value [10; 12; 20] inject_Z 12 1 /\ time_value [10; 12; 20] inject_Z 16 (3 # 2).
Proof.
  split; [apply axis_ok_b; reflexivity|]. split; (split; [split; vm_compute; discriminate|]).
  - exists 0%Z, 1. split; [right; split; [reflexivity|]; repeat split; vm_compute; congruence|reflexivity].
  - exists 1%Z, (1 # 2). split; [right; split; [reflexivity|]; repeat split; vm_compute; congruence|reflexivity].
Qed.
