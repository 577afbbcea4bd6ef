(** C49: what a field gives with the interpolation methods other than plain linear interpolation - nearest node, tracers
    and velocities on B- and C-grids, and linear interpolation with the layers of POP and MOM5 - in both modes.
    Rectilinear z grids, all frames in memory; [k] bounds the recursion of the time search in C. *)
From Coq Require Import List ZArith Bool QArith Lia Lqa ZifyBool.
From Verif Require Import IdxModel IdxSpec IdxProofs TimeModel InterpModel InterpSpec TimeProofs InterpProofs MethSpec MethProofs5.
Import ListNotations.
Open Scope Q_scope.

Definition ex_methods (m : method) (ix : indexing) : sfield :=
  mkField [0; 1; 5 # 2; 7] [0; 2; 3] [1; 3; 10; 20] false false ix m [10; 12; 20] false false
    (fun t k j i => inject_Z (1000 * t + 100 * k + 10 * j + i)).
Lemma ex_methods_gridded : forall m ix, gridded (ex_methods m ix).
Proof.
  intros m ix. unfold gridded. cbn [ex_methods s_spherical s_zonal_periodic s_method s_indexing s_lon s_lat s_depth s_time].
  split; [left; reflexivity|]. split; [reflexivity|]. split; [apply axis_ok_b; reflexivity|]. split; [apply axis_ok_b; reflexivity|].
  split; [|apply axis_ok_b; reflexivity]. split; [vm_compute; discriminate|]. left. apply inc_b_spec. reflexivity.
Qed.
Lemma ex_methods_inside : forall m ix x y z, 0 <= x <= 7 -> 0 <= y <= 3 -> 1 <= z <= 20 -> position_inside (ex_methods m ix) x y z.
Proof. intros m ix x y z X Y Z. split; [right; exact X|]. split; [right; exact Y|]. right. left. exact Z. Qed.
Lemma ex_methods_surface : forall m z, 0 <= z < 1 -> surface_layer (ex_methods m Mom5) z.
Proof.
  intros m z [A B]. split; [reflexivity|]. split; [reflexivity|]. split; [apply inc_b_spec; reflexivity|]. split; [exact A|]. split; [exact B|].
  change (2 * 1 - 3 < z). lra.
Qed.

(** * Scipy mode *)
Theorem method_sampled : forall f t x y z, gridded f -> offered f -> position_inside f x y z ->
  samples_by f (fun n q => method_value f n x y z q) t (py_sample f t x y z).
Proof. exact py_method. Qed.
Print Assumptions method_sampled.

Example method_sampled_case :
  (forall m ix, m <> LandTracer -> m <> CgridVelocity -> gridded (ex_methods m ix) /\ offered (ex_methods m ix)) /\
  (forall m ix, position_inside (ex_methods m ix) (1 # 4) (1 # 2) 12) /\
  map (fun m => py_sample (ex_methods m Pop) 10 (1 # 4) (1 # 2) 12) [Nearest; CgridTracer; BgridTracer] = [IVal 200; IVal 211; IVal 211] /\
  same_result (py_sample (ex_methods BgridVelocity Mom5) 10 (1 # 4) (1 # 2) 12) (IVal (300 + (11 # 4))) /\
  same_result (py_sample (ex_methods BgridVelocity Nemo) 10 (1 # 4) (1 # 2) 12) (IVal (200 + (11 # 4))) /\
  same_result (py_sample (ex_methods BgridWVelocity Nemo) 10 (1 # 4) (1 # 2) 12) (IVal 231) /\
  same_result (py_sample (ex_methods BgridWVelocity Pop) 10 (1 # 4) (1 # 2) 12) (IVal ((8 # 10) * 211)).
Proof.
  split; [intros m ix A B; split; [apply ex_methods_gridded|destruct m; try reflexivity; contradiction]|].
  split; [intros; apply ex_methods_inside; split; vm_compute; discriminate|]. repeat split.
Qed.

(** * JIT mode: the same, from any indices of the particle *)
Theorem method_sampled_jit_partial : forall k f t x y z xi0 yi0 zi0 ti0, gridded f -> offered f -> jit_offered f z -> position_inside f x y z ->
  carries f z xi0 yi0 zi0 -> (ti0 < zlen (s_time f))%Z -> (1 < k)%nat -> (s_periodic f = false \/ ~ t == last_ (s_time f)) ->
  samples_by f (fun n q => method_value f n x y z q) t (c_sample k f t x y z xi0 yi0 zi0 ti0).
Proof. exact c_method. Qed.
Print Assumptions method_sampled_jit_partial.

Example method_sampled_jit_case :
  (forall m, m <> BgridWVelocity -> jit_offered (ex_methods m Mitgcm) 12) /\ (forall m, m <> Nearest -> jit_offered (ex_methods m Pop) 12) /\
  (forall m, carries (ex_methods m Mom5) 12 2 0 (-1)) /\
  same_result (c_sample 2 (ex_methods BgridWVelocity Pop) 10 (1 # 4) (1 # 2) 12 2 1 0 0) (IVal ((8 # 10) * 211)) /\
  same_result (c_sample 2 (ex_methods BgridVelocity Mom5) 10 (1 # 4) (1 # 2) 12 2 0 (-1) 0) (IVal (300 + (11 # 4))).
Proof.
  split; [intros m N; split; [intros E; contradiction|discriminate]|].
  split; [intros m N; split; [intros _; discriminate|intros _; split; [discriminate|intros E; contradiction]]|].
  split; [|split; reflexivity]. intros m. split; [|intros _ _; vm_compute; discriminate].
  unfold carried, valid_start. cbn. split; [right; lia|]. split; [right; lia|]. right. right. split; reflexivity.
Qed.

(** The indices after any history of samplings are such; only a visit to the surface layer of MOM5 leaves -1. *)
Theorem indices_carried : forall f hist xi yi zi, gridded f -> c_history f hist = (xi, yi, zi) -> carried f xi yi zi.
Proof. exact carried_history. Qed.
Print Assumptions indices_carried.

Example indices_carried_case :
  c_history (ex_methods BgridVelocity Mom5) [(6, 3, 12); (1 # 2, 1, 1 # 2)] = (0, 0, -1)%Z /\
  c_history (ex_methods BgridVelocity Mom5) [(6, 3, 12); (1 # 2, 1, 1 # 2); (50, 0, 0); (2, 1, 4)] = (1, 0, 1)%Z.
Proof. split; vm_compute; reflexivity. Qed.

(** * Both modes agree where there is no choice of cell or node *)
Theorem method_modes_partial : forall k f t x y z xi0 yi0 zi0 ti0, gridded f -> offered f -> jit_offered f z -> settled f x y z ->
  position_inside f x y z -> carries f z xi0 yi0 zi0 -> (ti0 < zlen (s_time f))%Z -> (1 < k)%nat ->
  (1 < zlen (s_time f))%Z \/ s_periodic f = false -> (s_periodic f = false \/ ~ t == last_ (s_time f)) ->
  same_result (py_sample f t x y z) (c_sample k f t x y z xi0 yi0 zi0 ti0).
Proof. exact method_modes. Qed.
Print Assumptions method_modes_partial.

(** There the value is determined. *)
Theorem method_value_determined : forall f n x y z q q', gridded f -> settled f x y z ->
  method_value f n x y z q -> method_value f n x y z q' -> q == q'.
Proof. exact method_unique. Qed.
Print Assumptions method_value_determined.

Lemma ex_off_nodes : forall l x, forallb (fun a => negb (Qeq_bool x a)) l = true -> off_nodes l x.
Proof.
  intros l x F _ a A E. rewrite forallb_forall in F.
  assert (I : In (at_ l a) l) by (unfold at_; apply nth_In; unfold zlen in A; lia).
  specialize (F _ I). apply Qeq_bool_iff in E. rewrite E in F. discriminate.
Qed.
Example method_modes_case :
  (forall m ix, settled (ex_methods m ix) (1 # 4) (1 # 2) 12) /\
  (forall m, settled (ex_methods m Nemo) (1 # 4) (1 # 2) 12 /\ jit_offered (ex_methods m Nemo) 12 /\ carries (ex_methods m Nemo) 12 2 1 3).
Proof.
  assert (S : forall m ix, settled (ex_methods m ix) (1 # 4) (1 # 2) 12).
  { intros m ix. assert (MX : off_middles (s_lon (ex_methods m ix)) (1 # 4)).
    { intros _ a A B. cbn in B. assert (C : (a = 0 \/ a = 1 \/ a = 2)%Z) by lia. destruct C as [-> | [-> | ->]]; vm_compute; discriminate. }
    assert (MY : off_middles (s_lat (ex_methods m ix)) (1 # 2)).
    { intros _ a A B. cbn in B. assert (C : (a = 0 \/ a = 1)%Z) by lia. destruct C as [-> | ->]; vm_compute; discriminate. }
    assert (MZ : off_middles (s_depth (ex_methods m ix)) 12).
    { intros _ a A B. cbn in B. assert (C : (a = 0 \/ a = 1 \/ a = 2)%Z) by lia. destruct C as [-> | [-> | ->]]; vm_compute; discriminate. }
    destruct m; cbn [settled ex_methods s_method]; try exact I; try (split; [exact MX|split; [exact MY|exact MZ]]);
      repeat split; apply ex_off_nodes; reflexivity. }
  split; [exact S|]. intros m. split; [apply S|]. split; [split; [discriminate|discriminate]|].
  split; [unfold carried, valid_start; cbn; split; [right; lia|]; split; [right; lia|]; right; left; lia|intros _ E; discriminate].
Qed.

(** * Outside the mesh both modes give the same error, whatever the method (fields without the surface layer of MOM5) *)
Theorem method_outside_error : forall k f t x y z e xi0 yi0 zi0 ti0, gridded f -> s_indexing f <> Mom5 -> position_error f x y z e -> time_ok f t ->
  carried f xi0 yi0 zi0 -> (ti0 < zlen (s_time f))%Z -> (1 < k)%nat ->
  py_sample f t x y z = ISearch e /\ c_sample k f t x y z xi0 yi0 zi0 ti0 = ISearch e.
Proof. exact method_outside. Qed.
Print Assumptions method_outside_error.

Example method_outside_case : forall m,
  position_error (ex_methods m Pop) 2 1 (1 # 2) ThroughSurface /\ position_error (ex_methods m Pop) 2 1 21 OutOfBounds /\ time_ok (ex_methods m Pop) 11.
Proof.
  intros m. unfold position_error, inside, time_ok. cbn [ex_methods s_lon s_lat s_depth s_time s_periodic s_extrapolate].
  split; [right; left|split; [right; right|right; split; [reflexivity|right; split; vm_compute; discriminate]]].
  - split; [right; split; vm_compute; discriminate|]. split; [right; split; vm_compute; discriminate|]. split; [|reflexivity].
    split; [reflexivity|]. left. split; [apply inc_b_spec; reflexivity|reflexivity].
  - split; [right; split; vm_compute; discriminate|]. split; [right; split; vm_compute; discriminate|]. split; [|reflexivity].
    split; [reflexivity|]. left. split; [apply inc_b_spec; reflexivity|reflexivity].
Qed.

(** * The surface layer of MOM5: velocities *)
Theorem surface_sampled : forall f t x y z, gridded f -> surface_offered f -> inside (s_lon f) x -> inside (s_lat f) y -> surface_layer f z ->
  samples_by f (fun n q => surface_value f n x y z q) t (py_sample f t x y z).
Proof. exact py_surface. Qed.
Print Assumptions surface_sampled.
Theorem surface_sampled_jit : forall k f t x y z xi0 yi0 zi0 ti0, gridded f -> surface_offered f -> inside (s_lon f) x -> inside (s_lat f) y -> surface_layer f z ->
  carried f xi0 yi0 zi0 -> (ti0 < zlen (s_time f))%Z -> (1 < k)%nat -> (s_periodic f = false \/ ~ t == last_ (s_time f)) ->
  samples_by f (fun n q => surface_value f n x y z q) t (c_sample k f t x y z xi0 yi0 zi0 ti0).
Proof. exact c_surface. Qed.
Print Assumptions surface_sampled_jit.
Theorem surface_modes_partial : forall k f t x y z xi0 yi0 zi0 ti0, gridded f -> surface_offered f ->
  (s_method f = BgridWVelocity -> off_nodes (s_lon f) x /\ off_nodes (s_lat f) y) ->
  inside (s_lon f) x -> inside (s_lat f) y -> surface_layer f z -> carried f xi0 yi0 zi0 -> (ti0 < zlen (s_time f))%Z -> (1 < k)%nat ->
  (1 < zlen (s_time f))%Z \/ s_periodic f = false -> (s_periodic f = false \/ ~ t == last_ (s_time f)) ->
  same_result (py_sample f t x y z) (c_sample k f t x y z xi0 yi0 zi0 ti0).
Proof. exact surface_modes. Qed.
Print Assumptions surface_modes_partial.

Example surface_case :
  surface_offered (ex_methods BgridWVelocity Mom5) /\ surface_layer (ex_methods BgridWVelocity Mom5) (1 # 4) /\
  inside (s_lon (ex_methods BgridWVelocity Mom5)) (1 # 2) /\ inside (s_lat (ex_methods BgridWVelocity Mom5)) (1 # 2) /\
  off_nodes (s_lon (ex_methods BgridWVelocity Mom5)) (1 # 2) /\ off_nodes (s_lat (ex_methods BgridWVelocity Mom5)) (1 # 2) /\
  carried (ex_methods BgridWVelocity Mom5) 0 0 (-1) /\
  same_result (py_sample (ex_methods BgridWVelocity Mom5) 10 (1 # 2) (1 # 2) (1 # 4)) (IVal (11 # 4)).
Proof.
  split; [right; reflexivity|]. split; [apply ex_methods_surface; split; [vm_compute; discriminate|reflexivity]|].
  split; [right; split; vm_compute; discriminate|]. split; [right; split; vm_compute; discriminate|].
  split; [apply ex_off_nodes; reflexivity|]. split; [apply ex_off_nodes; reflexivity|].
  split; [unfold carried, valid_start; cbn; split; [right; lia|]; split; [right; lia|]; right; right; split; reflexivity|reflexivity].
Qed.

(** * Where the claim fails *)

(** Half way between two nodes Scipy mode takes the lower, JIT mode the upper. *)
Theorem nearest_tie_refuted : exists f t x y z, gridded f /\ s_method f = Nearest /\ s_indexing f = Nemo /\ position_inside f x y z /\ carries f z 0 0 0 /\
  forall k, (1 < k)%nat -> ~ same_result (py_sample f t x y z) (c_sample k f t x y z 0 0 0 0).
Proof.
  exists (ex_methods Nearest Nemo), 10, (1 # 2), (1 # 2), 12. split; [apply ex_methods_gridded|]. split; [reflexivity|]. split; [reflexivity|].
  split; [apply ex_methods_inside; split; vm_compute; discriminate|].
  split; [split; [unfold carried, valid_start; cbn; split; [right; lia|]; split; [right; lia|]; right; left; lia|intros _ E; discriminate]|].
  intros [|[|k]] K; [lia..|]. vm_compute. discriminate.
Qed.
Print Assumptions nearest_tie_refuted.

(** In the lowest layer of POP the nearest node of JIT mode is one level too high. *)
Theorem nearest_pop_refuted : exists f t x y z, gridded f /\ s_method f = Nearest /\ s_indexing f = Pop /\ settled f x y z /\ position_inside f x y z /\
  carries f z 0 0 0 /\ forall k, (1 < k)%nat -> ~ same_result (py_sample f t x y z) (c_sample k f t x y z 0 0 0 0).
Proof.
  exists (ex_methods Nearest Pop), 10, (1 # 4), (1 # 2), 12. split; [apply ex_methods_gridded|]. split; [reflexivity|]. split; [reflexivity|].
  split; [apply method_modes_case|]. split; [apply ex_methods_inside; split; vm_compute; discriminate|].
  split; [split; [unfold carried, valid_start; cbn; split; [right; lia|]; split; [right; lia|]; right; left; lia|intros _ E; discriminate]|].
  intros [|[|k]] K; [lia..|]. vm_compute. discriminate.
Qed.
Print Assumptions nearest_pop_refuted.

(** A field on two levels of POP: linear interpolation in JIT mode reads outside the data. *)
Theorem pop_two_levels_refuted : exists f t x y z, gridded f /\ s_method f = Linear /\ s_indexing f = Pop /\ zlen (s_depth f) = 2%Z /\ position_inside f x y z /\
  (exists q, py_sample f t x y z = IVal q) /\ forall k, (1 < k)%nat -> c_sample k f t x y z 0 0 0 0 = IBad.
Proof.
  exists (mkField [0; 1] [0; 1] [0; 10] false false Pop Linear [0; 1] false false (fun _ _ _ _ => 1)), 0, (1 # 2), (1 # 2), 5.
  split; [unfold gridded; cbn [s_spherical s_zonal_periodic s_method s_indexing s_lon s_lat s_depth s_time];
    split; [left; reflexivity|]; split; [reflexivity|]; split; [apply axis_ok_b; reflexivity|]; split; [apply axis_ok_b; reflexivity|];
    split; [split; [vm_compute; discriminate|left; apply inc_b_spec; reflexivity]|apply axis_ok_b; reflexivity]|].
  split; [reflexivity|]. split; [reflexivity|]. split; [reflexivity|].
  split; [split; [right; split; vm_compute; discriminate|]; split; [right; split; vm_compute; discriminate|]; right; left; split; vm_compute; discriminate|].
  split; [eexists; vm_compute; reflexivity|]. intros [|[|k]] K; [lia..|]. vm_compute. reflexivity.
Qed.
Print Assumptions pop_two_levels_refuted.

(** Linear interpolation of a uniform field of POP is not uniform: it falls to zero in the lowest layer, in both modes. *)
Theorem pop_uniform_refuted : exists f t x y z, gridded f /\ s_method f = Linear /\ s_indexing f = Pop /\ (2 < zlen (s_depth f))%Z /\ position_inside f x y z /\
  (forall n k j i, s_data f n k j i = 1) /\ same_result (py_sample f t x y z) (IVal (1 # 2)) /\
  forall k, (1 < k)%nat -> same_result (c_sample k f t x y z 0 0 0 0) (IVal (1 # 2)).
Proof.
  exists (mkField [0; 1] [0; 1] [0; 10; 20] false false Pop Linear [0; 1] false false (fun _ _ _ _ => 1)), 0, (1 # 2), (1 # 2), 15.
  split; [unfold gridded; cbn [s_spherical s_zonal_periodic s_method s_indexing s_lon s_lat s_depth s_time];
    split; [left; reflexivity|]; split; [reflexivity|]; split; [apply axis_ok_b; reflexivity|]; split; [apply axis_ok_b; reflexivity|];
    split; [split; [vm_compute; discriminate|left; apply inc_b_spec; reflexivity]|apply axis_ok_b; reflexivity]|].
  split; [reflexivity|]. split; [reflexivity|]. split; [reflexivity|].
  split; [split; [right; split; vm_compute; discriminate|]; split; [right; split; vm_compute; discriminate|]; right; left; split; vm_compute; discriminate|].
  split; [reflexivity|]. split; [vm_compute; reflexivity|]. intros [|[|k]] K; [lia..|]. vm_compute. reflexivity.
Qed.
Print Assumptions pop_uniform_refuted.

(** In the surface layer of MOM5 a tracer has in Scipy mode the value of the lowest level, a nearest node too, and linear
    interpolation mixes the two; in JIT mode it has that of the first level, the nearest node may be on the second. *)
Theorem mom5_surface_refuted : exists f t x y z, (forall m, gridded (f m) /\ s_indexing (f m) = Mom5 /\ s_method (f m) = m /\ surface_layer (f m) z /\
    inside (s_lon (f m)) x /\ inside (s_lat (f m)) y /\ zlen (s_depth (f m)) = 4%Z /\ forall n k j i, s_data (f m) n k j i = inject_Z k) /\
  py_sample (f BgridTracer) t x y z = IVal 3 /\ py_sample (f Nearest) t x y z = IVal 3 /\ same_result (py_sample (f Linear) t x y z) (IVal (3 # 2)) /\
  forall k, (1 < k)%nat -> c_sample k (f BgridTracer) t x y z 0 0 0 0 = IVal 0 /\ c_sample k (f Nearest) t x y z 0 0 0 0 = IVal 1 /\
    same_result (c_sample k (f Linear) t x y z 0 0 0 0) (IVal 0).
Proof.
  exists (fun m => mkField [0; 1] [0; 1] [1; 3; 10; 20] false false Mom5 m [0; 1] false false (fun _ k _ _ => inject_Z k)), 0, (1 # 4), (1 # 4), (1 # 2).
  split; [|split; [vm_compute; reflexivity|split; [vm_compute; reflexivity|split; [vm_compute; reflexivity|]]]].
  - intros m. split; [unfold gridded; cbn [s_spherical s_zonal_periodic s_method s_indexing s_lon s_lat s_depth s_time];
      split; [left; reflexivity|]; split; [reflexivity|]; split; [apply axis_ok_b; reflexivity|]; split; [apply axis_ok_b; reflexivity|];
      split; [split; [vm_compute; discriminate|left; apply inc_b_spec; reflexivity]|apply axis_ok_b; reflexivity]|].
    split; [reflexivity|]. split; [reflexivity|]. split; [|split; [right; split; vm_compute; discriminate|split; [right; split; vm_compute; discriminate|split; reflexivity]]].
    split; [reflexivity|]. split; [reflexivity|]. split; [apply inc_b_spec; reflexivity|]. split; [vm_compute; discriminate|]. split; reflexivity.
  - intros [|[|k]] K; [lia..|]. split; [vm_compute; reflexivity|]. split; vm_compute; reflexivity.
Qed.
Print Assumptions mom5_surface_refuted.

(** A particle that has been in the surface layer of MOM5 and then is exactly at the first level: JIT mode reads depth[-1]. *)
Theorem mom5_return_refuted : exists f t x y z z', gridded f /\ s_method f = BgridVelocity /\ surface_layer f z' /\ position_inside f x y z /\
  (exists q, py_sample f t x y z = IVal q) /\
  forall k, (1 < k)%nat -> let '(xi, yi, zi) := c_history f [(x, y, z')] in c_sample k f t x y z xi yi zi 0 = ISearch BadIndex.
Proof.
  exists (ex_methods BgridVelocity Mom5), 10, (1 # 4), (1 # 2), 1, (1 # 2). split; [apply ex_methods_gridded|]. split; [reflexivity|].
  split; [apply ex_methods_surface; split; [vm_compute; discriminate|reflexivity]|]. split; [apply ex_methods_inside; split; vm_compute; discriminate|].
  split; [eexists; vm_compute; reflexivity|]. intros [|[|k]] K; [lia..|]. vm_compute. reflexivity.
Qed.
Print Assumptions mom5_return_refuted.

(** A tracer on the face between two cells: in JIT mode its value depends on the cell the particle was in before. *)
Theorem tracer_face_refuted : exists f t x y z h h', gridded f /\ s_method f = BgridTracer /\ position_inside f x y z /\
  forall k, (1 < k)%nat -> let '(xi, yi, zi) := c_history f h in let '(xi', yi', zi') := c_history f h' in
    ~ same_result (c_sample k f t x y z xi yi zi 0) (c_sample k f t x y z xi' yi' zi' 0).
Proof.
  exists (ex_methods BgridTracer Nemo), 10, 1, (1 # 2), 12, [(1 # 2, 1 # 2, 12)], [(2, 1 # 2, 12)]. split; [apply ex_methods_gridded|]. split; [reflexivity|].
  split; [apply ex_methods_inside; split; vm_compute; discriminate|]. intros [|[|k]] K; [lia..|]. vm_compute. discriminate.
Qed.
Print Assumptions tracer_face_refuted.

(** W on a B-grid with the indexing of MITgcm: Scipy mode reads the north-east corner of the cell, JIT mode the south-west. *)
Theorem w_mitgcm_refuted : exists f t x y z, gridded f /\ s_method f = BgridWVelocity /\ s_indexing f = Mitgcm /\ settled f x y z /\ position_inside f x y z /\
  carries f z 0 0 0 /\ forall k, (1 < k)%nat -> ~ same_result (py_sample f t x y z) (c_sample k f t x y z 0 0 0 0).
Proof.
  exists (ex_methods BgridWVelocity Mitgcm), 10, (1 # 4), (1 # 2), 12. split; [apply ex_methods_gridded|]. split; [reflexivity|]. split; [reflexivity|].
  split; [apply method_modes_case|]. split; [apply ex_methods_inside; split; vm_compute; discriminate|].
  split; [split; [unfold carried, valid_start; cbn; split; [right; lia|]; split; [right; lia|]; right; left; lia|intros _ E; discriminate]|].
  intros [|[|k]] K; [lia..|]. vm_compute. discriminate.
Qed.
Print Assumptions w_mitgcm_refuted.

(** W on a field of one level: Scipy mode raises RuntimeError, JIT mode gives the value at the corner. *)
Theorem w_flat_refuted : exists f t x y z, gridded f /\ s_method f = BgridWVelocity /\ zlen (s_depth f) = 1%Z /\ position_inside f x y z /\
  py_sample f t x y z = IRuntime /\ forall k, (1 < k)%nat -> exists q, c_sample k f t x y z 0 0 0 0 = IVal q.
Proof.
  exists (mkField [0; 1] [0; 1] [0] false false Nemo BgridWVelocity [0; 1] false false (fun _ _ _ _ => 1)), 0, (1 # 2), (1 # 2), 0.
  split; [unfold gridded; cbn [s_spherical s_zonal_periodic s_method s_indexing s_lon s_lat s_depth s_time];
    split; [left; reflexivity|]; split; [reflexivity|]; split; [apply axis_ok_b; reflexivity|]; split; [apply axis_ok_b; reflexivity|];
    split; [split; [vm_compute; discriminate|left; apply inc_b_spec; reflexivity]|apply axis_ok_b; reflexivity]|].
  split; [reflexivity|]. split; [reflexivity|].
  split; [split; [right; split; vm_compute; discriminate|]; split; [right; split; vm_compute; discriminate|]; left; reflexivity|].
  split; [vm_compute; reflexivity|]. intros [|[|k]] K; [lia..|]. eexists. vm_compute. reflexivity.
Qed.
Print Assumptions w_flat_refuted.
