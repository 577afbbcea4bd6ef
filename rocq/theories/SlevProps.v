(** C41: sampling fields on terrain-following (s) levels, in Scipy mode and in JIT mode. *)
From Coq Require Import List ZArith Bool QArith Lia Lra Lqa.
From Verif Require Import IdxModel IdxSpec TimeModel InterpModel InterpSpec SlevModel SlevSpec SlevProofs2.
Import ListNotations.
Open Scope Q_scope.

(** * The sampled value *)
(** The value is found between the two levels around [z], where they are at the position and time of the particle;
    above the first level and below the last one the errors are those of z grids. *)
Theorem level_value_sampled : forall f t x y z, slev_field f -> inside (l_lon f) x -> inside (l_lat f) y ->
  level_sampled f t x y z (py_sample_s f t x y z).
Proof. exact py_level_sampled. Qed.
Print Assumptions level_value_sampled.

(** Partial: for grids of two or more rows and columns ([one_column_refuted] shows the need). For periodic fields also
    partial at the last time itself, where JIT mode samples the last frame instead of the first. *)
Theorem level_value_sampled_jit_partial : forall k f t x y z xi0 yi0 zi0 ti0, slev_field f ->
  (1 < zlen (l_lon f))%Z -> (1 < zlen (l_lat f))%Z -> inside (l_lon f) x -> inside (l_lat f) y ->
  l_indices_ok f xi0 yi0 zi0 -> (ti0 < zlen (l_time f))%Z -> (1 < k)%nat ->
  (l_periodic f = true -> ~ t == last_ (l_time f)) ->
  level_sampled f t x y z (c_sample_s k f t x y z xi0 yi0 zi0 ti0).
Proof. exact c_level_sampled. Qed.
Print Assumptions level_value_sampled_jit_partial.

(** Every position and time has one of the three outcomes, and only one value. *)
Theorem level_outcomes : forall f t t' x y z, slev_field f -> inside (l_lon f) x -> inside (l_lat f) y -> sampled_at f t t' ->
  level_inside f t' x y z \/ level_above f t' x y z \/ level_below f t' x y z.
Proof. exact level_cases_at. Qed.
Print Assumptions level_outcomes.
Theorem level_value_one : forall f t x y z q q', slev_field f -> level_value f t x y z q -> level_value f t x y z q' -> q == q'.
Proof. exact level_value_one_lemma. Qed.
Print Assumptions level_value_one.

Theorem level_outside : forall f t t' x y z, slev_field f -> sampled_at f t t' -> ~ (inside (l_lon f) x /\ inside (l_lat f) y) ->
  py_sample_s f t x y z = ISearch OutOfBounds.
Proof. exact py_level_outside. Qed.
Print Assumptions level_outside.
Theorem level_outside_jit : forall k f t t' x y z xi0 yi0 zi0 ti0, slev_field f -> sampled_at f t t' ->
  (l_periodic f = true -> ~ t == last_ (l_time f)) ->
  ~ (inside (l_lon f) x /\ inside (l_lat f) y) -> (ti0 < zlen (l_time f))%Z -> (1 < k)%nat ->
  c_sample_s k f t x y z xi0 yi0 zi0 ti0 = ISearch OutOfBounds.
Proof. exact c_level_outside. Qed.
Print Assumptions level_outside_jit.

(** * The two modes agree *)
Theorem level_modes_same_partial : forall k f t x y z xi0 yi0 zi0 ti0, slev_field f ->
  (1 < zlen (l_lon f))%Z -> (1 < zlen (l_lat f))%Z ->
  (l_periodic f = true -> (1 < zlen (l_time f))%Z /\ ~ t == last_ (l_time f)) ->
  l_indices_ok f xi0 yi0 zi0 -> (ti0 < zlen (l_time f))%Z -> (1 < k)%nat ->
  same_result (py_sample_s f t x y z) (c_sample_s k f t x y z xi0 yi0 zi0 ti0).
Proof. exact level_modes_same. Qed.
Print Assumptions level_modes_same_partial.

(** * Laws of the value *)
(** A field that is linear in position, time and depth is reproduced, however the levels lie. *)
Theorem level_linear_field : forall f t x y z q a bx by_ bt bz, slev_field f -> level_value f t x y z q ->
  (forall n j i k, is_node f n j i -> (0 <= k < l_zdim f)%Z ->
     l_data f n k j i == a + bx * at_ (l_lon f) i + by_ * at_ (l_lat f) j + bt * at_ (l_time f) n + bz * level_depth f n k j i) ->
  q == a + bx * coord (l_lon f) x + by_ * coord (l_lat f) y + bt * coord (l_time f) t + bz * z.
Proof. exact level_value_affine. Qed.
Print Assumptions level_linear_field.

(** The value lies between the data at the corners of the cell, on the levels around [z]. *)
Theorem level_value_between : forall f t x y z q p zi zeta lo hi, slev_field f -> level_value f t x y z q ->
  place_of f t x y p -> (0 <= zi)%Z -> (zi + 1 < l_zdim f)%Z -> 0 <= zeta <= 1 ->
  z == depth_at f p zi + zeta * (depth_at f p (zi + 1) - depth_at f p zi) ->
  (forall n j i k, cell_node (l_lon f) (p_xi p) i -> cell_node (l_lat f) (p_yi p) j -> cell_node (l_time f) (p_ti p) n ->
     k = zi \/ k = (zi + 1)%Z -> lo <= l_data f n k j i <= hi) -> lo <= q <= hi.
Proof. exact level_value_bounds. Qed.
Print Assumptions level_value_between.

(** Levels at the same depths everywhere: the field is sampled as on the z grid of C23-C26. *)
Theorem flat_levels_sampled : forall f d t x y z, slev_field f -> flat_levels f d -> (l_periodic f = true -> (1 < zlen (l_time f))%Z) ->
  same_result (py_sample_s f t x y z) (py_sample (z_field f d) t x y z).
Proof. exact flat_levels_as_z. Qed.
Print Assumptions flat_levels_sampled.

(** * Examples *)
(** Two frames of three levels over 2 x 2 nodes; the levels lie deeper to the north-east and move down with time. *)
Definition hill_mem (m : Z) : Q :=
  inject_Z (((m / 4) mod 3) * (10 + m mod 2 + 2 * ((m / 2) mod 2) + 4 * (m / 12)) + 1)%Z.
Definition hill (four : bool) : lfield :=
  mkLfield [0; 1] [0; 1] 3 four hill_mem false false Nemo Linear [0; 10] false true
    (fun n k j i => inject_Z (100 * n + 10 * k * k + 3 * j + i)%Z).
Lemma hill_ok : forall b, slev_field (hill b).
Proof.
  intros b. split; [left; reflexivity|]. split; [reflexivity|]. split; [reflexivity|]. split; [left; reflexivity|].
  assert (I : forall u v : Q, u < v -> increasing [u; v]).
  { intros u v H i j A B. change (j < 2)%Z in B. assert (i = 0%Z) by lia. assert (j = 1%Z) by lia. subst. exact H. }
  split; [split; [cbn; lia|apply I; reflexivity]|]. split; [split; [cbn; lia|apply I; reflexivity]|].
  split; [split; [cbn; lia|apply I; reflexivity]|].
  split; [cbn; lia|]. left. intros n j i k k' (N & J & X) K K'.
  unfold l_tdim, l_ydim, l_xdim in N, J, X. cbn in N, J, X, K'.
  assert (n = 0 \/ n = 1)%Z as [-> | ->] by lia; assert (j = 0 \/ j = 1)%Z as [-> | ->] by lia;
  assert (i = 0 \/ i = 1)%Z as [-> | ->] by lia;
  assert (k = 0 /\ k' = 1 \/ k = 0 /\ k' = 2 \/ k = 1 /\ k' = 2)%Z as [[-> ->]|[[-> ->]|[-> ->]]] by lia;
  destruct b; reflexivity.
Qed.
Definition hill_start : l_indices_ok (hill true) 0 0 0.
Proof. unfold l_indices_ok, valid_start. cbn. lia. Qed.
Example hill_inside : inside (l_lon (hill true)) (1 # 2) /\ inside (l_lat (hill true)) (1 # 4).
Proof. split; right; split; vm_compute; discriminate. Qed.
(** At the middle of the time interval the levels are at 1, 14 and 27: depth 18 is between the second and the third. *)
Example hill_sampled : exists q q', py_sample_s (hill true) 5 (1 # 2) (1 # 4) 18 = IVal q /\
  c_sample_s 2 (hill true) 5 (1 # 2) (1 # 4) 18 0 0 0 0 = IVal q' /\ q == q' /\ q == 61 + (1 # 4) + 30 * (4 # 13).
Proof.
  eexists. eexists. split; [vm_compute; reflexivity|]. split; [vm_compute; reflexivity|]. split; vm_compute; reflexivity.
Qed.
Example hill_errors :
  py_sample_s (hill true) 5 (1 # 2) (1 # 4) (1 # 2) = ISearch ThroughSurface /\
  c_sample_s 2 (hill true) 5 (1 # 2) (1 # 4) (1 # 2) 0 0 0 0 = ISearch ThroughSurface /\
  py_sample_s (hill true) 5 (1 # 2) (1 # 4) 28 = ISearch OutOfBounds /\
  c_sample_s 2 (hill true) 5 (1 # 2) (1 # 4) 28 0 0 0 0 = ISearch OutOfBounds.
Proof. vm_compute. repeat split. Qed.

(** Data equal to depth plus twice the longitude; the value at depth 18. *)
Definition slope : lfield :=
  mkLfield [0; 1] [0; 1] 3 true hill_mem false false Nemo Linear [0; 10] false true
    (fun n k j i => hill_mem (flat (hill true) n k j i) + 2 * at_ [0; 1] i).
Example slope_ok : slev_field slope /\
  (forall n j i k, is_node slope n j i -> (0 <= k < l_zdim slope)%Z ->
     l_data slope n k j i == 0 + 2 * at_ (l_lon slope) i + 0 * at_ (l_lat slope) j + 0 * at_ (l_time slope) n + 1 * level_depth slope n k j i) /\
  exists q, level_value slope 5 (1 # 2) (1 # 4) 18 q /\ q == 19.
Proof.
  split; [exact (hill_ok true)|]. split.
  - intros n j i k _ _. unfold level_depth. change (flat slope n k j i) with (flat (hill true) n k j i). cbn [slope l_data l_lon l_mem]. ring.
  - eexists. split.
    + exists (mkPlace 0 (1 # 2) 0 (1 # 4) 0 (1 # 2)), 1%Z, (4 # 13).
      split. { repeat split; right; (split; [vm_compute; reflexivity|]); repeat split; vm_compute; congruence. }
      split; [lia|]. split; [reflexivity|]. split; [vm_compute; discriminate|]. split; [vm_compute; discriminate|].
      split; [vm_compute; reflexivity|]. reflexivity.
    + vm_compute. reflexivity.
Qed.

(** Levels at 1, 11 and 21 everywhere. *)
Definition plain : lfield :=
  mkLfield [0; 1] [0; 1] 3 false (fun m => inject_Z (10 * (m / 4) + 1)%Z) false false Nemo Linear [0; 10] false true
    (fun n k j i => inject_Z (100 * n + 10 * k * k + 3 * j + i)%Z).
Example plain_flat : flat_levels plain [1; 11; 21].
Proof.
  split; [reflexivity|]. intros n j i k (N & J & X) K. unfold l_tdim, l_ydim, l_xdim in N, J, X. cbn in N, J, X, K.
  assert (j = 0 \/ j = 1)%Z as [-> | ->] by lia; assert (i = 0 \/ i = 1)%Z as [-> | ->] by lia;
  assert (k = 0 \/ k = 1 \/ k = 2)%Z as [-> |[-> | ->]] by lia; reflexivity.
Qed.

(** * A grid of one column *)
(** JIT mode reads the depth of column 1 of a grid of one column: beyond the end of the depth array at the last level
    of the last row. Scipy mode returns a value. *)
Theorem one_column_refuted : exists f t x y z xi yi zi ti q,
  slev_field f /\ inside (l_lon f) x /\ inside (l_lat f) y /\ l_indices_ok f xi yi zi /\
  py_sample_s f t x y z = IVal q /\ c_sample_s 2 f t x y z xi yi zi ti = ISearch BadIndex.
Proof. exact one_column. Qed.
Print Assumptions one_column_refuted.
