(** C40: the search of the cell of a curvilinear grid, in both modes ([m] is [Py] or [Jit]). *)
From Coq Require Import ZArith Bool QArith Reals Lia Lra.
From Verif Require Import CurvModel CurvSpec CurvProofs CurvProofs2 CurvProofs3 IdxModel IdxSpec.
Open Scope R_scope.

(** * What is found is right *)
(** Partial: for grids whose rows run eastward and whose cells, extended beyond their sides, all reach the
    position ([stale_refuted] shows the need), and up to the terms below 1e-12 the code neglects. *)
Theorem found_in_cell_partial : forall m g x y xi0 yi0 xsi eta xi yi,
  (2 <= v_xdim g)%Z -> (2 <= v_ydim g)%Z -> (0 <= xi0)%Z -> (0 <= yi0)%Z -> same_turn g x -> eastward_cells g -> reached g x y ->
  curv_search m g x y xi0 yi0 = HFound xsi eta xi yi ->
  is_cell g yi xi /\ unit_ xsi /\ unit_ eta /\
  exists q s t, unrolled g yi xi q /\ Rabs (s - xsi) <= / 10 ^ 10 /\ Rabs (t - eta) <= / 10 ^ 10 /\
    bil q s t = x /\ Rabs (bil (cell (v_lat g) yi xi) s t - y) * along_s q t <= 2 * / 10 ^ 12.
Proof. exact curv_found. Qed.
Print Assumptions found_in_cell_partial.

(** * A particle that is still in its cell is found there *)
Theorem start_cell_found : forall m g x y j i q s t, is_cell g j i -> same_turn g x -> lon_range g x ->
  point_of g j i q x y s t -> unit_ s -> unit_ t -> narrow_cell g q ->
  0 < area q (cell (v_lat g) j i) s t -> sides_ok q (cell (v_lat g) j i) -> / 10 ^ 12 <= Rabs (along_s q t) ->
  curv_search m g x y i j = HFound s t i j.
Proof. exact curv_start. Qed.
Print Assumptions start_cell_found.

(** A cell across 180 degrees whose sides are not parallel, and its middle. *)
Definition date_line : curv :=
  mkCurv (fun j i => if (i =? 0)%Z then 170 else if (j =? 0)%Z then -172 else -174)
         (fun j i => if (j =? 0)%Z then 10 else if (i =? 0)%Z then 22 else 20) 2 2 true false.
Definition date_quad : quad := (170, 188, 186, 170).
Example start_cell_case :
  is_cell date_line 0 0 /\ same_turn date_line (357 / 2) /\ lon_range date_line (357 / 2) /\
  point_of date_line 0 0 date_quad (357 / 2) (31 / 2) (/ 2) (/ 2) /\ unit_ (/ 2) /\ narrow_cell date_line date_quad /\
  0 < area date_quad (cell (v_lat date_line) 0 0) (/ 2) (/ 2) /\ sides_ok date_quad (cell (v_lat date_line) 0 0) /\
  / 10 ^ 12 <= Rabs (along_s date_quad (/ 2)).
Proof.
  assert (C : cell (v_lat date_line) 0 0 = (10, 10, 20, 22)) by reflexivity.
  split; [unfold is_cell; cbn; lia|].
  split. { intros _. exists (-180). split; [lra|]. intros j i _ _. cbn [date_line v_lon]. destruct (i =? 0)%Z; [lra|]. destruct (j =? 0)%Z; lra. }
  split. { right. right. right. cbn [date_line v_lon v_xdim Z.sub Z.add Z.opp Z.pos_sub Pos.pred_double Z.eqb]. split; [lra|]. right. lra. }
  split. { unfold point_of. rewrite C. split; [|unfold date_quad, bil; split; lra].
           unfold unrolled, date_quad, cell. cbn [date_line v_spherical v_lon Z.add Z.eqb].
           split; [exists 0%Z; lra|]. split; [exists 1%Z; lra|]. split; [exists 1%Z; lra|]. split; [exists 0%Z; lra|].
           repeat split; apply Rabs_le; lra. }
  split; [unfold unit_; lra|].
  split. { intros _. unfold date_quad. repeat split; apply Rabs_def1; lra. }
  rewrite C. split; [unfold area, along_s, along_t, date_quad, bil; lra|].
  split. { right. unfold along_t, date_quad, bil.
           match goal with |- _ <= Rabs ?e => replace e with (-24) by lra end. rewrite Rabs_left; lra. }
  unfold along_s, date_quad, bil. match goal with |- _ <= Rabs ?e => replace e with 17 by lra end. rewrite Rabs_pos_eq; lra.
Qed.
Example start_cell_run : forall m, curv_search m date_line (357 / 2) (31 / 2) 0 0 = HFound (/ 2) (/ 2) 0 0.
Proof. intros m. destruct start_cell_case as (H1 & H2 & H3 & H4 & H5 & H6 & H7 & H8 & H9). exact (start_cell_found m _ _ _ _ _ _ _ _ H1 H2 H3 H4 H5 H5 H6 H7 H8 H9). Qed.

Example found_case : same_turn date_line (357 / 2) /\ eastward_cells date_line /\ reached date_line (357 / 2) (31 / 2).
Proof.
  destruct start_cell_case as (_ & W & _). split; [exact W|].
  assert (G : forall j i q, is_cell date_line j i -> unrolled date_line j i q -> exists k, j = 0%Z /\ i = 0%Z /\
            q = (170 + 360 * IZR k, 188 + 360 * IZR k, 186 + 360 * IZR k, 170 + 360 * IZR k)).
  { intros j i q (H1 & H2 & H3 & H4) U. cbn in H2, H4. assert (i = 0%Z) by lia. assert (j = 0%Z) by lia. subst i j.
    unfold unrolled, cell in U. cbn [date_line v_spherical v_lon Z.add Z.eqb] in U. destruct q as [[[q0 q1] q2] q3].
    destruct U as ((k & ->) & T1 & T2 & T3 & A1 & A2 & A3). exists k. split; [reflexivity|]. split; [reflexivity|].
    apply Rabs_split in A1, A2, A3.
    assert (K : forall p q c, turns p q -> turns p c -> c - (170 + 360 * IZR k) = 0 \/ 0 < c - (170 + 360 * IZR k) < 20 ->
              - 180 <= q - (170 + 360 * IZR k) <= 180 -> q = c).
    { intros p q c Tq Tc Hc Hq. apply (turns_same p); [exact Tq|exact Tc|]. apply Rabs_split_lt. lra. }
    apply f_equal2; [apply f_equal2; [apply f_equal2; [reflexivity|]|]|].
    - apply (K (-172)); [exact T1| |right; lra|exact A1]. exists (k + 1)%Z. rewrite plus_IZR. lra.
    - apply (K (-174)); [exact T2| |right; lra|exact A2]. exists (k + 1)%Z. rewrite plus_IZR. lra.
    - apply (K 170); [exact T3| |left; lra|exact A3]. exists k. lra. }
  split.
  - intros j i q IC U. destruct (G j i q IC U) as (k & -> & -> & ->). unfold eastward, along_s, bil. lra.
  - intros j i q IC U A. destruct (G j i q IC U) as (k & -> & -> & ->). specialize (A eq_refl). unfold first_corner in A.
    apply Rabs_split in A. assert (k = 0)%Z.
    { assert (IZR k < 1) by lra. assert (-1 < IZR k) by lra. apply (lt_IZR _ 1) in H. apply (lt_IZR (-1)) in H0. lia. }
    subst k. exists (/ 2), (/ 2). replace (cell (v_lat date_line) 0 0) with (10, 10, 20, 22) by reflexivity.
    unfold area, along_s, along_t, bil. repeat split; lra.
Qed.

(** * Sheared, rotated and stretched grids: found from any cell *)
Theorem lattice_position_found : forall m g A u v U V, lattice g A u v -> half_turn g (to_x A U V) ->
  forall xi0 yi0, is_cell g yi0 xi0 -> between (v_xdim g) u U -> between (v_ydim g) v V ->
  exists xsi eta xi yi, curv_search m g (to_x A U V) (to_y A U V) xi0 yi0 = HFound xsi eta xi yi /\
    in_cell_tol (v_xdim g) u U xi xsi /\ in_cell_tol (v_ydim g) v V yi eta.
Proof. exact lattice_found. Qed.
Print Assumptions lattice_position_found.

Theorem lattice_position_sound : forall m g A u v U V, lattice g A u v -> half_turn g (to_x A U V) ->
  forall xi0 yi0 xsi eta xi yi, (0 <= xi0)%Z -> (0 <= yi0)%Z ->
  curv_search m g (to_x A U V) (to_y A U V) xi0 yi0 = HFound xsi eta xi yi ->
  in_cell_tol (v_xdim g) u U xi xsi /\ in_cell_tol (v_ydim g) v V yi eta.
Proof. exact lattice_sound. Qed.
Print Assumptions lattice_position_sound.

(** Outside: never found; compiled code on a flat mesh reports the error. *)
Theorem lattice_outside_not_found : forall m g A u v U V, lattice g A u v -> half_turn g (to_x A U V) ->
  forall xi0 yi0, is_cell g yi0 xi0 -> beyond (v_xdim g) u U \/ beyond (v_ydim g) v V ->
  curv_search m g (to_x A U V) (to_y A U V) xi0 yi0 = HOut \/ curv_search m g (to_x A U V) (to_y A U V) xi0 yi0 = HBad.
Proof. exact lattice_outside. Qed.
Print Assumptions lattice_outside_not_found.
Theorem lattice_outside_error_jit : forall g A u v U V xi0 yi0, lattice g A u v -> v_spherical g = false -> is_cell g yi0 xi0 ->
  beyond (v_xdim g) u U \/ beyond (v_ydim g) v V -> curv_search Jit g (to_x A U V) (to_y A U V) xi0 yi0 = HOut.
Proof. exact lattice_outside_jit. Qed.
Print Assumptions lattice_outside_error_jit.

(** Any grid: a position outside the box of the nodes is reported at once, in both modes and whatever the indices the particle carries. *)
Theorem box_outside_error : forall m g x y xi0 yi0, (2 <= v_xdim g)%Z -> (2 <= v_ydim g)%Z -> outside_box g x y ->
  curv_search m g x y xi0 yi0 = HOut.
Proof. exact box_outside. Qed.
Print Assumptions box_outside_error.
Example box_outside_case : outside_box shear 0 5 /\ outside_box shear (-1) 1.
Proof.
  split.
  - left. intros j i Hj Hi. cbn in *. assert (IZR i <= 2) by (apply IZR_le; lia). assert (IZR j <= 1) by (apply IZR_le; lia). lra.
  - right. right. split; [reflexivity|]. split; [cbn; lra|]. right. intros j i Hj Hi. cbn in *.
    assert (0 <= IZR i) by (apply IZR_le; lia). assert (0 <= IZR j) by (apply IZR_le; lia). lra.
Qed.

(** A sheared grid of two cells; inside, and north of it. *)
Example lattice_case : lattice shear shear_map IZR IZR /\ half_turn shear (to_x shear_map (3 / 2) (/ 2)) /\ is_cell shear 0 0 /\
  between (v_xdim shear) IZR (3 / 2) /\ between (v_ydim shear) IZR (/ 2) /\ beyond (v_ydim shear) IZR 2.
Proof.
  split; [exact shear_lattice|]. split; [intros E; discriminate|]. split; [unfold is_cell; cbn; lia|].
  split; [unfold between; cbn; lra|]. split; [unfold between; cbn; lra|].
  intros i H1 H2. right. cbn in H2. replace i with 0%Z by lia. cbn. lra.
Qed.

(** A rectilinear grid given as two-dimensional arrays is such a grid: the search finds the cell that the search
    on the axes (C21) finds. *)
Definition as_curvilinear (lon lat : list Q) : curv :=
  mkCurv (fun j i => Q2R (at_ lon i)) (fun j i => Q2R (at_ lat j)) (zlen lon) (zlen lat) false false.
Lemma identity_lattice : forall lon lat, (2 <= zlen lon)%Z -> (2 <= zlen lat)%Z -> (zlen lon + zlen lat <= 1000000)%Z ->
  increasing lon -> increasing lat -> (forall i, (0 <= i)%Z -> (i + 1 < zlen lon)%Z -> (1 # 1000000000000 <= at_ lon (i + 1) - at_ lon i)%Q) ->
  lattice (as_curvilinear lon lat) (mkAffine 0 0 1 0 0 1) (fun i => Q2R (at_ lon i)) (fun j => Q2R (at_ lat j)).
Proof.
  intros lon lat D1 D2 D3 I1 I2 W. unfold lattice, as_curvilinear. cbn [v_xdim v_ydim v_lon v_lat m_x0 m_y0 m_xu m_xv m_yu m_yv].
  split; [exact D1|]. split; [exact D2|]. split; [exact D3|].
  split; [intros i H1 H2; apply Qreals.Qlt_Rlt; apply I1; lia|]. split; [intros i H1 H2; apply Qreals.Qlt_Rlt; apply I2; lia|].
  split; [intros j i Hj Hi; unfold to_x, to_y; cbn; split; ring|]. split; [lra|]. left. intros i H1 H2.
  specialize (W i H1 H2). apply Qreals.Qle_Rle in W. rewrite Qreals.Q2R_minus in W.
  replace (1 * (Q2R (at_ lon (i + 1)) - Q2R (at_ lon i))) with (Q2R (at_ lon (i + 1)) - Q2R (at_ lon i)) by ring.
  assert (E : Q2R (1 # 1000000000000) = / 10 ^ 12) by (unfold Q2R; cbn [Qnum Qden]; lra). rewrite E in W.
  rewrite Rabs_pos_eq; lra.
Qed.
Theorem rectilinear_as_curvilinear : forall m lon lat x y xi0 yi0,
  (2 <= zlen lon)%Z -> (2 <= zlen lat)%Z -> (zlen lon + zlen lat <= 1000000)%Z -> increasing lon -> increasing lat ->
  (forall i, (0 <= i)%Z -> (i + 1 < zlen lon)%Z -> (1 # 1000000000000 <= at_ lon (i + 1) - at_ lon i)%Q) ->
  (0 <= xi0)%Z -> (xi0 + 1 < zlen lon)%Z -> (0 <= yi0)%Z -> (yi0 + 1 < zlen lat)%Z ->
  (first_ lon <= x <= last_ lon)%Q -> (first_ lat <= y <= last_ lat)%Q ->
  exists xsi eta xi yi, curv_search m (as_curvilinear lon lat) (Q2R x) (Q2R y) xi0 yi0 = HFound xsi eta xi yi /\
    in_cell_tol (zlen lon) (fun i => Q2R (at_ lon i)) (Q2R x) xi xsi /\ in_cell_tol (zlen lat) (fun j => Q2R (at_ lat j)) (Q2R y) yi eta.
Proof.
  intros m lon lat x y xi0 yi0 D1 D2 D3 I1 I2 W A1 A2 A3 A4 [X1 X2] [Y1 Y2].
  pose proof (lattice_found m _ _ _ _ (Q2R x) (Q2R y) (identity_lattice lon lat D1 D2 D3 I1 I2 W)) as L.
  unfold to_x, to_y in L. cbn [m_x0 m_y0 m_xu m_xv m_yu m_yv] in L.
  replace (0 + 1 * Q2R x + 0 * Q2R y) with (Q2R x) in L by ring. replace (0 + 0 * Q2R x + 1 * Q2R y) with (Q2R y) in L by ring.
  apply L; [intros E; discriminate|unfold is_cell; cbn; auto| |]; split; apply Qreals.Qle_Rle; assumption.
Qed.
Print Assumptions rectilinear_as_curvilinear.

(** * Samples *)
Theorem curv_sample_between : forall m g f x y xi0 yi0 r lo hi,
  (2 <= v_xdim g)%Z -> (2 <= v_ydim g)%Z -> (0 <= xi0)%Z -> (0 <= yi0)%Z ->
  (forall j i, (0 <= j < v_ydim g)%Z -> (0 <= i < v_xdim g)%Z -> lo <= f j i <= hi) ->
  curv_linear m g f x y xi0 yi0 = Some r -> lo <= r <= hi.
Proof. exact sample_between. Qed.
Print Assumptions curv_sample_between.
(** A field that is linear in the coordinates of the grid is sampled exactly, up to the tolerance. *)
Theorem curv_sample_linear : forall m g A u v U V xi0 yi0 f a bu bv, lattice g A u v -> half_turn g (to_x A U V) -> is_cell g yi0 xi0 ->
  between (v_xdim g) u U -> between (v_ydim g) v V ->
  (forall j i, (0 <= j < v_ydim g)%Z -> (0 <= i < v_xdim g)%Z -> f j i = a + bu * u i + bv * v j) ->
  exists r xi yi, curv_linear m g f (to_x A U V) (to_y A U V) xi0 yi0 = Some r /\ is_cell g yi xi /\
    Rabs (r - (a + bu * U + bv * V)) <= / 10 ^ 10 * (Rabs bu * (u (xi + 1)%Z - u xi) + Rabs bv * (v (yi + 1)%Z - v yi)).
Proof. exact sample_linear. Qed.
Print Assumptions curv_sample_linear.

(** * What does not hold *)
(** Rows going due north in sheared cells: the position half-way along a side is reported at its end. *)
Theorem north_rows_refuted : exists g x y, (forall j i, is_cell g j i -> 0 < area (cell (v_lat g) j i) (cell (v_lon g) j i) 0 0) /\
  point_of g 0 0 (cell (v_lon g) 0 0) x y (/ 2) 0 /\ forall m, curv_search m g x y 0 0 = HFound 0 0 0 0.
Proof.
  exists north, 0, (/ 2). split; [|split; [|exact north_search]].
  - intros j i (H1 & H2 & H3 & H4). cbn in H2, H4. replace i with 0%Z by lia. replace j with 0%Z by lia.
    unfold area, along_s, along_t, cell, north, bil. cbn. lra.
  - split; [reflexivity|]. unfold cell, north, bil. cbn. lra.
Qed.
Print Assumptions north_rows_refuted.
(** A cell that contains no such point is returned: eta is left over from the cell searched before. *)
Theorem stale_refuted : exists g x y xsi eta xi yi, eastward_cells g /\
  (forall m, curv_search m g x y 0 0 = HFound xsi eta xi yi) /\ bil (cell (v_lat g) yi xi) xsi eta = y - 9 / 4 /\
  forall s t, ~ (bil (cell (v_lon g) yi xi) s t = x /\ bil (cell (v_lat g) yi xi) s t = y).
Proof.
  exists stale, (3 / 4), 3, (/ 2), (/ 2), 1%Z, 0%Z. split; [|split; [exact stale_search|split]].
  - intros j i q (H1 & H2 & H3 & H4) U. cbn in H2, H4. replace j with 0%Z in U by lia. unfold unrolled in U. cbn [stale v_spherical v_lon] in U. subst q.
    assert (C : i = 0%Z \/ i = 1%Z \/ i = 2%Z) by lia. destruct C as [C|[C|C]]; subst i; unfold eastward, along_s, cell, bil, stale_lon; cbn; lra.
  - unfold cell, bil, stale; cbn [v_lat]; unfold stale_lat; cbn. lra.
  - intros s t [E1 E2]. unfold cell, bil, stale in E1, E2. cbn [v_lon v_lat] in E1, E2. unfold stale_lon, stale_lat in E1, E2. cbn in E1, E2.
    assert (X : 2 * s - s * t = 3 / 4) by lra. assert (Y : 2 * t - s * t = 3) by lra.
    assert (T : t = s + 9 / 8) by lra. subst t. assert (0 <= (s - 7 / 16) * (s - 7 / 16)) by apply Rle_0_sqr. lra.
Qed.
Print Assumptions stale_refuted.
(** Nodes from north to south: the middle of the only cell is not found; Scipy mode leaves the array. *)
Theorem south_refuted : exists g x y, (v_xdim g = 2 /\ v_ydim g = 2)%Z /\ v_spherical g = false /\ eastward (cell (v_lon g) 0 0) /\
  point_of g 0 0 (cell (v_lon g) 0 0) x y (/ 2) (/ 2) /\
  curv_search Jit g x y 0 0 = HOut /\ curv_search Py g x y 0 0 = HBad.
Proof.
  exists south, (3 / 4), (- (3 / 4)). split; [split; reflexivity|]. split; [reflexivity|]. split; [unfold eastward, along_s, cell, south, bil; cbn; lra|].
  split; [exact south_point|]. split; [exact south_jit|exact south_py].
Qed.
Print Assumptions south_refuted.
(** Outside a sheared flat grid, Scipy mode fails with an IndexError in place of the out-of-bounds error. *)
Theorem outside_index_refuted : exists g A u v U V xi0 yi0, lattice g A u v /\ v_spherical g = false /\ is_cell g yi0 xi0 /\
  beyond (v_ydim g) v V /\ curv_search Py g (to_x A U V) (to_y A U V) xi0 yi0 = HBad.
Proof.
  exists shear, shear_map, IZR, IZR, (/ 2), 2, 0%Z, 0%Z. destruct lattice_case as (L & _ & IC & _ & _ & B).
  split; [exact L|]. split; [reflexivity|]. split; [exact IC|]. split; [exact B|].
  replace (to_x shear_map (/ 2) 2) with (/ 2) by (unfold to_x; cbn; ring).
  replace (to_y shear_map (/ 2) 2) with (5 / 2) by (unfold to_y; cbn; lra). exact shear_py.
Qed.
Print Assumptions outside_index_refuted.
