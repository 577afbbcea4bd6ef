(** Positions for which the search on curvilinear grids goes wrong. *)
From Coq Require Import List ZArith Bool QArith Reals Lia Lra Psatz ZifyBool.
From Verif Require Import CurvModel CurvSpec CurvProofs CurvProofs2.
Import ListNotations.
Open Scope R_scope.

Lemma new_eta_lin : forall m a b x y eta0 B C, q_aa a b = 0 -> q_bb a b x y = B -> q_cc a b x y = C -> B <> 0 ->
  new_eta m a b x y eta0 = Some (- C / B).
Proof.
  intros m a b x y eta0 B C HA <- <- HB. unfold new_eta. cbv zeta. rewrite HA, Rabs_R0.
  replace (rlt 0 small) with true by (symmetry; apply rlt_true; apply small_pos).
  replace (req _ 0) with false by (symmetry; apply req_false; exact HB). reflexivity.
Qed.
Lemma new_eta_stale : forall m a b x y eta0 A D, q_aa a b = A -> 1 <= Rabs A ->
  q_bb a b x y * q_bb a b x y - 4 * q_aa a b * q_cc a b x y = D -> D < 0 -> new_eta m a b x y eta0 = Some eta0.
Proof.
  intros m a b x y eta0 A D <- HA <- HD. unfold new_eta. cbv zeta.
  replace (rlt _ small) with false by (symmetry; apply rlt_false; unfold small; lra).
  destruct m.
  - replace (rlt 0 _) with false by (symmetry; apply rlt_false; lra). reflexivity.
  - replace (rle 0 _) with false by (symmetry; apply rle_false; lra). reflexivity.
Qed.
Lemma new_eta_sqrt : forall m a b x y eta0 A B d, q_aa a b = A -> 1 <= Rabs A -> q_bb a b x y = B ->
  q_bb a b x y * q_bb a b x y - 4 * q_aa a b * q_cc a b x y = d * d -> 0 < d -> new_eta m a b x y eta0 = Some ((- B + d) / (2 * A)).
Proof.
  intros m a b x y eta0 A B d <- HA <- HD Hd. unfold new_eta. cbv zeta.
  replace (rlt _ small) with false by (symmetry; apply rlt_false; unfold small; lra).
  rewrite HD, sqrt_square by lra. assert (0 < d * d) by (apply Rmult_lt_0_compat; exact Hd). destruct m.
  - replace (rlt 0 _) with true by (symmetry; apply rlt_true; lra). reflexivity.
  - replace (rle 0 _) with true by (symmetry; apply rle_true; lra). reflexivity.
Qed.
Lemma new_xsi_div : forall a b x y eta D, c1 a + c3 a * eta = D -> 1 <= 4 * Rabs D ->
  new_xsi a b x y eta = Some ((x - c0 a - c2 a * eta) / D).
Proof.
  intros a b x y eta D <- H. unfold new_xsi.
  replace (rlt _ small) with false by (symmetry; apply rlt_false; unfold small; lra). reflexivity.
Qed.
Lemma local_flat : forall m g x y eta0 i j a b s t, is_cell g j i -> v_spherical g = false ->
  cell (v_lon g) j i = a -> cell (v_lat g) j i = b -> new_eta m a b x y eta0 = Some t -> new_xsi a b x y t = Some s ->
  local m g x y eta0 i j = HFound s t i j.
Proof.
  intros m g x y eta0 i j a b s t IC F <- <- NE NX. unfold local. rewrite !corners_in by exact IC. cbv zeta.
  unfold near_quad. rewrite F, NE, NX. reflexivity.
Qed.

(** * Rows of cells going due north: the formula for xsi takes the mean of two fractions of latitude *)
Definition north : curv := mkCurv (fun j i => IZR j) (fun j i => IZR i + IZR j) 2 2 false false.
Lemma north_search : forall m, curv_search m north 0 (/ 2) 0 0 = HFound 0 0 0 0.
Proof.
  intros m. unfold curv_search. rewrite (outside_false north 0 (/ 2) 0 0 1 0 0 0 1 0) by (cbn [north v_lon v_lat v_xdim v_ydim]; first [lia|lra]).
  rewrite max_iter_S. assert (IC : is_cell north 0 0) by (unfold is_cell; cbn; lia).
  assert (LO : local m north 0 (/ 2) (-1) 0 0 = HFound 0 0 0 0).
  { apply (local_flat m north 0 (/ 2) (-1) 0 0 (0, 0, 1, 1) (0, 1, 2, 1)); [exact IC|reflexivity|reflexivity| | |].
    - unfold cell, north. cbn [v_lat Z.add Z.pos_sub Pos.add]. repeat f_equal; lra.
    - rewrite (new_eta_lin m _ _ _ _ _ (-1) 0); [f_equal; field| | | |lra]; unfold q_aa, q_bb, q_cc, c0, c1, c2, c3; lra.
    - unfold new_xsi, c1, c3. replace (- 0 + 0 + (0 - 0 + 1 - 1) * 0) with 0 by ring. rewrite Rabs_R0.
      replace (rlt 0 small) with true by (symmetry; apply rlt_true; apply small_pos).
      replace (req (1 - 0) 0) with false by (symmetry; apply req_false; lra).
      replace (req (2 - 1) 0) with false by (symmetry; apply req_false; lra). cbn [orb]. f_equal. field. }
  rewrite (loop_step m north 0 (/ 2) _ (-1) 0 0 0 0 0 0 IC LO).
  replace (rlt 0 0) with false by (symmetry; apply rlt_false; lra). cbn [andb].
  pose proof tol_pos. rewrite on_off by lra. rewrite !clamp_id by lra. reflexivity.
Qed.

(** * A cell that does not reach the position keeps the eta of the cell before *)
Definition stale_lon (j i : Z) : R :=
  if (i =? 0)%Z then -3 else if (i =? 1)%Z then 0 else if (i =? 2)%Z then (if (j =? 0)%Z then 2 else 1) else 4.
Definition stale_lat (j i : Z) : R :=
  (if (i =? 0)%Z then -8 else if (i =? 1)%Z then 0 else if (i =? 2)%Z then (if (j =? 0)%Z then 0 else -1) else 4) + 2 * IZR j.
Definition stale : curv := mkCurv stale_lon stale_lat 4 2 false false.
Lemma stale_search : forall m, curv_search m stale (3 / 4) 3 0 0 = HFound (/ 2) (/ 2) 1 0.
Proof.
  intros m. unfold curv_search.
  rewrite (outside_false stale (3 / 4) 3 0 0 0 3 0 0 1 3)
    by (unfold stale; cbn [v_lon v_lat v_xdim v_ydim]; unfold stale_lon, stale_lat; cbn [Z.eqb Pos.eqb]; first [lia|lra]).
  rewrite max_iter_S. assert (IC : is_cell stale 0 0) by (unfold is_cell; cbn; lia). assert (IC1 : is_cell stale 0 1) by (unfold is_cell; cbn; lia).
  assert (L0 : local m stale (3 / 4) 3 (-1) 0 0 = HFound (5 / 4) (/ 2) 0 0).
  { apply (local_flat m stale (3 / 4) 3 (-1) 0 0 (-3, 0, 0, -3) (-8, 0, 2, -6)); [exact IC|reflexivity|reflexivity| | |].
    - unfold cell, stale. cbn [v_lat]. unfold stale_lat. cbn [Z.add Z.eqb Pos.eqb Z.pos_sub Pos.add]. (apply f_equal2; [apply f_equal2; [apply f_equal2|]|]; lra).
    - rewrite (new_eta_lin m _ _ _ _ _ 6 (-3)); [f_equal; field| | | |lra]; unfold q_aa, q_bb, q_cc, c0, c1, c2, c3; lra.
    - rewrite (new_xsi_div _ _ _ _ _ 3); [f_equal; unfold c0, c2; field|unfold c1, c3; lra|rewrite Rabs_pos_eq; lra]. }
  assert (L1 : local m stale (3 / 4) 3 (/ 2) 1 0 = HFound (/ 2) (/ 2) 1 0).
  { apply (local_flat m stale (3 / 4) 3 (/ 2) 1 0 (0, 2, 1, 0) (0, 0, 1, 2)); [exact IC1|reflexivity|reflexivity| | |].
    - unfold cell, stale. cbn [v_lat]. unfold stale_lat. cbn [Z.add Z.eqb Pos.eqb Z.pos_sub Pos.add]. (apply f_equal2; [apply f_equal2; [apply f_equal2|]|]; lra).
    - apply (new_eta_stale m _ _ _ _ _ (-2) (- (143 / 16))); unfold q_aa, q_bb, q_cc, c0, c1, c2, c3; try lra.
      rewrite Rabs_left; lra.
    - rewrite (new_xsi_div _ _ _ _ _ (3 / 2)); [f_equal; unfold c0, c2; field|unfold c1, c3; lra|rewrite Rabs_pos_eq; lra]. }
  rewrite (loop_step m stale (3 / 4) 3 _ (-1) 0 0 _ _ 0 0 IC L0).
  replace (rlt (5 / 4) 0) with false by (symmetry; apply rlt_false; lra). cbn [andb]. pose proof tol_pos.
  replace (off (5 / 4) (/ 2)) with true.
  2: { symmetry. unfold off. replace (rlt (1 + tol) (5 / 4)) with true by (symmetry; apply rlt_true; lra). rewrite orb_true_r. reflexivity. }
  assert (M1 : move (5 / 4) 0 = 1%Z).
  { unfold move. replace (rlt (5 / 4) (- tol)) with false by (symmetry; apply rlt_false; lra).
    replace (rlt (1 + tol) (5 / 4)) with true by (symmetry; apply rlt_true; lra). reflexivity. }
  rewrite M1, move_stay by lra. rewrite reconnect_id by (cbn [stale v_xdim v_ydim]; lia).
  assert (N : exists n, Z.to_nat 999999 = S n). { exists (Z.to_nat 999998). rewrite <- Z2Nat.inj_succ by lia. apply (f_equal Z.to_nat). reflexivity. }
  destruct N as [n ->].
  rewrite (loop_step m stale (3 / 4) 3 n (/ 2) 1 0 _ _ 1 0 IC1 L1).
  replace (rlt (/ 2) 0) with false by (symmetry; apply rlt_false; lra). cbn [andb].
  rewrite on_off by lra. rewrite !clamp_id by lra. reflexivity.
Qed.

(** * Rows of nodes from north to south, with sides that are not parallel: the other root is taken *)
Definition south : curv :=
  mkCurv (fun j i => if (i =? 0)%Z then 0 else if (j =? 0)%Z then 2 else 1)
         (fun j i => if (j =? 0)%Z then 0 else if (i =? 0)%Z then -2 else -1) 2 2 false false.
Lemma south_local : forall m eta0, local m south (3 / 4) (- (3 / 4)) eta0 0 0 = HFound (3 / 2) (3 / 2) 0 0.
Proof.
  intros m eta0. assert (IC : is_cell south 0 0) by (unfold is_cell; cbn; lia).
  apply (local_flat m south _ _ eta0 0 0 (0, 2, 1, 0) (0, 0, -1, -2)); [exact IC|reflexivity|reflexivity|reflexivity| |].
  - rewrite (new_eta_sqrt m _ _ _ _ _ 2 (-4) 2); [f_equal; field| | | | |lra]; unfold q_aa, q_bb, q_cc, c0, c1, c2, c3; try lra.
    rewrite Rabs_pos_eq; lra.
  - rewrite (new_xsi_div _ _ _ _ _ (/ 2)); [f_equal; unfold c0, c2; field|unfold c1, c3; lra|rewrite Rabs_pos_eq; lra].
Qed.
Lemma south_move : move (3 / 2) 0 = 1%Z.
Proof.
  pose proof tol_pos. unfold move. replace (rlt (3 / 2) (- tol)) with false by (symmetry; apply rlt_false; lra).
  replace (rlt (1 + tol) (3 / 2)) with true by (symmetry; apply rlt_true; lra). reflexivity.
Qed.
Lemma south_outside : curv_outside south (3 / 4) (- (3 / 4)) = false.
Proof. apply (outside_false south (3 / 4) (- (3 / 4)) 0 0 0 1 1 0 0 0); cbn [south v_lon v_lat v_xdim v_ydim Z.eqb]; first [lia|lra]. Qed.
Lemma off_32 : off (3 / 2) (3 / 2) = true.
Proof. pose proof tol_pos. unfold off. replace (rlt (1 + tol) (3 / 2)) with true by (symmetry; apply rlt_true; lra). rewrite !orb_true_r. reflexivity. Qed.
Lemma south_jit : curv_search Jit south (3 / 4) (- (3 / 4)) 0 0 = HOut.
Proof.
  unfold curv_search. rewrite south_outside. generalize (-1). generalize max_iter.
  intros n. induction n as [|n IH]; intros e.
  - cbn [curv_loop]. rewrite south_local. cbn [south v_xdim v_ydim Z.sub Z.add Z.opp Z.pos_sub Pos.pred_double Z.eqb].
    rewrite !andb_false_r. destruct (_ && _); [reflexivity|]. destruct (reconnect _ _ _ _ _). reflexivity.
  - rewrite (loop_step Jit south _ _ n e 0 0 _ _ 0 0) with (2 := south_local Jit e) by (unfold is_cell; cbn; lia).
    replace (rlt (3 / 2) 0) with false by (symmetry; apply rlt_false; lra). cbn [andb].
    rewrite off_32, south_move. cbn [south v_xdim v_ydim sphere_flag v_spherical]. unfold reconnect. cbn. apply IH.
Qed.
Lemma bad_read : forall g x y k e i j, (v_xdim g < i + 1)%Z -> curv_loop Py g x y k e i j = HBad \/ (i < 0)%Z.
Proof.
  intros g x y k e i j H. destruct (Z.lt_ge_cases i 0) as [C|C]; [right; exact C|left].
  assert (L : local Py g x y e i j = HBad).
  { unfold local, corners, read2. replace (index Py (v_xdim g) i) with (@None Z).
    - destruct (index Py (v_ydim g) j); reflexivity.
    - unfold index. destruct ((0 <=? i)%Z && (i <? v_xdim g)%Z) eqn:A; [lia|].
      destruct ((- v_xdim g <=? i)%Z && (i <? 0)%Z) eqn:B; [lia|reflexivity]. }
  destruct k; cbn [curv_loop]; rewrite L; reflexivity.
Qed.
Lemma south_py : curv_search Py south (3 / 4) (- (3 / 4)) 0 0 = HBad.
Proof.
  unfold curv_search. rewrite south_outside, max_iter_S.
  rewrite (loop_step Py south _ _ _ (-1) 0 0 _ _ 0 0) with (2 := south_local Py (-1)) by (unfold is_cell; cbn; lia).
  replace (rlt (3 / 2) 0) with false by (symmetry; apply rlt_false; lra). cbn [andb].
  rewrite off_32, south_move. cbn [south v_xdim v_ydim sphere_flag v_spherical].
  change (reconnect true 2 2 1 1) with (2%Z, 0%Z). cbv beta iota.
  destruct (bad_read south (3 / 4) (- (3 / 4)) (Z.to_nat 999999) (3 / 2) 2 0) as [H|H]; [cbn; lia|exact H|lia].
Qed.
(** (3/4, -3/4) is the middle of that cell. *)
Lemma south_point : point_of south 0 0 (cell (v_lon south) 0 0) (3 / 4) (- (3 / 4)) (/ 2) (/ 2).
Proof. split; [reflexivity|]. unfold cell, south. cbn [v_lon v_lat Z.add Z.eqb]. unfold bil. split; lra. Qed.

(** * North of a sheared grid on a flat mesh: Scipy mode leaves the array *)
Definition shear : curv := mkCurv (fun j i => IZR i) (fun j i => IZR j + IZR i) 3 2 false false.
Definition shear_map : affine := mkAffine 0 0 1 0 1 1.
Lemma shear_lattice : lattice shear shear_map IZR IZR.
Proof.
  unfold lattice, shear, shear_map. cbn [v_xdim v_ydim v_lon v_lat m_x0 m_y0 m_xu m_xv m_yu m_yv].
  split; [lia|]. split; [lia|]. split; [lia|].
  assert (M : forall n, mono n IZR) by (intros n i H1 H2; apply IZR_lt; lia).
  split; [apply M|]. split; [apply M|]. split.
  - intros j i Hj Hi. unfold to_x, to_y. cbn. split; ring.
  - split; [lra|]. left. intros i H1 H2. rewrite plus_IZR.
    replace (1 * (IZR i + 1 - IZR i)) with 1 by ring. rewrite Rabs_R1. lra.
Qed.
Lemma shear_py : curv_search Py shear (/ 2) (5 / 2) 0 0 = HBad.
Proof.
  unfold curv_search.
  rewrite (outside_false shear (/ 2) (5 / 2) 0 0 0 2 0 0 1 2) by (cbn [shear v_lon v_lat v_xdim v_ydim]; first [lia|lra]).
  assert (IC : is_cell shear 0 0) by (unfold is_cell; cbn; lia).
  assert (HT : half_turn shear (to_x shear_map (/ 2) 2)) by (intros E; discriminate).
  pose proof (lat_local Py shear shear_map IZR IZR (/ 2) 2 shear_lattice HT 0 0 (-1) IC) as L.
  replace (to_x shear_map (/ 2) 2) with (/ 2) in L by (unfold to_x; cbn; ring).
  replace (to_y shear_map (/ 2) 2) with (5 / 2) in L by (unfold to_y; cbn; lra).
  replace (rel IZR 0 (/ 2)) with (/ 2) in L by (unfold rel; cbn; field).
  replace (rel IZR 0 2) with 2 in L by (unfold rel; cbn; field).
  rewrite max_iter_S. rewrite (loop_step Py shear _ _ _ (-1) 0 0 _ _ 0 0 IC L).
  replace (rlt (/ 2) 0) with false by (symmetry; apply rlt_false; lra). cbn [andb]. pose proof tol_pos.
  replace (off (/ 2) 2) with true.
  2: { symmetry. unfold off. replace (rlt (1 + tol) 2) with true by (symmetry; apply rlt_true; lra). rewrite !orb_true_r. reflexivity. }
  rewrite (move_stay (/ 2)) by lra.
  replace (move 2 0) with 1%Z.
  2: { unfold move. replace (rlt 2 (- tol)) with false by (symmetry; apply rlt_false; lra).
       replace (rlt (1 + tol) 2) with true by (symmetry; apply rlt_true; lra). reflexivity. }
  cbn [shear v_xdim v_ydim sphere_flag]. change (reconnect true 3 2 0 1) with (3%Z, 0%Z). cbv beta iota.
  destruct (bad_read shear (/ 2) (5 / 2) (Z.to_nat 999999) 2 3 0) as [H'|H']; [cbn; lia|exact H'|lia].
Qed.

(** Outside the box of the nodes. *)
Lemma nodes_in : forall g j i, In (j, i) (nodes g) -> (0 <= j < v_ydim g)%Z /\ (0 <= i < v_xdim g)%Z.
Proof.
  intros g j i I. unfold nodes in I. apply in_flat_map in I as (a & A & I). apply in_map_iff in I as (b & E & B). injection E as <- <-.
  apply in_seq in A, B. lia.
Qed.
Lemma all_max_lt : forall g f y, (2 <= v_xdim g)%Z -> (2 <= v_ydim g)%Z -> every_node g (fun j i => f j i < y) -> all_max g f < y.
Proof.
  intros g f y D1 D2 H. unfold all_max.
  assert (G : forall l r, r < y -> (forall j i, In (j, i) l -> f j i < y) -> fold_left (fun r ji => Rmax r (f (fst ji) (snd ji))) l r < y).
  { induction l as [|[j i] l IH]; cbn [fold_left]; intros r Hr Hl; [exact Hr|]. apply IH; [|intros; apply Hl; right; assumption].
    apply Rmax_lub_lt; [exact Hr|]. cbn [fst snd]. apply Hl. left. reflexivity. }
  apply G; [apply H; lia|]. intros j i I. apply nodes_in in I. apply H; tauto.
Qed.
Lemma all_min_gt : forall g f y, (2 <= v_xdim g)%Z -> (2 <= v_ydim g)%Z -> every_node g (fun j i => y < f j i) -> y < all_min g f.
Proof.
  intros g f y D1 D2 H. unfold all_min.
  assert (G : forall l r, y < r -> (forall j i, In (j, i) l -> y < f j i) -> y < fold_left (fun r ji => Rmin r (f (fst ji) (snd ji))) l r).
  { induction l as [|[j i] l IH]; cbn [fold_left]; intros r Hr Hl; [exact Hr|]. apply IH; [|intros; apply Hl; right; assumption].
    apply Rmin_glb_lt; [exact Hr|]. cbn [fst snd]. apply Hl. left. reflexivity. }
  apply G; [apply H; lia|]. intros j i I. apply nodes_in in I. apply H; tauto.
Qed.
Lemma box_outside : forall m g x y xi0 yi0, (2 <= v_xdim g)%Z -> (2 <= v_ydim g)%Z -> outside_box g x y -> curv_search m g x y xi0 yi0 = HOut.
Proof.
  intros m g x y xi0 yi0 D1 D2 H. unfold curv_search. replace (curv_outside g x y) with true; [reflexivity|]. symmetry. unfold curv_outside. cbv zeta.
  destruct H as [H|[H|(Z & W & [H|H])]].
  - apply all_max_lt in H; [|assumption..]. apply rlt_true in H. rewrite H. apply orb_true_r.
  - apply all_min_gt in H; [|assumption..]. apply rlt_true in H. rewrite H, orb_true_r. reflexivity.
  - apply all_max_lt in H; [|assumption..]. apply rlt_true in H, W. rewrite Z, H, W, orb_true_r. reflexivity.
  - apply all_min_gt in H; [|assumption..]. apply rlt_true in H, W. rewrite Z, H, W. reflexivity.
Qed.
