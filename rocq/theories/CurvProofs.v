(** Proofs about the search on curvilinear grids. *)
From Coq Require Import List ZArith Bool QArith Reals Lia Lra Psatz ZifyBool.
From Verif Require Import CurvModel CurvSpec.
Import ListNotations.
Open Scope R_scope.

Lemma rlt_true : forall a b, rlt a b = true <-> a < b.
Proof. intros a b. unfold rlt. destruct (Rlt_dec a b); split; intros; try congruence; try lra; auto. Qed.
Lemma rlt_false : forall a b, rlt a b = false <-> b <= a.
Proof. intros a b. unfold rlt. destruct (Rlt_dec a b); split; intros; try congruence; try lra; auto. Qed.
Lemma rle_true : forall a b, rle a b = true <-> a <= b.
Proof. intros a b. unfold rle. destruct (Rle_dec a b); split; intros; try congruence; try lra; auto. Qed.
Lemma rle_false : forall a b, rle a b = false <-> b < a.
Proof. intros a b. unfold rle. destruct (Rle_dec a b); split; intros; try congruence; try lra; auto. Qed.
Lemma req_true : forall a b, req a b = true <-> a = b.
Proof. intros a b. unfold req. destruct (Req_EM_T a b); split; intros; try congruence; auto. Qed.
Lemma req_false : forall a b, req a b = false <-> a <> b.
Proof. intros a b. unfold req. destruct (Req_EM_T a b); split; intros; try congruence; auto. Qed.

Lemma tol_pos : 0 < tol < / 10 ^ 9.
Proof. unfold tol. lra. Qed.
Lemma small_pos : 0 < small < / 10 ^ 11.
Proof. unfold small. lra. Qed.

(** * Algebra of one cell *)
Lemma bil_c : forall p s t, bil p s t = c0 p + c1 p * s + c2 p * t + c3 p * s * t.
Proof. intros [[[p0 p1] p2] p3] s t. unfold bil, c0, c1, c2, c3. ring. Qed.
Lemma along_s_c : forall p t, along_s p t = c1 p + c3 p * t.
Proof. intros p t. unfold along_s. rewrite !bil_c. ring. Qed.
Lemma along_t_c : forall p s, along_t p s = c2 p + c3 p * s.
Proof. intros p s. unfold along_t. rewrite !bil_c. ring. Qed.
Lemma cross_aa : forall a b, along_t a 1 * along_t b 0 - along_t a 0 * along_t b 1 = q_aa a b.
Proof. intros a b. rewrite !along_t_c. unfold q_aa. ring. Qed.

Lemma quad_id : forall a b x y s t,
  q_aa a b * t * t + q_bb a b x y * t + q_cc a b x y =
  along_s a t * (bil b s t - y) + (c1 b + c3 b * t) * (x - bil a s t).
Proof. intros a b x y s t. rewrite along_s_c, !bil_c. unfold q_aa, q_bb, q_cc. ring. Qed.
Lemma root_of : forall a b x y s t, bil a s t = x -> bil b s t = y ->
  q_aa a b * t * t + q_bb a b x y * t + q_cc a b x y = 0 /\ 2 * q_aa a b * t + q_bb a b x y = area a b s t.
Proof.
  intros a b x y s t Hx Hy. rewrite (quad_id a b x y s t), Hx, Hy. split; [ring|].
  unfold area. rewrite !along_s_c, !along_t_c. subst x y. rewrite !bil_c. unfold q_aa, q_bb. ring.
Qed.
Lemma det_area : forall a b x y s t, bil a s t = x -> bil b s t = y ->
  q_bb a b x y * q_bb a b x y - 4 * q_aa a b * q_cc a b x y = area a b s t * area a b s t.
Proof.
  intros a b x y s t Hx Hy. destruct (root_of a b x y s t Hx Hy) as [H1 H2].
  rewrite <- H2.
  transitivity (q_bb a b x y * q_bb a b x y - 4 * q_aa a b * q_cc a b x y + 4 * q_aa a b * (q_aa a b * t * t + q_bb a b x y * t + q_cc a b x y)).
  - rewrite H1. ring.
  - ring.
Qed.

(** The formula for xsi puts the point at the longitude x. *)
Lemma new_xsi_lon : forall a b x y eta xsi, small <= Rabs (along_s a eta) -> new_xsi a b x y eta = Some xsi -> bil a xsi eta = x.
Proof.
  intros a b x y eta xsi H E. rewrite along_s_c in H. unfold new_xsi in E.
  destruct (rlt (Rabs (c1 a + c3 a * eta)) small) eqn:F; [apply rlt_true in F; lra|].
  injection E as <-. rewrite bil_c.
  assert (N : c1 a + c3 a * eta <> 0). { intros N. rewrite N, Rabs_R0 in H. pose proof small_pos. lra. }
  field. exact N.
Qed.
Lemma new_xsi_some : forall a b x y eta, small <= Rabs (along_s a eta) -> exists xsi, new_xsi a b x y eta = Some xsi.
Proof.
  intros a b x y eta H. rewrite along_s_c in H. unfold new_xsi.
  destruct (rlt (Rabs (c1 a + c3 a * eta)) small) eqn:F; [apply rlt_true in F; lra|]. eexists; reflexivity.
Qed.
Lemma bil_inj_s : forall a s s' t, bil a s t = bil a s' t -> along_s a t <> 0 -> s = s'.
Proof. intros a s s' t E N. rewrite along_s_c in N. rewrite !bil_c in E. apply (Rmult_eq_reg_l (c1 a + c3 a * t)); [lra|exact N]. Qed.

(** The root that is taken is the one of cells of positive area. *)
Lemma new_eta_exact : forall m a b x y s t eta0, bil a s t = x -> bil b s t = y -> 0 < area a b s t ->
  sides_ok a b -> new_eta m a b x y eta0 = Some t.
Proof.
  intros m a b x y s t eta0 Hx Hy J S. unfold sides_ok in S. rewrite cross_aa in S.
  destruct (root_of a b x y s t Hx Hy) as [H1 H2]. pose proof (det_area a b x y s t Hx Hy) as HD. unfold new_eta.
  destruct (rlt (Rabs (q_aa a b)) small) eqn:F.
  - apply rlt_true in F. destruct S as [S|S]; [|unfold small in F; lra].
    rewrite S in H1, H2. assert (B : q_bb a b x y <> 0) by lra.
    destruct (req (q_bb a b x y) 0) eqn:G; [apply req_true in G; contradiction|]. f_equal.
    assert (C : q_cc a b x y = - (q_bb a b x y * t)) by lra. rewrite C. field. exact B.
  - apply rlt_false in F. assert (A : q_aa a b <> 0). { intros A. rewrite A, Rabs_R0 in F. pose proof small_pos. lra. }
    rewrite HD. rewrite sqrt_square by lra.
    assert (P : 0 < area a b s t * area a b s t) by (apply Rmult_lt_0_compat; exact J).
    destruct m.
    + destruct (rlt 0 (area a b s t * area a b s t)) eqn:G; [|apply rlt_false in G; lra].
      f_equal. rewrite <- H2. field. exact A.
    + destruct (rle 0 (area a b s t * area a b s t)) eqn:G; [|apply rle_false in G; lra].
      f_equal. rewrite <- H2. field. exact A.
Qed.

(** When the position is reached by the cell, eta solves the equation of the cell, up to the quadratic term
    that is neglected below 1e-12. *)
Lemma new_eta_root : forall m a b x y s0 t0 eta0 eta, bil a s0 t0 = x -> bil b s0 t0 = y -> area a b s0 t0 <> 0 ->
  new_eta m a b x y eta0 = Some eta ->
  Rabs (q_aa a b * eta * eta + q_bb a b x y * eta + q_cc a b x y) <= small * (eta * eta).
Proof.
  intros m a b x y s0 t0 eta0 eta Hx Hy J E. pose proof (det_area a b x y s0 t0 Hx Hy) as HD. unfold new_eta in E.
  destruct (rlt (Rabs (q_aa a b)) small) eqn:F.
  - apply rlt_true in F. destruct (req (q_bb a b x y) 0) eqn:G; [discriminate|]. apply req_false in G. injection E as E.
    assert (X : q_bb a b x y * eta + q_cc a b x y = 0). { rewrite <- E. field. exact G. }
    replace (q_aa a b * eta * eta + q_bb a b x y * eta + q_cc a b x y) with (q_aa a b * (eta * eta)).
    + rewrite Rabs_mult. rewrite (Rabs_pos_eq (eta * eta)) by nra. apply Rmult_le_compat_r; nra.
    + transitivity (q_aa a b * eta * eta + (q_bb a b x y * eta + q_cc a b x y)); [rewrite X; ring|ring].
  - apply rlt_false in F. assert (A : q_aa a b <> 0). { intros A. rewrite A, Rabs_R0 in F. pose proof small_pos. lra. }
    rewrite HD in E.
    assert (P : 0 < area a b s0 t0 * area a b s0 t0) by nra.
    assert (E' : eta = (- q_bb a b x y + sqrt (area a b s0 t0 * area a b s0 t0)) / (2 * q_aa a b)).
    { destruct m.
      - destruct (rlt 0 (area a b s0 t0 * area a b s0 t0)) eqn:G; [|apply rlt_false in G; lra]. injection E as <-. reflexivity.
      - destruct (rle 0 (area a b s0 t0 * area a b s0 t0)) eqn:G; [|apply rle_false in G; lra]. injection E as <-. reflexivity. }
    rewrite <- HD in E'. set (dd := q_bb a b x y * q_bb a b x y - 4 * q_aa a b * q_cc a b x y) in *.
    assert (SQ : sqrt dd * sqrt dd = dd) by (apply sqrt_sqrt; rewrite HD; apply Rlt_le; exact P).
    assert (Z : q_aa a b * eta * eta + q_bb a b x y * eta + q_cc a b x y = 0).
    { rewrite E'.
      replace (q_aa a b * ((- q_bb a b x y + sqrt dd) / (2 * q_aa a b)) * ((- q_bb a b x y + sqrt dd) / (2 * q_aa a b)) +
               q_bb a b x y * ((- q_bb a b x y + sqrt dd) / (2 * q_aa a b)) + q_cc a b x y)
        with ((sqrt dd * sqrt dd - q_bb a b x y * q_bb a b x y + 4 * q_aa a b * q_cc a b x y) / (4 * q_aa a b)) by (field; exact A).
      rewrite SQ. unfold dd. field. exact A. }
    rewrite Z, Rabs_R0. pose proof small_pos. nra.
Qed.

(** * Corners *)
Lemma index_in : forall m n i, (0 <= i < n)%Z -> index m n i = Some i.
Proof. intros m n i H. unfold index. destruct ((0 <=? i)%Z && (i <? n)%Z) eqn:E; [reflexivity|lia]. Qed.
Lemma index_pos : forall m n i j, (0 <= i)%Z -> index m n i = Some j -> j = i /\ (i < n)%Z.
Proof.
  intros m n i j H E. unfold index in E. destruct ((0 <=? i)%Z && (i <? n)%Z) eqn:F; [injection E as <-; lia|].
  destruct m; [|discriminate]. destruct ((- n <=? i)%Z && (i <? 0)%Z) eqn:G; [lia|discriminate].
Qed.
Lemma corners_in : forall m g f j i, is_cell g j i -> corners m g f j i = Some (cell f j i).
Proof.
  intros m g f j i (H1 & H2 & H3 & H4). unfold corners, read2.
  rewrite !index_in by lia. reflexivity.
Qed.
Lemma corners_some : forall m g f j i p, (0 <= i)%Z -> (0 <= j)%Z -> corners m g f j i = Some p -> is_cell g j i /\ p = cell f j i.
Proof.
  intros m g f j i p Hi Hj E. unfold corners, read2 in E.
  destruct (index m (v_ydim g) j) as [j1|] eqn:E1; [|discriminate].
  destruct (index m (v_xdim g) i) as [i1|] eqn:E2; [|discriminate].
  destruct (index m (v_xdim g) (i + 1)) as [i2|] eqn:E3; [|discriminate].
  destruct (index m (v_ydim g) (j + 1)) as [j2|] eqn:E4; [|discriminate].
  injection E as <-.
  apply index_pos in E1; [|lia]. apply index_pos in E2; [|lia]. apply index_pos in E3; [|lia]. apply index_pos in E4; [|lia].
  destruct E1 as [-> ?], E2 as [-> ?], E3 as [-> ?], E4 as [-> ?]. unfold is_cell. repeat split; lia.
Qed.

Lemma turns_refl : forall p, turns p p.
Proof. intros p. exists 0%Z. cbn. lra. Qed.
Lemma turns_up : forall p, turns p (p + 360).
Proof. intros p. exists 1%Z. cbn. lra. Qed.
Lemma turns_down : forall p, turns p (p - 360).
Proof. intros p. exists (-1)%Z. cbn. lra. Qed.
Lemma turns_trans : forall p q r, turns p q -> turns q r -> turns p r.
Proof. intros p q r [k ->] [l ->]. exists (k + l)%Z. rewrite plus_IZR. ring. Qed.
Lemma turns_sym : forall p q, turns p q -> turns q p.
Proof. intros p q [k ->]. exists (- k)%Z. rewrite opp_IZR. ring. Qed.

Ltac rb := repeat match goal with
  | |- context [rlt ?a ?b] => let E := fresh "E" in destruct (rlt a b) eqn:E; [apply rlt_true in E|apply rlt_false in E]
  | H : context [rlt ?a ?b] |- _ => let E := fresh "E" in destruct (rlt a b) eqn:E; [apply rlt_true in E|apply rlt_false in E]
  end.

Lemma near0_turns : forall x p, turns p (near0 x p).
Proof.
  intros x p. unfold near0. cbv zeta. rb; first [apply turns_refl | apply turns_up | apply turns_down | idtac].
  replace (p + 360 - 360) with p by ring. apply turns_refl.
Qed.
Lemma near1_turns : forall m p0 p, turns p (near1 m p0 p).
Proof.
  intros [|] p0 p; unfold near1; cbv zeta; rb; first [apply turns_refl | apply turns_up | apply turns_down | idtac].
  - replace (p - 360 + 360) with p by ring. apply turns_refl.
  - replace (p + 360 - 360) with p by ring. apply turns_refl.
Qed.
Lemma near0_range : forall x p, Rabs (p - x) <= 585 -> Rabs (near0 x p - x) <= 225.
Proof.
  intros x p H. apply Rabs_le. unfold Rabs in H. destruct (Rcase_abs (p - x)); unfold near0; cbv zeta; rb; lra.
Qed.
Lemma near1_range : forall m p0 p, Rabs (p - p0) <= 540 -> Rabs (near1 m p0 p - p0) <= 180.
Proof.
  intros [|] p0 p H; apply Rabs_le; unfold Rabs in H; destruct (Rcase_abs (p - p0)); unfold near1; cbv zeta; rb; lra.
Qed.
(** In a window of 360 degrees, the corners come next to the first one. *)
Lemma near_window : forall w x p0 p, w <= x <= w + 360 -> w <= p0 <= w + 360 -> w <= p <= w + 360 -> Rabs (p - near0 x p0) <= 540.
Proof.
  intros w x p0 p Hx H0 H. apply Rabs_le. unfold near0. cbv zeta. rb; lra.
Qed.

Lemma near_unrolled : forall m g x j i, same_turn g x -> is_cell g j i -> unrolled g j i (near_quad m g x (cell (v_lon g) j i)).
Proof.
  intros m g x j i W (H1 & H2 & H3 & H4). unfold unrolled, near_quad, same_turn in *. destruct (v_spherical g); [|reflexivity].
  destruct (W eq_refl) as (w & Hx & Hw). unfold cell.
  pose proof (Hw j i ltac:(lia) ltac:(lia)) as P0. pose proof (Hw j (i + 1)%Z ltac:(lia) ltac:(lia)) as P1.
  pose proof (Hw (j + 1)%Z (i + 1)%Z ltac:(lia) ltac:(lia)) as P2. pose proof (Hw (j + 1)%Z i ltac:(lia) ltac:(lia)) as P3.
  split; [apply near0_turns|]. split; [apply near1_turns|]. split; [apply near1_turns|]. split; [apply near1_turns|].
  split; [|split]; apply near1_range; apply (near_window w); assumption.
Qed.

Lemma near_first : forall m g x j i, same_turn g x -> is_cell g j i -> v_spherical g = true ->
  Rabs (first_corner (near_quad m g x (cell (v_lon g) j i)) - x) <= 225.
Proof.
  intros m g x j i W (H1 & H2 & H3 & H4) F. unfold near_quad. rewrite F. destruct (W F) as (w & Hx & Hw).
  pose proof (Hw j i ltac:(lia) ltac:(lia)) as P0. unfold cell, first_corner. apply near0_range. apply Rabs_le. lra.
Qed.

(** * The loop keeps to the grid *)
Lemma reconnect_in : forall s n m xi yi, (2 <= n)%Z -> (2 <= m)%Z -> (-1 <= xi)%Z ->
  let '(xi', yi') := reconnect s n m xi yi in (0 <= xi')%Z /\ (0 <= yi')%Z /\ (yi' + 1 < m)%Z /\ (s = false -> (xi' + 1 < n)%Z).
Proof.
  intros s n m xi yi Hn Hm Hx. unfold reconnect. cbv zeta.
  destruct (xi <? 0)%Z eqn:A; destruct s;
    repeat match goal with |- context [if (?a <? ?b)%Z then _ else _] => destruct (a <? b)%Z eqn:?E end;
    repeat split; try lia; intros; try discriminate; lia.
Qed.
Lemma reconnect_id : forall s n m xi yi, (0 <= xi)%Z -> (xi + 1 < n)%Z -> (0 <= yi)%Z -> (yi + 1 < m)%Z ->
  reconnect s n m xi yi = (xi, yi).
Proof.
  intros s n m xi yi H1 H2 H3 H4. unfold reconnect. cbv zeta.
  destruct (xi <? 0)%Z eqn:A; [lia|]. destruct (n - 2 <? xi)%Z eqn:B; [lia|].
  destruct (yi <? 0)%Z eqn:C; [lia|]. destruct (m - 2 <? yi)%Z eqn:D; [lia|]. reflexivity.
Qed.
Lemma move_ge : forall r i, (0 <= i)%Z -> (-1 <= move r i)%Z.
Proof. intros r i H. unfold move. rb; lia. Qed.

Lemma off_false : forall xsi eta, off xsi eta = false -> - tol <= xsi <= 1 + tol /\ - tol <= eta <= 1 + tol.
Proof.
  intros xsi eta H. unfold off in H. apply orb_false_elim in H as [H H4]. apply orb_false_elim in H as [H H3].
  apply orb_false_elim in H as [H1 H2]. apply rlt_false in H1, H2, H3, H4. lra.
Qed.
Lemma on_off : forall xsi eta, - tol <= xsi <= 1 + tol -> - tol <= eta <= 1 + tol -> off xsi eta = false.
Proof.
  intros xsi eta H1 H2. unfold off.
  destruct (rlt xsi (- tol)) eqn:A; [apply rlt_true in A; lra|]. destruct (rlt (1 + tol) xsi) eqn:B; [apply rlt_true in B; lra|].
  destruct (rlt eta (- tol)) eqn:C; [apply rlt_true in C; lra|]. destruct (rlt (1 + tol) eta) eqn:D; [apply rlt_true in D; lra|]. reflexivity.
Qed.
Lemma move_stay : forall r i, - tol <= r <= 1 + tol -> move r i = i.
Proof. intros r i H. unfold move. rb; try lra. reflexivity. Qed.
Lemma clamp_unit : forall r, 0 <= clamp r <= 1.
Proof. intros r. unfold clamp. cbv zeta. rb; lra. Qed.
Lemma clamp_id : forall r, 0 <= r <= 1 -> clamp r = r.
Proof. intros r H. unfold clamp. cbv zeta. rb; lra. Qed.
Lemma clamp_tol : forall r, - tol <= r <= 1 + tol -> Rabs (r - clamp r) <= tol.
Proof. intros r H. pose proof tol_pos. apply Rabs_le. unfold clamp. cbv zeta. rb; lra. Qed.

(** What a successful search ended with: one last evaluation in the returned cell. *)
Definition last_pass (m : mode) (g : curv) (x y xsi eta : R) (xi yi : Z) : Prop :=
  is_cell g yi xi /\
  exists s t eta0, - tol <= s <= 1 + tol /\ - tol <= t <= 1 + tol /\ xsi = clamp s /\ eta = clamp t /\
    let a := near_quad m g x (cell (v_lon g) yi xi) in let b := cell (v_lat g) yi xi in
    new_eta m a b x y eta0 = Some t /\ new_xsi a b x y t = Some s.
Lemma loop_found : forall m g x y k eta0 xi0 yi0 xsi eta xi yi,
  (2 <= v_xdim g)%Z -> (2 <= v_ydim g)%Z -> (0 <= xi0)%Z -> (0 <= yi0)%Z ->
  curv_loop m g x y k eta0 xi0 yi0 = HFound xsi eta xi yi -> last_pass m g x y xsi eta xi yi.
Proof.
  intros m g x y k. induction k as [|k IH]; intros eta0 xi0 yi0 xsi eta xi yi Hx Hy H0 H1 E.
  - cbn [curv_loop] in E. destruct (local m g x y eta0 xi0 yi0); try discriminate.
    destruct (_ && _) in E; [discriminate|]. destruct (_ && _) in E; [discriminate|].
    destruct (reconnect _ _ _ _ _) in E. discriminate.
  - cbn [curv_loop] in E. destruct (local m g x y eta0 xi0 yi0) as [s t i j| | |] eqn:L; try discriminate.
    destruct (_ && _) in E; [discriminate|]. destruct (_ && _) in E; [discriminate|].
    destruct (reconnect (sphere_flag m g) (v_xdim g) (v_ydim g) (move s xi0) (move t yi0)) as [xi' yi'] eqn:R.
    destruct (off s t) eqn:O.
    + pose proof (reconnect_in (sphere_flag m g) (v_xdim g) (v_ydim g) (move s xi0) (move t yi0) Hx Hy (move_ge s xi0 H0)) as Q.
      rewrite R in Q. destruct Q as (Q1 & Q2 & _). exact (IH _ _ _ _ _ _ _ Hx Hy Q1 Q2 E).
    + injection E as <- <- <- <-. apply off_false in O. destruct O as [O1 O2].
      unfold local in L.
      destruct (corners m g (v_lon g) yi0 xi0) as [p|] eqn:C1; [|discriminate].
      destruct (corners m g (v_lat g) yi0 xi0) as [b|] eqn:C2; [|discriminate].
      destruct (corners_some _ _ _ _ _ _ H0 H1 C1) as [IC ->]. destruct (corners_some _ _ _ _ _ _ H0 H1 C2) as [_ ->].
      rewrite !move_stay in R by assumption.
      assert (IC' := IC). destruct IC' as (K1 & K2 & K3 & K4). rewrite reconnect_id in R by assumption. injection R as <- <-.
      split; [exact IC|]. exists s, t, eta0.
      destruct (new_eta m _ _ x y eta0) as [eta|] eqn:NE in L; [|discriminate].
      destruct (new_xsi _ _ x y eta) as [xsi|] eqn:NX in L; [|discriminate].
      injection L as -> -> _ _. cbv zeta. auto 8.
Qed.
Lemma search_found : forall m g x y xi0 yi0 xsi eta xi yi,
  (2 <= v_xdim g)%Z -> (2 <= v_ydim g)%Z -> (0 <= xi0)%Z -> (0 <= yi0)%Z ->
  curv_search m g x y xi0 yi0 = HFound xsi eta xi yi -> last_pass m g x y xsi eta xi yi.
Proof.
  intros m g x y xi0 yi0 xsi eta xi yi Hx Hy H0 H1 E. unfold curv_search in E.
  destruct (curv_outside g x y); [discriminate|]. exact (loop_found _ _ _ _ _ _ _ _ _ _ _ _ Hx Hy H0 H1 E).
Qed.

(** * Soundness *)
Lemma width_tol : forall q t, eastward q -> - tol <= t <= 1 + tol -> / 10 ^ 12 <= along_s q t.
Proof.
  intros q t (H0 & H1 & R1 & R2) T.
  assert (E : along_s q t = (1 - t) * along_s q 0 + t * along_s q 1) by (rewrite !along_s_c; ring).
  rewrite E. set (A := along_s q 0) in *. set (B := along_s q 1) in *. clearbody A B. clear E q.
  unfold tol in T.
  destruct (Rle_dec 0 t); [destruct (Rle_dec t 1)|].
  - assert (0 <= (1 - t) * (A - / 10 ^ 11)) by (apply Rmult_le_pos; lra).
    assert (0 <= t * (B - / 10 ^ 11)) by (apply Rmult_le_pos; lra). lra.
  - assert (X : (1 - t) * A >= - / 10 ^ 10 * A). { assert (0 <= (1 - t + / 10 ^ 10) * A) by (apply Rmult_le_pos; lra). lra. }
    assert (Y : B <= t * B). { assert (0 <= (t - 1) * B) by (apply Rmult_le_pos; lra). lra. }
    lra.
  - assert (X : t * B >= - / 10 ^ 10 * B). { assert (0 <= (t + / 10 ^ 10) * B) by (apply Rmult_le_pos; lra). lra. }
    assert (Y : A <= (1 - t) * A). { assert (0 <= - t * A) by (apply Rmult_le_pos; lra). lra. }
    lra.
Qed.

Theorem curv_found : forall m g x y xi0 yi0 xsi eta xi yi,
  (2 <= v_xdim g)%Z -> (2 <= v_ydim g)%Z -> (0 <= xi0)%Z -> (0 <= yi0)%Z -> same_turn g x -> eastward_cells g -> reached g x y ->
  curv_search m g x y xi0 yi0 = HFound xsi eta xi yi ->
  is_cell g yi xi /\ unit_ xsi /\ unit_ eta /\
  exists q s t, unrolled g yi xi q /\ Rabs (s - xsi) <= / 10 ^ 10 /\ Rabs (t - eta) <= / 10 ^ 10 /\
    bil q s t = x /\ Rabs (bil (cell (v_lat g) yi xi) s t - y) * along_s q t <= 2 * / 10 ^ 12.
Proof.
  intros m g x y xi0 yi0 xsi eta xi yi Hx Hy H0 H1 W EC RE E.
  destruct (search_found _ _ _ _ _ _ _ _ _ _ Hx Hy H0 H1 E) as (IC & s & t & eta0 & S & T & -> & -> & NE & NX). cbv zeta in NE, NX.
  split; [exact IC|]. split; [apply clamp_unit|]. split; [apply clamp_unit|].
  set (q := near_quad m g x (cell (v_lon g) yi xi)) in *. set (b := cell (v_lat g) yi xi) in *.
  assert (U : unrolled g yi xi q) by (apply near_unrolled; assumption).
  pose proof (width_tol q t (EC yi xi q IC U) T) as WD.
  assert (LX : bil q s t = x).
  { apply (new_xsi_lon q b x y t s); [|exact NX]. unfold small. rewrite Rabs_pos_eq; lra. }
  exists q, s, t. split; [exact U|]. split; [apply clamp_tol; exact S|]. split; [apply clamp_tol; exact T|]. split; [exact LX|].
  destruct (RE yi xi q IC U (near_first m g x yi xi W IC)) as (s0 & t0 & R1 & R2 & R3).
  pose proof (new_eta_root m q b x y s0 t0 eta0 t R1 R2 R3 NE) as Z.
  rewrite (quad_id q b x y s t), LX in Z. replace (x - x) with 0 in Z by ring. rewrite Rmult_0_r, Rplus_0_r, Rabs_mult in Z.
  rewrite (Rabs_pos_eq (along_s q t)) in Z by lra. rewrite Rmult_comm. eapply Rle_trans; [exact Z|].
  unfold small. unfold tol in T. rewrite Rmult_comm. apply Rmult_le_compat_r; [lra|]. nra.
Qed.
