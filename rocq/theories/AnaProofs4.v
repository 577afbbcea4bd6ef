(** Proofs for C47: an example, and what goes wrong. *)
From Coq Require Import Reals ZArith List Lra Lia Bool.
From Verif Require Import UnitModel UnitSpec UnitProofs CGridModel CGridSpec CGridProofs AdvModel AnaModel AnaSpec AnaProofs AnaProofs2 AnaProofs3.
Import ListNotations.
Open Scope R_scope.

(** Cells of size [c], one unit thick; [U], [V] per column and row, constant in time. *)
Definition cells (withW : bool) (c : R) (U V W : Z -> R) : flow :=
  mkFlow Flat (Rectilinear (fun i => c * IZR i) (fun j => c * IZR j)) withW IZR 1 (fun _ => 0)
    (fun _ _ _ i => U i) (fun _ _ j _ => V j) (fun _ k _ _ => W k).
Definition part (x y dt : R) : apart := mkA x y 0 0 dt None.
Definition here (xsi eta : R) : found := mkFound xsi eta 0 0 0 0.

Lemma far_from_1 r : r <= 1 / 2 -> (if Rlt_dec (Rabs (r - 1)) tol then true else false) = false.
Proof.
  intros H. destruct (Rlt_dec (Rabs (r - 1)) tol) as [L|L]; [|reflexivity]. rewrite Rabs_left in L by lra. unfold tol in L. lra.
Qed.
Lemma no_shift f w : s_xsi w <= 1 / 2 -> s_eta w <= 1 / 2 -> s_zeta w <= 1 / 2 -> shift f w = w.
Proof.
  intros X Y Z. unfold shift. cbv zeta. rewrite (far_from_1 _ X). cbn [andb]. rewrite (far_from_1 _ Y). cbn [andb].
  rewrite (far_from_1 _ Z). rewrite andb_false_r. reflexivity.
Qed.

(** Faster and faster to the east, into a line of convergence, and not up or down. *)
Definition stretching : flow := cells true 1 (fun i => IZR (i + 1)) (fun j => 1 - 2 * IZR j) (fun _ => 0).
Lemma stretching_met :
  in_time stretching 0 0 /\ shift stretching (here 0 (1/4)) = here 0 (1/4) /\
  let b := box_of stretching (fun i => 1 * IZR i) (fun j => 1 * IZR j) (here 0 (1/4)) in
  solid true b /\ located true b (here 0 (1/4)) (part 0 (1/4) 5) /\
  clear_box stretching 0 (weight stretching 0 0) (here 0 (1/4)) b.
Proof.
  pose proof tol_pos as T. assert (T1 : tol < 1 / 1000) by (unfold tol; lra).
  split; [intros H; cbn in H; lia|]. split.
  { apply no_shift; cbn; lra. }
  cbv zeta. unfold box_of, here, part, stretching, cells. cbn [s_xi s_yi s_zi fl_depth].
  split; [unfold solid; cbn; repeat split; intros; lra|].
  split; [unfold located, blend; cbn; repeat split; intros; lra|].
  unfold clear_box, clear, weight, frozen, thickness, level, width, height, west_value, east_value, south_value, north_value, heading, flow_at.
  cbn [fl_mesh fl_withW fl_tdim fl_U fl_V fl_W Z.leb Z.compare Pos.compare Pos.compare_cont b_x0 b_x1 b_y0 b_y1 b_z0 b_z1 s_xi s_yi s_zi s_xsi s_eta s_zeta Z.add Z.sub Z.opp Pos.add].
  change (0 - 1 + 1)%Z with 0%Z. change (Z.pos_sub 1 1) with 0%Z. cbn [Z.add Pos.add].
  repeat match goal with |- context [Rle_dec 0 ?a] => destruct (Rle_dec 0 a); [|exfalso; lra] end.
  split; [|split].
  - split; [lra|]. right. split; [rewrite Rabs_left; lra|]. right. split; [lra|].
    match goal with |- _ <= Rabs (ln ?a) => replace a with 2 by field end. pose proof ln_lt_2 as L2.
    rewrite (Rabs_right (ln 2)) by lra. rewrite Rabs_left by lra. lra.
  - split; [lra|]. right. split; [rewrite Rabs_right; lra|]. left. lra.
  - intros _. split; [lra|]. left. split; [ring|]. left. ring.
Qed.

Lemma no_flow r d : compute_ds 0 0 r d = Some (None, 0, - 0).
Proof.
  pose proof tol_pos. unfold compute_ds. replace (0 - 0) with 0 by ring. rewrite Ropp_0, !Rabs_R0.
  destruct (Rlt_dec 0 tol); [|lra]. rewrite !Rabs_R0. destruct (Rlt_dec 0 tol); [reflexivity|lra].
Qed.
Lemma no_move r s : compute_rs r 0 (- 0) s = r.
Proof. pose proof tol_pos. unfold compute_rs. rewrite Rabs_R0. destruct (Rlt_dec 0 tol); [ring|lra]. Qed.

(** In two dimensions with square cells and no meridional flow. *)
Definition zonal (c : R) (U : Z -> R) : flow := cells false c U (fun _ => 0) (fun _ => 0).
Lemma zonal_run c U xsi p ds B delta : 0 < c -> xsi <= 1 / 2 ->
  let d := if Rlt_dec 0 (a_dt p) then 1 else -1 in
  compute_ds (d * U 0%Z * (c * 1)) (d * U 1%Z * (c * 1)) xsi d = Some (ds, B, delta) ->
  exists p', analytical (zonal c U) 0 (here xsi (1/2)) p = ADone p' /\
    let s := min_abs ds (Rabs (a_dt p / (c * c * 1))) in
    a_lon p' = c * compute_rs xsi B delta s /\ a_lat p' = c / 2 /\ a_depth p' = a_depth p /\ a_time p' = a_time p /\ a_dt p' = d * s * (c * c).
Proof.
  intros C X d E. unfold analytical, frames. unfold zonal, cells at 1. cbn [fl_tdim Z.leb Z.compare Pos.compare Pos.compare_cont].
  rewrite no_shift by (cbn; lra).
  unfold zonal, cells, here, ana_wrap, level, flux, thickness. cbn [s_xsi s_eta s_zeta s_xi s_yi s_zi fl_mesh fl_grid fl_withW fl_depth fl_tdim fl_U fl_V fl_W Z.leb Z.compare Pos.compare Pos.compare_cont py_px py_py q0 q1 q2 q3].
  fold d. cbn [Z.add].
  rewrite (south_edge Flat (c * 0) (c * 1)) by (try exact I; lra).
  rewrite (north_edge Flat (c * 0) (c * 1)) by (try exact I; lra).
  rewrite (east_edge Flat (c * 1) (c * 0) (c * 1)) by lra. rewrite (west_edge Flat (c * 0) (c * 0) (c * 1)) by lra.
  match goal with |- context [py_jacobian ?a ?b ?x ?y * 1] => replace (py_jacobian a b x y * 1) with (c * c) by (unfold py_jacobian, dotq; cbn [q0 q1 q2 q3]; field) end.
  replace (c * 1 - c * 0) with c by ring.
  rewrite E. replace (d * 0 * (c * 1)) with 0 by ring. rewrite no_flow.
  destruct (Req_EM_T (c * c * 1) 0); [exfalso; nra|]. cbn [min_abs].
  eexists. split; [reflexivity|]. cbn [a_lon a_lat a_depth a_time a_dt]. rewrite no_move.
  repeat split; try field.
Qed.

(** Backwards in time a particle leaves the cell. *)
Lemma backward_leaves : exists p', analytical (zonal 1 (fun _ => 1)) 0 (here (1/4) (1/2)) (part (1/4) (1/2) (-10)) = ADone p' /\
  a_lon p' = - (1 / 2) /\ a_dt p' = - (3 / 4).
Proof.
  pose proof tol_pos as T. assert (T1 : tol < 1 / 1000) by (unfold tol; lra).
  destruct (zonal_run 1 (fun _ => 1) (1/4) (part (1/4) (1/2) (-10)) (Some (- (3 / 4))) 0 1) as (p' & E & V); [lra|lra| |].
  - cbn [part a_dt]. destruct (Rlt_dec 0 (-10)); [lra|]. unfold compute_ds.
    replace (-1 * 1 * (1 * 1) - -1 * 1 * (1 * 1)) with 0 by ring. rewrite Rabs_R0. destruct (Rlt_dec 0 tol); [|lra].
    rewrite Rabs_R0. destruct (Rlt_dec 0 tol); [|lra]. replace (- (-1 * 1 * (1 * 1))) with 1 by ring.
    rewrite (Rabs_right 1) by lra. destruct (Rlt_dec 1 tol); [lra|].
    match goal with |- context [Rle_dec 0 ?a] => destruct (Rle_dec 0 a); [|lra] end.
    replace (- (1 - 1 / 4) / 1) with (- (3 / 4)) by field. rewrite (Rabs_left (- (3/4))) by lra.
    destruct (Rlt_dec (- - (3 / 4)) tol); [lra|]. reflexivity.
  - exists p'. split; [exact E|]. cbn [part a_dt a_lon a_lat] in V. destruct (Rlt_dec 0 (-10)); [lra|].
    destruct V as (V1 & _ & _ & _ & V2). unfold min_abs in V1, V2.
    rewrite (Rabs_left (- (3 / 4))) in V1, V2 by lra. rewrite (Rabs_left (-10 / (1 * 1 * 1))) in V1, V2 by lra.
    rewrite Rmin_left in V1, V2 by lra. split.
    + rewrite V1. unfold compute_rs. rewrite Rabs_R0. destruct (Rlt_dec 0 tol); [|lra]. lra.
    + rewrite V2. lra.
Qed.

(** Close to the stagnant face of an accelerating flow it never turns to the other face. *)
Lemma exp_big : 1000000000000 < exp 100.
Proof.
  assert (E : 2 < exp 1) by (pose proof (exp_ineq1 1); lra).
  replace 100 with (INR 100 * 1) by (simpl; ring). rewrite <- Rpower_exp1_pow || idtac.
  assert (P : forall n, 2 ^ n <= exp (INR n * 1)).
  { induction n as [|n IH]; [cbn; rewrite Rmult_0_l, exp_0; lra|].
    rewrite S_INR, Rmult_plus_distr_r, Rmult_1_l, exp_plus. cbn [pow]. pose proof (pow_lt 2 n). nra. }
  eapply Rlt_le_trans; [|apply P]. apply Rlt_le_trans with (2 ^ 40); [lra|]. apply Rle_pow; [lra|lia].
Qed.
Lemma stagnant_leaves : exists p', analytical (zonal 1 IZR) 0 (here (1/100000000000) (1/2)) (part (1/100000000000) (1/2) 100) = ADone p' /\
  a_lon p' > 1 /\ a_dt p' = 100.
Proof.
  pose proof tol_pos as T. assert (T1 : tol = 1 / 10000000000) by reflexivity.
  destruct (zonal_run 1 IZR (1/100000000000) (part (1/100000000000) (1/2) 100) None (-1) 0) as (p' & E & V); [lra|lra| |].
  - cbn [part a_dt]. destruct (Rlt_dec 0 100); [|lra]. unfold compute_ds.
    replace (1 * IZR 0 * (1 * 1) - 1 * IZR 1 * (1 * 1)) with (-1) by ring. rewrite (Rabs_left (-1)) by lra.
    destruct (Rlt_dec (- -1) tol); [lra|]. rewrite (Rabs_left (-1)) by lra.
    destruct (Rlt_dec (- -1) tol); [lra|]. destruct (Rlt_dec tol (- -1)); [|lra].
    match goal with |- context [Rle_dec 0 ?a] => destruct (Rle_dec 0 a); [|lra] end.
    match goal with |- context [Rlt_dec ?a tol] => destruct (Rlt_dec a tol); [|lra] end.
    replace (- (1 * 0 * (1 * 1))) with 0 by ring. reflexivity.
  - exists p'. split; [exact E|]. cbn [part a_dt a_lon a_lat] in V. destruct (Rlt_dec 0 100); [|lra].
    destruct V as (V1 & _ & _ & _ & V2). cbn [min_abs] in V1, V2. replace (100 / (1 * 1 * 1)) with 100 in V1, V2 by field.
    rewrite (Rabs_right 100) in V1, V2 by lra. split; [|rewrite V2; lra].
    rewrite V1. unfold compute_rs. rewrite (Rabs_left (-1)) by lra. destruct (Rlt_dec (- -1) tol); [lra|].
    replace (- -1 * 100) with 100 by ring. pose proof exp_big. lra.
Qed.

(** A particle within 1e-10 of the face it is heading for does not stop there. *)
Lemma at_face_leaves : exists p', analytical (zonal 1 (fun _ => -1)) 0 (here (1/100000000000) (1/2)) (part (1/100000000000) (1/2) 10) = ADone p' /\
  a_lon p' < -9 /\ a_dt p' = 10.
Proof.
  pose proof tol_pos as T. assert (T1 : tol = 1 / 10000000000) by reflexivity.
  destruct (zonal_run 1 (fun _ => -1) (1/100000000000) (part (1/100000000000) (1/2) 10) None 0 1) as (p' & E & V); [lra|lra| |].
  - cbn [part a_dt]. destruct (Rlt_dec 0 10); [|lra]. unfold compute_ds.
    replace (1 * -1 * (1 * 1) - 1 * -1 * (1 * 1)) with 0 by ring. rewrite Rabs_R0. destruct (Rlt_dec 0 tol); [|lra].
    rewrite Rabs_R0. destruct (Rlt_dec 0 tol); [|lra]. replace (- (1 * -1 * (1 * 1))) with 1 by ring.
    rewrite (Rabs_right 1) by lra. destruct (Rlt_dec 1 tol); [lra|].
    match goal with |- context [Rle_dec 0 ?a] => destruct (Rle_dec 0 a); [lra|] end.
    match goal with |- context [Rabs ?a] => rewrite (Rabs_right a) by lra end.
    match goal with |- context [Rlt_dec ?a tol] => destruct (Rlt_dec a tol); [|lra] end. reflexivity.
  - exists p'. split; [exact E|]. cbn [part a_dt a_lon a_lat] in V. destruct (Rlt_dec 0 10); [|lra].
    destruct V as (V1 & _ & _ & _ & V2). cbn [min_abs] in V1, V2. replace (10 / (1 * 1 * 1)) with 10 in V1, V2 by field.
    rewrite (Rabs_right 10) in V1, V2 by lra. split; [|rewrite V2; lra].
    rewrite V1. unfold compute_rs. rewrite Rabs_R0. destruct (Rlt_dec 0 tol); [|lra]. lra.
Qed.

(** A difference of 1e-10 between the fluxes ends the run. *)
Lemma difference_fails p : 0 < a_dt p -> exists p', analytical (zonal 1 (fun i => tol * IZR i)) 0 (here (1/4) (1/2)) p = AFail p'.
Proof.
  intros D. pose proof tol_pos as T. exists p. unfold analytical, frames. unfold zonal, cells at 1. cbn [fl_tdim Z.leb Z.compare Pos.compare Pos.compare_cont].
  rewrite no_shift by (cbn; lra). destruct (Rlt_dec 0 (a_dt p)); [|lra].
  unfold zonal, cells, here, ana_wrap, level, flux, thickness. cbn [s_xsi s_eta s_zeta s_xi s_yi s_zi fl_mesh fl_grid fl_withW fl_depth fl_tdim fl_U fl_V fl_W Z.leb Z.compare Pos.compare Pos.compare_cont py_px py_py q0 q1 q2 q3].
  cbn [Z.add].
  rewrite (east_edge Flat (1 * 1) (1 * 0) (1 * 1)) by lra. rewrite (west_edge Flat (1 * 0) (1 * 0) (1 * 1)) by lra.
  assert (E : compute_ds (1 * (tol * 0) * ((1 * 1 - 1 * 0) * 1)) (1 * (tol * 1) * ((1 * 1 - 1 * 0) * 1)) (1 / 4) 1 = None).
  { unfold compute_ds. replace (1 * (tol * 0) * ((1 * 1 - 1 * 0) * 1) - 1 * (tol * 1) * ((1 * 1 - 1 * 0) * 1)) with (- tol) by ring.
    rewrite Rabs_Ropp, (Rabs_right tol) by lra. destruct (Rlt_dec tol tol); [lra|].
    rewrite Rabs_Ropp, (Rabs_right tol) by lra. destruct (Rlt_dec tol tol); [lra|]. reflexivity. }
  rewrite E. reflexivity.
Qed.

(** A particle at rest ends one turn to the west. *)
Definition resting : flow :=
  mkFlow Spherical (Rectilinear (fun i => 310 + IZR i) (fun j => 10 + IZR j)) false IZR 1 (fun _ => 0)
    (fun _ _ _ _ => 0) (fun _ _ _ _ => 0) (fun _ _ _ _ => 0).
Lemma resting_turned : exists p', analytical resting 0 (here (1/2) (1/2)) (part (310 + 1/2) (10 + 1/2) 10) = ADone p' /\
  a_lon p' = a_lon (part (310 + 1/2) (10 + 1/2) 10) - 360 /\ a_lat p' = 10 + 1/2.
Proof.
  unfold analytical, frames. unfold resting at 1. cbn [fl_tdim Z.leb Z.compare Pos.compare Pos.compare_cont].
  rewrite no_shift by (cbn; lra). cbn [part a_dt a_lon a_lat a_time a_depth a_next]. destruct (Rlt_dec 0 10); [|lra].
  unfold resting, here, ana_wrap, level, flux, thickness. cbn [s_xsi s_eta s_zeta s_xi s_yi s_zi fl_mesh fl_grid fl_withW fl_depth fl_tdim fl_U fl_V fl_W Z.leb Z.compare Pos.compare Pos.compare_cont py_px py_py q0 q1 q2 q3].
  cbn [Z.add].
  destruct (Rlt_dec (310 + 0) (310 + 1 / 2 - 225)); [lra|]. destruct (Rlt_dec (10 + 1 / 2 + 225) (310 + 0)); [|lra].
  cbn [q0 q1 q2 q3]. unfold py_near.
  destruct (Rlt_dec 180 (310 + 1 - (310 + 0 - 360))); [|lra].
  destruct (Rlt_dec 180 (310 + 0 - (310 + 0 - 360))); [|lra].
  destruct (Rlt_dec 180 (- (310 + 1 - 360) + (310 + 0 - 360))); [lra|].
  destruct (Rlt_dec 180 (- (310 + 0 - 360) + (310 + 0 - 360))); [lra|].
  match goal with |- context [compute_ds (1 * 0 * ?a) (1 * 0 * ?b) (1/2) 1] => replace (1 * 0 * a) with 0 by ring; replace (1 * 0 * b) with 0 by ring end.
  rewrite no_flow.
  match goal with |- context [compute_ds ?a ?b (1/2) 1] => replace a with 0 by ring; replace b with 0 by ring end.
  rewrite no_flow.
  match goal with |- context [Req_EM_T ?a 0] => assert (J : a <> 0) end.
  { unfold py_jacobian, dotq. cbn [q0 q1 q2 q3].
    assert (B : between_poles (10 + 1 / 2)) by (unfold between_poles; lra). pose proof (cos_pos _ B) as K.
    replace (pi / 180 * (10 + 1 / 2)) with ((10 + 1 / 2) * pi / 180) by field. nra. }
  match goal with |- context [Req_EM_T ?a 0] => destruct (Req_EM_T a 0); [contradiction|] end.
  eexists. split; [reflexivity|]. cbn [a_lon a_lat]. rewrite !no_move. split; field.
Qed.

Lemma sol_still r s : sol 0 0 r s = r.
Proof. unfold sol. destruct (Req_EM_T 0 0); [ring|contradiction]. Qed.
Lemma sol_even F r s : sol F F r s = r + F * s.
Proof. unfold sol. destruct (Req_EM_T F F); [reflexivity|contradiction]. Qed.
Lemma clear_still r : 0 <= r <= 1 -> clear 0 0 r.
Proof. intros H. split; [exact H|]. left. split; [reflexivity|]. left. reflexivity. Qed.
Lemma clear_even F r : 1 <= F <= 1000000000 -> 0 <= r <= 1 / 2 -> clear F F r.
Proof.
  intros H R. pose proof tol_pos. assert (T : tol = 1 / 10000000000) by reflexivity. split; [lra|]. left. split; [reflexivity|]. right.
  rewrite (Rabs_right F) by lra. split; [lra|]. unfold heading, flow_at.
  match goal with |- context [Rle_dec 0 ?a] => destruct (Rle_dec 0 a); [|lra] end. rewrite Rabs_right by lra. rewrite T. lra.
Qed.

(** Close to the next frame, the step goes well past it. *)
Definition two_frames : flow :=
  mkFlow Flat (Rectilinear (fun i => 100 * IZR i) (fun j => 100 * IZR j)) false IZR 2 (fun n => 9 * IZR n)
    (fun _ _ _ _ => 1) (fun _ _ _ _ => 0) (fun _ _ _ _ => 0).
Definition late : apart := mkA 25 50 0 (17 / 2) 1000 None.
Lemma past_frame : in_time two_frames 0 (a_time late) /\
  exists p', analytical two_frames 0 (here (1/4) (1/2)) late = ADone p' /\ a_dt p' = 9 /\ a_time late + a_dt p' > fl_times two_frames 1.
Proof.
  assert (IT : in_time two_frames 0 (17/2)) by (intros _; cbn; split; [lia|lra]).
  split; [exact IT|].
  assert (FR : frames two_frames 0 (17/2) 1000 = Some (weight two_frames 0 (17/2), 9)).
  { destruct (frames_ok two_frames 0 (17/2) 1000 IT) as (T & E & B & [D|(_ & k & K & TK & KB)]); [lra| |].
    - exfalso. unfold frames in E. cbn [two_frames fl_tdim Z.leb Z.compare Pos.compare Pos.compare_cont Z.add] in E.
      destruct (first_after_found (17 / 2 - fl_times two_frames 0) ((fl_times two_frames (0 + 1)%Z - fl_times two_frames 0) / INR (I_s - 1)) I_s 0) as (j & J & F & JB).
      + cbn. lra. + reflexivity. + cbn. lra. + left. split; [reflexivity|]. cbn. lra.
      + change (fl_times two_frames (0 + 1)%Z) with (fl_times two_frames 1) in F. rewrite F in E. injection E as E2.
        assert (INR j <= 9) by (replace 9 with (INR 9) by (simpl; ring); apply le_INR; lia).
        cbn [two_frames fl_times] in E2. replace (1 + 1 + 1 + 1 + 1 + 1 + 1 + 1 + 1) with 9 in E2 by ring.
        pose proof (Rmin_r 1000 (INR j * ((9 * 1 - 9 * 0) / 9))). lra.
    - rewrite E. do 2 f_equal. cbn [two_frames fl_times Z.add] in TK, KB.
      assert (k = 9%nat).
      { destruct (Nat.le_gt_cases k 8) as [L|L]; [|lia]. exfalso. apply le_INR in L. replace (INR 8) with 8 in L by (simpl; ring). lra. }
      subst k. rewrite TK. simpl. field. }
  assert (S : solid (fl_withW two_frames) (box_of two_frames (fun i => 100 * IZR i) (fun j => 100 * IZR j) (here (1/4) (1/2)))).
  { split; [cbn; lra|split; [cbn; lra|]]. cbn [two_frames fl_withW]. discriminate. }
  assert (M : plain (fl_mesh two_frames) (box_of two_frames (fun i => 100 * IZR i) (fun j => 100 * IZR j) (here (1/4) (1/2))) late) by exact I.
  destruct (core two_frames (fun i => 100 * IZR i) (fun j => 100 * IZR j) 0 (here (1/4) (1/2)) late eq_refl S M (here (1/4) (1/2)) (weight two_frames 0 (17/2)) 9) as (s & s0 & s1 & sin & send & sval).
  - cbn. lra.
  - exact FR.
  - lra.
  - apply no_shift; cbn; lra.
  - unfold located, blend; cbn; split; [lra|split; [lra|discriminate]].
  - unfold clear_box, thickness, level, west_value, east_value, south_value, north_value, frozen, width, height.
    cbn [two_frames fl_withW fl_tdim fl_U fl_V fl_W fl_mesh Z.leb Z.compare Pos.compare Pos.compare_cont here s_xi s_yi s_zi s_xsi s_eta s_zeta box_of b_x0 b_x1 b_y0 b_y1 Z.add].
    set (tau := weight _ _ _). split; [|split; [|discriminate]].
    + match goal with |- clear ?a ?b _ => replace a with 100 by ring; replace b with 100 by ring end. apply clear_even; lra.
    + match goal with |- clear ?a ?b _ => replace a with 0 by ring; replace b with 0 by ring end. apply clear_still; lra.
  - eexists. split; [exact sval|]. cbn [a_dt].
    revert s1 send. clear sval sin. unfold thickness, level, west_value, east_value, south_value, north_value, frozen, width, height.
    cbn [two_frames fl_withW fl_tdim fl_U fl_V fl_W fl_mesh Z.leb Z.compare Pos.compare Pos.compare_cont here s_xi s_yi s_zi s_xsi s_eta s_zeta box_of b_x0 b_x1 b_y0 b_y1 Z.add].
    set (tau := weight _ _ _). intros s1 send.
    match type of send with _ \/ sol ?a ?b _ _ = 0 \/ _ \/ sol ?c ?d _ _ = 0 \/ _ =>
      replace a with 100 in send by ring; replace b with 100 in send by ring; replace c with 0 in send by ring; replace d with 0 in send by ring end.
    rewrite sol_even, sol_still in send.
    assert (E : s * ((100 * 1 - 100 * 0) * (100 * 1 - 100 * 0) * 1) = 9) by (destruct send as [e|[e|[e|[e|[e|(e & _)]]]]]; [exact e|exfalso; lra..|discriminate]).
    split; [exact E|]. rewrite E. cbn. lra.
Qed.

(** In three dimensions the horizontal velocity is that of the level below. *)
Definition layered : flow :=
  mkFlow Flat (Rectilinear (fun i => IZR i) (fun j => IZR j)) true IZR 1 (fun _ => 0)
    (fun _ k _ _ => if (k =? 0)%Z then 1 else 0) (fun _ _ _ _ => 0) (fun _ _ _ _ => 0).
Definition in_layer : found := mkFound (1/4) (1/2) (1/2) 0 0 0.
Definition top : apart := mkA (1/4) (1/2) (1/2) 0 (1/10) None.
Lemma other_level :
  velocity layered 0 0 (s_zi in_layer) in_layer (box_of layered (fun i => IZR i) (fun j => IZR j) in_layer) (1/4) (1/2) (1/2) = Some (1, 0, 0) /\
  exists p', analytical layered 0 in_layer top = ADone p' /\ a_lon p' = a_lon top /\ a_dt p' = a_dt top.
Proof.
  set (b := box_of layered (fun i => IZR i) (fun j => IZR j) in_layer).
  assert (S : solid (fl_withW layered) b) by (split; [cbn; lra|split; [cbn; lra|intros _; cbn; lra]]).
  split.
  - unfold b. rewrite (velocity_is layered (fun i => IZR i) (fun j => IZR j) 0 in_layer top eq_refl S I) by (right; reflexivity).
    unfold west_value, east_value, south_value, north_value, frozen, width, height, flow_at. cbn. apply f_equal. apply f_equal2; [apply f_equal2|]; field.
  - assert (FR : frames layered 0 0 (1/10) = Some (0, 1/10)) by reflexivity.
    destruct (core layered (fun i => IZR i) (fun j => IZR j) 0 in_layer top eq_refl S I in_layer 0 (1/10)) as (s & s0 & s1 & sin & send & sval).
    + cbn. lra.
    + exact FR.
    + lra.
    + apply no_shift; cbn; lra.
    + unfold located, blend; cbn; split; [lra|split; [lra|intros _; lra]].
    + unfold clear_box, thickness, level, west_value, east_value, south_value, north_value, frozen, width, height.
      cbn [layered fl_withW fl_tdim fl_U fl_V fl_W fl_mesh Z.leb Z.compare Pos.compare Pos.compare_cont in_layer s_xi s_yi s_zi s_xsi s_eta s_zeta box_of b_x0 b_x1 b_y0 b_y1 Z.add Z.eqb].
      split; [|split; [|intros _]].
      all: match goal with |- clear ?a ?c _ => replace a with 0 by ring; replace c with 0 by ring end; apply clear_still; lra.
    + eexists. split; [exact sval|]. cbn [a_dt a_lon].
      revert s1 send. clear sval sin. unfold thickness, level, west_value, east_value, south_value, north_value, frozen, width, height.
      cbn [layered fl_withW fl_tdim fl_U fl_V fl_W fl_mesh Z.leb Z.compare Pos.compare Pos.compare_cont in_layer s_xi s_yi s_zi s_xsi s_eta s_zeta box_of b_x0 b_x1 b_y0 b_y1 b_z0 b_z1 fl_depth Z.add Z.eqb].
      intros s1 send. rewrite !Rmult_0_l in *. rewrite !sol_still in *. split.
      * unfold blend, top. cbn. lra.
      * destruct send as [e|[e|[e|[e|[e|(_ & [e|e])]]]]]; [exact e|exfalso; lra..].
Qed.

(** On a spherical mesh the time is that of the first latitude. *)
Definition northward : flow :=
  mkFlow Spherical (Rectilinear (fun i => IZR i) (fun j => 60 * IZR j)) false IZR 1 (fun _ => 0)
    (fun _ _ _ _ => 0) (fun _ _ j _ => 1 + IZR j) (fun _ _ _ _ => 0).
Definition equator : found := mkFound (1/2) 0 0 0 0 0.
Definition ship : apart := mkA (1/2) 0 0 0 (30 * 111120) None.
Definition nbox : box := box_of northward (fun i => IZR i) (fun j => 60 * IZR j) equator.
Lemma north_solid : solid (fl_withW northward) nbox.
Proof. split; [cbn; lra|split; [cbn; lra|]]. cbn [northward fl_withW]. discriminate. Qed.
Lemma north_plain : plain (fl_mesh northward) nbox ship.
Proof. cbn. unfold between_poles. repeat split; lra. Qed.
Lemma nwidth_0 : width Spherical nbox (b_y0 nbox) = 111120.
Proof. unfold width, metres_of_lon. cbn. replace (60 * 0 * pi / 180) with 0 by field. rewrite cos_0. ring. Qed.
Lemma nwidth_1 : width Spherical nbox (b_y1 nbox) = 111120 / 2.
Proof. unfold width, metres_of_lon. cbn. replace (60 * 1 * pi / 180) with (pi / 3) by field. rewrite cos_PI3. field. Qed.
Lemma nheight : height Spherical nbox = 60 * 111120.
Proof. unfold height, metres_of_lat. cbn. ring. Qed.

Lemma slow_clock : exists p', analytical northward 0 equator ship = ADone p' /\ a_lat p' = 30 /\ a_dt p' = 30 * 111120 /\
  forall X Y Z, trajectory (velocity northward 0 0 0 equator nbox) ship (a_dt p') X Y Z ->
    (forall t, 0 <= t <= a_dt p' -> inside false nbox (X t) (Y t) (Z t)) -> Y (a_dt p') <> a_lat p'.
Proof.
  destruct (core northward (fun i => IZR i) (fun j => 60 * IZR j) 0 equator ship eq_refl north_solid north_plain equator 0 (30 * 111120)) as (s & s0 & s1 & sin & send & sval).
  - cbn. lra.
  - reflexivity.
  - lra.
  - apply no_shift; cbn; lra.
  - unfold located, blend; cbn; split; [lra|split; [lra|discriminate]].
  - fold nbox. unfold clear_box. change (fl_mesh northward) with Spherical. rewrite nwidth_0, nwidth_1, nheight.
    unfold thickness, level, west_value, east_value, south_value, north_value, frozen.
    cbn [northward fl_withW fl_tdim fl_U fl_V fl_W Z.leb Z.compare Pos.compare Pos.compare_cont equator s_xi s_yi s_zi s_xsi s_eta s_zeta Z.add Z.sub Z.opp].
    change (0 - 1 + 1)%Z with 0%Z. change (Z.pos_sub 1 1) with 0%Z.
    split; [|split; [|discriminate]].
    + match goal with |- clear ?a ?c _ => replace a with 0 by ring; replace c with 0 by ring end; apply clear_still; lra.
    + match goal with |- clear ?a ?c _ => replace a with 111120 by ring; replace c with 111120 by field end; apply clear_even; lra.
  - fold nbox in s1, sin, send, sval. change (fl_mesh northward) with Spherical in *.
    assert (W0 : width Spherical nbox (a_lat ship) = 111120) by (rewrite <- nwidth_0; f_equal; cbn; ring).
    rewrite W0, nwidth_0, nwidth_1, nheight in *.
    revert s1 send sval. clear sin. unfold thickness, level, west_value, east_value, south_value, north_value, frozen.
    cbn [northward fl_withW fl_tdim fl_U fl_V fl_W Z.leb Z.compare Pos.compare Pos.compare_cont equator s_xi s_yi s_zi s_xsi s_eta s_zeta Z.add Z.sub Z.opp].
    change (0 - 1 + 1)%Z with 0%Z. change (Z.pos_sub 1 1) with 0%Z.
    replace ((1 + 0) * 111120 * 1) with 111120 by ring. replace ((1 + 1) * (111120 / 2) * 1) with 111120 by field.
    replace (0 * (60 * 111120) * 1) with 0 by ring. rewrite (sol_even 111120), (sol_still (1 / 2)). intros s1 send sval.
    assert (E : s * (111120 * (60 * 111120) * 1) = 30 * 111120)
      by (destruct send as [e|[e|[e|[e|[e|(e & _)]]]]]; [exact e|exfalso; lra..|discriminate]).
    eexists. split; [exact sval|]. cbn [a_lat a_dt]. rewrite E.
    assert (A : blend (b_y0 nbox) (b_y1 nbox) (0 + 111120 * s) = 30) by (unfold blend; cbn; lra).
    split; [exact A|]. split; [reflexivity|]. rewrite A. intros X Y Z (x0 & y0 & z0 & D) IN HY.
    (* sin of the latitude grows evenly *)
    assert (C : sin (Y (30 * 111120) * pi / 180) - pi / 180 / 111120 * (30 * 111120) = sin (Y 0 * pi / 180) - pi / 180 / 111120 * 0).
    { apply (zero_deriv_const (fun t => sin (Y t * pi / 180) - pi / 180 / 111120 * t) (30 * 111120)); [lra|]. intros t Ht.
      destruct (D t Ht) as (u & v & w & V & _ & DY & _). destruct (IN t Ht) as (Xi & Yi & _).
      unfold nbox in V. rewrite (velocity_is northward (fun i => IZR i) (fun j => 60 * IZR j) 0 equator ship eq_refl north_solid north_plain) in V by (left; assumption).
      fold nbox in V. change (fl_mesh northward) with Spherical in V. rewrite nwidth_0, nwidth_1, nheight in V.
      unfold west_value, east_value, south_value, north_value, frozen in V.
      cbn [northward fl_withW fl_tdim fl_U fl_V fl_W Z.leb Z.compare Pos.compare Pos.compare_cont equator s_xi s_yi s_zi s_xsi s_eta s_zeta Z.add Z.sub Z.opp] in V.
      change (0 - 1 + 1)%Z with 0%Z in V. change (Z.pos_sub 1 1) with 0%Z in V. injection V as _ Ev _.
      assert (BP : between_poles (Y t)) by (unfold between_poles; cbn in Yi; lra). pose proof (cos_pos _ BP) as K.
      assert (Ev2 : v = 1 / 111120 / cos (Y t * pi / 180)).
      { rewrite <- Ev. unfold flow_at, width, metres_of_lon. cbn. field. lra. }
      assert (DS : derivable_pt_lim (fun t => sin (Y t * pi / 180)) t (cos (Y t * pi / 180) * (pi / 180 * v))).
      { apply (derivable_pt_lim_comp (fun t => Y t * pi / 180) sin); [|apply derivable_pt_lim_sin].
        assert (DK : derivable_pt_lim (fun t => pi / 180 * Y t) t (pi / 180 * v)) by (apply derivable_pt_lim_scal; exact DY).
        intros e He. destruct (DK e He) as (d & Hd). exists d. intros h h1 h2. specialize (Hd h h1 h2).
        replace (Y (t + h) * pi / 180) with (pi / 180 * Y (t + h)) by field. replace (Y t * pi / 180) with (pi / 180 * Y t) by field. exact Hd. }
      replace 0 with (cos (Y t * pi / 180) * (pi / 180 * v) - pi / 180 / 111120 * 1) by (rewrite Ev2; field; lra).
      apply (derivable_pt_lim_minus (fun t => sin (Y t * pi / 180))); [exact DS|]. apply derivable_pt_lim_scal, derivable_pt_lim_id. }
    rewrite HY, y0 in C. cbn [ship a_lat] in C. replace (0 * pi / 180) with 0 in C by field. rewrite sin_0 in C.
    replace (30 * pi / 180) with (pi / 6) in C by field. rewrite sin_PI6 in C.
    pose proof PI2_3_2. unfold PI2 in *. pose proof PI_4. nra.
Qed.
