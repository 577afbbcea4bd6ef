(** Proofs for C47: the kernel. *)
From Coq Require Import Reals ZArith List Lra Lia Bool.
From Verif Require Import UnitModel UnitSpec UnitProofs CGridModel CGridSpec CGridProofs AdvModel AnaModel AnaSpec AnaProofs.
Import ListNotations.
Open Scope R_scope.

(** Edges of a rectangle. *)
Lemma east_edge m x y0 y1 lat : y0 < y1 ->
  py_dist x x y0 y1 m lat = match m with Flat => y1 - y0 | Spherical => metres_of_lat (y1 - y0) end.
Proof.
  intros D. unfold py_dist, metres_of_lat. destruct m.
  - replace ((x - x) ^ 2 + (y1 - y0) ^ 2) with ((y1 - y0) * (y1 - y0)) by ring. apply sqrt_square. lra.
  - match goal with |- sqrt ?a = _ => replace a with (((y1 - y0) * 60 * 1852) * ((y1 - y0) * 60 * 1852)) by ring end.
    apply sqrt_square. nra.
Qed.
Lemma west_edge m x y0 y1 lat : y0 < y1 ->
  py_dist x x y1 y0 m lat = match m with Flat => y1 - y0 | Spherical => metres_of_lat (y1 - y0) end.
Proof. intros D. rewrite <- (east_edge m x y0 y1 lat D). unfold py_dist. destruct m; f_equal; ring. Qed.
Lemma south_edge m x0 x1 y lat : x0 < x1 -> away m lat ->
  py_dist x0 x1 y y m lat = match m with Flat => x1 - x0 | Spherical => metres_of_lon (x1 - x0) lat end.
Proof.
  intros D A. unfold py_dist, metres_of_lon. destruct m; cbn [away] in A.
  - replace ((x1 - x0) ^ 2 + (y - y) ^ 2) with ((x1 - x0) * (x1 - x0)) by ring. apply sqrt_square. lra.
  - pose proof (cos_pos _ A) as C. replace (pi / 180 * lat) with (lat * pi / 180) by field.
    match goal with |- sqrt ?a = _ => replace a with (((x1 - x0) * 60 * 1852 * cos (lat * pi / 180)) * ((x1 - x0) * 60 * 1852 * cos (lat * pi / 180))) by ring end.
    apply sqrt_square. apply Rmult_le_pos; [nra|lra].
Qed.
Lemma north_edge m x0 x1 y lat : x0 < x1 -> away m lat ->
  py_dist x1 x0 y y m lat = match m with Flat => x1 - x0 | Spherical => metres_of_lon (x1 - x0) lat end.
Proof. intros D A. rewrite <- (south_edge m x0 x1 y lat D A). unfold py_dist. destruct m; f_equal; ring. Qed.

(** Longitudes that need not change. *)
Lemma near_same p0 p : Rabs (p - p0) <= 180 -> py_near p0 p = p.
Proof.
  intros H. unfold py_near. apply Rabs_def2 in H || idtac. destruct (Rlt_dec 180 (p - p0)).
  - unfold Rabs in H. destruct (Rcase_abs (p - p0)); lra.
  - destruct (Rlt_dec 180 (- p + p0)); [|reflexivity]. unfold Rabs in H. destruct (Rcase_abs (p - p0)); lra.
Qed.

Section Cell.
Variables (f : flow) (lon lat : Z -> R) (ti : Z) (v : found) (p : apart).
Hypothesis G : fl_grid f = Rectilinear lon lat.
Notation b := (box_of f lon lat v).
Hypothesis S : solid (fl_withW f) b.
Hypothesis P : plain (fl_mesh f) b p.
Notation m := (fl_mesh f).
Notation jac y := (width m b y * height m b).

Lemma wide x : b_x0 b <= x <= b_x1 b -> py_wrap m x (py_px (fl_grid f) (s_xi v) (s_yi v)) = py_px (fl_grid f) (s_xi v) (s_yi v).
Proof.
  intros X. destruct S as (Sx & Sy & _). unfold py_wrap. rewrite G. cbn [py_px q0 q1 q2 q3]. unfold plain in P.
  cbn [box_of b_x0 b_x1 b_y0 b_y1] in *. destruct m; [reflexivity|]. destruct P as (P0 & P1 & P2 & P3).
  destruct (Rlt_dec (lon (s_xi v)) (x - 225)); [lra|]. destruct (Rlt_dec (x + 225) (lon (s_xi v))); [lra|].
  rewrite !near_same; [reflexivity|..]; unfold Rabs; destruct (Rcase_abs _); lra.
Qed.
Lemma wide_ana : b_x0 b <= a_lon p <= b_x1 b -> ana_wrap m (a_lon p) (a_lat p) (py_px (fl_grid f) (s_xi v) (s_yi v)) = py_px (fl_grid f) (s_xi v) (s_yi v).
Proof.
  intros X. destruct S as (Sx & Sy & _). unfold ana_wrap. rewrite G. cbn [py_px q0 q1 q2 q3]. unfold plain in P.
  cbn [box_of b_x0 b_x1 b_y0 b_y1] in *. destruct m; [reflexivity|]. destruct P as (P0 & P1 & P2 & P3).
  destruct (Rlt_dec (lon (s_xi v)) (a_lon p - 225)); [lra|]. destruct (Rlt_dec (a_lat p + 225) (lon (s_xi v))); [lra|].
  rewrite !near_same; [reflexivity|..]; unfold Rabs; destruct (Rcase_abs _); lra.
Qed.

Lemma away_in y : b_y0 b <= y <= b_y1 b -> away m y.
Proof.
  intros Y. unfold plain in P. unfold away. destruct m; [exact I|]. unfold between_poles in *.
  destruct P as (P0 & P1 & _). lra.
Qed.
Lemma away_0 : away m (b_y0 b).
Proof. apply away_in. destruct S as (_ & H & _). lra. Qed.
Lemma away_1 : away m (b_y1 b).
Proof. apply away_in. destruct S as (_ & H & _). lra. Qed.

Lemma jac_is xsi eta y :
  py_jacobian xsi eta (py_px (fl_grid f) (s_xi v) (s_yi v)) (py_py (fl_grid f) (s_xi v) (s_yi v))
  * match m with Spherical => 1852 * 60 * (1852 * 60) * cos (pi / 180 * y) | Flat => 1 end = jac y.
Proof.
  rewrite G. unfold py_jacobian, dotq, width, height, metres_of_lon, metres_of_lat. cbn [py_px py_py q0 q1 q2 q3 box_of b_x0 b_x1 b_y0 b_y1].
  destruct m; [ring|]. replace (pi / 180 * y) with (y * pi / 180) by field. ring.
Qed.
Lemma width_pos y : away m y -> 0 < width m b y.
Proof.
  intros Y. destruct S as (Sx & _). unfold width. destruct m; [lra|]. unfold metres_of_lon. cbn [away] in Y.
  pose proof (cos_pos _ Y). apply Rmult_lt_0_compat; [|assumption]. lra.
Qed.
Lemma height_pos : 0 < height m b.
Proof. destruct S as (_ & Sy & _). unfold height, metres_of_lat. destruct m; lra. Qed.

(** The velocity in the cell, in terms of the fluxes. *)
Lemma velocity_is tau k x y z : b_x0 b <= x <= b_x1 b \/ m = Flat -> b_y0 b <= y <= b_y1 b \/ m = Flat ->
  let U := frozen f ti tau (fl_U f) k in
  let V := frozen f ti tau (fl_V f) k in
  velocity f ti tau k v b x y z =
  Some ((b_x1 b - b_x0 b) * flow_at (west_value Nemo U (s_xi v) (s_yi v) * height m b) (east_value Nemo U (s_xi v) (s_yi v) * height m b) ((x - b_x0 b) / (b_x1 b - b_x0 b)) / jac y,
        (b_y1 b - b_y0 b) * flow_at (south_value Nemo V (s_xi v) (s_yi v) * width m b (b_y0 b)) (north_value Nemo V (s_xi v) (s_yi v) * width m b (b_y1 b)) ((y - b_y0 b) / (b_y1 b - b_y0 b)) / jac y,
        if fl_withW f then flow_at (frozen f ti tau (fl_W f) (s_zi v) (s_yi v + 1)%Z (s_xi v + 1)%Z) (frozen f ti tau (fl_W f) (s_zi v + 1)%Z (s_yi v + 1)%Z (s_xi v + 1)%Z) ((z - b_z0 b) / (b_z1 b - b_z0 b)) else 0).
Proof.
  intros X Y U V. pose proof S as (Sx & Sy & _). unfold velocity. fold U V.
  set (xsi := (x - b_x0 b) / (b_x1 b - b_x0 b)). set (eta := (y - b_y0 b) / (b_y1 b - b_y0 b)).
  unfold py_uv.
  assert (Wr : py_wrap m x (py_px (fl_grid f) (s_xi v) (s_yi v)) = py_px (fl_grid f) (s_xi v) (s_yi v)).
  { destruct X as [X|X]; [apply wide; exact X|]. rewrite X. reflexivity. }
  rewrite Wr, jac_is.
  assert (Jw : 0 < width m b y).
  { apply width_pos. destruct Y as [Y|Y]; [apply away_in; exact Y|rewrite Y; exact I]. }
  pose proof height_pos as Jh. assert (J : 0 < jac y) by (apply Rmult_lt_0_compat; assumption).
  assert (E0 : dotq (phi2D_lin xsi 0) (py_py (fl_grid f) (s_xi v) (s_yi v)) = b_y0 b)
    by (rewrite G; unfold dotq, phi2D_lin; cbn [py_py q0 q1 q2 q3 box_of b_y0]; ring).
  assert (E1 : dotq (phi2D_lin xsi 1) (py_py (fl_grid f) (s_xi v) (s_yi v)) = b_y1 b)
    by (rewrite G; unfold dotq, phi2D_lin; cbn [py_py q0 q1 q2 q3 box_of b_y1]; ring).
  rewrite E0, E1. rewrite G. cbn [py_px py_py q0 q1 q2 q3].
  change (lon (s_xi v)) with (b_x0 b). change (lon (s_xi v + 1)%Z) with (b_x1 b).
  change (lat (s_yi v)) with (b_y0 b). change (lat (s_yi v + 1)%Z) with (b_y1 b).
  match goal with |- context [Rlt_dec (Rabs ?a) _] => replace a with 0 by (unfold xsi; field; lra) end.
  rewrite Rabs_R0. destruct (Rlt_dec 0 (1 / 10000)); [|lra].
  rewrite (south_edge m _ _ _ _ Sx away_0), (north_edge m _ _ _ _ Sx away_1), (east_edge m _ _ _ _ Sy), (west_edge m _ _ _ _ Sy).
  fold (height m b). fold (width m b (b_y0 b)) (width m b (b_y1 b)).
  unfold uv_of. destruct (Req_EM_T (jac y) 0); [lra|]. cbn [q0 q1 q2 q3].
  unfold py_u0, py_u1, py_v0, py_v1, west_value, east_value, south_value, north_value, py_w.
  replace (s_xi v - 1 + 1)%Z with (s_xi v) by lia. replace (s_yi v - 1 + 1)%Z with (s_yi v) by lia.
  apply f_equal. apply f_equal2; [apply f_equal2|]; [unfold flow_at; field; repeat split; lra..|].
  destruct (fl_withW f); [unfold flow_at; ring|reflexivity].
Qed.

(** The kernel comes down to the three solutions. *)
Lemma core (w : found) (tau ds_t : R) : 0 < a_dt p -> frames f ti (a_time p) (a_dt p) = Some (tau, ds_t) -> 0 < ds_t ->
  shift f w = v -> located (fl_withW f) b v p -> clear_box f ti tau v b ->
  let dz := thickness f b in
  let U := frozen f ti tau (fl_U f) (level f (s_zi v)) in
  let V := frozen f ti tau (fl_V f) (level f (s_zi v)) in
  let W := frozen f ti tau (fl_W f) in
  let floor := jac (a_lat p) in
  let sx := sol (west_value Nemo U (s_xi v) (s_yi v) * height m b * dz) (east_value Nemo U (s_xi v) (s_yi v) * height m b * dz) (s_xsi v) in
  let sy := sol (south_value Nemo V (s_xi v) (s_yi v) * width m b (b_y0 b) * dz)
                (north_value Nemo V (s_xi v) (s_yi v) * width m b (b_y1 b) * dz) (s_eta v) in
  let sz := sol (W (s_zi v) (s_yi v + 1)%Z (s_xi v + 1)%Z * floor) (W (s_zi v + 1)%Z (s_yi v + 1)%Z (s_xi v + 1)%Z * floor) (s_zeta v) in
  exists s, 0 < s /\ s * (floor * dz) <= ds_t /\
    (forall r, 0 <= r <= s -> 0 <= sx r <= 1 /\ 0 <= sy r <= 1 /\ (fl_withW f = true -> 0 <= sz r <= 1)) /\
    (s * (floor * dz) = ds_t \/ sx s = 0 \/ sx s = 1 \/ sy s = 0 \/ sy s = 1 \/ (fl_withW f = true /\ (sz s = 0 \/ sz s = 1))) /\
    analytical f ti w p = ADone (mkA (blend (b_x0 b) (b_x1 b) (sx s)) (blend (b_y0 b) (b_y1 b) (sy s))
      (if fl_withW f then blend (b_z0 b) (b_z1 b) (sz s) else a_depth p) (a_time p) (s * (floor * dz)) (a_next p)).
Proof.
  intros DT FR DS SH (Lx & Ly & Lz) (Cx & Cy & Cz) dz U V W floor sx sy sz. pose proof S as (Sx & Sy & Sz).
  assert (Dz : 0 < dz).
  { unfold dz, thickness. destruct (fl_withW f); [specialize (Sz eq_refl); lra|lra]. }
  rewrite <- Ly in Cz. fold U V W dz in Cx, Cy, Cz. fold floor in Cz.
  destruct (one_direction _ _ _ Cx) as (dx & Ex & Dx).
  destruct (one_direction _ _ _ Cy) as (dy & Ey & Dy). fold sx in Dx. fold sy in Dy.
  pose proof (proj1 Cx) as Rx. pose proof (proj1 Cy) as Ry.
  assert (Xin : b_x0 b <= a_lon p <= b_x1 b) by (rewrite Lx; unfold blend; nra).
  assert (Yin : b_y0 b <= a_lat p <= b_y1 b) by (rewrite Ly; unfold blend; nra).
  assert (Fp : 0 < floor) by (apply Rmult_lt_0_compat; [apply width_pos, away_in; exact Yin|apply height_pos]).
  assert (Vp : 0 < floor * dz) by (apply Rmult_lt_0_compat; assumption).
  assert (FX : forall D k j i area, flux f ti 1 tau D k j i area = frozen f ti tau D k j i * area).
  { intros. unfold flux, frozen. destruct (fl_tdim f <=? 1)%Z; ring. }
  assert (FX2 : forall D k j i a c, flux f ti 1 tau D k j i (a * c) = frozen f ti tau D k j i * a * c).
  { intros. rewrite FX. ring. }
  assert (Zd : exists dZ, (if fl_withW f then compute_ds (W (s_zi v) (s_yi v + 1)%Z (s_xi v + 1)%Z * floor) (W (s_zi v + 1)%Z (s_yi v + 1)%Z (s_xi v + 1)%Z * floor) (s_zeta v) 1 else Some (None, 0, 0))
      = Some (dZ, (if fl_withW f then B_of (W (s_zi v) (s_yi v + 1)%Z (s_xi v + 1)%Z * floor) (W (s_zi v + 1)%Z (s_yi v + 1)%Z (s_xi v + 1)%Z * floor) else 0),
              (if fl_withW f then - (W (s_zi v) (s_yi v + 1)%Z (s_xi v + 1)%Z * floor) else 0)) /\
     match dZ with
     | None => fl_withW f = true -> forall s, 0 <= s -> 0 <= sz s <= 1
     | Some d => fl_withW f = true /\ 0 < d /\ (forall s, 0 <= s <= d -> 0 <= sz s <= 1) /\ (sz d = 0 \/ sz d = 1)
     end).
  { destruct (fl_withW f).
    - destruct (one_direction _ _ _ (Cz eq_refl)) as (dZ & Ez & Dz'). exists dZ. split; [exact Ez|]. fold sz in Dz'.
      destruct dZ; [split; [reflexivity|exact Dz']|intros _; exact Dz'].
    - exists None. split; [reflexivity|]. intros Q. discriminate. }
  destruct Zd as (dZ & Ez & DZ).
  set (st := ds_t / (floor * dz)).
  assert (stp : 0 < st) by (apply Rmult_lt_0_compat; [exact DS|apply Rinv_0_lt_compat; exact Vp]).
  set (s := min_abs dx (min_abs dy (min_abs dZ st))).
  assert (Mn : forall d t, 0 < t -> (match d with Some x => 0 < x | None => True end) ->
    0 < min_abs d t /\ min_abs d t <= t /\ (match d with Some x => min_abs d t <= x | None => True end) /\
    (min_abs d t = t \/ d = Some (min_abs d t))).
  { intros d t Ht Hd. unfold min_abs. destruct d as [x|]; [|repeat split; [exact Ht|lra|left; reflexivity]].
    rewrite (Rabs_right x) by lra. destruct (Rle_dec x t) as [L|L].
    - rewrite Rmin_left by exact L. repeat split; [exact Hd|exact L|lra|right; reflexivity].
    - rewrite Rmin_right by lra. repeat split; [exact Ht|lra|lra|left; reflexivity]. }
  assert (P1 : match dx with Some x => 0 < x | None => True end) by (destruct dx; [exact (proj1 Dx)|exact I]).
  assert (P2 : match dy with Some x => 0 < x | None => True end) by (destruct dy; [exact (proj1 Dy)|exact I]).
  assert (P3 : match dZ with Some x => 0 < x | None => True end) by (destruct dZ; [exact (proj1 (proj2 DZ))|exact I]).
  destruct (Mn dZ st stp P3) as (a1 & a2 & a3 & a4). set (s1 := min_abs dZ st) in *.
  destruct (Mn dy s1 a1 P2) as (b1 & b2 & b3 & b4). set (s2 := min_abs dy s1) in *.
  destruct (Mn dx s2 b1 P1) as (c1 & c2 & c3 & c4). fold s in c1, c2, c3, c4.
  assert (SV : st * (floor * dz) = ds_t) by (unfold st; field; lra).
  exists s. split; [exact c1|]. split; [rewrite <- SV; apply Rmult_le_compat_r; lra|]. split; [|split].
  - intros r Hr. split; [|split].
    + destruct dx as [d|]; [apply (proj1 (proj2 Dx)); lra|apply Dx; lra].
    + destruct dy as [d|]; [apply (proj1 (proj2 Dy)); lra|apply Dy; lra].
    + intros HW. destruct dZ as [d|]; [apply (proj1 (proj2 (proj2 DZ))); lra|apply DZ; [exact HW|lra]].
  - destruct c4 as [c4|c4].
    2:{ right. rewrite c4 in Dx. destruct Dx as (_ & _ & [e|e]); [left|right; left]; exact e. }
    destruct b4 as [b4|b4].
    2:{ right. right. right. rewrite c4. rewrite b4 in Dy. destruct Dy as (_ & _ & [e|e]); [left|right; left]; exact e. }
    destruct a4 as [a4|a4].
    2:{ right. right. right. right. right. rewrite c4, b4. rewrite a4 in DZ. destruct DZ as (HW & _ & _ & e). split; [exact HW|exact e]. }
    left. rewrite c4, b4, a4. exact SV.
  - unfold analytical. destruct (Rlt_dec 0 (a_dt p)); [|lra]. rewrite FR. cbv zeta. rewrite SH.
    rewrite (wide_ana Xin). rewrite jac_is. fold floor.
    assert (E0 : forall xsi, dotq (phi2D_lin xsi 0) (py_py (fl_grid f) (s_xi v) (s_yi v)) = b_y0 b)
      by (intros; rewrite G; unfold dotq, phi2D_lin; cbn [py_py q0 q1 q2 q3 box_of b_y0]; ring).
    assert (E1 : forall xsi, dotq (phi2D_lin xsi 1) (py_py (fl_grid f) (s_xi v) (s_yi v)) = b_y1 b)
      by (intros; rewrite G; unfold dotq, phi2D_lin; cbn [py_py q0 q1 q2 q3 box_of b_y1]; ring).
    rewrite E0, E1. rewrite G. cbn [py_px py_py q0 q1 q2 q3].
    change (lon (s_xi v)) with (b_x0 b). change (lon (s_xi v + 1)%Z) with (b_x1 b).
    change (lat (s_yi v)) with (b_y0 b). change (lat (s_yi v + 1)%Z) with (b_y1 b).
    change (fl_depth f (s_zi v)) with (b_z0 b). change (fl_depth f (s_zi v + 1)%Z) with (b_z1 b).
    rewrite (south_edge m _ _ _ _ Sx away_0), (north_edge m _ _ _ _ Sx away_1), (east_edge m _ _ _ _ Sy), (west_edge m _ _ _ _ Sy).
    fold (height m b). fold (width m b (b_y0 b)) (width m b (b_y1 b)). fold (thickness f b). fold dz.
    rewrite !(fun D k j i a => FX2 D k j i a dz). rewrite !(fun D k j i => FX D k j i floor). fold U V W.
    unfold west_value, east_value, south_value, north_value in *.
    replace (s_xi v - 1 + 1)%Z with (s_xi v) in * by lia. replace (s_yi v - 1 + 1)%Z with (s_yi v) in * by lia.
    rewrite Ex, Ey, Ez. fold st.
    destruct (Req_EM_T (floor * dz) 0); [lra|].
    rewrite (Rabs_right st) by lra. fold s1 s2 s.
    assert (Sharp : forall F0 F1 r, clear F0 F1 r -> F0 = F1 \/ tol < Rabs (F0 - F1)).
    { intros F0 F1 rr (_ & [(e & _)|(e & _)]); [left|right]; exact e. }
    rewrite (rs_is _ _ _ s (Sharp _ _ _ Cx)), (rs_is _ _ _ s (Sharp _ _ _ Cy)).
    assert (ZZ : (if fl_withW f then
         (1 - compute_rs (s_zeta v)
            (if fl_withW f then B_of (W (s_zi v) (s_yi v + 1)%Z (s_xi v + 1)%Z * floor) (W (s_zi v + 1)%Z (s_yi v + 1)%Z (s_xi v + 1)%Z * floor) else 0)
            (if fl_withW f then - (W (s_zi v) (s_yi v + 1)%Z (s_xi v + 1)%Z * floor) else 0) s) * b_z0 b +
         compute_rs (s_zeta v)
            (if fl_withW f then B_of (W (s_zi v) (s_yi v + 1)%Z (s_xi v + 1)%Z * floor) (W (s_zi v + 1)%Z (s_yi v + 1)%Z (s_xi v + 1)%Z * floor) else 0)
            (if fl_withW f then - (W (s_zi v) (s_yi v + 1)%Z (s_xi v + 1)%Z * floor) else 0) s * b_z1 b
        else a_depth p) = (if fl_withW f then blend (b_z0 b) (b_z1 b) (sz s) else a_depth p)).
    { destruct (fl_withW f); [|reflexivity]. rewrite (rs_is _ _ _ s (Sharp _ _ _ (Cz eq_refl))). reflexivity. }
    rewrite ZZ.
    assert (SX : sol (U (s_yi v + 1)%Z (s_xi v) * height m b * dz) (U (s_yi v + 1)%Z (s_xi v + 1)%Z * height m b * dz) (s_xsi v) s = sx s)
      by (unfold sx; replace (s_xi v - 1 + 1)%Z with (s_xi v) by lia; reflexivity).
    assert (SY : sol (V (s_yi v) (s_xi v + 1)%Z * width m b (b_y0 b) * dz) (V (s_yi v + 1)%Z (s_xi v + 1)%Z * width m b (b_y1 b) * dz) (s_eta v) s = sy s)
      by (unfold sy; replace (s_yi v - 1 + 1)%Z with (s_yi v) by lia; reflexivity).
    rewrite SX, SY.
    match goal with |- ADone (mkA ?x1 ?y1 _ _ ?d1 _) = ADone (mkA ?x2 ?y2 _ _ ?d2 _) =>
      replace x1 with x2 by (unfold blend; ring); replace y1 with y2 by (unfold blend; ring); replace d1 with d2 by ring
    end. reflexivity.
Qed.
End Cell.
