(** Proofs for C37. *)
From Coq Require Import List ZArith Reals Bool Lra Lia.
From Verif Require Import UnitModel UnitSpec UnitProofs CGridModel CGridSpec.
Import ListNotations.
Open Scope R_scope.

Definition xs (c : cell) : quad := Quad (fst (sw c)) (fst (se c)) (fst (ne c)) (fst (nw c)).
Definition ys (c : cell) : quad := Quad (snd (sw c)) (snd (se c)) (snd (ne c)) (snd (nw c)).
Definition norm (v : vec) : R := sqrt (fst v * fst v + snd v * snd v).

(** Tangents of the coordinate lines. *)
Definition e_xsi (c : cell) (eta : R) : vec :=
  (blend (fst (se c) - fst (sw c)) (fst (ne c) - fst (nw c)) eta,
   blend (snd (se c) - snd (sw c)) (snd (ne c) - snd (nw c)) eta).
Definition e_eta (c : cell) (xsi : R) : vec :=
  (blend (fst (nw c) - fst (sw c)) (fst (ne c) - fst (se c)) xsi,
   blend (snd (nw c) - snd (sw c)) (snd (ne c) - snd (se c)) xsi).

Definition scale (m : mesh) (lat : R) : R :=
  match m with Flat => 1 | Spherical => (1852 * 60) * (1852 * 60) * cos (lat * pi / 180) end.

Lemma scale_pos m lat : away m lat -> 0 < scale m lat.
Proof.
  destruct m; cbn; intros H; [lra|]. pose proof (cos_pos _ H). nra.
Qed.

Lemma cross_metres m lat a b : cross (in_metres m lat a) (in_metres m lat b) = scale m lat * cross a b.
Proof. destruct m; unfold cross; cbn; [ring|unfold metres_of_lat, metres_of_lon; ring]. Qed.

Lemma jac_cross xsi eta c : py_jacobian xsi eta (xs c) (ys c) = cross (e_xsi c eta) (e_eta c xsi).
Proof. unfold py_jacobian, dotq, cross, e_xsi, e_eta, blend. cbn. ring. Qed.

Lemma jac_pos c xsi eta : convex c -> unit_square xsi eta -> 0 < cross (e_xsi c eta) (e_eta c xsi).
Proof.
  intros (A & B & C & D) [[X0 X1] [E0 E1]].
  set (a := cross (minus (se c) (sw c)) (minus (nw c) (sw c))) in *.
  set (b := cross (minus (ne c) (se c)) (minus (sw c) (se c))) in *.
  set (d := cross (minus (nw c) (ne c)) (minus (se c) (ne c))) in *.
  set (f := cross (minus (sw c) (nw c)) (minus (ne c) (nw c))) in *.
  replace (cross (e_xsi c eta) (e_eta c xsi))
    with ((1 - xsi) * (1 - eta) * a + xsi * (1 - eta) * b + xsi * eta * d + (1 - xsi) * eta * f)
    by (unfold a, b, d, f, cross, e_xsi, e_eta, minus, blend; cbn; ring).
  assert (0 <= (1 - xsi) * (1 - eta)) by nra. assert (0 <= xsi * (1 - eta)) by nra.
  assert (0 <= xsi * eta) by nra. assert (0 <= (1 - xsi) * eta) by nra.
  assert ((1 - xsi) * (1 - eta) + xsi * (1 - eta) + xsi * eta + (1 - xsi) * eta = 1) by ring.
  set (w1 := (1 - xsi) * (1 - eta)) in *. set (w2 := xsi * (1 - eta)) in *.
  set (w3 := xsi * eta) in *. set (w4 := (1 - xsi) * eta) in *. clearbody a b d f w1 w2 w3 w4.
  assert (H4 : 0 < w1 \/ 0 < w2 \/ 0 < w3 \/ 0 < w4) by lra.
  assert (P1 : 0 <= w1 * a) by nra. assert (P2 : 0 <= w2 * b) by nra.
  assert (P3 : 0 <= w3 * d) by nra. assert (P4 : 0 <= w4 * f) by nra.
  destruct H4 as [H4|[H4|[H4|H4]]].
  - assert (0 < w1 * a) by nra. lra.
  - assert (0 < w2 * b) by nra. lra.
  - assert (0 < w3 * d) by nra. lra.
  - assert (0 < w4 * f) by nra. lra.
Qed.

Lemma uv_value xsi eta U V c jac : jac <> 0 ->
  uv_of xsi eta U V (xs c) (ys c) jac =
  Some ((U * fst (e_xsi c eta) + V * fst (e_eta c xsi)) / jac, (U * snd (e_xsi c eta) + V * snd (e_eta c xsi)) / jac).
Proof.
  intros H. unfold uv_of. destruct (Req_EM_T jac 0); [contradiction|]. f_equal. unfold e_xsi, e_eta, blend. cbn.
  f_equal; field; exact H.
Qed.

Lemma dist_norm a b a' b' m lat : py_dist a b a' b' m lat = norm (in_metres m lat (b - a, b' - a')).
Proof.
  destruct m; unfold norm; cbn [py_dist in_metres fst snd].
  - f_equal. ring.
  - unfold metres_of_lon, metres_of_lat. replace (pi / 180 * lat) with (lat * pi / 180) by field. f_equal. ring.
Qed.

Lemma norm_opp m lat x y : norm (in_metres m lat (- x, - y)) = norm (in_metres m lat (x, y)).
Proof.
  destruct m; unfold norm; cbn [in_metres fst snd]; unfold metres_of_lon, metres_of_lat; f_equal; ring.
Qed.

Lemma norm_pos m lat d : away m lat -> (fst d <> 0 \/ snd d <> 0) -> 0 < norm (in_metres m lat d).
Proof.
  intros A H. unfold norm. apply sqrt_lt_R0. destruct m; cbn [in_metres fst snd].
  - destruct H; nra.
  - cbn in A. pose proof (cos_pos _ A) as C. unfold metres_of_lon, metres_of_lat.
    set (k := cos (lat * pi / 180)) in *. clearbody k.
    destruct H as [H|H].
    + assert (fst d * 60 * 1852 * k <> 0) by (repeat apply Rmult_integral_contrapositive_currified; lra).
      assert (0 <= snd d * 60 * 1852 * (snd d * 60 * 1852)) by nra. nra.
    + assert (0 <= fst d * 60 * 1852 * k * (fst d * 60 * 1852 * k)) by nra. nra.
Qed.

Lemma lat_place xsi eta c : dotq (phi2D_lin xsi eta) (ys c) = snd (place c xsi eta).
Proof. unfold dotq, phi2D_lin, place, blend. cbn. ring. Qed.
Lemma lon_place xsi eta c :
  (1 - xsi) * (1 - eta) * q0 (xs c) + xsi * (1 - eta) * q1 (xs c) + xsi * eta * q2 (xs c) + (1 - xsi) * eta * q3 (xs c)
  = fst (place c xsi eta).
Proof. unfold place, blend. cbn. ring. Qed.

(** ** The longitudes of the cell *)

Lemma px_raw g xi yi : py_px g xi yi = xs (cell_of g xi yi).
Proof. destruct g; reflexivity. Qed.
Lemma py_raw g xi yi : py_py g xi yi = ys (cell_of g xi yi).
Proof. destruct g; reflexivity. Qed.
Lemma c_px_raw g xi yi : c_xgrid g xi yi = xs (cell_of g xi yi).
Proof. destruct g; unfold c_xgrid, c_corner, c_column, c_row, xs; cbn; rewrite ?Z.add_0_r; reflexivity. Qed.
Lemma c_py_raw g xi yi : c_ygrid g xi yi = ys (cell_of g xi yi).
Proof. destruct g; unfold c_ygrid, c_corner, c_column, c_row, ys; cbn; rewrite ?Z.add_0_r; reflexivity. Qed.

Lemma quad_eq a b : q0 a = q0 b -> q1 a = q1 b -> q2 a = q2 b -> q3 a = q3 b -> a = b.
Proof. destruct a, b; cbn; congruence. Qed.

Lemma same_lats m raw c : same_cell m raw c -> ys raw = ys c.
Proof.
  destruct m; cbn; [intros ->; reflexivity|].
  intros [(k0 & k1 & k2 & k3 & (_ & A) & (_ & B) & (_ & C) & (_ & D) & _) _].
  unfold ys. congruence.
Qed.

Lemma turn_cases k : (Z.abs k <= 1)%Z -> k = (-1)%Z \/ k = 0%Z \/ k = 1%Z.
Proof. lia. Qed.

Lemma near_turn p0 d k : Rabs d < 135 -> (Z.abs k <= 1)%Z -> py_near p0 (p0 + d + 360 * IZR k) = p0 + d.
Proof.
  intros A K. apply Rabs_def2 in A. unfold py_near.
  destruct (turn_cases k K) as [-> | [-> | ->]];
    repeat match goal with |- context [Rlt_dec ?a ?b] => destruct (Rlt_dec a b) end; lra.
Qed.
Lemma c_near_turn p0 d k : Rabs d < 135 -> (Z.abs k <= 1)%Z -> c_near p0 (p0 + d + 360 * IZR k) = p0 + d.
Proof.
  intros A K. apply Rabs_def2 in A. unfold c_near.
  destruct (turn_cases k K) as [-> | [-> | ->]];
    repeat match goal with |- context [Rlt_dec ?a ?b] => destruct (Rlt_dec a b) end; lra.
Qed.

Lemma abs_between a m : Rabs a <= m -> - m <= a <= m.
Proof. intros H. pose proof (Rle_abs a). pose proof (Rle_abs (- a)). rewrite Rabs_Ropp in *. lra. Qed.

Lemma place_near c xsi eta : unit_square xsi eta ->
  Rabs (fst (se c) - fst (sw c)) < 135 /\ Rabs (fst (ne c) - fst (sw c)) < 135 /\ Rabs (fst (nw c) - fst (sw c)) < 135 ->
  -135 < fst (place c xsi eta) - fst (sw c) < 135.
Proof.
  intros [[X0 X1] [E0 E1]] (A & B & C). apply Rabs_def2 in A, B, C.
  replace (fst (place c xsi eta) - fst (sw c))
    with ((1 - xsi) * (1 - eta) * 0 + xsi * (1 - eta) * (fst (se c) - fst (sw c))
          + xsi * eta * (fst (ne c) - fst (sw c)) + (1 - xsi) * eta * (fst (nw c) - fst (sw c)))
    by (unfold place, blend; cbn; ring).
  set (a := fst (se c) - fst (sw c)) in *. set (b := fst (ne c) - fst (sw c)) in *. set (d := fst (nw c) - fst (sw c)) in *.
  assert (W1 : 0 <= (1 - xsi) * (1 - eta)) by nra. assert (W2 : 0 <= xsi * (1 - eta)) by nra.
  assert (W3 : 0 <= xsi * eta) by nra. assert (W4 : 0 <= (1 - xsi) * eta) by nra.
  assert (WS : (1 - xsi) * (1 - eta) + xsi * (1 - eta) + xsi * eta + (1 - xsi) * eta = 1) by ring.
  set (w1 := (1 - xsi) * (1 - eta)) in *. set (w2 := xsi * (1 - eta)) in *.
  set (w3 := xsi * eta) in *. set (w4 := (1 - xsi) * eta) in *. clearbody a b d w1 w2 w3 w4.
  assert (M : exists m, 0 <= m < 135 /\ Rabs a <= m /\ Rabs b <= m /\ Rabs d <= m).
  { exists (Rmax (Rabs a) (Rmax (Rabs b) (Rabs d))). pose proof (Rmax_l (Rabs a) (Rmax (Rabs b) (Rabs d))).
    pose proof (Rmax_r (Rabs a) (Rmax (Rabs b) (Rabs d))). pose proof (Rmax_l (Rabs b) (Rabs d)).
    pose proof (Rmax_r (Rabs b) (Rabs d)). pose proof (Rabs_pos a).
    split; [split; [lra|]|split; [lra|split; lra]].
    apply Rmax_lub_lt; [apply Rabs_def1; lra|]. apply Rmax_lub_lt; apply Rabs_def1; lra. }
  destruct M as (mm & [M0 M1] & Ma & Mb & Md).
  assert (-mm <= a <= mm) by (apply abs_between; exact Ma).
  assert (-mm <= b <= mm) by (apply abs_between; exact Mb).
  assert (-mm <= d <= mm) by (apply abs_between; exact Md).
  assert (w1 * 0 + w2 * a + w3 * b + w4 * d <= (w1 + w2 + w3 + w4) * mm) by nra.
  assert (- ((w1 + w2 + w3 + w4) * mm) <= w1 * 0 + w2 * a + w3 * b + w4 * d) by nra.
  rewrite WS in *. lra.
Qed.

Lemma near_same p0 w v j : Rabs (w - p0) < 135 -> v = w + 360 * IZR j -> (Z.abs j <= 1)%Z -> py_near p0 v = w.
Proof.
  intros A E K. replace v with (p0 + (w - p0) + 360 * IZR j) by lra. rewrite near_turn; [ring|exact A|exact K].
Qed.

Lemma wrap_same m raw c xsi eta : same_cell m raw c -> unit_square xsi eta ->
  py_wrap m (fst (place c xsi eta)) (xs raw) = xs c.
Proof.
  intros H S. destruct m; cbn in H; [subst raw; reflexivity|].
  destruct H as [(k0 & k1 & k2 & k3 & (A & _) & (B & _) & (C & _) & (D & _) & (K0 & K1 & K2 & K3) & _) N].
  pose proof (place_near c xsi eta S N) as P. destruct N as (N1 & N2 & N3).
  unfold py_wrap. set (x := fst (place c xsi eta)) in *. clearbody x.
  assert (E0 : (if Rlt_dec (x + 225) (if Rlt_dec (q0 (xs raw)) (x - 225) then q0 (xs raw) + 360 else q0 (xs raw))
                then (if Rlt_dec (q0 (xs raw)) (x - 225) then q0 (xs raw) + 360 else q0 (xs raw)) - 360
                else (if Rlt_dec (q0 (xs raw)) (x - 225) then q0 (xs raw) + 360 else q0 (xs raw))) = fst (sw c)).
  { cbn [q0 xs]. rewrite A. destruct (turn_cases k0 K0) as [-> | [-> | ->]];
      repeat match goal with |- context [Rlt_dec ?a ?b] => destruct (Rlt_dec a b) end; lra. }
  rewrite E0. cbn [q1 q2 q3 xs].
  rewrite (near_same _ (fst (se c)) _ k1 N1 B K1), (near_same _ (fst (ne c)) _ k2 N2 C K2),
    (near_same _ (fst (nw c)) _ k3 N3 D K3). reflexivity.
Qed.

(** In C the longitudes are coherent, in the turn of the first corner. *)
Definition shift (k : Z) (c : cell) : cell :=
  let s v := (fst v + 360 * IZR k, snd v) in Cell (s (sw c)) (s (se c)) (s (ne c)) (s (nw c)).

Lemma c_near_same p0 w v j : Rabs (w - p0) < 135 -> v = w + 360 * IZR j -> (Z.abs j <= 1)%Z -> c_near p0 v = w.
Proof.
  intros A E K. replace v with (p0 + (w - p0) + 360 * IZR j) by lra. rewrite c_near_turn; [ring|exact A|exact K].
Qed.

Lemma c_wrap_same raw c : same_cell Spherical raw c -> exists k, c_wrap (xs raw) = xs (shift k c).
Proof.
  intros [(k0 & k1 & k2 & k3 & (A & _) & (B & _) & (C & _) & (D & _) & _ & K1 & K2 & K3) (N1 & N2 & N3)].
  exists k0. unfold c_wrap. cbn [q0 q1 q2 q3 xs shift sw se ne nw fst snd].
  rewrite (c_near_same _ (fst (se c) + 360 * IZR k0) _ (k1 - k0)), (c_near_same _ (fst (ne c) + 360 * IZR k0) _ (k2 - k0)),
    (c_near_same _ (fst (nw c) + 360 * IZR k0) _ (k3 - k0)).
  - rewrite A. reflexivity.
  - rewrite A. replace (fst (nw c) + 360 * IZR k0 - (fst (sw c) + 360 * IZR k0)) with (fst (nw c) - fst (sw c)) by ring. exact N3.
  - rewrite D, minus_IZR. ring.
  - exact K3.
  - rewrite A. replace (fst (ne c) + 360 * IZR k0 - (fst (sw c) + 360 * IZR k0)) with (fst (ne c) - fst (sw c)) by ring. exact N2.
  - rewrite C, minus_IZR. ring.
  - exact K2.
  - rewrite A. replace (fst (se c) + 360 * IZR k0 - (fst (sw c) + 360 * IZR k0)) with (fst (se c) - fst (sw c)) by ring. exact N1.
  - rewrite B, minus_IZR. ring.
  - exact K1.
Qed.

(** ** The interpolated velocity *)

Section Cells.
Variables (m : mesh) (gi : indexing) (g : hgrid) (Ud Vd : Z -> Z -> R) (xi yi : Z) (c : cell).
Hypothesis SC : same_cell m (cell_of g xi yi) c.

(** Transport through a line of constant xsi, or eta, per unit of the other coordinate. *)
Definition uflux (xsi eta : R) : R :=
  blend (west_value gi Ud xi yi * norm (in_metres m (snd (place c 0 eta)) (minus (nw c) (sw c))))
        (east_value gi Ud xi yi * norm (in_metres m (snd (place c 1 eta)) (minus (ne c) (se c)))) xsi.
Definition vflux (xsi eta : R) : R :=
  blend (south_value gi Vd xi yi * norm (in_metres m (snd (place c xsi 0)) (minus (se c) (sw c))))
        (north_value gi Vd xi yi * norm (in_metres m (snd (place c xsi 1)) (minus (ne c) (nw c)))) eta.

Definition jac (xsi eta : R) : R := cross (e_xsi c eta) (e_eta c xsi) * scale m (snd (place c xsi eta)).

Definition uv_here (xsi eta : R) : vec :=
  ((uflux xsi eta * fst (e_xsi c eta) + vflux xsi eta * fst (e_eta c xsi)) / jac xsi eta,
   (uflux xsi eta * snd (e_xsi c eta) + vflux xsi eta * snd (e_eta c xsi)) / jac xsi eta).

Lemma west_is : west_value gi Ud xi yi = py_u0 gi Ud xi yi.
Proof. unfold west_value, east_value, py_u0. destruct gi; replace (xi - 1 + 1)%Z with xi by lia; reflexivity. Qed.
Lemma south_is : south_value gi Vd xi yi = py_v0 gi Vd xi yi.
Proof. unfold south_value, north_value, py_v0. destruct gi; replace (yi - 1 + 1)%Z with yi by lia; reflexivity. Qed.

Lemma norm_swap lat (p q : vec) : norm (in_metres m lat (fst p - fst q, snd p - snd q)) = norm (in_metres m lat (minus q p)).
Proof.
  unfold minus. replace (fst p - fst q) with (- (fst q - fst p)) by ring. replace (snd p - snd q) with (- (snd q - snd p)) by ring.
  apply norm_opp.
Qed.

Lemma py_value xsi eta : convex c -> unit_square xsi eta -> away m (snd (place c xsi eta)) ->
  py_uv m gi g Ud Vd xsi eta xi yi (fst (place c xsi eta)) (snd (place c xsi eta)) = Some (uv_here xsi eta).
Proof.
  intros CV S A. unfold py_uv. rewrite px_raw, py_raw, (wrap_same m _ c xsi eta SC S), (same_lats _ _ _ SC).
  rewrite lon_place. replace (fst (place c xsi eta) - fst (place c xsi eta)) with 0 by ring. rewrite Rabs_R0.
  destruct (Rlt_dec 0 (1 / 10000)) as [_|N]; [|lra].
  rewrite !dist_norm, !lat_place, jac_cross.
  assert (J : cross (e_xsi c eta) (e_eta c xsi) *
     match m with Flat => 1 | Spherical => 1852 * 60 * (1852 * 60) * cos (pi / 180 * snd (place c xsi eta)) end = jac xsi eta).
  { unfold jac, scale. destruct m; [reflexivity|]. f_equal. f_equal. f_equal. field. }
  rewrite J. rewrite uv_value.
  - unfold uv_here. cbn [xs ys q0 q1 q2 q3].
    rewrite (norm_swap (snd (place c 0 eta)) (sw c) (nw c)), (norm_swap (snd (place c xsi 1)) (nw c) (ne c)).
    rewrite <- west_is, <- south_is. reflexivity.
  - unfold jac. apply Rmult_integral_contrapositive_currified.
    + pose proof (jac_pos c xsi eta CV S). lra.
    + pose proof (scale_pos _ _ A). lra.
Qed.

Lemma right_of (u v : R) lat (d : vec) :
  to_right (in_metres m lat (u, v)) (in_metres m lat d) = scale m lat * cross (u, v) d / norm (in_metres m lat d).
Proof. unfold to_right. rewrite cross_metres. reflexivity. Qed.

Lemma cross_uv xsi eta : convex c -> unit_square xsi eta -> away m (snd (place c xsi eta)) ->
  scale m (snd (place c xsi eta)) * cross (uv_here xsi eta) (e_eta c xsi) = uflux xsi eta /\
  scale m (snd (place c xsi eta)) * cross (uv_here xsi eta) (e_xsi c eta) = - vflux xsi eta.
Proof.
  intros CV S A. pose proof (jac_pos c xsi eta CV S) as J. pose proof (scale_pos _ _ A) as P.
  unfold uv_here, jac. set (s := scale m (snd (place c xsi eta))) in *. set (U := uflux xsi eta). set (V := vflux xsi eta).
  unfold cross in *. cbn [fst snd]. destruct (e_xsi c eta) as [a b], (e_eta c xsi) as [d f]. cbn [fst snd] in *.
  split; field; lra.
Qed.

Lemma edge_nonzero (p q r : vec) : 0 < cross (minus p q) r -> fst (minus p q) <> 0 \/ snd (minus p q) <> 0.
Proof.
  unfold cross. intros H. destruct (Req_EM_T (fst (minus p q)) 0) as [E|E]; [|left; exact E].
  right. intros E'. rewrite E, E' in H. lra.
Qed.
Lemma edge_nonzero2 (p q r : vec) : 0 < cross r (minus p q) -> fst (minus p q) <> 0 \/ snd (minus p q) <> 0.
Proof.
  unfold cross. intros H. destruct (Req_EM_T (fst (minus p q)) 0) as [E|E]; [|left; exact E].
  right. intros E'. rewrite E, E' in H. lra.
Qed.

Lemma faces xsi eta : convex c -> unit_square xsi eta -> away m (snd (place c xsi eta)) ->
  crosses_faces m c xsi eta (uv_here xsi eta)
    (east_value gi Ud xi yi) (west_value gi Ud xi yi) (north_value gi Vd xi yi) (south_value gi Vd xi yi).
Proof.
  intros CV S A. pose proof (cross_uv xsi eta CV S A) as [CU CVV]. destruct CV as (C1 & C2 & C3 & C4).
  unfold crosses_faces. destruct (uv_here xsi eta) as [u v].
  split; [|split; [|split]]; intros E; rewrite right_of.
  - assert (T : e_eta c xsi = minus (ne c) (se c)) by (subst xsi; unfold e_eta, minus, blend; f_equal; ring).
    rewrite T in CU. rewrite CU. unfold uflux, blend.
    replace (norm (in_metres m (snd (place c 1 eta)) (minus (ne c) (se c))))
      with (norm (in_metres m (snd (place c xsi eta)) (minus (ne c) (se c)))) by (rewrite E; reflexivity).
    rewrite E. field.
    rewrite E in A. pose proof (norm_pos m _ (minus (ne c) (se c)) A (edge_nonzero _ _ _ C2)). lra.
  - assert (T : e_eta c xsi = minus (nw c) (sw c)) by (subst xsi; unfold e_eta, minus, blend; f_equal; ring).
    rewrite T in CU. rewrite CU. unfold uflux, blend.
    rewrite E. field.
    rewrite E in A. pose proof (norm_pos m _ (minus (nw c) (sw c)) A (edge_nonzero2 _ _ _ C1)). lra.
  - assert (T : e_xsi c eta = minus (ne c) (nw c)) by (subst eta; unfold e_xsi, minus, blend; f_equal; ring).
    rewrite T in CVV.
    assert (X : scale m (snd (place c xsi eta)) * cross (u, v) (minus (nw c) (ne c)) = vflux xsi eta).
    { replace (cross (u, v) (minus (nw c) (ne c))) with (- cross (u, v) (minus (ne c) (nw c)))
        by (unfold cross, minus; cbn; ring). lra. }
    rewrite X. unfold vflux, blend. rewrite E in A |- *.
    rewrite <- (norm_swap (snd (place c xsi 1)) (nw c) (ne c)).
    change (fst (nw c) - fst (ne c), snd (nw c) - snd (ne c)) with (minus (nw c) (ne c)). field.
    pose proof (norm_pos m _ (minus (nw c) (ne c)) A (edge_nonzero _ _ _ C3)). lra.
  - assert (T : e_xsi c eta = minus (se c) (sw c)) by (subst eta; unfold e_xsi, minus, blend; f_equal; ring).
    rewrite T in CVV.
    assert (X : scale m (snd (place c xsi eta)) * cross (u, v) (minus (sw c) (se c)) = vflux xsi eta).
    { replace (cross (u, v) (minus (sw c) (se c))) with (- cross (u, v) (minus (se c) (sw c)))
        by (unfold cross, minus; cbn; ring). lra. }
    rewrite X. unfold vflux, blend. rewrite E in A |- *.
    rewrite <- (norm_swap (snd (place c xsi 0)) (sw c) (se c)).
    change (fst (sw c) - fst (se c), snd (sw c) - snd (se c)) with (minus (sw c) (se c)). field.
    pose proof (norm_pos m _ (minus (sw c) (se c)) A (edge_nonzero2 _ _ _ C2)). lra.
Qed.
End Cells.

(** ** In time *)

Lemma right_linear m lat a b w d :
  to_right (in_metres m lat (fst a + (fst b - fst a) * w, snd a + (snd b - snd a) * w)) d =
  to_right (in_metres m lat a) d + (to_right (in_metres m lat b) d - to_right (in_metres m lat a) d) * w.
Proof.
  unfold to_right, cross, Rdiv. destruct m; cbn [in_metres fst snd]; unfold metres_of_lon, metres_of_lat; ring.
Qed.

Lemma faces_blend m c xsi eta a b w e n x s e' n' x' s' :
  crosses_faces m c xsi eta a e x n s -> crosses_faces m c xsi eta b e' x' n' s' ->
  crosses_faces m c xsi eta (fst a + (fst b - fst a) * w, snd a + (snd b - snd a) * w)
    (e + (e' - e) * w) (x + (x' - x) * w) (n + (n' - n) * w) (s + (s' - s) * w).
Proof.
  unfold crosses_faces. intros (A1 & A2 & A3 & A4) (B1 & B2 & B3 & B4).
  split; [|split; [|split]]; intros E; rewrite right_linear;
    [rewrite (A1 E), (B1 E)|rewrite (A2 E), (B2 E)|rewrite (A3 E), (B3 E)|rewrite (A4 E), (B4 E)]; reflexivity.
Qed.

Lemma py_faces m gi g Ud Vd xi yi c xsi eta :
  same_cell m (cell_of g xi yi) c -> convex c -> unit_square xsi eta -> away m (snd (place c xsi eta)) ->
  exists uv, py_uv m gi g Ud Vd xsi eta xi yi (fst (place c xsi eta)) (snd (place c xsi eta)) = Some uv /\
    crosses_faces m c xsi eta uv
      (east_value gi Ud xi yi) (west_value gi Ud xi yi) (north_value gi Vd xi yi) (south_value gi Vd xi yi).
Proof.
  intros SC CV S A. exists (uv_here m gi Ud Vd xi yi c xsi eta). split.
  - apply py_value; assumption.
  - apply faces; assumption.
Qed.

Lemma py_faces_at times tdim m gi g Ud Vd ti time xi yi c xsi eta :
  same_cell m (cell_of g xi yi) c -> convex c -> unit_square xsi eta -> away m (snd (place c xsi eta)) ->
  (0 <= ti < tdim)%Z -> ((ti < tdim - 1)%Z -> times ti < times (ti + 1)%Z) ->
  times ti <= time ->
  let w := if Z.ltb ti (tdim - 1) then (time - times ti) / (times (ti + 1)%Z - times ti) else 0 in
  let now f := f ti + (f (ti + 1)%Z - f ti) * w in
  exists uv, py_uv_at times tdim m gi g Ud Vd ti time xsi eta xi yi (fst (place c xsi eta)) (snd (place c xsi eta)) = Some uv /\
    crosses_faces m c xsi eta uv
      (now (fun k => east_value gi (Ud k) xi yi)) (now (fun k => west_value gi (Ud k) xi yi))
      (now (fun k => north_value gi (Vd k) xi yi)) (now (fun k => south_value gi (Vd k) xi yi)).
Proof.
  intros SC CV S A TI TT LE w now.
  destruct (py_faces m gi g (Ud ti) (Vd ti) xi yi c xsi eta SC CV S A) as (a & Ea & Fa).
  destruct (py_faces m gi g (Ud (ti + 1)%Z) (Vd (ti + 1)%Z) xi yi c xsi eta SC CV S A) as (b & Eb & Fb).
  unfold py_uv_at. rewrite Ea, Eb. unfold now, w.
  destruct (Z.ltb_spec ti (tdim - 1)) as [L|L]; cbn [andb].
  - destruct (Rlt_dec (times ti) time) as [G|G].
    + destruct a as [ua va], b as [ub vb]. cbn [py_blend]. eexists. split; [reflexivity|].
      apply (faces_blend m c xsi eta (ua, va) (ub, vb)); assumption.
    + exists a. split; [reflexivity|]. replace time with (times ti) by lra.
      replace ((times ti - times ti) / (times (ti + 1)%Z - times ti)) with 0 by (field; specialize (TT L); lra).
      rewrite !Rmult_0_r, !Rplus_0_r. exact Fa.
  - exists a. split; [reflexivity|]. rewrite !Rmult_0_r, !Rplus_0_r. exact Fa.
Qed.

(** ** Rectangles *)

Lemma rect_convex x0 x1 y0 y1 : x0 < x1 -> y0 < y1 -> convex (rectangle x0 x1 y0 y1).
Proof. intros H1 H2. unfold convex, cross, minus, rectangle. cbn. repeat split; nra. Qed.

Lemma norm_x m lat d : away m lat -> 0 < d ->
  norm (in_metres m lat (d, 0)) = match m with Flat => d | Spherical => metres_of_lon d lat end.
Proof.
  intros A D. destruct m; unfold norm; cbn [in_metres fst snd].
  - replace (d * d + 0 * 0) with (d * d) by ring. apply sqrt_square. lra.
  - unfold metres_of_lat. replace (0 * 60 * 1852 * (0 * 60 * 1852)) with 0 by ring. rewrite Rplus_0_r.
    apply sqrt_square. unfold metres_of_lon. pose proof (cos_pos _ A). nra.
Qed.
Lemma norm_y m lat d : 0 < d ->
  norm (in_metres m lat (0, d)) = match m with Flat => d | Spherical => metres_of_lat d end.
Proof.
  intros D. destruct m; unfold norm; cbn [in_metres fst snd].
  - replace (0 * 0 + d * d) with (d * d) by ring. apply sqrt_square. lra.
  - unfold metres_of_lon. replace (0 * 60 * 1852 * cos (lat * pi / 180) * (0 * 60 * 1852 * cos (lat * pi / 180))) with 0 by ring.
    rewrite Rplus_0_l. apply sqrt_square. unfold metres_of_lat. nra.
Qed.

Lemma rect_inside m gi g Ud Vd xi yi x0 x1 y0 y1 xsi eta :
  same_cell m (cell_of g xi yi) (rectangle x0 x1 y0 y1) -> x0 < x1 -> y0 < y1 -> unit_square xsi eta ->
  away m y0 -> away m y1 ->
  let y := blend y0 y1 eta in
  exists u v, py_uv m gi g Ud Vd xsi eta xi yi (blend x0 x1 xsi) y = Some (u, v) /\
    let '(U, V) := in_metres m y (u, v) in
    let width lat := match m with Flat => 1 | Spherical => cos (lat * pi / 180) end in
    U = blend (west_value gi Ud xi yi) (east_value gi Ud xi yi) xsi /\
    V * width y = blend (south_value gi Vd xi yi * width y0) (north_value gi Vd xi yi * width y1) eta.
Proof.
  intros SC X Y S A0 A1 y. set (c := rectangle x0 x1 y0 y1) in *.
  assert (PX : fst (place c xsi eta) = blend x0 x1 xsi) by (unfold c, place, rectangle, blend; cbn; ring).
  assert (PY : forall k, snd (place c k eta) = y) by (intros; unfold c, y, place, rectangle, blend; cbn; ring).
  assert (PY0 : snd (place c xsi 0) = y0) by (unfold c, place, rectangle, blend; cbn; ring).
  assert (PY1 : snd (place c xsi 1) = y1) by (unfold c, place, rectangle, blend; cbn; ring).
  assert (A : away m y).
  { unfold y, blend. destruct m; [exact I|]. unfold away, between_poles in *. destruct S as [_ [E0 E1]]. nra. }
  pose proof (py_value m gi g Ud Vd xi yi c SC xsi eta (rect_convex _ _ _ _ X Y) S) as H.
  rewrite PX, (PY xsi) in H. specialize (H A).
  unfold uv_here in H. rewrite H. eexists _, _. split; [reflexivity|].
  unfold uflux, vflux, jac. rewrite !PY, PY0, PY1.
  assert (EX : e_xsi c eta = (x1 - x0, 0)) by (unfold c, e_xsi, rectangle, blend; cbn; f_equal; ring).
  assert (EY : e_eta c xsi = (0, y1 - y0)) by (unfold c, e_eta, rectangle, blend; cbn; f_equal; ring).
  rewrite EX, EY. unfold cross. cbn [fst snd].
  assert (M1 : minus (nw c) (sw c) = (0, y1 - y0)) by (unfold c, minus, rectangle; cbn; f_equal; ring).
  assert (M2 : minus (ne c) (se c) = (0, y1 - y0)) by (unfold c, minus, rectangle; cbn; f_equal; ring).
  assert (M3 : minus (se c) (sw c) = (x1 - x0, 0)) by (unfold c, minus, rectangle; cbn; f_equal; ring).
  assert (M4 : minus (ne c) (nw c) = (x1 - x0, 0)) by (unfold c, minus, rectangle; cbn; f_equal; ring).
  rewrite M1, M2, M3, M4. rewrite !norm_y, !norm_x by (assumption || lra).
  clear H SC EX EY M1 M2 M3 M4. clearbody c. unfold scale.
  destruct m; cbn [in_metres fst snd].
  - unfold blend. split; field; lra.
  - pose proof (cos_pos _ A) as C. pose proof (cos_pos _ A0) as C0. pose proof (cos_pos _ A1) as C1.
    clearbody y. unfold metres_of_lon, metres_of_lat, blend.
    set (k := cos (y * pi / 180)) in *. set (k0 := cos (y0 * pi / 180)) in *. set (k1 := cos (y1 * pi / 180)) in *.
    clearbody k k0 k1. split; field; lra.
Qed.

(** ** JIT mode *)

Lemma c_dist_eq a b a' b' m lat : c_dist a b a' b' m lat = py_dist a b a' b' m lat.
Proof. destruct m; cbn [c_dist py_dist]; f_equal; ring. Qed.

Lemma c_near_id p0 p : Rabs (p - p0) <= 180 -> c_near p0 p = p.
Proof.
  intros H. apply abs_between in H. unfold c_near.
  repeat match goal with |- context [Rlt_dec ?a ?b] => destruct (Rlt_dec a b) end; lra.
Qed.

Lemma dist_shift m c k lat :
  (c_dist (q3 (xs (shift k c))) (q0 (xs (shift k c))) (q3 (ys c)) (q0 (ys c)) m lat
   = c_dist (q3 (xs c)) (q0 (xs c)) (q3 (ys c)) (q0 (ys c)) m lat) /\
  (c_dist (q1 (xs (shift k c))) (q2 (xs (shift k c))) (q1 (ys c)) (q2 (ys c)) m lat
   = c_dist (q1 (xs c)) (q2 (xs c)) (q1 (ys c)) (q2 (ys c)) m lat) /\
  (c_dist (q0 (xs (shift k c))) (q1 (xs (shift k c))) (q0 (ys c)) (q1 (ys c)) m lat
   = c_dist (q0 (xs c)) (q1 (xs c)) (q0 (ys c)) (q1 (ys c)) m lat) /\
  (c_dist (q2 (xs (shift k c))) (q3 (xs (shift k c))) (q2 (ys c)) (q3 (ys c)) m lat
   = c_dist (q2 (xs c)) (q3 (xs c)) (q2 (ys c)) (q3 (ys c)) m lat).
Proof.
  unfold xs, shift. cbn. destruct m; cbn [c_dist]; repeat split; f_equal; ring.
Qed.

Lemma c_value m gi g Ud Vd xi yi c xsi eta :
  same_cell m (cell_of g xi yi) c -> (m = Flat -> narrow c) ->
  convex c -> unit_square xsi eta -> away m (snd (place c xsi eta)) ->
  c_uv m gi g Ud Vd xsi eta xi yi = Some (uv_here m gi Ud Vd xi yi c xsi eta).
Proof.
  intros SC NA CV S A. unfold c_uv, c_uv_cell. rewrite c_px_raw, c_py_raw, (same_lats _ _ _ SC).
  assert (W : exists k, c_wrap (xs (cell_of g xi yi)) = xs (shift k c)).
  { destruct m.
    - cbn in SC. rewrite SC. exists 0%Z. destruct (NA eq_refl) as (N1 & N2 & N3). unfold c_wrap, xs, shift. cbn [q0 q1 q2 q3 sw se ne nw fst].
      rewrite !c_near_id by assumption. f_equal; ring.
    - apply c_wrap_same. exact SC. }
  destruct W as (k & W). rewrite W.
  rewrite (proj1 (dist_shift m c k _)), (proj1 (proj2 (dist_shift m c k _))),
    (proj1 (proj2 (proj2 (dist_shift m c k _)))), (proj2 (proj2 (proj2 (dist_shift m c k _)))).
  rewrite !c_dist_eq, !dist_norm, !lat_place.
  assert (J : (dotq (xs (shift k c)) (Quad (eta - 1) (1 - eta) eta (- eta)) *
      dotq (ys c) (Quad (xsi - 1) (- xsi) xsi (1 - xsi)) -
      dotq (xs (shift k c)) (Quad (xsi - 1) (- xsi) xsi (1 - xsi)) *
      dotq (ys c) (Quad (eta - 1) (1 - eta) eta (- eta))) *
     match m with Flat => 1 | Spherical => 1852 * 60 * (1852 * 60) * cos (pi / 180 * snd (place c xsi eta)) end
     = jac m c xsi eta).
  { unfold jac, scale. rewrite <- jac_cross. unfold py_jacobian.
    replace (pi / 180 * snd (place c xsi eta)) with (snd (place c xsi eta) * pi / 180) by field.
    unfold dotq, xs, ys, shift. cbn [q0 q1 q2 q3 sw se ne nw fst snd]. destruct m; ring. }
  rewrite J. clear J W.
  assert (JN : jac m c xsi eta <> 0).
  { unfold jac. pose proof (jac_pos c xsi eta CV S). pose proof (scale_pos _ _ A). nra. }
  unfold uv_of. destruct (Req_EM_T (jac m c xsi eta) 0) as [E|_]; [contradiction|].
  assert (DU0 : c_dataU gi Ud xi yi 1 0 = west_value gi Ud xi yi).
  { rewrite west_is. unfold c_dataU, c_cell, py_u0. destruct gi; f_equal; lia. }
  assert (DU1 : c_dataU gi Ud xi yi 1 1 = east_value gi Ud xi yi).
  { unfold c_dataU, c_cell, east_value. destruct gi; f_equal; lia. }
  assert (DV0 : c_dataV gi Vd xi yi 0 1 = south_value gi Vd xi yi).
  { rewrite south_is. unfold c_dataV, c_cell, py_v0. destruct gi; f_equal; lia. }
  assert (DV1 : c_dataV gi Vd xi yi 1 1 = north_value gi Vd xi yi).
  { unfold c_dataV, c_cell, north_value. destruct gi; f_equal; lia. }
  rewrite DU0, DU1, DV0, DV1. cbn [xs ys q0 q1 q2 q3].
  rewrite (norm_swap m (snd (place c 0 eta)) (sw c) (nw c)), (norm_swap m (snd (place c xsi 1)) (nw c) (ne c)).
  unfold uv_here.
  change ((1 - xsi) * (west_value gi Ud xi yi * norm (in_metres m (snd (place c 0 eta)) (minus (nw c) (sw c))))
    + xsi * (east_value gi Ud xi yi * norm (in_metres m (snd (place c 1 eta)) (fst (ne c) - fst (se c), snd (ne c) - snd (se c)))))
    with (uflux m gi Ud xi yi c xsi eta).
  change ((1 - eta) * (south_value gi Vd xi yi * norm (in_metres m (snd (place c xsi 0)) (fst (se c) - fst (sw c), snd (se c) - snd (sw c))))
    + eta * (north_value gi Vd xi yi * norm (in_metres m (snd (place c xsi 1)) (minus (ne c) (nw c)))))
    with (vflux m gi Vd xi yi c xsi eta).
  set (Fu := uflux m gi Ud xi yi c xsi eta). set (Fv := vflux m gi Vd xi yi c xsi eta).
  set (j := jac m c xsi eta) in *. clearbody Fu Fv j.
  unfold shift, e_xsi, e_eta, blend. cbn [sw se ne nw fst snd].
  apply (f_equal Some). apply f_equal2; field; exact JN.
Qed.

Lemma modes_agree m gi g Ud Vd xi yi c xsi eta :
  same_cell m (cell_of g xi yi) c -> (m = Flat -> narrow c) ->
  convex c -> unit_square xsi eta -> away m (snd (place c xsi eta)) ->
  c_uv m gi g Ud Vd xsi eta xi yi
  = py_uv m gi g Ud Vd xsi eta xi yi (fst (place c xsi eta)) (snd (place c xsi eta)).
Proof.
  intros. rewrite (c_value m gi g Ud Vd xi yi c) by assumption. symmetry. apply py_value; assumption.
Qed.

Lemma modes_agree_at times tdim m gi g Ud Vd ti time xi yi c xsi eta :
  same_cell m (cell_of g xi yi) c -> (m = Flat -> narrow c) ->
  convex c -> unit_square xsi eta -> away m (snd (place c xsi eta)) ->
  c_uv_at times tdim m gi g Ud Vd ti time xsi eta xi yi
  = py_uv_at times tdim m gi g Ud Vd ti time xsi eta xi yi (fst (place c xsi eta)) (snd (place c xsi eta)).
Proof.
  intros H1 H2 H3 H4 H5. unfold c_uv_at, py_uv_at.
  rewrite !(modes_agree m gi g _ _ xi yi c xsi eta H1 H2 H3 H4 H5). reflexivity.
Qed.

(** W *)
Lemma w_modes gi W xsi eta zeta xi yi zi : c_w gi W xsi eta zeta xi yi zi = py_w gi W zeta xi yi zi.
Proof. destruct gi; unfold c_w, py_w, c_cell; rewrite ?Z.add_0_r; ring. Qed.

(** ** Neighbours *)

Lemma neighbours_x m gi g Ud Vd xi yi c c' eta :
  same_cell m (cell_of g xi yi) c -> same_cell m (cell_of g (xi + 1) yi) c' ->
  sw c' = se c -> nw c' = ne c -> convex c -> convex c' -> 0 <= eta <= 1 ->
  let p := place c 1 eta in
  away m (snd p) ->
  exists uv uv', py_uv m gi g Ud Vd 1 eta xi yi (fst p) (snd p) = Some uv /\
    py_uv m gi g Ud Vd 0 eta (xi + 1) yi (fst p) (snd p) = Some uv' /\
    let face := in_metres m (snd p) (minus (ne c) (se c)) in
    to_right (in_metres m (snd p) uv) face = east_value gi Ud xi yi /\
    to_right (in_metres m (snd p) uv') face = east_value gi Ud xi yi.
Proof.
  intros SC SC' E1 E2 CV CV' R p A.
  assert (P : place c' 0 eta = p) by (unfold p, place; rewrite E1, E2; unfold blend; f_equal; ring).
  destruct (py_faces m gi g Ud Vd xi yi c 1 eta SC CV) as (a & Ea & (Fa & _)); [split; lra|exact A|].
  destruct (py_faces m gi g Ud Vd (xi + 1) yi c' 0 eta SC' CV') as (b & Eb & (_ & Fb & _)); [split; lra|rewrite P; exact A|].
  exists a, b. rewrite P in Eb, Fb. split; [exact Ea|]. split; [exact Eb|]. cbn zeta.
  split; [apply Fa; reflexivity|]. rewrite E1, E2 in Fb. rewrite (Fb eq_refl). unfold west_value.
  replace (xi + 1 - 1)%Z with xi by lia. reflexivity.
Qed.

Lemma neighbours_y m gi g Ud Vd xi yi c c' xsi :
  same_cell m (cell_of g xi yi) c -> same_cell m (cell_of g xi (yi + 1)) c' ->
  sw c' = nw c -> se c' = ne c -> convex c -> convex c' -> 0 <= xsi <= 1 ->
  let p := place c xsi 1 in
  away m (snd p) ->
  exists uv uv', py_uv m gi g Ud Vd xsi 1 xi yi (fst p) (snd p) = Some uv /\
    py_uv m gi g Ud Vd xsi 0 xi (yi + 1) (fst p) (snd p) = Some uv' /\
    let face := in_metres m (snd p) (minus (nw c) (ne c)) in
    to_right (in_metres m (snd p) uv) face = north_value gi Vd xi yi /\
    to_right (in_metres m (snd p) uv') face = north_value gi Vd xi yi.
Proof.
  intros SC SC' E1 E2 CV CV' R p A.
  assert (P : place c' xsi 0 = p) by (unfold p, place; rewrite E1, E2; unfold blend; f_equal; ring).
  destruct (py_faces m gi g Ud Vd xi yi c xsi 1 SC CV) as (a & Ea & (_ & _ & Fa & _)); [split; lra|exact A|].
  destruct (py_faces m gi g Ud Vd xi (yi + 1) c' xsi 0 SC' CV') as (b & Eb & (_ & _ & _ & Fb)); [split; lra|rewrite P; exact A|].
  exists a, b. rewrite P in Eb, Fb. split; [exact Ea|]. split; [exact Eb|]. cbn zeta.
  split; [apply Fa; reflexivity|]. rewrite E1, E2 in Fb. rewrite (Fb eq_refl). unfold south_value.
  replace (yi + 1 - 1)%Z with yi by lia. reflexivity.
Qed.

(** ** W *)
Lemma w_faces gi W zeta xi yi zi :
  py_w gi W zeta xi yi zi = blend (py_w gi W 0 xi yi zi) (py_w gi W 1 xi yi zi) zeta /\
  py_w gi W 1 xi yi zi = py_w gi W 0 xi yi (zi + 1) /\
  py_w gi W 0 xi yi zi = match gi with Nemo => W zi (yi + 1)%Z (xi + 1)%Z | Mitgcm => W zi yi xi end.
Proof. destruct gi; unfold py_w, blend; repeat split; ring. Qed.

(** ** Refutations *)

(** A flat mesh with cells of 200 by 100: all velocities are 1. *)
Definition wide : hgrid := Rectilinear (fun i => 200 * IZR i) (fun j => 100 * IZR j).
Definition one (_ _ : Z) : R := 1.

Lemma wide_cell : cell_of wide 0 0 = rectangle 0 200 0 100.
Proof.
  unfold cell_of, rectangle, wide, node. cbn [Z.add].
  replace (200 * IZR 0) with 0 by ring. replace (200 * IZR 1) with 200 by ring. replace (100 * IZR 0) with 0 by ring.
  replace (100 * IZR 1) with 100 by ring. reflexivity.
Qed.

Lemma wide_wrong :
  py_uv Flat Nemo wide one one (1/2) (1/2) 0 0 100 50 = Some (1, 1) /\
  c_uv Flat Nemo wide one one (1/2) (1/2) 0 0 = Some (1, -1).
Proof.
  split.
  - destruct (rect_inside Flat Nemo wide one one 0 0 0 200 0 100 (1/2) (1/2)) as (u & v & E & F);
      [exact wide_cell|lra|lra|split; lra|exact I|exact I|].
    unfold blend in E. replace ((1 - 1/2) * 0 + 1/2 * 200) with 100 in E by lra.
    replace ((1 - 1/2) * 0 + 1/2 * 100) with 50 in E by lra. rewrite E.
    cbn in F. unfold one, blend in F. destruct F as [F1 F2]. f_equal. f_equal; lra.
  - unfold c_uv, c_uv_cell. rewrite c_px_raw, c_py_raw, wide_cell.
    assert (W : c_wrap (xs (rectangle 0 200 0 100)) = Quad 0 (-160) (-160) 0).
    { unfold c_wrap, xs, rectangle, c_near. cbn [q0 q1 q2 q3 sw se ne nw fst].
      repeat match goal with |- context [Rlt_dec ?a ?b] => destruct (Rlt_dec a b) end; try lra.
      f_equal; lra. }
    rewrite W. unfold ys, rectangle. cbn [q0 q1 q2 q3 sw se ne nw fst snd c_dist]. unfold c_dataU, c_dataV, c_cell, one.
    replace (sqrt ((0 - 0) * (0 - 0) + (0 - 100) * (0 - 100))) with 100
      by (replace ((0 - 0) * (0 - 0) + (0 - 100) * (0 - 100)) with (100 * 100) by ring; symmetry; apply sqrt_square; lra).
    replace (sqrt ((-160 - -160) * (-160 - -160) + (100 - 0) * (100 - 0))) with 100
      by (replace ((-160 - -160) * (-160 - -160) + (100 - 0) * (100 - 0)) with (100 * 100) by ring; symmetry; apply sqrt_square; lra).
    replace (sqrt ((-160 - 0) * (-160 - 0) + (0 - 0) * (0 - 0))) with 160
      by (replace ((-160 - 0) * (-160 - 0) + (0 - 0) * (0 - 0)) with (160 * 160) by ring; symmetry; apply sqrt_square; lra).
    replace (sqrt ((0 - -160) * (0 - -160) + (100 - 100) * (100 - 100))) with 160
      by (replace ((0 - -160) * (0 - -160) + (100 - 100) * (100 - 100)) with (160 * 160) by ring; symmetry; apply sqrt_square; lra).
    unfold uv_of, dotq. cbn [q0 q1 q2 q3].
    match goal with |- context [Req_EM_T ?a 0] => destruct (Req_EM_T a 0); [lra|] end.
    apply (f_equal Some). apply f_equal2; field; lra.
Qed.

(** A spherical mesh with cells of 10 by 60 degrees: V is 1 on all faces. *)
Definition tall : hgrid := Rectilinear (fun i => 10 * IZR i) (fun j => 60 * IZR j).

Lemma tall_cell : cell_of tall 0 0 = rectangle 0 10 0 60.
Proof.
  unfold cell_of, rectangle, tall, node. cbn [Z.add].
  replace (10 * IZR 0) with 0 by ring. replace (10 * IZR 1) with 10 by ring. replace (60 * IZR 0) with 0 by ring.
  replace (60 * IZR 1) with 60 by ring. reflexivity.
Qed.

Lemma same_refl m c : Rabs (fst (se c) - fst (sw c)) < 135 -> Rabs (fst (ne c) - fst (sw c)) < 135 ->
  Rabs (fst (nw c) - fst (sw c)) < 135 -> same_cell m c c.
Proof.
  intros A B C. destruct m; cbn; [reflexivity|]. split; [|auto]. exists 0%Z, 0%Z, 0%Z, 0%Z. unfold turned.
  repeat split; try (cbn; ring); cbn; lia.
Qed.

Lemma tall_same m : same_cell m (cell_of tall 0 0) (rectangle 0 10 0 60).
Proof. rewrite tall_cell. apply same_refl; cbn; apply Rabs_def1; lra. Qed.

Lemma tall_not_linear :
  exists u v, py_uv Spherical Nemo tall one one (1/2) (1/2) 0 0 5 30 = Some (u, v) /\
    snd (in_metres Spherical 30 (u, v)) <> 1.
Proof.
  destruct (rect_inside Spherical Nemo tall one one 0 0 0 10 0 60 (1/2) (1/2)) as (u & v & E & F);
    [apply tall_same|lra|lra|split; lra|unfold away, between_poles; lra|unfold away, between_poles; lra|].
  unfold blend in E. replace ((1 - 1/2) * 0 + 1/2 * 10) with 5 in E by lra.
  replace ((1 - 1/2) * 0 + 1/2 * 60) with 30 in E by lra.
  exists u, v. split; [exact E|]. cbn [in_metres fst snd] in F |- *. destruct F as [_ F].
  unfold blend, one in F. cbn [south_value north_value] in F. replace ((1 - 1/2) * 0 + 1/2 * 60) with 30 in F by lra.
  replace (0 * pi / 180) with 0 in F by field. rewrite cos_0 in F.
  replace (60 * pi / 180) with (pi / 3) in F by field. rewrite cos_PI3 in F.
  replace (30 * pi / 180) with (pi / 6) in F by field. rewrite cos_PI6 in F.
  intros H. rewrite H in F. assert (Q : sqrt 3 * sqrt 3 = 3) by (apply sqrt_sqrt; lra). unfold south_value, north_value in F.
  assert (sqrt 3 = 3 / 2) by lra. rewrite H0 in Q. lra.
Qed.

(** ** Cases *)
Lemma tall_case m :
  same_cell m (cell_of tall 0 0) (rectangle 0 10 0 60) /\ convex (rectangle 0 10 0 60) /\ narrow (rectangle 0 10 0 60) /\
  unit_square 1 (1/2) /\ away m (snd (place (rectangle 0 10 0 60) 1 (1/2))).
Proof.
  split; [apply tall_same|]. split; [apply rect_convex; lra|]. split; [|split].
  - unfold narrow. cbn. repeat split; apply Rabs_le; lra.
  - split; lra.
  - destruct m; [exact I|]. unfold away, between_poles, place, blend. cbn. lra.
Qed.

(** A cell across the date line, sloping, given with longitudes 179 and -179. *)
Definition seam : hgrid :=
  Curvilinear (fun j i => if Z.eqb i 0 then 179 else -179) (fun j i => IZR j + IZR i / 2).
Definition seam_cell : cell := Cell (179, 0) (181, 1/2) (181, 3/2) (179, 1).
Lemma seam_case :
  same_cell Spherical (cell_of seam 0 0) seam_cell /\ convex seam_cell /\ unit_square 1 (1/2) /\
  away Spherical (snd (place seam_cell 1 (1/2))).
Proof.
  split; [|split; [|split]].
  - cbn. split.
    + exists 0%Z, (-1)%Z, (-1)%Z, 0%Z. unfold turned. cbn. repeat split; try lra; lia.
    + repeat split; apply Rabs_def1; lra.
  - unfold convex, cross, minus, seam_cell. cbn. repeat split; lra.
  - split; lra.
  - unfold away, between_poles, place, blend. cbn. lra.
Qed.

Lemma tall_neighbours m :
  same_cell m (cell_of tall 0 0) (rectangle 0 10 0 60) /\ same_cell m (cell_of tall 1 0) (rectangle 10 20 0 60) /\
  sw (rectangle 10 20 0 60) = se (rectangle 0 10 0 60) /\ nw (rectangle 10 20 0 60) = ne (rectangle 0 10 0 60) /\
  convex (rectangle 0 10 0 60) /\ convex (rectangle 10 20 0 60) /\ away m (snd (place (rectangle 0 10 0 60) 1 (1/2))).
Proof.
  split; [apply tall_same|]. split.
  - replace (cell_of tall 1 0) with (rectangle 10 20 0 60).
    + apply same_refl; cbn; apply Rabs_def1; lra.
    + unfold cell_of, rectangle, tall, node. cbn [Z.add Pos.add Z.pos_sub].
      replace (10 * IZR 1) with 10 by ring. replace (10 * IZR (1 + 1)) with 20 by (cbn; ring).
      replace (60 * IZR 0) with 0 by ring. replace (60 * IZR 1) with 60 by ring. f_equal; f_equal; cbn; ring.
  - split; [reflexivity|]. split; [reflexivity|]. split; [apply rect_convex; lra|]. split; [apply rect_convex; lra|].
    apply (tall_case m).
Qed.
