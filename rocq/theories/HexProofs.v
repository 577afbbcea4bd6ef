(** Proofs for C54. *)
From Coq Require Import List ZArith Reals Bool Lra Lia.
From Verif Require Import UnitModel UnitSpec UnitProofs CGridModel CGridSpec CGridProofs HexModel HexSpec.
Import ListNotations.
Open Scope R_scope.

Definition zs (h : cell3) : oct :=
  Oct (z_sw (lower h)) (z_se (lower h)) (z_ne (lower h)) (z_nw (lower h))
      (z_sw (upper h)) (z_se (upper h)) (z_ne (upper h)) (z_nw (upper h)).
Definition xs3 (h : cell3) : oct := twice (xs (base h)).
Definition ys3 (h : cell3) : oct := twice (ys (base h)).

(** ** Vectors *)
Definition add3 (a b : vec3) : vec3 := let '(a1, a2, a3) := a in let '(b1, b2, b3) := b in (a1 + b1, a2 + b2, a3 + b3).
Definition scale3 (k : R) (a : vec3) : vec3 := let '(a1, a2, a3) := a in (k * a1, k * a2, k * a3).

Ltac vec := repeat match goal with v : vec3 |- _ => destruct v as [[? ?] ?] end; unfold dot3, cross3, add3, scale3, minus3; cbn [fst snd].

Lemma norm_scale k a : norm3 (scale3 k a) = Rabs k * norm3 a.
Proof.
  unfold norm3. replace (dot3 (scale3 k a) (scale3 k a)) with (Rsqr k * dot3 a a) by (vec; unfold Rsqr; ring).
  rewrite sqrt_mult_alt, sqrt_Rsqr_abs; [reflexivity|apply Rle_0_sqr].
Qed.
Lemma norm_opp3 a : norm3 (scale3 (-1) a) = norm3 a.
Proof. rewrite norm_scale. replace (-1) with (- (1)) by ring. rewrite Rabs_Ropp, Rabs_R1. ring. Qed.
Lemma norm_nonzero a b : dot3 b a <> 0 -> 0 < norm3 a.
Proof.
  intros H. unfold norm3. apply sqrt_lt_R0.
  destruct a as [[a1 a2] a3], b as [[b1 b2] b3]. unfold dot3 in *. cbn in *.
  destruct (Req_dec a1 0) as [A1|A1]; [|nra]. destruct (Req_dec a2 0) as [A2|A2]; [|nra].
  destruct (Req_dec a3 0) as [A3|A3]; [|nra]. exfalso. apply H. subst. ring.
Qed.

(** Three directions and a velocity given by its flow through the faces they span. *)
Definition sum3 (a b c : vec3) (p q r : R) : vec3 := add3 (add3 (scale3 p a) (scale3 q b)) (scale3 r c).
Lemma sum_faces a b c p q r d : dot3 a (cross3 b c) = d -> d <> 0 ->
  dot3 (sum3 a b c (p / d) (q / d) (r / d)) (cross3 b c) = p /\
  dot3 (sum3 a b c (p / d) (q / d) (r / d)) (cross3 c a) = q /\
  dot3 (sum3 a b c (p / d) (q / d) (r / d)) (cross3 a b) = r.
Proof.
  intros E N. unfold sum3.
  assert (X : forall x y z, dot3 (add3 (add3 (scale3 x a) (scale3 y b)) (scale3 z c)) (cross3 b c) = x * dot3 a (cross3 b c)) by (intros; vec; ring).
  assert (Y : forall x y z, dot3 (add3 (add3 (scale3 x a) (scale3 y b)) (scale3 z c)) (cross3 c a) = y * dot3 a (cross3 b c)) by (intros; vec; ring).
  assert (Z0 : forall x y z, dot3 (add3 (add3 (scale3 x a) (scale3 y b)) (scale3 z c)) (cross3 a b) = z * dot3 a (cross3 b c)) by (intros; vec; ring).
  rewrite X, Y, Z0, E. repeat split; field; exact N.
Qed.
Lemma sum_back a b c v d : dot3 a (cross3 b c) = d -> d <> 0 ->
  sum3 a b c (dot3 v (cross3 b c) / d) (dot3 v (cross3 c a) / d) (dot3 v (cross3 a b) / d) = v.
Proof.
  intros E N. rewrite <- E in *. clear E. unfold sum3. vec. unfold dot3, cross3 in N. cbn in N.
  f_equal; [f_equal|]; field; exact N.
Qed.

Lemma tuple3 (a b c a' b' c' : R) : a = a' -> b = b' -> c = c' -> (a, b, c) = (a', b', c').
Proof. intros -> -> ->. reflexivity. Qed.

(** ** The jacobian matrix *)
Lemma metres3_is m lat a b c : in_metres3 m lat (a, b, c) = (a * jac_lon m lat, b * jac_lat m, c).
Proof.
  destruct m; cbn; [f_equal; f_equal; ring|]. unfold metres_of_lon, metres_of_lat. f_equal. f_equal; [|ring].
  replace (pi / 180 * lat) with (lat * pi / 180) by (unfold Rdiv; ring). ring.
Qed.

Lemma scale_is m l : scale m l = jac_lon m l * jac_lat m.
Proof. destruct m; cbn; [ring|]. replace (l * pi / 180) with (pi / 180 * l) by (unfold Rdiv; ring). ring. Qed.

Section Cell.
Variable m : mesh.
Variable h : cell3.
Notation lat := (fun xsi eta => snd (place (base h) xsi eta)).
Definition tx (xsi eta zet : R) : vec3 := in_metres3 m (lat xsi eta) (line_x h eta zet).
Definition ty (xsi eta zet : R) : vec3 := in_metres3 m (lat xsi eta) (line_y h xsi zet).
Definition tz (xsi eta : R) : vec3 := in_metres3 m (lat xsi eta) (line_z h xsi eta).

Lemma lat_is xsi eta : lat_at (ys3 h) xsi eta = lat xsi eta.
Proof. unfold lat_at, ys3, place, blend. cbn. ring. Qed.

Lemma jacM_is xsi eta zet : exists j, py_jacM m (xs3 h) (ys3 h) (zs h) xsi eta zet = j /\
  tx xsi eta zet = (xx j, yx j, zx j) /\ ty xsi eta zet = (xe j, ye j, ze j) /\ tz xsi eta = (xz j, yz j, zz j).
Proof.
  eexists. split; [reflexivity|]. unfold py_jacM. rewrite lat_is. unfold tx, ty, tz, line_x, line_y, line_z, place3, minus3.
  rewrite !metres3_is. cbn [xx xe xz yx ye yz zx ze zz]. generalize (jac_lon m (lat xsi eta)) (jac_lat m). intros k1 k2.
  unfold dot8, xs3, ys3, zs, twice, place, depth_of, blend, dphidxsi, dphideta, dphidzet. cbn.
  split; [|split]; apply tuple3; ring.
Qed.

Definition jac3 xsi eta zet : R := dot3 (tx xsi eta zet) (normal_x m h xsi eta zet).
Lemma jac_is xsi eta zet : jacobian3D (py_jacM m (xs3 h) (ys3 h) (zs h) xsi eta zet) = jac3 xsi eta zet.
Proof.
  destruct (jacM_is xsi eta zet) as (j & -> & X & Y & Z0). unfold jac3, normal_x. fold (ty xsi eta zet). fold (tz xsi eta).
  rewrite X, Y, Z0. unfold jacobian3D, dot3, cross3. ring.
Qed.
Definition normal (o : orientation) : R -> R -> R -> vec3 :=
  match o with Zonal => normal_x m h | Meridional => normal_y m h | Vertical => normal_z m h end.
Lemma face_is xsi eta zet o :
  face3D (py_jacM m (xs3 h) (ys3 h) (zs h) xsi eta zet) o = norm3 (normal o xsi eta zet).
Proof.
  destruct (jacM_is xsi eta zet) as (j & -> & X & Y & Z0). unfold face3D, norm3.
  destruct o; cbn [normal]; unfold normal_x, normal_y, normal_z; fold (tx xsi eta zet); fold (ty xsi eta zet); fold (tz xsi eta);
    rewrite ?X, ?Y, ?Z0; f_equal; unfold dot3, cross3; ring.
Qed.

Lemma along_is p q r xsi eta zet :
  in_metres3 m (lat xsi eta)
    (dot8 (dphidxsi eta zet) (xs3 h) * p + dot8 (dphideta xsi zet) (xs3 h) * q + dot8 (dphidzet xsi eta) (xs3 h) * r,
     dot8 (dphidxsi eta zet) (ys3 h) * p + dot8 (dphideta xsi zet) (ys3 h) * q + dot8 (dphidzet xsi eta) (ys3 h) * r,
     dot8 (dphidxsi eta zet) (zs h) * p + dot8 (dphideta xsi zet) (zs h) * q + dot8 (dphidzet xsi eta) (zs h) * r)
  = sum3 (tx xsi eta zet) (ty xsi eta zet) (tz xsi eta) p q r.
Proof.
  unfold tx, ty, tz, line_x, line_y, line_z, place3, minus3. rewrite !metres3_is. unfold sum3, add3, scale3.
  generalize (jac_lon m (lat xsi eta)) (jac_lat m). intros k1 k2.
  unfold dot8, xs3, ys3, zs, twice, place, depth_of, blend, dphidxsi, dphideta, dphidzet. cbn.
  apply tuple3; ring.
Qed.

(** ** Sizes *)
Definition thickness (xsi eta : R) : R := depth_of (upper h) xsi eta - depth_of (lower h) xsi eta.
Lemma thickness_pos xsi eta : thick h -> unit_square xsi eta -> 0 < thickness xsi eta.
Proof.
  intros (A & B & C & D) [[X0 X1] [E0 E1]]. unfold thickness, depth_of, blend.
  set (a := z_sw (upper h) - z_sw (lower h)). set (b := z_se (upper h) - z_se (lower h)).
  set (c := z_ne (upper h) - z_ne (lower h)). set (d := z_nw (upper h) - z_nw (lower h)).
  match goal with |- 0 < ?t => replace t with ((1 - eta) * ((1 - xsi) * a + xsi * b) + eta * ((1 - xsi) * d + xsi * c)) by (subst a b c d; ring) end.
  assert (0 < a) by (subst a; lra). assert (0 < b) by (subst b; lra). assert (0 < c) by (subst c; lra). assert (0 < d) by (subst d; lra).
  assert (P : 0 < (1 - xsi) * a + xsi * b) by (destruct (Rle_lt_dec xsi (1/2)); nra).
  assert (Q : 0 < (1 - xsi) * d + xsi * c) by (destruct (Rle_lt_dec xsi (1/2)); nra).
  destruct (Rle_lt_dec eta (1/2)); nra.
Qed.
Lemma jac3_is xsi eta zet :
  jac3 xsi eta zet = scale m (lat xsi eta) * cross (e_xsi (base h) eta) (e_eta (base h) xsi) * thickness xsi eta.
Proof.
  unfold jac3, normal_x, tx, line_x, line_y, line_z, place3, minus3. rewrite !metres3_is. unfold thickness.
  rewrite scale_is. generalize (jac_lon m (lat xsi eta)) (jac_lat m). intros k1 k2. unfold dot3, cross3, cross, e_xsi, e_eta, place, blend. cbn. ring.
Qed.
Lemma jac3_pos xsi eta zet : convex (base h) -> thick h -> unit_square xsi eta -> away m (lat xsi eta) -> 0 < jac3 xsi eta zet.
Proof.
  intros C T S A. rewrite jac3_is. pose proof (scale_pos _ _ A). pose proof (jac_pos _ _ _ C S). pose proof (thickness_pos _ _ T S).
  apply Rmult_lt_0_compat; [apply Rmult_lt_0_compat|]; assumption.
Qed.
Lemma jac3_dot xsi eta zet o : dot3 (match o with Zonal => tx xsi eta zet | Meridional => ty xsi eta zet | Vertical => tz xsi eta end)
  (normal o xsi eta zet) = jac3 xsi eta zet.
Proof.
  unfold jac3. destruct o; [reflexivity| |]; cbn [normal]; unfold normal_x, normal_y, normal_z;
  fold (tx xsi eta zet); fold (ty xsi eta zet); fold (tz xsi eta);
    destruct (tx xsi eta zet) as [[? ?] ?], (ty xsi eta zet) as [[? ?] ?], (tz xsi eta) as [[? ?] ?]; unfold dot3, cross3; ring.
Qed.
Lemma normal_pos xsi eta zet o : convex (base h) -> thick h -> unit_square xsi eta -> away m (lat xsi eta) ->
  0 < norm3 (normal o xsi eta zet).
Proof.
  intros C T S A. eapply norm_nonzero. rewrite jac3_dot. pose proof (jac3_pos xsi eta zet C T S A). lra.
Qed.

(** ** The value *)
Definition h2 : R := 1 / 2.
Lemma h2_square : unit_square h2 h2.
Proof. unfold unit_square, h2. lra. Qed.

Section Value.
Variable s : speeds.
Definition uvw_here (xsi eta zet : R) : option vec3 :=
  uvw_of (py_jacM m) (xs3 h) (ys3 h) (zs h) (s_w s) (s_e s) (s_s s) (s_n s) (s_l s) (s_u s) xsi eta zet.

Lemma value xsi eta zet : convex (base h) -> thick h -> unit_square xsi eta -> away m (lat xsi eta) -> away m (lat h2 h2) ->
  exists U05 V05 W05 r, uvw_here xsi eta zet = Some r /\
    in_metres3 m (lat xsi eta) r =
    sum3 (tx xsi eta zet) (ty xsi eta zet) (tz xsi eta)
      (quad_of (s_w s * norm3 (normal Zonal 0 eta zet)) U05 (s_e s * norm3 (normal Zonal 1 eta zet)) xsi / jac3 xsi eta zet)
      (quad_of (s_s s * norm3 (normal Meridional xsi 0 zet)) V05 (s_n s * norm3 (normal Meridional xsi 1 zet)) eta / jac3 xsi eta zet)
      (quad_of (s_l s * norm3 (normal Vertical xsi eta 0)) W05 (s_u s * norm3 (normal Vertical xsi eta 1)) zet / jac3 xsi eta zet) /\
    exists fu fv fw,
    U05 = fu / norm3 (normal Zonal h2 h2 h2) * norm3 (normal Zonal h2 eta zet) /\
    V05 = fv / norm3 (normal Meridional h2 h2 h2) * norm3 (normal Meridional xsi h2 zet) /\
    W05 = fw / norm3 (normal Vertical h2 h2 h2) * norm3 (normal Vertical xsi eta h2) /\
    (let f := fun (k : oct -> oct) xsi eta zet o => face3D (py_jacM m (k (xs3 h)) (k (ys3 h)) (k (zs h)) xsi eta zet) o in
     fu = s_w s * f half_left 0 h2 h2 Zonal + s_s s * f half_left h2 0 h2 Meridional - s_n s * f half_left h2 1 h2 Meridional
          + s_l s * f half_left h2 h2 0 Vertical - s_u s * f half_left h2 h2 1 Vertical /\
     fv = s_w s * f half_front 0 h2 h2 Zonal - s_e s * f half_front 1 h2 h2 Zonal + s_s s * f half_front h2 0 h2 Meridional
          + s_l s * f half_front h2 h2 0 Vertical - s_u s * f half_front h2 h2 1 Vertical /\
     fw = s_w s * f half_lower 0 h2 h2 Zonal - s_e s * f half_lower 1 h2 h2 Zonal + s_s s * f half_lower h2 0 h2 Meridional
          - s_n s * f half_lower h2 1 h2 Meridional + s_l s * f half_lower h2 h2 0 Vertical).
Proof.
  intros C T S A AH. unfold uvw_here, uvw_of. cbv zeta. fold h2. rewrite !face_is, jac_is.
  pose proof (normal_pos h2 h2 h2 Zonal C T h2_square AH). pose proof (normal_pos h2 h2 h2 Meridional C T h2_square AH).
  pose proof (normal_pos h2 h2 h2 Vertical C T h2_square AH). pose proof (jac3_pos xsi eta zet C T S A).
  repeat match goal with |- context [Req_EM_T ?a 0] => destruct (Req_EM_T a 0); [lra|] end.
  do 4 eexists. split; [reflexivity|]. split; [apply along_is|]. do 3 eexists. repeat split; reflexivity.
Qed.
End Value.
End Cell.
