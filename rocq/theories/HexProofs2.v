(** Proofs for C54: faces, neighbours, uniform flow, boxes, both modes. *)
From Coq Require Import List ZArith Reals Bool Lra Lia.
From Verif Require Import UnitModel UnitSpec UnitProofs CGridModel CGridSpec CGridProofs HexModel HexSpec HexProofs.
Import ListNotations.
Open Scope R_scope.

Lemma quad_0 a b c : quad_of a b c 0 = a.
Proof. unfold quad_of. ring. Qed.
Lemma quad_1 a b c : quad_of a b c 1 = c.
Proof. unfold quad_of. ring. Qed.

Section Faces.
Variable m : mesh.
Variable h : cell3.
Notation lat := (fun xsi eta => snd (place (base h) xsi eta)).

Lemma sum_normals xsi eta zet p q r : jac3 m h xsi eta zet <> 0 ->
  let v := sum3 (tx m h xsi eta zet) (ty m h xsi eta zet) (tz m h xsi eta) (p / jac3 m h xsi eta zet) (q / jac3 m h xsi eta zet) (r / jac3 m h xsi eta zet) in
  dot3 v (normal_x m h xsi eta zet) = p /\ dot3 v (normal_y m h xsi eta zet) = q /\ dot3 v (normal_z m h xsi eta zet) = r.
Proof.
  intros N v. apply (sum_faces (tx m h xsi eta zet) (ty m h xsi eta zet) (tz m h xsi eta) p q r (jac3 m h xsi eta zet)); [reflexivity|exact N].
Qed.

Lemma div_mul s n : 0 < n -> s * n / n = s.
Proof. intros. field. lra. Qed.

Lemma faces3 s xsi eta zet : convex (base h) -> thick h -> unit_square xsi eta -> away m (lat xsi eta) -> away m (lat h2 h2) ->
  exists r, uvw_here m h s xsi eta zet = Some r /\ crosses_faces3 m h xsi eta zet r s.
Proof.
  intros C T S A AH. destruct (value m h s xsi eta zet C T S A AH) as (U & V & W & r & E & F & _). exists r. split; [exact E|].
  pose proof (jac3_pos m h xsi eta zet C T S A) as J.
  pose proof (normal_pos m h xsi eta zet Zonal C T S A) as NX. pose proof (normal_pos m h xsi eta zet Meridional C T S A) as NY.
  pose proof (normal_pos m h xsi eta zet Vertical C T S A) as NZ. cbn [normal] in NX, NY, NZ.
  unfold crosses_faces3, along3. rewrite F.
  match goal with |- context [sum3 _ _ _ (?p / _) (?q / _) (?r / _)] => destruct (sum_normals xsi eta zet p q r) as (X & Y & Z0); [lra|] end.
  cbv zeta in X, Y, Z0. rewrite X, Y, Z0. cbn [normal].
  repeat split; intros ->; rewrite ?quad_0, ?quad_1; apply div_mul; assumption.
Qed.
End Faces.

(** ** On the grid *)
Definition s_of (U V W : Z -> Z -> Z -> R) (xi yi zi : Z) : speeds :=
  Speeds (U zi (yi + 1)%Z xi) (U zi (yi + 1)%Z (xi + 1)%Z) (V zi yi (xi + 1)%Z) (V zi (yi + 1)%Z (xi + 1)%Z)
         (W zi (yi + 1)%Z (xi + 1)%Z) (W (zi + 1)%Z (yi + 1)%Z (xi + 1)%Z).
Lemma s_of_is U V W xi yi zi : face_values U V W xi yi zi = s_of U V W xi yi zi.
Proof.
  unfold face_values, s_of, west_value, south_value, east_value, north_value.
  replace (xi - 1 + 1)%Z with xi by lia. replace (yi - 1 + 1)%Z with yi by lia. reflexivity.
Qed.

Definition seen (l : levels) : Z -> Z -> Z -> R := match l with Fixed d => d | Moving d => d 0%Z end.

Lemma py_uvw_is m g l U V W xsi eta zet xi yi zi c : same_cell m (cell_of g xi yi) c -> unit_square xsi eta ->
  py_uvw m g l U V W xsi eta zet xi yi zi (fst (place c xsi eta)) =
  uvw_here m (cell3_of (seen l) c xi yi zi) (face_values U V W xi yi zi) xsi eta zet.
Proof.
  intros SC S. unfold py_uvw. rewrite px_raw, py_raw, (same_lats _ _ _ SC), (wrap_same _ _ _ _ _ SC S), s_of_is.
  match goal with |- context [Rlt_dec (Rabs ?a) _] => replace a with 0 by (unfold place, blend, xs; cbn; ring) end.
  rewrite Rabs_R0. destruct (Rlt_dec 0 (1 / 10000)) as [L|L]; [|lra].
  unfold uvw_here, xs3, ys3, zs, cell3_of, s_of. cbn. destruct l; reflexivity.
Qed.

Lemma py_faces3 m g l U V W xi yi zi c xsi eta zet :
  let h := cell3_of (seen l) c xi yi zi in
  same_cell m (cell_of g xi yi) c -> convex c -> thick h -> unit_cube xsi eta zet ->
  away m (snd (place c xsi eta)) -> away m (snd (place c (1/2) (1/2))) ->
  exists uvw, py_uvw m g l U V W xsi eta zet xi yi zi (fst (place c xsi eta)) = Some uvw /\
    crosses_faces3 m h xsi eta zet uvw (face_values U V W xi yi zi).
Proof.
  intros h SC C T (S1 & S2 & _) A AH. rewrite (py_uvw_is _ _ _ _ _ _ _ _ _ _ _ _ _ SC (conj S1 S2)).
  apply faces3; try assumption. split; assumption.
Qed.

Lemma along_blend m lat a b w n : dot3 (in_metres3 m lat
   (let '(a1, a2, a3) := a in let '(b1, b2, b3) := b in (a1 + (b1 - a1) * w, a2 + (b2 - a2) * w, a3 + (b3 - a3) * w))) n
  = dot3 (in_metres3 m lat a) n + (dot3 (in_metres3 m lat b) n - dot3 (in_metres3 m lat a) n) * w.
Proof. destruct a as [[a1 a2] a3], b as [[b1 b2] b3], n as [[n1 n2] n3]. rewrite !metres3_is. unfold dot3. ring. Qed.

Lemma faces3_blend m h xsi eta zet a b w s s' :
  crosses_faces3 m h xsi eta zet a s -> crosses_faces3 m h xsi eta zet b s' ->
  exists r, blend3 w (Some a) (Some b) = Some r /\ crosses_faces3 m h xsi eta zet r (blend_speeds w s s').
Proof.
  destruct a as [[a1 a2] a3], b as [[b1 b2] b3]. intros A B. eexists. split; [reflexivity|].
  destruct A as (A1 & A2 & A3 & A4 & A5 & A6), B as (B1 & B2 & B3 & B4 & B5 & B6).
  pose proof (fun lat n => along_blend m lat (a1, a2, a3) (b1, b2, b3) w n) as L.
  unfold crosses_faces3, along3 in *. cbn [s_w s_e s_s s_n s_l s_u blend_speeds].
  repeat split; intros E;
    [rewrite <- (A1 E), <- (B1 E)|rewrite <- (A2 E), <- (B2 E)|rewrite <- (A3 E), <- (B3 E)|rewrite <- (A4 E), <- (B4 E)
    |rewrite <- (A5 E), <- (B5 E)|rewrite <- (A6 E), <- (B6 E)]; rewrite L; unfold Rdiv; ring.
Qed.

Lemma blend_speeds_0 a b : blend_speeds 0 a b = a.
Proof. destruct a. unfold blend_speeds. cbn. f_equal; ring. Qed.

Lemma py_faces3_at times tdim m g l U V W ti time xi yi zi c xsi eta zet :
  let h := cell3_of (seen l) c xi yi zi in
  same_cell m (cell_of g xi yi) c -> convex c -> thick h -> unit_cube xsi eta zet ->
  away m (snd (place c xsi eta)) -> away m (snd (place c (1/2) (1/2))) ->
  (0 <= ti < tdim)%Z -> ((ti < tdim - 1)%Z -> times ti < times (ti + 1)%Z) -> times ti <= time ->
  exists uvw, py_uvw_at times tdim m g l U V W ti time xsi eta zet xi yi zi (fst (place c xsi eta)) = Some uvw /\
    crosses_faces3 m h xsi eta zet uvw (speeds_at times tdim ti time (fun k => face_values (U k) (V k) (W k) xi yi zi)).
Proof.
  intros h SC C T S A AH TI TT LE.
  destruct (py_faces3 m g l (U ti) (V ti) (W ti) xi yi zi c xsi eta zet SC C T S A AH) as (a & Ea & Fa).
  destruct (py_faces3 m g l (U (ti + 1)%Z) (V (ti + 1)%Z) (W (ti + 1)%Z) xi yi zi c xsi eta zet SC C T S A AH) as (b & Eb & Fb).
  unfold py_uvw_at, speeds_at. rewrite Ea, Eb.
  destruct (Z.ltb_spec ti (tdim - 1)) as [L|L]; cbn [andb].
  - destruct (Rlt_dec (times ti) time) as [G|G].
    + apply faces3_blend; assumption.
    + exists a. split; [reflexivity|]. replace time with (times ti) by lra.
      replace ((times ti - times ti) / (times (ti + 1)%Z - times ti)) with 0 by (field; specialize (TT L); lra).
      rewrite blend_speeds_0. exact Fa.
  - exists a. split; [reflexivity|]. rewrite blend_speeds_0. exact Fa.
Qed.

(** ** Uniform flow *)
Section Uniform.
Variable h : cell3.
Variable v : vec3.
Variable s : speeds.
Notation N := (normal Flat h).

Lemma away_flat x : away Flat x.
Proof. exact I. Qed.

(** The halves are cells. *)
Definition mid (a b : vec) : vec := ((fst a + fst b) / 2, (snd a + snd b) / 2).
Definition left_c (c : cell) : cell := Cell (sw c) (mid (sw c) (se c)) (mid (ne c) (nw c)) (nw c).
Definition left_l (l : level) : level := Level (z_sw l) ((z_sw l + z_se l) / 2) ((z_ne l + z_nw l) / 2) (z_nw l).
Definition left_h : cell3 := Cell3 (left_c (base h)) (left_l (lower h)) (left_l (upper h)).
Definition front_c (c : cell) : cell := Cell (sw c) (se c) (mid (se c) (ne c)) (mid (sw c) (nw c)).
Definition front_l (l : level) : level := Level (z_sw l) (z_se l) ((z_se l + z_ne l) / 2) ((z_sw l + z_nw l) / 2).
Definition front_h : cell3 := Cell3 (front_c (base h)) (front_l (lower h)) (front_l (upper h)).
Definition mid_l (a b : level) : level :=
  Level ((z_sw a + z_sw b) / 2) ((z_se a + z_se b) / 2) ((z_ne a + z_ne b) / 2) ((z_nw a + z_nw b) / 2).
Definition low_h : cell3 := Cell3 (base h) (lower h) (mid_l (lower h) (upper h)).

Lemma left_is : half_left (xs3 h) = xs3 left_h /\ half_left (ys3 h) = ys3 left_h /\ half_left (zs h) = zs left_h.
Proof. repeat split. Qed.
Lemma front_is : half_front (xs3 h) = xs3 front_h /\ half_front (ys3 h) = ys3 front_h /\ half_front (zs h) = zs front_h.
Proof. repeat split. Qed.
Lemma double_half (a : R) : (a + a) / 2 = a.
Proof. field. Qed.
Lemma low_is : half_lower (xs3 h) = xs3 low_h /\ half_lower (ys3 h) = ys3 low_h /\ half_lower (zs h) = zs low_h.
Proof.
  unfold half_lower, xs3, ys3, zs, low_h, twice. cbn. rewrite !double_half. repeat split.
Qed.

Ltac normals := unfold normal, normal_x, normal_y, normal_z, line_x, line_y, line_z, place3, in_metres3, in_metres, minus3, cross3, scale3;
  unfold left_h, left_c, left_l, front_h, front_c, front_l, low_h, mid_l, mid, place, depth_of, blend, h2; cbn;
  apply tuple3; field.
Definition q4 : R := 1 / 4.
Lemma left_x : normal Flat left_h Zonal 0 h2 h2 = N Zonal 0 h2 h2. Proof. normals. Qed.
Lemma left_y0 : normal Flat left_h Meridional h2 0 h2 = scale3 h2 (N Meridional q4 0 h2). Proof. unfold q4. normals. Qed.
Lemma left_y1 : normal Flat left_h Meridional h2 1 h2 = scale3 h2 (N Meridional q4 1 h2). Proof. unfold q4. normals. Qed.
Lemma left_z0 : normal Flat left_h Vertical h2 h2 0 = scale3 h2 (N Vertical q4 h2 0). Proof. unfold q4. normals. Qed.
Lemma left_z1 : normal Flat left_h Vertical h2 h2 1 = scale3 h2 (N Vertical q4 h2 1). Proof. unfold q4. normals. Qed.
Lemma front_x0 : normal Flat front_h Zonal 0 h2 h2 = scale3 h2 (N Zonal 0 q4 h2). Proof. unfold q4. normals. Qed.
Lemma front_x1 : normal Flat front_h Zonal 1 h2 h2 = scale3 h2 (N Zonal 1 q4 h2). Proof. unfold q4. normals. Qed.
Lemma front_y : normal Flat front_h Meridional h2 0 h2 = N Meridional h2 0 h2. Proof. normals. Qed.
Lemma front_z0 : normal Flat front_h Vertical h2 h2 0 = scale3 h2 (N Vertical h2 q4 0). Proof. unfold q4. normals. Qed.
Lemma front_z1 : normal Flat front_h Vertical h2 h2 1 = scale3 h2 (N Vertical h2 q4 1). Proof. unfold q4. normals. Qed.
Lemma low_x0 : normal Flat low_h Zonal 0 h2 h2 = scale3 h2 (N Zonal 0 h2 q4). Proof. unfold q4. normals. Qed.
Lemma low_x1 : normal Flat low_h Zonal 1 h2 h2 = scale3 h2 (N Zonal 1 h2 q4). Proof. unfold q4. normals. Qed.
Lemma low_y0 : normal Flat low_h Meridional h2 0 h2 = scale3 h2 (N Meridional h2 0 q4). Proof. unfold q4. normals. Qed.
Lemma low_y1 : normal Flat low_h Meridional h2 1 h2 = scale3 h2 (N Meridional h2 1 q4). Proof. unfold q4. normals. Qed.
Lemma low_z : normal Flat low_h Vertical h2 h2 0 = N Vertical h2 h2 0. Proof. normals. Qed.

(** What flows into a half flows out of it. *)
Ltac sums := unfold normal, normal_x, normal_y, normal_z, line_x, line_y, line_z, place3, in_metres3, in_metres, minus3, cross3, dot3, h2, q4;
  destruct v as [[v1 v2] v3]; unfold place, depth_of, blend; cbn; field.
Lemma balance_x : dot3 v (N Zonal 0 h2 h2) + h2 * dot3 v (N Meridional q4 0 h2) - h2 * dot3 v (N Meridional q4 1 h2)
  + h2 * dot3 v (N Vertical q4 h2 0) - h2 * dot3 v (N Vertical q4 h2 1) = dot3 v (N Zonal h2 h2 h2).
Proof. sums. Qed.
Lemma balance_y : h2 * dot3 v (N Zonal 0 q4 h2) - h2 * dot3 v (N Zonal 1 q4 h2) + dot3 v (N Meridional h2 0 h2)
  + h2 * dot3 v (N Vertical h2 q4 0) - h2 * dot3 v (N Vertical h2 q4 1) = dot3 v (N Meridional h2 h2 h2).
Proof. sums. Qed.
Lemma balance_z : h2 * dot3 v (N Zonal 0 h2 q4) - h2 * dot3 v (N Zonal 1 h2 q4) + h2 * dot3 v (N Meridional h2 0 q4)
  - h2 * dot3 v (N Meridional h2 1 q4) + dot3 v (N Vertical h2 h2 0) = dot3 v (N Vertical h2 h2 h2).
Proof. sums. Qed.

(** The flow through a coordinate surface is quadratic across the cell. *)
Lemma quad_x xsi eta zet : quad_of (dot3 v (N Zonal 0 eta zet)) (dot3 v (N Zonal h2 eta zet)) (dot3 v (N Zonal 1 eta zet)) xsi = dot3 v (N Zonal xsi eta zet).
Proof. unfold quad_of. sums. Qed.
Lemma quad_y xsi eta zet : quad_of (dot3 v (N Meridional xsi 0 zet)) (dot3 v (N Meridional xsi h2 zet)) (dot3 v (N Meridional xsi 1 zet)) eta = dot3 v (N Meridional xsi eta zet).
Proof. unfold quad_of. sums. Qed.
Lemma quad_z xsi eta zet : quad_of (dot3 v (N Vertical xsi eta 0)) (dot3 v (N Vertical xsi eta h2)) (dot3 v (N Vertical xsi eta 1)) zet = dot3 v (N Vertical xsi eta zet).
Proof. unfold quad_of. sums. Qed.
End Uniform.
