(** Proofs for C54: uniform flow, boxes, both modes, neighbours. *)
From Coq Require Import List ZArith Reals Bool Lra Lia.
From Verif Require Import UnitModel UnitSpec UnitProofs CGridModel CGridSpec CGridProofs HexModel HexSpec HexProofs HexProofs2.
Import ListNotations.
Open Scope R_scope.

Section Uniform.
Variable h : cell3.
Variable v : vec3.
Variable s : speeds.
Hypothesis CV : convex (base h).
Hypothesis TH : thick h.
Hypothesis LO : planar (base h) (lower h).
Hypothesis UP : planar (base h) (upper h).
Hypothesis FT : flows_through h v s.
Notation N := (normal Flat h).

Lemma npos o xsi eta zet : unit_square xsi eta -> 0 < norm3 (N o xsi eta zet).
Proof. intros S. apply normal_pos; try assumption; exact I. Qed.

Lemma h2_unit : 0 <= h2 <= 1. Proof. unfold h2. lra. Qed.
Lemma q4_unit : 0 <= q4 <= 1. Proof. unfold q4. lra. Qed.
Lemma unit0 : 0 <= 0 <= 1. Proof. lra. Qed.
Lemma unit1 : 0 <= 1 <= 1. Proof. lra. Qed.

Lemma metres_flat lat (a : vec3) : in_metres3 Flat lat a = a.
Proof. destruct a as [[a1 a2] a3]. reflexivity. Qed.

Ltac through k :=
  let S := fresh in let F := fresh in
  intros ? ?; match goal with |- _ * norm3 (N ?o ?x ?e ?z) = _ =>
    assert (S : unit_cube x e z) by (repeat split; try lra; assumption || apply h2_unit);
    pose proof (FT _ _ _ S) as F; unfold crosses_faces3 in F; rewrite metres_flat in F;
    pose proof (npos o x e z (conj (proj1 S) (proj1 (proj2 S)))) as NP end.
Lemma use_speed a n sp : 0 < norm3 n -> along3 a n = sp -> sp * norm3 n = dot3 a n.
Proof. intros P <-. unfold along3. field. lra. Qed.

Lemma thru_w eta zet : 0 <= eta <= 1 -> 0 <= zet <= 1 -> s_w s * norm3 (N Zonal 0 eta zet) = dot3 v (N Zonal 0 eta zet).
Proof.
  intros E Z0. apply use_speed; [apply npos; split; [exact unit0|exact E]|].
  destruct (FT 0 eta zet (conj unit0 (conj E Z0))) as (F & _). rewrite metres_flat in F. apply F. reflexivity.
Qed.
Lemma thru_e eta zet : 0 <= eta <= 1 -> 0 <= zet <= 1 -> s_e s * norm3 (N Zonal 1 eta zet) = dot3 v (N Zonal 1 eta zet).
Proof.
  intros E Z0. apply use_speed; [apply npos; split; [exact unit1|exact E]|].
  destruct (FT 1 eta zet (conj unit1 (conj E Z0))) as (_ & F & _). rewrite metres_flat in F. apply F. reflexivity.
Qed.
Lemma thru_s xsi zet : 0 <= xsi <= 1 -> 0 <= zet <= 1 -> s_s s * norm3 (N Meridional xsi 0 zet) = dot3 v (N Meridional xsi 0 zet).
Proof.
  intros E Z0. apply use_speed; [apply npos; split; [exact E|exact unit0]|].
  destruct (FT xsi 0 zet (conj E (conj unit0 Z0))) as (_ & _ & F & _). rewrite metres_flat in F. apply F. reflexivity.
Qed.
Lemma thru_n xsi zet : 0 <= xsi <= 1 -> 0 <= zet <= 1 -> s_n s * norm3 (N Meridional xsi 1 zet) = dot3 v (N Meridional xsi 1 zet).
Proof.
  intros E Z0. apply use_speed; [apply npos; split; [exact E|exact unit1]|].
  destruct (FT xsi 1 zet (conj E (conj unit1 Z0))) as (_ & _ & _ & F & _). rewrite metres_flat in F. apply F. reflexivity.
Qed.
Lemma thru_l xsi eta : 0 <= xsi <= 1 -> 0 <= eta <= 1 -> s_l s * norm3 (N Vertical xsi eta 0) = dot3 v (N Vertical xsi eta 0).
Proof.
  intros E Z0. apply use_speed; [apply npos; split; [exact E|exact Z0]|].
  destruct (FT xsi eta 0 (conj E (conj Z0 unit0))) as (_ & _ & _ & _ & F & _). rewrite metres_flat in F. apply F. reflexivity.
Qed.
Lemma thru_u xsi eta : 0 <= xsi <= 1 -> 0 <= eta <= 1 -> s_u s * norm3 (N Vertical xsi eta 1) = dot3 v (N Vertical xsi eta 1).
Proof.
  intros E Z0. apply use_speed; [apply npos; split; [exact E|exact Z0]|].
  destruct (FT xsi eta 1 (conj E (conj Z0 unit1))) as (_ & _ & _ & _ & _ & F). rewrite metres_flat in F. apply F. reflexivity.
Qed.

Lemma half_norm sp n : sp * norm3 n = dot3 v n -> sp * norm3 (scale3 h2 n) = h2 * dot3 v n.
Proof. intros E. rewrite norm_scale, <- E. unfold h2. rewrite Rabs_right by lra. ring. Qed.

(** The middle surfaces are planar. *)
Lemma mid_x eta zet : N Zonal h2 eta zet = scale3 (thickness h h2 eta / thickness h h2 h2) (N Zonal h2 h2 h2).
Proof.
  pose proof (thickness_pos h h2 h2 TH h2_square) as P. revert P.
  unfold normal, normal_x, line_y, line_z, place3, in_metres3, in_metres, minus3, cross3, scale3, thickness.
  set (d1 := depth_of (upper h) h2 h2). set (d0 := depth_of (lower h) h2 h2). intros P.
  set (e1 := depth_of (upper h) h2 eta). set (e0 := depth_of (lower h) h2 eta).
  unfold place, blend. cbn. apply tuple3; field; lra.
Qed.
Lemma mid_y xsi zet : N Meridional xsi h2 zet = scale3 (thickness h xsi h2 / thickness h h2 h2) (N Meridional h2 h2 h2).
Proof.
  pose proof (thickness_pos h h2 h2 TH h2_square) as P. revert P.
  unfold normal, normal_y, line_x, line_z, place3, in_metres3, in_metres, minus3, cross3, scale3, thickness.
  set (d1 := depth_of (upper h) h2 h2). set (d0 := depth_of (lower h) h2 h2). intros P.
  set (e1 := depth_of (upper h) xsi h2). set (e0 := depth_of (lower h) xsi h2).
  unfold place, blend. cbn. apply tuple3; field; lra.
Qed.
Lemma mid_z xsi eta : N Vertical xsi eta h2 =
  scale3 (cross (e_xsi (base h) eta) (e_eta (base h) xsi) / cross (e_xsi (base h) h2) (e_eta (base h) h2)) (N Vertical h2 h2 h2).
Proof.
  destruct LO as (a & b & d & L1 & L2 & L3 & L4), UP as (a' & b' & d' & U1 & U2 & U3 & U4).
  pose proof (jac_pos _ _ _ CV h2_square) as J.
  assert (E : forall x e, N Vertical x e h2 = scale3 (cross (e_xsi (base h) e) (e_eta (base h) x)) (- (b + b') / 2, - (d + d') / 2, 1)).
  { intros x e. unfold normal, normal_z, line_x, line_y, place3, in_metres3, in_metres, minus3, cross3, scale3, depth_of, cross, e_xsi, e_eta.
    rewrite L1, L2, L3, L4, U1, U2, U3, U4. unfold place, blend, h2. cbn. apply tuple3; field. }
  rewrite (E xsi eta), (E h2 h2). unfold scale3. apply tuple3; field; lra.
Qed.

Lemma use_mid f n k n0 : 0 < norm3 n0 -> 0 <= k -> f = dot3 v n0 -> n = scale3 k n0 -> f / norm3 n0 * norm3 n = dot3 v n.
Proof.
  intros P K -> ->. rewrite norm_scale, Rabs_right by lra.
  replace (dot3 v (scale3 k n0)) with (k * dot3 v n0) by (destruct v as [[? ?] ?], n0 as [[? ?] ?]; unfold dot3, scale3; ring).
  field. lra.
Qed.

Lemma uniform_here xsi eta zet : unit_cube xsi eta zet -> uvw_here Flat h s xsi eta zet = Some v.
Proof.
  intros (X & E & Z0). assert (S : unit_square xsi eta) by (split; assumption).
  destruct (value Flat h s xsi eta zet CV TH S I I) as (U & V & W & r & ER & F & fu & fv & fw & EU & EV & EW & HF).
  rewrite ER. f_equal. rewrite metres_flat in F. rewrite F. cbv beta zeta in HF.
  destruct (left_is h) as (A1 & A2 & A3), (front_is h) as (B1 & B2 & B3), (low_is h) as (C1 & C2 & C3).
  rewrite A1, A2, A3, B1, B2, B3, C1, C2, C3 in HF. rewrite !face_is in HF. destruct HF as (HU & HV & HW).
  rewrite left_x, left_y0, left_y1, left_z0, left_z1 in HU. rewrite front_x0, front_x1, front_y, front_z0, front_z1 in HV.
  rewrite low_x0, low_x1, low_y0, low_y1, low_z in HW.
  rewrite (thru_w _ _ h2_unit h2_unit), (half_norm _ _ (thru_s _ _ q4_unit h2_unit)), (half_norm _ _ (thru_n _ _ q4_unit h2_unit)),
    (half_norm _ _ (thru_l _ _ q4_unit h2_unit)), (half_norm _ _ (thru_u _ _ q4_unit h2_unit)), balance_x in HU.
  rewrite (half_norm _ _ (thru_w _ _ q4_unit h2_unit)), (half_norm _ _ (thru_e _ _ q4_unit h2_unit)), (thru_s _ _ h2_unit h2_unit),
    (half_norm _ _ (thru_l _ _ h2_unit q4_unit)), (half_norm _ _ (thru_u _ _ h2_unit q4_unit)), balance_y in HV.
  rewrite (half_norm _ _ (thru_w _ _ h2_unit q4_unit)), (half_norm _ _ (thru_e _ _ h2_unit q4_unit)),
    (half_norm _ _ (thru_s _ _ h2_unit q4_unit)), (half_norm _ _ (thru_n _ _ h2_unit q4_unit)), (thru_l _ _ h2_unit h2_unit), balance_z in HW.
  assert (SE : unit_square h2 eta) by (split; [apply h2_unit|exact E]). assert (SX : unit_square xsi h2) by (split; [exact X|apply h2_unit]).
  pose proof (thickness_pos h h2 h2 TH h2_square) as T0. pose proof (thickness_pos h h2 eta TH SE) as T1. pose proof (thickness_pos h xsi h2 TH SX) as T2.
  pose proof (jac_pos _ _ _ CV h2_square) as J0. pose proof (jac_pos _ _ _ CV S) as J1.
  assert (DIV : forall a b, 0 < a -> 0 < b -> 0 <= a / b) by (intros; apply Rlt_le, Rdiv_lt_0_compat; assumption).
  rewrite (use_mid fu _ _ _ (npos _ _ _ _ h2_square) (DIV _ _ T1 T0) HU (mid_x eta zet)) in EU.
  rewrite (use_mid fv _ _ _ (npos _ _ _ _ h2_square) (DIV _ _ T2 T0) HV (mid_y xsi zet)) in EV.
  rewrite (use_mid fw _ _ _ (npos _ _ _ _ h2_square) (DIV _ _ J1 J0) HW (mid_z xsi eta)) in EW.
  rewrite EU, EV, EW, (thru_w _ _ E Z0), (thru_e _ _ E Z0), (thru_s _ _ X Z0), (thru_n _ _ X Z0), (thru_l _ _ X E), (thru_u _ _ X E).
  rewrite quad_x, quad_y, quad_z.
  pose proof (jac3_pos Flat h xsi eta zet CV TH S I) as J.
  apply (sum_back (tx Flat h xsi eta zet) (ty Flat h xsi eta zet) (tz Flat h xsi eta) v (jac3 Flat h xsi eta zet)); [reflexivity|lra].
Qed.
End Uniform.

Lemma py_uniform g l U V W xi yi zi xsi eta zet v :
  let c := cell_of g xi yi in
  let h := cell3_of (seen l) c xi yi zi in
  convex c -> thick h -> planar c (lower h) -> planar c (upper h) -> unit_cube xsi eta zet ->
  flows_through h v (face_values U V W xi yi zi) ->
  py_uvw Flat g l U V W xsi eta zet xi yi zi (fst (place c xsi eta)) = Some v.
Proof.
  intros c h C T LO UP S FT. destruct S as (X & E & Z0).
  rewrite (py_uvw_is Flat g l U V W xsi eta zet xi yi zi c eq_refl (conj X E)).
  apply uniform_here; try assumption. split; [|split]; assumption.
Qed.

(** ** Boxes *)
Section Box.
Variables x0 x1 y0 y1 z0 z1 : R.
Hypothesis HX : x0 < x1.
Hypothesis HY : y0 < y1.
Hypothesis HZ : z0 < z1.
Notation h := (box x0 x1 y0 y1 z0 z1).
Notation dx := (x1 - x0).
Notation dy := (y1 - y0).
Notation dz := (z1 - z0).

Lemma box_convex : convex (base h).
Proof. apply rect_convex; assumption. Qed.
Lemma box_thick : thick h.
Proof. unfold thick. cbn. lra. Qed.

Definition box_normal (o : orientation) (kx ky kz : R) : vec3 :=
  match o with Zonal => (ky * kz, 0, 0) | Meridional => (0, kx * kz, 0) | Vertical => (0, 0, kx * ky) end.
Lemma box_norm o kx ky kz : 0 < kx -> 0 < ky -> 0 < kz ->
  norm3 (box_normal o kx ky kz) = match o with Zonal => ky * kz | Meridional => kx * kz | Vertical => kx * ky end.
Proof.
  intros A B C. unfold norm3. destruct o; unfold box_normal, dot3;
    match goal with |- _ = ?r => match goal with |- sqrt ?t = _ => replace t with (Rsqr r) by (unfold Rsqr; ring) end end;
    rewrite sqrt_Rsqr; try reflexivity; apply Rlt_le, Rmult_lt_0_compat; assumption.
Qed.
Lemma box_normal_is o xsi eta zet : normal Flat h o xsi eta zet = box_normal o dx dy dz.
Proof.
  destruct o; unfold normal, normal_x, normal_y, normal_z, line_x, line_y, line_z, place3, in_metres3, in_metres, minus3, cross3, box_normal, depth_of, place, blend;
    cbn; apply tuple3; ring.
Qed.
Lemma left_box : left_h h = box x0 ((x0 + x1) / 2) y0 y1 z0 z1.
Proof. unfold left_h, left_c, left_l, box, rectangle, flat_level, mid. cbn. rewrite !double_half. replace ((x1 + x0) / 2) with ((x0 + x1) / 2) by field. reflexivity. Qed.
Lemma front_box : front_h h = box x0 x1 y0 ((y0 + y1) / 2) z0 z1.
Proof. unfold front_h, front_c, front_l, box, rectangle, flat_level, mid. cbn. rewrite !double_half. reflexivity. Qed.
Lemma low_box : low_h h = box x0 x1 y0 y1 z0 ((z0 + z1) / 2).
Proof. reflexivity. Qed.
End Box.

Lemma box_face x0 x1 y0 y1 z0 z1 o xsi eta zet : x0 < x1 -> y0 < y1 -> z0 < z1 ->
  norm3 (normal Flat (box x0 x1 y0 y1 z0 z1) o xsi eta zet) =
  match o with Zonal => (y1 - y0) * (z1 - z0) | Meridional => (x1 - x0) * (z1 - z0) | Vertical => (x1 - x0) * (y1 - y0) end.
Proof. intros A B C. rewrite box_normal_is. apply box_norm; lra. Qed.

Lemma box_here x0 x1 y0 y1 z0 z1 s xsi eta zet : x0 < x1 -> y0 < y1 -> z0 < z1 -> unit_square xsi eta ->
  let dx := x1 - x0 in let dy := y1 - y0 in let dz := z1 - z0 in
  let fx := (s_s s - s_n s) * dx * dz + (s_l s - s_u s) * dx * dy in
  let fy := (s_w s - s_e s) * dy * dz + (s_l s - s_u s) * dx * dy in
  let fz := (s_w s - s_e s) * dy * dz + (s_s s - s_n s) * dx * dz in
  uvw_here Flat (box x0 x1 y0 y1 z0 z1) s xsi eta zet =
  Some (quad_of (s_w s) (s_w s + fx / (2 * dy * dz)) (s_e s) xsi,
        quad_of (s_s s) (s_s s + fy / (2 * dx * dz)) (s_n s) eta,
        quad_of (s_l s) (s_l s + fz / (2 * dx * dy)) (s_u s) zet).
Proof.
  intros A B C S dx dy dz fx fy fz.
  destruct (value Flat (box x0 x1 y0 y1 z0 z1) s xsi eta zet (box_convex x0 x1 y0 y1 z0 z1 A B) (box_thick x0 x1 y0 y1 z0 z1 C) S I I)
    as (U & V & W & r & ER & F & fu & fv & fw & EU & EV & EW & HF).
  rewrite ER. f_equal. rewrite metres_flat in F. rewrite F. cbv beta zeta in HF.
  destruct (left_is (box x0 x1 y0 y1 z0 z1)) as (A1 & A2 & A3), (front_is (box x0 x1 y0 y1 z0 z1)) as (B1 & B2 & B3),
    (low_is (box x0 x1 y0 y1 z0 z1)) as (C1 & C2 & C3).
  rewrite A1, A2, A3, B1, B2, B3, C1, C2, C3 in HF. rewrite !face_is in HF. rewrite left_box, front_box, low_box in HF.
  rewrite !box_face in HF by lra. destruct HF as (HU & HV & HW). rewrite !box_face in EU, EV, EW by lra. rewrite !box_face by lra.
  unfold jac3. change (normal_x Flat (box x0 x1 y0 y1 z0 z1) xsi eta zet) with (normal Flat (box x0 x1 y0 y1 z0 z1) Zonal xsi eta zet).
  rewrite box_normal_is by assumption. unfold box_normal.
  assert (TX : tx Flat (box x0 x1 y0 y1 z0 z1) xsi eta zet = (dx, 0, 0)).
  { unfold tx, line_x, place3, minus3, depth_of, place, blend. cbn. apply tuple3; unfold dx; ring. }
  assert (TY : ty Flat (box x0 x1 y0 y1 z0 z1) xsi eta zet = (0, dy, 0)).
  { unfold ty, line_y, place3, minus3, depth_of, place, blend. cbn. apply tuple3; unfold dy; ring. }
  assert (TZ : tz Flat (box x0 x1 y0 y1 z0 z1) xsi eta = (0, 0, dz)).
  { unfold tz, line_z, place3, minus3, depth_of, place, blend. cbn. apply tuple3; unfold dz; ring. }
  rewrite TX, TY, TZ. fold dx dy dz in EU, EV, EW |- *.
  assert (PX : 0 < dx) by (unfold dx; lra). assert (PY : 0 < dy) by (unfold dy; lra). assert (PZ : 0 < dz) by (unfold dz; lra).
  replace ((x0 + x1) / 2 - x0) with (dx / 2) in HU by (unfold dx; field). replace ((y0 + y1) / 2 - y0) with (dy / 2) in HV by (unfold dy; field).
  replace ((z0 + z1) / 2 - z0) with (dz / 2) in HW by (unfold dz; field). fold dx dy dz in HU, HV, HW.
  clearbody dx dy dz. subst U V W fu fv fw.
  unfold sum3, add3, scale3, dot3, quad_of, fx, fy, fz. apply tuple3; field; repeat split; lra.
Qed.

Lemma box_balanced x0 x1 y0 y1 z0 z1 s xsi eta zet : x0 < x1 -> y0 < y1 -> z0 < z1 -> unit_square xsi eta ->
  balanced (x1 - x0) (y1 - y0) (z1 - z0) s ->
  uvw_here Flat (box x0 x1 y0 y1 z0 z1) s xsi eta zet =
  Some (blend (s_w s) (s_e s) xsi, blend (s_s s) (s_n s) eta, blend (s_l s) (s_u s) zet).
Proof.
  intros A B C S BL. rewrite box_here by assumption. unfold balanced in BL.
  set (dx := x1 - x0) in *. set (dy := y1 - y0) in *. set (dz := z1 - z0) in *.
  assert (PX : 0 < dx) by (unfold dx; lra). assert (PY : 0 < dy) by (unfold dy; lra). assert (PZ : 0 < dz) by (unfold dz; lra).
  clearbody dx dy dz. f_equal.
  replace ((s_s s - s_n s) * dx * dz + (s_l s - s_u s) * dx * dy) with ((s_e s - s_w s) * dy * dz) by lra.
  replace ((s_w s - s_e s) * dy * dz + (s_l s - s_u s) * dx * dy) with ((s_n s - s_s s) * dx * dz) by lra.
  replace ((s_w s - s_e s) * dy * dz + (s_s s - s_n s) * dx * dz) with ((s_u s - s_l s) * dx * dy) by lra.
  unfold quad_of, blend. apply tuple3; field; lra.
Qed.

(** ** JIT mode *)
Lemma c_sum_is p d f : c_sum p d f = dot8 p d * f.
Proof. unfold c_sum, dot8. ring. Qed.
Lemma c_jacM_is m px py pz xsi eta zet : c_jacM m px py pz xsi eta zet = py_jacM m px py pz xsi eta zet.
Proof. unfold c_jacM, py_jacM. rewrite !c_sum_is. f_equal; ring. Qed.

Definition shift8 (k : R) (p : oct) : oct := Oct (o0 p + k) (o1 p + k) (o2 p + k) (o3 p + k) (o4 p + k) (o5 p + k) (o6 p + k) (o7 p + k).
Lemma shift_x k p eta zet : dot8 (shift8 k p) (dphidxsi eta zet) = dot8 p (dphidxsi eta zet).
Proof. unfold dot8, shift8, dphidxsi. cbn. ring. Qed.
Lemma shift_y k p xsi zet : dot8 (shift8 k p) (dphideta xsi zet) = dot8 p (dphideta xsi zet).
Proof. unfold dot8, shift8, dphideta. cbn. ring. Qed.
Lemma shift_z k p xsi eta : dot8 (shift8 k p) (dphidzet xsi eta) = dot8 p (dphidzet xsi eta).
Proof. unfold dot8, shift8, dphidzet. cbn. ring. Qed.
Lemma dot8_comm a b : dot8 a b = dot8 b a.
Proof. unfold dot8. ring. Qed.
Lemma shift_jacM m k px py pz xsi eta zet : py_jacM m (shift8 k px) py pz xsi eta zet = py_jacM m px py pz xsi eta zet.
Proof. unfold py_jacM. rewrite shift_x, shift_y, shift_z. reflexivity. Qed.
Lemma oct_eq a b c d e f g i a' b' c' d' e' f' g' i' : a = a' -> b = b' -> c = c' -> d = d' -> e = e' -> f = f' -> g = g' -> i = i' ->
  Oct a b c d e f g i = Oct a' b' c' d' e' f' g' i'.
Proof. intros. subst. reflexivity. Qed.
Lemma half_shift k p : half_left (shift8 k p) = shift8 k (half_left p) /\ half_front (shift8 k p) = shift8 k (half_front p) /\
  half_lower (shift8 k p) = shift8 k (half_lower p).
Proof. unfold half_left, half_front, half_lower, shift8. cbn. repeat split; apply oct_eq; field. Qed.

Lemma uvw_jm_ext jm jm' px py pz u0 u1 v0 v1 w0 w1 xsi eta zet :
  (forall px py pz xsi eta zet, jm px py pz xsi eta zet = jm' px py pz xsi eta zet) ->
  uvw_of jm px py pz u0 u1 v0 v1 w0 w1 xsi eta zet = uvw_of jm' px py pz u0 u1 v0 v1 w0 w1 xsi eta zet.
Proof. intros E. unfold uvw_of. rewrite !E. reflexivity. Qed.
Lemma uvw_shift m k px py pz u0 u1 v0 v1 w0 w1 xsi eta zet :
  uvw_of (py_jacM m) (shift8 k px) py pz u0 u1 v0 v1 w0 w1 xsi eta zet = uvw_of (py_jacM m) px py pz u0 u1 v0 v1 w0 w1 xsi eta zet.
Proof.
  unfold uvw_of. destruct (half_shift k px) as (-> & -> & ->). rewrite !shift_jacM.
  rewrite !(dot8_comm _ (shift8 k px)), shift_x, shift_y, shift_z, !(dot8_comm px). reflexivity.
Qed.

Definition seen_c (l : levels) (ti : Z) : Z -> Z -> Z -> R := match l with Fixed d => d | Moving d => d ti end.
Lemma c_uvw_is m g l U V W ti xsi eta zet xi yi zi c : same_cell m (cell_of g xi yi) c -> (m = Flat -> narrow c) ->
  c_uvw m g l U V W ti xsi eta zet xi yi zi =
  uvw_here m (cell3_of (seen_c l ti) c xi yi zi) (face_values U V W xi yi zi) xsi eta zet.
Proof.
  intros SC NR. unfold c_uvw, c_uvw_cell. rewrite c_px_raw, c_py_raw, (same_lats _ _ _ SC), s_of_is.
  assert (E : exists k, twice (c_wrap (xs (cell_of g xi yi))) = shift8 k (twice (xs c))).
  { destruct m.
    - cbn in SC. rewrite SC. exists 0. destruct (NR eq_refl) as (N1 & N2 & N3). unfold c_wrap, twice, xs, shift8. cbn.
      rewrite !c_near_id by assumption. apply oct_eq; ring.
    - destruct (c_wrap_same _ _ SC) as (k & ->). exists (360 * IZR k). unfold twice, xs, shift, shift8. cbn. reflexivity. }
  destruct E as (k & ->). rewrite (uvw_jm_ext _ (py_jacM m)) by (intros; apply c_jacM_is). rewrite uvw_shift.
  unfold uvw_here, xs3, ys3, zs, cell3_of, s_of, c_cell3, seen_c, c_pz, c_corner, c_row, c_column, level_of. cbn.
  rewrite !Z.add_0_r. destruct l; reflexivity.
Qed.

Lemma modes3 m g d U V W ti xsi eta zet xi yi zi c : same_cell m (cell_of g xi yi) c -> (m = Flat -> narrow c) -> unit_square xsi eta ->
  c_uvw m g (Fixed d) U V W ti xsi eta zet xi yi zi = py_uvw m g (Fixed d) U V W xsi eta zet xi yi zi (fst (place c xsi eta)).
Proof. intros SC NR S. rewrite (c_uvw_is _ _ _ _ _ _ _ _ _ _ _ _ _ c SC NR), (py_uvw_is _ _ _ _ _ _ _ _ _ _ _ _ c SC S). reflexivity. Qed.
Lemma modes3_at times tdim m g d U V W ti time xsi eta zet xi yi zi c :
  same_cell m (cell_of g xi yi) c -> (m = Flat -> narrow c) -> unit_square xsi eta ->
  c_uvw_at times tdim m g (Fixed d) U V W ti time xsi eta zet xi yi zi =
  py_uvw_at times tdim m g (Fixed d) U V W ti time xsi eta zet xi yi zi (fst (place c xsi eta)).
Proof. intros SC NR S. unfold c_uvw_at, py_uvw_at. rewrite !(fun U V W t => modes3 m g d U V W t xsi eta zet xi yi zi c SC NR S). reflexivity. Qed.
