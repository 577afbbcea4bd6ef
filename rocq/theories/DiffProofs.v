(** Proofs for C46: diffusion. *)
From Coq Require Import Reals Lra Lia ZArith.
From Verif Require Import RandModel RandSpec RandProofs AdvModel DiffModel DiffSpec.
Open Scope R_scope.

(** ** Averages of polynomials *)
Section Average.
Variable E : (R -> R) -> R.
Hypothesis A : average E.

Lemma av_add : forall f g, E (fun w => f w + g w) = E f + E g.
Proof.
  intros f g. rewrite (av_ext _ A _ (fun w => 1 * f w + 1 * g w)) by (intros; ring). rewrite (av_lin _ A). ring.
Qed.
Lemma av_scal : forall a f, E (fun w => a * f w) = a * E f.
Proof.
  intros a f. rewrite (av_ext _ A _ (fun w => a * f w + 0 * f w)) by (intros; ring). rewrite (av_lin _ A). ring.
Qed.
Lemma av_const : forall a, E (fun _ => a) = a.
Proof.
  intros a. rewrite (av_ext _ A _ (fun w => a * 1)) by (intros; ring). rewrite (av_scal a (fun _ => 1)), (av_one _ A). ring.
Qed.
Lemma av_poly : forall a0 a1 a2 a3 a4 f, (forall w, f w = a0 + a1 * w + a2 * w ^ 2 + a3 * w ^ 3 + a4 * w ^ 4) ->
  E f = a0 + a1 * E (fun w => w) + a2 * E (fun w => w ^ 2) + a3 * E (fun w => w ^ 3) + a4 * E (fun w => w ^ 4).
Proof.
  intros a0 a1 a2 a3 a4 f H. rewrite (av_ext _ A _ _ H).
  rewrite (av_add (fun w => a0 + a1 * w + a2 * w ^ 2 + a3 * w ^ 3) (fun w => a4 * w ^ 4)), (av_scal a4 (fun w => w ^ 4)).
  rewrite (av_add (fun w => a0 + a1 * w + a2 * w ^ 2) (fun w => a3 * w ^ 3)), (av_scal a3 (fun w => w ^ 3)).
  rewrite (av_add (fun w => a0 + a1 * w) (fun w => a2 * w ^ 2)), (av_scal a2 (fun w => w ^ 2)).
  rewrite (av_add (fun w => a0) (fun w => a1 * w)), (av_scal a1 (fun w => w)), av_const. ring.
Qed.
Lemma av_poly2 : forall a0 a1 a2 f, (forall w, f w = a0 + a1 * w + a2 * w ^ 2) ->
  E f = a0 + a1 * E (fun w => w) + a2 * E (fun w => w ^ 2).
Proof. intros a0 a1 a2 f H. rewrite (av_poly a0 a1 a2 0 0 f); [ring|]. intros w. rewrite H. ring. Qed.
End Average.

(** ** The kernels *)
Section Kernels.
Variables U V Kx Ky : R -> R -> R -> R -> option R.
Variable dres : R.
Variable root : R -> R.

Lemma em_is : forall p u v kx ky kxp kxm kyp kym a b, surroundings U V Kx Ky dres p u v kx ky kxp kxm kyp kym ->
  em root U V Kx Ky dres a b p =
  ADone (move p (a_lon p + ((u + slope kxp kxm dres) * a_dt p + root (2 * kx) * a))
                (a_lat p + ((v + slope kyp kym dres) * a_dt p + root (2 * ky) * b)) (a_depth p)).
Proof.
  intros p u v kx ky kxp kxm kyp kym a b (D & HU & HV & HX & HY & PX & PY & H1 & H2 & H3 & H4). unfold em, slope.
  rewrite HU, HV, HX, HY, H1, H2, H3, H4. cbn [sampled]. unfold over, rooted.
  destruct (Req_EM_T (2 * dres) 0); [lra|]. destruct (Rle_dec 0 (2 * kx)); [|lra]. destruct (Rle_dec 0 (2 * ky)); [|lra]. reflexivity.
Qed.
Lemma m1_is : forall p u v kx ky kxp kxm kyp kym a b, surroundings U V Kx Ky dres p u v kx ky kxp kxm kyp kym ->
  m1 root U V Kx Ky dres a b p =
  ADone (move p (a_lon p + (u * a_dt p + 1 / 2 * slope kxp kxm dres * (a * a + a_dt p) + root (2 * kx) * a))
                (a_lat p + (v * a_dt p + 1 / 2 * slope kyp kym dres * (b * b + a_dt p) + root (2 * ky) * b)) (a_depth p)).
Proof.
  intros p u v kx ky kxp kxm kyp kym a b (D & HU & HV & HX & HY & PX & PY & H1 & H2 & H3 & H4). unfold m1, slope.
  rewrite HU, HV, HX, HY, H1, H2, H3, H4. cbn [sampled]. unfold over, rooted.
  destruct (Req_EM_T (2 * dres) 0); [lra|]. destruct (Rle_dec 0 (2 * kx)); [|lra]. destruct (Rle_dec 0 (2 * ky)); [|lra]. reflexivity.
Qed.
Lemma unif_is : forall p kx ky a b,
  Kx (a_time p) (a_depth p) (a_lat p) (a_lon p) = Some kx -> Ky (a_time p) (a_depth p) (a_lat p) (a_lon p) = Some ky ->
  0 <= kx -> 0 <= ky ->
  unif root Kx Ky a b p = ADone (move p (a_lon p + root (2 * kx) * a) (a_lat p + root (2 * ky) * b) (a_depth p)).
Proof.
  intros p kx ky a b HX HY PX PY. unfold unif. rewrite HX, HY. cbn [sampled]. unfold rooted.
  destruct (Rle_dec 0 (2 * kx)); [|lra]. destruct (Rle_dec 0 (2 * ky)); [|lra]. reflexivity.
Qed.
End Kernels.

Lemma moves_move : forall p x y, moves p (ADone (move p x y (a_depth p))).
Proof. intros p x y. eexists. split; [reflexivity|]. repeat split. Qed.

Lemma move_eq : forall p x y x' y' d, x = x' -> y = y' -> ADone (move p x y d) = ADone (move p x' y' d).
Proof. intros. subst. reflexivity. Qed.

(** Displacements of the form mean + polynomial without mean, one increment each. *)
Lemma stats : forall Ex Ey p kernel mx my fx fy vx vy,
  average Ex -> average Ey ->
  (forall a b, kernel a b p = ADone (move p (a_lon p + (mx + fx a)) (a_lat p + (my + fy b)) (a_depth p))) ->
  Ex fx = 0 -> Ey fy = 0 -> Ex (fun a => fx a ^ 2) = vx -> Ey (fun b => fy b ^ 2) = vy ->
  statistics Ex Ey p kernel mx my vx vy.
Proof.
  intros Ex Ey p kernel mx my fx fy vx vy AX AY K X0 Y0 X2 Y2. unfold statistics, mean2.
  assert (EE : forall a b, east p (kernel a b p) = mx + fx a) by (intros; rewrite K; cbn; ring).
  assert (NN : forall a b, north p (kernel a b p) = my + fy b) by (intros; rewrite K; cbn; ring).
  split; [intros; rewrite K; apply moves_move|]. split; [|split; [|split; [|split]]].
  - rewrite (av_ext _ AX _ (fun a => mx + fx a)).
    + rewrite (av_add Ex AX (fun _ => mx) fx), (av_const Ex AX), X0. ring.
    + intros a. rewrite (av_ext _ AY _ (fun _ => mx + fx a)) by (intros; apply EE). apply av_const. exact AY.
  - rewrite (av_ext _ AX _ (fun a => my)); [apply av_const; exact AX|].
    intros a. rewrite (av_ext _ AY _ (fun b => my + fy b)) by (intros; apply NN).
    rewrite (av_add Ey AY (fun _ => my) fy), (av_const Ey AY), Y0. ring.
  - rewrite <- X2. apply (av_ext _ AX). intros a. rewrite (av_ext _ AY _ (fun _ => fx a ^ 2)); [apply av_const; exact AY|].
    intros b. rewrite EE. ring.
  - rewrite (av_ext _ AX _ (fun _ => vy)); [apply av_const; exact AX|]. intros a. rewrite <- Y2. apply (av_ext _ AY). intros b. rewrite NN. ring.
  - rewrite (av_ext _ AX _ (fun _ => 0)); [apply av_const; exact AX|]. intros a.
    rewrite (av_ext _ AY _ (fun b => fx a * fy b)) by (intros b; rewrite EE, NN; ring).
    rewrite (av_scal Ey AY (fx a) fy), Y0. ring.
Qed.

Lemma root_sq : forall k, 0 <= k -> sqrt (2 * k) * sqrt (2 * k) = 2 * k.
Proof. intros k K. apply sqrt_sqrt. lra. Qed.

Lemma em_statistics : forall U V Kx Ky dres p u v kx ky kxp kxm kyp kym Ex Ey,
  surroundings U V Kx Ky dres p u v kx ky kxp kxm kyp kym ->
  centred Ex (Rabs (a_dt p)) -> centred Ey (Rabs (a_dt p)) ->
  statistics Ex Ey p (em sqrt U V Kx Ky dres)
    ((u + slope kxp kxm dres) * a_dt p) ((v + slope kyp kym dres) * a_dt p) (2 * kx * Rabs (a_dt p)) (2 * ky * Rabs (a_dt p)).
Proof.
  intros U V Kx Ky dres p u v kx ky kxp kxm kyp kym Ex Ey SU (AX & X1 & X2) (AY & Y1 & Y2).
  assert (PX : 0 <= kx) by apply SU. assert (PY : 0 <= ky) by apply SU.
  eapply stats with (fx := fun a => sqrt (2 * kx) * a) (fy := fun b => sqrt (2 * ky) * b); try assumption.
  - intros a b. eapply em_is. exact SU.
  - rewrite (av_scal Ex AX _ (fun a => a)), X1. ring.
  - rewrite (av_scal Ey AY _ (fun a => a)), Y1. ring.
  - rewrite (av_ext _ AX _ (fun a => (2 * kx) * a ^ 2)) by (intros w; replace ((sqrt (2 * kx) * w) ^ 2) with (sqrt (2 * kx) * sqrt (2 * kx) * w ^ 2) by ring; rewrite root_sq by exact PX; reflexivity).
    rewrite (av_scal Ex AX _ (fun a => a ^ 2)), X2. reflexivity.
  - rewrite (av_ext _ AY _ (fun a => (2 * ky) * a ^ 2)) by (intros w; replace ((sqrt (2 * ky) * w) ^ 2) with (sqrt (2 * ky) * sqrt (2 * ky) * w ^ 2) by ring; rewrite root_sq by exact PY; reflexivity).
    rewrite (av_scal Ey AY _ (fun a => a ^ 2)), Y2. reflexivity.
Qed.

Lemma unif_statistics : forall Kx Ky p kx ky Ex Ey,
  Kx (a_time p) (a_depth p) (a_lat p) (a_lon p) = Some kx -> Ky (a_time p) (a_depth p) (a_lat p) (a_lon p) = Some ky ->
  0 <= kx -> 0 <= ky -> centred Ex (Rabs (a_dt p)) -> centred Ey (Rabs (a_dt p)) ->
  statistics Ex Ey p (unif sqrt Kx Ky) 0 0 (2 * kx * Rabs (a_dt p)) (2 * ky * Rabs (a_dt p)).
Proof.
  intros Kx Ky p kx ky Ex Ey HX HY PX PY (AX & X1 & X2) (AY & Y1 & Y2).
  eapply stats with (fx := fun a => sqrt (2 * kx) * a) (fy := fun b => sqrt (2 * ky) * b); try assumption.
  - intros a b. rewrite (unif_is Kx Ky sqrt p kx ky a b HX HY PX PY). rewrite !Rplus_0_l. reflexivity.
  - rewrite (av_scal Ex AX _ (fun a => a)), X1. ring.
  - rewrite (av_scal Ey AY _ (fun a => a)), Y1. ring.
  - rewrite (av_ext _ AX _ (fun a => (2 * kx) * a ^ 2)) by (intros w; replace ((sqrt (2 * kx) * w) ^ 2) with (sqrt (2 * kx) * sqrt (2 * kx) * w ^ 2) by ring; rewrite root_sq by exact PX; reflexivity).
    rewrite (av_scal Ex AX _ (fun a => a ^ 2)), X2. reflexivity.
  - rewrite (av_ext _ AY _ (fun a => (2 * ky) * a ^ 2)) by (intros w; replace ((sqrt (2 * ky) * w) ^ 2) with (sqrt (2 * ky) * sqrt (2 * ky) * w ^ 2) by ring; rewrite root_sq by exact PY; reflexivity).
    rewrite (av_scal Ey AY _ (fun a => a ^ 2)), Y2. reflexivity.
Qed.

Lemma m1_statistics : forall U V Kx Ky dres p u v kx ky kxp kxm kyp kym Ex Ey,
  surroundings U V Kx Ky dres p u v kx ky kxp kxm kyp kym ->
  normal4 Ex (Rabs (a_dt p)) -> normal4 Ey (Rabs (a_dt p)) ->
  statistics Ex Ey p (m1 sqrt U V Kx Ky dres)
    (u * a_dt p + slope kxp kxm dres * (Rabs (a_dt p) + a_dt p) / 2) (v * a_dt p + slope kyp kym dres * (Rabs (a_dt p) + a_dt p) / 2)
    (2 * kx * Rabs (a_dt p) + slope kxp kxm dres ^ 2 * a_dt p ^ 2 / 2)
    (2 * ky * Rabs (a_dt p) + slope kyp kym dres ^ 2 * a_dt p ^ 2 / 2).
Proof.
  intros U V Kx Ky dres p u v kx ky kxp kxm kyp kym Ex Ey SU ((AX & X1 & X2) & X3 & X4) ((AY & Y1 & Y2) & Y3 & Y4).
  assert (PX : 0 <= kx) by apply SU. assert (PY : 0 <= ky) by apply SU. set (s := Rabs (a_dt p)) in *.
  assert (SS : s ^ 2 = a_dt p ^ 2) by (unfold s; rewrite <- (Rabs_right (a_dt p ^ 2)) by (apply Rle_ge, pow2_ge_0); rewrite <- RPow_abs; reflexivity).
  set (gx := slope kxp kxm dres). set (gy := slope kyp kym dres).
  eapply stats with (fx := fun a => gx / 2 * (a ^ 2 - s) + sqrt (2 * kx) * a) (fy := fun a => gy / 2 * (a ^ 2 - s) + sqrt (2 * ky) * a); try assumption.
  - intros a b. rewrite (m1_is _ _ _ _ _ _ _ _ _ _ _ _ _ _ _ a b SU). fold gx gy. apply move_eq; field.
  - rewrite (av_poly2 Ex AX (- gx / 2 * s) (sqrt (2 * kx)) (gx / 2)) by (intros; field). rewrite X1, X2. field.
  - rewrite (av_poly2 Ey AY (- gy / 2 * s) (sqrt (2 * ky)) (gy / 2)) by (intros; field). rewrite Y1, Y2. field.
  - rewrite (av_poly Ex AX (gx ^ 2 / 4 * s ^ 2) (- gx * s * sqrt (2 * kx)) (2 * kx - gx ^ 2 / 2 * s) (gx * sqrt (2 * kx)) (gx ^ 2 / 4)).
    + rewrite X1, X2, X3, X4, <- SS. field.
    + intros w. pose proof (root_sq kx PX) as Q. set (r := sqrt (2 * kx)) in *. replace (2 * kx) with (r * r) by exact Q. field.
  - rewrite (av_poly Ey AY (gy ^ 2 / 4 * s ^ 2) (- gy * s * sqrt (2 * ky)) (2 * ky - gy ^ 2 / 2 * s) (gy * sqrt (2 * ky)) (gy ^ 2 / 4)).
    + rewrite Y1, Y2, Y3, Y4, <- SS. field.
    + intros w. pose proof (root_sq ky PY) as Q. set (r := sqrt (2 * ky)) in *. replace (2 * ky) with (r * r) by exact Q. field.
Qed.

(** A diffusivity that is quadratic over the points sampled. *)
Lemma slope_quadratic : forall (k : R -> R) x dres a b c, dres <> 0 ->
  (forall d, (d = dres \/ d = - dres) -> k (x + d) = a + b * d + c * d ^ 2) -> slope (k (x + dres)) (k (x - dres)) dres = b.
Proof.
  intros k x dres a b c D H. replace (x - dres) with (x + - dres) by ring. rewrite !H by auto. unfold slope. field. exact D.
Qed.

(** Uniform diffusivity. *)
Lemma uniform_all : forall U V UV Kx Ky dres p u v kx ky a b,
  dres <> 0 -> (forall t z y x, Kx t z y x = Some kx) -> (forall t z y x, Ky t z y x = Some ky) -> 0 <= kx -> 0 <= ky ->
  U (a_time p) (a_depth p) (a_lat p) (a_lon p) = Some u -> V (a_time p) (a_depth p) (a_lat p) (a_lon p) = Some v ->
  UV (a_time p) (a_depth p) (a_lat p) (a_lon p) = Some (u, v) ->
  exists q q', em sqrt U V Kx Ky dres a b p = ADone q /\ m1 sqrt U V Kx Ky dres a b p = ADone q /\
    ee UV p = ADone q' /\ unif sqrt Kx Ky a b q' = ADone q.
Proof.
  intros U V UV Kx Ky dres p u v kx ky a b D HX HY PX PY HU HV HW.
  assert (SU : surroundings U V Kx Ky dres p u v kx ky kx kx ky ky) by (repeat split; auto).
  assert (S0 : forall k, slope k k dres = 0) by (intros k; unfold slope; field; exact D).
  exists (move p (a_lon p + (u * a_dt p + sqrt (2 * kx) * a)) (a_lat p + (v * a_dt p + sqrt (2 * ky) * b)) (a_depth p)).
  exists (move p (a_lon p + u * a_dt p) (a_lat p + v * a_dt p) (a_depth p)).
  split; [rewrite (em_is _ _ _ _ _ _ _ _ _ _ _ _ _ _ _ a b SU), !S0; apply move_eq; ring|].
  split; [rewrite (m1_is _ _ _ _ _ _ _ _ _ _ _ _ _ _ _ a b SU), !S0; apply move_eq; ring|].
  split; [unfold ee; rewrite HW; reflexivity|].
  rewrite (unif_is Kx Ky sqrt _ kx ky a b) by (auto; apply HX || apply HY). unfold move; cbn. f_equal. f_equal; ring.
Qed.

(** Failures. *)
Lemma fail_stays : forall root U V Kx Ky dres a b p p',
  (em root U V Kx Ky dres a b p = AFail p' -> p' = p) /\ (m1 root U V Kx Ky dres a b p = AFail p' -> p' = p) /\
  (unif root Kx Ky a b p = AFail p' -> p' = p).
Proof.
  intros. unfold em, m1, unif, over, rooted, sampled.
  split; [|split]; repeat match goal with
   | |- context [match ?x with Some _ => _ | None => _ end] => destruct x
   | |- context [if ?x then _ else _] => destruct x
   end; intros H; try discriminate H; injection H; auto.
Qed.

(** The draws. *)
Lemma draws_bounded : forall Kx Ky G (rnd : G -> Z * G) M fuel g p o g' kx ky,
  rand_ok rnd M -> Z.Odd M ->
  Kx (a_time p) (a_depth p) (a_lat p) (a_lon p) = Some kx -> Ky (a_time p) (a_depth p) (a_lat p) (a_lon p) = Some ky ->
  0 <= kx -> 0 <= ky ->
  with_draws sqrt G rnd M (unif sqrt Kx Ky) fuel g p = Some (o, g') ->
  moves p o /\
  east p o ^ 2 <= 2 * kx * Rabs (a_dt p) * (2 * ln (IZR M * IZR M / 2)) /\
  north p o ^ 2 <= 2 * ky * Rabs (a_dt p) * (2 * ln (IZR M * IZR M / 2)).
Proof.
  intros Kx Ky G rnd M fuel g p o g' kx ky OK OD HX HY PX PY H. unfold with_draws in H.
  destruct (normalvariate G rnd M fuel 0 (sqrt (Rabs (a_dt p))) g) as [[a g1]|] eqn:E1; [|discriminate].
  destruct (normalvariate G rnd M fuel 0 (sqrt (Rabs (a_dt p))) g1) as [[b g2]|] eqn:E2; [|discriminate].
  assert (O : o = unif sqrt Kx Ky a b p) by congruence. subst o. rewrite (unif_is Kx Ky sqrt p kx ky a b HX HY PX PY).
  split; [apply moves_move|]. cbn [east north move a_lon a_lat].
  apply (normal_bound G rnd M OK) in E1; [|exact OD]. apply (normal_bound G rnd M OK) in E2; [|exact OD].
  rewrite sqrt_sqrt in E1, E2 by apply Rabs_pos. rewrite Rminus_0_r in E1, E2. fold (RM M) in *.
  set (L := 2 * ln (RM M * RM M / 2)) in *.
  split.
  - replace ((a_lon p + sqrt (2 * kx) * a - a_lon p) ^ 2) with ((sqrt (2 * kx) * sqrt (2 * kx)) * (a * a)) by ring.
    rewrite root_sq by exact PX. apply Rle_trans with (2 * kx * (Rabs (a_dt p) * L)); [apply Rmult_le_compat_l; [lra|exact E1]|right; unfold L, RM; ring].
  - replace ((a_lat p + sqrt (2 * ky) * b - a_lat p) ^ 2) with ((sqrt (2 * ky) * sqrt (2 * ky)) * (b * b)) by ring.
    rewrite root_sq by exact PY. apply Rle_trans with (2 * ky * (Rabs (a_dt p) * L)); [apply Rmult_le_compat_l; [lra|exact E2]|right; unfold L, RM; ring].
Qed.
Lemma draws_turned : forall Kx Ky G (rnd : G -> Z * G) M fuel g p o g' kx ky,
  rand_ok rnd M ->
  Kx (a_time p) (a_depth p) (a_lat p) (a_lon p) = Some kx -> Ky (a_time p) (a_depth p) (a_lat p) (a_lon p) = Some ky ->
  0 <= kx -> 0 <= ky ->
  with_draws sqrt G rnd M (unif sqrt Kx Ky) fuel g p = Some (o, g') ->
  exists o', with_draws sqrt G (turned rnd M) M (unif sqrt Kx Ky) fuel g p = Some (o', g') /\
    moves p o' /\ east p o' = - east p o /\ north p o' = - north p o.
Proof.
  intros Kx Ky G rnd M fuel g p o g' kx ky OK HX HY PX PY H. unfold with_draws in *.
  destruct (normalvariate G rnd M fuel 0 (sqrt (Rabs (a_dt p))) g) as [[a g1]|] eqn:E1; [|discriminate].
  destruct (normalvariate G rnd M fuel 0 (sqrt (Rabs (a_dt p))) g1) as [[b g2]|] eqn:E2; [|discriminate].
  assert (O : o = unif sqrt Kx Ky a b p) by congruence. assert (g2 = g') by congruence. subst o g2.
  rewrite (normal_turned G rnd M OK _ _ _ _ _ _ E1), (normal_turned G rnd M OK _ _ _ _ _ _ E2).
  eexists. split; [reflexivity|]. rewrite !(unif_is Kx Ky sqrt p kx ky _ _ HX HY PX PY). split; [apply moves_move|].
  cbn [east north move a_lon a_lat]. split; ring.
Qed.

(** ** Cases *)
(** 0 with weight 2/3, plus and minus sqrt (3 s) with weight 1/6. *)
Definition three (s : R) (f : R -> R) : R := 2 / 3 * f 0 + 1 / 6 * f (sqrt (3 * s)) + 1 / 6 * f (- sqrt (3 * s)).
Lemma three_normal : forall s, 0 <= s -> normal4 (three s) s.
Proof.
  intros s S. assert (Q : sqrt (3 * s) * sqrt (3 * s) = 3 * s) by (apply sqrt_sqrt; lra). unfold normal4, centred, three.
  set (r := sqrt (3 * s)) in *.
  split; [split; [|split]|split].
  - split.
    + intros f g H. rewrite !H. reflexivity.
    + intros. ring.
    + field.
  - field.
  - replace (2 / 3 * 0 ^ 2 + 1 / 6 * r ^ 2 + 1 / 6 * (- r) ^ 2) with (1 / 3 * (r * r)) by field. rewrite Q. field.
  - field.
  - replace (2 / 3 * 0 ^ 4 + 1 / 6 * r ^ 4 + 1 / 6 * (- r) ^ 4) with (1 / 3 * ((r * r) * (r * r))) by field. rewrite Q. field.
Qed.
Definition dp (dt : R) : apart := mkA 10 20 0 0 dt None.
(** Kx = 1 + 3 (x - 10)^2 + 2 (x - 10), Ky = y. *)
Definition dKx (t z y x : R) : option R := Some (1 + 2 * (x - 10) + 3 * (x - 10) ^ 2).
Definition dKy (t z y x : R) : option R := Some y.
Lemma dp_around : forall dt, surroundings (fun _ _ _ _ => Some 5) (fun _ _ _ _ => Some 7) dKx dKy (1 / 2) (dp dt) 5 7 1 20 (11 / 4) (3 / 4) (41 / 2) (39 / 2).
Proof. intros dt. unfold surroundings, dKx, dKy, dp. cbn. repeat split; try lra; f_equal; field. Qed.

(** Backward in time. *)
Lemma backward_differs : exists Ex Ey p m,
  a_dt p < 0 /\ normal4 Ex (Rabs (a_dt p)) /\ normal4 Ey (Rabs (a_dt p)) /\
  mean2 Ex Ey (fun a b => east p (em sqrt (fun _ _ _ _ => Some 5) (fun _ _ _ _ => Some 7) dKx dKy (1 / 2) a b p)) = m - 2 /\
  mean2 Ex Ey (fun a b => east p (m1 sqrt (fun _ _ _ _ => Some 5) (fun _ _ _ _ => Some 7) dKx dKy (1 / 2) a b p)) = m.
Proof.
  assert (N : normal4 (three (Rabs (-1))) (Rabs (-1))) by (apply three_normal, Rabs_pos).
  exists (three (Rabs (-1))), (three (Rabs (-1))), (dp (-1)), (-5).
  pose proof (em_statistics _ _ _ _ _ (dp (-1)) _ _ _ _ _ _ _ _ _ _ (dp_around (-1)) (proj1 N) (proj1 N)) as (_ & EM & _).
  pose proof (m1_statistics _ _ _ _ _ (dp (-1)) _ _ _ _ _ _ _ _ _ _ (dp_around (-1)) N N) as (_ & M1 & _).
  change (a_dt (dp (-1))) with (-1) in *. split; [lra|]. split; [exact N|]. split; [exact N|].
  rewrite EM, M1. replace (Rabs (-1)) with 1 by (rewrite Rabs_left; lra). unfold slope. split; field.
Qed.

Lemma m1_forward : forall U V Kx Ky dres p u v kx ky kxp kxm kyp kym Ex Ey,
  surroundings U V Kx Ky dres p u v kx ky kxp kxm kyp kym -> 0 <= a_dt p ->
  normal4 Ex (Rabs (a_dt p)) -> normal4 Ey (Rabs (a_dt p)) ->
  mean2 Ex Ey (fun a b => east p (m1 sqrt U V Kx Ky dres a b p)) = mean2 Ex Ey (fun a b => east p (em sqrt U V Kx Ky dres a b p)) /\
  mean2 Ex Ey (fun a b => north p (m1 sqrt U V Kx Ky dres a b p)) = mean2 Ex Ey (fun a b => north p (em sqrt U V Kx Ky dres a b p)).
Proof.
  intros U V Kx Ky dres p u v kx ky kxp kxm kyp kym Ex Ey SU P NX NY.
  destruct (em_statistics _ _ _ _ _ _ _ _ _ _ _ _ _ _ _ _ SU (proj1 NX) (proj1 NY)) as (_ & A & B & _).
  destruct (m1_statistics _ _ _ _ _ _ _ _ _ _ _ _ _ _ _ _ SU NX NY) as (_ & C & D & _).
  rewrite A, B, C, D, Rabs_right by lra. split; field.
Qed.

Lemma uniform_example : exists q q',
  em sqrt (fun _ _ _ _ => Some 5) (fun _ _ _ _ => Some 7) (fun _ _ _ _ => Some 1) (fun _ _ _ _ => Some 2) 3 4 (-5) (dp 6) = ADone q /\
  m1 sqrt (fun _ _ _ _ => Some 5) (fun _ _ _ _ => Some 7) (fun _ _ _ _ => Some 1) (fun _ _ _ _ => Some 2) 3 4 (-5) (dp 6) = ADone q /\
  ee (fun _ _ _ _ => Some (5, 7)) (dp 6) = ADone q' /\ unif sqrt (fun _ _ _ _ => Some 1) (fun _ _ _ _ => Some 2) 4 (-5) q' = ADone q.
Proof. apply uniform_all with (u := 5) (v := 7) (kx := 1) (ky := 2); try reflexivity; lra. Qed.

Lemma only_ok : rand_ok (only 1073741824) 2147483647.
Proof. split; [reflexivity|]. intros g. cbn. lia. Qed.
Lemma only_accepts : forall scale, exists v, normalvariate unit (only 1073741824) 2147483647 2 0 scale tt = Some (v, tt).
Proof.
  intros scale. unfold normalvariate, polar, pair, only. cbv zeta. unfold RM.
  destruct (Rle_dec 1 _) as [H|H]; [exfalso; lra|]. eexists. reflexivity.
Qed.
Lemma draws_example : rand_ok (only 1073741824) 2147483647 /\ Z.Odd 2147483647 /\
  exists o, with_draws sqrt unit (only 1073741824) 2147483647 (unif sqrt dKx dKy) 2 tt (dp 6) = Some (o, tt).
Proof.
  split; [exact only_ok|]. split; [exact odd_max|]. unfold with_draws.
  destruct (only_accepts (sqrt (Rabs (a_dt (dp 6))))) as (v & E). rewrite E, E. eexists. reflexivity.
Qed.
