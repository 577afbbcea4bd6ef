(** Proofs for C45: random numbers. *)
From Coq Require Import Reals ZArith List Lia Lra Bool.
From Verif Require Import RandModel RandSpec.
Import ListNotations.
Open Scope R_scope.

(** ** Numbers *)
Lemma trunc_bounds : forall x, (0 <= x -> 0 <= x - truncR x < 1) /\ (x <= 0 -> -1 < x - truncR x <= 0).
Proof.
  assert (A : forall x, 0 <= x - IZR (Int_part x) < 1).
  { intros x. pose proof (base_fp x) as [H1 H2]. unfold frac_part in *. lra. }
  intros x. unfold truncR. destruct (Rle_dec 0 x).
  - split; intros H; [apply A|]. assert (x = 0) by lra. subst x. specialize (A 0).
    assert (Q : (Int_part 0 = 0)%Z).
    { destruct A as [A1 A2]. apply le_IZR in A1 || idtac. assert (IZR (Int_part 0) <= 0) by lra. assert (-1 < IZR (Int_part 0)) by lra.
      apply le_IZR in H0. apply lt_IZR in H1. lia. }
    rewrite Q. lra.
  - split; intros H; [lra|]. specialize (A (- x)). lra.
Qed.
Lemma trunc_int : forall x, exists k : Z, truncR x = IZR k.
Proof.
  intros x. unfold truncR. destruct (Rle_dec 0 x); [eexists; reflexivity|]. exists (- Int_part (- x))%Z. rewrite opp_IZR. reflexivity.
Qed.
Lemma fmod_spec : forall x y, 0 < y -> (exists k : Z, fmod x y = x - IZR k * y) /\ - y < fmod x y < y.
Proof.
  intros x y Y. unfold fmod. split.
  - destruct (trunc_int (x / y)) as [k K]. exists k. rewrite K. reflexivity.
  - assert (E : x - truncR (x / y) * y = (x / y - truncR (x / y)) * y) by (field; lra). rewrite E.
    destruct (trunc_bounds (x / y)) as [P N]. assert (B : -1 < x / y - truncR (x / y) < 1).
    { destruct (Rle_dec 0 (x / y)); [apply P in r|assert (x / y <= 0) as Q by lra; apply N in Q]; lra. }
    split; nra.
Qed.

Section Random.
Variable G : Type.
Variable rnd : G -> Z * G.
Variable RAND_MAX : Z.
Hypothesis ok : rand_ok rnd RAND_MAX.

Lemma RM_pos : 0 < RM RAND_MAX.
Proof. unfold RM. apply IZR_lt, ok. Qed.
Lemma rnd_R : forall g, 0 <= IZR (fst (rnd g)) <= RM RAND_MAX.
Proof. intros g. destruct ok as [_ H]. unfold RM. split; apply IZR_le, H. Qed.

Lemma random_in : forall g, 0 <= fst (random G rnd RAND_MAX g) <= 1.
Proof.
  intros g. unfold random. pose proof (rnd_R g) as B. destruct (rnd g) as [r g']. cbn [fst] in *. pose proof RM_pos.
  split; [apply Rmult_le_pos; [lra|]; left; apply Rinv_0_lt_compat; lra|].
  apply Rmult_le_reg_r with (RM RAND_MAX); [lra|]. unfold Rdiv. rewrite Rmult_assoc, Rinv_l by lra. lra.
Qed.

Lemma uniform_is : forall low high g,
  fst (uniform G rnd RAND_MAX low high g) = low + (high - low) * fst (random G rnd RAND_MAX g).
Proof.
  intros low high g. unfold uniform, random. destruct (rnd g) as [r g']. cbn [fst]. pose proof RM_pos.
  destruct (Req_EM_T high low) as [->|N]; [lra|]. field. lra.
Qed.
Lemma uniform_in : forall low high g, Rmin low high <= fst (uniform G rnd RAND_MAX low high g) <= Rmax low high.
Proof.
  intros low high g. rewrite uniform_is. pose proof (random_in g). unfold Rmin, Rmax. destruct (Rle_dec low high); split; nra.
Qed.
Lemma uniform_below : forall low high g t, low < high ->
  fst (uniform G rnd RAND_MAX low high g) <= t <-> IZR (fst (rnd g)) <= (t - low) / (high - low) * RM RAND_MAX.
Proof.
  intros low high g t L. rewrite uniform_is. unfold random. destruct (rnd g) as [r g']. cbn [fst]. pose proof RM_pos as P.
  set (M := RM RAND_MAX) in *. split; intros H.
  - apply Rmult_le_reg_r with ((high - low) / M); [apply Rdiv_lt_0_compat; lra|].
    replace ((t - low) / (high - low) * M * ((high - low) / M)) with (t - low) by (field; lra).
    replace (IZR r * ((high - low) / M)) with ((high - low) * (IZR r / M)) by (field; lra). lra.
  - apply Rmult_le_compat_r with (r := (high - low) / M) in H; [|left; apply Rdiv_lt_0_compat; lra].
    replace ((t - low) / (high - low) * M * ((high - low) / M)) with (t - low) in H by (field; lra).
    replace (IZR r * ((high - low) / M)) with ((high - low) * (IZR r / M)) in H by (field; lra). lra.
Qed.

Lemma randint_in : forall low high g, (low < high)%Z ->
  exists v g', randint G rnd low high g = Some (v, g') /\ (low <= v < high)%Z /\ (v - low = fst (rnd g) mod (high - low))%Z.
Proof.
  intros low high g L. unfold randint. destruct (Z.eqb_spec (high - low) 0); [lia|]. destruct ok as [_ H]. specialize (H g).
  destruct (rnd g) as [r g']. cbn [fst] in *. rewrite Z.rem_mod_nonneg by lia.
  pose proof (Z.mod_pos_bound r (high - low) ltac:(lia)). do 2 eexists. split; [reflexivity|]. lia.
Qed.

(** *** normalvariate *)
Lemma polar_turned : forall fuel g,
  polar G (turned rnd RAND_MAX) RAND_MAX fuel g =
  match polar G rnd RAND_MAX fuel g with Some ((x1, x2), g') => Some ((- x1, - x2), g') | None => None end.
Proof.
  pose proof RM_pos as P. induction fuel as [|n IH]; intros g; cbn [polar]; [reflexivity|].
  unfold pair, turned. destruct (rnd g) as [r1 g1]. destruct (rnd g1) as [r2 g2].
  assert (T : forall r, 2 * IZR (RAND_MAX - r) / RM RAND_MAX - 1 = - (2 * IZR r / RM RAND_MAX - 1)).
  { intros r. rewrite minus_IZR. fold (RM RAND_MAX). field. lra. }
  rewrite !T. set (a := 2 * IZR r1 / RM RAND_MAX - 1). set (b := 2 * IZR r2 / RM RAND_MAX - 1).
  assert (Q : - a * - a + - b * - b = a * a + b * b) by ring. rewrite Q.
  destruct (Rle_dec 1 (a * a + b * b)); [|reflexivity]. unfold turned in IH. apply IH.
Qed.
Lemma normal_turned : forall fuel loc scale g v g',
  normalvariate G rnd RAND_MAX fuel loc scale g = Some (v, g') ->
  normalvariate G (turned rnd RAND_MAX) RAND_MAX fuel loc scale g = Some (2 * loc - v, g').
Proof.
  intros fuel loc scale g v g' H. unfold normalvariate in *. rewrite polar_turned.
  destruct (polar G rnd RAND_MAX fuel g) as [[[x1 x2] g1]|]; [|discriminate].
  assert (E1 : loc + x1 * sqrt (-2 * ln (x1 * x1 + x2 * x2) / (x1 * x1 + x2 * x2)) * scale = v) by congruence.
  assert (E2 : g1 = g') by congruence. subst v g1. cbv zeta.
  replace (- x1 * - x1 + - x2 * - x2) with (x1 * x1 + x2 * x2) by ring. do 2 f_equal. ring.
Qed.

(** The accepted pair lies in the disc and, RAND_MAX being odd, away from both axes. *)
Lemma odd_away : forall r, Z.Odd RAND_MAX -> / RM RAND_MAX <= Rabs (2 * IZR r / RM RAND_MAX - 1).
Proof.
  intros r [k K]. pose proof RM_pos as P.
  replace (2 * IZR r / RM RAND_MAX - 1) with (IZR (2 * r - RAND_MAX) * / RM RAND_MAX).
  2:{ rewrite minus_IZR, mult_IZR. fold (RM RAND_MAX). field. lra. }
  rewrite Rabs_mult, (Rabs_right (/ RM RAND_MAX)) by (left; apply Rinv_0_lt_compat; exact P).
  rewrite <- (Rmult_1_l (/ RM RAND_MAX)) at 1. apply Rmult_le_compat_r; [left; apply Rinv_0_lt_compat; exact P|].
  rewrite <- abs_IZR. apply IZR_le. lia.
Qed.
Lemma polar_in : forall fuel g x1 x2 g', Z.Odd RAND_MAX -> polar G rnd RAND_MAX fuel g = Some ((x1, x2), g') ->
  x1 * x1 + x2 * x2 < 1 /\ / RM RAND_MAX <= Rabs x1 /\ / RM RAND_MAX <= Rabs x2.
Proof.
  induction fuel as [|n IH]; intros g x1 x2 g' O H; cbn [polar] in H; [discriminate|].
  unfold pair in H. destruct (rnd g) as [r1 g1]. destruct (rnd g1) as [r2 g2]. cbv zeta in H.
  set (a := 2 * IZR r1 / RM RAND_MAX - 1) in *. set (b := 2 * IZR r2 / RM RAND_MAX - 1) in *.
  destruct (Rle_dec 1 (a * a + b * b)); [eapply IH; eassumption|].
  assert (x1 = a) by congruence. assert (x2 = b) by congruence. subst x1 x2. split; [lra|]. split; apply odd_away; exact O.
Qed.

Lemma normal_polar : forall fuel loc scale g v g', Z.Odd RAND_MAX ->
  normalvariate G rnd RAND_MAX fuel loc scale g = Some (v, g') ->
  exists x1 x2 y1 y2 k, polar G rnd RAND_MAX fuel g = Some ((x1, x2), g') /\
    2 / (RM RAND_MAX * RM RAND_MAX) <= x1 * x1 + x2 * x2 < 1 /\
    v = loc + scale * y1 /\ 0 < k /\ y1 = k * x1 /\ y2 = k * x2 /\ exp (- (y1 * y1 + y2 * y2) / 2) = x1 * x1 + x2 * x2.
Proof.
  intros fuel loc scale g v g' O H. unfold normalvariate in H.
  destruct (polar G rnd RAND_MAX fuel g) as [[[x1 x2] g1]|] eqn:E; [|discriminate].
  destruct (polar_in _ _ _ _ _ O E) as (W1 & A1 & A2). pose proof RM_pos as P.
  assert (LB : 2 / (RM RAND_MAX * RM RAND_MAX) <= x1 * x1 + x2 * x2).
  { assert (I : 0 < / RM RAND_MAX) by (apply Rinv_0_lt_compat; exact P).
    assert (S1 : forall x, / RM RAND_MAX <= Rabs x -> / RM RAND_MAX * / RM RAND_MAX <= x * x).
    { intros x X. replace (x * x) with (Rabs x * Rabs x) by (rewrite <- Rabs_mult; apply Rabs_right; apply Rle_ge, (Rle_0_sqr x)). apply Rmult_le_compat; lra. }
    apply S1 in A1, A2. replace (2 / (RM RAND_MAX * RM RAND_MAX)) with (/ RM RAND_MAX * / RM RAND_MAX + / RM RAND_MAX * / RM RAND_MAX) by (field; lra). lra. }
  set (w := x1 * x1 + x2 * x2) in *. assert (W0 : 0 < w).
  { eapply Rlt_le_trans; [|exact LB]. apply Rdiv_lt_0_compat; nra. }
  assert (LN : ln w < 0) by (rewrite <- ln_1; apply ln_increasing; lra).
  assert (K0 : 0 < -2 * ln w / w) by (apply Rdiv_lt_0_compat; lra).
  exists x1, x2, (sqrt (-2 * ln w / w) * x1), (sqrt (-2 * ln w / w) * x2), (sqrt (-2 * ln w / w)).
  assert (g1 = g') by congruence. subst g1. split; [reflexivity|]. split; [split; [exact LB|exact W1]|].
  split; [injection H as H; rewrite <- H; fold w; ring|].
  split; [apply sqrt_lt_R0; exact K0|]. split; [reflexivity|]. split; [reflexivity|].
  set (k := sqrt (-2 * ln w / w)). assert (KK : k * k = -2 * ln w / w) by (apply sqrt_sqrt; lra).
  replace (- (k * x1 * (k * x1) + k * x2 * (k * x2)) / 2) with (- (k * k) * w / 2) by (unfold w; field).
  rewrite KK. replace (- (-2 * ln w / w) * w / 2) with (ln w) by (field; lra). apply exp_ln. exact W0.
Qed.

Lemma normal_bound : forall fuel loc scale g v g', Z.Odd RAND_MAX ->
  normalvariate G rnd RAND_MAX fuel loc scale g = Some (v, g') ->
  (v - loc) * (v - loc) <= scale * scale * (2 * ln (RM RAND_MAX * RM RAND_MAX / 2)).
Proof.
  intros fuel loc scale g v g' O H. destruct (normal_polar _ _ _ _ _ _ O H) as (x1 & x2 & y1 & y2 & k & _ & [LB UB] & -> & K & -> & -> & E).
  pose proof RM_pos as P. set (w := x1 * x1 + x2 * x2) in *.
  assert (D0 : 0 < 2 / (RM RAND_MAX * RM RAND_MAX)) by (apply Rdiv_lt_0_compat; nra).
  assert (L1 : ln (2 / (RM RAND_MAX * RM RAND_MAX)) <= ln w).
  { destruct LB as [LB|LB]; [left; apply ln_increasing; lra|right; f_equal; exact LB]. }
  assert (L2 : ln w = - (k * x1 * (k * x1) + k * x2 * (k * x2)) / 2) by (rewrite <- E; apply ln_exp).
  replace (RM RAND_MAX * RM RAND_MAX / 2) with (/ (2 / (RM RAND_MAX * RM RAND_MAX))) by (field; lra).
  rewrite ln_Rinv by exact D0.
  replace ((loc + scale * (k * x1) - loc) * (loc + scale * (k * x1) - loc)) with (scale * scale * (k * x1 * (k * x1))) by ring.
  apply Rmult_le_compat_l; [nra|]. pose proof (Rle_0_sqr (k * x2)) as Q. unfold Rsqr in Q. lra.
Qed.

(** *** expovariate *)
Lemma expo_u : forall g, 0 <= IZR (fst (rnd g)) / (RM RAND_MAX + 1) < 1.
Proof.
  intros g. pose proof RM_pos as P. pose proof (rnd_R g) as B. split.
  - apply Rmult_le_pos; [lra|]. left. apply Rinv_0_lt_compat. lra.
  - apply Rmult_lt_reg_r with (RM RAND_MAX + 1); [lra|]. unfold Rdiv. rewrite Rmult_assoc, Rinv_l by lra. lra.
Qed.
Lemma expo_below : forall lamb g t, 0 < lamb ->
  fst (expovariate G rnd RAND_MAX lamb g) <= t <-> IZR (fst (rnd g)) <= (1 - exp (- lamb * t)) * (RM RAND_MAX + 1).
Proof.
  intros lamb g t L. pose proof (expo_u g) as U. pose proof RM_pos as P. unfold expovariate. destruct (rnd g) as [r g']. cbn [fst] in *.
  set (u := IZR r / (RM RAND_MAX + 1)) in *. assert (R0 : IZR r = u * (RM RAND_MAX + 1)) by (unfold u; field; lra). rewrite R0.
  assert (A : - ln (1 - u) / lamb <= t <-> exp (- lamb * t) <= 1 - u).
  { split; intros H.
    - rewrite <- (exp_ln (1 - u)) by lra. apply Rmult_le_compat_r with (r := lamb) in H; [|lra].
      replace (- ln (1 - u) / lamb * lamb) with (- ln (1 - u)) in H by (field; lra).
      assert (Q : - lamb * t <= ln (1 - u)) by lra. destruct Q as [Q|Q]; [left; apply exp_increasing; exact Q|right; f_equal; exact Q].
    - assert (Q : - lamb * t <= ln (1 - u)).
      { rewrite <- (ln_exp (- lamb * t)). destruct H as [H|H]; [left; apply ln_increasing; [apply exp_pos|exact H]|right; f_equal; exact H]. }
      apply Rmult_le_reg_r with lamb; [exact L|]. replace (- ln (1 - u) / lamb * lamb) with (- ln (1 - u)) by (field; lra). lra. }
  rewrite A. split; intros H.
  - apply Rmult_le_compat_r; lra.
  - apply Rmult_le_reg_r in H; lra.
Qed.
Lemma expo_in : forall lamb g, 0 < lamb -> 0 <= fst (expovariate G rnd RAND_MAX lamb g) <= ln (RM RAND_MAX + 1) / lamb.
Proof.
  intros lamb g L. pose proof RM_pos as P. pose proof (rnd_R g) as B. split.
  - destruct (Rle_dec 0 (fst (expovariate G rnd RAND_MAX lamb g))) as [|N]; [assumption|exfalso].
    set (t := fst (expovariate G rnd RAND_MAX lamb g)) in *.
    assert (T : t <= t) by lra. apply (proj1 (expo_below lamb g t L)) in T.
    assert (1 < exp (- lamb * t)) by (rewrite <- exp_0; apply exp_increasing; nra). nra.
  - apply expo_below; [exact L|].
    replace (- lamb * (ln (RM RAND_MAX + 1) / lamb)) with (- ln (RM RAND_MAX + 1)) by (field; lra).
    rewrite exp_Ropp, exp_ln by lra. replace ((1 - / (RM RAND_MAX + 1)) * (RM RAND_MAX + 1)) with (RM RAND_MAX) by (field; lra). apply B.
Qed.

(** *** vonmisesvariate *)
Lemma circle_in : forall fuel r g z g', circle G rnd RAND_MAX fuel r g = Some (z, g') -> -1 <= z <= 1.
Proof.
  induction fuel as [|n IH]; intros r g z g' H; cbn [circle] in H; [discriminate|].
  destruct (random G rnd RAND_MAX g) as [u1 g1]. destruct (random G rnd RAND_MAX g1) as [u2 g2]. cbv zeta in H.
  destruct (Rle_dec _ _); [destruct (Rlt_dec _ _)|].
  - eapply IH; exact H.
  - assert (z = cos (PI * u1)) by congruence. subst z. apply COS_bound.
  - assert (z = cos (PI * u1)) by congruence. subst z. apply COS_bound.
Qed.
Lemma ratio_in : forall r z, 1 < r -> -1 <= z <= 1 -> -1 <= (1 / r + z) / (1 + 1 / r * z) <= 1.
Proof.
  intros r z R1 Z1. assert (Q : 0 < r + z) by lra.
  replace ((1 / r + z) / (1 + 1 / r * z)) with ((1 + r * z) / (r + z)) by (field; lra).
  split; apply Rmult_le_reg_r with (r + z); try exact Q; unfold Rdiv; rewrite Rmult_assoc, Rinv_l by lra; nra.
Qed.

(** The angle from mu, before the last wrapping. *)
Lemma wrapped : forall a, exists k : Z,
  (if Rlt_dec (fmod a (2 * PI)) 0 then 2 * PI + fmod a (2 * PI) else fmod a (2 * PI)) = a - IZR k * (2 * PI) /\
  0 <= a - IZR k * (2 * PI) < 2 * PI.
Proof.
  intros a. pose proof PI_RGT_0. destruct (fmod_spec a (2 * PI) ltac:(lra)) as [[k K] B].
  destruct (Rlt_dec (fmod a (2 * PI)) 0).
  - exists (k - 1)%Z. rewrite minus_IZR. rewrite K in *. split; lra.
  - exists k. rewrite K in *. split; lra.
Qed.

Lemma sharp_gt : forall kappa, 0 < kappa -> 1 < sharp kappa.
Proof.
  intros kappa K. unfold sharp. assert (S : 0 < 1 / 2 / kappa) by (apply Rdiv_lt_0_compat; lra). set (s := 1 / 2 / kappa) in *.
  assert (1 <= sqrt (1 + s * s)) by (rewrite <- sqrt_1 at 1; apply sqrt_le_1_alt; nra). lra.
Qed.

Lemma mises_is : forall fuel mu kappa g v g', 1 / 1000000 < kappa ->
  vonmisesvariate G rnd RAND_MAX fuel mu kappa g = Some (v, g') ->
  exists z g1, circle G rnd RAND_MAX fuel (sharp kappa) g = Some (z, g1) /\
    let f := (1 / sharp kappa + z) / (1 + 1 / sharp kappa * z) in
    let '(u3, g2) := random G rnd RAND_MAX g1 in
    g' = g2 /\ exists k : Z, v = mu + (if Rlt_dec (1 / 2) u3 then acos f else - acos f) - IZR k * (2 * PI) /\ 0 <= v < 2 * PI.
Proof.
  intros fuel mu kappa g v g' K H. unfold vonmisesvariate in H.
  destruct (Rle_dec kappa (1 / 1000000)); [lra|]. cbv zeta in H.
  destruct (Rle_dec (Rabs (1 / 2 / kappa)) (flt_epsilon * Rabs (1 / 2 / kappa))) as [E|E].
  { exfalso. assert (S : 0 < 1 / 2 / kappa) by (apply Rdiv_lt_0_compat; lra). rewrite Rabs_right in E by lra.
    unfold flt_epsilon in E. assert (/ 8388608 < 1) by lra. nra. }
  fold (sharp kappa) in H. destruct (circle G rnd RAND_MAX fuel (sharp kappa) g) as [[z g1]|]; [|discriminate].
  exists z, g1. split; [reflexivity|]. destruct (random G rnd RAND_MAX g1) as [u3 g2]. cbv zeta.
  set (f := (1 / sharp kappa + z) / (1 + 1 / sharp kappa * z)) in *. split; [congruence|].
  destruct (Rlt_dec (1 / 2) u3).
  - destruct (wrapped (mu + acos f)) as (k & K1 & K2). exists k. rewrite K1 in H. assert (v = mu + acos f - IZR k * (2 * PI)) by congruence. lra.
  - destruct (wrapped (mu - acos f)) as (k & K1 & K2). exists k. rewrite K1 in H. assert (v = mu - acos f - IZR k * (2 * PI)) by congruence. lra.
Qed.

Lemma cos_turns : forall a (k : Z), cos (a - IZR k * (2 * PI)) = cos a.
Proof.
  assert (P : forall a n, cos (a - INR n * (2 * PI)) = cos a).
  { intros a n. rewrite <- (cos_period (a - INR n * (2 * PI)) n). f_equal. ring. }
  assert (M : forall a n, cos (a + INR n * (2 * PI)) = cos a).
  { intros a n. rewrite <- (cos_period a n). f_equal. ring. }
  intros a k. destruct (Z.le_gt_cases 0 k).
  - rewrite <- (P a (Z.to_nat k)). rewrite INR_IZR_INZ, Z2Nat.id by assumption. reflexivity.
  - rewrite <- (M a (Z.to_nat (- k))). rewrite INR_IZR_INZ, Z2Nat.id by lia. rewrite opp_IZR. f_equal. ring.
Qed.

Lemma mises_in : forall fuel mu kappa g v g', vonmisesvariate G rnd RAND_MAX fuel mu kappa g = Some (v, g') -> 0 <= v <= 2 * PI.
Proof.
  intros fuel mu kappa g v g' H. pose proof PI_RGT_0. destruct (Rle_dec kappa (1 / 1000000)) as [K|K].
  - unfold vonmisesvariate in H. destruct (Rle_dec kappa (1 / 1000000)); [|contradiction].
    pose proof (random_in g) as B. destruct (random G rnd RAND_MAX g) as [u g1]. cbn [fst] in B. assert (v = 2 * PI * u) by congruence. subst v. split; nra.
  - destruct (mises_is fuel mu kappa g v g' ltac:(lra) H) as (z & g1 & _ & M). destruct (random G rnd RAND_MAX g1) as [u3 g2].
    destruct M as (_ & k & _ & B). lra.
Qed.

Lemma mises_cos : forall fuel mu kappa g v g', 1 / 1000000 < kappa ->
  vonmisesvariate G rnd RAND_MAX fuel mu kappa g = Some (v, g') ->
  exists z g1 a (k : Z), circle G rnd RAND_MAX fuel (sharp kappa) g = Some (z, g1) /\
    0 <= a <= PI /\ cos a = (1 + sharp kappa * z) / (sharp kappa + z) /\
    (let '(u3, g2) := random G rnd RAND_MAX g1 in g' = g2 /\ v = (if Rlt_dec (1 / 2) u3 then mu + a else mu - a) - IZR k * (2 * PI)) /\
    cos (v - mu) = cos a.
Proof.
  intros fuel mu kappa g v g' K H. destruct (mises_is fuel mu kappa g v g' K H) as (z & g1 & C & M).
  pose proof (circle_in _ _ _ _ _ C) as Z1. pose proof (sharp_gt kappa ltac:(lra)) as S1.
  pose proof (ratio_in (sharp kappa) z S1 Z1) as F1.
  set (f := (1 / sharp kappa + z) / (1 + 1 / sharp kappa * z)) in *.
  destruct (random G rnd RAND_MAX g1) as [u3 g2] eqn:ER. destruct M as (-> & k & -> & _).
  exists z, g1, (acos f), k. split; [exact C|]. split; [apply acos_bound|].
  rewrite ER. split; [|split].
  - rewrite cos_acos by lra. unfold f. field. split; lra.
  - split; [reflexivity|]. destruct (Rlt_dec (1 / 2) u3); ring.
  - transitivity (cos ((if Rlt_dec (1 / 2) u3 then acos f else - acos f) - IZR k * (2 * PI))); [f_equal; ring|].
    rewrite cos_turns. destruct (Rlt_dec (1 / 2) u3); rewrite ?cos_neg; reflexivity.
Qed.
End Random.

(** Counting the values of randint. *)
Lemma rem_count : forall n k, (0 <= k < n)%Z -> forall M,
  Z.of_nat (length (filter (fun r => Z.eqb (r mod n) k) (map Z.of_nat (seq 0 M)))) = ((Z.of_nat M + n - 1 - k) / n)%Z.
Proof.
  intros n k K. induction M as [|M IH].
  - cbn [seq map filter length]. rewrite Z.div_small by lia. reflexivity.
  - rewrite seq_S, map_app, filter_app, app_length, Nat2Z.inj_add, IH. cbn [map filter Nat.add].
    set (m := Z.of_nat M). replace (Z.of_nat (S M)) with (m + 1)%Z by lia.
    pose proof (Z.div_mod m n ltac:(lia)) as DM. pose proof (Z.mod_pos_bound m n ltac:(lia)) as MB. set (q := (m / n)%Z) in *. set (r := (m mod n)%Z) in *.
    destruct (Z.eqb_spec r k) as [E|E]; cbn [length].
    + assert (A : ((m + n - 1 - k) / n = q)%Z) by (symmetry; apply Z.div_unique with (n - 1)%Z; lia).
      assert (B : ((m + 1 + n - 1 - k) / n = q + 1)%Z) by (symmetry; apply Z.div_unique with 0%Z; lia). rewrite A, B. lia.
    + destruct (Z.lt_ge_cases r k).
      * assert (A : ((m + n - 1 - k) / n = q)%Z) by (symmetry; apply Z.div_unique with (r + n - 1 - k)%Z; lia).
        assert (B : ((m + 1 + n - 1 - k) / n = q)%Z) by (symmetry; apply Z.div_unique with (r + n - k)%Z; lia). rewrite A, B. lia.
      * assert (A : ((m + n - 1 - k) / n = q + 1)%Z) by (symmetry; apply Z.div_unique with (r - 1 - k)%Z; lia).
        assert (B : ((m + 1 + n - 1 - k) / n = q + 1)%Z) by (symmetry; apply Z.div_unique with (r - k)%Z; lia). rewrite A, B. lia.
Qed.
Lemma randint_even_closed : forall RAND_MAX low high v, (0 < RAND_MAX)%Z -> (low <= v < high)%Z ->
  let c := Z.of_nat (length (filter (gives low high v) (all_rand RAND_MAX))) in
  ((c - 1) * (high - low) < RAND_MAX + 1 < (c + 1) * (high - low))%Z.
Proof.
  intros RAND_MAX low high v P V c.
  assert (E : c = ((RAND_MAX + 1 + (high - low) - 1 - (v - low)) / (high - low))%Z).
  { unfold c, all_rand. replace (RAND_MAX + 1)%Z with (Z.of_nat (Z.to_nat (RAND_MAX + 1))) at 2 by lia.
    rewrite <- rem_count by lia. do 2 f_equal. apply filter_ext_in. intros r I. apply in_map_iff in I as (m & <- & _).
    unfold gives, randint, only. destruct (Z.eqb_spec (high - low) 0); [lia|]. rewrite Z.rem_mod_nonneg by lia.
    destruct (Z.eqb_spec (Z.of_nat m mod (high - low) + low) v), (Z.eqb_spec (Z.of_nat m mod (high - low)) (v - low)); try reflexivity; lia. }
  set (n := (high - low)%Z) in *. set (x := (RAND_MAX + 1 + n - 1 - (v - low))%Z) in *.
  pose proof (Z.div_mod x n ltac:(unfold n; lia)) as DM. pose proof (Z.mod_pos_bound x n ltac:(unfold n; lia)) as MB.
  rewrite E. unfold x in *. nia.
Qed.

(** *** Cases *)
Definition lcg (g : Z) : Z * Z := ((g mod 2147483648)%Z, (16807 * g + 1)%Z).
Lemma lcg_ok : rand_ok lcg 2147483647.
Proof. split; [reflexivity|]. intros g. cbn [lcg fst]. pose proof (Z.mod_pos_bound g 2147483648 ltac:(lia)). lia. Qed.
Lemma odd_max : Z.Odd 2147483647.
Proof. exists 1073741823%Z. reflexivity. Qed.
Lemma lcg_accepts : exists v g', normalvariate Z lcg 2147483647 1 0 1 1073741824%Z = Some (v, g').
Proof.
  unfold normalvariate, polar, pair, lcg. cbv zeta. 
  replace (1073741824 mod 2147483648)%Z with 1073741824%Z by reflexivity.
  replace ((16807 * 1073741824 + 1) mod 2147483648)%Z with 1073741825%Z by reflexivity.
  unfold RM. destruct (Rle_dec 1 _) as [H|H]; [exfalso; lra|]. do 2 eexists. reflexivity.
Qed.
Lemma lcg_circle : exists v g', vonmisesvariate Z lcg 2147483647 1 1 2 0%Z = Some (v, g').
Proof.
  unfold vonmisesvariate. destruct (Rle_dec 2 (1 / 1000000)); [lra|]. cbv zeta. destruct (Rle_dec _ _); [do 2 eexists; reflexivity|].
  set (r0 := 1 / 2 / 2 + _). cbn [circle]. unfold random, lcg. cbv zeta. unfold RM.
  change (0 mod 2147483648)%Z with 0%Z. change ((16807 * 0 + 1) mod 2147483648)%Z with 1%Z.
  replace (PI * (0 / 2147483647)) with 0 by field. rewrite cos_0.
  assert (1 <= r0). { unfold r0. assert (1 <= sqrt (1 + 1 / 2 / 2 * (1 / 2 / 2))) by (rewrite <- sqrt_1 at 1; apply sqrt_le_1_alt; lra). lra. }
  destruct (Rle_dec _ _) as [H1|H1]; [exfalso|do 2 eexists; reflexivity].
  assert (D : 0 < 1 / (r0 + 1) <= 1 / 2).
  { split; [apply Rdiv_lt_0_compat; lra|]. apply Rmult_le_reg_r with (r0 + 1); [lra|]. unfold Rdiv at 1. rewrite Rmult_assoc, Rinv_l by lra. lra. }
  nra.
Qed.
Lemma swapped : randint unit (only 3) 5 0 tt = Some (8%Z, tt).
Proof. reflexivity. Qed.
