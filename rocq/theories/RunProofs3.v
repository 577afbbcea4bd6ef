(** Proofs for C48: one step of the Euler and of the Runge-Kutta method, as maps of positions. *)
From Coq Require Import Reals List ZArith Lra Lia Psatz.
From Verif Require Import CollModel KLoopModel AdvModel AdvSpec AdvProofs AdvProofs2 RunModel RunSpec.
Import ListNotations.
Open Scope R_scope.

Definition vadd (X : pos) (c : R) (V : pos) : pos :=
  let '(x, y, z) := X in let '(u, v, w) := V in (x + c * u, y + c * v, z + c * w).
Definition vat (vel : R -> R -> R -> R -> R * R * R) (t : R) (X : pos) : pos := let '(x, y, z) := X in vel t z y x.

Section Maps.
Variable vel : R -> R -> R -> R -> R * R * R.
Definition eu (t h : R) (X : pos) : pos := vadd X h (vat vel t X).
Definition s1 (t h : R) (X : pos) : pos := vat vel t X.
Definition s2 (t h : R) (X : pos) : pos := vat vel (t + 1/2 * h) (vadd X (h / 2) (s1 t h X)).
Definition s3 (t h : R) (X : pos) : pos := vat vel (t + 1/2 * h) (vadd X (h / 2) (s2 t h X)).
Definition s4 (t h : R) (X : pos) : pos := vat vel (t + h) (vadd X h (s3 t h X)).
Definition rk (t h : R) (X : pos) : pos :=
  vadd (vadd (vadd (vadd X (h / 6) (s1 t h X)) (h / 3) (s2 t h X)) (h / 3) (s3 t h X)) (h / 6) (s4 t h X).
End Maps.

Definition lift (vel : R -> R -> R -> R -> R * R) (z0 : R) (t z y x : R) : R * R * R :=
  (fst (vel t z0 y x), snd (vel t z0 y x), 0).

(** * The kernels are these maps *)

Lemma pos_eq (a b c a' b' c' : R) : a = a' -> b = b' -> c = c' -> (a, b, c) = (a', b', c').
Proof. intros -> -> ->. reflexivity. Qed.

Lemma rk3_done UVW vel x y z t h a : samples UVW vel -> rk4_3d UVW (mkA x y z t h None) = ADone a -> pos_of a = rk vel t h (x, y, z).
Proof.
  intros S. unfold rk4_3d. cbn [a_lon a_lat a_depth a_time a_dt].
  destruct (UVW t z y x) as [[[u1 v1] w1]|] eqn:E1; cbn [sampled]; [|discriminate].
  destruct (UVW (t + 1/2 * h) _ _ _) as [[[u2 v2] w2]|] eqn:E2; cbn [sampled]; [|discriminate].
  destruct (UVW (t + 1/2 * h) (z + w2 * (1/2) * h) _ _) as [[[u3 v3] w3]|] eqn:E3; cbn [sampled]; [|discriminate].
  destruct (UVW (t + h) _ _ _) as [[[u4 v4] w4]|] eqn:E4; cbn [sampled]; [|discriminate].
  intros E. injection E as <-. unfold pos_of, move. cbn [a_lon a_lat a_depth].
  apply S in E1, E2, E3, E4.
  assert (H1 : s1 vel t h (x, y, z) = (u1, v1, w1)) by (symmetry; exact E1).
  assert (H2 : s2 vel t h (x, y, z) = (u2, v2, w2)).
  { unfold s2. rewrite H1. unfold vadd, vat. rewrite E2. f_equal; lra. }
  assert (H3 : s3 vel t h (x, y, z) = (u3, v3, w3)).
  { unfold s3. rewrite H2. unfold vadd, vat. rewrite E3. f_equal; lra. }
  assert (H4 : s4 vel t h (x, y, z) = (u4, v4, w4)).
  { unfold s4. rewrite H3. unfold vadd, vat. rewrite E4. f_equal; ring. }
  unfold rk. rewrite H1, H2, H3, H4. unfold vadd. apply pos_eq; field.
Qed.

Lemma rk2_done UV vel x y z t h a : samples UV vel -> rk4 UV (mkA x y z t h None) = ADone a -> pos_of a = rk (lift vel z) t h (x, y, z).
Proof.
  intros S. unfold rk4. cbn [a_lon a_lat a_depth a_time a_dt].
  destruct (UV t z y x) as [[u1 v1]|] eqn:E1; cbn [sampled]; [|discriminate].
  destruct (UV (t + 1/2 * h) z (y + v1 * (1/2) * h) _) as [[u2 v2]|] eqn:E2; cbn [sampled]; [|discriminate].
  destruct (UV (t + 1/2 * h) z (y + v2 * (1/2) * h) _) as [[u3 v3]|] eqn:E3; cbn [sampled]; [|discriminate].
  destruct (UV (t + h) _ _ _) as [[u4 v4]|] eqn:E4; cbn [sampled]; [|discriminate].
  intros E. injection E as <-. unfold pos_of, move. cbn [a_lon a_lat a_depth].
  apply S in E1, E2, E3, E4.
  assert (H1 : s1 (lift vel z) t h (x, y, z) = (u1, v1, 0)) by (unfold s1, vat, lift; rewrite <- E1; reflexivity).
  assert (H2 : s2 (lift vel z) t h (x, y, z) = (u2, v2, 0)).
  { unfold s2. rewrite H1. unfold vadd, vat, lift.
    replace (y + h / 2 * v1) with (y + v1 * (1/2) * h) by field. replace (x + h / 2 * u1) with (x + u1 * (1/2) * h) by field.
    rewrite <- E2. reflexivity. }
  assert (H3 : s3 (lift vel z) t h (x, y, z) = (u3, v3, 0)).
  { unfold s3. rewrite H2. unfold vadd, vat, lift.
    replace (y + h / 2 * v2) with (y + v2 * (1/2) * h) by field. replace (x + h / 2 * u2) with (x + u2 * (1/2) * h) by field.
    rewrite <- E3. reflexivity. }
  assert (H4 : s4 (lift vel z) t h (x, y, z) = (u4, v4, 0)).
  { unfold s4. rewrite H3. unfold vadd, vat, lift. rewrite (Rmult_comm h v3), (Rmult_comm h u3).
    rewrite <- E4. reflexivity. }
  unfold rk. rewrite H1, H2, H3, H4. unfold vadd. apply pos_eq; field.
Qed.

Lemma ee_done UV vel x y z t h a : samples UV vel -> ee UV (mkA x y z t h None) = ADone a -> pos_of a = eu (lift vel z) t h (x, y, z).
Proof.
  intros S. unfold ee. cbn [a_lon a_lat a_depth a_time a_dt].
  destruct (UV t z y x) as [[u1 v1]|] eqn:E1; cbn [sampled]; [|discriminate].
  intros E. injection E as <-. apply S in E1. unfold eu, vadd, vat, lift, pos_of, move. cbn [a_lon a_lat a_depth].
  rewrite <- E1. cbn [fst snd]. apply pos_eq; ring.
Qed.

(** The kernels end normally when no sample fails. *)
Lemma rk3_total UVW p : (forall t z y x, UVW t z y x <> None) -> exists a, rk4_3d UVW p = ADone a.
Proof.
  intros T. unfold rk4_3d.
  repeat (match goal with |- context [sampled _ (UVW ?a ?b ?c ?d) _] =>
    destruct (UVW a b c d) as [[[? ?] ?]|] eqn:?; [cbn [sampled]|exfalso; eapply T; eassumption] end).
  eexists. reflexivity.
Qed.
Lemma rk2_total UV p : (forall t z y x, UV t z y x <> None) -> exists a, rk4 UV p = ADone a.
Proof.
  intros T. unfold rk4.
  repeat (match goal with |- context [sampled _ (UV ?a ?b ?c ?d) _] =>
    destruct (UV a b c d) as [[? ?]|] eqn:?; [cbn [sampled]|exfalso; eapply T; eassumption] end).
  eexists. reflexivity.
Qed.
Lemma ee_total UV p : (forall t z y x, UV t z y x <> None) -> exists a, ee UV p = ADone a.
Proof.
  intros T. unfold ee.
  match goal with |- context [sampled _ (UV ?a ?b ?c ?d) _] =>
    destruct (UV a b c d) as [[? ?]|] eqn:?; [cbn [sampled]|exfalso; eapply T; eassumption] end.
  eexists. reflexivity.
Qed.

(** * Nearness *)

Lemma near_refl X d : 0 <= d -> near X X d.
Proof. destruct X as [[x y] z]. cbn. rewrite !Rminus_eq_0, Rabs_R0. auto. Qed.
Lemma near_le X Y d d' : near X Y d -> d <= d' -> near X Y d'.
Proof. destruct X as [[x y] z], Y as [[x' y'] z']. cbn. lra. Qed.
Lemma near_sym X Y d : near X Y d -> near Y X d.
Proof. destruct X as [[x y] z], Y as [[x' y'] z']. cbn. rewrite (Rabs_minus_sym x' x), (Rabs_minus_sym y' y), (Rabs_minus_sym z' z). auto. Qed.
Lemma near_trans X Y Z d e : near X Y d -> near Y Z e -> near X Z (d + e).
Proof.
  destruct X as [[x y] z], Y as [[x' y'] z'], Z as [[x2 y2] z2]. cbn. intros (A & B & C) (A' & B' & C').
  split; [|split]; eapply Rle_trans; [| apply (Rplus_le_compat _ _ _ _ A A') | | apply (Rplus_le_compat _ _ _ _ B B') | | apply (Rplus_le_compat _ _ _ _ C C')].
  - replace (x - x2) with ((x - x') + (x' - x2)) by ring. apply Rabs_triang.
  - replace (y - y2) with ((y - y') + (y' - y2)) by ring. apply Rabs_triang.
  - replace (z - z2) with ((z - z') + (z' - z2)) by ring. apply Rabs_triang.
Qed.
Lemma near_pos X Y d : near X Y d -> 0 <= d.
Proof. destruct X as [[x y] z], Y as [[x' y'] z']. cbn. intros (A & _). pose proof (Rabs_pos (x - x')). lra. Qed.

Lemma step1 x x' d c u u' e : Rabs (x - x') <= d -> Rabs (u - u') <= e -> Rabs (x + c * u - (x' + c * u')) <= d + Rabs c * e.
Proof.
  intros A B. replace (x + c * u - (x' + c * u')) with ((x - x') + c * (u - u')) by ring.
  eapply Rle_trans; [apply Rabs_triang|]. rewrite Rabs_mult.
  apply Rplus_le_compat; [exact A|]. apply Rmult_le_compat_l; [apply Rabs_pos|exact B].
Qed.
Lemma near_vadd X Y d c U V e : near X Y d -> near U V e -> near (vadd X c U) (vadd Y c V) (d + Rabs c * e).
Proof.
  destruct X as [[x y] z], Y as [[x' y'] z'], U as [[u v] w], V as [[u' v'] w']. cbn. intros (A & B & C) (A' & B' & C').
  split; [|split]; apply step1; assumption.
Qed.
Lemma near_stay X c U e : near U (0, 0, 0) e -> near (vadd X c U) X (Rabs c * e).
Proof.
  intros H. pose proof (near_vadd X X 0 c U (0, 0, 0) e (near_refl X 0 (Rle_refl 0)) H) as N.
  assert (Q : vadd X c (0, 0, 0) = X) by (destruct X as [[x y] z]; cbn; apply pos_eq; ring).
  rewrite Q, Rplus_0_l in N. exact N.
Qed.

Lemma exp_rk a : 0 <= a -> 1 + a + a ^ 2 / 2 + a ^ 3 / 6 + a ^ 4 / 24 <= exp a.
Proof.
  intros A. destruct (taylor_seq (fun _ => exp) 0 a 4) as (c & B & E).
  { intros k s _ _. apply derivable_pt_lim_exp. }
  rewrite E. unfold taylor. cbn [sum_f_R0 fact Nat.add Nat.mul INR]. rewrite Rminus_0_r, exp_0.
  pose proof (exp_pos c). assert (0 <= a ^ 5 / 120 * exp c).
  { apply Rmult_le_pos; [|lra]. apply Rmult_le_pos; [apply pow_le; exact A|lra]. }
  match goal with |- _ <= ?r => replace r with (1 + a + a ^ 2 / 2 + a ^ 3 / 6 + a ^ 4 / 24 + a ^ 5 / 120 * exp c) by field end.
  lra.
Qed.

Lemma exp_lin a : 1 + a <= exp a.
Proof. apply exp_ineq1_le. Qed.

(** * Errors of the position grow by a factor *)

Definition lips (vel : R -> R -> R -> R -> R * R * R) (L : R) : Prop :=
  0 <= L /\ forall t X Y d, near X Y d -> near (vat vel t X) (vat vel t Y) (L * d).

Lemma gentle_lips vel L Lt M : gentle vel L Lt M -> lips vel L.
Proof.
  intros (L0 & _ & _ & S & _). split; [lra|]. intros t [[x y] z] [[x' y'] z'] d N. apply S. exact N.
Qed.

Lemma eu_lips vel L t h X Y d : lips vel L -> near X Y d -> near (eu vel t h X) (eu vel t h Y) (exp (L * Rabs h) * d).
Proof.
  intros [L0 S] N. pose proof (near_pos _ _ _ N) as D0. eapply near_le; [apply near_vadd; [exact N|apply S; exact N]|].
  pose proof (exp_lin (L * Rabs h)). nra.
Qed.

Lemma rk_lips vel L t h X Y d : lips vel L -> near X Y d -> near (rk vel t h X) (rk vel t h Y) (exp (L * Rabs h) * d).
Proof.
  intros [L0 S] N. pose proof (near_pos _ _ _ N) as D0.
  pose proof (S t _ _ _ N) as N1. change (near (s1 vel t h X) (s1 vel t h Y) (L * d)) in N1.
  pose proof (S (t + 1/2 * h) _ _ _ (near_vadd _ _ _ (h / 2) _ _ _ N N1)) as N2.
  match type of N2 with near _ _ ?e => change (near (s2 vel t h X) (s2 vel t h Y) e) in N2 end.
  pose proof (S (t + 1/2 * h) _ _ _ (near_vadd _ _ _ (h / 2) _ _ _ N N2)) as N3.
  match type of N3 with near _ _ ?e => change (near (s3 vel t h X) (s3 vel t h Y) e) in N3 end.
  pose proof (S (t + h) _ _ _ (near_vadd _ _ _ h _ _ _ N N3)) as N4.
  match type of N4 with near _ _ ?e => change (near (s4 vel t h X) (s4 vel t h Y) e) in N4 end.
  eapply near_le; [exact (near_vadd _ _ _ (h/6) _ _ _ (near_vadd _ _ _ (h/3) _ _ _ (near_vadd _ _ _ (h/3) _ _ _ (near_vadd _ _ _ (h/6) _ _ _ N N1) N2) N3) N4)|].
  unfold Rdiv. rewrite !(Rabs_mult h), !(Rabs_pos_eq (/ _)) by lra.
  assert (A0 : 0 <= L * Rabs h) by (apply Rmult_le_pos; [exact L0|apply Rabs_pos]).
  pose proof (exp_rk _ A0) as EX. apply (Rmult_le_compat_r d _ _ D0) in EX. eapply Rle_trans; [|exact EX].
  apply Req_le. field.
Qed.

Lemma abs_le a b : Rabs a <= b -> - b <= a <= b.
Proof. unfold Rabs. destruct (Rcase_abs a); lra. Qed.

(** * Consistency *)

Section Consistency.
Variables (vel : R -> R -> R -> R -> R * R * R) (L Lt M : R).
Hypothesis G : gentle vel L Lt M.
Let D := Lt + L * M.

Lemma g_bound t X : near (vat vel t X) (0, 0, 0) M.
Proof. destruct G as (_ & _ & _ & _ & _ & B). destruct X as [[x y] z]. apply B. Qed.
Lemma g_moved t t' X Y d : near X Y d -> near (vat vel t X) (vat vel t' Y) (L * d + Lt * Rabs (t - t')).
Proof.
  intros N. destruct G as (_ & _ & _ & S & T & _). destruct X as [[x y] z], Y as [[x' y'] z'].
  eapply near_trans; [apply S; exact N|apply T].
Qed.
Lemma g_D : 0 <= D.
Proof. destruct G as (L0 & T0 & M0 & _). unfold D. nra. Qed.

Lemma rk_eu t h X : near (rk vel t h X) (eu vel t h X) (D / 2 * h ^ 2).
Proof.
  pose proof G as (L0 & T0 & M0 & _).
  assert (HH : Rabs (t + 1/2 * h - t) = Rabs h / 2).
  { replace (t + 1/2 * h - t) with (h * / 2) by field. rewrite Rabs_mult, (Rabs_pos_eq (/2)) by lra. reflexivity. }
  assert (H2 : Rabs (h / 2) = Rabs h / 2) by (unfold Rdiv; rewrite Rabs_mult, (Rabs_pos_eq (/2)) by lra; reflexivity).
  pose proof (near_refl (s1 vel t h X) 0 (Rle_refl 0)) as N1.
  pose proof (g_moved (t + 1/2 * h) t _ _ _ (near_stay X (h / 2) (s1 vel t h X) M (g_bound _ _))) as N2.
  pose proof (g_moved (t + 1/2 * h) t _ _ _ (near_stay X (h / 2) (s2 vel t h X) M (g_bound _ _))) as N3.
  pose proof (g_moved (t + h) t _ _ _ (near_stay X h (s3 vel t h X) M (g_bound _ _))) as N4.
  match type of N2 with near _ _ ?e => change (near (s2 vel t h X) (s1 vel t h X) e) in N2 end.
  match type of N3 with near _ _ ?e => change (near (s3 vel t h X) (s1 vel t h X) e) in N3 end.
  match type of N4 with near _ _ ?e => change (near (s4 vel t h X) (s1 vel t h X) e) in N4 end.
  replace (t + h - t) with h in N4 by ring. rewrite HH, H2 in N2, N3.
  assert (Q : eu vel t h X = vadd (vadd (vadd (vadd X (h / 6) (s1 vel t h X)) (h / 3) (s1 vel t h X)) (h / 3) (s1 vel t h X)) (h / 6) (s1 vel t h X)).
  { unfold eu. change (vat vel t X) with (s1 vel t h X). destruct (s1 vel t h X) as [[u v] w]. destruct X as [[x y] z]. cbn. apply pos_eq; field. }
  rewrite Q. eapply near_le; [exact (near_vadd _ _ _ (h/6) _ _ _ (near_vadd _ _ _ (h/3) _ _ _ (near_vadd _ _ _ (h/3) _ _ _ (near_vadd _ _ _ (h/6) _ _ _ (near_refl X 0 (Rle_refl 0)) N1) N2) N3) N4)|].
  unfold Rdiv. rewrite !(Rabs_mult h), !(Rabs_pos_eq (/ _)) by lra.
  rewrite <- (pow2_abs h). unfold D. apply Req_le. field.
Qed.

Lemma quad (f g : R -> R) t h B : (forall s, btw t (t + h) s -> derivable_pt_lim f s (g s)) ->
  (forall s, btw t (t + h) s -> Rabs (g s - g t) <= B * Rabs (s - t)) -> Rabs (f (t + h) - (f t + h * g t)) <= B / 2 * h ^ 2.
Proof.
  intros DF DG. destruct (Req_dec h 0) as [-> | H0].
  { replace (t + 0) with t by ring. replace (f t - (f t + 0 * g t)) with 0 by ring. rewrite Rabs_R0. apply Req_le. ring. }
  assert (DQ : forall k s, derivable_pt_lim (fun s => k / 2 * ((s - t) * (s - t)) + - g t * s) s (k * (s - t) - g t)).
  { intros k s. apply (deriv_eq _ _ (k / 2 * (1 * (s - t) + (s - t) * 1) + - g t * 1)); [field|].
    apply (derivable_pt_lim_plus (fun s => k / 2 * ((s - t) * (s - t))) (fun s => - g t * s)).
    - apply (derivable_pt_lim_scal (fun s => (s - t) * (s - t))).
      assert (D1 : derivable_pt_lim (fun s => s - t) s 1).
      { apply (deriv_eq _ _ (1 - 0)); [ring|].
        apply (derivable_pt_lim_minus (fun s => s) (fun _ => t)); [apply derivable_pt_lim_id|apply derivable_pt_lim_const]. }
      apply (derivable_pt_lim_mult (fun s => s - t) (fun s => s - t)); exact D1.
    - apply (derivable_pt_lim_scal (fun s => s)). apply derivable_pt_lim_id. }
  assert (MV : forall k, exists c, btw t (t + h) c /\ f (t + h) - f t - h * g t + k / 2 * h ^ 2 = (g c - g t + k * (c - t)) * h).
  { intros k. destruct (mvt (fun s => f s + (k / 2 * ((s - t) * (s - t)) + - g t * s)) (fun s => g s + (k * (s - t) - g t)) t (t + h)) as (c & Bc & _ & E).
    - lra.
    - intros s Hs. apply (derivable_pt_lim_plus f (fun s => k / 2 * ((s - t) * (s - t)) + - g t * s)); [apply DF; exact Hs|apply DQ].
    - exists c. split; [exact Bc|]. cbv beta in E. nra. }
  assert (SG : forall c, btw t (t + h) c -> 0 <= (c - t) * h).
  { intros c. unfold btw, Rmin, Rmax. destruct (Rle_dec t (t + h)); nra. }
  apply Rabs_le. split.
  - destruct (MV B) as (c & Bc & E). specialize (DG c Bc). specialize (SG c Bc).
    assert (0 <= (g c - g t + B * (c - t)) * h); [|lra].
    destruct (Rle_dec 0 h).
    + assert (0 <= c - t) by (unfold btw, Rmin, Rmax in Bc; destruct (Rle_dec t (t + h)); lra).
      rewrite (Rabs_pos_eq (c - t)) in DG by lra. apply abs_le in DG. apply Rmult_le_pos; lra.
    + assert (c - t <= 0) by (unfold btw, Rmin, Rmax in Bc; destruct (Rle_dec t (t + h)); lra).
      rewrite (Rabs_left1 (c - t)) in DG by lra. apply abs_le in DG. nra.
  - destruct (MV (- B)) as (c & Bc & E). specialize (DG c Bc). specialize (SG c Bc).
    assert ((g c - g t + - B * (c - t)) * h <= 0); [|lra].
    destruct (Rle_dec 0 h).
    + assert (0 <= c - t) by (unfold btw, Rmin, Rmax in Bc; destruct (Rle_dec t (t + h)); lra).
      rewrite (Rabs_pos_eq (c - t)) in DG by lra. apply abs_le in DG. nra.
    + assert (c - t <= 0) by (unfold btw, Rmin, Rmax in Bc; destruct (Rle_dec t (t + h)); lra).
      rewrite (Rabs_left1 (c - t)) in DG by lra. apply abs_le in DG. nra.
Qed.

Lemma path_lips (f g : R -> R) t s B : (forall r, btw t s r -> derivable_pt_lim f r (g r) /\ Rabs (g r) <= B) -> Rabs (f s - f t) <= B * Rabs (s - t).
Proof.
  intros H. destruct (Req_dec t s) as [-> | N]; [rewrite !Rminus_eq_0, Rabs_R0; lra|].
  destruct (mvt f g t s N) as (c & Bc & _ & E); [intros r Hr; apply (H r Hr)|].
  rewrite E, Rabs_mult. apply Rmult_le_compat_r; [apply Rabs_pos|apply (H c Bc)].
Qed.

Definition drifts_in (c : course) (a b : R) : Prop := forall s, btw a b s ->
  let '(u, v, w) := vat vel s (place c s) in
  derivable_pt_lim (c_lon c) s u /\ derivable_pt_lim (c_lat c) s v /\ derivable_pt_lim (c_depth c) s w.

Lemma place_eu c t h : drifts_in c t (t + h) -> near (place c (t + h)) (eu vel t h (place c t)) (D / 2 * h ^ 2).
Proof.
  intros DR.
  assert (SUB : forall s r, btw t (t + h) s -> btw t s r -> btw t (t + h) r).
  { intros s r. unfold btw, Rmin, Rmax. destruct (Rle_dec t (t + h)), (Rle_dec t s); lra. }
  set (V := fun s => vat vel s (place c s)).
  assert (DX : forall s, btw t (t + h) s -> derivable_pt_lim (c_lon c) s (fst (fst (V s)))).
  { intros s Hs. specialize (DR s Hs). unfold V. destruct (vat vel s (place c s)) as [[u v] w]. apply DR. }
  assert (DY : forall s, btw t (t + h) s -> derivable_pt_lim (c_lat c) s (snd (fst (V s)))).
  { intros s Hs. specialize (DR s Hs). unfold V. destruct (vat vel s (place c s)) as [[u v] w]. apply DR. }
  assert (DZ : forall s, btw t (t + h) s -> derivable_pt_lim (c_depth c) s (snd (V s))).
  { intros s Hs. specialize (DR s Hs). unfold V. destruct (vat vel s (place c s)) as [[u v] w]. apply DR. }
  assert (BV : forall s, Rabs (fst (fst (V s))) <= M /\ Rabs (snd (fst (V s))) <= M /\ Rabs (snd (V s)) <= M).
  { intros s. pose proof (g_bound s (place c s)) as B. unfold V. destruct (vat vel s (place c s)) as [[u v] w].
    cbn in B. rewrite !Rminus_0_r in B. exact B. }
  assert (NP : forall s, btw t (t + h) s -> near (place c s) (place c t) (M * Rabs (s - t))).
  { intros s Hs. cbn. split; [|split].
    - apply (path_lips _ (fun r => fst (fst (V r)))). intros r Hr. split; [apply DX; eapply SUB; eassumption|apply BV].
    - apply (path_lips _ (fun r => snd (fst (V r)))). intros r Hr. split; [apply DY; eapply SUB; eassumption|apply BV].
    - apply (path_lips _ (fun r => snd (V r))). intros r Hr. split; [apply DZ; eapply SUB; eassumption|apply BV]. }
  assert (NV : forall s, btw t (t + h) s -> near (V s) (V t) (D * Rabs (s - t))).
  { intros s Hs. eapply near_le; [apply g_moved; apply NP; exact Hs|]. unfold D. apply Req_le. ring. }
  assert (NV' : forall s, btw t (t + h) s -> Rabs (fst (fst (V s)) - fst (fst (V t))) <= D * Rabs (s - t) /\
     Rabs (snd (fst (V s)) - snd (fst (V t))) <= D * Rabs (s - t) /\ Rabs (snd (V s) - snd (V t)) <= D * Rabs (s - t)).
  { intros s Hs. specialize (NV s Hs). destruct (V s) as [[u v] w], (V t) as [[u' v'] w']. exact NV. }
  assert (Q : eu vel t h (place c t) = (c_lon c t + h * fst (fst (V t)), c_lat c t + h * snd (fst (V t)), c_depth c t + h * snd (V t))).
  { unfold eu. fold (V t). destruct (V t) as [[u v] w]. reflexivity. }
  rewrite Q. unfold place, near. split; [|split].
  - apply (quad _ (fun s => fst (fst (V s)))); [exact DX|intros s Hs; apply (NV' s Hs)].
  - apply (quad _ (fun s => snd (fst (V s)))); [exact DY|intros s Hs; apply (NV' s Hs)].
  - apply (quad _ (fun s => snd (V s))); [exact DZ|intros s Hs; apply (NV' s Hs)].
Qed.

Lemma eu_step c t h X d : drifts_in c t (t + h) -> near X (place c t) d ->
  near (eu vel t h X) (place c (t + h)) (exp (L * Rabs h) * d + D / 2 * Rabs h ^ 2).
Proof.
  intros DR N. eapply near_trans; [apply eu_lips; [eapply gentle_lips; exact G|exact N]|].
  rewrite pow2_abs. apply near_sym. apply place_eu. exact DR.
Qed.

Lemma rk_step c t h X d : drifts_in c t (t + h) -> near X (place c t) d ->
  near (rk vel t h X) (place c (t + h)) (exp (L * Rabs h) * d + D * Rabs h ^ 2).
Proof.
  intros DR N. eapply near_le; [eapply near_trans; [apply rk_lips; [eapply gentle_lips; exact G|exact N]|
    eapply near_trans; [apply rk_eu|apply near_sym; apply place_eu; exact DR]]|].
  rewrite pow2_abs. apply Req_le. field.
Qed.
End Consistency.

(** * Linear fields *)

Lemma row_lips r lam x y z x' y' z' d : (let '(a, b, c, _) := r in Rabs a + Rabs b + Rabs c <= lam) -> near (x, y, z) (x', y', z') d ->
  Rabs (row3 r x y z + cst3 r - (row3 r x' y' z' + cst3 r)) <= lam * d.
Proof.
  destruct r as [[[a b] c] g]. cbn. intros S (A & B & C).
  replace (a * x + b * y + c * z + g - (a * x' + b * y' + c * z' + g)) with (a * (x - x') + b * (y - y') + c * (z - z')) by ring.
  eapply Rle_trans; [apply Rabs_triang|]. eapply Rle_trans; [apply Rplus_le_compat_r, Rabs_triang|]. rewrite !Rabs_mult.
  pose proof (Rabs_pos a). pose proof (Rabs_pos b). pose proof (Rabs_pos c). pose proof (Rabs_pos (x - x')).
  apply Rle_trans with ((Rabs a + Rabs b + Rabs c) * d); [|apply Rmult_le_compat_r; lra].
  rewrite !Rmult_plus_distr_r. repeat apply Rplus_le_compat; apply Rmult_le_compat_l; assumption.
Qed.

Lemma lin_lips A lam : stretches3 A lam -> lips (lin3_vel A) lam.
Proof.
  intros S. unfold stretches3 in S. inversion S as [|r1 l1 S1 S1']; subst. inversion S1' as [|r2 l2 S2 S2']; subst. inversion S2' as [|r3 l3 S3 S3']; subst.
  split.
  - destruct (m_x A) as [[[a b] c] g]. pose proof (Rabs_pos a). pose proof (Rabs_pos b). pose proof (Rabs_pos c). lra.
  - intros t [[x y] z] [[x' y'] z'] d N. unfold vat, lin3_vel. split; [|split]; apply row_lips; assumption.
Qed.

Lemma rk_is_rk3 vel t h x y z : rk vel t h (x, y, z) =
  (let p := mkA x y z t h None in
   (x + wsum (fst (fst (rk3_k1 vel p))) (fst (fst (rk3_k2 vel p))) (fst (fst (rk3_k3 vel p))) (fst (fst (rk3_k4 vel p))) h,
    y + wsum (snd (fst (rk3_k1 vel p))) (snd (fst (rk3_k2 vel p))) (snd (fst (rk3_k3 vel p))) (snd (fst (rk3_k4 vel p))) h,
    z + wsum (snd (rk3_k1 vel p)) (snd (rk3_k2 vel p)) (snd (rk3_k3 vel p)) (snd (rk3_k4 vel p)) h)).
Proof.
  cbv zeta. set (p := mkA x y z t h None).
  assert (H1 : s1 vel t h (x, y, z) = rk3_k1 vel p) by reflexivity.
  assert (H2 : s2 vel t h (x, y, z) = rk3_k2 vel p).
  { unfold s2. rewrite H1. unfold rk3_k2. cbn [a_lon a_lat a_depth a_time a_dt p]. fold p. destruct (rk3_k1 vel p) as [[u v] w]. unfold vadd, vat. cbn [fst snd]. f_equal; field. }
  assert (H3 : s3 vel t h (x, y, z) = rk3_k3 vel p).
  { unfold s3. rewrite H2. unfold rk3_k3. cbn [a_lon a_lat a_depth a_time a_dt p]. fold p. destruct (rk3_k2 vel p) as [[u v] w]. unfold vadd, vat. cbn [fst snd]. f_equal; field. }
  assert (H4 : s4 vel t h (x, y, z) = rk3_k4 vel p).
  { unfold s4. rewrite H3. unfold rk3_k4. cbn [a_lon a_lat a_depth a_time a_dt p]. fold p. destruct (rk3_k3 vel p) as [[u v] w]. unfold vadd, vat. cbn [fst snd]. f_equal; ring. }
  unfold rk. rewrite H1, H2, H3, H4. destruct (rk3_k1 vel p) as [[u1 v1] w1], (rk3_k2 vel p) as [[u2 v2] w2], (rk3_k3 vel p) as [[u3 v3] w3], (rk3_k4 vel p) as [[u4 v4] w4].
  unfold vadd, wsum. cbn [fst snd]. apply pos_eq; field.
Qed.

Lemma rk_lin_place A c t h B : drifts_in (lin3_vel A) c t (t + h) ->
  (forall s, btw t (t + h) s -> near (lin3_deriv A 5 (c_lon c s) (c_lat c s) (c_depth c s)) (0, 0, 0) B) ->
  near (rk (lin3_vel A) t h (place c t)) (place c (t + h)) (B / 120 * Rabs h ^ 5).
Proof.
  intros DR HB. unfold place. rewrite rk_is_rk3. cbv zeta. set (p := mkA (c_lon c t) (c_lat c t) (c_depth c t) t h None).
  destruct (rk3_lin A p) as (EX & EY & EZ). cbv zeta in EX, EY, EZ. cbn [a_lon a_lat a_depth a_time a_dt p] in EX, EY, EZ. fold p in EX, EY, EZ.
  rewrite EX, EY, EZ. clear EX EY EZ.
  assert (P : path3 (lin3_vel A) p (c_lon c) (c_lat c) (c_depth c)).
  { split; [reflexivity|]. split; [reflexivity|]. split; [reflexivity|]. intros s Hs. specialize (DR s Hs).
    unfold vat, place in DR. destruct (lin3_vel A s (c_depth c s) (c_lat c s) (c_lon c s)) as [[u v] w]. exact DR. }
  pose proof (lin3_derives A p _ _ _ P) as DD.
  set (d := fun k s => lin3_deriv A k (c_lon c s) (c_lat c s) (c_depth c s)) in *.
  assert (F5 : INR (fact 5) = 120) by (cbn; ring).
  assert (T : t + h - t = h) by ring.
  destruct (taylor_seq (fun k s => fst (fst (d k s))) t (t + h) 4) as (c1 & B1 & X1). { intros k s _ Hs. apply (DD k s Hs). }
  destruct (taylor_seq (fun k s => snd (fst (d k s))) t (t + h) 4) as (c2 & B2 & Y1). { intros k s _ Hs. apply (DD k s Hs). }
  destruct (taylor_seq (fun k s => snd (d k s)) t (t + h) 4) as (c3 & B3 & Z1). { intros k s _ Hs. apply (DD k s Hs). }
  rewrite F5, T in X1, Y1, Z1. change (d 0%nat (t + h)) with (c_lon c (t + h), c_lat c (t + h), c_depth c (t + h)) in X1, Y1, Z1.
  cbn [fst snd] in X1, Y1, Z1. rewrite X1, Y1, Z1.
  assert (BB : forall q e, Rabs e <= B -> Rabs (q - (q + h ^ 5 / 120 * e)) <= B / 120 * Rabs h ^ 5).
  { intros q e He. replace (q - (q + h ^ 5 / 120 * e)) with (- (/ 120 * (h ^ 5 * e))) by field.
    rewrite Rabs_Ropp, Rabs_mult, Rabs_mult, (Rabs_pos_eq (/120)) by lra. rewrite <- RPow_abs.
    assert (0 <= Rabs h ^ 5) by (apply pow_le, Rabs_pos). nra. }
  assert (H5 : forall s, btw t (t + h) s -> Rabs (fst (fst (d 5%nat s))) <= B /\ Rabs (snd (fst (d 5%nat s))) <= B /\ Rabs (snd (d 5%nat s)) <= B).
  { intros s Hs. specialize (HB s Hs). fold (d 5%nat s) in HB. destruct (d 5%nat s) as [[u v] w]. unfold near in HB. rewrite !Rminus_0_r in HB. exact HB. }
  split; [|split]; apply BB; [apply (H5 c1 B1)|apply (H5 c2 B2)|apply (H5 c3 B3)].
Qed.

Lemma rk_lin_step A lam c t h B X dist : stretches3 A lam -> drifts_in (lin3_vel A) c t (t + h) ->
  (forall s, btw t (t + h) s -> near (lin3_deriv A 5 (c_lon c s) (c_lat c s) (c_depth c s)) (0, 0, 0) B) ->
  near X (place c t) dist -> near (rk (lin3_vel A) t h X) (place c (t + h)) (exp (lam * Rabs h) * dist + B / 120 * Rabs h ^ 5).
Proof.
  intros S DR HB N. eapply near_trans; [apply rk_lips; [apply lin_lips; exact S|exact N]|apply rk_lin_place; assumption].
Qed.

(** * Velocities that depend on time only *)

Lemma rk_poly cu cv cw c t h : (length cu <= 4)%nat -> (length cv <= 4)%nat -> (length cw <= 4)%nat ->
  drifts_in (fun t _ _ _ => (poly cu t, poly cv t, poly cw t)) c t (t + h) ->
  rk (fun t _ _ _ => (poly cu t, poly cv t, poly cw t)) t h (place c t) = place c (t + h).
Proof.
  intros Lu Lv Lw DR. unfold place. rewrite rk_is_rk3. cbv zeta. unfold rk3_k1, rk3_k2, rk3_k3, rk3_k4. cbn [fst snd a_time a_dt].
  rewrite (poly_integral cu (c_lon c) t (t + h)) by (intros s Hs; apply (DR s Hs)).
  rewrite (poly_integral cv (c_lat c) t (t + h)) by (intros s Hs; apply (DR s Hs)).
  rewrite (poly_integral cw (c_depth c) t (t + h)) by (intros s Hs; apply (DR s Hs)).
  rewrite <- (simpson cu) by exact Lu. rewrite <- (simpson cv) by exact Lv. rewrite <- (simpson cw) by exact Lw. reflexivity.
Qed.

Lemma eu_uniform u v w c t h : drifts_in (fun _ _ _ _ => (u, v, w)) c t (t + h) ->
  eu (fun _ _ _ _ => (u, v, w)) t h (place c t) = place c (t + h).
Proof.
  intros DR. unfold eu, place, vat, vadd.
  rewrite (poly_integral [u] (c_lon c) t (t + h)) by (intros s Hs; apply (deriv_eq _ _ u); [cbn; ring|apply (DR s Hs)]).
  rewrite (poly_integral [v] (c_lat c) t (t + h)) by (intros s Hs; apply (deriv_eq _ _ v); [cbn; ring|apply (DR s Hs)]).
  rewrite (poly_integral [w] (c_depth c) t (t + h)) by (intros s Hs; apply (deriv_eq _ _ w); [cbn; ring|apply (DR s Hs)]).
  cbn [integ_from INR]. apply pos_eq; field.
Qed.

(** * Errors over many steps *)

Lemma growth_step C L H q s a d : 0 <= C -> 0 < L -> 0 <= a <= H -> d <= growth C L H q s ->
  exp (L * a) * d + C * a ^ S q <= growth C L H q (s + a).
Proof.
  intros C0 L0 A Dd. unfold growth in *. rewrite Rmult_plus_distr_l, exp_plus.
  pose proof (exp_pos (L * a)) as E0. pose proof (exp_lin (L * a)) as E1.
  set (K := C * H ^ q / L) in *.
  assert (K0 : 0 <= K) by (unfold K; apply Rmult_le_pos; [apply Rmult_le_pos; [exact C0|apply pow_le; lra]|apply Rlt_le, Rinv_0_lt_compat; exact L0]).
  assert (P : C * a ^ S q <= K * (exp (L * a) - 1)).
  { apply Rle_trans with (K * (L * a)); [|apply Rmult_le_compat_l; lra].
    unfold K. replace (C * H ^ q / L * (L * a)) with (C * (a * H ^ q)) by (field; lra).
    apply Rmult_le_compat_l; [exact C0|]. cbn [pow]. apply Rmult_le_compat_l; [lra|]. apply pow_incr. lra. }
  apply (Rmult_le_compat_l (exp (L * a))) in Dd; [|lra]. nra.
Qed.

Lemma growth_0 C L H q : growth C L H q 0 = 0.
Proof. unfold growth. rewrite Rmult_0_r, exp_0. ring. Qed.

(** * From two dimensions to three *)

Lemma lift_gentle vel L Lt M z0 : gentle2 vel L Lt M -> gentle (lift vel z0) L Lt M.
Proof.
  intros (L0 & T0 & M0 & S & T & B). split; [exact L0|]. split; [exact T0|]. split; [exact M0|]. unfold lift. split; [|split].
  - intros t z y x z' y' x' d N. assert (D0 : 0 <= d) by (eapply near_pos; exact N).
    destruct N as (A1 & A2 & _). destruct (S t z0 y x y' x' d (conj A1 A2)) as [B1 B2].
    split; [exact B1|]. split; [exact B2|]. rewrite Rminus_eq_0, Rabs_R0. nra.
  - intros t t' z y x. destruct (T t t' z0 y x) as [B1 B2]. split; [exact B1|]. split; [exact B2|].
    rewrite Rminus_eq_0, Rabs_R0. apply Rmult_le_pos; [exact T0|apply Rabs_pos].
  - intros t z y x. destruct (B t z0 y x) as [B1 B2]. split; [exact B1|]. split; [exact B2|]. rewrite Rminus_eq_0, Rabs_R0. exact M0.
Qed.

