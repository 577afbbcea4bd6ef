(** Proofs for C57: two counterexamples. *)
From Coq Require Import Reals List ZArith Bool Lia Lra.
From Verif Require Import AdvModel AdvSpec AdvProofs AdvProofs2 AdvProofs3 RunSpec Rk45Model Rk45Spec Rk45Proofs Rk45Proofs2 Rk45Proofs3 Rk45Proofs4.
Import ListNotations.
Open Scope R_scope.

(** * Water that flows faster beyond a front *)

Definition front : R -> R -> R -> R -> option (R * R) := fun _ _ _ x => Some (if Rle_dec x 0 then 1 else 2, 0).
Lemma front_slow t z y x : x <= 0 -> front t z y x = Some (1, 0).
Proof. intros H. unfold front. destruct (Rle_dec x 0); [reflexivity|lra]. Qed.
Lemma front_fast t z y x : 0 < x -> front t z y x = Some (2, 0).
Proof. intros H. unfold front. destruct (Rle_dec x 0); [lra|reflexivity]. Qed.

Lemma front_stages t h : 0 < h -> stages front (mkA 0 0 0 t h None) fehlberg [] = Some [(1, 0); (2, 0); (2, 0); (2, 0); (1, 0); (2, 0)].
Proof.
  intros H. unfold fehlberg. cbn [stages a_time a_dt a_lat a_lon a_depth map fst snd app].
  rewrite front_slow by (unfold dot; cbn [combine map fold_right fst snd]; lra). cbn [stages map fst snd app].
  rewrite front_fast by (unfold dot; cbn [combine map fold_right fst snd]; lra). cbn [stages map fst snd app].
  rewrite front_fast by (unfold dot; cbn [combine map fold_right fst snd]; lra). cbn [stages map fst snd app].
  rewrite front_fast by (unfold dot; cbn [combine map fold_right fst snd]; lra). cbn [stages map fst snd app].
  rewrite front_slow by (unfold dot; cbn [combine map fold_right fst snd]; lra). cbn [stages map fst snd app].
  rewrite front_fast by (unfold dot; cbn [combine map fold_right fst snd]; lra). reflexivity.
Qed.
Lemma front_call t h s : 0 < h -> exists a, call front (mkRp (0, 0, 0) t h s) h = ARepeat a /\ a_dt a = h / 2.
Proof.
  intros H. destruct (call_cases front (mkRp (0, 0, 0) t h s) h) as [(a & err & C & _ & F & L & _)|[(a & err & C & D & _)|(a & C & N)]].
  - exfalso. cbn [p_time p_pos] in F. destruct F as (ks & K & _ & ->). rewrite (front_stages t h H) in K. injection K as <-. rewrite Rabs_right in L by lra.
    assert (B : tol * h < distance (solution (mkA 0 0 0 t h None) fehlberg4 [(1, 0); (2, 0); (2, 0); (2, 0); (1, 0); (2, 0)]) (solution (mkA 0 0 0 t h None) fehlberg5 [(1, 0); (2, 0); (2, 0); (2, 0); (1, 0); (2, 0)])).
    { unfold distance. assert (P : 0 <= tol * h) by (unfold tol; lra). rewrite <- (sqrt_pow2 (tol * h) P). apply sqrt_lt_1_alt. split; [apply pow2_ge_0|].
      unfold solution, dot, tol, fehlberg4, fehlberg5. cbn [map combine fold_right fst snd a_lon a_lat a_dt].
      assert (Q : 0 < h * h) by (apply Rmult_lt_0_compat; lra). nra. }
    lra.
  - exists a. split; assumption.
  - exfalso. apply (no_fail front) in C; [exact C|]. intros. unfold front. discriminate.
Qed.

Lemma close_small atol h : 0 < h <= atol -> close0 atol h = true.
Proof. intros H. apply close_true. rewrite Rabs_right; lra. Qed.

Section Stuck.
Variables (atol E : R).
Hypothesis A0 : 0 < atol < 1.
Hypothesis E1 : 1 <= E.
Definition at_front (h : R) (s : pstate) : rp := mkRp (0, 0, 0) 0 h s.

Lemma one_active f h : atol < h <= 1 -> py_particle front (S f) atol 1 E (at_front h Evaluate) = Some (at_front (h / 2) Repeat).
Proof.
  intros H. assert (DP : dpos E (at_front h Evaluate) = h).
  { unfold dpos. cbn [p_dt p_time at_front]. rewrite Rminus_0_r, (Rabs_right h), (Rabs_right E) by lra. apply Rmin_left. lra. }
  assert (D1 : atol < Rabs 1) by (rewrite Rabs_R1; lra). assert (A1 : 0 <= atol) by lra.
  assert (ACT : active atol 1 E (at_front h Evaluate)).
  { split; [|rewrite DP; lra]. unfold left_to. cbn [p_time at_front]. destruct (Rlt_dec 0 1); lra. }
  rewrite (particle_active atol 1) by (try assumption; reflexivity). rewrite (loop_active atol 1 D1 front E f _ ACT eq_refl). rewrite DP.
  replace (dir 1 * h) with h by (unfold dir; rewrite sgn_pos by lra; ring).
  destruct (front_call 0 h Evaluate ltac:(lra)) as (a & C & D). unfold at_front at 1. rewrite C. unfold undone. rewrite D. reflexivity.
Qed.
Lemma one_over f h : 0 < h <= atol -> py_particle front f atol 1 E (at_front h Evaluate) = Some (at_front h Evaluate).
Proof.
  intros H. unfold py_particle. cbv zeta. cbn [p_dt p_time at_front]. rewrite Rminus_0_r, (Rabs_right h), (Rabs_right E), Rmin_left, (close_small atol h H), orb_true_r by lra.
  replace (close0 atol 1) with false by (symmetry; apply close_false; rewrite Rabs_R1; lra). cbn [negb andb].
  destruct (Rle_dec E (Rabs 0)) as [X|X]; [rewrite Rabs_R0 in X; lra|reflexivity].
Qed.

Lemma round_once one h q rf : one (at_front h Evaluate) = Some q ->
  rounds (S rf) one [at_front h Repeat] = rounds rf one [q].
Proof.
  intros O. change (rounds (S rf) one [at_front h Repeat]) with (match pass one [at_front h Evaluate] with Some ps' => rounds rf one ps' | None => Unfinished end).
  cbn [pass]. rewrite O. reflexivity.
Qed.
Lemma stuck n : forall h, 0 < h <= 1 -> h <= 2 ^ n * atol -> exists h', 0 < h' <= atol /\
  forall f rf, (1 <= f)%nat -> (S n <= rf)%nat -> rounds rf (py_particle front f atol 1 E) [at_front h Repeat] = Done [at_front h' Evaluate].
Proof.
  induction n as [|n IH]; intros h H L; destruct (Rle_dec h atol) as [K|K].
  1, 3: exists h; split; [lra|]; intros f rf F G; destruct rf as [|rf]; [lia|]; rewrite (round_once _ h (at_front h Evaluate)) by (apply one_over; lra); destruct rf; reflexivity.
  - cbn in L. lra.
  - destruct (IH (h / 2)) as (h' & H' & R); [lra|cbn in L; lra|]. exists h'. split; [exact H'|]. intros f rf F G. destruct rf as [|rf]; [lia|]. destruct f as [|f]; [lia|].
    rewrite (round_once _ h (at_front (h / 2) Repeat)) by (apply one_active; lra). apply R; lia.
Qed.

Lemma stuck_run : exists h', 0 < h' <= atol /\ forall jit, ends_with front jit atol 1 [E] [at_front 1 Evaluate] [at_front h' Evaluate].
Proof.
  assert (AR : exists n, 1 < INR n * atol).
  { exists (Z.to_nat (up (1 / atol))). destruct (archimed (1 / atol)) as [U _]. assert (P : 0 < 1 / atol) by (apply Rdiv_lt_0_compat; lra).
    assert (UP : (0 <= up (1 / atol))%Z) by (apply le_IZR; lra). rewrite INR_IZR_INZ, Z2Nat.id by exact UP.
    apply (Rmult_lt_reg_r (/ atol)); [apply Rinv_0_lt_compat; lra|]. rewrite Rmult_assoc, Rinv_r by lra. unfold Rdiv in U. lra. }
  destruct AR as (n & N).
  assert (P : 1 <= 2 ^ n * atol).
  { assert (B : INR n <= 2 ^ n). { clear. induction n as [|n IH]; [cbn; lra|]. rewrite S_INR. cbn [pow]. assert (1 <= 2 ^ n) by (apply pow_R1_Rle; lra). lra. }
    assert (INR n * atol <= 2 ^ n * atol) by (apply Rmult_le_compat_r; lra). lra. }
  destruct (stuck n (1 / 2)) as (h' & H' & R); [lra|lra|]. exists h'. split; [exact H'|].
  assert (PY : ends_with front false atol 1 [E] [at_front 1 Evaluate] [at_front h' Evaluate]).
  { exists (S n). intros lf rf L1 L2. destruct lf as [|lf]; [lia|]. cbn [windows]. unfold execute.
    change (map (fun p => set_state p Evaluate) [at_front 1 Evaluate]) with [at_front 1 Evaluate]. cbn [pass]. rewrite one_active by lra. rewrite (R (S lf) rf) by lia. reflexivity. }
  intros jit. destruct jit; [|exact PY]. destruct PY as (m & PY). exists m. intros lf rf L1 L2. rewrite (windows_same atol 1); [apply PY; assumption|lra|rewrite Rabs_R1; lra|].
  repeat constructor. cbn. lra.
Qed.
End Stuck.

(** * A current that vanishes at the sampled times *)

Definition pulse (D : R) : list R := map (Rmult (D * (420 / 59))) [0; -36; 387; -1553; 2906; -2536; 832].
Definition pulse_flow (D : R) : R -> R -> R -> R -> R * R := fun t _ _ _ => (poly (pulse D) t, 0).
Definition pulse_course (D : R) : course := mkCourse (integ_from 0 (pulse D)) (fun _ => 0) (fun _ => 0) 0.

Lemma pulse_drifts D until : drifts2 (pulse_flow D) until (pulse_course D).
Proof.
  split; [reflexivity|]. intros s _. cbn [pulse_flow pulse_course c_lon c_lat c_depth]. split; [|apply derivable_pt_lim_const].
  replace (poly (pulse D) s) with (poly_from 0 (pulse D) s) by (unfold poly_from; cbn [pow]; ring). apply integ_deriv.
Qed.
Lemma pulse_end D : place (pulse_course D) 0 = (0, 0, 0) /\ place (pulse_course D) 1 = (D, 0, 0).
Proof. unfold place, pulse_course, pulse, integ_from. cbn [c_lon c_lat c_depth INR map]. split; repeat f_equal; field. Qed.

Lemma pulse_stages D : stages (fun t z y x => Some (pulse_flow D t z y x)) (mkA 0 0 0 0 1 None) fehlberg [] = Some [(0, 0); (0, 0); (0, 0); (0, 0); (0, 0); (0, 0)].
Proof.
  unfold fehlberg, pulse_flow. cbn [stages a_time a_dt a_lat a_lon a_depth map fst snd app]. unfold poly, pulse. cbn [pow map].
  repeat f_equal; field.
Qed.

Lemma pulse_call D s : exists a, call (fun t z y x => Some (pulse_flow D t z y x)) (mkRp (0, 0, 0) 0 1 s) 1 = ADone a /\ (a_lon a, a_lat a, a_depth a) = (0, 0, 0) /\ a_dt a = 1 /\ next_dt a = 2.
Proof.
  set (UV := fun t z y x => Some (pulse_flow D t z y x)).
  assert (ER : forall x' err, fehlberg_step UV 0 (0, 0, 0) 1 x' err -> x' = (0, 0, 0) /\ err = 0).
  { intros x' err (ks & K & -> & ->). unfold UV in K. rewrite pulse_stages in K. injection K as <-. unfold solution, dot, fehlberg4, fehlberg5. cbn [map combine fold_right fst snd a_lon a_lat a_dt].
    split; [repeat f_equal; ring|]. unfold distance. cbn [fst snd]. match goal with |- sqrt ?e = 0 => replace e with 0 by ring end. apply sqrt_0. }
  destruct (call_cases UV (mkRp (0, 0, 0) 0 1 s) 1) as [(a & err & C & B & F & L & _)|[(a & err & C & B & (x' & F) & L)|(a & C & N)]].
  - exists a. split; [exact C|]. assert (N : next_dt a = 2 * 1).
    { apply (call_doubles UV _ _ _ _ _ C F). apply ER in F. destruct F as [_ ->]. unfold tol. rewrite Rabs_R1. lra. }
    apply ER in F. split; [apply F|]. split; [exact B|lra].
  - exfalso. apply ER in F. destruct F as [_ ->]. unfold tol in L. rewrite Rabs_R1 in L. lra.
  - exfalso. apply (no_fail UV) in C; [exact C|]. intros. unfold UV. discriminate.
Qed.

Lemma pulse_run D atol : 0 <= atol < 1 -> exists p', p_pos p' = (0, 0, 0) /\ p_time p' = 1 /\ p_dt p' = 2 /\
  forall jit, ends_with (fun t z y x => Some (pulse_flow D t z y x)) jit atol 1 [1] [mkRp (0, 0, 0) 0 1 Evaluate] [p'].
Proof.
  intros A. set (UV := fun t z y x => Some (pulse_flow D t z y x)). destruct (pulse_call D Evaluate) as (a & C & P & DA & DN). fold UV in C.
  assert (D1 : atol < Rabs 1) by (rewrite Rabs_R1; lra). assert (A1 : 0 <= atol) by lra.
  set (p0 := mkRp (0, 0, 0) 0 1 Evaluate) in *.
  assert (DP : dpos 1 p0 = 1). { unfold dpos. cbn [p_dt p_time p0]. rewrite Rminus_0_r, !Rabs_R1. apply Rmin_left. lra. }
  assert (ACT : active atol 1 1 p0). { split; [|rewrite DP; lra]. unfold left_to. cbn [p_time p0]. destruct (Rlt_dec 0 1); lra. }
  destruct (after_fields atol 1 1 p0 a) as (F1 & F2 & F3).
  assert (ST : p_state (after atol 1 1 p0 a) = Success).
  { destruct (after_state atol 1 1 p0 a) as [S|S]; [|exact S]. apply (after_active atol 1) in S; [|assumption|assumption]. destruct S as [S _]. exfalso. unfold left_to in S. rewrite F2, DA in S. cbn [p_time p0] in S. destruct (Rlt_dec 0 1); lra. }
  exists (after atol 1 1 p0 a). split; [rewrite F1; exact P|]. split; [rewrite F2, DA; cbn; ring|]. split; [rewrite F3; exact DN|].
  assert (PY : ends_with UV false atol 1 [1] [p0] [after atol 1 1 p0 a]).
  { exists 2%nat. intros lf rf L1 L2. destruct lf as [|[|lf]]; [lia|lia|]. cbn [windows]. unfold execute. change (map (fun p => set_state p Evaluate) [p0]) with [p0]. cbn [pass].
    rewrite (particle_active atol 1) by (try assumption; reflexivity). rewrite (loop_active atol 1 D1 UV 1 (S lf) p0 ACT eq_refl). rewrite DP.
    replace (dir 1 * 1) with 1 by (unfold dir; rewrite sgn_pos by lra; ring). rewrite C, ST.
    destruct rf; cbn [rounds existsb]; unfold in_error; rewrite ST; reflexivity. }
  intros jit. destruct jit; [|exact PY]. destruct PY as (m & PY). exists m. intros lf rf L1 L2. rewrite (windows_same atol 1); [apply PY; assumption|lra|rewrite Rabs_R1; lra|].
  repeat constructor. cbn. lra.
Qed.
