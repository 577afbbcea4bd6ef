(** Proofs for C48: whole runs. *)
From Coq Require Import Reals List ZArith Lra Lia Psatz.
From Verif Require Import CollModel KLoopModel KLoopSpec SchedModel SchedSpec SplitSpec AdvModel AdvSpec AdvProofs AdvProofs2
  RunModel RunSpec RunProofs RunProofs2 RunProofs3.
Import ListNotations.
Open Scope R_scope.

Lemma default_not_ok : forall c, In c default_codes -> c <> st_Success /\ c <> op_Delete /\ c <> op_Repeat.
Proof. intros c. unfold default_codes. cbn [In]. intros [<-|[<-|[<-|[<-|[<-|[]]]]]]; repeat split; discriminate. Qed.

Lemma adv_steady : forall E tick adv code, steady_kernel (adv_kernel (E := E) tick adv code).
Proof. intros E tick adv code e p. unfold adv_kernel. destruct (adv (seen_by_kernel tick p)); repeat split. Qed.

Lemma adv_plain : forall E tick adv code, (forall p, exists b, adv p = ADone b) -> plain_kernel (adv_kernel (E := E) tick adv code).
Proof. intros E tick adv code T e p. unfold adv_kernel. destruct (T (seen_by_kernel tick p)) as [b ->]. repeat split. Qed.

Lemma seconds_plus tick t h : seconds tick (t + h) = seconds tick t + seconds tick h.
Proof. unfold seconds. rewrite plus_IZR. ring. Qed.

Definition dir (a : args) : R := IZR (Z.sgn (SchedModel.a_dt a)).

Lemma dir_cases a : SchedModel.a_dt a <> 0%Z -> dir a = 1 \/ dir a = -1.
Proof. unfold dir. destruct (SchedModel.a_dt a); [lia|left|right]; reflexivity. Qed.

Section Follow.
Context {E H : Type}.
Variables (tick : R) (adv : apart -> aout) (code : pcl pos -> Z) (interp : handlers E pos H) (user : Z -> option H) (atol eps : Z) (a : args) (start dflt endt : Z).
Hypothesis OK : proper_run tick code interp atol eps a start dflt endt.
Variable P : Z -> R -> pos -> Prop.
Hypothesis ST : forall i t h x y z b, P i t (x, y, z) -> 0 < dir a * h <= step_length tick a -> 0 <= dir a * (seconds tick endt - (t + h)) ->
  adv (mkA x y z t h None) = ADone b -> P i (t + h) (pos_of b).

Lemma follows : forall jit out e batch next rs ps lf rf fuel ps' tr r,
  holds_of (fun i t X => P i (seconds tick t) X) ps -> each_release a endt batch (fun p : pcl pos => P (q_id p) (seconds tick (q_time p)) (q_x p)) ->
  run_set jit (adv_kernel tick adv code) interp lf rf fuel atol user out e batch next eps a start rs dflt ps = (ps', tr, r) ->
  holds_of (fun i t X => P i (seconds tick t) X) ps'.
Proof.
  intros jit out e batch next rs ps lf rf fuel ps' tr r F B R. destruct OK as (T0 & C & [RS1 RS2] & A0 & AD & M).
  eapply (run_holds E pos H (adv_kernel tick adv code) interp user atol (fun i t X => P i (seconds tick t) X)); try eassumption; [apply adv_steady| |].
  - intros e0 p D EN G S. unfold adv_kernel in *. unfold seen_by_kernel in *. rewrite seconds_plus.
    destruct (q_x p) as [[x y] z]. destruct (adv (mkA x y z (seconds tick (q_time p)) (seconds tick (q_dt p)) None)) as [b|b|b] eqn:Q;
      cbn [snd k_res k_st k_x] in *; unfold signalled in S; cbn [k_res k_st] in S.
    + eapply ST; [exact G| | |exact Q]; unfold dir, step_length, seconds.
      * rewrite <- Rmult_assoc, (Rmult_comm _ tick), Rmult_assoc, <- mult_IZR. destruct D as [D1 D2]. split.
        -- apply Rmult_lt_0_compat; [exact T0|]. apply (IZR_lt 0). exact D1.
        -- apply Rmult_le_compat_l; [lra|]. apply IZR_le. exact D2.
      * rewrite <- Rmult_plus_distr_l, <- plus_IZR. rewrite <- Rmult_minus_distr_l, <- minus_IZR.
        rewrite <- Rmult_assoc, (Rmult_comm _ tick), Rmult_assoc, <- mult_IZR. apply Rmult_le_pos; [lra|]. apply (IZR_le 0). exact EN.
    + exfalso. change (op_Repeat =? st_Success)%Z with false in S. destruct S; discriminate.
    + exfalso. destruct (default_not_ok _ (C p)) as (N1 & N2 & _). destruct (code p =? st_Success)%Z eqn:Z1; [apply Z.eqb_eq in Z1; contradiction|].
      destruct S; contradiction.
  - split; [exact RS1|]. intros h e0 p e' p1 I G. destruct (RS2 _ _ _ _ _ I) as [-> ->]. exact G.
Qed.
End Follow.

(** * Arrival *)

Lemma adv_arrives : forall (E H : Type) tick adv code (interp : handlers E pos H) user atol jit out e batch next eps a start rs dflt endt ps lf rf fuel,
  proper_run tick code interp atol eps a start dflt endt -> (forall p, exists b, adv p = ADone b) ->
  positive_periods a -> reads_ahead (SchedModel.a_dt a) next -> batch_in_step batch ->
  Forall (fun p => (Z.to_nat (Z.abs (endt - q_time p) + Z.abs (endt - start)) < lf)%nat) ps ->
  (Z.to_nat (2 * Z.abs (endt - start)) < lf)%nat -> (Z.to_nat (Z.abs (endt - start)) < fuel)%nat ->
  exists ps' tr,
    run_set jit (adv_kernel tick adv code) interp lf rf fuel atol user out e batch next eps a start rs dflt ps = (ps', tr, SDone) /\
    Forall (arrived atol (SchedModel.a_dt a) endt) ps' /\
    map (@q_id pos) ps' = map (@q_id pos) ps ++ flat_map (fun t => map (@q_id pos) (batch t)) (release_times tr).
Proof.
  intros E H tick adv code interp user atol jit out e batch next eps a start rs dflt endt ps lf rf fuel
    (T0 & C & [RS1 RS2] & A0 & AD & M) T PP RA BT FU L2 LF.
  eapply run_arrives_all; try eassumption; [apply adv_plain; exact T|].
  intros h e0 p e' p1 I N. destruct (RS1 _ _ _ _ _ I) as [_ ->]. exact N.
Qed.

(** Nobody goes beyond the end. *)
Lemma adv_stays_in_time : forall (E H : Type) tick adv code (interp : handlers E pos H) user atol jit out e batch next eps a start rs dflt endt ps lf rf fuel ps' tr r,
  proper_run tick code interp atol eps a start dflt endt ->
  Forall (fun p => 0 <= Z.sgn (SchedModel.a_dt a) * (endt - q_time p))%Z ps ->
  each_release a endt batch (fun p : pcl pos => 0 <= Z.sgn (SchedModel.a_dt a) * (endt - q_time p))%Z ->
  run_set jit (adv_kernel tick adv code) interp lf rf fuel atol user out e batch next eps a start rs dflt ps = (ps', tr, r) ->
  Forall (fun p => 0 <= Z.sgn (SchedModel.a_dt a) * (endt - q_time p))%Z ps'.
Proof.
  intros E H tick adv code interp user atol jit out e batch next eps a start rs dflt endt ps lf rf fuel ps' tr r
    (T0 & C & [RS1 RS2] & A0 & AD & M) F B R.
  eapply (run_holds E pos H (adv_kernel tick adv code) interp user atol (fun _ t _ => 0 <= Z.sgn (SchedModel.a_dt a) * (endt - t))%Z); try eassumption; [apply adv_steady| |].
  - intros e0 p D EN _ _. exact EN.
  - split; [exact RS1|]. intros h e0 p e' p1 I G. destruct (RS2 _ _ _ _ _ I) as [-> _]. exact G.
Qed.

(** * Exact runs *)

Definition always (vel : R -> R -> R -> R -> R * R * R) (c : course) : Prop := forall until, drifts vel until c.

Lemma always_in vel c t h : (forall until, drifts vel until c) -> drifts_in vel c t (t + h).
Proof.
  intros A s Hs. assert (F : from_to (c_start c) s s) by apply btw_r. exact (A s s F).
Qed.

Lemma lift_drifts vel c : (forall until, drifts2 vel until c) -> forall until, drifts (lift vel (c_depth c (c_start c))) until c.
Proof.
  intros A until s Hs. destruct (A until) as [D0 DR]. specialize (DR s Hs). unfold lift. rewrite (D0 s) in DR.
  destruct (vel s (c_depth c (c_start c)) (c_lat c s) (c_lon c s)) as [u v]. cbn [fst snd]. destruct DR as [DX DY]. split; [exact DX|]. split; [exact DY|].
  apply (deriv_ext (fun _ => c_depth c (c_start c))); [intros r; symmetry; apply D0|]. apply derivable_pt_lim_const.
Qed.

Lemma drifts_in_part vel c until t h sg : sg = 1 \/ sg = -1 -> drifts vel until c -> 0 <= sg * (t - c_start c) -> 0 < sg * h -> 0 <= sg * (until - (t + h)) ->
  drifts_in vel c t (t + h).
Proof.
  intros SG DR A B C s Hs. apply DR. revert Hs. unfold btw, from_to, Rmin, Rmax.
  destruct (Rle_dec t (t + h)), (Rle_dec (c_start c) until); destruct SG as [-> | ->]; lra.
Qed.

Section Exact.
Context {E H : Type}.
Variables (tick : R) (code : pcl pos -> Z) (interp : handlers E pos H) (user : Z -> option H) (atol eps : Z) (a : args) (start dflt endt : Z).
Hypothesis OK : proper_run tick code interp atol eps a start dflt endt.
Variable course_of : Z -> course.

Lemma exact_of adv : (forall c t h b, (exists i, c = course_of i) -> adv (mkA (c_lon c t) (c_lat c t) (c_depth c t) t h None) = ADone b -> pos_of b = place c (t + h)) ->
  forall jit out e batch next rs ps lf rf fuel ps' tr r,
  Forall (on_course tick course_of) ps -> each_release a endt batch (on_course tick course_of) ->
  run_set jit (adv_kernel tick adv code) interp lf rf fuel atol user out e batch next eps a start rs dflt ps = (ps', tr, r) ->
  Forall (on_course tick course_of) ps'.
Proof.
  intros ST jit out e batch next rs ps lf rf fuel ps' tr r F B R.
  refine (follows tick adv code interp user atol eps a start dflt endt OK (fun i t X => X = place (course_of i) t) _ jit out e batch next rs ps lf rf fuel ps' tr r F B R).
  intros i t h x y z b Q _ _ D. unfold place in Q. injection Q as -> -> ->. apply (ST (course_of i) t h b); [exists i; reflexivity|exact D].
Qed.

Lemma euler_exact : forall UV (u v : R -> R), samples UV (fun _ z _ _ => (u z, v z)) ->
  (forall i until, drifts2 (fun _ z _ _ => (u z, v z)) until (course_of i)) ->
  forall jit out e batch next rs ps lf rf fuel ps' tr r,
  Forall (on_course tick course_of) ps -> each_release a endt batch (on_course tick course_of) ->
  run_set jit (adv_kernel tick (ee UV) code) interp lf rf fuel atol user out e batch next eps a start rs dflt ps = (ps', tr, r) ->
  Forall (on_course tick course_of) ps'.
Proof.
  intros UV u v S DR. apply exact_of. intros c t h b [i ->] D. rewrite (ee_done _ _ _ _ _ _ _ _ S D).
  pose proof (always_in _ _ t h (lift_drifts _ _ (DR i))) as DI. destruct (DR i 0) as [D0 _]. rewrite (D0 t).
  unfold lift in *. cbn [fst snd] in *. rewrite <- (eu_uniform _ _ _ _ t h DI). unfold place. rewrite (D0 t). reflexivity.
Qed.

Lemma rk4_exact : forall UV (cu cv : R -> list R), samples UV (fun t z _ _ => (poly (cu z) t, poly (cv z) t)) ->
  (forall z, (length (cu z) <= 4)%nat /\ (length (cv z) <= 4)%nat) ->
  (forall i until, drifts2 (fun t z _ _ => (poly (cu z) t, poly (cv z) t)) until (course_of i)) ->
  forall jit out e batch next rs ps lf rf fuel ps' tr r,
  Forall (on_course tick course_of) ps -> each_release a endt batch (on_course tick course_of) ->
  run_set jit (adv_kernel tick (rk4 UV) code) interp lf rf fuel atol user out e batch next eps a start rs dflt ps = (ps', tr, r) ->
  Forall (on_course tick course_of) ps'.
Proof.
  intros UV cu cv S LE DR. apply exact_of. intros c t h b [i ->] D. rewrite (rk2_done _ _ _ _ _ _ _ _ S D).
  pose proof (always_in _ _ t h (lift_drifts _ _ (DR i))) as DI. destruct (DR i 0) as [D0 _]. rewrite (D0 t).
  destruct (LE (c_depth (course_of i) (c_start (course_of i)))) as [L1 L2].
  unfold lift in *. cbn [fst snd] in *. set (z0 := c_depth (course_of i) (c_start (course_of i))) in *.
  pose proof (rk_poly (cu z0) (cv z0) [] (course_of i) t h L1 L2 ltac:(cbn; lia) DI) as Q. rewrite <- Q.
  unfold place. rewrite (D0 t). reflexivity.
Qed.

Lemma rk4_3d_exact : forall UVW (cu cv cw : list R), samples UVW (fun t _ _ _ => (poly cu t, poly cv t, poly cw t)) ->
  (length cu <= 4)%nat -> (length cv <= 4)%nat -> (length cw <= 4)%nat ->
  (forall i until, drifts (fun t _ _ _ => (poly cu t, poly cv t, poly cw t)) until (course_of i)) ->
  forall jit out e batch next rs ps lf rf fuel ps' tr r,
  Forall (on_course tick course_of) ps -> each_release a endt batch (on_course tick course_of) ->
  run_set jit (adv_kernel tick (rk4_3d UVW) code) interp lf rf fuel atol user out e batch next eps a start rs dflt ps = (ps', tr, r) ->
  Forall (on_course tick course_of) ps'.
Proof.
  intros UVW cu cv cw S L1 L2 L3 DR. apply exact_of. intros c t h b [i ->] D. rewrite (rk3_done _ _ _ _ _ _ _ _ S D).
  apply (rk_poly cu cv cw (course_of i) t h L1 L2 L3). apply always_in. apply DR.
Qed.

End Exact.

(** * Runs with errors *)

Section Errors.
Context {E H : Type}.
Variables (tick : R) (code : pcl pos -> Z) (interp : handlers E pos H) (user : Z -> option H) (atol eps : Z) (a : args) (start dflt endt : Z).
Hypothesis OK : proper_run tick code interp atol eps a start dflt endt.
Variable course_of : Z -> course.

Lemma dt_nonzero : SchedModel.a_dt a <> 0%Z.
Proof. destruct OK as (_ & _ & _ & A0 & AD & _). lia. Qed.

Section Generic.
Variables (adv : apart -> aout) (C L : R) (q : nat) (Q : Z -> pos -> Prop).
Hypotheses (C0 : 0 <= C) (L0 : 0 < L).
Hypothesis STEP : forall i t h x y z b d, let c := course_of i in
  0 <= dir a * (t - c_start c) -> 0 < dir a * h -> 0 <= dir a * (seconds tick endt - (t + h)) ->
  adv (mkA x y z t h None) = ADone b -> Q i (x, y, z) -> near (x, y, z) (place c t) d ->
  Q i (pos_of b) /\ near (pos_of b) (place c (t + h)) (exp (L * Rabs h) * d + C * Rabs h ^ S q).
Hypothesis START : forall i, Q i (place (course_of i) (c_start (course_of i))).

Lemma errors_of : forall jit out e batch next rs ps lf rf fuel ps' tr r,
  Forall (starts_on tick course_of) ps -> each_release a endt batch (starts_on tick course_of) ->
  run_set jit (adv_kernel tick adv code) interp lf rf fuel atol user out e batch next eps a start rs dflt ps = (ps', tr, r) ->
  Forall (within tick course_of (growth C L (step_length tick a) q)) ps'.
Proof.
  intros jit out e batch next rs ps lf rf fuel ps' tr r F B RUN.
  pose proof (dir_cases a dt_nonzero) as SG.
  set (J := fun (i : Z) (t : R) (X : pos) => let c := course_of i in 0 <= dir a * (t - c_start c) /\ Q i X /\
     near X (place c t) (growth C L (step_length tick a) q (Rabs (t - c_start c)))).
  assert (ST : forall p, starts_on tick course_of p -> J (q_id p) (seconds tick (q_time p)) (q_x p)).
  { intros p [S1 S2]. unfold J. cbv zeta. rewrite S2, S1. rewrite Rminus_eq_0, Rmult_0_r, Rabs_R0, growth_0.
    split; [lra|]. split; [apply START|apply near_refl; lra]. }
  assert (G : holds_of (fun i t X => J i (seconds tick t) X) ps').
  { refine (follows tick adv code interp user atol eps a start dflt endt OK J _ jit out e batch next rs ps lf rf fuel ps' tr r _ _ RUN).
    - intros i t h x y z b (J1 & J2 & J3) [H1 H2] EN D.
      destruct (STEP i t h x y z b _ J1 H1 EN D J2 J3) as [N1 N2]. unfold J. cbv zeta. set (c := course_of i) in *.
      split; [rewrite Rplus_comm; unfold Rminus in *; rewrite Rplus_assoc, Rmult_plus_distr_l; lra|]. split; [exact N1|].
      eapply near_le; [exact N2|].
      replace (Rabs (t + h - c_start c)) with (Rabs (t - c_start c) + Rabs h).
      2:{ unfold Rabs. destruct (Rcase_abs (t - c_start c)), (Rcase_abs h), (Rcase_abs (t + h - c_start c)); destruct SG as [SG | SG]; rewrite SG in *; lra. }
      apply growth_step; [exact C0|exact L0| |apply Rle_refl]. split; [apply Rabs_pos|].
      replace (Rabs h) with (dir a * h); [exact H2|]. unfold Rabs. destruct (Rcase_abs h); destruct SG as [SG | SG]; rewrite SG in *; lra.
    - eapply Forall_impl; [|exact F]. exact ST.
    - intros t TE. eapply Forall_impl; [|apply B; exact TE]. exact ST. }
  eapply Forall_impl; [|exact G]. intros p (_ & _ & N). exact N.
Qed.
End Generic.

Lemma drifts2_lift vel until c : drifts2 vel until c -> drifts (lift vel (c_depth c (c_start c))) until c.
Proof.
  intros [D0 DR] s Hs. specialize (DR s Hs). unfold lift. rewrite (D0 s) in DR.
  destruct (vel s (c_depth c (c_start c)) (c_lat c s) (c_lon c s)) as [u v]. cbn [fst snd]. destruct DR as [DX DY]. split; [exact DX|]. split; [exact DY|].
  apply (deriv_ext (fun _ => c_depth c (c_start c))); [intros r; symmetry; apply D0|]. apply derivable_pt_lim_const.
Qed.

Lemma eu_depth vel z0 t h x y z : snd (eu (lift vel z0) t h (x, y, z)) = z.
Proof. unfold eu, vat, lift, vadd. cbn [snd]. ring. Qed.
Lemma rk_depth vel z0 t h x y z : snd (rk (lift vel z0) t h (x, y, z)) = z.
Proof.
  rewrite rk_is_rk3. cbv zeta. cbn [snd]. unfold rk3_k1, rk3_k2, rk3_k3, rk3_k4, lift, wsum. cbn [snd]. field.
Qed.

Definition at_depth (i : Z) (X : pos) : Prop := snd X = c_depth (course_of i) (c_start (course_of i)).

Lemma euler_error : forall UV vel L Lt M, samples UV vel -> gentle2 vel L Lt M ->
  (forall i, drifts2 vel (seconds tick endt) (course_of i)) ->
  forall jit out e batch next rs ps lf rf fuel ps' tr r,
  Forall (starts_on tick course_of) ps -> each_release a endt batch (starts_on tick course_of) ->
  run_set jit (adv_kernel tick (ee UV) code) interp lf rf fuel atol user out e batch next eps a start rs dflt ps = (ps', tr, r) ->
  Forall (within tick course_of (growth ((Lt + L * M) / 2) L (step_length tick a) 1)) ps'.
Proof.
  intros UV vel L Lt M S G DR. pose proof G as (L0 & T0 & M0 & _).
  apply (errors_of _ _ _ _ at_depth); [nra|exact L0| |reflexivity].
  intros i t h x y z b d c A B EN D Qz N. unfold at_depth in Qz. cbn [snd] in Qz.
  rewrite (ee_done _ _ _ _ _ _ _ _ S D). split; [unfold at_depth; rewrite eu_depth; exact Qz|].
  rewrite Qz at 1. apply (eu_step (lift vel _) L Lt M); [apply lift_gentle; exact G| |exact N].
  eapply drifts_in_part; [apply dir_cases, dt_nonzero|apply drifts2_lift; apply DR|exact A|exact B|exact EN].
Qed.

Lemma rk4_error : forall UV vel L Lt M, samples UV vel -> gentle2 vel L Lt M ->
  (forall i, drifts2 vel (seconds tick endt) (course_of i)) ->
  forall jit out e batch next rs ps lf rf fuel ps' tr r,
  Forall (starts_on tick course_of) ps -> each_release a endt batch (starts_on tick course_of) ->
  run_set jit (adv_kernel tick (rk4 UV) code) interp lf rf fuel atol user out e batch next eps a start rs dflt ps = (ps', tr, r) ->
  Forall (within tick course_of (growth (Lt + L * M) L (step_length tick a) 1)) ps'.
Proof.
  intros UV vel L Lt M S G DR. pose proof G as (L0 & T0 & M0 & _).
  apply (errors_of _ _ _ _ at_depth); [nra|exact L0| |reflexivity].
  intros i t h x y z b d c A B EN D Qz N. unfold at_depth in Qz. cbn [snd] in Qz.
  rewrite (rk2_done _ _ _ _ _ _ _ _ S D). split; [unfold at_depth; rewrite rk_depth; exact Qz|].
  rewrite Qz at 1. apply (rk_step (lift vel _) L Lt M); [apply lift_gentle; exact G| |exact N].
  eapply drifts_in_part; [apply dir_cases, dt_nonzero|apply drifts2_lift; apply DR|exact A|exact B|exact EN].
Qed.

Lemma rk4_3d_error : forall UVW vel L Lt M, samples UVW vel -> gentle vel L Lt M ->
  (forall i, drifts vel (seconds tick endt) (course_of i)) ->
  forall jit out e batch next rs ps lf rf fuel ps' tr r,
  Forall (starts_on tick course_of) ps -> each_release a endt batch (starts_on tick course_of) ->
  run_set jit (adv_kernel tick (rk4_3d UVW) code) interp lf rf fuel atol user out e batch next eps a start rs dflt ps = (ps', tr, r) ->
  Forall (within tick course_of (growth (Lt + L * M) L (step_length tick a) 1)) ps'.
Proof.
  intros UVW vel L Lt M S G DR. pose proof G as (L0 & T0 & M0 & _).
  apply (errors_of _ _ _ _ (fun _ _ => True)); [nra|exact L0| |auto].
  intros i t h x y z b d c A B EN D _ N. split; [exact I|].
  rewrite (rk3_done _ _ _ _ _ _ _ _ S D). apply (rk_step vel L Lt M); [exact G| |exact N].
  eapply drifts_in_part; [apply dir_cases, dt_nonzero|apply DR|exact A|exact B|exact EN].
Qed.

Lemma rk4_3d_linear : forall UVW A lam B, samples UVW (lin3_vel A) -> stretches3 A lam -> 0 < lam -> 0 <= B ->
  (forall i, drifts (lin3_vel A) (seconds tick endt) (course_of i)) ->
  (forall i s, let c := course_of i in from_to (c_start c) (seconds tick endt) s ->
     near (lin3_deriv A 5 (c_lon c s) (c_lat c s) (c_depth c s)) (0, 0, 0) B) ->
  forall jit out e batch next rs ps lf rf fuel ps' tr r,
  Forall (starts_on tick course_of) ps -> each_release a endt batch (starts_on tick course_of) ->
  run_set jit (adv_kernel tick (rk4_3d UVW) code) interp lf rf fuel atol user out e batch next eps a start rs dflt ps = (ps', tr, r) ->
  Forall (within tick course_of (growth (B / 120) lam (step_length tick a) 4)) ps'.
Proof.
  intros UVW A lam B S ST L0 B0 DR DB.
  apply (errors_of _ _ _ _ (fun _ _ => True)); [lra|exact L0| |auto].
  intros i t h x y z b d c A1 A2 EN D _ N. split; [exact I|].
  rewrite (rk3_done _ _ _ _ _ _ _ _ S D). apply rk_lin_step; [exact ST| | |exact N].
  - eapply drifts_in_part; [apply dir_cases, dt_nonzero|apply DR|exact A1|exact A2|exact EN].
  - intros s Hs. apply DB. revert Hs. pose proof (dir_cases a dt_nonzero) as SG. unfold btw, from_to, Rmin, Rmax. fold c.
    destruct (Rle_dec t (t + h)), (Rle_dec (c_start c) (seconds tick endt)); destruct SG as [SG | SG]; rewrite SG in *; lra.
Qed.

Definition flat (A : lin2) : lin3 := mkLin3 (l_a A, l_b A, 0, l_e A) (l_c A, l_d A, 0, l_f A) (0, 0, 0, 0).

Lemma flat_vel A z0 t z y x : lift (fun t _ y x => lin_vel A t y x) z0 t z y x = lin3_vel (flat A) t z y x.
Proof. unfold lift, lin_vel, lin3_vel, flat, row3, cst3. cbn [fst snd m_x m_y m_z]. apply pos_eq; ring. Qed.

Lemma flat_deriv A k x y z : lin3_deriv (flat A) (S k) x y z = (fst (lin_deriv A (S k) x y), snd (lin_deriv A (S k) x y), 0).
Proof.
  induction k as [|k IH].
  - cbn [lin3_deriv lin_deriv fst snd]. rewrite <- (flat_vel A 0). reflexivity.
  - rewrite lin3_SS, lin_SS, IH. cbv zeta. cbn [fst snd]. unfold flat, row3. cbn [m_x m_y m_z]. apply pos_eq; ring.
Qed.

Lemma rk_ext vel vel' : (forall t z y x, vel t z y x = vel' t z y x) -> forall t h X, rk vel t h X = rk vel' t h X.
Proof.
  intros Q t h X. unfold rk. assert (V : forall s Y, vat vel s Y = vat vel' s Y) by (intros s [[u v] w]; apply Q).
  assert (Q1 : s1 vel t h X = s1 vel' t h X) by (apply V).
  assert (Q2 : s2 vel t h X = s2 vel' t h X) by (unfold s2; rewrite Q1; apply V).
  assert (Q3 : s3 vel t h X = s3 vel' t h X) by (unfold s3; rewrite Q2; apply V).
  assert (Q4 : s4 vel t h X = s4 vel' t h X) by (unfold s4; rewrite Q3; apply V).
  rewrite Q1, Q2, Q3, Q4. reflexivity.
Qed.

Lemma rk4_linear_run : forall UV A lam B, samples UV (fun t _ y x => lin_vel A t y x) -> stretches2 A lam -> 0 < lam -> 0 <= B ->
  (forall i, drifts2 (fun t _ y x => lin_vel A t y x) (seconds tick endt) (course_of i)) ->
  (forall i s, let c := course_of i in from_to (c_start c) (seconds tick endt) s ->
     near2 (lin_deriv A 5 (c_lon c s) (c_lat c s)) (0, 0) B) ->
  forall jit out e batch next rs ps lf rf fuel ps' tr r,
  Forall (starts_on tick course_of) ps -> each_release a endt batch (starts_on tick course_of) ->
  run_set jit (adv_kernel tick (rk4 UV) code) interp lf rf fuel atol user out e batch next eps a start rs dflt ps = (ps', tr, r) ->
  Forall (within tick course_of (growth (B / 120) lam (step_length tick a) 4)) ps'.
Proof.
  intros UV A lam B S [ST1 ST2] L0 B0 DR DB.
  apply (errors_of _ _ _ _ at_depth); [lra|exact L0| |reflexivity].
  intros i t h x y z b d c A1 A2 EN D Qz N. unfold at_depth in Qz. cbn [snd] in Qz.
  rewrite (rk2_done _ _ _ _ _ _ _ _ S D). split; [unfold at_depth; rewrite rk_depth; exact Qz|].
  rewrite (rk_ext _ _ (flat_vel A z)). apply rk_lin_step; [| | |exact N].
  - unfold stretches3, flat. cbn [m_x m_y m_z]. repeat (apply Forall_cons; [rewrite ?Rabs_R0; lra|]). apply Forall_nil.
  - intros s Hs. assert (DI : drifts_in (lift (fun t _ y x => lin_vel A t y x) (c_depth c (c_start c))) c t (t + h)).
    { eapply drifts_in_part; [apply dir_cases, dt_nonzero|apply drifts2_lift; apply DR|exact A1|exact A2|exact EN]. }
    specialize (DI s Hs). unfold vat, place in *. rewrite flat_vel in DI. exact DI.
  - intros s Hs. rewrite flat_deriv. assert (FT : from_to (c_start c) (seconds tick endt) s).
    { revert Hs. pose proof (dir_cases a dt_nonzero) as SG. unfold btw, from_to, Rmin, Rmax.
      destruct (Rle_dec t (t + h)), (Rle_dec (c_start c) (seconds tick endt)); destruct SG as [SG | SG]; rewrite SG in *; lra. }
    destruct (DB i s FT) as [D1 D2]. fold c in D1, D2. unfold near. split; [exact D1|]. split; [exact D2|]. rewrite Rminus_0_r, Rabs_R0. exact B0.
Qed.
End Errors.

(** * Small steps *)

Lemma growth_mono C L H q s s' : 0 <= C -> 0 < L -> 0 <= H -> s <= s' -> growth C L H q s <= growth C L H q s'.
Proof.
  intros C0 L0 H0 S. unfold growth. apply Rmult_le_compat_l.
  - apply Rmult_le_pos; [apply Rmult_le_pos; [exact C0|apply pow_le; exact H0]|apply Rlt_le, Rinv_0_lt_compat; exact L0].
  - assert (exp (L * s) <= exp (L * s')); [|lra]. destruct (Req_dec s s') as [-> | N]; [lra|]. apply Rlt_le, exp_increasing. apply Rmult_lt_compat_l; lra.
Qed.

Lemma growth_small C L T eps : 0 <= C -> 0 < L -> 0 <= T -> 0 < eps ->
  exists H0, 0 < H0 /\ forall H s, 0 <= H <= H0 -> s <= T -> growth C L H 1 s <= eps.
Proof.
  intros C0 L0 T0 E0. set (K := C / L * (exp (L * T) - 1)).
  assert (K0 : 0 <= K).
  { unfold K. apply Rmult_le_pos; [apply Rmult_le_pos; [exact C0|apply Rlt_le, Rinv_0_lt_compat; exact L0]|]. pose proof (exp_lin (L * T)). nra. }
  exists (eps / (K + 1)). split; [apply Rdiv_lt_0_compat; lra|]. intros H s [H1 H2] S.
  eapply Rle_trans; [apply (growth_mono _ _ _ _ s T); assumption|].
  replace (growth C L H 1 T) with (K * H) by (unfold growth, K; field; lra).
  apply Rle_trans with (K * (eps / (K + 1))); [apply Rmult_le_compat_l; assumption|].
  apply Rle_trans with ((K + 1) * (eps / (K + 1))); [|apply Req_le; field; lra].
  apply Rmult_le_compat_r; [|lra]. apply Rlt_le, Rdiv_lt_0_compat; lra.
Qed.
