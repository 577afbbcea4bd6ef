(** Proofs for C51: the file of a run with an advection kernel. *)
From Coq Require Import Reals String List ZArith Lra Lia Psatz.
From Verif Require Import CollModel KLoopModel KLoopSpec SchedModel SchedSpec SplitSpec AdvModel AdvSpec AdvProofs AdvProofs2
  RunModel RunSpec RunProofs RunProofs2 RunProofs3 RunProofs4 RunProofs5 OutModel TrajModel TrajSpec TrajProofs TrajProofs6.
Import ListNotations.
Open Scope R_scope.

Section Follow.
Context {E H V : Type}.
Variable val : string -> pcl pos -> V.
Variables (tick : R) (code : pcl pos -> Z) (interp : handlers E pos H) (user : Z -> option H) (atol eps : Z) (a : args) (start dflt endt : Z).
Hypothesis OK : proper_run tick code interp atol eps a start dflt endt.
Variables (jit : bool) (lf rf fuel : nat) (e : E) (batch : Z -> list (pcl pos)) (next : Z -> option Z) (rs : option Z).
Variables (ps ps' : list (pcl pos)) (log : list (wcall pos)) (tr : list sev) (o : Z).
Hypotheses (PP : positive_periods a) (RA : reads_ahead (SchedModel.a_dt a) next) (AO : a_out a = true) (O : a_output a = Some o) (EO : (eps <= o)%Z).
Notation ids := (map (@q_id pos)).
Hypothesis ND : NoDup (ids ps ++ released batch tr).
Hypothesis PO : Forall (fun i => 0 <= i)%Z (ids ps ++ released batch tr).

Lemma file_follows : forall adv (P : Z -> R -> pos -> Prop),
  (forall i t h x y z b, P i t (x, y, z) -> 0 < dir a * h <= step_length tick a -> 0 <= dir a * (seconds tick endt - (t + h)) ->
     adv (mkA x y z t h None) = ADone b -> P i (t + h) (pos_of b)) ->
  holds_of (fun i t X => P i (seconds tick t) X) ps -> each_release a endt batch (fun p : pcl pos => P (q_id p) (seconds tick (q_time p)) (q_x p)) ->
  run_written jit (adv_kernel tick adv code) interp lf rf fuel atol user e batch next eps a start rs dflt ps = (ps', log, tr, SDone) ->
  exists states, each_state (fun p => P (q_id p) (seconds tick (q_time p)) (q_x p)) states /\
    forall close warn_tol vars once f, file_after close warn_tol val vars once log = Some f -> forall var, In var vars ->
      export_var false f var = Some (column (val var) states).
Proof.
  intros adv P ST F B R. destruct OK as (T0 & C & [RS1 RS2] & A0 & AD & M).
  eapply (file_keeps val jit (adv_kernel tick adv code) interp lf rf fuel atol user e batch next eps a start rs dflt endt (fun i t X => P i (seconds tick t) X));
    try eassumption; [apply adv_steady| |].
  - intros e0 p D EN G S. unfold adv_kernel in *. unfold seen_by_kernel in *. rewrite seconds_plus.
    destruct (q_x p) as [[x y] z]. destruct (adv (mkA x y z (seconds tick (q_time p)) (seconds tick (q_dt p)) None)) as [b|b|b] eqn:Q;
      cbn [snd k_res k_st k_x] in *; unfold signalled in S; cbn [k_res k_st] in S.
    + eapply ST; [exact G| | |exact Q]; unfold dir, step_length, seconds.
      * rewrite <- Rmult_assoc, (Rmult_comm _ tick), Rmult_assoc, <- mult_IZR. destruct D as [D1 D2]. split.
        -- apply Rmult_lt_0_compat; [exact T0|]. apply (IZR_lt 0). exact D1.
        -- apply Rmult_le_compat_l; [lra|]. apply IZR_le. exact D2.
      * rewrite <- Rmult_plus_distr_l, <- plus_IZR. rewrite <- Rmult_minus_distr_l, <- minus_IZR.
        rewrite <- Rmult_assoc, (Rmult_comm _ tick), Rmult_assoc, <- mult_IZR. apply Rmult_le_pos; [lra|]. apply (IZR_le 0). exact EN.
    + exfalso. change (op_Repeat =? st_Success)%Z with false in S. destruct S; discriminate.
    + exfalso. destruct (default_not_ok _ (C p)) as (N1 & N2 & _). destruct (code p =? st_Success)%Z eqn:Z1; [apply Z.eqb_eq in Z1; contradiction|].
      destruct S; contradiction.
  - split; [exact RS1|]. intros h e0 p e' p1 I G. destruct (RS2 _ _ _ _ _ I) as [-> ->]. exact G.
Qed.

Variable course_of : Z -> course.

Lemma file_rk4_exact : forall UV (cu cv : R -> list R), samples UV (fun t z _ _ => (poly (cu z) t, poly (cv z) t)) ->
  (forall z, (length (cu z) <= 4)%nat /\ (length (cv z) <= 4)%nat) ->
  (forall i until, drifts2 (fun t z _ _ => (poly (cu z) t, poly (cv z) t)) until (course_of i)) ->
  Forall (on_course tick course_of) ps -> each_release a endt batch (on_course tick course_of) ->
  run_written jit (adv_kernel tick (rk4 UV) code) interp lf rf fuel atol user e batch next eps a start rs dflt ps = (ps', log, tr, SDone) ->
  exists states, each_state (on_course tick course_of) states /\
    forall close warn_tol vars once f, file_after close warn_tol val vars once log = Some f -> forall var, In var vars ->
      export_var false f var = Some (column (val var) states).
Proof.
  intros UV cu cv S LE DR F B R.
  refine (file_follows (rk4 UV) (fun i t X => X = place (course_of i) t) _ F B R).
  intros i t h x y z b Q _ _ D. unfold place in Q. injection Q as -> -> ->. rewrite (rk2_done _ _ _ _ _ _ _ _ S D).
  pose proof (always_in _ _ t h (lift_drifts _ _ (DR i))) as DI. destruct (DR i 0) as [D0 _]. rewrite (D0 t).
  destruct (LE (c_depth (course_of i) (c_start (course_of i)))) as [L1 L2].
  unfold lift in *. cbn [fst snd] in *. set (z0 := c_depth (course_of i) (c_start (course_of i))) in *.
  pose proof (rk_poly (cu z0) (cv z0) [] (course_of i) t h L1 L2 ltac:(cbn; lia) DI) as Q. rewrite <- Q.
  unfold place. rewrite (D0 t). reflexivity.
Qed.

Lemma file_rk4_error : forall UV vel L Lt M, samples UV vel -> gentle2 vel L Lt M ->
  (forall i, drifts2 vel (seconds tick endt) (course_of i)) ->
  Forall (starts_on tick course_of) ps -> each_release a endt batch (starts_on tick course_of) ->
  run_written jit (adv_kernel tick (rk4 UV) code) interp lf rf fuel atol user e batch next eps a start rs dflt ps = (ps', log, tr, SDone) ->
  exists states, each_state (within tick course_of (growth (Lt + L * M) L (step_length tick a) 1)) states /\
    forall close warn_tol vars once f, file_after close warn_tol val vars once log = Some f -> forall var, In var vars ->
      export_var false f var = Some (column (val var) states).
Proof.
  intros UV vel L Lt M S G DR F B RUN. pose proof G as (L0 & T0 & M0 & _).
  assert (DN : SchedModel.a_dt a <> 0%Z) by (destruct OK as (_ & _ & _ & A0 & AD & _); lia).
  pose proof (dir_cases a DN) as SG. set (C := Lt + L * M). assert (C0 : 0 <= C) by (unfold C; nra).
  set (J := fun (i : Z) (t : R) (X : pos) => let c := course_of i in 0 <= dir a * (t - c_start c) /\ at_depth course_of i X /\
     near X (place c t) (growth C L (step_length tick a) 1 (Rabs (t - c_start c)))).
  assert (ST : forall p, starts_on tick course_of p -> J (q_id p) (seconds tick (q_time p)) (q_x p)).
  { intros p [S1 S2]. unfold J. cbv zeta. rewrite S2, S1. rewrite Rminus_eq_0, Rmult_0_r, Rabs_R0, growth_0.
    split; [lra|]. split; [reflexivity|apply near_refl; lra]. }
  destruct (file_follows (rk4 UV) J) as (states & W & FS); [| | |exact RUN|].
  - intros i t h x y z b (J1 & J2 & J3) [H1 H2] EN D. unfold at_depth in J2. cbn [snd] in J2.
    assert (DI : drifts_in (lift vel (c_depth (course_of i) (c_start (course_of i)))) (course_of i) t (t + h)).
    { eapply drifts_in_part; [exact SG|apply drifts2_lift; apply DR|exact J1|exact H1|exact EN]. }
    assert (N2 : near (pos_of b) (place (course_of i) (t + h)) (exp (L * Rabs h) * growth C L (step_length tick a) 1 (Rabs (t - c_start (course_of i))) + C * Rabs h ^ 2)).
    { rewrite (rk2_done _ _ _ _ _ _ _ _ S D). rewrite J2 at 1. apply (rk_step (lift vel _) L Lt M); [apply lift_gentle; exact G|exact DI|exact J3]. }
    unfold J. cbv zeta. set (c := course_of i) in *.
    split; [rewrite Rplus_comm; unfold Rminus in *; rewrite Rplus_assoc, Rmult_plus_distr_l; lra|].
    split; [rewrite (rk2_done _ _ _ _ _ _ _ _ S D); unfold at_depth; rewrite rk_depth; exact J2|].
    eapply near_le; [exact N2|].
    replace (Rabs (t + h - c_start c)) with (Rabs (t - c_start c) + Rabs h).
    2:{ unfold Rabs. destruct (Rcase_abs (t - c_start c)), (Rcase_abs h), (Rcase_abs (t + h - c_start c)); destruct SG as [SG | SG]; rewrite SG in *; lra. }
    apply growth_step; [exact C0|exact L0| |apply Rle_refl]. split; [apply Rabs_pos|].
    replace (Rabs h) with (dir a * h); [exact H2|]. unfold Rabs. destruct (Rcase_abs h); destruct SG as [SG | SG]; rewrite SG in *; lra.
  - eapply Forall_impl; [|exact F]. exact ST.
  - intros t TE. eapply Forall_impl; [|apply B; exact TE]. exact ST.
  - exists states. split; [|exact FS]. eapply Forall_impl; [|exact W]. intros row FR. eapply Forall_impl; [|exact FR].
    intros [p|] G2; [|exact I]. apply G2.
Qed.
End Follow.

Lemma written_runs : forall (E X H : Type) jit (K : E -> pcl X -> E * kres X) (interp : handlers E X H) lf rf fuel atol user e batch next eps a start rs dflt ps ps' log tr r,
  run_written jit K interp lf rf fuel atol user e batch next eps a start rs dflt ps = (ps', log, tr, r) ->
  run_set jit K interp lf rf fuel atol user (a_out a) e batch next eps a start rs dflt ps = (ps', tr, r).
Proof.
  intros E X H jit K interp lf rf fuel atol user e batch next eps a start rs dflt ps ps' log tr r R.
  unfold run_written in R. destruct (sexecute _ _ _ _ _ _ _ _ _ _ _) as [[w tr0] r0] eqn:S. inversion R; subst.
  unfold run_set. refine (sexecute_map fst _ _ _ _ _ _ _ _ _ _ _ _ _ _ _ _ _ _ _ _ _ _ S).
  - intros w0 t d. unfold wexec. rewrite mode_same. destruct (mode_wexecute _ _ _ _ _ _ _ _ _ _ _ _) as [[q l] []]; reflexivity.
  - reflexivity.
  - intros k w0 t d. destruct k; reflexivity.
  - reflexivity.
Qed.

(** * A case *)
Definition tx_args : args := mkArgs 10 (Some 35%Z) None None (Some 10%Z) None None true false.

Lemma tx_proper : proper_run 1 rx_code rx_interp 0 1 tx_args 0 0 35.
Proof.
  split; [lra|]. split; [intros p; cbn; tauto|]. split; [split; intros h e p e' p1 Q; discriminate|].
  split; [lia|]. split; [cbn; lia|]. unfold moves, requested, tx_args. cbn. repeat split; try lia; try discriminate. intros x [Q|Q]; [injection Q as <-; lia|discriminate].
Qed.

Lemma tx_written : forall adv jit X1 X2, (forall p, exists b, adv p = ADone b) ->
  exists ps' log tr, run_written jit (adv_kernel 1 adv rx_code) rx_interp 80 5 40 0 rx_user tt (fun _ => []) (fun _ => None) 1 tx_args 0 None 0 (rx_set X1 X2) = (ps', log, tr, SDone) /\
    map (@q_id pos) ps' = [1%Z; 2%Z].
Proof.
  intros adv jit X1 X2 T.
  destruct (adv_arrives unit unit 1 adv rx_code rx_interp rx_user 0 jit true tt (fun _ => []) (fun _ => None) 1 tx_args 0 None 0 35 (rx_set X1 X2) 80 5 40) as (ps' & tr & R1 & R2 & R3).
  - exact tx_proper. - exact T. - unfold positive_periods, tx_args; cbn; lia. - intros t n Q; discriminate. - intros t; constructor.
  - repeat constructor; cbn; lia. - cbn; lia. - cbn; lia.
  - destruct (run_written jit (adv_kernel 1 adv rx_code) rx_interp 80 5 40 0 rx_user tt (fun _ => []) (fun _ => None) 1 tx_args 0 None 0 (rx_set X1 X2)) as [[[p l] t] s] eqn:W.
    pose proof W as Q. apply written_runs in Q. change (a_out tx_args) with true in Q. rewrite R1 in Q. inversion Q; subst.
    eexists _, _, _. split; [reflexivity|]. rewrite R3. clear. induction (release_times t); [reflexivity|assumption].
Qed.
