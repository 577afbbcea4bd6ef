(** What every step keeps, a run keeps. *)
From Coq Require Import List ZArith Bool Lia ZifyBool.
From Verif Require Import CollModel KLoopModel KLoopSpec KLoopProofs KLoopStepProofs KLoopSetProofs SchedModel SchedSpec SchedProofs SplitSpec SplitProofs3 RunSpec.
Import ListNotations.
Open Scope Z_scope.

Section Keeps.
Context {E X H : Type}.
Notation pcl := (pcl X).
Notation ev := (ev H).
Variable K : E -> pcl -> E * kres X.
Variable interp : handlers E X H.
Variables (dt atol fin : Z) (J : Z -> Z -> X -> Prop).
Hypothesis SK : steady_kernel K.
Hypothesis KJ : step_keeps K dt fin J.
Hypothesis RJ : recovery_keeps interp J.
Hypothesis A0 : 0 <= atol.
Hypothesis AD : atol < Z.abs dt.

Definition good (p : pcl) : Prop := J (q_id p) (q_time p) (q_x p) /\ atol < Z.abs (q_dt p) <= Z.abs dt.

Lemma good_st : forall p s, good p -> good (set_st p s).
Proof. intros p s G. exact G. Qed.

Lemma sgn_dt : Z.sgn dt = 1 /\ 0 < dt \/ Z.sgn dt = -1 /\ dt < 0.
Proof. lia. Qed.

Lemma csgn_dt : csgn dt = Z.sgn dt.
Proof. unfold csgn. destruct (0 <? dt) eqn:B; lia. Qed.

Lemma outcome_signal : forall same prev h (r : kres X), accepted (outcome same prev h r) = true ->
  signalled prev r = st_Success \/ signalled prev r = op_Delete.
Proof.
  intros same prev h r. unfold outcome.
  destruct ((signalled prev r =? st_Success) && negb (same (k_dt r) h)) eqn:B; intros A.
  - exfalso. revert A. unfold accepted, op_Repeat, st_Success, op_Delete. lia.
  - apply accepted_cases in A. exact A.
Qed.

Lemma after_ok_good : forall sg endt e p h c nd, nd = None -> good p -> atol < Z.sgn dt * h <= Z.abs (q_dt p) -> 0 <= Z.sgn dt * (fin - (q_time p + h)) ->
  signalled (q_st p) (snd (K e (at_dt p h))) = st_Success \/ signalled (q_st p) (snd (K e (at_dt p h))) = op_Delete ->
  good (fst (after_ok sg atol dt endt p c nd (snd (K e (at_dt p h))))).
Proof.
  intros sg endt e p h c nd -> [G D] B FE S. destruct (SK e (at_dt p h)) as (T & DT & _). unfold after_ok, good.
  cbn [fst q_id q_time q_x q_dt]. rewrite T, DT. cbn [at_dt q_time q_dt]. split; [|destruct sgn_dt; nia].
  apply (KJ e (at_dt p h)); cbn [at_dt q_dt q_id q_time q_x q_st]; [lia|exact FE|exact G|exact S].
Qed.

Lemma after_fail_good : forall e p h c, good p -> atol < Z.sgn dt * h <= Z.abs (q_dt p) -> good (after_fail p c (snd (K e (at_dt p h)))).
Proof.
  intros e p h c [G D] B. destruct (SK e (at_dt p h)) as (_ & DT & _). unfold after_fail, good. cbn [q_id q_time q_x q_dt].
  rewrite DT. cbn [at_dt q_dt]. split; [exact G|destruct sgn_dt; nia].
Qed.

(** The length of the next step, if there is one. *)
Definition runs_on (endt : Z) (p : pcl) (dp : Z) : Prop := wants_run p = true -> atol < dp <= Z.abs (q_dt p) /\ dp <= Z.sgn dt * (endt - q_time p).
Definition like_sgn (sg : Z -> Z) : Prop := forall x, sg x = sg dt -> Z.abs x = Z.sgn dt * x.

Lemma after_ok_runs : forall (sg : Z -> Z) endt p c (nd : option Z) (r : kres X), like_sgn sg -> accepted c = true ->
  runs_on endt (fst (after_ok sg atol dt endt p c nd r)) (snd (after_ok sg atol dt endt p c nd r)).
Proof.
  intros sg endt p c nd r LS A W. revert W. unfold after_ok. cbn [fst snd q_dt q_time]. set (d2 := match nd with Some d => d | None => k_dt r end).
  unfold wants_run. cbn [q_st]. apply accepted_cases in A. unfold close0.
  destruct (negb (c =? op_Delete) && negb (Z.abs (Z.min (Z.abs d2) (Z.abs (endt - (k_time r + k_dt r)))) <=? atol) &&
            (sg (endt - (k_time r + k_dt r)) =? sg dt)) eqn:B.
  - intros _. replace (sg (endt - (k_time r + k_dt r)) =? sg dt) with true by lia. cbn [negb]. specialize (LS (endt - (k_time r + k_dt r)) ltac:(lia)). lia.
  - intros W. exfalso. revert W. clear - A. destruct A as [-> | ->]; vm_compute; discriminate.
Qed.

Lemma sgn_like : like_sgn Z.sgn.
Proof. intros x Q. rewrite <- Q. lia. Qed.
Lemma csgn_like : like_sgn csgn.
Proof. intros x. rewrite csgn_dt. unfold csgn. destruct (0 <? x) eqn:B; destruct sgn_dt as [[-> _]|[-> _]]; lia. Qed.

Lemma py_loop_keeps : forall f endt e p dp e' p' tr, good p -> runs_on endt p dp -> 0 <= Z.sgn dt * (fin - endt) ->
  py_loop (H:=H) K f atol dt endt e p dp = Some (e', p', tr) -> good p'.
Proof.
  induction f; intros endt e p dp e' p' tr G RO FE L; [discriminate|]. rewrite py_loop_eq in L.
  assert (C0 : close0 atol dt = false) by (unfold close0; lia).
  rewrite C0, orb_false_r in L. fold (wants_run p) in L. destruct (wants_run p) eqn:W; [|inversion L; subst; exact G].
  specialize (RO W). cbv zeta in L. set (h := Z.sgn dt * dp) in *.
  assert (B : atol < Z.sgn dt * h <= Z.abs (q_dt p)) by (unfold h; destruct sgn_dt as [[-> _]|[-> _]]; lia).
  assert (FH : 0 <= Z.sgn dt * (fin - (q_time p + h))) by (unfold h; destruct sgn_dt as [[Q _]|[Q _]]; rewrite Q in *; lia).
  destruct (accepted (outcome (close atol) (q_st p) h (snd (K e (at_dt p h))))) eqn:A.
  2:{ inversion L; subst. apply after_fail_good; assumption. }
  destruct (SK e (at_dt p h)) as (_ & _ & N).
  pose proof (after_ok_good Z.sgn endt e p h (outcome (close atol) (q_st p) h (snd (K e (at_dt p h)))) _ N G B FH (outcome_signal _ _ _ _ A)) as G2.
  pose proof (after_ok_runs Z.sgn endt p _ (k_next (snd (K e (at_dt p h)))) (snd (K e (at_dt p h))) sgn_like A) as R2.
  destruct (after_ok Z.sgn atol dt endt p _ _ _) as [p2 dp'] eqn:AO. cbn [fst snd] in *.
  destruct (py_loop K f atol dt endt (fst (K e (at_dt p h))) p2 dp') as [[[e2 p3] tr2]|] eqn:L2; [|discriminate].
  inversion L; subst. eapply IHf; eassumption.
Qed.

Lemma c_loop_keeps : forall f endt e p dp g' e' p' tr, good p -> runs_on endt p dp -> 0 <= Z.sgn dt * (fin - endt) ->
  c_loop (H:=H) K f atol dt endt None e p dp = Some (g', e', p', tr) -> good p' /\ g' = None.
Proof.
  induction f; intros endt e p dp g' e' p' tr G RO FE L; [discriminate|]. rewrite c_loop_eq in L.
  assert (C0 : q_dt p =? 0 = false) by (destruct G; lia).
  rewrite C0, orb_false_r in L. fold (wants_run p) in L. destruct (wants_run p) eqn:W; [|inversion L; subst; auto].
  specialize (RO W). cbv zeta in L. rewrite csgn_dt in L. set (h := dp * Z.sgn dt) in *.
  assert (B : atol < Z.sgn dt * h <= Z.abs (q_dt p)) by (unfold h; destruct sgn_dt as [[-> _]|[-> _]]; lia).
  assert (FH : 0 <= Z.sgn dt * (fin - (q_time p + h))) by (unfold h; destruct sgn_dt as [[Q _]|[Q _]]; rewrite Q in *; lia).
  destruct (SK e (at_dt p h)) as (_ & _ & N). rewrite N in L.
  destruct (accepted (outcome Z.eqb (q_st p) h (snd (K e (at_dt p h))))) eqn:A.
  2:{ inversion L; subst. split; [apply after_fail_good; assumption|reflexivity]. }
  pose proof (after_ok_good csgn endt e p h (outcome Z.eqb (q_st p) h (snd (K e (at_dt p h)))) None eq_refl G B FH (outcome_signal _ _ _ _ A)) as G2.
  pose proof (after_ok_runs csgn endt p _ None (snd (K e (at_dt p h))) csgn_like A) as R2.
  destruct (after_ok csgn atol dt endt p _ _ _) as [p2 dp'] eqn:AO. cbn [fst snd] in *.
  replace (q_dt p2 =? 0) with false in L by (destruct G2; lia).
  destruct (c_loop K f atol dt endt None (fst (K e (at_dt p h))) p2 dp') as [[[[g2 e2] p3] tr2]|] eqn:L2; [|discriminate].
  inversion L; subst. eapply IHf; eassumption.
Qed.

Lemma py_particle_keeps : forall f endt e p e' p' tr, good p -> 0 <= Z.sgn dt * (fin - endt) ->
  py_particle (H:=H) K f atol dt endt e p = Some (e', p', tr) -> good p'.
Proof.
  intros f endt e p e' p' tr G FE L. unfold py_particle in L.
  assert (C0 : close0 atol dt = false) by (unfold close0; lia). rewrite C0 in L. cbn [negb] in L. rewrite andb_true_r in L.
  destruct (negb (Z.sgn (endt - q_time p) =? Z.sgn dt) || close0 atol (Z.min (Z.abs (q_dt p)) (Z.abs (endt - q_time p)))) eqn:B.
  - inversion L; subst. destruct (_ <=? _); exact G.
  - eapply py_loop_keeps; [exact G| |exact FE|exact L]. intros _. unfold close0 in B. pose proof (sgn_like (endt - q_time p) ltac:(lia)). lia.
Qed.

Lemma c_particle_keeps : forall f endt e p g' e' p' tr, good p -> 0 <= Z.sgn dt * (fin - endt) ->
  c_particle (H:=H) K f atol dt endt None e p = Some (g', e', p', tr) -> good p' /\ g' = None.
Proof.
  intros f endt e p g' e' p' tr G FE L. unfold c_particle in L.
  assert (C0 : q_dt p =? 0 = false) by (destruct G; lia). rewrite C0 in L. cbn [negb] in L. rewrite andb_true_r in L.
  destruct (negb (csgn (endt - q_time p) =? csgn dt) || close0 atol (Z.min (Z.abs (q_dt p)) (Z.abs (endt - q_time p)))) eqn:B.
  - inversion L; subst. split; [destruct (_ <=? _); exact G|reflexivity].
  - eapply c_loop_keeps; [exact G| |exact FE|exact L]. intros _. unfold close0 in B. pose proof (csgn_like (endt - q_time p) ltac:(lia)). lia.
Qed.

(** One call of kernel.execute, for both modes: [I] is what is known of the state. *)
Lemma pass_keeps : forall {S} (one : S -> pcl -> option (S * pcl * list ev)) (I : S -> Prop),
  (forall s p s' p' tr, I s -> good p -> one s p = Some (s', p', tr) -> good p' /\ I s') ->
  forall ps s s' ps' tr, I s -> Forall good ps -> pass one s ps = Some (s', ps', tr) -> Forall good ps' /\ I s'.
Proof.
  intros S one I HO. induction ps as [|p t IH]; intros s s' ps' tr IS F P; cbn [pass] in P.
  - inversion P; subst. auto.
  - inversion F; subst. destruct (one s p) as [[[s1 p1] tr1]|] eqn:O; [|discriminate].
    destruct (HO _ _ _ _ _ IS H2 O) as [G1 I1].
    destruct (pass one s1 t) as [[[s2 ps2] tr2]|] eqn:Q; [|discriminate]. inversion P; subst.
    destruct (IH _ _ _ _ I1 H3 Q) as [G2 I2]. split; [constructor; assumption|exact I2].
Qed.

Lemma recover_keeps : forall rmap ps e e' ps' tr r, Forall good ps ->
  recover interp rmap e ps = (e', ps', tr, r) -> Forall good ps'.
Proof.
  intros rmap. induction ps as [|p t IH]; intros e e' ps' tr r F R; cbn [recover] in R.
  { inversion R; subst. constructor. }
  inversion F; subst. destruct (negb (in_error p)).
  { destruct (recover interp rmap e t) as [[[e1 t1] tr1] r1] eqn:Q. inversion R; subst. constructor; eauto. }
  destruct (q_st p =? op_StopExecution). { inversion R; subst. exact F. }
  destruct (q_st p =? op_Repeat).
  { destruct (recover interp rmap e t) as [[[e1 t1] tr1] r1] eqn:Q. inversion R; subst. constructor; [exact H2|eauto]. }
  destruct (q_st p =? op_Delete).
  { destruct (recover interp rmap e t) as [[[e1 t1] tr1] r1] eqn:Q. inversion R; subst. constructor; eauto. }
  destruct (rmap (q_st p)) as [h|].
  - destruct (run_rkernel interp h e (set_st p st_Success)) as [e1 [p1|]] eqn:Q.
    + destruct (recover interp rmap e1 t) as [[[e2 t1] tr1] r1] eqn:Q2. inversion R; subst. constructor; [|eauto].
      destruct h as [h|]; cbn [run_rkernel] in Q; [|discriminate]. destruct RJ as [ST KP].
      destruct (ST _ _ _ _ _ Q) as [T D]. pose proof (KP _ _ _ _ _ Q) as G. cbn [set_st q_id q_time q_x q_dt] in *.
      destruct H2 as [G1 D1]. split; cbn [q_id q_time q_x q_dt]; [exact (G G1)|lia].
    + inversion R; subst. constructor; [exact H2|exact H3].
  - destruct (recover interp rmap e t) as [[[e1 t1] tr1] r1] eqn:Q. inversion R; subst. constructor; [exact H2|eauto].
Qed.

Lemma filter_good : forall f ps, Forall good ps -> Forall good (filter f ps).
Proof. intros f ps F. apply Forall_forall. intros p IP. apply filter_In in IP. rewrite Forall_forall in F. apply F. tauto. Qed.

Section Execute.
Context {S : Type}.
Variable run_pass : S -> list pcl -> option (S * list pcl * list ev).
Variable get_e : S -> E.
Variable put_e : S -> E -> S.
Variable I : S -> Prop.
Hypothesis PK : forall s ps s' ps' tr, I s -> Forall good ps -> run_pass s ps = Some (s', ps', tr) -> Forall good ps' /\ I s'.
Hypothesis PE : forall s e, I s -> I (put_e s e).

Lemma rounds_keep : forall fuel rmap out s ps s' ps' tr r, I s -> Forall good ps ->
  rounds interp fuel run_pass get_e put_e rmap out s ps = (s', ps', tr, r) -> Forall good ps' /\ I s'.
Proof.
  induction fuel; intros rmap out s ps s' ps' tr r IS F R; cbn [rounds] in R; destruct (negb (existsb in_error ps));
    try (inversion R; subst; split; assumption).
  destruct (recover interp rmap (get_e s) ps) as [[[e1 ps1] tr1] r1] eqn:Q.
  pose proof (recover_keeps _ _ _ _ _ _ _ F Q) as F1. destruct r1.
  - unfold remove_deleted in R.
    match type of R with context [run_pass _ ?x] => set (ps2 := x) in * end.
    assert (F2 : Forall good ps2) by (apply filter_good; exact F1).
    destruct (run_pass (put_e s e1) ps2) as [[[s3 ps3] tr3]|] eqn:P.
    + destruct (PK _ _ _ _ _ (PE _ e1 IS) F2 P) as [F3 I3].
      destruct (rounds interp fuel run_pass get_e put_e rmap out s3 ps3) as [[[s4 ps4] tr4] r4] eqn:RR.
      inversion R; subst. eapply IHfuel; eassumption.
    + inversion R; subst. split; [exact F2|apply PE; exact IS].
  - inversion R; subst. split; [exact F1|apply PE; exact IS].
  - inversion R; subst. split; [exact F1|apply PE; exact IS].
Qed.

Lemma execute_keeps : forall fuel user out s ps s' ps' tr r, I s -> Forall good ps ->
  execute interp fuel run_pass get_e put_e user out s ps = (s', ps', tr, r) -> Forall good ps'.
Proof.
  intros fuel user out s ps s' ps' tr r IS F R. unfold execute in R.
  set (ps0 := map (fun p => set_st p st_Evaluate) ps) in *.
  assert (F0 : Forall good ps0) by (apply Forall_map; exact F).
  destruct (run_pass s ps0) as [[[s1 ps1] tr1]|] eqn:P; [|inversion R; subst; exact F0].
  destruct (PK _ _ _ _ _ IS F0 P) as [F1 I1]. unfold remove_deleted in R.
  match type of R with context [rounds _ _ _ _ _ _ _ _ ?x] => set (ps2 := x) in * end.
  assert (F2 : Forall good ps2) by (apply filter_good; exact F1).
  destruct (rounds interp fuel run_pass get_e put_e (recovery_map user) out s1 ps2) as [[[s3 ps3] tr3] r3] eqn:RR.
  inversion R; subst. eapply rounds_keep; eassumption.
Qed.
End Execute.

Lemma exec_keeps : forall jit lf rf user out e ps t ps', 0 <= Z.sgn dt * (fin - t) -> Forall good ps ->
  mode_exec jit K interp lf rf atol user out e ps t dt = Some ps' -> Forall good ps'.
Proof.
  intros [] lf rf user out e ps t ps' FE F; unfold mode_exec, jit_exec, scipy_exec, completed.
  - unfold c_execute. destruct (execute _ _ _ _ _ _ _ _ _) as [[[s' qs] tr] r] eqn:X1. intros R.
    assert (ps' = qs) by (destruct r; congruence). subst qs.
    eapply (execute_keeps _ _ _ (fun s => fst s = None)); [| | |exact F|exact X1]; [| |reflexivity].
    + intros s0 ps0 s1 ps1 tr0 I0 F0 P0. refine (pass_keeps _ (fun s => fst s = None) _ _ _ _ _ _ I0 F0 P0). intros [g e1] p [g' e2] p' tr1 G0 G O. cbn in G0. subst g. unfold c_one in O. cbn [fst snd] in O.
      destruct (c_particle K lf atol dt t None e1 p) as [[[[g1 e3] p1] tr2]|] eqn:C; [|discriminate]. inversion O; subst.
      apply (c_particle_keeps _ _ _ _ _ _ _ _ G FE C).
    + intros s e1 Q. exact Q.
  - unfold py_execute. destruct (execute _ _ _ _ _ _ _ _ _) as [[[s' qs] tr] r] eqn:X1. intros R.
    assert (ps' = qs) by (destruct r; congruence). subst qs.
    eapply (execute_keeps _ _ _ (fun _ => True)); [| | |exact F|exact X1]; [|auto|exact I].
    intros s ps0 s1 ps1 tr0 _ G P. unfold py_pass in P.
    eapply (pass_keeps _ (fun _ => True)); [|exact I|exact G|exact P]. intros s2 p s3 p' tr2 _ G2 O. split; [|exact I].
    eapply py_particle_keeps; eassumption.
Qed.

(** ** The loop of pset.execute *)
Variable batch : Z -> list pcl.
Hypothesis BJ : forall t, 0 <= Z.sgn dt * (fin - t) -> holds_of J (batch t).

Lemma set_dt_good : forall ps, holds_of J ps -> Forall good (set_all_dt ps dt).
Proof.
  intros ps F. unfold set_all_dt. apply Forall_map. eapply Forall_impl; [|exact F].
  intros p G. split; [exact G|]. cbn [q_dt]. lia.
Qed.

Lemma release_good : forall k ps t, 0 <= Z.sgn dt * (fin - t) -> Forall good ps -> Forall good (only_release batch k ps t dt).
Proof.
  intros k ps t FE F. destruct k; cbn [only_release]; try exact F. apply Forall_app. split; [exact F|]. apply set_dt_good, BJ, FE.
Qed.

Lemma serve_good : forall per out cbs t, 0 <= Z.sgn dt * (fin - t) -> forall ks nx ps nx' ps' tr, Forall good ps ->
  serve (only_release batch) dt per out cbs t ks nx ps = (nx', ps', tr) -> Forall good ps'.
Proof.
  intros per out cbs t FE. induction ks as [|k ks IH]; intros nx ps nx' ps' tr F R; cbn [serve] in R; [inversion R; subst; exact F|].
  destruct (nx k) as [n|]; [|eapply IH; eassumption]. destruct (per k) as [q|]; [|eapply IH; eassumption].
  destruct (t =? n); [|eapply IH; eassumption].
  match type of R with context [serve _ _ _ _ _ _ _ ?n1 ?x] => destruct (serve (only_release batch) dt per out cbs t ks n1 x) as [[nx2 w2] tr2] eqn:Q end.
  inversion R; subst. refine (IH _ _ _ _ _ _ Q). destruct (event_of out cbs k t); [exact F|apply release_good; [exact FE|exact F]].
Qed.

Lemma sloop_good : forall exec next, (forall ps t ps', 0 <= Z.sgn dt * (fin - t) -> Forall good ps -> exec ps t dt = Some ps' -> Forall good ps') ->
  forall fuel per out cbs time nx nin ps t ps' tr r, Forall good ps ->
  sloop exec (only_release batch) (announces next) fuel dt fin per out cbs time nx nin ps = (t, ps', tr, r) -> Forall good ps'.
Proof.
  intros exec next EK. induction fuel; intros per out cbs time nx nin ps t ps' tr r F R; cbn [sloop] in R;
    destruct (((time <? fin) && (0 <? dt)) || ((fin <? time) && (dt <? 0)) || (dt =? 0));
    try (inversion R; subst; exact F).
  set (t1 := window_end dt fin nx nin) in *. destruct (exec ps t1 dt) as [ps1|] eqn:X1; [|inversion R; subst; exact F].
  pose proof (EK _ _ _ (window_end_le_end dt fin nx nin ltac:(lia)) F X1) as F1.
  destruct (serve (only_release batch) dt per out cbs t1 kinds nx ps1) as [[nx2 ps2] tr2] eqn:SV.
  pose proof (serve_good _ _ _ _ (window_end_le_end dt fin nx nin ltac:(lia)) _ _ _ _ _ _ F1 SV) as F2. change (announces next ps2 t1 dt) with (Some (ps2, next t1)) in R. cbv iota in R.
  destruct (t1 =? fin); destruct (dt =? 0); try (inversion R; subst; exact F2);
    match type of R with context [sloop ?a ?b ?c ?d ?e1 ?f ?g ?h ?i ?j ?k ?l ?m] =>
      destruct (sloop a b c d e1 f g h i j k l m) as [[[t3 w3] tr3] r3] eqn:Q end;
    inversion R; subst; eapply IHfuel; eassumption.
Qed.

End Keeps.

Lemma holds_good : forall X dt atol (J : Z -> Z -> X -> Prop) ps, Forall (good dt atol J) ps -> holds_of J ps.
Proof. intros X dt atol J ps F. eapply Forall_impl; [|exact F]. intros p G. apply G. Qed.

Lemma run_holds : forall (E X H : Type) (K : E -> pcl X -> E * kres X) (interp : handlers E X H) (user : Z -> option H)
    atol J jit out e batch next eps a start rs dflt endt ps lf rf fuel ps' tr r,
  steady_kernel K -> step_keeps K (a_dt a) endt J -> recovery_keeps interp J -> 0 <= atol -> atol < Z.abs (a_dt a) ->
  moves eps a start dflt endt -> holds_of J ps -> each_release a endt batch (fun p => J (q_id p) (q_time p) (q_x p)) ->
  run_set jit K interp lf rf fuel atol user out e batch next eps a start rs dflt ps = (ps', tr, r) ->
  holds_of J ps'.
Proof.
  intros E X H K interp user atol J jit out e batch next eps a start rs dflt endt ps lf rf fuel ps' tr r
    SK KJ RJ A0 AD M F B R.
  destruct (moves_facts _ _ _ _ _ M) as (RO & D & LE). pose proof (moves_end _ _ _ _ _ M) as RE.
  unfold run_set, sexecute in R. rewrite RE in R. cbv zeta in R. rewrite RO in R. unfold announces in R at 1.
  assert (F0 : Forall (good (a_dt a) atol J) (set_all_dt ps (a_dt a))) by (eapply set_dt_good; eassumption).
  assert (REL : forall k ps, Forall (good (a_dt a) atol J) ps -> Forall (good (a_dt a) atol J) (only_release batch k ps start (a_dt a)))
    by (intros k qs G; eapply release_good; eassumption).
  match type of R with context [sloop ?a1 ?b1 ?c1 ?d1 ?e1 ?f1 ?g1 ?h1 ?i1 ?j1 ?k1 ?l1 ?w] =>
    destruct (sloop a1 b1 c1 d1 e1 f1 g1 h1 i1 j1 k1 l1 w) as [[[t4 w4] tr4] r4] eqn:Q; set (w3 := w) in * end.
  assert (F3 : Forall (good (a_dt a) atol J) w3).
  { unfold w3. destruct (a_movie a) as [[| |]|]; destruct (a_out a); try apply REL; try apply REL; exact F0. }
  assert (F4 : Forall (good (a_dt a) atol J) w4).
  { eapply (sloop_good (a_dt a) atol endt J A0 AD batch B); [|exact F3|exact Q].
    intros ps0 t ps1 TE G X1. exact (exec_keeps K interp _ _ endt _ SK KJ RJ A0 AD _ _ _ _ _ _ _ _ _ TE G X1). }
  apply holds_good with (dt := a_dt a) (atol := atol).
  destruct r4; [|inversion R; subst; exact F4..]. destruct (a_out a); inversion R; subst; exact F4.
Qed.
