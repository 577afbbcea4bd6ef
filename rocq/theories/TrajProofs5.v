(** Proofs for C51: what every step keeps, the file shows. *)
From Coq Require Import String List ZArith Bool Lia ZifyBool.
From Verif Require Import CollModel KLoopModel KLoopSpec KLoopProofs SchedModel SchedSpec SchedProofs SplitSpec SplitProofs SplitProofs2 SplitProofs3
  RunSpec RunProofs OutModel OutSpec OutProofs TrajModel TrajSpec TrajProofs TrajProofs2 TrajProofs3 TrajProofs4.
Import ListNotations.
Open Scope Z_scope.

Section Keeps.
Context {E X H : Type}.
Notation pcl := (pcl X).
Notation ev := (ev H).
Variable K : E -> pcl -> E * kres X.
Variable interp : handlers E X H.
Variables (dt atol fin : Z) (J : Z -> Z -> X -> Prop).
Hypothesis SK : steady_kernel K.
Hypothesis KJ : step_keeps K dt fin J.
Hypothesis RJ : recovery_keeps interp J.
Hypothesis A0 : 0 <= atol.
Hypothesis AD : atol < Z.abs dt.
Notation good := (good dt atol J).

Definition call_good (c : wcall X) : Prop :=
  let '(_, m, qs) := c in (m = DFalse \/ m = DMask (map is_deleted qs)) /\ Forall good qs.

Lemma hand_over_good : forall out endt ps, Forall good ps -> Forall call_good (hand_over out endt ps).
Proof. intros out endt ps F. unfold hand_over. destruct (_ && _); constructor; [|constructor]. split; [right; reflexivity|exact F]. Qed.

Section Execute.
Context {S : Type}.
Variable run_pass : S -> list pcl -> option (S * list pcl * list ev).
Variable get_e : S -> E.
Variable put_e : S -> E -> S.
Variable I : S -> Prop.
Hypothesis PK : forall s ps s' ps' tr, I s -> Forall good ps -> run_pass s ps = Some (s', ps', tr) -> Forall good ps' /\ I s'.
Hypothesis PE : forall s e, I s -> I (put_e s e).

Lemma wrounds_good : forall fuel rmap out endt s ps ps' log r, I s -> Forall good ps ->
  wrounds interp fuel run_pass get_e put_e rmap out endt s ps = (ps', log, r) -> Forall good ps' /\ Forall call_good log.
Proof.
  induction fuel; intros rmap out endt s ps ps' log r IS F R; cbn [wrounds] in R; destruct (negb (existsb in_error ps));
    try (inversion R; subst; split; [assumption|constructor]).
  destruct (recover interp rmap (get_e s) ps) as [[[e1 ps1] tr1] r1] eqn:Q.
  pose proof (recover_keeps interp _ _ _ RJ A0 AD _ _ _ _ _ _ _ F Q) as F1. destruct r1.
  - match type of R with context [run_pass _ ?x] => set (ps2 := x) in * end.
    assert (F2 : Forall good ps2) by (apply filter_good; exact F1).
    destruct (run_pass (put_e s e1) ps2) as [[[s3 ps3] tr3]|] eqn:P.
    + destruct (PK _ _ _ _ _ (PE _ e1 IS) F2 P) as [F3 I3].
      destruct (wrounds interp fuel run_pass get_e put_e rmap out endt s3 ps3) as [[ps4 log4] r4] eqn:RR.
      inversion R; subst. destruct (IHfuel _ _ _ _ _ _ _ _ I3 F3 RR) as [G1 G2]. split; [exact G1|].
      apply Forall_app. split; [apply hand_over_good; exact F1|exact G2].
    + inversion R; subst. split; [exact F2|apply hand_over_good; exact F1].
  - inversion R; subst. split; [exact F1|constructor].
  - inversion R; subst. split; [exact F1|constructor].
Qed.

Lemma wexecute_good : forall fuel user out endt s ps ps' log r, I s -> Forall good ps ->
  wexecute interp fuel run_pass get_e put_e user out endt s ps = (ps', log, r) -> Forall good ps' /\ Forall call_good log.
Proof.
  intros fuel user out endt s ps ps' log r IS F R. unfold wexecute in R.
  set (ps0 := map (fun p => set_st p st_Evaluate) ps) in *.
  assert (F0 : Forall good ps0) by (apply Forall_map; exact F).
  destruct (run_pass s ps0) as [[[s1 ps1] tr1]|] eqn:P; [|inversion R; subst; split; [exact F0|constructor]].
  destruct (PK _ _ _ _ _ IS F0 P) as [F1 I1].
  match type of R with context [wrounds _ _ _ _ _ _ _ _ _ ?x] => set (ps2 := x) in * end.
  assert (F2 : Forall good ps2) by (apply filter_good; exact F1).
  destruct (wrounds interp fuel run_pass get_e put_e (recovery_map user) out endt s1 ps2) as [[ps3 log3] r3] eqn:RR.
  inversion R; subst. destruct (wrounds_good _ _ _ _ _ _ _ _ _ I1 F2 RR) as [G1 G2]. split; [exact G1|].
  apply Forall_app. split; [apply hand_over_good; exact F1|exact G2].
Qed.
End Execute.

Definition world_good (w : list pcl * list (wcall X)) : Prop := Forall good (fst w) /\ Forall call_good (snd w).

Lemma wexec_good : forall jit lf rf user out e w t w', 0 <= Z.sgn dt * (fin - t) -> world_good w ->
  wexec jit K interp lf rf atol user out e w t dt = Some w' -> world_good w'.
Proof.
  intros jit lf rf user out e [ps log] t w' FE [F L] Q. unfold wexec in Q. cbn [fst snd] in *.
  destruct (mode_wexecute _ _ _ _ _ _ _ _ _ _ _ _) as [[ps' dl] r] eqn:M.
  assert (G : Forall good ps' /\ Forall call_good dl).
  { unfold mode_wexecute in M. destruct jit.
    - eapply (wexecute_good _ _ _ (fun s => fst s = None)); [| | |exact F|exact M]; [| |reflexivity].
      + intros s0 ps0 s1 ps1 tr0 I0 F0 P0. refine (pass_keeps _ _ _ _ (fun s => fst s = None) _ _ _ _ _ _ I0 F0 P0). intros [g e1] p [g' e2] p' tr1 G0 G O. cbn in G0. subst g. unfold c_one in O. cbn [fst snd] in O.
        destruct (c_particle K lf atol dt t None e1 p) as [[[[g1 e3] p1] tr2]|] eqn:C; [|discriminate]. inversion O; subst.
        apply (c_particle_keeps K _ _ fin _ SK KJ A0 AD _ _ _ _ _ _ _ _ G FE C).
      + intros s e1 Q1. exact Q1.
    - eapply (wexecute_good _ _ _ (fun _ => True)); [| | |exact F|exact M]; [|auto|exact I].
      intros s ps0 s1 ps1 tr0 _ G P. unfold py_pass in P.
      eapply (pass_keeps _ _ _ _ (fun _ => True)); [|exact I|exact G|exact P]. intros s2 p s3 p' tr2 _ G2 O. split; [|exact I].
      eapply (py_particle_keeps K _ _ fin _ SK KJ A0 AD); eassumption. }
  destruct r; try discriminate. inversion Q; subst. split; cbn [fst snd]; [apply G|]. apply Forall_app. split; [exact L|apply G].
Qed.

Variable batch : Z -> list pcl.
Hypothesis BJ : forall t, 0 <= Z.sgn dt * (fin - t) -> holds_of J (batch t).

Lemma wact_good : forall k w t, 0 <= Z.sgn dt * (fin - t) -> world_good w -> world_good (wact batch k w t dt).
Proof.
  intros k [ps log] t FE [F L]. destruct k; split; cbn [wact fst snd] in *; try assumption.
  - apply Forall_app. split; [exact F|]. eapply set_dt_good; try eassumption. apply BJ, FE.
  - apply Forall_app. split; [exact L|]. constructor; [|constructor]. split; [left; reflexivity|exact F].
Qed.

Lemma wserve_good : forall per out cbs t, 0 <= Z.sgn dt * (fin - t) -> forall ks nx w nx' w' tr, world_good w ->
  serve (wact batch) dt per out cbs t ks nx w = (nx', w', tr) -> world_good w'.
Proof.
  intros per out cbs t FE. induction ks as [|k ks IH]; intros nx w nx' w' tr F R; cbn [serve] in R; [inversion R; subst; exact F|].
  destruct (nx k) as [n|]; [|eapply IH; eassumption]. destruct (per k) as [q|]; [|eapply IH; eassumption].
  destruct (t =? n); [|eapply IH; eassumption].
  match type of R with context [serve _ _ _ _ _ _ _ ?n1 ?x] => destruct (serve (wact batch) dt per out cbs t ks n1 x) as [[nx2 w2] tr2] eqn:Q end.
  inversion R; subst. refine (IH _ _ _ _ _ _ Q). destruct (event_of out cbs k t); [exact F|apply wact_good; assumption].
Qed.

Lemma wloop_good : forall exec next, (forall w t w', 0 <= Z.sgn dt * (fin - t) -> world_good w -> exec w t dt = Some w' -> world_good w') ->
  forall fuel per out cbs time nx nin w t w' tr r, world_good w ->
  sloop exec (wact batch) (fun w t _ => Some (w, next t)) fuel dt fin per out cbs time nx nin w = (t, w', tr, r) -> world_good w' /\ (0 <= Z.sgn dt * (fin - time) -> 0 <= Z.sgn dt * (fin - t)).
Proof.
  intros exec next EK. induction fuel; intros per out cbs time nx nin w t w' tr r F R; cbn [sloop] in R;
    destruct (((time <? fin) && (0 <? dt)) || ((fin <? time) && (dt <? 0)) || (dt =? 0));
    try (inversion R; subst; split; [exact F|auto]).
  pose proof (window_end_le_end dt fin nx nin ltac:(lia)) as WE.
  set (t1 := window_end dt fin nx nin) in *. destruct (exec w t1 dt) as [w1|] eqn:X1; [|inversion R; subst; split; [exact F|auto]].
  pose proof (EK _ _ _ WE F X1) as F1.
  destruct (serve (wact batch) dt per out cbs t1 kinds nx w1) as [[nx2 w2] tr2] eqn:SV.
  pose proof (wserve_good _ _ _ _ WE _ _ _ _ _ _ F1 SV) as F2. cbv beta iota in R.
  destruct (t1 =? fin); destruct (dt =? 0); try (inversion R; subst; split; [exact F2|auto]);
    match type of R with context [sloop ?a ?b ?c ?d ?e1 ?f ?g ?h ?i ?j ?k ?l ?m] =>
      destruct (sloop a b c d e1 f g h i j k l m) as [[[t3 w3] tr3] r3] eqn:Q end;
    inversion R; subst; destruct (IHfuel _ _ _ _ _ _ _ _ _ _ _ F2 Q) as [G1 G2]; split; auto.
Qed.
End Keeps.

Lemma written_good : forall (E X H : Type) (K : E -> pcl X -> E * kres X) (interp : handlers E X H) (user : Z -> option H)
    atol J jit e batch next eps a start rs dflt endt ps lf rf fuel ps' log tr r,
  steady_kernel K -> step_keeps K (a_dt a) endt J -> recovery_keeps interp J -> 0 <= atol -> atol < Z.abs (a_dt a) ->
  moves eps a start dflt endt -> holds_of J ps -> each_release a endt batch (fun p => J (q_id p) (q_time p) (q_x p)) ->
  run_written jit K interp lf rf fuel atol user e batch next eps a start rs dflt ps = (ps', log, tr, r) ->
  Forall (call_good (a_dt a) atol J) log.
Proof.
  intros E X H K interp user atol J jit e batch next eps a start rs dflt endt ps lf rf fuel ps' log tr r
    SK KJ RJ A0 AD M F B R.
  destruct (moves_facts _ _ _ _ _ M) as (RO & D & LE). pose proof (moves_end _ _ _ _ _ M) as RE.
  unfold run_written, sexecute in R. rewrite RE in R. cbv zeta in R. rewrite RO in R.
  assert (F0 : world_good (a_dt a) atol J (wbegin (ps, []) (a_dt a))) by (split; [eapply set_dt_good; eassumption|constructor]).
  assert (ACT : forall k w t, 0 <= Z.sgn (a_dt a) * (endt - t) -> world_good (a_dt a) atol J w -> world_good (a_dt a) atol J (wact batch k w t (a_dt a)))
    by (intros; apply (wact_good _ _ endt); assumption).
  cbv beta iota in R.
  match type of R with context [sloop ?a1 ?b1 ?c1 ?d1 ?e1 ?f1 ?g1 ?h1 ?i1 ?j1 ?k1 ?l1 ?w] =>
    destruct (sloop a1 b1 c1 d1 e1 f1 g1 h1 i1 j1 k1 l1 w) as [[[t4 w4] tr4] r4] eqn:Q; set (w3 := w) in * end.
  assert (F3 : world_good (a_dt a) atol J w3).
  { unfold w3. destruct (a_movie a) as [[| |]|]; destruct (a_out a); repeat apply ACT; try exact F0; exact LE. }
  assert (EX : forall w t w', 0 <= Z.sgn (a_dt a) * (endt - t) -> world_good (a_dt a) atol J w ->
    wexec jit K interp lf rf atol user (a_out a) e w t (a_dt a) = Some w' -> world_good (a_dt a) atol J w')
    by (intros w t w' TE G X1; exact (wexec_good K interp _ _ endt _ SK KJ RJ A0 AD _ _ _ _ _ _ _ _ _ TE G X1)).
  destruct (wloop_good (a_dt a) atol endt J A0 AD batch B _ next EX _ _ _ _ _ _ _ _ _ _ _ _ F3 Q) as [G4 T4].
  destruct r4; [|inversion R; subst; apply G4..]. destruct (a_out a); inversion R; subst; [|apply G4].
  apply (ACT KOutput w4 t4); [apply T4; exact LE|exact G4].
Qed.
