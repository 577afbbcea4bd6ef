(** Agreement of the two modes (C14), independence of particles (C12), whole-set tiling (C07),
    zero-length runs (C13). *)
From Coq Require Import List ZArith Bool Lia ZifyBool.
From Verif Require Import CollModel KLoopModel KLoopSpec KLoopProofs KLoopRecProofs KLoopStepProofs
  KLoopRelProofs KLoopMoreProofs.
Import ListNotations.
Open Scope Z_scope.

Ltac Zify.zify_post_hook ::= Z.div_mod_to_equations.

Section Eq.
Context {E X H : Type}.
Notation pcl := (pcl X).
Notation ev := (ev H).
Variable K : E -> pcl -> E * kres X.
Variable interp : handlers E X H.
Notation ids := (map (@q_id X)).

Opaque py_loop c_loop.

(** ** C14 *)

Lemma csgn_sgn : forall x, x <> 0 -> csgn x = Z.sgn x.
Proof. intros. unfold csgn. destruct (0 <? x) eqn:B; lia. Qed.

Lemma after_ok_modes : forall atol dt endt p c nd (r : kres X),
  0 <= atol -> dt <> 0 -> after_ok csgn atol dt endt p c nd r = after_ok Z.sgn atol dt endt p c nd r.
Proof.
  intros. unfold after_ok. rewrite (csgn_sgn dt) by assumption.
  set (t2 := k_time r + k_dt r).
  destruct (Z.eq_dec (endt - t2) 0) as [Z0|NZ]; [|rewrite csgn_sgn by exact NZ; reflexivity].
  rewrite Z0. cbn [Z.abs]. rewrite Z.min_r by lia.
  replace (close0 atol 0) with true by (unfold close0; lia). cbn [negb]. rewrite !andb_false_r. cbn [andb].
  f_equal. destruct (_ =? _), (_ =? _); reflexivity.
Qed.

Lemma outcome_modes : forall atol prev h (r : kres X),
  0 <= atol -> k_dt r = h \/ close atol (k_dt r) h = false ->
  outcome (close atol) prev h r = outcome Z.eqb prev h r.
Proof.
  intros atol prev h r A [D|D]; unfold outcome.
  - rewrite D, close_refl by exact A. rewrite Z.eqb_refl. reflexivity.
  - rewrite D. destruct (k_dt r =? h) eqn:B; [|reflexivity].
    apply Z.eqb_eq in B. rewrite B, close_refl in D by exact A. discriminate.
Qed.

Lemma after_ok_wants : forall sg atol dt endt p c nd (r : kres X),
  0 <= atol -> accepted c = true ->
  let '(p2, dp') := after_ok sg atol dt endt p c nd r in wants_run p2 = true -> dp' <> 0.
Proof.
  intros sg atol dt endt p c nd r A AC. unfold after_ok, wants_run. cbn [q_st].
  destruct (accepted_cases _ AC) as [Ec|Ec]; rewrite Ec; codes; cbn [Z.eqb Pos.eqb negb andb].
  - destruct (close0 _ _) eqn:CL; cbn [negb andb]; [discriminate|].
    destruct (sg (endt - (k_time r + k_dt r)) =? sg dt); cbn [negb]; [|discriminate].
    intros _. unfold close0 in CL. lia.
  - discriminate.
Qed.

Lemma loop_modes : forall f atol dt endt e p dp,
  mode_neutral atol K -> 0 <= atol -> atol < Z.abs dt ->
  q_dt p <> 0 -> (wants_run p = true -> dp <> 0) ->
  match py_loop (H:=H) K f atol dt endt e p dp with
  | Some (e', p', tr) => c_loop K f atol dt endt None e p dp = Some (None, e', p', tr) /\ q_dt p' <> 0
  | None => c_loop (H:=H) K f atol dt endt None e p dp = None
  end.
Proof.
  induction f; intros atol dt endt e p dp MN A D PD WR; [reflexivity|].
  rewrite py_loop_eq, c_loop_eq.
  replace (close0 atol dt) with false by (unfold close0; lia).
  replace (q_dt p =? 0) with false by lia. fold (wants_run p). rewrite orb_false_r.
  destruct (wants_run p) eqn:W; [|auto]. specialize (WR eq_refl). cbn zeta.
  replace (dp * csgn dt) with (Z.sgn dt * dp) by (rewrite csgn_sgn by lia; ring).
  set (pdt := Z.sgn dt * dp) in *.
  assert (PZ : pdt <> 0) by (unfold pdt; nia).
  destruct (MN e (at_dt p pdt) PZ) as (M1 & M2 & M3 & M4). cbn [at_dt q_dt q_st] in M1, M4.
  fold (at_dt p pdt) in *.
  set (r := snd (K e (at_dt p pdt))) in *. set (e1 := fst (K e (at_dt p pdt))) in *.
  change (snd (K e {| q_id := q_id p; q_time := q_time p; q_dt := pdt; q_st := q_st p; q_x := q_x p |}))
    with r in M4.
  rewrite (outcome_modes atol _ _ _ A M1).
  set (c := outcome Z.eqb (q_st p) pdt r) in *.
  rewrite call_accepted_outcome in M4. fold c in M4.
  destruct (accepted c) eqn:AC.
  - assert (NG : match k_next r with Some d => Some d | None => None end = k_next r)
      by (destruct (k_next r); reflexivity).
    rewrite NG, after_ok_modes by lia.
    pose proof (after_ok_wants Z.sgn atol dt endt p c (k_next r) r A AC) as AW.
    destruct (after_ok Z.sgn atol dt endt p c (k_next r) r) as [p2 dp'] eqn:AO.
    assert (D2 : q_dt p2 <> 0).
    { unfold after_ok in AO. inversion AO; subst p2. cbn [q_dt].
      destruct (k_next r); [congruence|exact M2]. }
    replace (q_dt p2 =? 0) with false by lia.
    specialize (IHf atol dt endt e1 p2 dp' MN A D D2 AW).
    destruct (py_loop K f atol dt endt e1 p2 dp') as [[[e2 p3] tr2]|].
    + destruct IHf as [-> Q]. auto.
    + rewrite IHf. reflexivity.
  - rewrite (M4 eq_refl). split; [reflexivity|exact M2].
Qed.

Lemma particle_modes : forall f atol dt endt e p,
  mode_neutral atol K -> 0 <= atol -> atol < Z.abs dt -> q_dt p <> 0 ->
  match py_particle (H:=H) K f atol dt endt e p with
  | Some (e', p', tr) => c_particle K f atol dt endt None e p = Some (None, e', p', tr) /\ q_dt p' <> 0
  | None => c_particle (H:=H) K f atol dt endt None e p = None
  end.
Proof.
  intros f atol dt endt e p MN A D PD. unfold py_particle, c_particle.
  replace (close0 atol dt) with false by (unfold close0; lia).
  replace (q_dt p =? 0) with false by lia. cbn [negb]. rewrite !andb_true_r.
  set (dp := Z.min (Z.abs (q_dt p)) (Z.abs (endt - q_time p))).
  assert (SK : negb (csgn (endt - q_time p) =? csgn dt) || close0 atol dp =
               negb (Z.sgn (endt - q_time p) =? Z.sgn dt) || close0 atol dp).
  { rewrite (csgn_sgn dt) by lia.
    destruct (Z.eq_dec (endt - q_time p) 0) as [Z0|NZ]; [|rewrite csgn_sgn by exact NZ; reflexivity].
    unfold dp. rewrite Z0. cbn [Z.abs]. rewrite Z.min_r by lia.
    replace (close0 atol 0) with true by (unfold close0; lia). rewrite !orb_true_r. reflexivity. }
  rewrite SK.
  destruct (negb (Z.sgn (endt - q_time p) =? Z.sgn dt) || close0 atol dp) eqn:B.
  - split; [reflexivity|]. destruct (_ <=? _); exact PD.
  - apply loop_modes; auto. intros _. unfold close0 in B. lia.
Qed.

Lemma pass_modes : forall lf atol dt endt ps e,
  mode_neutral atol K -> 0 <= atol -> atol < Z.abs dt -> Forall (fun p => q_dt p <> 0) ps ->
  match py_pass (H:=H) K lf atol dt endt e ps with
  | Some (e', ps', tr) =>
      pass (c_one K lf atol dt endt) (None, e) ps = Some ((None, e'), ps', tr) /\
      Forall (fun p => q_dt p <> 0) ps'
  | None => pass (c_one (H:=H) K lf atol dt endt) (None, e) ps = None
  end.
Proof.
  intros lf atol dt endt ps. induction ps as [|p t IH]; intros e MN A D F; cbn [py_pass pass].
  - auto.
  - apply Forall_cons_iff in F. destruct F as [FP FT].
    pose proof (particle_modes lf atol dt endt e p MN A D FP) as PM.
    unfold py_pass. cbn [pass]. unfold c_one at 1 3. cbn [fst snd].
    destruct (py_particle K lf atol dt endt e p) as [[[e1 p1] tr1]|].
    + destruct PM as [-> Q]. specialize (IH e1 MN A D FT). unfold py_pass in IH.
      destruct (pass (py_particle K lf atol dt endt) e1 t) as [[[e2 t2] tr2]|].
      * destruct IH as [-> Q2]. split; [reflexivity|constructor; assumption].
      * rewrite IH. reflexivity.
    + rewrite PM. reflexivity.
Qed.

Lemma recover_keeps_dt : forall rmap ps e e' ps' tr r,
  handlers_keep_dt interp -> recover interp rmap e ps = (e', ps', tr, r) ->
  Forall (fun p => q_dt p <> 0) ps -> Forall (fun p => q_dt p <> 0) ps'.
Proof.
  intros rmap ps. induction ps as [|p t IH]; intros e e' ps' tr r HK R F; cbn [recover] in R.
  { inversion R; subst. constructor. }
  pose proof F as F0. apply Forall_cons_iff in F. destruct F as [FP FT].
  destruct (negb (in_error p)).
  { destruct (recover interp rmap e t) as [[[e1 t1] tr1] r1] eqn:Rt. inversion R; subst.
    constructor; eauto. }
  destruct (q_st p =? op_StopExecution); [inversion R; subst; exact F0|].
  destruct (q_st p =? op_Repeat).
  { destruct (recover interp rmap e t) as [[[e1 t1] tr1] r1] eqn:Rt. inversion R; subst.
    constructor; eauto. }
  destruct (q_st p =? op_Delete).
  { destruct (recover interp rmap e t) as [[[e1 t1] tr1] r1] eqn:Rt. inversion R; subst.
    constructor; eauto. }
  destruct (rmap (q_st p)) as [h|].
  - destruct (run_rkernel interp h e (set_st p st_Success)) as [e1 [p1|]] eqn:RK.
    + cbn zeta in R. destruct (recover interp rmap e1 t) as [[[e2 t1] tr1] r1] eqn:Rt.
      inversion R; subst. constructor; [|eauto]. cbn [q_dt]. destruct h as [h|]; [|discriminate].
      eapply HK; [exact RK|exact FP].
    + inversion R; subst. constructor; assumption.
  - destruct (recover interp rmap e t) as [[[e1 t1] tr1] r1] eqn:Rt. inversion R; subst.
    constructor; eauto.
Qed.

Lemma Forall_filter {A} (P : A -> Prop) f : forall l, Forall P l -> Forall P (filter f l).
Proof.
  induction 1; cbn [filter]; [constructor|]. destruct (f x); [constructor; assumption|assumption].
Qed.

Lemma rounds_modes : forall lf atol dt endt rmap out fuel ps e,
  mode_neutral atol K -> handlers_keep_dt interp -> 0 <= atol -> atol < Z.abs dt ->
  Forall (fun p => q_dt p <> 0) ps ->
  rounds interp fuel (pass (c_one K lf atol dt endt)) snd (fun s e => (fst s, e)) rmap out (None, e) ps =
  let '(e', ps', tr, r) :=
    rounds interp fuel (py_pass K lf atol dt endt) (fun e => e) (fun _ e => e) rmap out e ps in
  ((None, e'), ps', tr, r).
Proof.
  intros lf atol dt endt rmap out. induction fuel; intros ps e MN HD A D F; cbn [rounds].
  - destruct (negb _); reflexivity.
  - destruct (negb _); [reflexivity|]. cbn [fst snd].
    destruct (recover interp rmap e ps) as [[[e1 ps1] tr1] rs] eqn:RC.
    pose proof (recover_keeps_dt _ _ _ _ _ _ _ HD RC F) as F1.
    destruct rs; [|reflexivity|reflexivity].
    destruct (remove_deleted out ps1) as [ps2 tr2] eqn:RD.
    assert (F2 : Forall (fun p => q_dt p <> 0) ps2).
    { rewrite remove_deleted_eq in RD. inversion RD; subst. apply Forall_filter. exact F1. }
    pose proof (pass_modes lf atol dt endt ps2 e1 MN A D F2) as PM.
    destruct (py_pass K lf atol dt endt e1 ps2) as [[[e3 ps3] tr3]|].
    + destruct PM as [-> F3]. rewrite IHfuel by assumption.
      destruct (rounds interp fuel (py_pass K lf atol dt endt) (fun e => e) (fun _ e => e) rmap out e3 ps3)
        as [[[e4 ps4] tr4] r4]. reflexivity.
    + rewrite PM. reflexivity.
Qed.

Lemma execute_modes : forall lf rf atol dt endt user out e ps,
  mode_neutral atol K -> handlers_keep_dt interp -> 0 <= atol -> atol < Z.abs dt ->
  Forall (fun p => q_dt p <> 0) ps ->
  c_execute K interp lf rf atol dt endt user out (None, e) ps =
  let '(e', ps', tr, r) := py_execute K interp lf rf atol dt endt user out e ps in
  ((None, e'), ps', tr, r).
Proof.
  intros lf rf atol dt endt user out e ps MN HD A D F. unfold c_execute, py_execute, execute.
  set (ps0 := map (fun p => set_st p st_Evaluate) ps).
  assert (F0 : Forall (fun p => q_dt p <> 0) ps0).
  { unfold ps0. apply Forall_map. eapply Forall_impl; [|exact F]. intros a Q. exact Q. }
  pose proof (pass_modes lf atol dt endt ps0 e MN A D F0) as PM.
  destruct (py_pass K lf atol dt endt e ps0) as [[[e1 ps1] tr1]|].
  - destruct PM as [-> F1]. destruct (remove_deleted out ps1) as [ps2 tr2] eqn:RD.
    assert (F2 : Forall (fun p => q_dt p <> 0) ps2).
    { rewrite remove_deleted_eq in RD. inversion RD; subst. apply Forall_filter. exact F1. }
    rewrite (rounds_modes lf atol dt endt (recovery_map user) out rf ps2 e1) by assumption.
    destruct (rounds interp rf (py_pass K lf atol dt endt) (fun e => e) (fun _ e => e)
                (recovery_map user) out e1 ps2) as [[[e3 ps3] tr3] r3]. reflexivity.
  - rewrite PM. reflexivity.
Qed.

(** ** C12 *)

Section Indep.
Variables (lf : nat) (atol dt endt : Z).
Hypothesis HS : self_contained K interp.
Hypothesis HN : never_evaluate K.
Hypothesis HA : 0 <= atol.
Hypothesis HD : atol < Z.abs dt.

Notation one := (py_particle (H:=H) K lf atol dt endt).

Lemma py_loop_e : forall f e p dp e' p' tr,
  py_loop (H:=H) K f atol dt endt e p dp = Some (e', p', tr) -> e' = e.
Proof using HS.
  destruct HS as [[kf KF] _].
  induction f; intros e p dp e' p' tr L; [discriminate|].
  rewrite py_loop_eq in L. destruct (_ || _); [|inversion L; reflexivity]. cbn zeta in L.
  rewrite KF in L. cbn [fst snd] in L.
  destruct (accepted _); [|inversion L; reflexivity].
  destruct (after_ok _ _ _ _ _ _ _ _) as [p2 dp'].
  destruct (close0 atol dt); [inversion L; reflexivity|].
  destruct (py_loop K f atol dt endt e p2 dp') as [[[e2 p3] tr2]|] eqn:L2; [|discriminate].
  inversion L; subst. eapply IHf; exact L2.
Qed.

Lemma one_e : forall e p e' p' tr, one e p = Some (e', p', tr) -> e' = e.
Proof using HS.
  intros e p e' p' tr L. unfold py_particle in L. destruct (_ && _); [inversion L; reflexivity|].
  eapply py_loop_e; exact L.
Qed.

Lemma pass_e : forall ps e e' ps' tr, pass one e ps = Some (e', ps', tr) ->
  e' = e /\ Forall2 (fun p p' => exists tr1, one e p = Some (e, p', tr1)) ps ps'.
Proof using HS.
  induction ps as [|p t IH]; intros e e' ps' tr P; cbn [pass] in P.
  - inversion P; subst. split; [reflexivity|constructor].
  - destruct (one e p) as [[[e1 p1] tr1]|] eqn:O; [|discriminate].
    pose proof (one_e _ _ _ _ _ O) as Q. rewrite Q in *. clear e1 Q.
    destruct (pass one e t) as [[[e2 ps2] tr2]|] eqn:P2; [|discriminate].
    destruct (IH _ _ _ _ P2) as [-> F]. inversion P; subst. split; [reflexivity|].
    constructor; [eauto|exact F].
Qed.

(** A particle that is not in error after a pass is not changed by another one. *)
Lemma one_settles : forall e p p' tr,
  one e p = Some (e, p', tr) -> in_error p' = true \/ one e p' = Some (e, p', []).
Proof using HN HA HD.
  intros e p p' tr L.
  assert (NZ : close0 atol dt = false) by (unfold close0; lia).
  (* a particle in state Success is left alone *)
  assert (SU : forall q f, q_st q = st_Success -> py_particle (H:=H) K (S f) atol dt endt e q = Some (e, q, [])).
  { intros q f SQ. unfold py_particle. destruct (_ && _).
    - destruct (_ <=? _); [|reflexivity]. f_equal. f_equal. f_equal. rewrite <- SQ. apply set_st_eta.
    - rewrite py_loop_eq, SQ, NZ. reflexivity. }
  destruct (in_error p') eqn:IE; [left; reflexivity|right].
  unfold py_particle in L.
  destruct ((negb (Z.sgn (endt - q_time p) =? Z.sgn dt)
       || close0 atol (Z.min (Z.abs (q_dt p)) (Z.abs (endt - q_time p)))) && negb (close0 atol dt)) eqn:SK.
  - (* skipped *)
    unfold py_particle.
    assert (T : q_time p' = q_time p /\ q_dt p' = q_dt p).
    { destruct (_ <=? _) in L; inversion L; subst; split; reflexivity. }
    destruct T as [T1 T2]. rewrite T1, T2, SK.
    destruct (Z.abs endt <=? Z.abs (q_time p)) eqn:B; inversion L; subst; reflexivity.
  - destruct lf as [|f]; [discriminate|]. clear SK.
    assert (G : forall g e p dp e' p' tr, py_loop (H:=H) K g atol dt endt e p dp = Some (e', p', tr) ->
              in_error p' = false -> q_st p' = st_Success).
    { clear - HN NZ. induction g; intros e p dp e' p' tr L IE; [discriminate|].
      rewrite py_loop_eq, NZ, orb_false_r in L.
      destruct ((q_st p =? st_Evaluate) || (q_st p =? op_Repeat)) eqn:W.
      2:{ inversion L; subst. unfold in_error in IE. codes. lia. }
      cbn zeta in L. set (pdt := Z.sgn dt * dp) in *.
      set (r := snd (K e (at_dt p pdt))) in *.
      set (c := outcome (close atol) (q_st p) pdt r) in *.
      destruct (accepted c) eqn:AC.
      - destruct (after_ok Z.sgn atol dt endt p c (k_next r) r) as [p2 dp'].
        destruct (py_loop K g atol dt endt (fst (K e (at_dt p pdt))) p2 dp') as [[[e2 p3] tr2]|] eqn:L2;
          [|discriminate]. inversion L; subst. eapply IHg; eassumption.
      - inversion L; subst. unfold after_fail, in_error in IE. cbn [q_st] in IE.
        unfold after_fail. cbn [q_st].
        assert (NE : signalled (q_st p) r <> st_Evaluate).
        { apply (HN e (at_dt p pdt)). cbn [at_dt q_st]. codes. lia. }
        unfold accepted in AC. codes.
        assert (NC : c <> 1). { unfold c, outcome. codes. destruct (_ && _); [discriminate|exact NE]. }
        lia. }
    apply SU. eapply G; [exact L|exact IE].
Qed.

Variable rmap : Z -> option (rkernel H).

Lemma recover_e : forall ps e e' ps' tr r, recover interp rmap e ps = (e', ps', tr, r) -> e' = e.
Proof using HS.
  destruct HS as [_ [g GI]].
  induction ps as [|p t IH]; intros e e' ps' tr r R; cbn [recover] in R; [inversion R; reflexivity|].
  destruct (negb (in_error p)).
  { destruct (recover interp rmap e t) as [[[e1 t1] tr1] r1] eqn:Rt. inversion R; subst. eauto. }
  destruct (q_st p =? op_StopExecution); [inversion R; reflexivity|].
  destruct (q_st p =? op_Repeat).
  { destruct (recover interp rmap e t) as [[[e1 t1] tr1] r1] eqn:Rt. inversion R; subst. eauto. }
  destruct (q_st p =? op_Delete).
  { destruct (recover interp rmap e t) as [[[e1 t1] tr1] r1] eqn:Rt. inversion R; subst. eauto. }
  destruct (rmap (q_st p)) as [h|].
  - assert (EH : exists o, run_rkernel interp h e (set_st p st_Success) = (e, o)).
    { destruct h as [h|]; cbn [run_rkernel]; [rewrite GI|]; eauto. }
    destruct EH as [o EH]. rewrite EH in R. destruct o as [p1|].
    + cbn zeta in R. destruct (recover interp rmap e t) as [[[e2 t1] tr1] r1] eqn:Rt.
      inversion R; subst. eauto.
    + inversion R; subst. reflexivity.
  - destruct (recover interp rmap e t) as [[[e1 t1] tr1] r1] eqn:Rt. inversion R; subst. eauto.
Qed.

Lemma recover_single : forall ps e e' ps' tr,
  recover interp rmap e ps = (e', ps', tr, RNext) ->
  Forall2 (fun p p' => exists tr1, recover interp rmap e [p] = (e, [p'], tr1, RNext) /\
                                   (in_error p = false -> p' = p)) ps ps'.
Proof using HS.
  pose proof HS as [_ [g GI]].
  induction ps as [|p t IH]; intros e e' ps' tr R; cbn [recover] in R; [inversion R; constructor|].
  destruct (in_error p) eqn:IE; cbn [negb] in R.
  2:{ destruct (recover interp rmap e t) as [[[e1 t1] tr1] r1] eqn:Rt. inversion R; subst.
      constructor; [|eauto]. eexists. cbn [recover]. rewrite IE. cbn [negb]. auto. }
  destruct (q_st p =? op_StopExecution) eqn:C1; [discriminate|].
  destruct (q_st p =? op_Repeat) eqn:C2.
  { destruct (recover interp rmap e t) as [[[e1 t1] tr1] r1] eqn:Rt. inversion R; subst.
    constructor; [|eauto]. eexists. cbn [recover]. rewrite IE, C1, C2. cbn [negb].
    split; [reflexivity|congruence]. }
  destruct (q_st p =? op_Delete) eqn:C3.
  { destruct (recover interp rmap e t) as [[[e1 t1] tr1] r1] eqn:Rt. inversion R; subst.
    constructor; [|eauto]. eexists. cbn [recover]. rewrite IE, C1, C2, C3. cbn [negb].
    split; [reflexivity|congruence]. }
  destruct (rmap (q_st p)) as [h|] eqn:RM.
  - assert (EH : exists o, run_rkernel interp h e (set_st p st_Success) = (e, o)).
    { destruct h as [h|]; cbn [run_rkernel]; [rewrite GI|]; eauto. }
    destruct EH as [o EH]. rewrite EH in R. destruct o as [p1|]; [|discriminate].
    cbn zeta in R. destruct (recover interp rmap e t) as [[[e2 t1] tr1] r1] eqn:Rt.
    inversion R; subst. constructor; [|eauto]. eexists. cbn [recover].
    rewrite IE, C1, C2, C3, RM, EH. cbn [negb]. split; [reflexivity|congruence].
  - destruct (recover interp rmap e t) as [[[e1 t1] tr1] r1] eqn:Rt. inversion R; subst.
    constructor; [|eauto]. eexists. cbn [recover]. rewrite IE, C1, C2, C3, RM. cbn [negb].
    split; [reflexivity|congruence].
Qed.

Lemma combine_runs {A B C D : Type} (nd : B -> bool) (P : A -> B -> Prop) (Q : B -> C -> Prop)
      (R : C -> list D -> Prop) (G : A -> list D -> Prop) :
  forall la lb, Forall2 P la lb -> forall lc ld, Forall2 Q (filter nd lb) lc -> Forall2 R lc ld ->
  (forall a b, P a b -> nd b = false -> G a []) ->
  (forall a b c d, P a b -> nd b = true -> Q b c -> R c d -> G a d) ->
  exists lr, Forall2 G la lr /\ concat lr = concat ld.
Proof.
  intros la lb PF lc ld FQ FR H1 H2. revert lc ld FQ FR. induction PF as [|a b la lb PAB F IH]; intros lc ld FQ FR; cbn [filter] in FQ.
  - inversion FQ; subst. inversion FR; subst. exists []. split; [constructor|reflexivity].
  - destruct (nd b) eqn:NB.
    + inversion FQ as [|b0 c lb0 lc0 QBC FQ']; subst. inversion FR as [|c0 d lc1 ld0 RCD FR']; subst.
      destruct (IH _ _ FQ' FR') as (lr & FG & CC).
      exists (d :: lr). split; [constructor; eauto|]. cbn [concat]. rewrite CC. reflexivity.
    + destruct (IH _ _ FQ FR) as (lr & FG & CC). exists ([] :: lr).
      split; [constructor; eauto|]. exact CC.
Qed.

Notation rounds1 fuel := (rounds interp fuel (pass one) (fun e => e) (fun _ e => e) rmap).

Lemma rounds_empty : forall fuel out e, rounds1 fuel out e [] = (e, [], [], XDone).
Proof using. intros [|f] out e; reflexivity. Qed.

Lemma rounds_quiet : forall fuel out e p, in_error p = false -> rounds1 fuel out e [p] = (e, [p], [], XDone).
Proof using. intros [|f] out e p IE; cbn [rounds existsb]; rewrite IE; reflexivity. Qed.

Lemma rounds_split : forall fuel out e ps e' ps' tr,
  rounds1 fuel out e ps = (e', ps', tr, XDone) ->
  Forall (fun p => in_error p = true \/ one e p = Some (e, p, [])) ps ->
  e' = e /\
  exists rs, Forall2 (fun p r => exists tr1, rounds1 fuel out e [p] = (e, r, tr1, XDone)) ps rs /\
             ps' = concat rs.
Proof using HS HN HA HD.
  induction fuel; intros out e ps e' ps' tr R SE.
  - cbn [rounds] in R. destruct (existsb in_error ps) eqn:EE; [discriminate|]. inversion R; subst.
    split; [reflexivity|]. exists (map (fun p => [p]) ps'). split.
    + clear - EE. induction ps' as [|p t IH]; cbn [existsb map] in *; [constructor|].
      apply orb_false_iff in EE. destruct EE as [E1 E2]. constructor; [|auto].
      exists []. apply rounds_quiet. exact E1.
    + clear. induction ps'; [reflexivity|]. cbn [map concat app]. f_equal. assumption.
  - cbn [rounds] in R. destruct (existsb in_error ps) eqn:EE; cbn [negb] in R.
    2:{ inversion R; subst. split; [reflexivity|]. exists (map (fun p => [p]) ps'). split.
        - clear - EE. induction ps' as [|p t IH]; cbn [existsb map] in *; [constructor|].
          apply orb_false_iff in EE. destruct EE as [E1 E2]. constructor; [|auto].
          exists []. apply rounds_quiet. exact E1.
        - clear. induction ps'; [reflexivity|]. cbn [map concat app]. f_equal. assumption. }
    destruct (recover interp rmap e ps) as [[[e1 ps1] tr1] rs] eqn:RC.
    pose proof (recover_e _ _ _ _ _ _ RC) as Q1. subst e1.
    destruct rs; [|discriminate|discriminate].
    pose proof (recover_single _ _ _ _ _ RC) as RS.
    destruct (remove_deleted out ps1) as [ps2 tr2] eqn:RD. rewrite remove_deleted_eq in RD.
    assert (P2 : ps2 = filter (fun p => negb (is_deleted p)) ps1) by congruence. clear RD.
    destruct (pass one e ps2) as [[[e3 ps3] tr3]|] eqn:PA; [|discriminate].
    destruct (pass_e _ _ _ _ _ PA) as [-> PF].
    destruct (rounds1 fuel out e ps3) as [[[e4 ps4] tr4] r4] eqn:RR.
    inversion R; subst e' ps' tr r4.
    assert (SE3 : Forall (fun p => in_error p = true \/ one e p = Some (e, p, [])) ps3).
    { clear - PF HN HA HD. induction PF as [|p p' l l' [t O] F IH]; constructor; [|exact IH].
      eapply one_settles; exact O. }
    destruct (IHfuel _ _ _ _ _ _ RR SE3) as [-> (rs3 & F3 & C3)].
    split; [reflexivity|]. rewrite C3. rewrite P2 in PF.
    assert (RS' : Forall2 (fun p p' => (exists tr1, recover interp rmap e [p] = (e, [p'], tr1, RNext) /\
                    (in_error p = false -> p' = p)) /\
                    (in_error p = true \/ one e p = Some (e, p, []))) ps ps1).
    { clear - RS SE. induction RS; [constructor|]. apply Forall_cons_iff in SE. destruct SE as [S1 S2].
      constructor; auto. }
    destruct (combine_runs (fun p => negb (is_deleted p)) _ _ _
       (fun p r => exists tr1, rounds1 (S fuel) out e [p] = (e, r, tr1, XDone)) _ _ RS' _ _ PF F3)
      as (lr & FG & CC).
    + intros p p1 [[t [RP NE]] SP] DL.
      destruct (in_error p) eqn:IE.
      * cbn [rounds existsb]. rewrite IE. cbn [orb negb]. rewrite RP. rewrite remove_deleted_eq.
        cbn [filter]. rewrite DL. cbn [pass]. rewrite rounds_empty. eauto.
      * specialize (NE eq_refl). subst p1. exfalso.
        unfold is_deleted in DL. unfold in_error in IE. codes. lia.
    + intros p p1 p3 r [[t [RP NE]] SP] DL [t3 O3] [t4 R4].
      destruct (in_error p) eqn:IE.
      * cbn [rounds existsb]. rewrite IE. cbn [orb negb]. rewrite RP. rewrite remove_deleted_eq.
        cbn [filter]. rewrite DL. cbn [pass]. rewrite O3, R4. eauto.
      * specialize (NE eq_refl). subst p1. destruct SP as [SP|SP]; [discriminate|].
        rewrite SP in O3. inversion O3; subst p3. rewrite rounds_quiet in R4 by exact IE.
        rewrite rounds_quiet by exact IE. inversion R4; subst. eauto.
    + exists lr. split; [exact FG|symmetry; exact CC].
Qed.

End Indep.

Lemma execute_split : forall lf rf atol dt endt user out e ps e' ps' tr,
  self_contained K interp -> never_evaluate K -> 0 <= atol -> atol < Z.abs dt ->
  py_execute K interp lf rf atol dt endt user out e ps = (e', ps', tr, XDone) ->
  exists rs, Forall2 (fun p r => exists tr1,
                py_execute K interp lf rf atol dt endt user out e [p] = (e, r, tr1, XDone)) ps rs /\
             ps' = concat rs.
Proof.
  intros lf rf atol dt endt user out e ps e' ps' tr HS HN HA HD R.
  unfold py_execute, execute in R. cbn zeta in R.
  set (ps0 := map (fun p => set_st p st_Evaluate) ps) in *. unfold py_pass in R.
  destruct (pass (py_particle K lf atol dt endt) e ps0) as [[[e1 ps1] tr1]|] eqn:PA; [|discriminate].
  destruct (pass_e _ _ _ _ HS _ _ _ _ _ PA) as [-> PF].
  destruct (remove_deleted out ps1) as [ps2 tr2] eqn:RD. rewrite remove_deleted_eq in RD.
  assert (P2 : ps2 = filter (fun p => negb (is_deleted p)) ps1) by congruence. clear RD.
  destruct (rounds interp rf (pass (py_particle K lf atol dt endt)) (fun e => e) (fun _ e => e)
              (recovery_map user) out e ps2) as [[[e3 ps3] tr3] r3] eqn:RR.
  inversion R; subst e' ps' tr r3.
  assert (SE : Forall (fun p => in_error p = true \/ py_particle (H:=H) K lf atol dt endt e p = Some (e, p, [])) ps2).
  { rewrite P2. apply Forall_filter. clear - PF HN HA HD.
    induction PF as [|p p' l l' [t O] F IH]; constructor; [|exact IH].
    exact (one_settles _ _ _ _ HN HA HD _ _ _ _ O). }
  destruct (rounds_split lf atol dt endt HS HN HA HD (recovery_map user) _ _ _ _ _ _ _ RR SE) as [-> (rs & F & ->)].
  assert (PF0 : Forall2 (fun p p' => exists tr1,
     py_particle (H:=H) K lf atol dt endt e (set_st p st_Evaluate) = Some (e, p', tr1)) ps ps1).
  { clear - PF. unfold ps0 in PF. remember (map (fun p => set_st p st_Evaluate) ps) as l.
    revert ps Heql. induction PF; intros ps Q; destruct ps; try discriminate; constructor.
    - inversion Q; subst. assumption.
    - inversion Q; subst. eauto. }
  assert (ID2 : Forall2 (@eq pcl) (filter (fun p => negb (is_deleted p)) ps1) ps2).
  { rewrite P2. clear. induction (filter _ ps1); constructor; auto. }
  destruct (combine_runs (fun p => negb (is_deleted p)) _ _ _
     (fun p r => exists tr1, py_execute K interp lf rf atol dt endt user out e [p] = (e, r, tr1, XDone))
     _ _ PF0 _ _ ID2 F) as (lr & FG & CC).
  - intros p p1 [t O] DL. unfold py_execute, execute, py_pass. cbn [map pass]. rewrite O.
    rewrite remove_deleted_eq. cbn [filter]. rewrite DL. rewrite rounds_empty. eauto.
  - intros p p1 p2 r [t O] DL <- [t4 R4]. unfold py_execute, execute, py_pass. cbn [map pass]. rewrite O.
    rewrite remove_deleted_eq. cbn [filter]. rewrite DL, R4. eauto.
  - exists lr. split; [exact FG|symmetry; exact CC].
Qed.

End Eq.
