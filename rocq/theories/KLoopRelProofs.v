(** A relation that every pass and every recovery step establishes between a particle before, its
    events, and the particle after, holds for the whole of Kernel.execute.  Instances: steps tile the
    time axis over all recovery rounds (C07). *)
From Coq Require Import List ZArith Bool Lia ZifyBool.
From Verif Require Import CollModel KLoopModel KLoopSpec KLoopProofs KLoopRecProofs KLoopStepProofs.
Import ListNotations.
Open Scope Z_scope.

Section Rel.
Context {E X H S : Type}.
Notation pcl := (pcl X).
Notation ev := (ev H).
Variable interp : handlers E X H.
Variable one : S -> pcl -> option (S * pcl * list ev).
Hypothesis one_spec : forall s p s' p' tr, one s p = Some (s', p', tr) -> one_ok p tr p'.
Variable get_e : S -> E.
Variable put_e : S -> E -> S.
Variable rmap : Z -> option (rkernel H).
Variable R : pcl -> list ev -> pcl -> Prop.
Hypothesis R_st : forall p s, R p [] (set_st p s).
Hypothesis R_trans : forall p a q b r, R p a q -> R q b r -> R p (a ++ b) r.
Hypothesis R_one : forall s p s' p' tr, one s p = Some (s', p', tr) -> R p tr p'.
Hypothesis R_handler : forall h e e' p p1 c st2,
  interp h e (set_st p st_Success) = (e', Some p1) ->
  R p [EHandler (q_id p) c (RUser h) (Some (q_st p1))] (mkPcl (q_id p) (q_time p1) (q_dt p1) st2 (q_x p1)).
Hypothesis R_raise : forall h p c, R p [EHandler (q_id p) c h None] (set_st p st_Success).
Hypothesis R_unhandled : forall p c, R p [EUnhandled (q_id p) c] (set_st p op_Delete).

Notation ids := (map (@q_id X)).

Lemma set_st_eta : forall p : pcl, set_st p (q_st p) = p.
Proof. intros []. reflexivity. Qed.

Lemma R_refl : forall p, R p [] p.
Proof. intros p. rewrite <- (set_st_eta p) at 2. apply R_st. Qed.

Lemma recover_rel : forall ps e e' ps' tr r,
  recover interp rmap e ps = (e', ps', tr, r) -> NoDup (ids ps) ->
  Forall2 (fun p p' => q_id p' = q_id p /\ R p (events_of (q_id p) tr) p') ps ps'.
Proof.
  induction ps as [|p t IH]; intros e e' ps' tr r RR ND; cbn [recover] in RR; [inversion RR; constructor|].
  cbn [map] in ND. inversion ND as [|? ? NI ND']; subst.
  assert (G : forall q, In q t -> q_id p =? q_id q = false).
  { intros q Q. apply Z.eqb_neq. intro Eq. apply NI. rewrite Eq. apply in_map. exact Q. }
  assert (TL : forall v (tr1 : list ev) t1, (forall q, In q t -> ev_about (q_id q) v = false) ->
     Forall2 (fun p p' => q_id p' = q_id p /\ R p (events_of (q_id p) tr1) p') t t1 ->
     Forall2 (fun p p' => q_id p' = q_id p /\ R p (events_of (q_id p) (v :: tr1)) p') t t1).
  { intros v tr1 t1 A F. clear - A F. induction F as [|a b l l' RR F IH]; [constructor|].
    constructor; [|apply IH; intros; apply A; right; assumption].
    cbn [events_of filter]. rewrite A by (left; reflexivity). exact RR. }
  assert (SAME : forall l, Forall2 (fun p p' => q_id p' = q_id p /\ R p (events_of (q_id p) []) p') l l).
  { intros l. apply Forall2_same. intros. split; [reflexivity|apply R_refl]. }
  destruct (in_error p) eqn:IE; cbn [negb] in RR.
  2:{ destruct (recover interp rmap e t) as [[[e1 t1] tr1] r1] eqn:Rt. inversion RR; subst.
      constructor; [|eapply IH; eassumption]. split; [reflexivity|].
      rewrite (recover_other _ _ _ _ _ _ _ _ _ Rt NI). apply R_refl. }
  destruct (q_st p =? op_StopExecution) eqn:ST.
  { inversion RR; subst. apply (SAME (p :: t)). }
  destruct (q_st p =? op_Repeat) eqn:RP.
  { destruct (recover interp rmap e t) as [[[e1 t1] tr1] r1] eqn:Rt. inversion RR; subst.
    constructor; [|eapply IH; eassumption]. split; [reflexivity|].
    rewrite (recover_other _ _ _ _ _ _ _ _ _ Rt NI). apply R_st. }
  destruct (q_st p =? op_Delete) eqn:DL.
  { destruct (recover interp rmap e t) as [[[e1 t1] tr1] r1] eqn:Rt. inversion RR; subst.
    constructor; [|eapply IH; eassumption]. split; [reflexivity|].
    rewrite (recover_other _ _ _ _ _ _ _ _ _ Rt NI). apply R_refl. }
  destruct (rmap (q_st p)) as [h|] eqn:RM.
  - destruct (run_rkernel interp h e (set_st p st_Success)) as [e1 [p1|]] eqn:RK.
    + cbn zeta in RR. destruct (recover interp rmap e1 t) as [[[e2 t1] tr1] r1] eqn:Rt.
      inversion RR; subst. constructor.
      * split; [reflexivity|]. cbn [events_of filter ev_about]. rewrite Z.eqb_refl.
        change (filter (ev_about (q_id p)) tr1) with (events_of (q_id p) tr1).
        rewrite (recover_other _ _ _ _ _ _ _ _ _ Rt NI).
        destruct h as [h|]; [|discriminate RK]. eapply R_handler. exact RK.
      * apply TL; [intros q Q; cbn [ev_about]; apply G; exact Q|eapply IH; eassumption].
    + inversion RR; subst. constructor.
      * split; [reflexivity|]. cbn [events_of filter ev_about]. rewrite Z.eqb_refl. apply R_raise.
      * apply TL; [intros q Q; cbn [ev_about]; apply G; exact Q|]. apply SAME.
  - destruct (recover interp rmap e t) as [[[e1 t1] tr1] r1] eqn:Rt. inversion RR; subst.
    constructor.
    + split; [reflexivity|]. cbn [events_of filter ev_about]. rewrite Z.eqb_refl.
      change (filter (ev_about (q_id p)) tr1) with (events_of (q_id p) tr1).
      rewrite (recover_other _ _ _ _ _ _ _ _ _ Rt NI). apply R_unhandled.
    + apply TL; [intros q Q; cbn [ev_about]; apply G; exact Q|eapply IH; eassumption].
Qed.

Lemma Forall2_in_r {A B} (P : A -> B -> Prop) : forall l l' y,
  Forall2 P l l' -> In y l' -> exists x, In x l /\ P x y.
Proof.
  induction 1; intros I; [inversion I|]. destruct I as [->|I].
  - exists x. cbn; auto.
  - destruct (IHForall2 I) as (z & A1 & A2). exists z; cbn; auto.
Qed.

Lemma rounds_rel : forall fuel out s ps s' ps' tr r,
  rounds interp fuel (pass one) get_e put_e rmap out s ps = (s', ps', tr, r) -> NoDup (ids ps) ->
  forall p', In p' ps' -> exists p, In p ps /\ q_id p' = q_id p /\ R p (events_of (q_id p) tr) p'.
Proof.
  assert (ID : forall ps (p' : pcl), In p' ps ->
     exists p, In p ps /\ q_id p' = q_id p /\ R p (events_of (q_id p) (@nil ev)) p').
  { intros ps p' I. exists p'. split; [exact I|]. split; [reflexivity|apply R_refl]. }
  induction fuel; intros out s ps s' ps' tr r RR ND p' IP'; cbn [rounds] in RR.
  - destruct (negb _); inversion RR; subst; auto.
  - destruct (negb _); [inversion RR; subst; auto|].
    destruct (recover interp rmap (get_e s) ps) as [[[e1 ps1] tr1] rs] eqn:RC.
    pose proof (recover_rel _ _ _ _ _ _ RC ND) as RE1.
    assert (ST : forall q, In q ps1 ->
      exists p, In p ps /\ q_id q = q_id p /\ R p (events_of (q_id p) tr1) q).
    { intros q Q. destruct (Forall2_in_r _ _ _ _ RE1 Q) as (p & A & B & C). eauto. }
    destruct rs; [|inversion RR; subst; auto|inversion RR; subst; auto].
    pose proof (remove_events (H:=H) out ps1) as RE.
    destruct (remove_deleted out ps1) as [ps2 tr2] eqn:RD. cbn [snd] in RE.
    rewrite remove_deleted_eq in RD. assert (P2 : ps2 = filter (fun p => negb (is_deleted p)) ps1) by congruence.
    assert (ND1 : NoDup (ids ps1)) by (rewrite (recover_ids _ _ _ _ _ _ _ _ RC); exact ND).
    assert (ND2 : NoDup (ids ps2)) by (rewrite P2; apply NoDup_filter_ids; exact ND1).
    destruct (pass one (put_e s e1) ps2) as [[[s3 ps3] tr3]|] eqn:PA.
    + destruct (rounds interp fuel (pass one) get_e put_e rmap out s3 ps3) as [[[s4 ps4] tr4] r4] eqn:R4.
      inversion RR; subst s' ps' tr r.
      assert (ND3 : NoDup (ids ps3)) by (rewrite (pass_ids _ one_spec _ _ _ _ _ PA); exact ND2).
      destruct (IHfuel _ _ _ _ _ _ _ R4 ND3 _ IP') as (p3 & IP3 & Q4 & R3).
      destruct (Forall2_in_r _ _ _ _ (pass_each_raw (E:=E) _ one_spec get_e put_e rmap _ _ _ _ _ PA ND2) IP3)
        as (p2 & IP2 & sa & sb & O2).
      assert (Q3 : q_id p3 = q_id p2) by (apply (one_spec _ _ _ _ _ O2)).
      rewrite P2 in IP2. apply filter_In in IP2. destruct IP2 as [IP2 _].
      destruct (ST _ IP2) as (p & IP & Q2 & R2).
      exists p. split; [exact IP|]. split; [congruence|].
      rewrite !events_of_app, RE. cbn [app].
      eapply R_trans; [exact R2|]. rewrite Q2 in O2. rewrite Q3, Q2 in R3.
      eapply R_trans; [eapply R_one; exact O2|exact R3].
    + inversion RR; subst. apply filter_In in IP'. destruct IP' as [IP' _].
      destruct (ST _ IP') as (p & IP & Q2 & R2). exists p. split; [exact IP|]. split; [exact Q2|].
      rewrite events_of_app, RE, app_nil_r. exact R2.
Qed.

Lemma execute_rel : forall fuel user out s ps s' ps' tr r,
  rmap = recovery_map user ->
  execute interp fuel (pass one) get_e put_e user out s ps = (s', ps', tr, r) -> NoDup (ids ps) ->
  forall p', In p' ps' ->
  exists p, In p ps /\ q_id p' = q_id p /\ R (set_st p st_Evaluate) (events_of (q_id p) tr) p'.
Proof.
  intros fuel user out s ps s' ps' tr r RM RR ND p' IP'. unfold execute in RR. rewrite <- RM in RR.
  set (ps0 := map (fun p => set_st p st_Evaluate) ps) in *. cbn zeta in RR.
  assert (ND0 : NoDup (ids ps0)) by (unfold ps0; rewrite ids_reset; exact ND).
  destruct (pass one s ps0) as [[[s1 ps1] tr1]|] eqn:PA.
  2:{ inversion RR; subst. unfold ps0 in IP'. apply in_map_iff in IP'. destruct IP' as (p & <- & IP).
      exists p. split; [exact IP|]. split; [reflexivity|]. apply R_refl. }
  pose proof (remove_events (H:=H) out ps1) as RE.
  destruct (remove_deleted out ps1) as [ps2 tr2] eqn:RD. cbn [snd] in RE.
  rewrite remove_deleted_eq in RD. assert (P2 : ps2 = filter (fun p => negb (is_deleted p)) ps1) by congruence.
  assert (ND1 : NoDup (ids ps1)) by (rewrite (pass_ids _ one_spec _ _ _ _ _ PA); exact ND0).
  assert (ND2 : NoDup (ids ps2)) by (rewrite P2; apply NoDup_filter_ids; exact ND1).
  destruct (rounds interp fuel (pass one) get_e put_e rmap out s1 ps2) as [[[s3 ps3] tr3] r3] eqn:R4.
  inversion RR; subst s' ps' tr r.
  destruct (rounds_rel _ _ _ _ _ _ _ _ R4 ND2 _ IP') as (p2 & IP2 & Q4 & R3).
  rewrite P2 in IP2. apply filter_In in IP2. destruct IP2 as [IP2 _].
  destruct (Forall2_in_r _ _ _ _ (pass_each_raw (E:=E) _ one_spec get_e put_e rmap _ _ _ _ _ PA ND0) IP2)
    as (p0 & IP0 & sa & sb & O0).
  assert (Q3 : q_id p2 = q_id p0) by (apply (one_spec _ _ _ _ _ O0)).
  unfold ps0 in IP0. apply in_map_iff in IP0. destruct IP0 as (p & <- & IP).
  cbn [set_st q_id] in Q3, O0. exists p. split; [exact IP|]. split; [congruence|].
  rewrite !events_of_app, RE. cbn [app]. rewrite Q3 in R3.
  eapply R_trans; [eapply R_one; exact O0|exact R3].
Qed.

End Rel.
