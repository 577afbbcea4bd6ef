(** Proofs about error recovery and deletion over a whole set, for both modes. *)
From Coq Require Import List ZArith Bool Lia ZifyBool.
From Verif Require Import CollModel KLoopModel KLoopSpec KLoopProofs.
Import ListNotations.
Open Scope Z_scope.

Ltac codes := unfold st_Success, st_Evaluate, op_Repeat, op_Delete, op_StopExecution in *.

Section Rec.
Context {E X H S : Type}.
Notation pcl := (pcl X).
Notation ev := (ev H).
Variable interp : handlers E X H.
Variable one : S -> pcl -> option (S * pcl * list ev).
Hypothesis one_spec : forall s p s' p' tr, one s p = Some (s', p', tr) -> one_ok p tr p'.
Variable get_e : S -> E.
Variable put_e : S -> E -> S.
Variable rmap : Z -> option (rkernel H).

Notation ids := (map (@q_id X)).

(** ** Projections *)

Lemma events_of_app : forall id (a b : list ev), events_of id (a ++ b) = events_of id a ++ events_of id b.
Proof. intros. apply filter_app. Qed.

Lemma written_app : forall (a b : list ev), written_deleted (a ++ b) = written_deleted a ++ written_deleted b.
Proof. intros. apply flat_map_app. Qed.

Lemma disciplined_app : forall a l1 b l2 c,
  disciplined rmap a l1 b -> disciplined rmap b l2 c -> disciplined rmap a (l1 ++ l2) c.
Proof.
  induction 1; cbn [app]; intros; [assumption|]. econstructor; eauto.
Qed.

Lemma one_ok_events_self : forall (p : pcl) (tr : list ev) (p' : pcl), one_ok p tr p' -> events_of (q_id p) tr = tr.
Proof.
  intros p tr p' [_ [[-> _]|(cs & t & h & c & -> & F & _)]]; [reflexivity|].
  rewrite events_of_app. cbn [events_of filter ev_about]. rewrite Z.eqb_refl. f_equal.
  induction F as [|v l (t' & h' & ->) F IH]; [reflexivity|].
  cbn [events_of filter ev_about]. rewrite Z.eqb_refl. f_equal. exact IH.
Qed.

Lemma one_ok_events_other : forall (p : pcl) (tr : list ev) (p' : pcl) id, one_ok p tr p' -> id <> q_id p -> events_of id tr = [].
Proof.
  intros p tr p' id [_ [[-> _]|(cs & t & h & c & -> & F & _)]] N; [reflexivity|].
  assert (B : q_id p =? id = false) by (apply Z.eqb_neq; congruence).
  rewrite events_of_app. cbn [events_of filter ev_about]. rewrite B, app_nil_r.
  induction F as [|v l (t' & h' & ->) F IH]; [reflexivity|].
  cbn [events_of filter ev_about]. rewrite B. exact IH.
Qed.

Lemma one_ok_written : forall (p : pcl) (tr : list ev) (p' : pcl), one_ok p tr p' -> written_deleted tr = [].
Proof.
  intros p tr p' [_ [[-> _]|(cs & t & h & c & -> & F & _)]]; [reflexivity|].
  rewrite written_app. cbn [written_deleted flat_map]. rewrite !app_nil_r.
  induction F as [|v l (t' & h' & ->) F IH]; [reflexivity|]. exact IH.
Qed.

(** ** One pass *)

Lemma pass_ids : forall ps s s' ps' tr, pass one s ps = Some (s', ps', tr) -> ids ps' = ids ps.
Proof.
  induction ps as [|p t IH]; intros s s' ps' tr P; cbn [pass] in P; [inversion P; reflexivity|].
  destruct (one s p) as [[[s1 p1] tr1]|] eqn:O; [|discriminate].
  destruct (pass one s1 t) as [[[s2 ps2] tr2]|] eqn:P2; [|discriminate].
  inversion P; subst. cbn [map]. f_equal; [apply (one_spec _ _ _ _ _ O)|eauto].
Qed.

Lemma pass_other : forall ps s s' ps' tr id,
  pass one s ps = Some (s', ps', tr) -> ~ In id (ids ps) -> events_of id tr = [].
Proof.
  induction ps as [|p t IH]; intros s s' ps' tr id P N; cbn [pass] in P; [inversion P; reflexivity|].
  destruct (one s p) as [[[s1 p1] tr1]|] eqn:O; [|discriminate].
  destruct (pass one s1 t) as [[[s2 ps2] tr2]|] eqn:P2; [|discriminate].
  inversion P; subst. cbn [map In] in N. rewrite events_of_app.
  rewrite (one_ok_events_other _ _ _ _ (one_spec _ _ _ _ _ O)) by (intro; subst; tauto).
  eapply IH; [exact P2|tauto].
Qed.

Lemma pass_written : forall ps s s' ps' tr,
  pass one s ps = Some (s', ps', tr) -> written_deleted tr = [].
Proof.
  induction ps as [|p t IH]; intros s s' ps' tr P; cbn [pass] in P; [inversion P; reflexivity|].
  destruct (one s p) as [[[s1 p1] tr1]|] eqn:O; [|discriminate].
  destruct (pass one s1 t) as [[[s2 ps2] tr2]|] eqn:P2; [|discriminate].
  inversion P; subst. rewrite written_app, (one_ok_written _ _ _ (one_spec _ _ _ _ _ O)).
  eapply IH; exact P2.
Qed.

Lemma pass_each : forall ps s s' ps' tr,
  pass one s ps = Some (s', ps', tr) -> NoDup (ids ps) ->
  Forall2 (fun p p' => one_ok p (events_of (q_id p) tr) p') ps ps'.
Proof.
  induction ps as [|p t IH]; intros s s' ps' tr P ND; cbn [pass] in P; [inversion P; constructor|].
  destruct (one s p) as [[[s1 p1] tr1]|] eqn:O; [|discriminate].
  destruct (pass one s1 t) as [[[s2 ps2] tr2]|] eqn:P2; [|discriminate].
  inversion P; subst. cbn [map] in ND. inversion ND as [|? ? NI ND']; subst.
  pose proof (one_spec _ _ _ _ _ O) as OK.
  constructor.
  - rewrite events_of_app, (one_ok_events_self _ _ _ OK), (pass_other _ _ _ _ _ _ P2 NI), app_nil_r.
    exact OK.
  - specialize (IH _ _ _ _ P2 ND').
    assert (G : forall q, In q t -> q_id q <> q_id p).
    { intros q Q Eq. apply NI. rewrite <- Eq. apply in_map. exact Q. }
    clear - IH G OK. induction IH as [|a b l l' R F IH]; [constructor|].
    constructor; [|apply IH; intros; apply G; right; assumption].
    rewrite events_of_app, (one_ok_events_other _ _ _ _ OK); [exact R|].
    apply G. left; reflexivity.
Qed.

Lemma pass_each_raw : forall ps s s' ps' tr,
  pass one s ps = Some (s', ps', tr) -> NoDup (ids ps) ->
  Forall2 (fun p p' => exists s1 s2, one s1 p = Some (s2, p', events_of (q_id p) tr)) ps ps'.
Proof.
  induction ps as [|p t IH]; intros s s' ps' tr P ND; cbn [pass] in P; [inversion P; constructor|].
  destruct (one s p) as [[[s1 p1] tr1]|] eqn:O; [|discriminate].
  destruct (pass one s1 t) as [[[s2 ps2] tr2]|] eqn:P2; [|discriminate].
  inversion P; subst. cbn [map] in ND. inversion ND as [|? ? NI ND']; subst.
  pose proof (one_spec _ _ _ _ _ O) as OK.
  constructor.
  - rewrite events_of_app, (one_ok_events_self _ _ _ OK), (pass_other _ _ _ _ _ _ P2 NI), app_nil_r.
    exists s, s1. exact O.
  - specialize (IH _ _ _ _ P2 ND').
    assert (G : forall q, In q t -> q_id q <> q_id p).
    { intros q Q Eq. apply NI. rewrite <- Eq. apply in_map. exact Q. }
    clear - IH G OK. induction IH as [|a b l l' R F IH]; [constructor|].
    constructor; [|apply IH; intros; apply G; right; assumption].
    rewrite events_of_app, (one_ok_events_other _ _ _ _ OK); [exact R|].
    apply G. left; reflexivity.
Qed.

(** ** Removal *)

Lemma remove_deleted_eq : forall out (ps : list pcl),
  remove_deleted (H:=H) out ps =
  (filter (fun p => negb (is_deleted p)) ps,
   if out && existsb is_deleted ps then [EWriteDeleted (ids (filter is_deleted ps))] else []).
Proof.
  intros out ps. unfold remove_deleted.
  assert (EX : existsb is_deleted ps = match filter is_deleted ps with [] => false | _ => true end).
  { induction ps as [|p t IH]; [reflexivity|]. cbn [existsb filter].
    destruct (is_deleted p); cbn [orb]; [reflexivity|exact IH]. }
  rewrite EX. destruct (filter is_deleted ps); [rewrite andb_false_r; reflexivity|].
  rewrite andb_true_r. reflexivity.
Qed.

Lemma remove_events : forall out (ps : list pcl) id, events_of id (snd (remove_deleted (H:=H) out ps)) = @nil ev.
Proof.
  intros. rewrite remove_deleted_eq. cbn [snd]. destruct (_ && _); reflexivity.
Qed.

Lemma remove_written : forall out (ps : list pcl),
  written_deleted (snd (remove_deleted (H:=H) out ps)) = if out then ids (filter is_deleted ps) else [].
Proof.
  intros. rewrite remove_deleted_eq. cbn [snd].
  destruct out; cbn [andb]; [|reflexivity].
  destruct (existsb is_deleted ps) eqn:EX; cbn [written_deleted flat_map]; [apply app_nil_r|].
  assert (F : filter is_deleted ps = []).
  { induction ps as [|p t IH]; [reflexivity|]. cbn [existsb filter] in *.
    destruct (is_deleted p); [discriminate|apply IH; exact EX]. }
  rewrite F. reflexivity.
Qed.

(** ** Recovery *)

Definition rec_ok (r : rstat) (p : pcl) (tr : list ev) (p' : pcl) : Prop :=
  (tr = [] /\ p' = p /\ (in_error p = false \/ r <> RNext \/ q_st p = op_Delete)) \/
  (tr = [] /\ q_st p = op_Repeat /\ p' = set_st p st_Evaluate) \/
  (exists h o, in_error p = true /\ q_st p <> op_StopExecution /\ q_st p <> op_Repeat /\
     q_st p <> op_Delete /\ rmap (q_st p) = Some h /\
     tr = [EHandler (q_id p) (q_st p) h (Some o)] /\
     q_st p' = (if o =? st_Success then st_Evaluate else o)) \/
  (exists h, in_error p = true /\ q_st p <> op_StopExecution /\ q_st p <> op_Repeat /\
     q_st p <> op_Delete /\ rmap (q_st p) = Some h /\ r = RRaise /\
     tr = [EHandler (q_id p) (q_st p) h None]) \/
  (in_error p = true /\ q_st p <> op_StopExecution /\ q_st p <> op_Repeat /\
     q_st p <> op_Delete /\ rmap (q_st p) = None /\
     tr = [EUnhandled (q_id p) (q_st p)] /\ q_st p' = op_Delete).

Lemma Forall2_same {A} (R : A -> A -> Prop) : forall l, (forall x, In x l -> R x x) -> Forall2 R l l.
Proof.
  induction l; intros; constructor; [apply H0; left; reflexivity|].
  apply IHl. intros. apply H0. right; assumption.
Qed.

Lemma recover_ids : forall ps e e' ps' tr r,
  recover interp rmap e ps = (e', ps', tr, r) -> ids ps' = ids ps.
Proof.
  induction ps as [|p t IH]; intros e e' ps' tr r R; cbn [recover] in R; [inversion R; reflexivity|].
  destruct (negb (in_error p)).
  { destruct (recover interp rmap e t) as [[[e1 t1] tr1] r1] eqn:Rt. inversion R; subst.
    cbn [map]. f_equal. eauto. }
  destruct (q_st p =? op_StopExecution); [inversion R; reflexivity|].
  destruct (q_st p =? op_Repeat).
  { destruct (recover interp rmap e t) as [[[e1 t1] tr1] r1] eqn:Rt. inversion R; subst.
    cbn [map]. f_equal. eauto. }
  destruct (q_st p =? op_Delete).
  { destruct (recover interp rmap e t) as [[[e1 t1] tr1] r1] eqn:Rt. inversion R; subst.
    cbn [map]. f_equal. eauto. }
  destruct (rmap (q_st p)) as [h|].
  - destruct (run_rkernel interp h e (set_st p st_Success)) as [e1 [p1|]].
    + cbn zeta in R. destruct (recover interp rmap e1 t) as [[[e2 t1] tr1] r1] eqn:Rt.
      inversion R; subst. cbn [map q_id]. f_equal. eauto.
    + inversion R; subst. reflexivity.
  - destruct (recover interp rmap e t) as [[[e1 t1] tr1] r1] eqn:Rt. inversion R; subst.
    cbn [map]. f_equal. eauto.
Qed.

Lemma recover_other : forall ps e e' ps' tr r id,
  recover interp rmap e ps = (e', ps', tr, r) -> ~ In id (ids ps) -> events_of id tr = [].
Proof.
  induction ps as [|p t IH]; intros e e' ps' tr r id R N; cbn [recover] in R; [inversion R; reflexivity|].
  cbn [map In] in N.
  assert (B : q_id p =? id = false) by (apply Z.eqb_neq; tauto).
  destruct (negb (in_error p)).
  { destruct (recover interp rmap e t) as [[[e1 t1] tr1] r1] eqn:Rt. inversion R; subst.
    eapply IH; [exact Rt|tauto]. }
  destruct (q_st p =? op_StopExecution); [inversion R; reflexivity|].
  destruct (q_st p =? op_Repeat).
  { destruct (recover interp rmap e t) as [[[e1 t1] tr1] r1] eqn:Rt. inversion R; subst.
    eapply IH; [exact Rt|tauto]. }
  destruct (q_st p =? op_Delete).
  { destruct (recover interp rmap e t) as [[[e1 t1] tr1] r1] eqn:Rt. inversion R; subst.
    eapply IH; [exact Rt|tauto]. }
  destruct (rmap (q_st p)) as [h|].
  - destruct (run_rkernel interp h e (set_st p st_Success)) as [e1 [p1|]].
    + cbn zeta in R. destruct (recover interp rmap e1 t) as [[[e2 t1] tr1] r1] eqn:Rt.
      inversion R; subst. cbn [events_of filter ev_about]. rewrite B. eapply IH; [exact Rt|tauto].
    + inversion R; subst. cbn [events_of filter ev_about]. rewrite B. reflexivity.
  - destruct (recover interp rmap e t) as [[[e1 t1] tr1] r1] eqn:Rt. inversion R; subst.
    cbn [events_of filter ev_about]. rewrite B. eapply IH; [exact Rt|tauto].
Qed.

Lemma recover_written : forall ps e e' ps' tr r,
  recover interp rmap e ps = (e', ps', tr, r) -> written_deleted tr = [].
Proof.
  induction ps as [|p t IH]; intros e e' ps' tr r R; cbn [recover] in R; [inversion R; reflexivity|].
  destruct (negb (in_error p)).
  { destruct (recover interp rmap e t) as [[[e1 t1] tr1] r1] eqn:Rt. inversion R; subst. eauto. }
  destruct (q_st p =? op_StopExecution); [inversion R; reflexivity|].
  destruct (q_st p =? op_Repeat).
  { destruct (recover interp rmap e t) as [[[e1 t1] tr1] r1] eqn:Rt. inversion R; subst. eauto. }
  destruct (q_st p =? op_Delete).
  { destruct (recover interp rmap e t) as [[[e1 t1] tr1] r1] eqn:Rt. inversion R; subst. eauto. }
  destruct (rmap (q_st p)) as [h|].
  - destruct (run_rkernel interp h e (set_st p st_Success)) as [e1 [p1|]].
    + cbn zeta in R. destruct (recover interp rmap e1 t) as [[[e2 t1] tr1] r1] eqn:Rt.
      inversion R; subst. cbn [written_deleted flat_map app]. eapply IH; exact Rt.
    + inversion R; subst. reflexivity.
  - destruct (recover interp rmap e t) as [[[e1 t1] tr1] r1] eqn:Rt. inversion R; subst.
    cbn [written_deleted flat_map app]. eapply IH; exact Rt.
Qed.

(** How recovery ends. *)
Lemma recover_stat : forall ps e e' ps' tr r,
  recover interp rmap e ps = (e', ps', tr, r) ->
  match r with
  | RNext => Forall (fun p => q_st p <> op_StopExecution) ps
  | RStop => exists p, In p ps /\ q_st p = op_StopExecution /\ In p ps'
  | RRaise => exists id c h, In (EHandler id c h None) tr
  end.
Proof.
  assert (NE : forall p : pcl, in_error p = false -> q_st p <> op_StopExecution).
  { intros p I Q. unfold in_error in I. rewrite Q in I. discriminate. }
  induction ps as [|p t IH]; intros e e' ps' tr r R; cbn [recover] in R.
  { inversion R; subst. constructor. }
  assert (L1 : forall e e1 t1 tr1 r1 (q : pcl) (pre : list ev),
     recover interp rmap e t = (e1, t1, tr1, r1) -> q_st p <> op_StopExecution ->
     match r1 with
     | RNext => Forall (fun p => q_st p <> op_StopExecution) (p :: t)
     | RStop => exists p0, In p0 (p :: t) /\ q_st p0 = op_StopExecution /\ In p0 (q :: t1)
     | RRaise => exists id c h, In (EHandler id c h None) (pre ++ tr1)
     end).
  { intros e0 e1 t1 tr1 r1 q pre Rt NS. apply IH in Rt. destruct r1.
    - constructor; assumption.
    - destruct Rt as (p0 & A & B & C). exists p0. cbn [In]. auto.
    - destruct Rt as (i & c & h & A). exists i, c, h. apply in_or_app. auto. }
  destruct (in_error p) eqn:IE; cbn [negb] in R.
  2:{ destruct (recover interp rmap e t) as [[[e1 t1] tr1] r1] eqn:Rt. inversion R; subst.
      apply (L1 _ _ _ _ _ p []  Rt). apply NE; exact IE. }
  destruct (q_st p =? op_StopExecution) eqn:ST.
  { inversion R; subst. exists p. apply Z.eqb_eq in ST. cbn [In]. auto. }
  apply Z.eqb_neq in ST.
  destruct (q_st p =? op_Repeat).
  { destruct (recover interp rmap e t) as [[[e1 t1] tr1] r1] eqn:Rt. inversion R; subst.
    apply (L1 _ _ _ _ _ (set_st p st_Evaluate) [] Rt ST). }
  destruct (q_st p =? op_Delete).
  { destruct (recover interp rmap e t) as [[[e1 t1] tr1] r1] eqn:Rt. inversion R; subst.
    apply (L1 _ _ _ _ _ p [] Rt ST). }
  destruct (rmap (q_st p)) as [h|].
  - destruct (run_rkernel interp h e (set_st p st_Success)) as [e1 [p1|]].
    + cbn zeta in R. destruct (recover interp rmap e1 t) as [[[e2 t1] tr1] r1] eqn:Rt.
      inversion R; subst. eapply (L1 _ _ _ _ _ _ [_] Rt ST).
    + inversion R; subst. eauto using in_eq.
  - destruct (recover interp rmap e t) as [[[e1 t1] tr1] r1] eqn:Rt. inversion R; subst.
    eapply (L1 _ _ _ _ _ _ [_] Rt ST).
Qed.

Lemma recover_each : forall ps e e' ps' tr r,
  recover interp rmap e ps = (e', ps', tr, r) -> NoDup (ids ps) ->
  Forall2 (fun p p' => q_id p' = q_id p /\ rec_ok r p (events_of (q_id p) tr) p') ps ps'.
Proof.
  induction ps as [|p t IH]; intros e e' ps' tr r R ND; cbn [recover] in R; [inversion R; constructor|].
  cbn [map] in ND. inversion ND as [|? ? NI ND']; subst.
  assert (G : forall q, In q t -> q_id p =? q_id q = false).
  { intros q Q. apply Z.eqb_neq. intro Eq. apply NI. rewrite Eq. apply in_map. exact Q. }
  (* the tail of the events, seen from the tail of the set *)
  assert (TL : forall v (tr1 : list ev) t1 r1, (forall q, In q t -> ev_about (q_id q) v = false) ->
     Forall2 (fun p p' => q_id p' = q_id p /\ rec_ok r1 p (events_of (q_id p) tr1) p') t t1 ->
     Forall2 (fun p p' => q_id p' = q_id p /\ rec_ok r1 p (events_of (q_id p) (v :: tr1)) p') t t1).
  { intros v tr1 t1 r1 A F. clear - A F. induction F as [|a b l l' RR F IH]; [constructor|].
    constructor; [|apply IH; intros; apply A; right; assumption].
    cbn [events_of filter]. rewrite A by (left; reflexivity). exact RR. }
  destruct (in_error p) eqn:IE; cbn [negb] in R.
  2:{ destruct (recover interp rmap e t) as [[[e1 t1] tr1] r1] eqn:Rt. inversion R; subst.
      constructor; [split; [reflexivity|]|eapply IH; eassumption].
      rewrite (recover_other _ _ _ _ _ _ _ Rt NI). left. auto. }
  destruct (q_st p =? op_StopExecution) eqn:ST.
  { inversion R; subst. apply Forall2_same. intros x _. split; [reflexivity|]. left. repeat split.
    right; left; discriminate. }
  apply Z.eqb_neq in ST.
  destruct (q_st p =? op_Repeat) eqn:RP.
  { destruct (recover interp rmap e t) as [[[e1 t1] tr1] r1] eqn:Rt. inversion R; subst.
    constructor; [split; [reflexivity|]|eapply IH; eassumption].
    rewrite (recover_other _ _ _ _ _ _ _ Rt NI). right; left. apply Z.eqb_eq in RP. auto. }
  apply Z.eqb_neq in RP.
  destruct (q_st p =? op_Delete) eqn:DL.
  { destruct (recover interp rmap e t) as [[[e1 t1] tr1] r1] eqn:Rt. inversion R; subst.
    constructor; [split; [reflexivity|]|eapply IH; eassumption].
    rewrite (recover_other _ _ _ _ _ _ _ Rt NI). left. apply Z.eqb_eq in DL. auto. }
  apply Z.eqb_neq in DL.
  destruct (rmap (q_st p)) as [h|] eqn:RM.
  - destruct (run_rkernel interp h e (set_st p st_Success)) as [e1 [p1|]] eqn:RK.
    + cbn zeta in R. destruct (recover interp rmap e1 t) as [[[e2 t1] tr1] r1] eqn:Rt.
      inversion R; subst. constructor.
      * split; [reflexivity|]. cbn [events_of filter ev_about]. rewrite Z.eqb_refl.
        change (filter (ev_about (q_id p)) tr1) with (events_of (q_id p) tr1).
        rewrite (recover_other _ _ _ _ _ _ _ Rt NI). right; right; left.
        exists h, (q_st p1). cbn [q_st]. auto 10.
      * apply TL; [intros q Q; cbn [ev_about]; apply G; exact Q|eapply IH; eassumption].
    + inversion R; subst. constructor.
      * split; [reflexivity|]. cbn [events_of filter ev_about]. rewrite Z.eqb_refl. right; right; right; left.
        exists h. auto 10.
      * apply TL; [intros q Q; cbn [ev_about]; apply G; exact Q|].
        apply Forall2_same. intros x _. split; [reflexivity|]. left. repeat split. right; left; discriminate.
  - destruct (recover interp rmap e t) as [[[e1 t1] tr1] r1] eqn:Rt. inversion R; subst.
    constructor.
    + split; [reflexivity|]. cbn [events_of filter ev_about]. rewrite Z.eqb_refl.
      change (filter (ev_about (q_id p)) tr1) with (events_of (q_id p) tr1).
      rewrite (recover_other _ _ _ _ _ _ _ Rt NI). right; right; right; right. auto 10.
    + apply TL; [intros q Q; cbn [ev_about]; apply G; exact Q|eapply IH; eassumption].
Qed.

(** ** The protocol *)

Definition compat (p : pcl) (a : pend) : Prop :=
  match a with
  | Ready => q_st p = 0 \/ q_st p = 1 \/ q_st p = 2
  | Failed c => q_st p = c /\ c <> 0 /\ c <> 1 /\ c <> 2 /\ c <> 3
  | HFailed c => (q_st p = c \/ q_st p = 0) /\ c <> 0 /\ c <> 1 /\ c <> 2 /\ c <> 3
  | Gone => q_st p = 3
  | Raised => False
  end.

Lemma after_code_compat : forall (f : Z -> pend) p c,
  (forall c, c <> 0 /\ c <> 1 /\ c <> 2 /\ c <> 3 -> q_st p = c -> compat p (f c)) ->
  q_st p = c -> compat p (after_code f c).
Proof.
  intros f p c Hf Q. unfold after_code. codes.
  destruct (_ || _) eqn:A; [cbn [compat]; lia|].
  destruct (c =? 3) eqn:B; [cbn [compat]; lia|]. apply Hf; [lia|exact Q].
Qed.

Lemma one_disc : forall p tr p' a,
  one_ok p tr p' -> compat p a -> (forall c, a <> Failed c) -> a <> Gone ->
  exists b, disciplined rmap a tr b /\ compat p' b.
Proof.
  intros p tr p' a [I T] C NF NG.
  destruct T as [[-> P]|(cs & t & h & c & -> & F & L)].
  - exists a. split; [constructor|]. destruct P as [P|P]; subst p'; [exact C|].
    destruct a; cbn [compat set_st q_st] in *; codes; auto; try tauto; try congruence; try lia.
  - assert (CS : exists a', disciplined rmap a cs a' /\ (a' = Ready \/ exists c0, a' = HFailed c0)).
    { assert (A0 : a = Ready \/ exists c0, a = HFailed c0).
      { destruct a; cbn [compat] in C; auto; try tauto; try congruence; eauto. }
      clear - F A0. revert a A0. induction F as [|v l (t' & h' & ->) F IH]; intros a A0.
      - exists a. split; [constructor|exact A0].
      - destruct (IH Ready (or_introl eq_refl)) as (a' & D & A').
        exists a'. split; [|exact A']. apply disc_cons with Ready; [|exact D].
        destruct A0 as [A0|[c0 A0]]; subst a.
        + apply (ds_call rmap (q_id p) t' h' st_Success).
        + apply (ds_hcall rmap (q_id p) t' h' st_Success). }
    destruct CS as (a' & D & A').
    exists (after_code Failed c). split.
    + eapply disciplined_app; [exact D|]. apply disc_cons with (after_code Failed c); [|constructor].
      destruct A' as [A'|[c0 A']]; subst a'; constructor.
    + destruct L as [[-> S0]|[_ S0]].
      * cbn [after_code compat]. codes. cbn. destruct S0; auto.
      * apply after_code_compat; [|exact S0]. intros c' NC Q. cbn [compat]. tauto.
Qed.

Lemma rec_disc : forall p tr p' a,
  rec_ok RNext p tr p' -> q_st p <> op_StopExecution -> compat p a ->
  exists b, disciplined rmap a tr b /\ compat p' b /\ (forall c, b <> Failed c).
Proof.
  intros p tr p' a R NS C.
  destruct R as [(-> & -> & R)|[(-> & R & ->)|[(h & o & IE & A1 & A2 & A3 & RM & -> & Q)|
    [(h & IE & A1 & A2 & A3 & RM & RR & _)|(IE & A1 & A2 & A3 & RM & -> & Q)]]]].
  - exists a. split; [constructor|]. split; [exact C|]. intros c Ea. subst a. cbn [compat] in C.
    destruct R as [R|[R|R]]; [|congruence|codes; lia].
    unfold in_error in R. codes. lia.
  - exists Ready. assert (a = Ready). { destruct a; cbn [compat] in C; codes; try reflexivity; lia. }
    subst a. split; [constructor|]. split; [|discriminate]. cbn [compat set_st q_st]. codes. auto.
  - exists (after_code HFailed o). split.
    + apply disc_cons with (after_code HFailed o); [|constructor].
      assert (a = Failed (q_st p) \/ a = HFailed (q_st p)).
      { unfold in_error in IE. destruct a; cbn [compat] in C; codes; try lia; try tauto.
        - left. f_equal. lia.
        - right. f_equal. lia. }
      destruct H0; subst a; constructor; assumption.
    + split.
      * unfold after_code. codes. destruct (o =? 0) eqn:O0; cbn [orb].
        -- cbn [compat]. lia.
        -- destruct (o =? 1) eqn:O1; cbn [orb]; [cbn [compat]; lia|].
           destruct (o =? 2) eqn:O2; cbn [orb]; [cbn [compat]; lia|].
           destruct (o =? 3) eqn:O3; cbn [compat]; lia.
      * intros c. unfold after_code.
        destruct (o =? st_Success); cbn [orb]; [discriminate|].
        destruct (o =? st_Evaluate); cbn [orb]; [discriminate|].
        destruct (o =? op_Repeat); cbn [orb]; [discriminate|].
        destruct (o =? op_Delete); discriminate.
  - discriminate RR.
  - exists Gone. split; [|split; [exact Q|discriminate]].
    apply disc_cons with Gone; [|constructor].
    assert (a = Failed (q_st p) \/ a = HFailed (q_st p)).
    { unfold in_error in IE. destruct a; cbn [compat] in C; codes; try lia; try tauto.
      - left. f_equal. lia.
      - right. f_equal. lia. }
    destruct H0; subst a; constructor; assumption.
Qed.

(** In a round that stops or raises the protocol still holds. *)
Lemma rec_disc_any : forall r p tr p' a,
  rec_ok r p tr p' -> compat p a -> exists b, disciplined rmap a tr b.
Proof.
  intros r p tr p' a R C.
  destruct R as [(-> & _ & R)|[(-> & R & _)|[(h & o & IE & A1 & A2 & A3 & RM & -> & Q)|
    [(h & IE & A1 & A2 & A3 & RM & RR & ->)|(IE & A1 & A2 & A3 & RM & -> & Q)]]]];
    try (eexists; constructor; fail).
  all: assert (B : a = Failed (q_st p) \/ a = HFailed (q_st p))
    by (unfold in_error in IE; destruct a; cbn [compat] in C; codes; try lia; try tauto;
        [left; f_equal; lia|right; f_equal; lia]).
  all: destruct B; subst a; eexists; eapply disc_cons; try constructor; try assumption.
Qed.

(** ** All rounds *)

Definition final_ok (r : xstat) (id : Z) (ps' : list pcl) (b : pend) : Prop :=
  match r with
  | XDone => match b with
             | Ready | HFailed _ => In id (ids ps')
             | Gone => ~ In id (ids ps')
             | Failed _ | Raised => False
             end
  | _ => True
  end.

Definition live (ps : list pcl) : Prop := Forall (fun p => q_st p <> op_Delete) ps.

Lemma Forall2_in_l {A B} (R : A -> B -> Prop) : forall l l' x,
  Forall2 R l l' -> In x l -> exists y, In y l' /\ R x y.
Proof.
  induction 1; intros I; [inversion I|]. destruct I as [->|I].
  - exists y. cbn; auto.
  - destruct (IHForall2 I) as (z & A1 & A2). exists z; cbn; auto.
Qed.

Lemma in_ids_eq : forall (ps : list pcl) p q,
  NoDup (ids ps) -> In p ps -> In q ps -> q_id p = q_id q -> p = q.
Proof.
  induction ps as [|a t IH]; intros p q ND P Q Eq; [inversion P|].
  cbn [map] in ND. inversion ND as [|? ? NI ND']; subst.
  destruct P as [->|P], Q as [->|Q]; [reflexivity| | |eauto].
  - exfalso. apply NI. rewrite Eq. apply in_map. exact Q.
  - exfalso. apply NI. rewrite <- Eq. apply in_map. exact P.
Qed.

Lemma filter_ids_sub : forall (f : pcl -> bool) ps, NoDup (ids ps) ->
  exists keep, ids (filter f ps) = filter keep (ids ps).
Proof.
  induction ps as [|p t IH]; intros ND; [exists (fun _ => true); reflexivity|].
  cbn [map] in ND. inversion ND as [|? ? NI ND']; subst.
  destruct (IH ND') as [k K].
  exists (fun i => if i =? q_id p then f p else k i).
  cbn [filter map]. rewrite Z.eqb_refl.
  assert (R : filter (fun i => if i =? q_id p then f p else k i) (ids t) = filter k (ids t)).
  { apply filter_ext_in. intros i I. destruct (i =? q_id p) eqn:B; [|reflexivity].
    apply Z.eqb_eq in B. subst i. contradiction. }
  rewrite R, <- K. destruct (f p); reflexivity.
Qed.

Lemma NoDup_filter_ids : forall (f : pcl -> bool) ps, NoDup (ids ps) -> NoDup (ids (filter f ps)).
Proof.
  intros f ps ND. destruct (filter_ids_sub f ps ND) as [k K]. rewrite K. apply NoDup_filter. exact ND.
Qed.

Lemma filter_filter_sub : forall (k1 k2 : Z -> bool) l,
  filter k2 (filter k1 l) = filter (fun i => k1 i && k2 i) l.
Proof.
  induction l; [reflexivity|]. cbn [filter]. destruct (k1 a); cbn [andb filter]; [|exact IHl].
  destruct (k2 a); rewrite IHl; reflexivity.
Qed.

Lemma live_filter : forall ps : list pcl, live (filter (fun p => negb (is_deleted p)) ps).
Proof.
  intros. apply Forall_forall. intros p I. apply filter_In in I. destruct I as [_ I].
  unfold is_deleted in I. intro Q. rewrite Q in I. discriminate.
Qed.

Definition rounds' := fun fuel => rounds interp fuel (pass one) get_e put_e rmap.

(** Facts about the set: order, foreign events, final states, and how it ended. *)
Lemma rounds_shape : forall fuel out s ps s' ps' tr r,
  rounds interp fuel (pass one) get_e put_e rmap out s ps = (s', ps', tr, r) -> NoDup (ids ps) ->
  (exists keep, ids ps' = filter keep (ids ps)) /\
  (forall id, ~ In id (ids ps) -> events_of id tr = []) /\
  (r = XDone -> Forall (fun p => q_st p = st_Success \/ q_st p = st_Evaluate) ps').
Proof.
  induction fuel; intros out s ps s' ps' tr r R ND; cbn [rounds] in R.
  - destruct (existsb in_error ps) eqn:EE; cbn [negb] in R; inversion R; subst.
    + split; [exists (fun _ => true); symmetry; clear; induction ps'; [reflexivity|cbn; f_equal; assumption]|].
      split; [reflexivity|discriminate].
    + split; [exists (fun _ => true); symmetry; clear; induction ps'; [reflexivity|cbn; f_equal; assumption]|].
      split; [reflexivity|]. intros _. apply Forall_forall. intros p I.
      destruct (in_error p) eqn:IE; [|unfold in_error in IE; codes; lia].
      assert (existsb in_error ps' = true) by (apply existsb_exists; eauto). congruence.
  - destruct (existsb in_error ps) eqn:EE; cbn [negb] in R.
    2:{ inversion R; subst.
        split; [exists (fun _ => true); symmetry; clear; induction ps'; [reflexivity|cbn; f_equal; assumption]|].
        split; [reflexivity|]. intros _. apply Forall_forall. intros p I.
        destruct (in_error p) eqn:IE; [|unfold in_error in IE; codes; lia].
        assert (existsb in_error ps' = true) by (apply existsb_exists; eauto). congruence. }
    destruct (recover interp rmap (get_e s) ps) as [[[e1 ps1] tr1] rs] eqn:RC.
    pose proof (recover_ids _ _ _ _ _ _ RC) as ID1.
    destruct rs.
    + pose proof (remove_events out ps1) as RE.
      destruct (remove_deleted out ps1) as [ps2 tr2] eqn:RD. cbn [snd] in RE.
      rewrite remove_deleted_eq in RD. assert (P2 : ps2 = filter (fun p => negb (is_deleted p)) ps1) by congruence.
      assert (ND1 : NoDup (ids ps1)) by (rewrite ID1; exact ND).
      destruct (filter_ids_sub (fun p => negb (is_deleted p)) ps1 ND1) as [k1 K1].
      assert (ND2 : NoDup (ids ps2)) by (rewrite P2; apply NoDup_filter_ids; exact ND1).
      destruct (pass one (put_e s e1) ps2) as [[[s3 ps3] tr3]|] eqn:PA.
      * pose proof (pass_ids _ _ _ _ _ PA) as ID3.
        destruct (rounds interp fuel (pass one) get_e put_e rmap out s3 ps3) as [[[s4 ps4] tr4] r4] eqn:RR.
        inversion R; subst s' ps' tr r. assert (ND3 : NoDup (ids ps3)) by (rewrite ID3; exact ND2).
        destruct (IHfuel _ _ _ _ _ _ _ RR ND3) as ((k & KK) & FO & DN).
        split; [|split; [|exact DN]].
        -- exists (fun i => k1 i && k i). rewrite KK, ID3, P2, K1, ID1. apply filter_filter_sub.
        -- intros id NI. rewrite !events_of_app, (recover_other _ _ _ _ _ _ _ RC NI), RE.
           assert (N2 : ~ In id (ids ps2)).
           { intro I. apply NI. rewrite <- ID1. rewrite P2, K1 in I. apply filter_In in I. tauto. }
           rewrite (pass_other _ _ _ _ _ _ PA N2). cbn [app]. apply FO. rewrite ID3. exact N2.
      * inversion R; subst. split; [exists k1; rewrite K1, ID1; reflexivity|].
        split; [|discriminate]. intros id NI. rewrite events_of_app, RE, (recover_other _ _ _ _ _ _ _ RC NI).
        reflexivity.
    + inversion R; subst. split; [exists (fun _ => true); rewrite ID1; symmetry; clear; induction ps; [reflexivity|cbn; f_equal; assumption]|].
      split; [|discriminate]. intros id NI. exact (recover_other _ _ _ _ _ _ _ RC NI).
    + inversion R; subst. split; [exists (fun _ => true); rewrite ID1; symmetry; clear; induction ps; [reflexivity|cbn; f_equal; assumption]|].
      split; [|discriminate]. intros id NI. exact (recover_other _ _ _ _ _ _ _ RC NI).
Qed.

Lemma compat_not_error : forall p a,
  compat p a -> in_error p = false -> a = Ready \/ exists c, a = HFailed c.
Proof.
  intros p a C IE. unfold in_error in IE. codes.
  destruct a; cbn [compat] in C; eauto; lia.
Qed.

Lemma rounds_disc : forall fuel out s ps s' ps' tr r,
  rounds interp fuel (pass one) get_e put_e rmap out s ps = (s', ps', tr, r) ->
  NoDup (ids ps) ->
  forall p a, In p ps -> compat p a ->
  exists b, disciplined rmap a (events_of (q_id p) tr) b /\ final_ok r (q_id p) ps' b.
Proof.
  induction fuel; intros out s ps s' ps' tr r R ND p a IP CA.
  - cbn [rounds] in R.
    destruct (existsb in_error ps) eqn:EE; cbn [negb] in R; inversion R; subst.
    + exists a. split; [constructor|exact I].
    + exists a. split; [constructor|]. cbn [final_ok].
      destruct (in_error p) eqn:IE.
      { assert (existsb in_error ps' = true) by (apply existsb_exists; eauto). congruence. }
      destruct (compat_not_error _ _ CA IE) as [A|[c A]]; rewrite A; apply in_map; exact IP.
  - cbn [rounds] in R.
    destruct (existsb in_error ps) eqn:EE; cbn [negb] in R.
    2:{ inversion R; subst. exists a. split; [constructor|]. cbn [final_ok].
        destruct (in_error p) eqn:IE.
        { assert (existsb in_error ps' = true) by (apply existsb_exists; eauto). congruence. }
        destruct (compat_not_error _ _ CA IE) as [A|[c A]]; rewrite A; apply in_map; exact IP. }
    destruct (recover interp rmap (get_e s) ps) as [[[e1 ps1] tr1] rs] eqn:RC.
    pose proof (recover_ids _ _ _ _ _ _ RC) as ID1.
    pose proof (recover_each _ _ _ _ _ _ RC ND) as RE1.
    pose proof (recover_stat _ _ _ _ _ _ RC) as RS.
    destruct (Forall2_in_l _ _ _ _ RE1 IP) as (p1 & IP1 & QI & RP).
    destruct rs.
    + pose proof (remove_events out ps1) as RE.
      destruct (remove_deleted out ps1) as [ps2 tr2] eqn:RD. cbn [snd] in RE.
      rewrite remove_deleted_eq in RD. assert (P2 : ps2 = filter (fun p => negb (is_deleted p)) ps1) by congruence.
      assert (ND1 : NoDup (ids ps1)) by (rewrite ID1; exact ND).
      assert (ND2 : NoDup (ids ps2)) by (rewrite P2; apply NoDup_filter_ids; exact ND1).
      rewrite Forall_forall in RS.
      destruct (rec_disc _ _ _ _ RP (RS _ IP) CA) as (b & D1 & CB & NFb).
      destruct (pass one (put_e s e1) ps2) as [[[s3 ps3] tr3]|] eqn:PA.
      * pose proof (pass_ids _ _ _ _ _ PA) as ID3.
        pose proof (pass_each _ _ _ _ _ PA ND2) as PE.
        destruct (rounds interp fuel (pass one) get_e put_e rmap out s3 ps3) as [[[s4 ps4] tr4] r4] eqn:RR.
        inversion R; subst s' ps' tr r. assert (ND3 : NoDup (ids ps3)) by (rewrite ID3; exact ND2).
        rewrite !events_of_app, RE. cbn [app].
        destruct (is_deleted p1) eqn:DL.
        -- assert (b = Gone).
           { unfold is_deleted in DL. codes. destruct b; cbn [compat] in CB; try reflexivity; lia. }
           subst b.
           assert (N2 : ~ In (q_id p) (ids ps2)).
           { intro I. apply in_map_iff in I. destruct I as (q & Q & IQ). rewrite P2 in IQ.
             apply filter_In in IQ. destruct IQ as [IQ NQ].
             assert (q = p1) by (apply (in_ids_eq ps1); [exact ND1|assumption|assumption|congruence]). subst q.
             rewrite DL in NQ. discriminate. }
           destruct (rounds_shape _ _ _ _ _ _ _ _ RR ND3) as ((k & KK) & FO & _).
           rewrite (pass_other _ _ _ _ _ _ PA N2), FO by (rewrite ID3; exact N2).
           rewrite !app_nil_r. exists Gone. split; [exact D1|].
           destruct r4; cbn [final_ok]; try exact I. rewrite KK, ID3. intro I.
           apply filter_In in I. tauto.
        -- assert (IP2 : In p1 ps2) by (rewrite P2; apply filter_In; rewrite DL; auto).
           destruct (Forall2_in_l _ _ _ _ PE IP2) as (p3 & IP3 & O3).
           assert (NGb : b <> Gone).
           { intro; subst b. cbn [compat] in CB. unfold is_deleted in DL. codes. lia. }
           destruct (one_disc _ _ _ _ O3 CB NFb NGb) as (c & D2 & CC).
           assert (Q3 : q_id p3 = q_id p) by (destruct O3; congruence).
           destruct (IHfuel _ _ _ _ _ _ _ RR ND3 _ _ IP3 CC) as (d & D3 & FD).
           rewrite Q3 in *. rewrite QI in D2.
           exists d. split; [|exact FD].
           eapply disciplined_app; [exact D1|]. eapply disciplined_app; eassumption.
      * inversion R; subst. exists b. rewrite events_of_app, RE, app_nil_r. split; [exact D1|exact I].
    + inversion R; subst. destruct (rec_disc_any _ _ _ _ _ RP CA) as (b & D). exists b. split; [exact D|exact I].
    + inversion R; subst. destruct (rec_disc_any _ _ _ _ _ RP CA) as (b & D). exists b. split; [exact D|exact I].
Qed.

(** How the rounds end when they do not finish. *)
Lemma rounds_end : forall fuel out s ps s' ps' tr r,
  rounds interp fuel (pass one) get_e put_e rmap out s ps = (s', ps', tr, r) ->
  match r with
  | XStop => exists p, In p ps' /\ q_st p = op_StopExecution
  | XRaise => exists id c h, In (EHandler id c h None) tr
  | _ => True
  end.
Proof.
  induction fuel; intros out s ps s' ps' tr r R; cbn [rounds] in R.
  - destruct (negb _); inversion R; subst; exact I.
  - destruct (negb _); [inversion R; subst; exact I|].
    destruct (recover interp rmap (get_e s) ps) as [[[e1 ps1] tr1] rs] eqn:RC.
    pose proof (recover_stat _ _ _ _ _ _ RC) as RS.
    destruct rs.
    + destruct (remove_deleted out ps1) as [ps2 tr2].
      destruct (pass one (put_e s e1) ps2) as [[[s3 ps3] tr3]|]; [|inversion R; subst; exact I].
      destruct (rounds interp fuel (pass one) get_e put_e rmap out s3 ps3) as [[[s4 ps4] tr4] r4] eqn:RR.
      inversion R; subst. apply IHfuel in RR. destruct r; try exact I; [exact RR|].
      destruct RR as (i & c & h & J). exists i, c, h. rewrite !in_app_iff. auto.
    + inversion R; subst. destruct RS as (p & A & B & C). eauto.
    + inversion R; subst. exact RS.
Qed.

(** What is handed to the output as deleted. *)
Lemma rounds_written : forall fuel out s ps s' ps' tr r,
  rounds interp fuel (pass one) get_e put_e rmap out s ps = (s', ps', tr, r) -> NoDup (ids ps) ->
  (out = false -> written_deleted tr = []) /\
  (out = true -> NoDup (written_deleted tr) /\
     forall id, In id (written_deleted tr) -> In id (ids ps) /\ ~ In id (ids ps')) /\
  (out = true -> r = XDone ->
     forall id, In id (ids ps) -> ~ In id (ids ps') -> In id (written_deleted tr)).
Proof.
  assert (TR : forall (ps : list pcl) (r : xstat), (false = false -> written_deleted (@nil ev) = []) /\
    (true = true -> NoDup (written_deleted (@nil ev)) /\
       forall id, In id (written_deleted (@nil ev)) -> In id (ids ps) /\ ~ In id (ids ps)) /\
    (true = true -> r = XDone -> forall id, In id (ids ps) -> ~ In id (ids ps) -> In id (written_deleted (@nil ev)))).
  { intros. split; [reflexivity|]. split; [intros _; split; [constructor|intros id []]|]. tauto. }
  induction fuel; intros out s ps s' ps' tr r R ND; cbn [rounds] in R.
  - destruct (negb _); inversion R; subst; destruct (TR ps' XDone) as (A & B & C);
      (split; [intros _; reflexivity|]; split; [intros _; apply B; reflexivity|tauto]).
  - destruct (negb _).
    { inversion R; subst; destruct (TR ps' XDone) as (A & B & C);
      (split; [intros _; reflexivity|]; split; [intros _; apply B; reflexivity|tauto]). }
    destruct (recover interp rmap (get_e s) ps) as [[[e1 ps1] tr1] rs] eqn:RC.
    pose proof (recover_ids _ _ _ _ _ _ RC) as ID1.
    pose proof (recover_written _ _ _ _ _ _ RC) as W1.
    destruct rs.
    2:{ inversion R; subst. rewrite W1. split; [reflexivity|].
        split; [intros _; split; [constructor|intros ? []]|discriminate]. }
    2:{ inversion R; subst. rewrite W1. split; [reflexivity|].
        split; [intros _; split; [constructor|intros ? []]|discriminate]. }
    pose proof (remove_written out ps1) as W2.
    destruct (remove_deleted out ps1) as [ps2 tr2] eqn:RD. cbn [snd] in W2.
    rewrite remove_deleted_eq in RD. assert (P2 : ps2 = filter (fun p => negb (is_deleted p)) ps1) by congruence.
    assert (ND1 : NoDup (ids ps1)) by (rewrite ID1; exact ND).
    assert (ND2 : NoDup (ids ps2)) by (rewrite P2; apply NoDup_filter_ids; exact ND1).
    assert (SPL : forall id, In id (ids (filter is_deleted ps1)) <-> In id (ids ps) /\ ~ In id (ids ps2)).
    { intros id. rewrite <- ID1, P2. split.
      - intros I. apply in_map_iff in I. destruct I as (q & Q & IQ). apply filter_In in IQ.
        destruct IQ as [IQ DQ]. split; [rewrite <- Q; apply in_map; exact IQ|].
        intro J. apply in_map_iff in J. destruct J as (q' & Q' & IQ'). apply filter_In in IQ'.
        destruct IQ' as [IQ' DQ']. assert (q' = q) by (apply (in_ids_eq ps1); [exact ND1|assumption|assumption|congruence]).
        subst q'. rewrite DQ in DQ'. discriminate.
      - intros [I N]. apply in_map_iff in I. destruct I as (q & Q & IQ).
        apply in_map_iff. exists q. split; [exact Q|]. apply filter_In. split; [exact IQ|].
        destruct (is_deleted q) eqn:DQ; [reflexivity|]. exfalso. apply N. rewrite <- Q.
        apply in_map. apply filter_In. rewrite DQ. auto. }
    destruct (pass one (put_e s e1) ps2) as [[[s3 ps3] tr3]|] eqn:PA.
    + pose proof (pass_ids _ _ _ _ _ PA) as ID3.
      pose proof (pass_written _ _ _ _ _ PA) as W3.
      destruct (rounds interp fuel (pass one) get_e put_e rmap out s3 ps3) as [[[s4 ps4] tr4] r4] eqn:RR.
      inversion R; subst s' ps' tr r. assert (ND3 : NoDup (ids ps3)) by (rewrite ID3; exact ND2).
      destruct (IHfuel _ _ _ _ _ _ _ RR ND3) as (A & B & C).
      destruct (rounds_shape _ _ _ _ _ _ _ _ RR ND3) as ((k & KK) & _ & _).
      assert (SUB : forall id, In id (ids ps4) -> In id (ids ps2)).
      { intros id I. rewrite KK, ID3 in I. apply filter_In in I. tauto. }
      assert (SUB2 : forall id, In id (ids ps2) -> In id (ids ps)).
      { intros id I. rewrite <- ID1. rewrite P2 in I. apply in_map_iff in I.
        destruct I as (q & Q & IQ). apply filter_In in IQ. rewrite <- Q. apply in_map. tauto. }
      rewrite !written_app, W1, W2, W3. cbn [app].
      split; [intros ->; rewrite A by reflexivity; reflexivity|].
      split.
      * intros ->. destruct (B eq_refl) as [B1 B2]. split.
        -- assert (G : forall id, In id (ids (filter is_deleted ps1)) -> ~ In id (written_deleted tr4)).
           { intros id I J. apply SPL in I. apply B2 in J. rewrite ID3 in J. tauto. }
           pose proof (NoDup_filter_ids is_deleted ps1 ND1) as NDF.
           revert G NDF. generalize (ids (filter is_deleted ps1)). intros l G NDF.
           induction l; [exact B1|]. cbn [app]. inversion NDF; subst. constructor.
           ++ rewrite in_app_iff. intros [J|J]; [contradiction|]. apply (G a); [left; reflexivity|exact J].
           ++ apply IHl; [|assumption]. intros. apply G. right; assumption.
        -- intros id I. apply in_app_iff in I. destruct I as [I|I].
           ++ apply SPL in I. destruct I as [I N]. split; [exact I|]. intro J. apply N, SUB, J.
           ++ apply B2 in I. rewrite ID3 in I. destruct I as [I N]. split; [apply SUB2; exact I|exact N].
      * intros -> -> id I N. apply in_app_iff.
        destruct (in_dec Z.eq_dec id (ids ps2)) as [J|J].
        -- right. apply C; try reflexivity; [rewrite ID3; exact J|exact N].
        -- left. apply SPL. auto.
    + inversion R; subst. rewrite written_app, W1, W2. cbn [app].
      split; [intros ->; reflexivity|]. split; [|discriminate].
      intros ->. split; [apply NoDup_filter_ids; exact ND1|]. intros id I. apply SPL in I. exact I.
Qed.

(** ** Particles on which a pass has no effect *)

Section Frozen.
Variable Fz : pcl -> Prop.
Hypothesis Fz_st : forall p s, Fz p -> Fz (set_st p s).
Hypothesis Fz_one : forall s p s' p' tr,
  Fz p -> one s p = Some (s', p', tr) -> tr = [] /\ (p' = p \/ p' = set_st p st_Success).

Definition same_but_state (p p' : pcl) : Prop :=
  q_id p' = q_id p /\ q_time p' = q_time p /\ q_dt p' = q_dt p /\ q_x p' = q_x p.

Lemma same_set_st : forall p p', same_but_state p p' -> p' = set_st p (q_st p').
Proof.
  intros [i t d s x] [i' t' d' s' x'] (A & B & C & D). cbn in *. subst. reflexivity.
Qed.

Lemma same_trans : forall p q r, same_but_state p q -> same_but_state q r -> same_but_state p r.
Proof. unfold same_but_state. intuition congruence. Qed.

Lemma pass_frozen : forall s ps s' ps' tr p,
  pass one s ps = Some (s', ps', tr) -> NoDup (ids ps) -> In p ps -> Fz p -> in_error p = false ->
  exists p', In p' ps' /\ same_but_state p p' /\ in_error p' = false /\ events_of (q_id p) tr = [].
Proof.
  intros s ps s' ps' tr p PA ND IP FP NE.
  destruct (Forall2_in_l _ _ _ _ (pass_each_raw _ _ _ _ _ PA ND) IP) as (p' & IP' & s1 & s2 & O).
  destruct (Fz_one _ _ _ _ _ FP O) as [T Q]. exists p'. split; [exact IP'|].
  destruct Q as [Q|Q]; subst p'; (split; [repeat split|]; split; [auto|exact T]).
Qed.

Lemma rounds_frozen : forall fuel out s ps s' ps' tr r p,
  rounds interp fuel (pass one) get_e put_e rmap out s ps = (s', ps', tr, r) ->
  NoDup (ids ps) -> In p ps -> Fz p -> in_error p = false ->
  exists p', In p' ps' /\ same_but_state p p' /\ in_error p' = false /\ events_of (q_id p) tr = [].
Proof.
  assert (RF : forall p : pcl, same_but_state p p) by (intros; repeat split).
  induction fuel; intros out s ps s' ps' tr r p R ND IP FP NE; cbn [rounds] in R.
  - destruct (negb _); inversion R; subst; exists p; auto.
  - destruct (negb _); [inversion R; subst; exists p; auto|].
    destruct (recover interp rmap (get_e s) ps) as [[[e1 ps1] tr1] rs] eqn:RC.
    destruct (Forall2_in_l _ _ _ _ (recover_each _ _ _ _ _ _ RC ND) IP) as (p1 & IP1 & QI & RP).
    assert (P1 : p1 = p /\ events_of (q_id p) tr1 = []).
    { unfold in_error in NE. codes.
      destruct RP as [(T & P & _)|[(T & Q & _)|[(h & o & IE & _)|[(h & IE & _)|(IE & _)]]]];
        [auto|codes; lia| | |]; unfold in_error in IE; codes; lia. }
    destruct P1 as [-> T1].
    destruct rs; [|inversion R; subst; exists p; auto|inversion R; subst; exists p; auto].
    pose proof (remove_events out ps1) as RE.
    destruct (remove_deleted out ps1) as [ps2 tr2] eqn:RD. cbn [snd] in RE.
    rewrite remove_deleted_eq in RD. assert (P2 : ps2 = filter (fun p => negb (is_deleted p)) ps1) by congruence.
    assert (ND1 : NoDup (ids ps1)) by (rewrite (recover_ids _ _ _ _ _ _ RC); exact ND).
    assert (ND2 : NoDup (ids ps2)) by (rewrite P2; apply NoDup_filter_ids; exact ND1).
    assert (IP2 : In p ps2).
    { rewrite P2. apply filter_In. split; [exact IP1|]. unfold is_deleted, in_error in *. codes. lia. }
    destruct (pass one (put_e s e1) ps2) as [[[s3 ps3] tr3]|] eqn:PA.
    + destruct (rounds interp fuel (pass one) get_e put_e rmap out s3 ps3) as [[[s4 ps4] tr4] r4] eqn:RR.
      inversion R; subst s' ps' tr r.
      assert (ND3 : NoDup (ids ps3)) by (rewrite (pass_ids _ _ _ _ _ PA); exact ND2).
      destruct (pass_frozen _ _ _ _ _ _ PA ND2 IP2 FP NE) as (p3 & IP3 & S3 & NE3 & T3).
      assert (FP3 : Fz p3) by (rewrite (same_set_st _ _ S3); apply Fz_st; exact FP).
      destruct (IHfuel _ _ _ _ _ _ _ _ RR ND3 IP3 FP3 NE3) as (p4 & IP4 & S4 & NE4 & T4).
      assert (Q3 : q_id p3 = q_id p) by apply S3. rewrite Q3 in T4.
      exists p4. split; [exact IP4|]. split; [eapply same_trans; eassumption|]. split; [exact NE4|].
      rewrite !events_of_app, T1, RE, T3, T4. reflexivity.
    + inversion R; subst. exists p. rewrite events_of_app, T1, RE. auto.
Qed.

Lemma execute_frozen : forall fuel user out s ps s' ps' tr r p,
  rmap = recovery_map user ->
  execute interp fuel (pass one) get_e put_e user out s ps = (s', ps', tr, r) ->
  NoDup (ids ps) -> In p ps -> Fz p ->
  exists p', In p' ps' /\ same_but_state p p' /\ in_error p' = false /\ events_of (q_id p) tr = [].
Proof.
  intros fuel user out s ps s' ps' tr r p RM R ND IP FP. unfold execute in R. rewrite <- RM in R.
  set (ps0 := map (fun p => set_st p st_Evaluate) ps) in *. cbn zeta in R.
  assert (ID0 : ids ps0 = ids ps) by (unfold ps0; rewrite map_map; apply map_ext; reflexivity).
  assert (ND0 : NoDup (ids ps0)) by (rewrite ID0; exact ND).
  assert (IP0 : In (set_st p st_Evaluate) ps0).
  { unfold ps0. apply in_map_iff. exists p. auto. }
  assert (S0 : same_but_state p (set_st p st_Evaluate)) by (repeat split).
  destruct (pass one s ps0) as [[[s1 ps1] tr1]|] eqn:PA.
  2:{ inversion R; subst. exists (set_st p st_Evaluate). auto. }
  destruct (pass_frozen _ _ _ _ _ _ PA ND0 IP0 (Fz_st _ _ FP) eq_refl) as (p1 & IP1 & S1 & NE1 & T1).
  cbn [set_st q_id] in T1.
  pose proof (remove_events out ps1) as RE.
  destruct (remove_deleted out ps1) as [ps2 tr2] eqn:RD. cbn [snd] in RE.
  rewrite remove_deleted_eq in RD. assert (P2 : ps2 = filter (fun p => negb (is_deleted p)) ps1) by congruence.
  assert (ND1 : NoDup (ids ps1)) by (rewrite (pass_ids _ _ _ _ _ PA); exact ND0).
  assert (ND2 : NoDup (ids ps2)) by (rewrite P2; apply NoDup_filter_ids; exact ND1).
  assert (IP2 : In p1 ps2).
  { rewrite P2. apply filter_In. split; [exact IP1|]. unfold is_deleted, in_error in *. codes. lia. }
  destruct (rounds interp fuel (pass one) get_e put_e rmap out s1 ps2) as [[[s3 ps3] tr3] r3] eqn:RR.
  inversion R; subst s' ps' tr r.
  pose proof (same_trans _ _ _ S0 S1) as S01.
  assert (FP1 : Fz p1) by (rewrite (same_set_st _ _ S01); apply Fz_st; exact FP).
  destruct (rounds_frozen _ _ _ _ _ _ _ _ _ RR ND2 IP2 FP1 NE1) as (p4 & IP4 & S4 & NE4 & T4).
  assert (Q1 : q_id p1 = q_id p) by apply S01. rewrite Q1 in T4.
  exists p4. split; [exact IP4|]. split; [exact (same_trans _ _ _ S01 S4)|]. split; [exact NE4|].
  rewrite !events_of_app, T1, RE, T4. reflexivity.
Qed.
End Frozen.

(** ** Kernel.execute *)

Definition ex_statement (ps : list pcl) (out : bool) (ps' : list pcl) (tr : list ev) (r : xstat) : Prop :=
  (exists keep, ids ps' = filter keep (ids ps)) /\
  (forall id, ~ In id (ids ps) -> events_of id tr = []) /\
  (forall id, In id (ids ps) ->
     exists b, disciplined rmap Ready (events_of id tr) b /\ final_ok r id ps' b) /\
  (r = XDone -> Forall (fun p => q_st p = st_Success \/ q_st p = st_Evaluate) ps') /\
  (r = XStop -> exists p, In p ps' /\ q_st p = op_StopExecution) /\
  (r = XRaise -> exists id c h, In (EHandler id c h None) tr) /\
  (out = false -> written_deleted tr = []) /\
  (out = true -> NoDup (written_deleted tr) /\
     forall id, In id (written_deleted tr) -> In id (ids ps) /\ ~ In id (ids ps')) /\
  (out = true -> r = XDone ->
     forall id, In id (ids ps) -> ~ In id (ids ps') -> In id (written_deleted tr)).

Lemma ids_reset : forall ps : list pcl, ids (map (fun p => set_st p st_Evaluate) ps) = ids ps.
Proof. intros. rewrite map_map. apply map_ext. reflexivity. Qed.

Lemma filter_all : forall l : list Z, filter (fun _ => true) l = l.
Proof. induction l; [reflexivity|]. cbn [filter]. f_equal. exact IHl. Qed.

(** [execute] is one more round that starts with no recovery; the proof replays [rounds]. *)
Lemma execute_spec : forall fuel user out s ps s' ps' tr r,
  rmap = recovery_map user ->
  execute interp fuel (pass one) get_e put_e user out s ps = (s', ps', tr, r) -> NoDup (ids ps) ->
  ex_statement ps out ps' tr r.
Proof.
  intros fuel user out s ps s' ps' tr r RM R ND. unfold execute in R. rewrite <- RM in R.
  set (ps0 := map (fun p => set_st p st_Evaluate) ps) in *. cbn zeta in R.
  assert (ID0 : ids ps0 = ids ps) by apply ids_reset.
  assert (ND0 : NoDup (ids ps0)) by (rewrite ID0; exact ND).
  destruct (pass one s ps0) as [[[s1 ps1] tr1]|] eqn:PA.
  2:{ inversion R; subst. unfold ex_statement.
      split; [exists (fun _ => true); rewrite filter_all; exact ID0|].
      split; [reflexivity|]. split; [intros; exists Ready; split; [constructor|exact I]|].
      do 3 (split; [discriminate|]). split; [reflexivity|].
      split; [intros _; split; [constructor|intros ? []]|discriminate]. }
  pose proof (pass_ids _ _ _ _ _ PA) as ID1.
  pose proof (pass_each _ _ _ _ _ PA ND0) as PE.
  pose proof (pass_written _ _ _ _ _ PA) as W1.
  pose proof (remove_written out ps1) as W2. pose proof (remove_events out ps1) as RE.
  destruct (remove_deleted out ps1) as [ps2 tr2] eqn:RD. cbn [snd] in W2, RE.
  rewrite remove_deleted_eq in RD. assert (P2 : ps2 = filter (fun p => negb (is_deleted p)) ps1) by congruence.
  assert (ND1 : NoDup (ids ps1)) by (rewrite ID1; exact ND0).
  assert (ND2 : NoDup (ids ps2)) by (rewrite P2; apply NoDup_filter_ids; exact ND1).
  destruct (rounds interp fuel (pass one) get_e put_e rmap out s1 ps2) as [[[s3 ps3] tr3] r3] eqn:RR.
  inversion R; subst s' ps' tr r.
  destruct (rounds_shape _ _ _ _ _ _ _ _ RR ND2) as ((k & KK) & FO & DN).
  destruct (rounds_written _ _ _ _ _ _ _ _ RR ND2) as (WA & WB & WC).
  pose proof (rounds_end _ _ _ _ _ _ _ _ RR) as EN.
  destruct (filter_ids_sub (fun p => negb (is_deleted p)) ps1 ND1) as [k1 K1].
  assert (SUB : forall id, In id (ids ps3) -> In id (ids ps2)).
  { intros id J. rewrite KK in J. apply filter_In in J. tauto. }
  assert (SUB2 : forall id, In id (ids ps2) -> In id (ids ps)).
  { intros id J. rewrite P2, K1, ID1, ID0 in J. apply filter_In in J. tauto. }
  assert (SPL : forall id, In id (ids (filter is_deleted ps1)) <-> In id (ids ps) /\ ~ In id (ids ps2)).
  { intros id. rewrite <- ID0, <- ID1, P2. split.
    - intros J. apply in_map_iff in J. destruct J as (q & Q & IQ). apply filter_In in IQ.
      destruct IQ as [IQ DQ]. split; [rewrite <- Q; apply in_map; exact IQ|].
      intro J. apply in_map_iff in J. destruct J as (q' & Q' & IQ'). apply filter_In in IQ'.
      destruct IQ' as [IQ' DQ']. assert (q' = q) by (apply (in_ids_eq ps1); [exact ND1|assumption|assumption|congruence]).
      subst q'. rewrite DQ in DQ'. discriminate.
    - intros [J N]. apply in_map_iff in J. destruct J as (q & Q & IQ).
      apply in_map_iff. exists q. split; [exact Q|]. apply filter_In. split; [exact IQ|].
      destruct (is_deleted q) eqn:DQ; [reflexivity|]. exfalso. apply N. rewrite <- Q.
      apply in_map. apply filter_In. rewrite DQ. auto. }
  unfold ex_statement.
  split. { exists (fun i => k1 i && k i). rewrite KK, P2, K1, ID1, ID0. apply filter_filter_sub. }
  split. { intros id NI. rewrite !events_of_app, RE, (pass_other _ _ _ _ _ _ PA) by (rewrite ID0; exact NI).
           cbn [app]. apply FO. intro J. apply NI, SUB2, J. }
  split.
  { intros id J. rewrite <- ID0 in J. apply in_map_iff in J. destruct J as (p & <- & IP).
    destruct (Forall2_in_l _ _ _ _ PE IP) as (p1 & IP1 & O1).
    assert (C0 : compat p Ready).
    { unfold ps0 in IP. apply in_map_iff in IP. destruct IP as (q & <- & _). cbn [compat set_st q_st].
      codes. auto. }
    destruct (one_disc _ _ _ _ O1 C0) as (b & D1 & CB); [discriminate|discriminate|].
    assert (Q1 : q_id p1 = q_id p) by (destruct O1; congruence).
    rewrite !events_of_app, RE. cbn [app].
    destruct (is_deleted p1) eqn:DL.
    - assert (b = Gone).
      { unfold is_deleted in DL. codes. destruct b; cbn [compat] in CB; try reflexivity; lia. }
      subst b.
      assert (N2 : ~ In (q_id p) (ids ps2)).
      { intro J. apply in_map_iff in J. destruct J as (q & Q & IQ). rewrite P2 in IQ.
        apply filter_In in IQ. destruct IQ as [IQ NQ].
        assert (q = p1) by (apply (in_ids_eq ps1); [exact ND1|assumption|assumption|congruence]). subst q.
        rewrite DL in NQ. discriminate. }
      rewrite FO by exact N2. rewrite app_nil_r. exists Gone. split; [exact D1|].
      destruct r3; cbn [final_ok]; try exact I. intro J. apply N2, SUB, J.
    - assert (IP2 : In p1 ps2) by (rewrite P2; apply filter_In; rewrite DL; auto).
      destruct (rounds_disc _ _ _ _ _ _ _ _ RR ND2 _ _ IP2 CB) as (d & D3 & FD).
      rewrite Q1 in *. exists d. split; [|exact FD]. eapply disciplined_app; eassumption. }
  split; [exact DN|].
  split. { intros ->. exact EN. }
  split. { intros ->. destruct EN as (i & c & h & J). exists i, c, h. rewrite !in_app_iff. auto. }
  rewrite !written_app, W1, W2. cbn [app].
  split; [intros ->; rewrite WA by reflexivity; reflexivity|].
  split.
  - intros ->. destruct (WB eq_refl) as [B1 B2]. split.
    + assert (G : forall id, In id (ids (filter is_deleted ps1)) -> ~ In id (written_deleted tr3)).
      { intros id J1 J2. apply SPL in J1. apply B2 in J2. tauto. }
      pose proof (NoDup_filter_ids is_deleted ps1 ND1) as NDF.
      revert G NDF. generalize (ids (filter is_deleted ps1)). intros l G NDF.
      induction l; [exact B1|]. cbn [app]. inversion NDF; subst. constructor.
      * rewrite in_app_iff. intros [J|J]; [contradiction|]. apply (G a); [left; reflexivity|exact J].
      * apply IHl; [|assumption]. intros. apply G. right; assumption.
    + intros id J. apply in_app_iff in J. destruct J as [J|J].
      * apply SPL in J. destruct J as [J N]. split; [exact J|]. intro J'. apply N, SUB, J'.
      * apply B2 in J. destruct J as [J N]. split; [apply SUB2; exact J|exact N].
  - intros -> -> id J N. apply in_app_iff.
    destruct (in_dec Z.eq_dec id (ids ps2)) as [J'|J'].
    + right. apply WC; auto.
    + left. apply SPL. auto.
Qed.

End Rec.
