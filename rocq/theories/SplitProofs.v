(** Proofs for C43: one window against several, for a set of particles. *)
From Coq Require Import List ZArith Bool Lia ZifyBool.
From Verif Require Import CollModel KLoopModel KLoopSpec KLoopProofs KLoopRecProofs KLoopEqProofs KLoopStepProofs KLoopSetProofs SchedModel SplitSpec.
Import ListNotations.
Open Scope Z_scope.

Ltac split_codes := unfold st_Success, st_Evaluate, op_Repeat, op_Delete, op_StopExecution in *.

Section Split.
Context {E X H : Type}.
Notation pcl := (pcl X).
Notation ev := (ev H).
Variable K : E -> pcl -> E * kres X.
Variable interp : handlers E X H.
Variable f : pcl -> kres X.
Variable g : H -> pcl -> option pcl.
Variable user : Z -> option H.
Variables (atol dt : Z).
Notation rmap := (recovery_map user).

(** One recovery of a particle in error. *)
Definition rec1 (p : pcl) : option pcl :=
  if q_st p =? op_StopExecution then None
  else if q_st p =? op_Repeat then Some (set_st p st_Evaluate)
  else if q_st p =? op_Delete then Some p
  else match rmap (q_st p) with
       | Some (RUser h) => match g h (set_st p st_Success) with
                           | Some p1 => Some (mkPcl (q_id p) (q_time p1) (q_dt p1)
                                          (if q_st p1 =? st_Success then st_Evaluate else q_st p1) (q_x p1))
                           | None => None
                           end
       | Some RDefault => None
       | None => Some (set_st p op_Delete)
       end.

Definition bef (stop : Z) (p : pcl) : bool := 0 <? Z.sgn dt * (stop - q_time p).
Definition norm (p : pcl) : pcl := set_st p st_Evaluate.
Definition adv (p : pcl) : pcl := mkPcl (q_id p) (q_time p + dt) dt st_Evaluate (k_x (f p)).
Definition code (p : pcl) : Z := signalled (q_st p) (f p).

(** The course of one particle up to [stop]: [after] tells whether it has been through the pass of
    the current round, [n] bounds the number of recovery rounds still needed; [None]: deleted. *)
Inductive J (stop : Z) : bool -> nat -> pcl -> option pcl -> Prop :=
| J_end n p : bef stop p = false -> q_st p = st_Evaluate -> J stop false n p (Some p)
| J_step n p r : bef stop p = true -> wants_run p = true -> code p = st_Success ->
    J stop false n (adv p) r -> J stop false n p r
| J_del n p : bef stop p = true -> wants_run p = true -> code p = op_Delete -> J stop false n p None
| J_fail n p r : bef stop p = true -> wants_run p = true -> accepted (code p) = false ->
    J stop true n (set_st p (code p)) r -> J stop false n p r
| J_skip n p r : bef stop p = true -> wants_run p = false -> in_error p = true -> is_deleted p = false ->
    J stop true n p r -> J stop false n p r
| J_rec n p p2 r : bef stop p = true -> in_error p = true -> is_deleted p = false ->
    rec1 p = Some p2 -> is_deleted p2 = false -> J stop false n p2 r -> J stop true (S n) p r
| J_recdel n p p2 : bef stop p = true -> in_error p = true -> is_deleted p = false ->
    rec1 p = Some p2 -> is_deleted p2 = true -> J stop true (S n) p None.

Lemma J_mono : forall stop b n p r, J stop b n p r -> forall m, (n <= m)%nat -> J stop b m p r.
Proof.
  induction 1; intros m LE.
  - apply J_end; assumption.
  - apply J_step; auto.
  - apply J_del; auto.
  - apply J_fail; auto.
  - apply J_skip; auto.
  - destruct m as [|m]; [lia|]. eapply J_rec; eauto. apply IHJ. lia.
  - destruct m as [|m]; [lia|]. eapply J_recdel; eauto.
Qed.

Hypothesis KF : forall e p, K e p = (e, f p).
Hypothesis GF : forall h e p, interp h e p = (e, g h p).
Hypothesis KS : forall p, k_time (f p) = q_time p /\ k_dt (f p) = q_dt p /\ k_next (f p) = None.
Hypothesis GS : forall h p p1, g h p = Some p1 -> q_time p1 = q_time p /\ q_dt p1 = q_dt p.
Hypothesis KN : forall p, wants_run p = true -> code p <> st_Evaluate.
Hypothesis HA : 0 <= atol.
Hypothesis HD : atol < Z.abs dt.

Lemma rec1_keeps : forall p p2, rec1 p = Some p2 -> q_time p2 = q_time p /\ q_dt p2 = q_dt p.
Proof.
  intros p p2 R. unfold rec1 in R.
  destruct (_ =? _); [discriminate|]. destruct (_ =? _); [inversion R; subst; cbn; auto|].
  destruct (_ =? _); [inversion R; subst; auto|].
  destruct (rmap _) as [[h|]|]; [|discriminate|inversion R; subst; cbn; auto].
  destruct (g h _) as [p1|] eqn:G; [|discriminate]. inversion R; subst. cbn.
  exact (GS _ _ _ G).
Qed.

Lemma bef_time : forall stop (p q : pcl), q_time p = q_time q -> bef stop p = bef stop q.
Proof. intros stop p q T. unfold bef. rewrite T. reflexivity. Qed.

Lemma sgn_cases : (0 < dt /\ Z.sgn dt = 1) \/ (dt < 0 /\ Z.sgn dt = -1).
Proof. destruct (Z.lt_trichotomy dt 0) as [L|[L|L]]; [right|lia|left]; split; try lia. Qed.

(** ** Splitting and joining courses *)

Lemma J_result : forall stop b n p r, J stop b n p r -> forall q, r = Some q ->
  q_st q = st_Evaluate /\ bef stop q = false.
Proof. induction 1; intros q' E'; try discriminate; auto. inversion E'; subst. auto. Qed.

Definition ok (stop : Z) (p : pcl) : Prop := q_dt p = dt /\ (dt | stop - q_time p).

Lemma ok_adv : forall stop p, ok stop p -> ok stop (adv p).
Proof.
  intros stop p [D [k DV]]. split; [reflexivity|]. exists (k - 1). cbn. nia.
Qed.

Lemma ok_rec : forall stop p p2, ok stop p -> rec1 p = Some p2 -> ok stop p2.
Proof. intros stop p p2 [D DV] R. apply rec1_keeps in R. destruct R as [T D2]. split; [congruence|]. rewrite T. exact DV. Qed.

Lemma ok_st : forall stop p s, ok stop p -> ok stop (set_st p s).
Proof. intros stop p s O. exact O. Qed.

Lemma J_ok : forall stop b n p r, J stop b n p r -> forall t, ok t p -> forall q, r = Some q -> ok t q.
Proof.
  induction 1; intros t O q' E'; try discriminate; eauto using ok_adv, ok_rec, ok_st.
  inversion E'; subst. exact O.
Qed.

Lemma J_decompose : forall t1 t2, 0 <= Z.sgn dt * (t2 - t1) ->
  forall b n p r, J t2 b n p r -> ok t1 p ->
  (bef t1 p = true \/ (b = false /\ q_st p = st_Evaluate)) ->
  exists r1, J t1 b n p r1 /\ match r1 with None => r = None | Some q => J t2 false n q r end.
Proof.
  intros t1 t2 LE. induction 1; intros O B.
  - exists (Some p). assert (bef t1 p = false) by (unfold bef in *; destruct sgn_cases as [[? SG]|[? SG]]; rewrite SG in *; lia).
    split; [apply J_end; assumption|apply J_end; assumption].
  - destruct (bef t1 p) eqn:B1.
    + destruct (IHJ (ok_adv _ _ O)) as (r1 & J1 & R1); [right; split; reflexivity|].
      exists r1. split; [apply J_step; assumption|exact R1].
    + destruct B as [B|[_ ST]]; [discriminate|]. exists (Some p).
      split; [apply J_end; assumption|apply J_step; assumption].
  - destruct (bef t1 p) eqn:B1.
    + exists None. split; [apply J_del; assumption|reflexivity].
    + destruct B as [B|[_ ST]]; [discriminate|]. exists (Some p).
      split; [apply J_end; assumption|apply J_del; assumption].
  - destruct (bef t1 p) eqn:B1.
    + destruct (IHJ (ok_st _ _ _ O)) as (r1 & J1 & R1); [left; exact B1|].
      exists r1. split; [apply J_fail; assumption|exact R1].
    + destruct B as [B|[_ ST]]; [discriminate|]. exists (Some p).
      split; [apply J_end; assumption|apply J_fail; assumption].
  - destruct (bef t1 p) eqn:B1.
    + destruct (IHJ O) as (r1 & J1 & R1); [left; reflexivity|].
      exists r1. split; [apply J_skip; assumption|exact R1].
    + destruct B as [B|[_ ST]]; [discriminate|]. unfold wants_run in H1. rewrite ST in H1. discriminate.
  - destruct B as [B|[B _]]; [|discriminate].
    pose proof (rec1_keeps _ _ H3) as [T2 _].
    destruct (IHJ (ok_rec _ _ _ O H3)) as (r1 & J1 & R1).
    { left. rewrite <- B. apply bef_time. exact T2. }
    exists r1. split; [eapply J_rec; eassumption|].
    destruct r1 as [q|]; [|exact R1]. eapply J_mono; [exact R1|lia].
  - destruct B as [B|[B _]]; [|discriminate].
    exists None. split; [eapply J_recdel; eassumption|reflexivity].
Qed.

Lemma bef_later : forall t1 t2 p, 0 <= Z.sgn dt * (t2 - t1) -> bef t1 p = true -> bef t2 p = true.
Proof. intros t1 t2 p LE B. unfold bef in *. destruct sgn_cases as [[? SG]|[? SG]]; rewrite SG in *; lia. Qed.

Lemma J_compose : forall t1 t2, 0 <= Z.sgn dt * (t2 - t1) ->
  forall b n p r1, J t1 b n p r1 -> forall m r,
  match r1 with None => r = None | Some q => J t2 false m q r end -> J t2 b (n + m) p r.
Proof.
  intros t1 t2 LE. induction 1; intros m r' R'.
  - eapply J_mono; [exact R'|lia].
  - apply J_step; auto. eapply bef_later; eassumption.
  - rewrite R'. apply J_del; auto. eapply bef_later; eassumption.
  - apply J_fail; auto. eapply bef_later; eassumption.
  - apply J_skip; auto. eapply bef_later; eassumption.
  - eapply J_rec; eauto. eapply bef_later; eassumption.
  - rewrite R'. eapply J_recdel; eauto. eapply bef_later; eassumption.
Qed.

(** ** The loop of one particle *)

(** A particle that has been through the pass of a round. *)
Definition PB (stop : Z) (n : nat) (p : pcl) (r : option pcl) : Prop :=
  (in_error p = false /\ bef stop p = false /\ r = Some (norm p)) \/
  (is_deleted p = true /\ r = None) \/
  (J stop true n p r).

Lemma outcome_code : forall p h, outcome (close atol) (q_st p) h (f (at_dt p h)) = signalled (q_st p) (f (at_dt p h)).
Proof.
  intros p h. unfold outcome. destruct (KS (at_dt p h)) as (_ & -> & _). cbn.
  rewrite close_refl by exact HA. cbn. rewrite andb_false_r. reflexivity.
Qed.

Lemma at_dt_eta : forall (p : pcl) h, q_dt p = h -> at_dt p h = p.
Proof. intros [] h <-. reflexivity. Qed.

Lemma aligned_dp : forall stop p, ok stop p -> bef stop p = true ->
  Z.min (Z.abs (q_dt p)) (Z.abs (stop - q_time p)) = Z.abs dt /\ Z.sgn (stop - q_time p) = Z.sgn dt.
Proof.
  intros stop p [D [k DV]] B. rewrite D, DV. unfold bef in B. rewrite DV in B.
  destruct sgn_cases as [[L SG]|[L SG]]; rewrite SG in *; assert (0 < k) by nia; split; nia.
Qed.

Lemma not_bef_sgn : forall stop p, ok stop p -> bef stop p = false -> (Z.sgn (stop - q_time p) =? Z.sgn dt) = false.
Proof.
  intros stop p [D [k DV]] B. unfold bef in B. destruct sgn_cases as [[L SG]|[L SG]]; rewrite SG in *; lia.
Qed.

Definition post (stop : Z) (p : pcl) : Prop :=
  ok stop p /\ (in_error p = true \/ bef stop p = false) /\
  (in_error p = true -> is_deleted p = true \/ bef stop p = true).

Lemma wants_not_error : forall p : pcl, q_st p = st_Evaluate -> in_error p = false.
Proof. intros p ST. unfold in_error. rewrite ST. reflexivity. Qed.

Lemma J_inv : forall stop b n p r, J stop b n p r -> b = false -> bef stop p = true -> wants_run p = true ->
  (code p = st_Success /\ J stop false n (adv p) r) \/ (code p = op_Delete /\ r = None) \/
  (accepted (code p) = false /\ J stop true n (set_st p (code p)) r).
Proof. destruct 1; intros BF B W; try discriminate; try congruence; auto. Qed.

Lemma J_inv_end : forall stop b n p r, J stop b n p r -> b = false -> bef stop p = false -> r = Some p.
Proof. destruct 1; intros BF B; try discriminate; try congruence; auto. Qed.

Lemma loop_course : forall stop lf e p e' p1 tr,
  ok stop p -> bef stop p = true -> wants_run p = true ->
  py_loop (H:=H) K lf atol dt stop e p (Z.abs dt) = Some (e', p1, tr) ->
  e' = e /\ (post stop p1 /\ 0 <= Z.sgn dt * (q_time p1 - q_time p)) /\ (forall n r, PB stop n p1 r <-> J stop false n p r).
Proof.
  intros stop. induction lf; intros e p e' p1 tr O B W L; [discriminate|].
  rewrite py_loop_eq in L. unfold wants_run in W.
  assert (NZ : close0 atol dt = false) by (unfold close0; lia).
  rewrite NZ, W in L. cbn [orb] in L. cbn zeta in L.
  replace (Z.sgn dt * Z.abs dt) with dt in L by (destruct sgn_cases as [[? SG]|[? SG]]; rewrite SG; lia).
  rewrite KF in L. cbn [fst snd] in L.
  rewrite outcome_code in L.
  rewrite at_dt_eta in L by (apply O).
  fold (code p) in L.
  assert (NE : code p <> st_Evaluate) by (apply KN; exact W).
  destruct (accepted (code p)) eqn:AC.
  - destruct (accepted_cases _ AC) as [CS|CS]; rewrite CS in L.
    + (* success *)
      unfold after_ok in L. destruct (KS p) as (KT & KD & KX). rewrite KT, KD, KX in L.
      destruct O as [OD OV] eqn:OE. rewrite OD in L.
      pose proof (ok_adv _ _ O) as OA.
      destruct (bef stop (adv p)) eqn:B2.
      * destruct (aligned_dp _ _ OA B2) as [DP SE]. cbn [adv q_dt q_time] in DP, SE.
        rewrite DP, SE, Z.eqb_refl in L.
        replace (close0 atol (Z.abs dt)) with false in L by (unfold close0; lia).
        cbn [negb andb] in L. change (st_Success =? op_Delete) with false in L. cbn [negb andb] in L.
        change (mkPcl (q_id p) (q_time p + dt) dt st_Evaluate (k_x (f p))) with (adv p) in L.
        destruct (py_loop K lf atol dt stop e (adv p) (Z.abs dt)) as [[[e2 p3] tr2]|] eqn:L2; [|discriminate].
        inversion L; subst.
        destruct (IHlf _ _ _ _ _ OA B2 eq_refl L2) as (-> & [P1 PT] & IFF).
        split; [reflexivity|]. split; [split; [exact P1|]|].
        { cbn [adv q_time] in PT. destruct sgn_cases as [[? SG]|[? SG]]; rewrite SG in *; lia. } intros n r. rewrite IFF. split; intros JJ.
        -- apply J_step; assumption.
        -- destruct (J_inv _ _ _ _ _ JJ eq_refl B W) as [[_ J1]|[[C1 _]|[C1 _]]]; [exact J1|rewrite CS in C1; discriminate|congruence].
      * pose proof (not_bef_sgn _ _ OA B2) as SE. cbn [adv q_time] in SE. rewrite SE in L.
        rewrite andb_false_r in L. cbn [negb] in L.
        destruct lf as [|lf']; [discriminate|]. rewrite py_loop_eq in L. cbn [q_st] in L. rewrite NZ in L.
        change ((st_Success =? st_Evaluate) || (st_Success =? op_Repeat) || false) with false in L.
        cbv iota in L. inversion L; subst. clear L.
        split; [reflexivity|]. split; [|].
        -- split; [|cbn; destruct sgn_cases as [[? SG]|[? SG]]; rewrite SG in *; lia]. split; [split; [reflexivity|exact (proj2 OA)]|]. split; [right; exact B2|]. intros IE. discriminate.
        -- intros n r. split.
           ++ intros [(IE & _ & ->)|[(DE & _)|JJ]]; [|discriminate|inversion JJ; discriminate].
              apply J_step; try assumption. apply (J_end stop n (adv p)); [exact B2|reflexivity].
           ++ intros JJ. left. split; [reflexivity|]. split; [exact B2|].
              destruct (J_inv _ _ _ _ _ JJ eq_refl B W) as [[_ J1]|[[C1 _]|[C1 _]]]; [|rewrite CS in C1; discriminate|congruence].
              rewrite (J_inv_end _ _ _ _ _ J1 eq_refl B2). reflexivity.
    + (* delete *)
      unfold after_ok in L. destruct (KS p) as (KT & KD & KX). rewrite KT, KD, KX in L.
      change (op_Delete =? op_Delete) with true in L. cbn [negb andb] in L.
      set (dp := if negb (Z.sgn (stop - (q_time p + q_dt p)) =? Z.sgn dt) then 0
             else Z.min (Z.abs (q_dt p)) (Z.abs (stop - (q_time p + q_dt p)))) in *.
      destruct lf as [|lf']; [discriminate|]. rewrite py_loop_eq in L. cbn [q_st] in L. rewrite NZ in L.
      change ((op_Delete =? st_Evaluate) || (op_Delete =? op_Repeat) || false) with false in L.
      cbv iota in L. inversion L; subst. clear L. destruct O as [OD [k OV]].
      split; [reflexivity|]. split.
      * split; [|cbn; rewrite OD; destruct sgn_cases as [[? SG]|[? SG]]; rewrite SG in *; lia].
        split; [split; [exact OD|exists (k - 1); cbn; rewrite OD; nia]|]. split; [left; reflexivity|]. left; reflexivity.
      * intros n r. split.
        -- intros [(IE & _)|[(DE & ->)|JJ]]; [discriminate| |inversion JJ; discriminate].
           apply J_del; assumption.
        -- intros JJ. right; left. split; [reflexivity|].
           destruct (J_inv _ _ _ _ _ JJ eq_refl B W) as [[C1 _]|[[C1 R1]|[C1 _]]]; [rewrite CS in C1; discriminate|exact R1|congruence].
  - (* failure *)
    inversion L; subst. clear L. unfold after_fail. destruct (KS p) as (KT & KD & KX). rewrite KD.
    change (mkPcl (q_id p) (q_time p) (q_dt p) (code p) (q_x p)) with (set_st p (code p)).
    destruct (not_accepted_neq _ AC) as [NS ND].
    assert (IE : in_error (set_st p (code p)) = true) by (unfold in_error; cbn; split_codes; lia).
    split; [reflexivity|]. split.
    + split; [|cbn; lia]. split; [exact O|]. split; [left; exact IE|]. intros _. right. exact B.
    + intros n r. split.
      * intros [(IE' & _)|[(DE & _)|JJ]]; [congruence|unfold is_deleted in DE; cbn in DE; split_codes; lia|].
        apply J_fail; assumption.
      * intros JJ. right; right.
        destruct (J_inv _ _ _ _ _ JJ eq_refl B W) as [[C1 _]|[[C1 _]|[_ J1]]]; [contradiction|contradiction|exact J1].
Qed.

Lemma loop_total : forall stop lf e p,
  ok stop p -> bef stop p = true -> wants_run p = true -> Z.abs (stop - q_time p) < Z.of_nat lf ->
  py_loop (H:=H) K lf atol dt stop e p (Z.abs dt) <> None.
Proof.
  intros stop. induction lf; intros e p O B W LT; [lia|].
  rewrite py_loop_eq. unfold wants_run in W.
  assert (NZ : close0 atol dt = false) by (unfold close0; lia).
  rewrite NZ, W. cbn [orb]. cbn zeta.
  replace (Z.sgn dt * Z.abs dt) with dt by (destruct sgn_cases as [[? SG]|[? SG]]; rewrite SG; lia).
  rewrite KF. cbn [fst snd]. rewrite outcome_code. rewrite at_dt_eta by (apply O). fold (code p).
  assert (LF : exists lf', lf = S lf').
  { destruct lf as [|lf']; [|eauto]. unfold bef in B.
    destruct sgn_cases as [[? SG]|[? SG]]; rewrite SG in *; lia. }
  destruct LF as [lf' LF].
  destruct (accepted (code p)) eqn:AC; [|discriminate].
  assert (IDLE : forall q d, q_st q <> st_Evaluate -> q_st q <> op_Repeat ->
             py_loop (H:=H) K lf atol dt stop e q d = Some (e, q, [])).
  { intros q d N1 N2. rewrite LF, py_loop_eq, NZ.
    replace ((q_st q =? st_Evaluate) || (q_st q =? op_Repeat)) with false by lia. reflexivity. }
  destruct (accepted_cases _ AC) as [CS|CS]; rewrite CS.
  - unfold after_ok. destruct (KS p) as (KT & KD & KX). rewrite KT, KD, KX.
    pose proof (ok_adv _ _ O) as OA. rewrite (proj1 O).
    destruct (bef stop (adv p)) eqn:B2.
    + destruct (aligned_dp _ _ OA B2) as [DP SE]. cbn [adv q_dt q_time] in DP, SE.
      rewrite DP, SE, Z.eqb_refl.
      replace (close0 atol (Z.abs dt)) with false by (unfold close0; lia).
      change (st_Success =? op_Delete) with false. cbn [negb andb].
      change (mkPcl (q_id p) (q_time p + dt) dt st_Evaluate (k_x (f p))) with (adv p).
      specialize (IHlf e (adv p) OA B2 eq_refl).
      destruct (py_loop K lf atol dt stop e (adv p) (Z.abs dt)) as [[[e2 p3] tr2]|]; [discriminate|].
      exfalso. apply IHlf; [|reflexivity]. unfold bef in *. cbn [adv q_time] in *.
      destruct sgn_cases as [[? SG]|[? SG]]; rewrite SG in *; lia.
    + pose proof (not_bef_sgn _ _ OA B2) as SE. cbn [adv q_time] in SE. rewrite SE.
      rewrite andb_false_r. cbn [negb]. rewrite IDLE by (cbn; split_codes; lia). discriminate.
  - unfold after_ok. change (op_Delete =? op_Delete) with true. cbn [negb andb].
    rewrite IDLE by (cbn; split_codes; lia). discriminate.
Qed.

(** ** One particle in one pass *)

Definition PRE (stop : Z) (n : nat) (p : pcl) (r : option pcl) : Prop :=
  (bef stop p = false /\ r = Some (norm p)) \/ (bef stop p = true /\ J stop false n p r).
(** A particle that may enter a pass. *)
Definition enters (stop : Z) (p : pcl) : Prop :=
  ok stop p /\ is_deleted p = false /\ (in_error p = false \/ bef stop p = true) /\
  (bef stop p = true -> q_st p <> st_Success).

Lemma PB_quiet : forall stop n p r, in_error p = false -> bef stop p = false ->
  (PB stop n p r <-> r = Some (norm p)).
Proof.
  intros stop n p r IE B. split; [|intros ->; left; auto].
  intros [(_ & _ & ->)|[(DE & _)|JJ]]; [reflexivity| |inversion JJ; congruence].
  unfold in_error, is_deleted in *. split_codes. lia.
Qed.

Lemma one_course : forall stop lf e p e' p1 tr,
  enters stop p -> py_particle (H:=H) K lf atol dt stop e p = Some (e', p1, tr) ->
  e' = e /\ (post stop p1 /\ 0 <= Z.sgn dt * (q_time p1 - q_time p)) /\
  (forall n r, PB stop n p1 r <-> PRE stop n p r).
Proof.
  intros stop lf e p e' p1 tr (O & ND & QE & NS) L. unfold py_particle in L.
  assert (NZ : close0 atol dt = false) by (unfold close0; lia).
  destruct (bef stop p) eqn:B.
  - destruct (aligned_dp _ _ O B) as [DP SE]. rewrite DP, SE, Z.eqb_refl in L.
    replace (close0 atol (Z.abs dt)) with false in L by (unfold close0; lia). cbn [negb orb andb] in L.
    destruct (wants_run p) eqn:W.
    + destruct (loop_course _ _ _ _ _ _ _ O B W L) as (-> & P & IFF).
      split; [reflexivity|]. split; [exact P|]. intros n r. rewrite IFF. unfold PRE. rewrite B.
      split; [auto|intros [[F _]|[_ JJ]]; [discriminate|exact JJ]].
    + destruct lf as [|lf]; [discriminate|]. rewrite py_loop_eq in L. unfold wants_run in W.
      rewrite NZ, W in L. cbn [orb] in L. inversion L; subst. clear L.
      assert (IE : in_error p1 = true).
      { unfold in_error. specialize (NS eq_refl). split_codes. lia. }
      split; [reflexivity|]. split; [split; [|lia]|].
      * split; [exact O|]. split; [left; exact IE|]. intros _. right. exact B.
      * intros n r. unfold PRE. split.
        -- intros [(F & _)|[(F & _)|JJ]]; [congruence|congruence|]. right. split; [exact B|].
           apply J_skip; auto.
        -- intros [[F _]|[_ JJ]]; [congruence|]. right; right.
           inversion JJ; subst; unfold wants_run in *; congruence || (repeat match goal with HH : wants_run _ = _ |- _ => unfold wants_run in HH end; congruence) || assumption.
  - rewrite (not_bef_sgn _ _ O B), NZ in L. cbn [negb orb andb] in L.
    assert (IE : in_error p = false) by (destruct QE; congruence).
    assert (Q : e' = e /\ ok stop p1 /\ norm p1 = norm p /\ in_error p1 = false /\ bef stop p1 = false /\ q_time p1 = q_time p).
    { destruct (_ <=? _) in L; inversion L; subst; repeat split; auto; apply O. }
    destruct Q as (-> & O1 & N1 & IE1 & B1 & T1).
    split; [reflexivity|]. split; [split; [|rewrite T1; lia]|].
    + split; [exact O1|]. split; [right; exact B1|]. congruence.
    + intros n r. rewrite PB_quiet by assumption. unfold PRE. rewrite B, N1.
      split; [auto|intros [[_ R]|[F _]]; [exact R|discriminate]].
Qed.

Definition fits (stop : Z) (lf : nat) (p : pcl) : Prop :=
  (0 < lf)%nat /\ (bef stop p = true -> Z.abs (stop - q_time p) < Z.of_nat lf).

Lemma one_total : forall stop lf e p, enters stop p -> fits stop lf p ->
  exists p1 tr, py_particle (H:=H) K lf atol dt stop e p = Some (e, p1, tr) /\ fits stop lf p1.
Proof.
  intros stop lf e p EN [LF F].
  assert (NN : py_particle (H:=H) K lf atol dt stop e p <> None).
  { destruct EN as (O & ND & QE & NS). unfold py_particle.
    assert (NZ : close0 atol dt = false) by (unfold close0; lia).
    destruct (bef stop p) eqn:B.
    - destruct (aligned_dp _ _ O B) as [DP SE]. rewrite DP, SE, Z.eqb_refl.
      replace (close0 atol (Z.abs dt)) with false by (unfold close0; lia). cbn [negb orb andb].
      destruct (wants_run p) eqn:W; [apply loop_total; auto|].
      destruct lf as [|lf]; [lia|]. rewrite py_loop_eq. unfold wants_run in W.
      rewrite NZ, W. discriminate.
    - rewrite (not_bef_sgn _ _ O B), NZ. discriminate. }
  destruct (py_particle K lf atol dt stop e p) as [[[e' p1] tr]|] eqn:L; [|contradiction].
  destruct (one_course _ _ _ _ _ _ _ EN L) as (-> & [P T] & _).
  exists p1, tr. split; [reflexivity|]. split; [exact LF|]. intros B1.
  unfold bef in *. destruct sgn_cases as [[? SG]|[? SG]]; rewrite SG in *; lia.
Qed.

(** ** The rounds *)

Definition rec' (p : pcl) : option pcl := if in_error p then rec1 p else Some p.
Definition somes (rs : list (option pcl)) : list pcl :=
  flat_map (fun r => match r with Some p => [p] | None => [] end) rs.
Notation nd := (fun p => negb (is_deleted p)).

Lemma recover_rec : forall ps e e' ps1 tr, recover interp rmap e ps = (e', ps1, tr, RNext) ->
  e' = e /\ Forall2 (fun p p1 => rec' p = Some p1) ps ps1.
Proof.
  induction ps as [|p t IH]; intros e e' ps1 tr R; cbn [recover] in R.
  - inversion R; subst. split; [reflexivity|constructor].
  - unfold rec' at 1. destruct (in_error p) eqn:IE; cbn [negb] in R.
    2:{ destruct (recover interp rmap e t) as [[[e1 t1] tr1] r1] eqn:RT. inversion R; subst.
        destruct (IH _ _ _ _ RT) as [-> F]. split; [reflexivity|].
        constructor; [unfold rec'; rewrite IE; reflexivity|exact F]. }
    destruct (q_st p =? op_StopExecution) eqn:C1; [discriminate|].
    destruct (q_st p =? op_Repeat) eqn:C2.
    { destruct (recover interp rmap e t) as [[[e1 t1] tr1] r1] eqn:RT. inversion R; subst.
      destruct (IH _ _ _ _ RT) as [-> F]. split; [reflexivity|].
      constructor; [unfold rec', rec1; rewrite IE, C1, C2; reflexivity|exact F]. }
    destruct (q_st p =? op_Delete) eqn:C3.
    { destruct (recover interp rmap e t) as [[[e1 t1] tr1] r1] eqn:RT. inversion R; subst.
      destruct (IH _ _ _ _ RT) as [-> F]. split; [reflexivity|].
      constructor; [unfold rec', rec1; rewrite IE, C1, C2, C3; reflexivity|exact F]. }
    destruct (rmap (q_st p)) as [[h|]|] eqn:RM.
    + cbn [run_rkernel] in R. rewrite GF in R. destruct (g h _) as [q|] eqn:G; [|discriminate].
      destruct (recover interp rmap e t) as [[[e1 t1] tr1] r1] eqn:RT. inversion R; subst.
      destruct (IH _ _ _ _ RT) as [-> F]. split; [reflexivity|].
      constructor; [unfold rec', rec1; rewrite IE, C1, C2, C3, RM, G; reflexivity|exact F].
    + cbn [run_rkernel] in R. discriminate.
    + destruct (recover interp rmap e t) as [[[e1 t1] tr1] r1] eqn:RT. inversion R; subst.
      destruct (IH _ _ _ _ RT) as [-> F]. split; [reflexivity|].
      constructor; [unfold rec', rec1; rewrite IE, C1, C2, C3, RM; reflexivity|exact F].
Qed.

Lemma rec_recover : forall ps ps1 e, Forall2 (fun p p1 => rec' p = Some p1) ps ps1 ->
  exists tr, recover interp rmap e ps = (e, ps1, tr, RNext).
Proof.
  intros ps ps1 e F. induction F as [|p p1 t t1 R F [tr IH]]; cbn [recover]; [eauto|].
  unfold rec' in R. destruct (in_error p) eqn:IE; cbn [negb].
  2:{ rewrite IH. inversion R; subst. eauto. }
  unfold rec1 in R.
  destruct (q_st p =? op_StopExecution); [discriminate|].
  destruct (q_st p =? op_Repeat); [rewrite IH; inversion R; subst; eauto|].
  destruct (q_st p =? op_Delete); [rewrite IH; inversion R; subst; eauto|].
  destruct (rmap (q_st p)) as [[h|]|]; [|discriminate|rewrite IH; inversion R; subst; eauto].
  cbn [run_rkernel]. rewrite GF. destruct (g h _) as [q|]; [|discriminate].
  rewrite IH. inversion R; subst. eauto.
Qed.

Lemma pass_each_of : forall stop lf e ps ps', 
  Forall2 (fun p p' => exists tr, py_particle (H:=H) K lf atol dt stop e p = Some (e, p', tr)) ps ps' ->
  exists tr, pass (py_particle (H:=H) K lf atol dt stop) e ps = Some (e, ps', tr).
Proof.
  intros stop lf e ps ps' F. induction F as [|p p' t t' [tr O] F [tr2 IH]]; cbn [pass]; [eauto|].
  rewrite O, IH. eauto.
Qed.

Lemma enters_rec : forall stop p p1, post stop p -> rec' p = Some p1 -> is_deleted p1 = false ->
  enters stop p1.
Proof.
  intros stop p p1 (O & A & B) R ND. unfold rec' in R. destruct (in_error p) eqn:IE.
  2:{ inversion R; subst. split; [exact O|]. split; [exact ND|].
      split; [left; exact IE|]. intros BF. destruct A as [A|A]; congruence. }
  assert (DE : is_deleted p = false).
  { destruct (is_deleted p) eqn:D; [|reflexivity]. unfold rec1 in R. unfold is_deleted in D.
    replace (q_st p =? op_StopExecution) with false in R by (split_codes; lia).
    replace (q_st p =? op_Repeat) with false in R by (split_codes; lia).
    rewrite D in R. inversion R; subst. unfold is_deleted in ND. congruence. }
  destruct (B eq_refl) as [B1|B1]; [congruence|].
  split; [eapply ok_rec; eassumption|]. split; [exact ND|].
  assert (B2 : bef stop p1 = true).
  { rewrite <- B1. apply bef_time. apply (rec1_keeps _ _ R). }
  split; [right; exact B2|]. intros _ ST. unfold rec1 in R.
  destruct (_ =? _); [discriminate|]. destruct (_ =? _); [inversion R; subst; discriminate|].
  destruct (_ =? _) eqn:D1; [unfold is_deleted in DE; congruence|].
  destruct (rmap _) as [[h|]|]; [|discriminate|inversion R; subst; discriminate].
  destruct (g h _) as [q|]; [|discriminate]. inversion R; subst. cbn in ST.
  destruct (q_st q =? st_Success) eqn:QS; [discriminate|]. split_codes. lia.
Qed.

Lemma round_back : forall stop lf e ps ps1, Forall2 (fun p p1 => rec' p = Some p1) ps ps1 ->
  Forall (post stop) ps -> forall ps3 rs3,
  Forall2 (fun p p' => exists tr, py_particle (H:=H) K lf atol dt stop e p = Some (e, p', tr)) (filter nd ps1) ps3 ->
  Forall2 (fun p r => exists n, PB stop n p r) ps3 rs3 ->
  exists rs, Forall2 (fun p r => exists n, PB stop n p r) ps rs /\ somes rs = somes rs3.
Proof.
  intros stop lf e ps ps1 F. induction F as [|p p1 t t1 R F IH]; intros P ps3 rs3 O3 B3.
  - cbn in O3. inversion O3; subst. inversion B3; subst. exists []. split; constructor.
  - apply Forall_cons_iff in P. destruct P as [P PT]. cbn [filter] in O3.
    destruct (is_deleted p1) eqn:D1; cbn [negb] in O3.
    + destruct (IH PT _ _ O3 B3) as (rs & FR & SR). exists (None :: rs).
      split; [|exact SR]. constructor; [|exact FR].
      unfold rec' in R. destruct (in_error p) eqn:IE.
      * destruct (is_deleted p) eqn:D; [exists 0%nat; right; left; auto|].
        exists 1%nat. right; right. destruct P as (O & _ & B). destruct (B IE) as [B1|B1]; [congruence|].
        eapply J_recdel; eassumption.
      * inversion R; subst. unfold in_error, is_deleted in *. split_codes. lia.
    + inversion O3 as [|? p3 ? t3 [tr O1] O3']; subst. inversion B3 as [|? r ? rt [n BB] B3']; subst.
      destruct (IH PT _ _ O3' B3') as (rs & FR & SR). exists (r :: rs).
      split; [|cbn; f_equal; exact SR]. constructor; [|exact FR].
      pose proof (enters_rec _ _ _ P R D1) as EN.
      destruct (one_course _ _ _ _ _ _ _ EN O1) as (_ & _ & IFF).
      apply IFF in BB. unfold rec' in R. destruct (in_error p) eqn:IE.
      * assert (DE : is_deleted p = false).
        { destruct (is_deleted p) eqn:D; [|reflexivity]. unfold rec1 in R. unfold is_deleted in D.
          replace (q_st p =? op_StopExecution) with false in R by (split_codes; lia).
          replace (q_st p =? op_Repeat) with false in R by (split_codes; lia).
          rewrite D in R. inversion R; subst. unfold is_deleted in D1. congruence. }
        destruct P as (O & _ & B). destruct (B IE) as [B1|B1]; [congruence|].
        destruct BB as [[B2 _]|[B2 JJ]].
        { exfalso. rewrite (bef_time stop p p1) in B1; [congruence|].
          symmetry. apply (rec1_keeps _ _ R). }
        exists (S n). right; right. eapply J_rec; eassumption.
      * inversion R; subst. exists n. destruct P as (O & A & _). destruct A as [A|A]; [congruence|].
        apply PB_quiet; auto. destruct BB as [[_ BR]|[B2 _]]; [exact BR|congruence].
Qed.

Lemma round_fwd : forall stop lf e n ps rs, Forall2 (PB stop n) ps rs -> Forall (post stop) ps ->
  Forall (fits stop lf) ps ->
  exists ps1 ps3 rs3, Forall2 (fun p p1 => rec' p = Some p1) ps ps1 /\
    Forall2 (fun p p' => exists tr, py_particle (H:=H) K lf atol dt stop e p = Some (e, p', tr)) (filter nd ps1) ps3 /\
    Forall (post stop) ps3 /\ Forall (fits stop lf) ps3 /\
    Forall2 (PB stop (pred n)) ps3 rs3 /\ somes rs3 = somes rs /\
    (n = O -> Forall (fun p => in_error p = false) ps3).
Proof.
  intros stop lf e n ps rs F. induction F as [|p r t rt B F IH]; intros P FI.
  - exists [], [], []. repeat split; constructor.
  - apply Forall_cons_iff in P. destruct P as [P PT]. apply Forall_cons_iff in FI. destruct FI as [FI FT].
    destruct (IH PT FT) as (ps1 & ps3 & rs3 & R1 & O3 & P3 & F3 & B3 & S3 & N3).
    assert (KEEP : forall p1 m, rec' p = Some p1 -> is_deleted p1 = false -> PRE stop m p1 r ->
              (m = pred n \/ bef stop p1 = false) -> (n = O -> bef stop p1 = false) ->
       exists ps1 ps3 rs3, Forall2 (fun p p1 => rec' p = Some p1) (p :: t) ps1 /\
        Forall2 (fun p p' => exists tr, py_particle (H:=H) K lf atol dt stop e p = Some (e, p', tr)) (filter nd ps1) ps3 /\
        Forall (post stop) ps3 /\ Forall (fits stop lf) ps3 /\
        Forall2 (PB stop (pred n)) ps3 rs3 /\ somes rs3 = somes (r :: rt) /\
        (n = O -> Forall (fun p => in_error p = false) ps3)).
    { intros p1 m R D1 PR MM Z0. pose proof (enters_rec _ _ _ P R D1) as EN.
      assert (T : q_time p1 = q_time p).
      { unfold rec' in R. destruct (in_error p); [apply (rec1_keeps _ _ R)|inversion R; reflexivity]. }
      assert (FI1 : fits stop lf p1).
      { destruct FI as [FI0 FI]. split; [exact FI0|]. rewrite T. intros BB. apply FI. rewrite <- BB. apply bef_time. congruence. }
      destruct (one_total stop lf e p1 EN FI1) as (p3 & tr & O1 & FP3).
      destruct (one_course _ _ _ _ _ _ _ EN O1) as (_ & [PP _] & IFF).
      exists (p1 :: ps1), (p3 :: ps3), (r :: rs3).
      split; [constructor; assumption|]. cbn [filter]. rewrite D1. cbn [negb].
      split; [constructor; [exists tr; exact O1|assumption]|].
      split; [constructor; assumption|]. split; [constructor; assumption|].
      split; [|split; [cbn; f_equal; exact S3|]].
      - constructor; [|assumption]. apply IFF. destruct MM as [<-|MM]; [exact PR|].
        destruct PR as [PR|[PR _]]; [left; exact PR|congruence].
      - intros N0. constructor; [|auto]. specialize (Z0 N0).
        assert (Q : PB stop O p3 (Some (norm p1))).
        { apply IFF. left. auto. }
        destruct Q as [(Q & _)|[(_ & Q)|Q]]; [exact Q|discriminate|inversion Q]. }
    destruct B as [(IE & B0 & ->)|[(DE & ->)|JJ]].
    + apply (KEEP p n).
      * unfold rec'. rewrite IE. reflexivity.
      * unfold in_error, is_deleted in *. split_codes. lia.
      * left. auto.
      * right. exact B0.
      * intros _. exact B0.
    + exists (p :: ps1), ps3, rs3. split; [|cbn [filter]; rewrite DE; cbn [negb]; change (somes (None :: rt)) with (somes rt); exact (conj O3 (conj P3 (conj F3 (conj B3 (conj S3 N3)))))].
      constructor; [|assumption]. unfold rec', rec1. unfold is_deleted in DE.
      replace (q_st p =? op_StopExecution) with false by (split_codes; lia).
      replace (q_st p =? op_Repeat) with false by (split_codes; lia).
      rewrite DE. destruct (in_error p); reflexivity.
    + inversion JJ as [| | | | |n' ? p2 ? B1 IE DE R D2 J2|n' ? p2 B1 IE DE R D2]; subst.
      * apply (KEEP p2 n').
        -- unfold rec'. rewrite IE. exact R.
        -- exact D2.
        -- right. split; [|exact J2]. rewrite <- B1. apply bef_time. apply (rec1_keeps _ _ R).
        -- left. reflexivity.
        -- discriminate.
      * exists (p2 :: ps1), ps3, rs3.
        split; [|cbn [filter]; rewrite D2; cbn [negb]; change (somes (None :: rt)) with (somes rt); exact (conj O3 (conj P3 (conj F3 (conj B3 (conj S3 N3)))))].
        constructor; [|assumption]. unfold rec'. rewrite IE. exact R.
Qed.

Lemma no_errors : forall ps, existsb in_error ps = false -> Forall (fun p : pcl => in_error p = false) ps.
Proof.
  induction ps as [|p t IH]; intros N; constructor; cbn in N; apply orb_false_iff in N; [apply N|apply IH; apply N].
Qed.

Lemma errors_none : forall ps, Forall (fun p : pcl => in_error p = false) ps -> existsb in_error ps = false.
Proof. induction 1; cbn; [reflexivity|]. rewrite H0, IHForall. reflexivity. Qed.

Notation roundsX lf stop fuel := (rounds interp fuel (pass (py_particle (H:=H) K lf atol dt stop)) (fun e => e) (fun _ e => e) rmap).

Lemma rounds_course : forall stop lf fuel out e ps e' ps' tr,
  Forall (post stop) ps -> roundsX lf stop fuel out e ps = (e', ps', tr, XDone) ->
  e' = e /\ exists rs, Forall2 (fun p r => exists n, PB stop n p r) ps rs /\ map norm ps' = somes rs.
Proof.
  intros stop lf. induction fuel; intros out e ps e' ps' tr P R.
  - cbn [rounds] in R. destruct (existsb in_error ps) eqn:N; cbn [negb] in R; [discriminate|].
    inversion R; subst. split; [reflexivity|]. apply no_errors in N.
    exists (map (fun p => Some (norm p)) ps'). clear R. induction N as [|p t IE N IH].
    + split; constructor.
    + apply Forall_cons_iff in P. destruct P as [(O & A & B) PT]. destruct (IH PT) as [F S'].
      split; [|cbn; f_equal; exact S']. constructor; [|exact F]. exists 0%nat. left. destruct A; [congruence|auto].
  - cbn [rounds] in R. destruct (existsb in_error ps) eqn:N; cbn [negb] in R.
    2:{ inversion R; subst. split; [reflexivity|]. apply no_errors in N.
      exists (map (fun p => Some (norm p)) ps'). clear R. induction N as [|p t IE N IH].
      + split; constructor.
      + apply Forall_cons_iff in P. destruct P as [(O & A & B) PT]. destruct (IH PT) as [F S'].
        split; [|cbn; f_equal; exact S']. constructor; [|exact F]. exists 0%nat. left. destruct A; [congruence|auto]. }
    destruct (recover interp rmap e ps) as [[[e1 ps1] tr1] r1] eqn:RC.
    destruct r1; try discriminate. rewrite remove_deleted_eq in R.
    destruct (recover_rec _ _ _ _ _ RC) as [-> R1].
    destruct (pass _ e _) as [[[e3 ps3] tr3]|] eqn:PA; [|discriminate].
    assert (PE : e3 = e /\ Forall2 (fun p p' => exists tr, py_particle (H:=H) K lf atol dt stop e p = Some (e, p', tr)) (filter nd ps1) ps3).
    { eapply pass_e; [|exact PA]. split; [exists f; exact KF|exists g; exact GF]. }
    destruct PE as [-> O3].
    destruct (roundsX lf stop fuel out e ps3) as [[[e4 ps4] tr4] r4] eqn:RR. inversion R; subst.
    assert (P3 : Forall (post stop) ps3).
    { clear - R1 O3 P KF GF KS GS KN HA HD. revert ps3 O3 P. induction R1 as [|p p1 t t1 RR F IH]; intros ps3 O3 P.
      - inversion O3; constructor.
      - apply Forall_cons_iff in P. destruct P as [P PT]. cbn [filter] in O3.
        destruct (is_deleted p1) eqn:D1; cbn [negb] in O3; [eauto|].
        inversion O3 as [|? p3 ? t3 [tr O1] O3']; subst. constructor; [|eauto].
        pose proof (enters_rec _ _ _ P RR D1) as EN. apply (one_course _ _ _ _ _ _ _ EN O1). }
    destruct (IHfuel _ _ _ _ _ _ P3 RR) as (-> & rs3 & B3 & S3).
    split; [reflexivity|]. destruct (round_back _ _ _ _ _ R1 P _ _ O3 B3) as (rs & BR & SR).
    exists rs. split; [exact BR|congruence].
Qed.

Lemma course_rounds : forall stop lf n fuel out e ps rs,
  Forall2 (PB stop n) ps rs -> Forall (post stop) ps -> Forall (fits stop lf) ps -> (n < fuel)%nat ->
  exists ps' tr, roundsX lf stop fuel out e ps = (e, ps', tr, XDone) /\ map norm ps' = somes rs.
Proof.
  intros stop lf.
  assert (QUIET : forall n fuel out e ps rs, Forall2 (PB stop n) ps rs -> Forall (post stop) ps ->
     Forall (fun p => in_error p = false) ps ->
     exists ps' tr, roundsX lf stop fuel out e ps = (e, ps', tr, XDone) /\ map norm ps' = somes rs).
  { intros n fuel out e ps rs B P N. exists ps, []. split.
    - destruct fuel; cbn [rounds]; rewrite (errors_none _ N); reflexivity.
    - induction B as [|p r t rt BB B IH]; [reflexivity|].
      apply Forall_cons_iff in P. apply Forall_cons_iff in N. destruct P as [(O & A & _) PT]. destruct N as [IE NT].
      destruct A as [A|A]; [congruence|]. apply PB_quiet in BB; auto. subst. cbn. f_equal. auto. }
  induction n; intros fuel out e ps rs B P FI LT; (destruct fuel as [|fuel]; [lia|]).
  - destruct (existsb in_error ps) eqn:N; [|eapply QUIET; eauto using no_errors].
    cbn [rounds]. rewrite N. cbn [negb].
    destruct (round_fwd stop lf e _ _ _ B P FI) as (ps1 & ps3 & rs3 & R1 & O3 & P3 & F3 & B3 & S3 & N3).
    destruct (rec_recover _ _ e R1) as [tr1 ->]. rewrite remove_deleted_eq.
    destruct (pass_each_of _ _ _ _ _ O3) as [tr3 ->].
    destruct (QUIET _ fuel out e _ _ B3 P3 (N3 eq_refl)) as (ps' & tr4 & -> & M).
    eexists _, _. split; [reflexivity|congruence].
  - destruct (existsb in_error ps) eqn:N; [|eapply QUIET; eauto using no_errors].
    cbn [rounds]. rewrite N. cbn [negb].
    destruct (round_fwd stop lf e _ _ _ B P FI) as (ps1 & ps3 & rs3 & R1 & O3 & P3 & F3 & B3 & S3 & N3).
    destruct (rec_recover _ _ e R1) as [tr1 ->]. rewrite remove_deleted_eq.
    destruct (pass_each_of _ _ _ _ _ O3) as [tr3 ->].
    destruct (IHn fuel out e _ _ B3 P3 F3) as (ps' & tr4 & -> & M); [lia|].
    eexists _, _. split; [reflexivity|congruence].
Qed.

(** ** kernel.execute *)

Definition evolves (stop : Z) (ps qs : list pcl) : Prop :=
  exists rs, Forall2 (fun p r => exists n, J stop false n (norm p) r) ps rs /\ qs = somes rs.

Lemma PRE_norm : forall stop n p r, PRE stop n (norm p) r <-> J stop false n (norm p) r.
Proof.
  intros stop n p r. unfold PRE. split.
  - intros [[B ->]|[_ JJ]]; [|exact JJ]. apply (J_end stop n (norm p)); [exact B|reflexivity].
  - intros JJ. destruct (bef stop (norm p)) eqn:B; [auto|]. left. split; [reflexivity|].
    rewrite (J_inv_end _ _ _ _ _ JJ eq_refl B). reflexivity.
Qed.

Lemma enters_norm : forall stop p, ok stop p -> enters stop (norm p).
Proof. intros stop p O. split; [exact O|]. split; [reflexivity|]. split; [left; reflexivity|]. discriminate. Qed.

Lemma execute_course : forall stop lf rf out e ps e' ps' tr, Forall (ok stop) ps ->
  py_execute K interp lf rf atol dt stop user out e ps = (e', ps', tr, XDone) ->
  evolves stop ps (map norm ps').
Proof.
  intros stop lf rf out e ps e' ps' tr OK R. unfold py_execute, execute, py_pass in R.
  destruct (pass _ e _) as [[[e1 ps1] tr1]|] eqn:PA; [|discriminate].
  assert (PE : e1 = e /\ Forall2 (fun p p' => exists tr, py_particle (H:=H) K lf atol dt stop e p = Some (e, p', tr)) (map (fun p => set_st p st_Evaluate) ps) ps1).
  { eapply pass_e; [|exact PA]. split; [exists f; exact KF|exists g; exact GF]. }
  destruct PE as [-> O1]. rewrite remove_deleted_eq in R.
  destruct (rounds _ _ _ _ _ _ _ _ _) as [[[e3 ps3] tr3] r3] eqn:RR. inversion R; subst.
  assert (G : Forall (post stop) (filter nd ps1) /\ forall rs2,
     Forall2 (fun p r => exists n, PB stop n p r) (filter nd ps1) rs2 ->
     exists rs, Forall2 (fun p r => exists n, J stop false n (norm p) r) ps rs /\ somes rs2 = somes rs).
  { clear RR R PA. revert ps1 O1. induction OK as [|p t O OK IH]; intros ps1 O1.
    - inversion O1; subst. split; [constructor|]. intros rs2 F. inversion F; subst. exists []. split; constructor.
    - inversion O1 as [|? p1 ? t1 [tr0 OP] O1']; subst. destruct (IH _ O1') as [PT REST].
      destruct (one_course _ _ _ _ _ _ _ (enters_norm _ _ O) OP) as (_ & [PP _] & IFF).
      cbn [filter]. destruct (is_deleted p1) eqn:D1; cbn [negb].
      + split; [exact PT|]. intros rs2 F. destruct (REST _ F) as (rs & FR & SR).
        exists (None :: rs). split; [|exact SR]. constructor; [|exact FR]. exists 0%nat.
        apply PRE_norm. apply IFF. right; left. auto.
      + split; [constructor; assumption|]. intros rs2 F. inversion F as [|? r ? rt [n BB] F']; subst.
        destruct (REST _ F') as (rs & FR & SR). exists (r :: rs). split; [|cbn; f_equal; exact SR].
        constructor; [|exact FR]. exists n. apply PRE_norm. apply IFF. exact BB. }
  destruct G as [P G].
  destruct (rounds_course _ _ _ _ _ _ _ _ _ P RR) as (_ & rs2 & B2 & S2).
  destruct (G _ B2) as (rs & FR & SR). exists rs. split; [exact FR|congruence].
Qed.

Lemma common_bound : forall stop (ps : list pcl) rs,
  Forall2 (fun p r => exists n, J stop false n (norm p) r) ps rs ->
  exists n, Forall2 (fun p r => J stop false n (norm p) r) ps rs.
Proof.
  intros stop ps rs F. induction F as [|p r t rt [n JJ] F [m IH]]; [exists O; constructor|].
  exists (Nat.max n m). constructor; [eapply J_mono; [exact JJ|lia]|].
  clear F JJ. induction IH as [|p' r' t rt JJ F IH]; [constructor|]. constructor; [eapply J_mono; [exact JJ|lia]|exact IH].
Qed.

Lemma fits_bound : forall stop (ps : list pcl), exists L, forall lf, (L <= lf)%nat -> Forall (fits stop lf) ps.
Proof.
  intros stop ps. induction ps as [|p t [L IH]]; [exists O; constructor|].
  exists (Nat.max L (S (Z.to_nat (Z.abs (stop - q_time p))))). intros lf LE. constructor; [|apply IH; lia].
  split; [lia|]. intros _. lia.
Qed.

Lemma course_execute : forall stop out e ps qs, Forall (ok stop) ps -> evolves stop ps qs ->
  exists L N, forall lf rf, (L <= lf)%nat -> (N <= rf)%nat ->
  exists ps' tr, py_execute K interp lf rf atol dt stop user out e ps = (e, ps', tr, XDone) /\ map norm ps' = qs.
Proof.
  intros stop out e ps qs OK (rs & F & ->).
  destruct (common_bound _ _ _ F) as [n FN]. clear F.
  destruct (fits_bound stop ps) as [L FB]. exists L, (S n). intros lf rf LF RF.
  specialize (FB lf LF). unfold py_execute, execute, py_pass.
  assert (G : exists ps1 rs2,
    Forall2 (fun p p' => exists tr, py_particle (H:=H) K lf atol dt stop e p = Some (e, p', tr)) (map (fun p => set_st p st_Evaluate) ps) ps1 /\
    Forall (post stop) (filter nd ps1) /\ Forall (fits stop lf) (filter nd ps1) /\
    Forall2 (PB stop n) (filter nd ps1) rs2 /\ somes rs2 = somes rs).
  { revert OK FB. induction FN as [|p r t rt JJ FN IH]; intros OK FB.
    - exists [], []. repeat split; constructor.
    - apply Forall_cons_iff in OK. destruct OK as [O OK]. apply Forall_cons_iff in FB. destruct FB as [FP FB].
      destruct (IH OK FB) as (ps1 & rs2 & O1 & P1 & F1 & B1 & S1).
      destruct (one_total stop lf e (norm p) (enters_norm _ _ O) FP) as (p1 & tr & OP & FP1).
      destruct (one_course _ _ _ _ _ _ _ (enters_norm _ _ O) OP) as (_ & [PP _] & IFF).
      apply PRE_norm in JJ. apply IFF in JJ.
      destruct (is_deleted p1) eqn:D1.
      + exists (p1 :: ps1), rs2. cbn [filter map]. rewrite D1. cbn [negb].
        split; [constructor; [exists tr; exact OP|exact O1]|]. split; [exact P1|]. split; [exact F1|].
        split; [exact B1|]. rewrite S1. cbn.
        destruct JJ as [(Q & _)|[(_ & ->)|Q]]; [|reflexivity|inversion Q; congruence].
        unfold in_error, is_deleted in *. split_codes. lia.
      + exists (p1 :: ps1), (r :: rs2). cbn [filter map]. rewrite D1. cbn [negb].
        split; [constructor; [exists tr; exact OP|exact O1]|].
        split; [constructor; assumption|]. split; [constructor; assumption|].
        split; [constructor; assumption|]. cbn. f_equal. exact S1. }
  destruct G as (ps1 & rs2 & O1 & P1 & F1 & B1 & S1).
  destruct (pass_each_of _ _ _ _ _ O1) as [tr1 PA]. rewrite PA. rewrite remove_deleted_eq.
  destruct (course_rounds stop lf n rf out e _ _ B1 P1 F1) as (ps' & tr & RR & M); [lia|].
  rewrite RR. eexists _, _. split; [reflexivity|congruence].
Qed.

(** ** Splitting *)

Lemma evolves_ok : forall stop t ps qs, evolves stop ps qs -> Forall (ok t) ps -> Forall (ok t) qs.
Proof.
  intros stop t ps qs (rs & F & ->) OK. induction F as [|p r ps rs [n JJ] F IH]; [constructor|].
  apply Forall_cons_iff in OK. destruct OK as [O OK]. cbn. apply Forall_app. split; [|auto].
  destruct r as [q|]; constructor; [|constructor].
  eapply J_ok; [exact JJ| |reflexivity]. exact O.
Qed.

Lemma evolves_split : forall t1 t2 ps qs, 0 <= Z.sgn dt * (t2 - t1) -> Forall (ok t1) ps ->
  evolves t2 ps qs -> exists ms, evolves t1 ps ms /\ evolves t2 ms qs.
Proof.
  intros t1 t2 ps qs LE OK (rs & F & ->). induction F as [|p r ps rs [n JJ] F IH].
  - exists []. split; exists []; split; constructor.
  - apply Forall_cons_iff in OK. destruct OK as [O OK]. destruct (IH OK) as (ms & (rs1 & F1 & ->) & (rs2 & F2 & S2)).
    destruct (J_decompose t1 t2 LE _ _ _ _ JJ O) as (r1 & J1 & R1); [right; split; reflexivity|].
    exists (somes (r1 :: rs1)). split.
    + exists (r1 :: rs1). split; [constructor; [eauto|exact F1]|reflexivity].
    + destruct r1 as [q|].
      * exists (r :: rs2). split; [|cbn; f_equal; exact S2]. cbn. constructor; [|exact F2].
        exists n. destruct (J_result _ _ _ _ _ J1 _ eq_refl) as [ST _].
        replace (norm q) with q; [exact R1|]. destruct q; cbn in ST; subst; reflexivity.
      * subst r. exists rs2. split; [exact F2|exact S2].
Qed.

Lemma evolves_join : forall t1 t2 ps ms qs, 0 <= Z.sgn dt * (t2 - t1) ->
  evolves t1 ps ms -> evolves t2 ms qs -> evolves t2 ps qs.
Proof.
  intros t1 t2 ps ms qs LE (rs1 & F1 & ->) (rs2 & F2 & ->). revert rs2 F2.
  induction F1 as [|p r1 ps rs1 [n J1] F1 IH]; intros rs2 F2.
  - cbn in F2. inversion F2; subst. exists []. split; constructor.
  - destruct r1 as [q|]; cbn in F2.
    + inversion F2 as [|? r ? rt [m J2] F2']; subst. destruct (IH _ F2') as (rs & F & S').
      exists (r :: rs). split; [|cbn; f_equal; exact S'].
      constructor; [|exact F]. exists (n + m)%nat.
      destruct (J_result _ _ _ _ _ J1 _ eq_refl) as [ST _].
      replace (norm q) with q in J2 by (destruct q; cbn in ST; subst; reflexivity).
      eapply J_compose; [exact LE|exact J1|exact J2].
    + destruct (IH _ F2) as (rs & F & S'). exists (None :: rs). split; [|exact S'].
      constructor; [|exact F]. exists (n + 0)%nat. eapply (J_compose t1 t2 LE _ _ _ _ J1 0%nat). reflexivity.
Qed.

Lemma evolves_norm : forall stop ps qs, evolves stop ps qs <-> evolves stop (map norm ps) qs.
Proof.
  intros stop ps qs. split; intros (rs & F & ->); exists rs; (split; [|reflexivity]).
  - induction F; constructor; assumption.
  - revert rs F. induction ps as [|p t IH]; intros rs F; inversion F; subst; constructor; auto.
Qed.

End Split.
