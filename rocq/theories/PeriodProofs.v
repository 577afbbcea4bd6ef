(** Proofs about periods longer than the data (C24). *)
From Coq Require Import List ZArith Bool QArith Qround Lia Lqa ZifyBool.
From Verif Require Import IdxModel IdxBase IdxSpec IdxProofs TimeModel InterpModel InterpSpec TimeProofs PeriodModel PeriodSpec.
Import ListNotations.
Open Scope Q_scope.

Section Period.
Variables (period : Q) (given : list Q).
Hypothesis AX : axis_ok given.
Hypothesis PP : 0 < period.
Let t0 := first_ given.
Let tn := last_ given.

Lemma zlen_one (x : Q) : zlen (given ++ [x]) = (zlen given + 1)%Z.
Proof. unfold zlen. rewrite app_length. cbn. lia. Qed.
Lemma at_old x i : (0 <= i < zlen given)%Z -> at_ (given ++ [x]) i = at_ given i.
Proof. intros R. unfold at_. rewrite app_nth1; [reflexivity|]. unfold zlen in R. lia. Qed.
Lemma at_new x : at_ (given ++ [x]) (zlen given) = x.
Proof. unfold at_, zlen. rewrite Nat2Z.id, app_nth2 by lia. rewrite Nat.sub_diag. reflexivity. Qed.

(** The times of the field. *)
Definition times_ok (tm : list Q) : Prop :=
  axis_ok tm /\ (1 < zlen tm)%Z /\ first_ tm = t0 /\ last_ tm == t0 + period /\ (zlen given <= zlen tm <= zlen given + 1)%Z /\
  (forall i, (0 <= i < zlen given)%Z -> at_ tm i = at_ given i) /\ (zlen tm = zlen given -> tn == t0 + period).
Lemma times_of : tn - t0 <= period -> exists tm, periodic_times period given = Some tm /\ times_ok tm.
Proof.
  intros LE. destruct AX as [L I]. destruct (tm_ends given AX) as (E1 & E2 & _ & _). unfold periodic_times. rewrite E1, E2. fold t0 tn.
  destruct (Qeq_bool (tn - t0) period) eqn:EQ.
  - apply Qeq_bool_iff in EQ. exists given. split; [reflexivity|].
    assert (1 < zlen given)%Z.
    { destruct (Z.eq_dec (zlen given) 1) as [E|]; [|lia]. exfalso. unfold tn, t0, last_, first_ in EQ. rewrite E in EQ. cbn in EQ. lra. }
    split; [exact AX|]. split; [assumption|]. split; [reflexivity|]. split; [fold tn; lra|]. split; [lia|]. split; [reflexivity|]. intros _. lra.
  - assert (LT : tn - t0 < period).
    { destruct (Qlt_le_dec (tn - t0) period); [assumption|]. assert (Q1 : tn - t0 == period) by lra. apply Qeq_bool_iff in Q1. congruence. }
    replace (qlt period (tn - t0)) with false by (symmetry; apply qlt_false; lra).
    eexists. split; [reflexivity|]. set (x := t0 + period).
    split; [|split; [|split; [|split; [|split; [|split]]]]].
    + split; [rewrite zlen_one; lia|]. intros i j IJ J. rewrite zlen_one in J. rewrite (at_old x i) by lia.
      destruct (Z.eq_dec j (zlen given)) as [->|N].
      * rewrite at_new. assert (at_ given i <= at_ given (zlen given - 1)) by (apply inc_le; [exact I|lia..]). fold (last_ given) in H. fold tn in H. unfold x. lra.
      * rewrite at_old by lia. apply I; lia.
    + rewrite zlen_one. lia.
    + unfold first_. rewrite at_old by lia. reflexivity.
    + unfold last_. rewrite zlen_one. replace (zlen given + 1 - 1)%Z with (zlen given) by lia. rewrite at_new. reflexivity.
    + rewrite zlen_one. lia.
    + intros i R. apply at_old. exact R.
    + rewrite zlen_one. lia.
Qed.
Lemma times_none : period < tn - t0 -> periodic_times period given = None.
Proof.
  intros LT. destruct (tm_ends given AX) as (E1 & E2 & _ & _). unfold periodic_times. rewrite E1, E2. fold t0 tn.
  replace (Qeq_bool (tn - t0) period) with false.
  2:{ symmetry. destruct (Qeq_bool (tn - t0) period) eqn:E; [|reflexivity]. apply Qeq_bool_iff in E. lra. }
  replace (qlt period (tn - t0)) with true by (symmetry; apply qlt_spec; exact LT). reflexivity.
Qed.

(** The frame the time search of Scipy mode finds. *)
Lemma py_index_at ex tm t : axis_ok tm -> (1 < zlen tm)%Z -> exists i p, py_time_index true ex tm (first_ tm) (last_ tm) t = TAt i p /\
  let t' := t - inject_Z p * (last_ tm - first_ tm) in
  first_ tm <= t' < last_ tm /\ (0 <= i)%Z /\ (i + 1 < zlen tm)%Z /\ at_ tm i <= t' < at_ tm (i + 1).
Proof.
  intros TX L1. pose proof TX as [L I]. destruct (tm_ends tm TX) as (E1 & E2 & _ & _). pose proof (inc_dir tm L1 I) as D.
  unfold py_time_index. rewrite E1, E2. cbn [negb andb]. cbv beta zeta. set (le := map (fun v0 => qle v0 t) tm).
  destruct (np_all le || np_all (map negb le)) eqn:OUT.
  - replace (Qeq_bool (last_ tm) (first_ tm)) with false.
    2:{ symmetry. destruct (Qeq_bool (last_ tm) (first_ tm)) eqn:E; [|reflexivity]. apply Qeq_bool_iff in E. lra. }
    destruct (floor_wrap t _ _ D) as [A B]. set (p := Qfloor _) in *.
    destruct (inner_spec tm _ TX A B) as (i & EI & I0 & I1 & I2). rewrite EI. exists i, p. split; [reflexivity|]. repeat split; assumption || lra.
  - apply orb_false_iff in OUT. destruct OUT as [O1 O2].
    assert (A : first_ tm <= t).
    { destruct (Qlt_le_dec t (first_ tm)) as [C|]; [|assumption]. exfalso. assert (T : np_all (map negb le) = true); [|congruence].
      unfold le. apply np_all_negb. intros i R. apply qle_false. assert (at_ tm 0 <= at_ tm i) by (apply inc_le; [exact I|lia..]).
      fold (first_ tm) in H. lra. }
    assert (B : t < last_ tm).
    { destruct (Qlt_le_dec t (last_ tm)) as [|C]; [assumption|]. exfalso. assert (T : np_all le = true); [|congruence].
      unfold le. apply np_all_map. intros i R. apply qle_spec. assert (at_ tm i <= at_ tm (zlen tm - 1)) by (apply inc_le; [exact I|lia..]).
      fold (last_ tm) in H. lra. }
    destruct (inner_spec tm t TX A B) as (i & EI & I0 & I1 & I2). fold le in EI. rewrite EI. exists i, 0%Z. split; [reflexivity|].
    cbv zeta. change (inject_Z 0) with 0. repeat split; assumption || lra.
Qed.

Lemma unique_period t a b : in_period period given t a -> in_period period given t b -> a == b.
Proof.
  intros ((A1 & A2) & n & A3) ((B1 & B2) & m & B3).
  assert (E : n = m).
  { destruct (Z_lt_ge_dec n m) as [C|C]; [|destruct (Z_lt_ge_dec m n) as [C'|C']; [|lia]]; exfalso.
    - assert (Q1 : inject_Z n + 1 <= inject_Z m) by (change 1 with (inject_Z 1); rewrite <- inject_Z_plus, <- Zle_Qle; lia).
      assert (Q2 : (inject_Z n + 1) * period <= inject_Z m * period) by (apply Qmult_le_compat_r; lra). lra.
    - assert (Q1 : inject_Z m + 1 <= inject_Z n) by (change 1 with (inject_Z 1); rewrite <- inject_Z_plus, <- Zle_Qle; lia).
      assert (Q2 : (inject_Z m + 1) * period <= inject_Z n * period) by (apply Qmult_le_compat_r; lra). lra. }
  subst m. lra.
Qed.

Section Value.
Variables (v : Z -> ires) (w : Z -> Q).
Hypothesis F : frames given v w.
Hypothesis LE : tn - t0 <= period.

Lemma frame_old n : (0 <= n < zlen given)%Z -> frame_or_first given v n = IVal (w n).
Proof. intros R. unfold frame_or_first. replace (n =? zlen given)%Z with false by lia. apply F. exact R. Qed.

Lemma py_period_at t : exists q t', py_period period given v t = Some (IVal q) /\ in_period period given t t' /\
  (t' <= tn -> time_value given w t' q) /\ (tn < t' -> q = w (zlen given - 1)%Z).
Proof.
  destruct (times_of LE) as (tm & ET & TX & L1 & TF & TL & TLen & TA & TC). unfold py_period. rewrite ET. unfold py_eval_tdim.
  destruct (tm_ends tm TX) as (E1 & E2 & _ & _). rewrite E1, E2.
  destruct (py_index_at false tm t TX L1) as (i & p & EI & B). rewrite EI. cbv zeta in B |- *.
  set (t' := t - inject_Z p * (last_ tm - first_ tm)) in *. destruct B as ((B1 & B2) & I0 & I1 & C1 & C2).
  assert (IG : (0 <= i < zlen given)%Z) by lia.
  assert (IP : in_period period given t t').
  { fold t0. split; [fold t0; split; [rewrite <- TF; exact B1|lra]|]. exists p. unfold t'. rewrite TF. setoid_replace (last_ tm - t0) with period by lra. ring. }
  rewrite pyget_in by lia. rewrite (TA i IG) in C1 |- *.
  destruct AX as [GL GI].
  destruct (i <? zlen given - 1)%Z eqn:IL; cbn [andb].
  - assert (I2 : (0 <= i + 1 < zlen given)%Z) by lia. rewrite (TA (i + 1)%Z I2) in C2.
    destruct (time_pick given w t' i AX IG C1 ltac:(right; split; [lia|lra])) as [P1 P2]. rewrite IL in P1, P2. cbn [andb] in P1, P2.
    assert (NG : ~ tn < t').
    { assert (at_ given (i + 1) <= at_ given (zlen given - 1)) by (apply inc_le; [exact GI|lia..]). fold (last_ given) in H. fold tn in H. lra. }
    destruct (qlt (at_ given i) t') eqn:QL.
    + rewrite pyget_in by lia. rewrite (TA (i + 1)%Z I2), !frame_old by lia. eexists. exists t'. split; [reflexivity|]. split; [exact IP|].
      split; [intros _; apply P1; reflexivity|intros C; contradiction].
    + rewrite frame_old by lia. eexists. exists t'. split; [reflexivity|]. split; [exact IP|].
      split; [intros _; apply P2; reflexivity|intros C; contradiction].
  - assert (EL : i = (zlen given - 1)%Z) by lia. rewrite frame_old by lia. exists (w i), t'. split; [reflexivity|]. split; [exact IP|]. split.
    + intros C. assert (Q1 : t' == last_ given).
      { rewrite EL in C1. fold (last_ given) in C1. fold tn in C1 |- *. lra. }
      destruct (time_pick given w t' i AX IG C1 ltac:(left; split; [exact EL|exact Q1])) as [_ P2]. apply P2. rewrite IL. reflexivity.
    + intros _. rewrite EL. reflexivity.
Qed.

(** ** C *)
Hypothesis LT : tn - t0 < period.

Lemma floor_in p t' : t0 <= t' < t0 + period -> (t' - t0) / ((t0 + period) - t0) == p -> Qfloor p = 0%Z.
Proof.
  intros [A B] E. apply Z.le_antisymm.
  - assert (Q1 : p < 1) by (rewrite <- E; apply Qlt_shift_div_r; lra).
    assert (Q2 : inject_Z (Qfloor p) < inject_Z 1) by (eapply Qle_lt_trans; [apply Qfloor_le|exact Q1]). rewrite <- Zlt_Qlt in Q2. lia.
  - assert (Q1 : 0 <= p) by (rewrite <- E; apply Qle_shift_div_l; lra).
    change 0%Z with (Qfloor (inject_Z 0)). apply Qfloor_resp_le. exact Q1.
Qed.

(** In the gap the search calls itself with the same time. *)
Lemma c_gap_loops fmax : fmax == t0 + period -> forall k t' ti, tn < t' -> t' < t0 + period -> c_time k true given t0 fmax t' ti = None.
Proof.
  intros EF. destruct (tm_ends given AX) as (_ & _ & E1 & E2). destruct AX as [GL GI].
  assert (FL : t0 <= tn) by (unfold t0, tn, first_, last_; apply inc_le; [exact GI|lia..]).
  induction k as [|k IH]; intros t' ti A B; [reflexivity|]. cbn [c_time]. rewrite E1, E2. fold t0 tn.
  replace (qlt t' t0) with false by (symmetry; apply qlt_false; lra). replace (qlt tn t') with true by (symmetry; apply qlt_spec; exact A).
  cbv zeta.
  assert (FZ : Qfloor ((t' - t0) / (fmax - t0)) = 0%Z) by (apply (floor_in _ t'); [lra|]; apply Qdiv_comp; lra).
  rewrite FZ. rewrite IH; [reflexivity| |]; change (inject_Z 0) with 0; lra.
Qed.

Lemma c_period_gap k t t' ti : in_period period given t t' -> tn < t' -> c_period k period given v t ti = Some IBad.
Proof.
  intros IP G. destruct (times_of LE) as (tm & ET & TX & L1 & TF & TL & _). unfold c_period. rewrite ET.
  destruct (tm_ends tm TX) as (E1 & E2 & _ & _). rewrite E1, E2. f_equal. unfold c_eval.
  destruct (tm_ends given AX) as (_ & _ & G1 & G2). rewrite G1, G2. cbn [negb andb]. rewrite TF.
  set (fmax := last_ tm) in *.
  replace (c_time k true given t0 fmax t ti) with (@None (Q * Z)); [reflexivity|]. symmetry.
  destruct k as [|k]; [reflexivity|]. cbn [c_time]. rewrite G1, G2. fold t0 tn. cbv zeta.
  assert (D : t0 < fmax) by lra. destruct (floor_wrap t t0 fmax D) as [A B]. set (p := Qfloor _) in *.
  assert (W : t - inject_Z p * (fmax - t0) == t').
  { apply (unique_period t); [|exact IP]. fold t0. split; [fold t0; split; [exact A|lra]|]. exists p. setoid_replace period with (fmax - t0) by lra. ring. }
  destruct IP as ((P1 & P2) & n & P3). fold t0 in P1, P2.
  assert (R : forall ti', c_time k true given t0 fmax (t - inject_Z p * (fmax - t0)) ti' = None) by (intros; apply c_gap_loops; lra).
  qcase t t0.
  - replace (qlt (t - inject_Z p * (fmax - t0)) t0) with false by (symmetry; apply qlt_false; exact A). rewrite R. reflexivity.
  - qcase tn t; [rewrite R; reflexivity|]. exfalso.
    assert (Q1 : in_period period given t t).
    { split; [fold t0; lra|]. exists 0%Z. change (inject_Z 0) with 0. lra. }
    assert (Q2 : t == t'). { apply (unique_period t); [exact Q1|]. split; [fold t0; split; assumption|]. exists n. exact P3. }
    lra.
Qed.

Lemma c_period_at k t t' ti : in_period period given t t' -> t' <= tn -> (ti < zlen given)%Z -> (1 < k)%nat ->
  exists q, c_period k period given v t ti = Some (IVal q) /\ time_value given w t' q.
Proof.
  intros IP G ST K. destruct (times_of LE) as (tm & ET & TX & L1 & TF & TL & _). unfold c_period. rewrite ET.
  destruct (tm_ends tm TX) as (E1 & E2 & _ & _). rewrite E1, E2. unfold c_eval.
  destruct (tm_ends given AX) as (_ & _ & G1 & G2). rewrite G1, G2. cbn [negb andb]. rewrite TF.
  set (fmax := last_ tm) in *. destruct AX as [GL GI].
  assert (FL : t0 <= tn) by (unfold t0, tn, first_, last_; apply inc_le; [exact GI|lia..]).
  assert (TV : forall a q, a == t' -> time_value given w a q -> time_value given w t' q).
  { intros a q EA ([R1 R2] & j & s & LJ & E). split; [lra|]. exists j, s. split; [|exact E].
    destruct LJ as [LJ|[Q1 (Q2 & Q3 & Q4 & Q5 & Q6)]]; [left; exact LJ|right]. split; [exact Q1|]. repeat split; try assumption. lra. }
  assert (FR : frames given (frame_or_first given v) w) by (intros n R; apply frame_old; exact R).
  assert (IN : forall k' t1 i1, t0 <= t1 <= tn -> (i1 < zlen given)%Z ->
     exists j, c_time (S k') true given t0 fmax t1 i1 = Some (t1, j) /\ (0 <= j < zlen given)%Z /\ at_ given j <= t1 /\
       (j = (zlen given - 1)%Z /\ t1 == last_ given \/ (j + 1 < zlen given)%Z /\ t1 <= at_ given (j + 1))).
  { intros k' t1 i1 [B1 B2] R1. cbn [c_time]. rewrite G1, G2. fold t0 tn.
    replace (qlt t1 t0) with false by (symmetry; apply qlt_false; exact B1).
    replace (qlt tn t1) with false by (symmetry; apply qlt_false; exact B2).
    assert (R1' : (0 <= (if (i1 <? 0)%Z then 0 else i1) < zlen given)%Z) by (destruct (i1 <? 0)%Z eqn:E; lia).
    destruct (c_walk_time given t1 _ AX (conj B1 B2) R1') as (j & -> & J). exists j. split; [reflexivity|exact J]. }
  assert (AGAIN : forall t1 j, t0 <= t1 <= tn -> (0 <= j < zlen given)%Z -> exists j', c_walk false given t1 j = Some j' /\ (0 <= j' < zlen given)%Z /\ at_ given j' <= t1 /\
       (j' = (zlen given - 1)%Z /\ t1 == last_ given \/ (j' + 1 < zlen given)%Z /\ t1 <= at_ given (j' + 1))).
  { intros t1 j B R. exact (c_walk_time given t1 j AX B R). }
  assert (D : t0 < fmax) by lra. destruct (floor_wrap t t0 fmax D) as [A B].
  destruct k as [|[|k]]; [lia..|]. remember (S k) as k1. cbn [c_time]. rewrite G1, G2. fold t0 tn. cbv zeta. set (p := Qfloor _) in *.
  assert (W : t - inject_Z p * (fmax - t0) == t').
  { apply (unique_period t); [|exact IP]. fold t0. split; [fold t0; split; [exact A|lra]|]. exists p. setoid_replace period with (fmax - t0) by lra. ring. }
  destruct IP as ((P1 & P2) & n & P3). fold t0 in P1, P2.
  assert (GO : forall ti', (ti' < zlen given)%Z -> exists j j', c_time k1 true given t0 fmax (t - inject_Z p * (fmax - t0)) ti' = Some (t - inject_Z p * (fmax - t0), j) /\
     c_walk false given (t - inject_Z p * (fmax - t0)) j = Some j' /\ (0 <= j' < zlen given)%Z /\ at_ given j' <= t - inject_Z p * (fmax - t0) /\
     (j' = (zlen given - 1)%Z /\ t - inject_Z p * (fmax - t0) == last_ given \/ (j' + 1 < zlen given)%Z /\ t - inject_Z p * (fmax - t0) <= at_ given (j' + 1))).
  { intros ti' R. rewrite Heqk1. destruct (IN k (t - inject_Z p * (fmax - t0)) ti' ltac:(lra) R) as (j & EJ & J1 & _).
    destruct (AGAIN (t - inject_Z p * (fmax - t0)) j ltac:(lra) J1) as (j' & EJ' & J'). exists j, j'. split; [exact EJ|]. split; [exact EJ'|exact J']. }
  qcase t t0.
  - replace (qlt (t - inject_Z p * (fmax - t0)) t0) with false by (symmetry; apply qlt_false; exact A).
    destruct (GO (zlen given - 1)%Z ltac:(lia)) as (j & j' & -> & -> & J1 & J2 & J3).
    destruct (c_eval_pick given _ w _ j' AX FR J1 J2 J3) as (q & Q1 & Q2). exists q. split; [f_equal; exact Q1|]. exact (TV _ q W Q2).
  - qcase tn t.
    + destruct (GO 0%Z ltac:(lia)) as (j & j' & -> & -> & J1 & J2 & J3).
      destruct (c_eval_pick given _ w _ j' AX FR J1 J2 J3) as (q & Q1 & Q2). exists q. split; [f_equal; exact Q1|]. exact (TV _ q W Q2).
    + assert (Q1 : t == t').
      { apply (unique_period t); [split; [fold t0; lra|exists 0%Z; change (inject_Z 0) with 0; lra]|]. split; [fold t0; split; assumption|]. exists n. exact P3. }
      assert (R1' : (0 <= (if (ti <? 0)%Z then 0 else ti) < zlen given)%Z) by (destruct (ti <? 0)%Z eqn:EE; lia).
      destruct (AGAIN t _ ltac:(lra) R1') as (j' & -> & J1 & J2 & J3).
      destruct (c_eval_pick given _ w _ j' AX FR J1 J2 J3) as (q & Q2 & Q3). exists q. split; [f_equal; exact Q2|]. exact (TV _ q Q1 Q3).
Qed.
End Value.
End Period.
