From Coq Require Import List ZArith Bool QArith Qabs Qround Lia Lqa ZifyBool.
From Verif Require Import IdxModel IdxSpec IdxProofs TimeModel InterpModel InterpSpec.
Import ListNotations.
Open Scope Q_scope.

Definition frames (tm : list Q) (v : Z -> ires) (w : Z -> Q) : Prop :=
  forall n, (0 <= n < zlen tm)%Z -> v n = IVal (w n).

Lemma axis_len : forall l, axis_ok l -> (1 <= zlen l)%Z.
Proof. intros l [L _]. exact L. Qed.

(** ** Uniqueness of linear interpolation along an axis *)
Lemma lin1_unique : forall l x i r j s f g, increasing l \/ decreasing l -> located l x i r -> located l x j s ->
  (forall k, f k == g k) -> lin1 l f i r == lin1 l g j s.
Proof.
  intros l x i r j s f g M A B FG. unfold lin1. destruct (zlen l =? 1)%Z eqn:E; [apply FG|].
  destruct A as [[A _]|[L A]]; [lia|]. destruct B as [[B _]|[_ B]]; [lia|].
  destruct (same_cell l x i r j s M A B) as [[-> RS]|[(-> & R & S0)|(-> & S0 & R)]].
  - rewrite RS, !FG. reflexivity.
  - rewrite R, S0, !FG. lra.
  - rewrite R, S0, !FG. lra.
Qed.
Lemma time_value_unique : forall tm w w' t t' q q', axis_ok tm -> time_value tm w t q -> time_value tm w' t' q' ->
  t == t' -> (forall n, (0 <= n < zlen tm)%Z -> w n == w' n) -> q == q'.
Proof.
  intros tm w w' t t' q q' [L I] (_ & i & r & LI & E) (_ & j & s & LJ & E') TT WW. rewrite E, E'. clear q q' E E'.
  assert (LJ' : located tm t j s).
  { destruct LJ as [LJ|[Q1 (Q2 & Q3 & Q4 & Q5 & Q6)]]; [left; exact LJ|right]. split; [exact Q1|].
    repeat split; try assumption. lra. }
  unfold lin1. destruct (zlen tm =? 1)%Z eqn:E; [apply WW; lia|].
  destruct LI as [[A _]|[_ A]]; [lia|]. destruct LJ' as [[B _]|[_ B]]; [lia|].
  pose proof A as (A1 & A2 & _). pose proof B as (B1 & B2 & _).
  destruct (same_cell tm t i r j s (or_introl I) A B) as [[-> RS]|[(-> & R & S0)|(-> & S0 & R)]].
  - rewrite RS, !WW by lia. reflexivity.
  - rewrite R, S0, (WW (i + 1)%Z) by lia. lra.
  - rewrite R, S0, (WW (j + 1)%Z) by lia. lra.
Qed.

(** ** The value picked once the frame is known *)
Lemma time_pick : forall tm w t i, axis_ok tm -> (0 <= i < zlen tm)%Z -> at_ tm i <= t ->
  (i = (zlen tm - 1)%Z /\ t == last_ tm \/ (i + 1 < zlen tm)%Z /\ t <= at_ tm (i + 1)) ->
  ((i <? zlen tm - 1)%Z && qlt (at_ tm i) t = true ->
     time_value tm w t (lin (w i) (w (i + 1)%Z) (at_ tm i) (at_ tm (i + 1)) t)) /\
  ((i <? zlen tm - 1)%Z && qlt (at_ tm i) t = false -> time_value tm w t (w i)).
Proof.
  intros tm w t i [L I] IR A C.
  assert (RNG : first_ tm <= t <= last_ tm).
  { unfold first_, last_. assert (at_ tm 0 <= at_ tm i) by (apply inc_le; [exact I|lia..]).
    destruct C as [[-> C]|[C1 C2]]; [split; [lra|fold (last_ tm); lra]|].
    assert (at_ tm (i + 1) <= at_ tm (zlen tm - 1)) by (apply inc_le; [exact I|lia..]). lra. }
  split; intros B.
  - apply andb_true_iff in B. destruct B as [B1 B2]. apply qlt_spec in B2.
    destruct C as [[C _]|[C1 C2]]; [lia|]. split; [exact RNG|].
    exists i, ((t - at_ tm i) / (at_ tm (i + 1) - at_ tm i)). split.
    + right. split; [lia|]. apply in_cell_up; [assumption|lia..|]. split; assumption.
    + unfold lin1, lin. replace (zlen tm =? 1)%Z with false by lia. ring.
  - split; [exact RNG|]. destruct (Z.eq_dec (zlen tm) 1) as [E1|N1].
    + exists 0%Z, 0. split; [left; split; [exact E1|lra]|]. unfold lin1. replace (zlen tm =? 1)%Z with true by lia.
      replace i with 0%Z by lia. reflexivity.
    + destruct C as [[-> C]|[C1 C2]].
      * exists (zlen tm - 2)%Z, 1. split.
        -- right. split; [lia|]. repeat split; try lia; try lra. replace (zlen tm - 2 + 1)%Z with (zlen tm - 1)%Z by lia. fold (last_ tm). lra.
        -- unfold lin1. replace (zlen tm =? 1)%Z with false by lia. replace (zlen tm - 2 + 1)%Z with (zlen tm - 1)%Z by lia. ring.
      * replace (i <? zlen tm - 1)%Z with true in B by lia. cbn [andb] in B. apply qlt_false in B.
        exists i, 0. split.
        -- right. split; [lia|]. repeat split; try lia; try lra.
        -- unfold lin1. replace (zlen tm =? 1)%Z with false by lia. ring.
Qed.

(** ** Python *)
Lemma np_all_negb : forall (f : Q -> bool) l, np_all (map negb (map f l)) = true <-> forall i, (0 <= i < zlen l)%Z -> f (at_ l i) = false.
Proof.
  intros f l. rewrite map_map. rewrite (np_all_map (fun v => negb (f v)) l). split; intros H i R; specialize (H i R).
  - apply negb_true_iff. exact H.
  - rewrite H. reflexivity.
Qed.

(** At a time within the axis. *)
Lemma inner_spec : forall tm t, axis_ok tm -> first_ tm <= t -> t < last_ tm ->
  exists i, (if np_any (map (fun v => qle v t) tm) then np_argmin (map (fun v => qle v t) tm) - 1 else 0)%Z = i /\ (0 <= i)%Z /\ (i + 1 < zlen tm)%Z /\ at_ tm i <= t < at_ tm (i + 1).
Proof.
  intros tm t [L I] A B. set (le := map (fun v => qle v t) tm).
  assert (NA : np_all le = false).
  { destruct (np_all le) eqn:E; [|reflexivity]. unfold le in E. rewrite np_all_map in E. specialize (E (zlen tm - 1)%Z ltac:(lia)).
    apply qle_spec in E. unfold last_ in B. lra. }
  destruct (np_argmin_map (fun v => qle v t) tm NA) as (R & FK & TK). fold le in R, FK, TK. set (k := np_argmin le) in *.
  apply qle_false in FK.
  assert (AN : np_any le = true).
  { apply np_any_map. exists 0%Z. split; [lia|]. apply qle_spec. exact A. }
  assert (K0 : (0 < k)%Z).
  { destruct (Z_lt_le_dec 0 k) as [|C]; [assumption|]. assert (K : k = 0%Z) by lia. rewrite K in FK. unfold first_ in A. lra. }
  rewrite AN. exists (k - 1)%Z. split; [reflexivity|]. split; [lia|]. split; [lia|]. replace (k - 1 + 1)%Z with k by lia.
  split; [|exact FK]. apply qle_spec. apply TK. lia.
Qed.

Lemma tm_ends : forall tm, axis_ok tm -> pyget tm 0 = Some (first_ tm) /\ pyget tm (-1) = Some (last_ tm) /\
  cget tm 0 = Some (first_ tm) /\ cget tm (zlen tm - 1) = Some (last_ tm).
Proof.
  intros tm [L I]. repeat split.
  - apply pyget_in. lia.
  - apply pyget_last. exact L.
  - apply cget_in. lia.
  - apply cget_in. lia.
Qed.

Definition nonperiodic_value (tm : list Q) (w : Z -> Q) (extrapolate : bool) (t : Q) (r : ires) : Prop :=
  (first_ tm <= t <= last_ tm -> exists q, r = IVal q /\ time_value tm w t q) /\
  (t < first_ tm -> r = if extrapolate then r else IExtrap) /\
  (t < first_ tm -> extrapolate = true -> exists q, r = IVal q /\ q == w 0%Z) /\
  (last_ tm < t -> r = if extrapolate then r else IExtrap) /\
  (last_ tm < t -> extrapolate = true -> exists q, r = IVal q /\ q == w (zlen tm - 1)%Z).

Lemma py_eval_pick : forall tm v w t i, axis_ok tm -> frames tm v w -> (0 <= i < zlen tm)%Z -> at_ tm i <= t ->
  (i = (zlen tm - 1)%Z /\ t == last_ tm \/ (i + 1 < zlen tm)%Z /\ t <= at_ tm (i + 1)) ->
  forall t', t' == t -> exists q,
  match pyget tm i with
  | None => IBad
  | Some t0 =>
      if (i <? zlen tm - 1)%Z && qlt t0 t' then
        match pyget tm (i + 1) with
        | None => IBad
        | Some t1 =>
            match v i with
            | IVal q0 => match v (i + 1)%Z with IVal q1 => IVal (lin q0 q1 t0 t1 t') | e => e end
            | e => e
            end
        end
      else v i
  end = IVal q /\ time_value tm w t q.
Proof.
  intros tm v w t i AX F IR A C t' TT. rewrite pyget_in by lia.
  assert (A' : at_ tm i <= t') by lra.
  assert (C' : i = (zlen tm - 1)%Z /\ t' == last_ tm \/ (i + 1 < zlen tm)%Z /\ t' <= at_ tm (i + 1)).
  { destruct C as [[C1 C2]|[C1 C2]]; [left; split; [exact C1|lra]|right; split; [exact C1|lra]]. }
  assert (TV : forall q, time_value tm w t' q -> time_value tm w t q).
  { intros q ([R1 R2] & j & s & LJ & E). split; [lra|]. exists j, s. split; [|exact E].
    destruct LJ as [LJ|[Q1 (Q2 & Q3 & Q4 & Q5 & Q6)]]; [left; exact LJ|right]. split; [exact Q1|]. repeat split; try assumption. lra. }
  destruct (time_pick tm w t' i AX IR A' C') as [P1 P2].
  destruct ((i <? zlen tm - 1)%Z && qlt (at_ tm i) t') eqn:B.
  - assert (i + 1 < zlen tm)%Z by lia. rewrite pyget_in by lia. rewrite (F i), (F (i + 1)%Z) by lia.
    eexists. split; [reflexivity|]. apply TV, P1. reflexivity.
  - rewrite (F i) by lia. eexists. split; [reflexivity|]. apply TV, P2. reflexivity.
Qed.

Theorem py_eval_nonperiodic : forall ex tm f0 fn v w t, axis_ok tm -> frames tm v w ->
  nonperiodic_value tm w ex t (py_eval false ex tm f0 fn v t).
Proof.
  intros ex tm f0 fn v w t AX F. pose proof AX as [L I]. destruct (tm_ends tm AX) as (E1 & E2 & _ & _).
  assert (SH : forall i : Z, t - inject_Z 0 * (fn - f0) == t) by (intros; unfold inject_Z; ring).
  unfold py_eval, py_time_index. rewrite E1, E2. cbn [negb andb]. cbv beta zeta.
  set (le := map (fun v0 => qle v0 t) tm).
  split; [|split; [|split; [|split]]].
  - intros [A B]. replace (qlt t (first_ tm)) with false by (symmetry; apply qlt_false; exact A).
    replace (qlt (last_ tm) t) with false by (symmetry; apply qlt_false; exact B). cbn [orb]. rewrite andb_false_r.
    destruct (np_all le) eqn:NA.
    + unfold le in NA. rewrite np_all_map in NA. pose proof (NA (zlen tm - 1)%Z ltac:(lia)) as N1. apply qle_spec in N1. fold (last_ tm) in N1.
      apply (py_eval_pick tm v w t (zlen tm - 1) AX F ltac:(lia)); [exact N1|left; split; [reflexivity|lra]|apply (SH 0%Z)].
    + assert (B' : t < last_ tm).
      { destruct (Qlt_le_dec t (last_ tm)) as [|C]; [assumption|]. exfalso.
        assert (T : np_all le = true); [|congruence]. unfold le. apply np_all_map. intros i R. apply qle_spec.
        assert (at_ tm i <= at_ tm (zlen tm - 1)) by (apply inc_le; [exact I|lia..]). fold (last_ tm) in H. lra. }
      assert (NN : np_all (map negb le) = false).
      { destruct (np_all (map negb le)) eqn:E; [|reflexivity]. unfold le in E. rewrite np_all_negb in E. specialize (E 0%Z ltac:(lia)).
        apply qle_false in E. fold (first_ tm) in E. lra. }
      rewrite NN. destruct (inner_spec tm t AX A B') as (i & EI & I0 & I1 & I2). fold le in EI. rewrite EI.
      apply (py_eval_pick tm v w t i AX F ltac:(lia)); [lra|right; split; [lia|lra]|apply (SH 0%Z)].
  - intros A. replace (qlt t (first_ tm)) with true by (symmetry; apply qlt_spec; exact A). cbn [orb]. rewrite andb_true_r.
    destruct ex; reflexivity.
  - intros A ->. cbn [negb andb].
    assert (FL : first_ tm <= last_ tm) by (unfold first_, last_; apply inc_le; [exact I|lia..]).
    assert (NN : forall i, (0 <= i < zlen tm)%Z -> qle (at_ tm i) t = false).
    { intros i R. apply qle_false. assert (at_ tm 0 <= at_ tm i) by (apply inc_le; [exact I|lia..]). fold (first_ tm) in H. lra. }
    assert (NA : np_all le = false).
    { destruct (np_all le) eqn:E; [|reflexivity]. unfold le in E. rewrite np_all_map in E. specialize (E 0%Z ltac:(lia)). rewrite (NN 0%Z) in E by lia. discriminate. }
    rewrite NA. replace (np_all (map negb le)) with true by (symmetry; apply np_all_negb; exact NN).
    rewrite E1. assert (B : qlt (first_ tm) (t - inject_Z 0 * (fn - f0)) = false) by (apply qlt_false; rewrite (SH 0%Z); lra).
    rewrite B, andb_false_r, (F 0%Z) by lia. eexists. split; [reflexivity|]. reflexivity.
  - intros A. replace (qlt (last_ tm) t) with true by (symmetry; apply qlt_spec; exact A). rewrite orb_true_r, andb_true_r.
    destruct ex; reflexivity.
  - intros A ->. cbn [negb andb].
    assert (NA : np_all le = true).
    { unfold le. apply np_all_map. intros i R. apply qle_spec. assert (at_ tm i <= at_ tm (zlen tm - 1)) by (apply inc_le; [exact I|lia..]).
      fold (last_ tm) in H. lra. }
    rewrite NA, pyget_in by lia. replace (zlen tm - 1 <? zlen tm - 1)%Z with false by lia. cbn [andb].
    rewrite F by lia. eexists. split; [reflexivity|]. reflexivity.
Qed.

(** ** Periods *)
Lemma floor_wrap : forall t f0 fn, f0 < fn -> let p := Qfloor ((t - f0) / (fn - f0)) in
  f0 <= t - inject_Z p * (fn - f0) /\ t - inject_Z p * (fn - f0) < fn.
Proof.
  intros t f0 fn L p. assert (P : 0 < fn - f0) by lra.
  pose proof (Qfloor_le ((t - f0) / (fn - f0))) as A. pose proof (Qlt_floor ((t - f0) / (fn - f0))) as B. fold p in A, B.
  assert (E : t - f0 == (t - f0) / (fn - f0) * (fn - f0)) by (field; lra).
  set (r := (t - f0) / (fn - f0)) in *. rewrite inject_Z_plus in B. change (inject_Z 1) with 1 in B.
  assert (A1 : inject_Z p * (fn - f0) <= r * (fn - f0)) by (apply Qmult_le_compat_r; lra).
  assert (B1 : r * (fn - f0) < (inject_Z p + 1) * (fn - f0)) by (apply Qmult_lt_compat_r; lra). split; lra.
Qed.

Theorem py_eval_periodic : forall ex tm v w t, axis_ok tm -> (1 < zlen tm)%Z -> frames tm v w ->
  exists q t', py_eval true ex tm (first_ tm) (last_ tm) v t = IVal q /\ wraps_to tm t t' /\ time_value tm w t' q.
Proof.
  intros ex tm v w t AX L1 F. pose proof AX as [L I]. destruct (tm_ends tm AX) as (E1 & E2 & _ & _).
  pose proof (inc_dir tm L1 I) as D.
  unfold py_eval, py_time_index. rewrite E1, E2. cbn [negb andb]. cbv beta zeta.
  set (le := map (fun v0 => qle v0 t) tm).
  assert (GO : forall p t', t' = t - inject_Z p * (last_ tm - first_ tm) -> first_ tm <= t' -> t' < last_ tm -> forall i,
     (if np_any (map (fun v0 => qle v0 t') tm) then np_argmin (map (fun v0 => qle v0 t') tm) - 1 else 0)%Z = i ->
     exists q t'', match pyget tm i with
       | None => IBad
       | Some t0 => if (i <? zlen tm - 1)%Z && qlt t0 t' then
           match pyget tm (i + 1) with None => IBad | Some t1 => match v i with IVal q0 => match v (i + 1)%Z with IVal q1 => IVal (lin q0 q1 t0 t1 t') | e => e end | e => e end end
         else v i end = IVal q /\ wraps_to tm t t'' /\ time_value tm w t'' q).
  { intros p t' ET A B i EI. destruct (inner_spec tm t' AX A B) as (i' & EI' & I0 & I1 & I2). rewrite EI' in EI. subst i'.
    destruct (py_eval_pick tm v w t' i AX F ltac:(lia) ltac:(lra) ltac:(right; split; [lia|lra]) t' (Qeq_refl _)) as (q & Q1 & Q2).
    exists q, t'. split; [exact Q1|]. split; [|exact Q2]. split; [exact A|]. split; [exact B|]. exists p. rewrite ET. ring. }
  destruct (np_all le || np_all (map negb le)) eqn:OUT.
  - replace (Qeq_bool (last_ tm) (first_ tm)) with false.
    2:{ symmetry. destruct (Qeq_bool (last_ tm) (first_ tm)) eqn:E; [|reflexivity]. apply Qeq_bool_iff in E. lra. }
    destruct (floor_wrap t _ _ D) as [A B].
    refine (GO _ _ eq_refl A B _ eq_refl).
  - apply orb_false_iff in OUT. destruct OUT as [O1 O2].
    assert (A : first_ tm <= t).
    { destruct (Qlt_le_dec t (first_ tm)) as [C|]; [|assumption]. exfalso. assert (T : np_all (map negb le) = true); [|congruence].
      unfold le. apply np_all_negb. intros i R. apply qle_false. assert (at_ tm 0 <= at_ tm i) by (apply inc_le; [exact I|lia..]).
      fold (first_ tm) in H. lra. }
    assert (B : t < last_ tm).
    { destruct (Qlt_le_dec t (last_ tm)) as [|C]; [assumption|]. exfalso. assert (T : np_all le = true); [|congruence].
      unfold le. apply np_all_map. intros i R. apply qle_spec. assert (at_ tm i <= at_ tm (zlen tm - 1)) by (apply inc_le; [exact I|lia..]).
      fold (last_ tm) in H. lra. }
    destruct (inner_spec tm t AX A B) as (i & EI & I0 & I1 & I2). fold le in EI. rewrite EI.
    assert (SH : t - inject_Z 0 * (last_ tm - first_ tm) == t) by (unfold inject_Z; ring).
    destruct (py_eval_pick tm v w t i AX F ltac:(lia) ltac:(lra) ltac:(right; split; [lia|lra]) _ SH) as (q & Q1 & Q2).
    exists q, t. split; [exact Q1|]. split; [|exact Q2]. split; [exact A|]. split; [exact B|]. exists 0%Z. unfold inject_Z. ring.
Qed.

(** ** C *)
Lemma c_walk_time : forall tm t i, axis_ok tm -> first_ tm <= t <= last_ tm -> (0 <= i < zlen tm)%Z ->
  exists j, c_walk false tm t i = Some j /\ (0 <= j < zlen tm)%Z /\ at_ tm j <= t /\
    (j = (zlen tm - 1)%Z /\ t == last_ tm \/ (j + 1 < zlen tm)%Z /\ t <= at_ tm (j + 1)).
Proof.
  intros tm t i [L I] B R. destruct (Z.eq_dec (zlen tm) 1) as [E|N].
  - exists 0%Z. assert (i = 0%Z) by lia. subst i. unfold c_walk. rewrite E. cbn.
    split; [reflexivity|]. split; [lia|]. unfold first_, last_ in B. rewrite E in B. cbn [Z.sub Z.add Z.opp Z.pos_sub] in B.
    split; [lra|]. left. split; [reflexivity|]. unfold last_. rewrite E. cbn [Z.sub Z.add Z.opp Z.pos_sub]. lra.
  - destruct (c_walk_spec false tm t i I ltac:(lia) B ltac:(lia)) as (j & W & [(J0 & J1 & C)|(J & IJ & X)]).
    + exists j. split; [exact W|]. split; [lia|]. unfold cell_between in C. split; [lra|]. right. split; [lia|lra].
    + exists j. split; [exact W|]. split; [lia|]. subst j. fold (last_ tm). split; [lra|]. left. split; [reflexivity|exact X].
Qed.

Lemma c_walk_before : forall tm t i, axis_ok tm -> t < first_ tm -> (0 <= i < zlen tm)%Z -> c_walk false tm t i = Some 0%Z.
Proof.
  intros tm t i [L I] B R. unfold c_walk.
  destruct (c_up_spec false tm t (Z.to_nat (zlen tm - 1 - i)) i ltac:(lia) ltac:(lia)) as (j & -> & J1 & J2 & J3).
  destruct (c_down_spec false tm t (Z.to_nat j) j ltac:(lia) ltac:(lia)) as (m & -> & M1 & M2 & M3).
  f_equal. destruct M3 as [|M3]; [assumption|]. exfalso. apply before_false in M3.
  assert (at_ tm 0 <= at_ tm m) by (apply inc_le; [exact I|lia..]). fold (first_ tm) in H. lra.
Qed.
Lemma c_walk_after : forall tm t i, axis_ok tm -> last_ tm < t -> (0 <= i < zlen tm)%Z -> c_walk false tm t i = Some (zlen tm - 1)%Z.
Proof.
  intros tm t i [L I] B R. unfold c_walk.
  destruct (c_up_spec false tm t (Z.to_nat (zlen tm - 1 - i)) i ltac:(lia) ltac:(lia)) as (j & -> & J1 & J2 & J3).
  destruct (c_down_spec false tm t (Z.to_nat j) j ltac:(lia) ltac:(lia)) as (m & -> & M1 & M2 & M3).
  f_equal. assert (j = zlen tm - 1)%Z.
  { destruct J3 as [|J3]; [assumption|]. apply before_false in J3. destruct (Z.eq_dec j (zlen tm - 1)) as [|N]; [assumption|].
    assert (at_ tm (j + 1) <= at_ tm (zlen tm - 1)) by (apply inc_le; [exact I|lia..]). fold (last_ tm) in H. lra. }
  destruct (Z.eq_dec m j) as [->|NM]; [assumption|]. destruct M2 as [M2|M2]; [lia|]. apply before_spec in M2.
  assert (Q1 : at_ tm (m + 1) <= at_ tm (zlen tm - 1)) by (apply inc_le; [exact I|lia..]). fold (last_ tm) in Q1. lra.
Qed.

Lemma c_eval_pick : forall tm v w t i, axis_ok tm -> frames tm v w -> (0 <= i < zlen tm)%Z -> at_ tm i <= t ->
  (i = (zlen tm - 1)%Z /\ t == last_ tm \/ (i + 1 < zlen tm)%Z /\ t <= at_ tm (i + 1)) ->
  exists q,
  match cget tm i with
  | None => IBad
  | Some a =>
      if (i <? zlen tm - 1)%Z && qlt a t then
        match cget tm (i + 1) with
        | None => IBad
        | Some b =>
            match v i with
            | IVal q0 => match v (i + 1)%Z with IVal q1 => IVal (lin q0 q1 a b t) | e => e end
            | e => e
            end
        end
      else match v i with IVal q0 => IVal (lin q0 0 a (a + 1) a) | e => e end
  end = IVal q /\ time_value tm w t q.
Proof.
  intros tm v w t i AX F IR A C. rewrite cget_in by lia.
  destruct (time_pick tm w t i AX IR A C) as [P1 P2].
  destruct ((i <? zlen tm - 1)%Z && qlt (at_ tm i) t) eqn:B.
  - assert (i + 1 < zlen tm)%Z by lia. rewrite cget_in by lia. rewrite (F i), (F (i + 1)%Z) by lia.
    eexists. split; [reflexivity|]. apply P1. reflexivity.
  - rewrite (F i) by lia. eexists. split; [reflexivity|]. destruct (P2 eq_refl) as (R & j & s & LJ & E).
    split; [exact R|]. exists j, s. split; [exact LJ|]. rewrite <- E. unfold lin. field. lra.
Qed.

Definition start_ok (tm : list Q) (ti : Z) : Prop := (ti < zlen tm)%Z.

Theorem c_eval_nonperiodic : forall k ex tm f0 fn v w t ti, axis_ok tm -> frames tm v w -> start_ok tm ti -> (0 < k)%nat ->
  nonperiodic_value tm w ex t (c_eval k false ex tm f0 fn v t ti).
Proof.
  intros k ex tm f0 fn v w t ti AX F ST K. pose proof AX as [L I]. destruct (tm_ends tm AX) as (_ & _ & E1 & E2).
  destruct k as [|k]; [lia|]. unfold start_ok in ST.
  unfold c_eval. rewrite E1, E2. cbn [negb andb c_time]. rewrite E1, E2.
  assert (ST' : (0 <= (if (ti <? 0)%Z then 0 else ti) < zlen tm)%Z) by (destruct (ti <? 0)%Z eqn:E; lia).
  set (ti0 := if (ti <? 0)%Z then 0%Z else ti) in *.
  split; [|split; [|split; [|split]]].
  - intros [A B]. replace (qlt t (first_ tm)) with false by (symmetry; apply qlt_false; exact A).
    replace (qlt (last_ tm) t) with false by (symmetry; apply qlt_false; exact B). cbn [orb]. rewrite andb_false_r.
    destruct (c_walk_time tm t ti0 AX (conj A B) ST') as (j & -> & J1 & J2 & J3).
    apply c_eval_pick; assumption.
  - intros A. replace (qlt t (first_ tm)) with true by (symmetry; apply qlt_spec; exact A). cbn [orb]. rewrite andb_true_r.
    destruct ex; reflexivity.
  - intros A ->. cbn [negb andb]. rewrite (c_walk_before tm t ti0 AX A ST'), E1.
    replace (qlt (first_ tm) t) with false by (symmetry; apply qlt_false; lra). rewrite andb_false_r, (F 0%Z) by lia.
    eexists. split; [reflexivity|]. unfold lin. field. lra.
  - intros A. replace (qlt (last_ tm) t) with true by (symmetry; apply qlt_spec; exact A). rewrite orb_true_r, andb_true_r.
    destruct ex; reflexivity.
  - intros A ->. cbn [negb andb]. rewrite (c_walk_after tm t ti0 AX A ST'), E2.
    replace (zlen tm - 1 <? zlen tm - 1)%Z with false by lia. cbn [andb]. rewrite F by lia.
    eexists. split; [reflexivity|]. unfold lin. field. lra.
Qed.

Theorem c_eval_periodic : forall k ex tm v w t ti, axis_ok tm -> (1 < zlen tm)%Z -> frames tm v w -> start_ok tm ti -> (1 < k)%nat ->
  exists q t', c_eval k true ex tm (first_ tm) (last_ tm) v t ti = IVal q /\ time_value tm w t' q /\
    (wraps_to tm t t' \/ t' == t /\ t == last_ tm).
Proof.
  intros k ex tm v w t ti AX L1 F ST K. pose proof AX as [L I]. destruct (tm_ends tm AX) as (_ & _ & E1 & E2).
  pose proof (inc_dir tm L1 I) as D. unfold start_ok in ST.
  destruct k as [|[|k]]; [lia..|].
  assert (ST' : (0 <= (if (ti <? 0)%Z then 0 else ti) < zlen tm)%Z) by (destruct (ti <? 0)%Z eqn:E; lia).
  unfold c_eval. rewrite E1, E2. cbn [negb andb].
  (* a time in range is not moved *)
  assert (IN : forall k' t1 i1, first_ tm <= t1 <= last_ tm -> (i1 < zlen tm)%Z ->
     exists j, c_time (S k') true tm (first_ tm) (last_ tm) t1 i1 = Some (t1, j) /\ (0 <= j < zlen tm)%Z /\ at_ tm j <= t1 /\
       (j = (zlen tm - 1)%Z /\ t1 == last_ tm \/ (j + 1 < zlen tm)%Z /\ t1 <= at_ tm (j + 1))).
  { intros k' t1 i1 [B1 B2] R1. cbn [c_time]. rewrite E1, E2.
    replace (qlt t1 (first_ tm)) with false by (symmetry; apply qlt_false; exact B1).
    replace (qlt (last_ tm) t1) with false by (symmetry; apply qlt_false; exact B2).
    assert (R1' : (0 <= (if (i1 <? 0)%Z then 0 else i1) < zlen tm)%Z) by (destruct (i1 <? 0)%Z eqn:E; lia).
    destruct (c_walk_time tm t1 _ AX (conj B1 B2) R1') as (j & -> & J). exists j. split; [reflexivity|exact J]. }
  assert (PICK : forall t1 j, (0 <= j < zlen tm)%Z -> at_ tm j <= t1 ->
     (j = (zlen tm - 1)%Z /\ t1 == last_ tm \/ (j + 1 < zlen tm)%Z /\ t1 <= at_ tm (j + 1)) ->
     exists j', c_walk false tm t1 j = Some j' /\ (0 <= j' < zlen tm)%Z /\ at_ tm j' <= t1 /\
       (j' = (zlen tm - 1)%Z /\ t1 == last_ tm \/ (j' + 1 < zlen tm)%Z /\ t1 <= at_ tm (j' + 1))).
  { intros t1 j J1 J2 J3. apply c_walk_time; [exact AX| |lia].
    assert (at_ tm 0 <= at_ tm j) by (apply inc_le; [exact I|lia..]). fold (first_ tm) in H.
    destruct J3 as [[-> J3]|[J3 J4]]; [fold (last_ tm) in J2; lra|].
    assert (at_ tm (j + 1) <= at_ tm (zlen tm - 1)) by (apply inc_le; [exact I|lia..]). fold (last_ tm) in H0. lra. }
  destruct (floor_wrap t _ _ D) as [A B]. set (p := Qfloor ((t - first_ tm) / (last_ tm - first_ tm))) in *.
  cbn [c_time]. rewrite E1, E2. fold p.
  qcase t (first_ tm).
  - replace (qlt (t - inject_Z p * (last_ tm - first_ tm)) (first_ tm)) with false by (symmetry; apply qlt_false; exact A).
    destruct (IN k (t - inject_Z p * (last_ tm - first_ tm)) (zlen tm - 1)%Z ltac:(lra) ltac:(lia)) as (j & EJ & J1 & J2 & J3).
    cbn [c_time] in EJ. rewrite E1, E2 in EJ. rewrite EJ.
    destruct (PICK _ _ J1 J2 J3) as (j' & -> & J1' & J2' & J3').
    destruct (c_eval_pick tm v w _ j' AX F J1' J2' J3') as (q & Q1 & Q2).
    exists q. eexists. split; [exact Q1|]. split; [exact Q2|]. left. split; [exact A|]. split; [exact B|]. exists p. ring.
  - qcase (last_ tm) t.
    + destruct (IN k (t - inject_Z p * (last_ tm - first_ tm)) 0%Z ltac:(lra) ltac:(lia)) as (j & EJ & J1 & J2 & J3).
      cbn [c_time] in EJ. rewrite E1, E2 in EJ. rewrite EJ.
      destruct (PICK _ _ J1 J2 J3) as (j' & -> & J1' & J2' & J3').
      destruct (c_eval_pick tm v w _ j' AX F J1' J2' J3') as (q & Q1 & Q2).
      exists q. eexists. split; [exact Q1|]. split; [exact Q2|]. left. split; [exact A|]. split; [exact B|]. exists p. ring.
    + destruct (c_walk_time tm t _ AX (conj E E0) ST') as (j' & -> & J1' & J2' & J3').
      destruct (c_eval_pick tm v w _ j' AX F J1' J2' J3') as (q & Q1 & Q2).
      exists q, t. split; [exact Q1|]. split; [exact Q2|].
      destruct (Qlt_le_dec t (last_ tm)) as [C|C].
      * left. split; [lra|]. split; [exact C|]. exists 0%Z. unfold inject_Z. ring.
      * right. split; [reflexivity|lra].
Qed.

(** The time of the first period is unique. *)
Lemma wraps_unique : forall tm t s a b, (first_ tm < last_ tm) -> wraps_to tm t a -> wraps_to tm s b ->
  (exists n, s == t + inject_Z n * (last_ tm - first_ tm)) -> a == b.
Proof.
  intros tm t s a b D (A1 & A2 & n & A3) (B1 & B2 & m & B3) (k & E).
  set (T := last_ tm - first_ tm) in *. assert (P : 0 < T) by (unfold T; lra).
  assert (Q1 : b - a == inject_Z (n + k - m) * T).
  { unfold Z.sub. rewrite !inject_Z_plus, inject_Z_opp. lra. }
  assert (Z0 : (n + k - m = 0)%Z).
  { destruct (Z.eq_dec (n + k - m) 0) as [|N]; [assumption|]. exfalso. set (z := (n + k - m)%Z) in *.
    destruct (Z_lt_le_dec z 0) as [C|C].
    - assert (inject_Z z <= -1) by (change (-1) with (inject_Z (-1)); rewrite <- Zle_Qle; lia).
      assert (inject_Z z * T <= -1 * T) by (apply Qmult_le_compat_r; lra). unfold T in *. lra.
    - assert (1 <= inject_Z z) by (change 1 with (inject_Z 1); rewrite <- Zle_Qle; lia).
      assert (1 * T <= inject_Z z * T) by (apply Qmult_le_compat_r; lra). unfold T in *. lra. }
  rewrite Z0 in Q1. change (inject_Z 0) with 0 in Q1. lra.
Qed.
