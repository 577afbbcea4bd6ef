(** Proofs about the times at which fields on s levels are sampled (C41). *)
From Coq Require Import List ZArith Bool QArith Qround Lia Lqa ZifyBool.
From Verif Require Import IdxModel IdxSpec IdxProofs TimeModel InterpModel InterpSpec TimeProofs SlevModel SlevSpec.
Import ListNotations.
Open Scope Q_scope.

Lemma l_ends : forall f, axis_ok (l_time f) -> l_f0 f = first_ (l_time f) /\ l_fn f = last_ (l_time f).
Proof. intros f [L _]. unfold l_f0, l_fn, first_, last_, at_, zlen in *. split; [reflexivity|]. f_equal. lia. Qed.

(** The frame and the branch taken once the time is reduced to [t']. *)
Definition picked (tm : list Q) (t' : Q) (i : Z) (tc : Q) : Prop :=
  (0 <= i < zlen tm)%Z /\
  (((i <? zlen tm - 1)%Z && qlt (at_ tm i) tc = true /\ tc == t' /\ (i + 1 < zlen tm)%Z /\ at_ tm i < t' /\ t' <= at_ tm (i + 1)) \/
   ((i <? zlen tm - 1)%Z && qlt (at_ tm i) tc = false /\ t' == at_ tm i)).

Lemma picked_in : forall tm t' i tc, axis_ok tm -> tc == t' -> (0 <= i < zlen tm)%Z -> at_ tm i <= t' ->
  (i = (zlen tm - 1)%Z /\ t' == last_ tm \/ (i + 1 < zlen tm)%Z /\ t' <= at_ tm (i + 1)) -> picked tm t' i tc.
Proof.
  intros tm t' i tc A E R B C. split; [exact R|]. destruct ((i <? zlen tm - 1)%Z && qlt (at_ tm i) tc) eqn:D.
  - left. apply andb_true_iff in D. destruct D as [D1 D2]. apply qlt_spec in D2. split; [reflexivity|]. split; [exact E|].
    destruct C as [[C _]|[C1 C2]]; [lia|]. split; [lia|]. split; [lra|exact C2].
  - right. split; [reflexivity|]. destruct C as [[-> C]|[C1 C2]]; [exact C|].
    replace (i <? zlen tm - 1)%Z with true in D by lia. cbn [andb] in D. apply qlt_false in D. lra.
Qed.

(** Python *)
Lemma py_picked : forall f t t', axis_ok (l_time f) -> sampled_at f t t' ->
  exists i p, py_time_index (l_periodic f) (l_extrapolate f) (l_time f) (l_f0 f) (l_fn f) t = TAt i p /\
    picked (l_time f) t' i (t - inject_Z p * (l_fn f - l_f0 f)) /\ ((i + 1 < zlen (l_time f))%Z -> t' < at_ (l_time f) (i + 1)).
Proof.
  intros f t t' AX S. destruct (l_ends f AX) as [-> ->]. set (tm := l_time f) in *. pose proof AX as [L I].
  destruct (tm_ends tm AX) as (E1 & E2 & _ & _). unfold sampled_at in S. fold tm in S.
  unfold py_time_index. rewrite E1, E2. cbv beta zeta. set (le := map (fun v => qle v t) tm).
  assert (SH : t - inject_Z 0 * (last_ tm - first_ tm) == t) by (change (inject_Z 0) with 0; ring).
  assert (ALL : np_all le = true -> last_ tm <= t).
  { intros NA. unfold le in NA. rewrite np_all_map in NA. specialize (NA (zlen tm - 1)%Z ltac:(lia)). apply qle_spec in NA. exact NA. }
  assert (ALL' : last_ tm <= t -> np_all le = true).
  { intros C. unfold le. apply np_all_map. intros i R. apply qle_spec.
    assert (at_ tm i <= at_ tm (zlen tm - 1)) by (apply inc_le; [exact I|lia..]). fold (last_ tm) in H. lra. }
  assert (NONE : np_all (map negb le) = true -> t < first_ tm).
  { intros E. unfold le in E. rewrite np_all_negb in E. specialize (E 0%Z ltac:(lia)). apply qle_false in E. exact E. }
  assert (NONE' : t < first_ tm -> np_all (map negb le) = true).
  { intros C. unfold le. apply np_all_negb. intros i R. apply qle_false. assert (at_ tm 0 <= at_ tm i) by (apply inc_le; [exact I|lia..]).
    fold (first_ tm) in H. lra. }
  destruct (l_periodic f).
  - destruct S as [L1 S]. pose proof (inc_dir tm L1 I) as D. cbn [negb andb].
    assert (GO : forall p t1, t1 = t - inject_Z p * (last_ tm - first_ tm) -> first_ tm <= t1 -> t1 < last_ tm ->
      forall t2, t2 == t1 -> exists i,
        (if np_any (map (fun v0 => qle v0 t1) tm) then np_argmin (map (fun v0 => qle v0 t1) tm) - 1 else 0)%Z = i /\
        picked tm t' i t2 /\ ((i + 1 < zlen tm)%Z -> t' < at_ tm (i + 1))).
    { intros p t1 ET A B t2 T2. destruct (inner_spec tm t1 AX A B) as (i & EI & I0 & I1 & I2).
      assert (T1 : t1 == t').
      { apply (wraps_unique tm t t); [exact D| |exact S|exists 0%Z; change (inject_Z 0) with 0; ring].
        split; [exact A|]. split; [exact B|]. exists p. rewrite ET. ring. }
      exists i. split; [exact EI|]. split; [|intros _; lra]. apply picked_in; [exact AX|lra|lia|lra|right; split; [lia|lra]]. }
    destruct (np_all le || np_all (map negb le)) eqn:OUT.
    + replace (Qeq_bool (last_ tm) (first_ tm)) with false.
      2:{ symmetry. destruct (Qeq_bool (last_ tm) (first_ tm)) eqn:E; [|reflexivity]. apply Qeq_bool_iff in E. lra. }
      destruct (floor_wrap t _ _ D) as [A B].
      destruct (GO _ _ eq_refl A B _ (Qeq_refl _)) as (i & EI & PK). eexists. eexists. split; [reflexivity|]. rewrite EI. exact PK.
    + apply orb_false_iff in OUT. destruct OUT as [O1 O2].
      assert (A : first_ tm <= t) by (destruct (Qlt_le_dec t (first_ tm)) as [C|]; [rewrite NONE' in O2 by exact C; discriminate|assumption]).
      assert (B : t < last_ tm) by (destruct (Qlt_le_dec t (last_ tm)) as [|C]; [assumption|rewrite ALL' in O1 by exact C; discriminate]).
      destruct (inner_spec tm t AX A B) as (i & EI & I0 & I1 & I2). fold le in EI. rewrite EI. exists i, 0%Z. split; [reflexivity|].
      assert (T1 : t == t').
      { apply (wraps_unique tm t t); [exact D| |exact S|exists 0%Z; change (inject_Z 0) with 0; ring].
        split; [exact A|]. split; [exact B|]. exists 0%Z. change (inject_Z 0) with 0. ring. }
      split; [|intros _; lra]. apply picked_in; [exact AX|lra|lia|lra|right; split; [lia|lra]].
  - cbn [negb andb].
    destruct S as [[[A B] TT]|[(EX & A & TT)|(EX & A & TT)]].
    + replace (qlt t (first_ tm)) with false by (symmetry; apply qlt_false; exact A).
      replace (qlt (last_ tm) t) with false by (symmetry; apply qlt_false; exact B). cbn [orb]. rewrite andb_false_r.
      destruct (np_all le) eqn:NA.
      * pose proof (ALL eq_refl) as N1. eexists. eexists. split; [reflexivity|]. split; [|intros; lia].
        apply picked_in; [exact AX|rewrite SH; lra|lia|fold (last_ tm); lra|left; split; [reflexivity|lra]].
      * assert (B' : t < last_ tm) by (destruct (Qlt_le_dec t (last_ tm)) as [|C]; [assumption|specialize (ALL' C); discriminate]).
        assert (NN : np_all (map negb le) = false) by (destruct (np_all (map negb le)); [specialize (NONE eq_refl); lra|reflexivity]).
        rewrite NN. destruct (inner_spec tm t AX A B') as (i & EI & I0 & I1 & I2). fold le in EI. rewrite EI.
        exists i, 0%Z. split; [reflexivity|]. split; [|intros _; lra].
        apply picked_in; [exact AX|rewrite SH; lra|lia|lra|right; split; [lia|lra]].
    + rewrite EX. cbn [negb andb].
      assert (FL : first_ tm <= last_ tm) by (unfold first_, last_; apply inc_le; [exact I|lia..]).
      assert (NA : np_all le = false) by (destruct (np_all le); [specialize (ALL eq_refl); lra|reflexivity]).
      rewrite NA, (NONE' A). exists 0%Z, 0%Z. split; [reflexivity|]. split.
      * split; [lia|]. right. split; [|exact TT]. assert (B : qlt (at_ tm 0) (t - inject_Z 0 * (last_ tm - first_ tm)) = false).
        { apply qlt_false. rewrite SH. fold (first_ tm). lra. } rewrite B, andb_false_r. reflexivity.
      * intros C. assert (at_ tm 0 < at_ tm (0 + 1)) by (apply I; lia). unfold first_ in TT. lra.
    + rewrite EX. cbn [negb andb]. rewrite ALL' by lra. eexists. eexists. split; [reflexivity|]. split; [|intros; lia].
      split; [lia|]. right. split; [|exact TT]. replace (zlen tm - 1 <? zlen tm - 1)%Z with false by lia. reflexivity.
Qed.

(** Out of the time axis, without extrapolation. *)
Lemma py_extrap_s : forall f t v, axis_ok (l_time f) -> l_periodic f = false -> l_extrapolate f = false ->
  t < first_ (l_time f) \/ last_ (l_time f) < t ->
  py_eval_s (l_periodic f) (l_extrapolate f) (l_time f) (l_f0 f) (l_fn f) v t = IExtrap.
Proof.
  intros f t v AX P E H. destruct (tm_ends _ AX) as (E1 & E2 & _ & _). unfold py_eval_s, py_time_index. rewrite P, E, E1, E2. cbn [negb andb].
  destruct H as [H|H].
  - replace (qlt t (first_ (l_time f))) with true by (symmetry; apply qlt_spec; exact H). reflexivity.
  - replace (qlt (last_ (l_time f)) t) with true by (symmetry; apply qlt_spec; exact H). rewrite orb_true_r. reflexivity.
Qed.

(** C *)
Lemma c_picked : forall k f t t' ti, axis_ok (l_time f) -> sampled_at f t t' -> (l_periodic f = true -> ~ t == last_ (l_time f)) ->
  (ti < zlen (l_time f))%Z -> (1 < k)%nat ->
  negb (l_periodic f) && negb (l_extrapolate f) && (qlt t (first_ (l_time f)) || qlt (last_ (l_time f)) t) = false /\
  exists i tc, c_time k (l_periodic f) (l_time f) (l_f0 f) (l_fn f) t ti = Some (tc, i) /\ picked (l_time f) t' i tc.
Proof.
  intros k f t t' ti AX SA NL ST K. destruct (l_ends f AX) as [-> ->]. set (tm := l_time f) in *. pose proof AX as [L I].
  destruct (tm_ends tm AX) as (_ & _ & E1 & E2). unfold sampled_at in SA. fold tm in SA.
  destruct k as [|[|k]]; [lia..|].
  assert (ST' : (0 <= (if (ti <? 0)%Z then 0 else ti) < zlen tm)%Z) by (destruct (ti <? 0)%Z eqn:E; lia).
  destruct (l_periodic f).
  - destruct SA as [L1 SA]. pose proof (inc_dir tm L1 I) as D. cbn [negb andb]. split; [reflexivity|].
    assert (IN : forall t1 i1, first_ tm <= t1 <= last_ tm -> (i1 < zlen tm)%Z ->
      exists j, c_time (S k) true tm (first_ tm) (last_ tm) t1 i1 = Some (t1, j) /\ (0 <= j < zlen tm)%Z).
    { intros t1 i1 [B1 B2] R1. cbn [c_time]. rewrite E1, E2.
      replace (qlt t1 (first_ tm)) with false by (symmetry; apply qlt_false; exact B1).
      replace (qlt (last_ tm) t1) with false by (symmetry; apply qlt_false; exact B2).
      assert (R1' : (0 <= (if (i1 <? 0)%Z then 0 else i1) < zlen tm)%Z) by (destruct (i1 <? 0)%Z eqn:E; lia).
      destruct (c_walk_time tm t1 _ AX (conj B1 B2) R1') as (j & -> & J & _). exists j. split; [reflexivity|exact J]. }
    assert (W : forall p, first_ tm <= t - inject_Z p * (last_ tm - first_ tm) -> t - inject_Z p * (last_ tm - first_ tm) < last_ tm ->
      t - inject_Z p * (last_ tm - first_ tm) == t').
    { intros p A B. apply (wraps_unique tm t t); [exact D| |exact SA|exists 0%Z; change (inject_Z 0) with 0; ring].
      split; [exact A|]. split; [exact B|]. exists p. ring. }
    destruct (floor_wrap t _ _ D) as [A B]. set (p := Qfloor ((t - first_ tm) / (last_ tm - first_ tm))) in *.
    change (c_time (S (S k)) true tm (first_ tm) (last_ tm) t ti) with
      (match cget tm 0, cget tm (zlen tm - 1) with
      | Some t0, Some tn =>
          match (if qlt t t0 then
                c_time (S k) true tm (first_ tm) (last_ tm)
                  (if qlt (t - inject_Z p * (last_ tm - first_ tm)) t0
                   then t - inject_Z p * (last_ tm - first_ tm) - inject_Z (p - 1) * (last_ tm - first_ tm)
                   else t - inject_Z p * (last_ tm - first_ tm)) (zlen tm - 1)
              else if qlt tn t then c_time (S k) true tm (first_ tm) (last_ tm) (t - inject_Z p * (last_ tm - first_ tm)) 0
              else Some (t, if (ti <? 0)%Z then 0%Z else ti)) with
          | None => None
          | Some (t', ti') => match c_walk false tm t' ti' with None => None | Some j => Some (t', j) end
          end
      | _, _ => None end).
    rewrite E1, E2.
    assert (FIN : forall t1 j, first_ tm <= t1 <= last_ tm -> t1 == t' -> (0 <= j < zlen tm)%Z ->
      exists i tc, match c_walk false tm t1 j with None => None | Some j => Some (t1, j) end = Some (tc, i) /\ picked tm t' i tc).
    { intros t1 j B1 T1 R. destruct (c_walk_time tm t1 j AX B1 R) as (i & -> & J1 & J2 & J3). exists i, t1. split; [reflexivity|].
      apply picked_in; [exact AX|exact T1|exact J1|lra|]. destruct J3 as [[J3 J4]|[J3 J4]]; [left; split; [exact J3|lra]|right; split; [exact J3|lra]]. }
    destruct (qlt t (first_ tm)) eqn:Q1.
    + replace (qlt (t - inject_Z p * (last_ tm - first_ tm)) (first_ tm)) with false by (symmetry; apply qlt_false; exact A).
      destruct (IN (t - inject_Z p * (last_ tm - first_ tm)) (zlen tm - 1)%Z ltac:(lra) ltac:(lia)) as (j & -> & J).
      apply FIN; [lra|apply W; assumption|exact J].
    + apply qlt_false in Q1. destruct (qlt (last_ tm) t) eqn:Q2.
      * destruct (IN (t - inject_Z p * (last_ tm - first_ tm)) 0%Z ltac:(lra) ltac:(lia)) as (j & -> & J).
        apply FIN; [lra|apply W; assumption|exact J].
      * apply qlt_false in Q2. apply FIN; [lra| |exact ST'].
        specialize (NL eq_refl). assert (C : t < last_ tm) by (destruct (Qlt_le_dec t (last_ tm)); [assumption|exfalso; apply NL; lra]).
        specialize (W 0%Z). change (inject_Z 0) with 0 in W. rewrite <- W by lra. ring.
  - cbn [negb andb c_time]. rewrite E1, E2.
    destruct SA as [[[A B] TT]|[(EX & A & TT)|(EX & A & TT)]].
    + replace (qlt t (first_ tm)) with false by (symmetry; apply qlt_false; exact A).
      replace (qlt (last_ tm) t) with false by (symmetry; apply qlt_false; exact B). cbn [orb]. rewrite andb_false_r. split; [reflexivity|].
      destruct (c_walk_time tm t _ AX (conj A B) ST') as (j & -> & J1 & J2 & J3). exists j, t. split; [reflexivity|].
      apply picked_in; [exact AX|lra|exact J1|lra|]. destruct J3 as [[J3 J4]|[J3 J4]]; [left; split; [exact J3|lra]|right; split; [exact J3|lra]].
    + rewrite EX. cbn [negb andb]. split; [reflexivity|]. rewrite (c_walk_before tm t _ AX A ST'). exists 0%Z, t. split; [reflexivity|].
      split; [lia|]. right. split; [|exact TT]. replace (qlt (at_ tm 0) t) with false by (symmetry; apply qlt_false; fold (first_ tm); lra).
      apply andb_false_r.
    + rewrite EX. cbn [negb andb]. split; [reflexivity|]. rewrite (c_walk_after tm t _ AX A ST'). exists (zlen tm - 1)%Z, t. split; [reflexivity|].
      split; [lia|]. right. split; [|exact TT]. replace (zlen tm - 1 <? zlen tm - 1)%Z with false by lia. reflexivity.
Qed.
