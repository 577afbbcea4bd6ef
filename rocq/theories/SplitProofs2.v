(** Proofs for C43: the windows of pset.execute. *)
From Coq Require Import List ZArith Bool Lia ZifyBool.
From Verif Require Import CollModel KLoopModel KLoopSpec KLoopProofs KLoopSetProofs KLoopEqProofs SchedModel SchedSpec SchedProofs SplitSpec SplitProofs.
Import ListNotations.
Open Scope Z_scope.

Section Gen.
Context {X : Type}.
Notation pcl := (pcl X).

Lemma seen_norm : forall a b : list pcl, same_particles a b <-> map norm a = map norm b.
Proof.
  unfold same_particles. induction a as [|p a IH]; destruct b as [|q b]; cbn; try (split; [discriminate|discriminate]).
  - split; reflexivity.
  - split; intros E; inversion E as [[E1 E2 E3 E4 E5]].
    + destruct p, q; cbn in *; subst. f_equal. apply IH. exact E5.
    + unfold seen. f_equal; [congruence|]. apply IH. exact E5.
Qed.

Variable dt : Z.
Hypothesis D : dt <> 0.
Variable evo : Z -> list pcl -> list pcl -> Prop.
Hypothesis E_ok : forall stop t ps qs, evo stop ps qs -> Forall (ok dt t) ps -> Forall (ok dt t) qs.
Hypothesis E_split : forall t1 t2 ps qs, 0 <= Z.sgn dt * (t2 - t1) -> Forall (ok dt t1) ps ->
  evo t2 ps qs -> exists ms, evo t1 ps ms /\ evo t2 ms qs.
Hypothesis E_join : forall t1 t2 ps ms qs, 0 <= Z.sgn dt * (t2 - t1) ->
  evo t1 ps ms -> evo t2 ms qs -> evo t2 ps qs.
Hypothesis E_norm : forall stop ps qs, evo stop ps qs <-> evo stop (map norm ps) qs.
Hypothesis E_normal : forall stop ps qs, evo stop ps qs -> map norm qs = qs.

Lemma sg : (0 < dt /\ Z.sgn dt = 1) \/ (dt < 0 /\ Z.sgn dt = -1).
Proof. lia. Qed.

Lemma ok_shift : forall t t' (p : pcl), (dt | t' - t) -> ok dt t p -> ok dt t' p.
Proof.
  intros t t' p DV [O1 O2]. split; [exact O1|].
  replace (t' - q_time p) with ((t' - t) + (t - q_time p)) by lia. apply Z.divide_add_r; assumption.
Qed.
Lemma oks_shift : forall t t' (ps : list pcl), (dt | t' - t) -> Forall (ok dt t) ps -> Forall (ok dt t') ps.
Proof. intros t t' ps DV. apply Forall_impl. intros p. apply ok_shift. exact DV. Qed.
Lemma ok_norm : forall t (ps : list pcl), Forall (ok dt t) (map norm ps) <-> Forall (ok dt t) ps.
Proof. intros t ps. rewrite Forall_map. split; apply Forall_impl; auto. Qed.

(** *** Windows *)
Variable ex : nat -> nat -> list pcl -> Z -> option (list pcl).
Hypothesis X_evo : forall lf rf ps t ps', Forall (ok dt t) ps -> ex lf rf ps t = Some ps' -> evo t ps (map norm ps').
Hypothesis evo_X : forall ps t qs, Forall (ok dt t) ps -> evo t ps qs ->
  exists L N, forall lf rf, (L <= lf)%nat -> (N <= rf)%nat ->
  exists ps', ex lf rf ps t = Some ps' /\ map norm ps' = qs.
Hypothesis X_norm : forall lf rf ps t, ex lf rf ps t = ex lf rf (map norm ps) t.

Lemma evo_Xn : forall v t qs, Forall (ok dt t) v -> evo t v qs ->
  exists L N, forall lf rf ps, (L <= lf)%nat -> (N <= rf)%nat -> map norm ps = map norm v ->
  exists ps', ex lf rf ps t = Some ps' /\ map norm ps' = qs.
Proof.
  intros v t qs OK EV. destruct (evo_X (map norm v) t qs) as (L & N & F).
  { apply ok_norm. exact OK. } { apply E_norm in EV. exact EV. }
  exists L, N. intros lf rf ps LL NN M. rewrite X_norm, M. apply F; assumption.
Qed.

Lemma evo_windows : forall ends t0 tend ps lf rf ps',
  onward_ends dt t0 (ends ++ [tend]) -> Forall (ok dt t0) ps ->
  in_windows (ex lf rf) (ends ++ [tend]) ps = Some ps' -> evo tend ps (map norm ps').
Proof.
  induction ends as [|t1 ends IH]; intros t0 tend ps lf rf ps' ON OK R; cbn [app in_windows onward_ends] in *.
  - destruct ON as (_ & W & _). destruct (ex lf rf ps tend) as [ps1|] eqn:XX; [|discriminate].
    inversion R; subst. eapply X_evo; [|exact XX]. eapply oks_shift; eassumption.
  - destruct ON as (L & W & ON). destruct (ex lf rf ps t1) as [ps1|] eqn:XX; [|discriminate].
    assert (O1 : Forall (ok dt t1) ps) by (eapply oks_shift; eassumption).
    pose proof (X_evo _ _ _ _ _ O1 XX) as E1.
    assert (O2 : Forall (ok dt t1) ps1) by (apply ok_norm; eapply E_ok; eassumption).
    pose proof (IH _ _ _ _ _ _ ON O2 R) as E2. apply E_norm in E2.
    eapply E_join; [|exact E1|exact E2].
    clear - ON D. revert t1 ON. induction ends as [|t2 ends IH]; intros t1 ON; cbn in ON.
    + unfold onward in ON. lia.
    + destruct ON as (L & _ & ON). specialize (IH _ ON). unfold onward in L. lia.
Qed.

Lemma last_onward : forall ends t1 tend, onward_ends dt t1 (ends ++ [tend]) -> 0 <= Z.sgn dt * (tend - t1).
Proof.
  induction ends as [|t2 ends IH]; intros t1 tend ON; cbn in ON.
  - unfold onward in ON. lia.
  - destruct ON as (L & _ & ON). specialize (IH _ _ ON). unfold onward in L. lia.
Qed.

Lemma windows_evo : forall ends t0 tend v qs,
  onward_ends dt t0 (ends ++ [tend]) -> Forall (ok dt t0) v -> evo tend v qs ->
  exists L N, forall lf rf ps, (L <= lf)%nat -> (N <= rf)%nat -> map norm ps = map norm v ->
  exists ps', in_windows (ex lf rf) (ends ++ [tend]) ps = Some ps' /\ map norm ps' = qs.
Proof.
  induction ends as [|t1 ends IH]; intros t0 tend v qs ON OK EV; cbn [app in_windows onward_ends] in *.
  - destruct ON as (_ & W & _). assert (O1 : Forall (ok dt tend) v) by (eapply oks_shift; eassumption).
    destruct (evo_Xn _ _ _ O1 EV) as (L & N & F). exists L, N. intros lf rf ps LL NN M.
    destruct (F lf rf ps LL NN M) as (ps' & -> & M'). eauto.
  - destruct ON as (L & W & ON). assert (O1 : Forall (ok dt t1) v) by (eapply oks_shift; eassumption).
    destruct (E_split t1 tend v qs) as (ms & E1 & E2); [eapply last_onward; exact ON|exact O1|exact EV|].
    destruct (evo_Xn _ _ _ O1 E1) as (L1 & N1 & F1).
    assert (O2 : Forall (ok dt t1) ms) by (eapply E_ok; eassumption).
    destruct (IH _ _ _ _ ON O2 E2) as (L2 & N2 & F2).
    exists (Nat.max L1 L2), (Nat.max N1 N2). intros lf rf ps LL NN M.
    destruct (F1 lf rf ps ltac:(lia) ltac:(lia) M) as (ps1 & -> & M1).
    apply F2; [lia|lia|]. rewrite M1. symmetry. eapply E_normal. exact E1.
Qed.

(** *** The loop of pset.execute *)
Variables (s0 rs : Z) (rper : option Z) (batch : Z -> list pcl).
Hypothesis RP : match rper with Some p => 0 < p /\ (dt | p) | None => True end.
Hypothesis RB : forall t, Forall (fun p => q_time p = t) (batch t).

Definition grid (t : Z) : Prop := (dt | t - s0).
Definition owed (t : Z) : bool := match rper with Some p => (t - rs) mod p =? 0 | None => false end.
Definition rel (t : Z) (w : list pcl) : list pcl :=
  if owed t then w ++ set_all_dt (batch t) dt else w.

Lemma grid_step : forall t k, grid t -> grid (t + k * dt).
Proof. intros t k [j G]. exists (j + k). lia. Qed.
Lemma grid_sub : forall t t', grid t -> grid t' -> (dt | t' - t).
Proof. intros t t' [j G] [j' G']. exists (j' - j). lia. Qed.

Lemma rel_ok : forall t w, grid t -> Forall (ok dt s0) w -> Forall (ok dt s0) (rel t w).
Proof.
  intros t w G O. unfold rel. destruct (owed t); [|exact O]. apply Forall_app. split; [exact O|].
  unfold set_all_dt. rewrite Forall_map. eapply Forall_impl; [|apply RB].
  intros p T. split; [reflexivity|]. cbn. rewrite T. destruct G as [j G]. exists (- j). lia.
Qed.

Lemma rel_norm : forall t w w', map norm w = map norm w' -> map norm (rel t w) = map norm (rel t w').
Proof. intros t w w' M. unfold rel. destruct (owed t); [|exact M]. rewrite !map_app, M. reflexivity. Qed.

Inductive steps : Z -> list pcl -> nat -> list pcl -> Prop :=
| st_0 t w : steps t w 0 (map norm w)
| st_S t w q k r : evo (t + dt) w q -> steps (t + dt) (rel (t + dt) q) k r -> steps t w (S k) r.

Lemma steps_norm : forall t w k r, steps t w k r -> forall w', map norm w = map norm w' -> steps t w' k r.
Proof.
  destruct 1 as [t w|t w q k r E1 S1]; intros w' M.
  - rewrite M. constructor.
  - apply (st_S t w' q k r); [|exact S1]. apply E_norm. rewrite <- M. apply E_norm in E1. exact E1.
Qed.

Lemma steps_app : forall t w k q, steps t w k q -> forall m r, steps (t + Z.of_nat k * dt) q m r ->
  steps t w (k + m) r.
Proof.
  induction 1 as [t w|t w q k r E1 S1 IH]; intros m r' S2.
  - replace (t + Z.of_nat 0 * dt) with t in S2 by lia. eapply steps_norm; [exact S2|].
    rewrite map_map. reflexivity.
  - cbn [Nat.add]. eapply st_S; [exact E1|]. apply IH.
    replace (t + dt + Z.of_nat k * dt) with (t + Z.of_nat (S k) * dt) by lia. exact S2.
Qed.

Lemma steps_split : forall k t w m r, steps t w (k + m) r ->
  exists q, steps t w k q /\ steps (t + Z.of_nat k * dt) q m r.
Proof.
  induction k; intros t w m r S1.
  - exists (map norm w). split; [constructor|]. replace (t + Z.of_nat 0 * dt) with t by lia.
    eapply steps_norm; [exact S1|]. rewrite map_map. reflexivity.
  - cbn [Nat.add] in S1. inversion S1 as [|? ? q ? ? E1 S2]; subst.
    destruct (IHk _ _ _ _ S2) as (q2 & S3 & S4). exists q2. split; [eapply st_S; eassumption|].
    replace (t + Z.of_nat (S k) * dt) with (t + dt + Z.of_nat k * dt) by lia. exact S4.
Qed.

Lemma window_steps : forall k t w q, grid t -> Forall (ok dt s0) w ->
  (forall j, 1 <= j <= Z.of_nat k -> owed (t + j * dt) = false) ->
  evo (t + (Z.of_nat k + 1) * dt) w q -> forall m r,
  steps (t + (Z.of_nat k + 1) * dt) (rel (t + (Z.of_nat k + 1) * dt) q) m r -> steps t w (S k + m) r.
Proof.
  induction k; intros t w q G O NO EV m r S1.
  - replace (t + (Z.of_nat 0 + 1) * dt) with (t + dt) in * by lia. eapply st_S; eassumption.
  - assert (G1 : grid (t + dt)) by (replace (t + dt) with (t + 1 * dt) by lia; apply grid_step; exact G).
    destruct (E_split (t + dt) (t + (Z.of_nat (S k) + 1) * dt) w q) as (ms & E1 & E2).
    + destruct sg as [[? SG]|[? SG]]; rewrite SG; nia.
    + eapply oks_shift; [exact G1|exact O].
    + exact EV.
    + change (S (S k) + m)%nat with (S (S k + m)). eapply st_S; [exact E1|].
      unfold rel. replace (owed (t + dt)) with false.
      2:{ symmetry. replace (t + dt) with (t + 1 * dt) by lia. apply NO. lia. }
      assert (TT : t + dt + (Z.of_nat k + 1) * dt = t + (Z.of_nat (S k) + 1) * dt) by lia.
      eapply IHk; [exact G1|eapply E_ok; eassumption| |rewrite TT; exact E2|rewrite TT; exact S1].
      intros j J. replace (t + dt + j * dt) with (t + (j + 1) * dt) by lia. apply NO. lia.
Qed.

Lemma steps_window : forall k t w m r, grid t -> Forall (ok dt s0) w ->
  (forall j, 1 <= j <= Z.of_nat k -> owed (t + j * dt) = false) ->
  steps t w (S k + m) r ->
  exists q, evo (t + (Z.of_nat k + 1) * dt) w q /\
            steps (t + (Z.of_nat k + 1) * dt) (rel (t + (Z.of_nat k + 1) * dt) q) m r.
Proof.
  induction k; intros t w m r G O NO S1.
  - inversion S1 as [|? ? q ? ? E1 S2]; subst. exists q.
    replace (t + (Z.of_nat 0 + 1) * dt) with (t + dt) by lia. auto.
  - change (S (S k) + m)%nat with (S (S k + m)) in S1. inversion S1 as [|? ? q ? ? E1 S2]; subst.
    assert (G1 : grid (t + dt)) by (replace (t + dt) with (t + 1 * dt) by lia; apply grid_step; exact G).
    unfold rel in S2. replace (owed (t + dt)) with false in S2.
    2:{ symmetry. replace (t + dt) with (t + 1 * dt) by lia. apply NO. lia. }
    assert (TT : t + dt + (Z.of_nat k + 1) * dt = t + (Z.of_nat (S k) + 1) * dt) by lia.
    assert (NO' : forall j, 1 <= j <= Z.of_nat k -> owed (t + dt + j * dt) = false).
    { intros j J. replace (t + dt + j * dt) with (t + (j + 1) * dt) by lia. apply NO. lia. }
    destruct (IHk _ _ _ _ G1 (E_ok _ _ _ _ E1 O) NO' S2) as (q2 & E2 & S3).
    rewrite TT in *. exists q2. split; [|exact S3].
    eapply E_join; [|exact E1|exact E2]. destruct sg as [[? SG]|[? SG]]; rewrite SG; nia.
Qed.

(** The next times of the loop. *)
Variable per : kind -> option Z.
Hypothesis PR : per KRelease = rper.
Hypothesis PG : forall k, match per k with Some p => 0 < p /\ (dt | p) | None => True end.
Variable next : Z -> option Z.
Hypothesis NG : forall t x, next t = Some x -> 0 < Z.sgn dt * (x - t) /\ (dt | x - t).

Definition ninv (t : Z) (nx : kind -> option Z) : Prop :=
  forall k, match per k with
            | None => nx k = None
            | Some p => exists x, nx k = Some x /\ 0 < Z.sgn dt * (x - t) /\ grid x /\
                (k = KRelease -> Z.sgn dt * (x - t) <= p /\ (p | x - rs))
            end.
Definition iinv (t : Z) (nin : option Z) : Prop :=
  forall x, nin = Some x -> 0 < Z.sgn dt * (x - t) /\ grid x.

Lemma window_facts : forall t endt nx nin m, grid t -> ninv t nx -> iinv t nin ->
  endt = t + Z.of_nat (S m) * dt ->
  let T := window_end dt endt nx nin in
  exists k m', T = t + (Z.of_nat k + 1) * dt /\ S m = (S k + m')%nat /\
    (forall j, 1 <= j <= Z.of_nat k -> owed (t + j * dt) = false) /\
    (owed T = SchedProofs.due per nx T KRelease).
Proof.
  intros t endt nx nin m G NI II EE T.
  assert (AH : 0 < Z.sgn dt * (T - t) /\ grid T).
  { destruct (window_end_cases dt endt nx nin) as [C|[C|[k C]]]; fold T in C.
    - rewrite C, EE. split; [destruct sg as [[? SG]|[? SG]]; rewrite SG; nia|apply grid_step; exact G].
    - apply II. exact C.
    - specialize (NI k). destruct (per k) as [p|]; [|congruence]. destruct NI as (x & NX & A & B & _).
      rewrite C in NX. inversion NX; subst x. auto. }
  destruct AH as [AH GT].
  pose proof (window_end_le_end dt endt nx nin D) as LE. fold T in LE.
  destruct (grid_sub _ _ G GT) as [j TJ].
  assert (JJ : 1 <= j <= Z.of_nat (S m)).
  { rewrite EE in LE. destruct sg as [[? SG]|[? SG]]; rewrite SG in *; nia. }
  exists (Z.to_nat (j - 1)), (S m - S (Z.to_nat (j - 1)))%nat.
  split; [rewrite Z2Nat.id by lia; lia|]. split; [lia|].
  rewrite Z2Nat.id by lia.
  pose proof (NI KRelease) as NR. rewrite PR in NR.
  assert (INNER : forall u, 0 < Z.sgn dt * (u - t) -> 0 <= Z.sgn dt * (T - u) ->
            owed u = match nx KRelease with Some x => u =? x | None => false end).
  { intros u U1 U2. unfold owed. destruct rper as [p|]; [|rewrite NR; reflexivity].
    destruct NR as (x & NX & A & B & C). rewrite NX. destruct (C eq_refl) as [C1 [c C2]].
    destruct RP as [P0 _].
    pose proof (window_end_le_next dt endt nx nin KRelease x D NX) as LX. fold T in LX.
    destruct (u =? x) eqn:Q.
    - apply Z.eqb_eq in Q. subst u. rewrite C2. rewrite Z.mod_mul by lia. reflexivity.
    - apply Z.eqb_neq. intros M. apply Z.mod_divide in M; [|lia]. destruct M as [d M].
      assert (x - u = (c - d) * p) by lia.
      destruct sg as [[? SG]|[? SG]]; rewrite SG in *; assert (c - d = 0 \/ c - d >= 1 \/ c - d <= -1) by lia; nia. }
  split.
  - intros i I. rewrite INNER.
    + destruct (nx KRelease) as [x|] eqn:NX; [|reflexivity].
      pose proof (window_end_le_next dt endt nx nin KRelease x D NX) as LX. fold T in LX.
      destruct (t + i * dt =? x) eqn:Q; [|reflexivity]. exfalso. apply Z.eqb_eq in Q.
      destruct sg as [[? SG]|[? SG]]; rewrite SG in *; nia.
    + destruct sg as [[? SG]|[? SG]]; rewrite SG in *; nia.
    + destruct sg as [[? SG]|[? SG]]; rewrite SG in *; nia.
  - rewrite INNER by lia. unfold SchedProofs.due. rewrite PR. destruct (nx KRelease) as [x|]; [|reflexivity].
    destruct rper; [reflexivity|]. discriminate.
Qed.

Lemma serve_world : forall out cbs T nx w nx2 w2 tr,
  serve (only_release batch) dt per out cbs T kinds nx w = (nx2, w2, tr) ->
  w2 = if SchedProofs.due per nx T KRelease then w ++ set_all_dt (batch T) dt else w.
Proof.
  intros out cbs T nx w nx2 w2 tr S1.
  assert (Q : forall ks nx w nx2 w2 tr, ~ In KRelease ks ->
     serve (only_release batch) dt per out cbs T ks nx w = (nx2, w2, tr) -> w2 = w).
  { clear. induction ks as [|k ks IH]; intros nx w nx2 w2 tr NI S1; cbn [serve] in S1; [inversion S1; reflexivity|].
    assert (NI' : ~ In KRelease ks) by (intros C; apply NI; right; exact C).
    destruct (nx k) as [n|]; [|eauto]. destruct (per k) as [p|]; [|eauto]. destruct (T =? n); [|eauto].
    destruct (serve _ _ _ _ _ _ ks _ _) as [[nx3 w3] tr3] eqn:S2. inversion S1; subst.
    apply IH in S2; [|exact NI']. rewrite S2. destruct (event_of out cbs k T); [reflexivity|].
    destruct k; try reflexivity. exfalso. apply NI. left. reflexivity. }
  assert (KK : exists ks, kinds = KRelease :: ks /\ ~ In KRelease ks).
  { eexists. split; [reflexivity|]. cbn. intuition discriminate. }
  destruct KK as (ks & KE & NK). rewrite KE in S1. cbn [serve] in S1. unfold SchedProofs.due.
  destruct (nx KRelease) as [n|]; [|eauto]. destruct (per KRelease) as [p|]; [|eauto].
  destruct (T =? n); [|eauto].
  destruct (serve _ _ _ _ _ _ ks _ _) as [[nx3 w3] tr3] eqn:S2. inversion S1; subst.
  apply Q in S2; [|exact NK]. exact S2.
Qed.

Lemma ninv_after : forall out cbs t T nx w nx2 w2 tr, ninv t nx ->
  0 < Z.sgn dt * (T - t) -> grid T -> (forall k n, nx k = Some n -> 0 <= Z.sgn dt * (n - T)) ->
  serve (only_release batch) dt per out cbs T kinds nx w = (nx2, w2, tr) -> ninv T nx2.
Proof.
  intros out cbs t T nx w nx2 w2 tr NI AH GT LE S1 k.
  destruct (serve_kinds _ _ _ _ _ _ _ _ _ _ _ S1) as [_ SK]. destruct (SK k) as [_ ->]. clear SK S1.
  specialize (NI k). unfold SchedProofs.due. pose proof (PG k) as PK.
  destruct (per k) as [p|]; [|rewrite NI; reflexivity].
  destruct NI as (x & NX & A & B & C). pose proof (LE _ _ NX) as LX. rewrite NX. destruct PK as [P0 PD].
  destruct (T =? x) eqn:Q.
  - apply Z.eqb_eq in Q. exists (x + p * Z.sgn dt). split; [reflexivity|]. subst x.
    split; [destruct sg as [[? SG]|[? SG]]; rewrite SG; lia|].
    split.
    + destruct GT as [j GT]. destruct PD as [d PD]. exists (j + d * Z.sgn dt). nia.
    + intros ->. destruct (C eq_refl) as [_ [c C2]]. split; [destruct sg as [[? SG]|[? SG]]; rewrite SG; lia|].
      exists (c + Z.sgn dt). nia.
  - exists x. split; [reflexivity|]. split; [destruct sg as [[? SG]|[? SG]]; rewrite SG in *; lia|].
    split; [exact B|]. intros ->. destruct (C eq_refl) as [C1 C2]. split; [|exact C2].
    destruct sg as [[? SG]|[? SG]]; rewrite SG in *; lia.
Qed.

Notation loop lf rf := (sloop (fun w t _ => ex lf rf w t) (only_release batch) (announces next)).

Lemma iinv_next : forall t, grid t -> iinv t (next t).
Proof.
  intros t G x NX. destruct (NG _ _ NX) as [A [c B]]. split; [exact A|].
  destruct G as [j G]. exists (c + j). lia.
Qed.

Lemma loop_cond : forall t m, ((t <? t + Z.of_nat m * dt) && (0 <? dt)) || ((t + Z.of_nat m * dt <? t) && (dt <? 0)) || (dt =? 0)
  = negb (m =? 0)%nat.
Proof.
  intros t m. destruct m as [|m].
  - replace (t + Z.of_nat 0 * dt) with t by lia. cbn. rewrite Z.ltb_irrefl. cbn. lia.
  - cbn [Nat.eqb negb]. destruct sg as [[? SG]|[? SG]]; nia.
Qed.

Lemma loop_exit : forall fuel lf rf out cbs t nx nin w,
  loop lf rf fuel dt t per out cbs t nx nin w = (t, w, [], SDone).
Proof.
  intros fuel lf rf out cbs t nx nin w.
  destruct fuel; cbn [sloop]; rewrite Z.ltb_irrefl; replace (dt =? 0) with false by lia; reflexivity.
Qed.

Lemma loop_steps : forall fuel lf rf out cbs endt m t nx nin w t' w' tr,
  grid t -> ninv t nx -> iinv t nin -> Forall (ok dt s0) w -> endt = t + Z.of_nat m * dt ->
  loop lf rf fuel dt endt per out cbs t nx nin w = (t', w', tr, SDone) ->
  steps t w m (map norm w').
Proof.
  induction fuel; intros lf rf out cbs endt m t nx nin w t' w' tr G NI II O EE R; cbn [sloop] in R;
    rewrite EE in R at 1 2; rewrite loop_cond in R.
  - destruct m; cbn [Nat.eqb negb] in R; [|discriminate]. inversion R; subst. constructor.
  - destruct m as [|m]; cbn [Nat.eqb negb] in R; [inversion R; subst; constructor|].
    set (T := window_end dt endt nx nin) in *.
    destruct (window_facts t endt nx nin m G NI II EE) as (k & m' & TE & ME & NO & OW). fold T in TE, OW.
    destruct (ex lf rf w T) as [w1|] eqn:XX; [|discriminate].
    destruct (serve (only_release batch) dt per out cbs T kinds nx w1) as [[nx2 w2] tr2] eqn:SV.
    assert (GT : grid T) by (rewrite TE; apply grid_step; exact G).
    assert (AH : 0 < Z.sgn dt * (T - t)) by (rewrite TE; destruct sg as [[? SG]|[? SG]]; rewrite SG; nia).
    assert (OT : Forall (ok dt T) w) by (eapply oks_shift; [exact GT|exact O]).
    pose proof (X_evo _ _ _ _ _ OT XX) as EV.
    assert (W2 : w2 = rel T w1).
    { apply serve_world in SV. unfold rel. rewrite OW. exact SV. }
    assert (O1 : Forall (ok dt s0) w1) by (apply ok_norm; eapply E_ok; eassumption).
    assert (O2 : Forall (ok dt s0) w2) by (rewrite W2; apply rel_ok; assumption).
    assert (NI2 : ninv T nx2).
    { eapply ninv_after; [exact NI|exact AH|exact GT| |exact SV].
      intros k' n NK. apply (window_end_le_next dt endt nx nin k' n D NK). }
    replace (dt =? 0) with false in R by lia.
    assert (E2 : endt = T + Z.of_nat m' * dt) by (rewrite EE, TE; lia).
    assert (FIN : forall nin', iinv T nin' -> forall t4 w4 tr4 r4,
      loop lf rf fuel dt endt per out cbs T nx2 nin' w2 = (t4, w4, tr4, r4) -> r4 = SDone ->
      steps t w (S m) (map norm w4)).
    { intros nin' II' t4 w4 tr4 r4 L4 ->. rewrite ME. rewrite TE in EV.
      eapply window_steps; [exact G|exact O|exact NO|exact EV|]. rewrite <- TE.
      pose proof (IHfuel _ _ _ _ _ _ _ _ _ _ _ _ _ GT NI2 II' O2 E2 L4) as S4.
      eapply steps_norm; [exact S4|]. rewrite W2. apply rel_norm. rewrite map_map. reflexivity. }
    destruct (T =? endt) eqn:TQ.
    + (* the next iteration leaves the loop: its next input time does not matter *)
      destruct (loop lf rf fuel dt endt per out cbs T nx2 nin w2) as [[[t3 w3] tr3] r3] eqn:L3.
      inversion R; subst r3 w' t'. clear R FIN. apply Z.eqb_eq in TQ.
      assert (M0 : m' = 0%nat) by nia.
      assert (W3 : w3 = w2).
      { rewrite TQ, loop_exit in L3. inversion L3; reflexivity. }
      rewrite ME. rewrite TE in EV. eapply window_steps; [exact G|exact O|exact NO|exact EV|]. rewrite <- TE.
      rewrite M0, W3, W2. replace (map norm (rel T w1)) with (map norm (rel T (map norm w1))); [constructor|].
      apply rel_norm. rewrite map_map. reflexivity.
    + unfold announces at 1 in R.
      destruct (loop lf rf fuel dt endt per out cbs T nx2 (next T) w2) as [[[t4 w4] tr4] r4] eqn:L4.
      inversion R; subst. eapply FIN; [apply iinv_next; exact GT|exact L4|reflexivity].
Qed.

Lemma steps_loop : forall m out cbs endt t nx nin v r,
  grid t -> ninv t nx -> iinv t nin -> Forall (ok dt s0) v -> endt = t + Z.of_nat m * dt ->
  steps t v m r ->
  exists L N, forall fuel lf rf w, (m <= fuel)%nat -> (L <= lf)%nat -> (N <= rf)%nat -> map norm w = map norm v ->
  exists w' tr, loop lf rf fuel dt endt per out cbs t nx nin w = (endt, w', tr, SDone) /\ map norm w' = r.
Proof.
  induction m as [m IH] using (well_founded_induction Wf_nat.lt_wf).
  intros out cbs endt t nx nin v r G NI II O EE ST. destruct m as [|m].
  - exists 0%nat, 0%nat. intros fuel lf rf w LF LL NN M. exists w, [].
    assert (ET : endt = t) by lia. split.
    + rewrite ET. apply loop_exit.
    + inversion ST; subst. exact M.
  - set (T := window_end dt endt nx nin) in *.
    destruct (window_facts t endt nx nin m G NI II EE) as (k & m' & TE & ME & NO & OW). fold T in TE, OW.
    rewrite ME in ST. destruct (steps_window _ _ _ _ _ G O NO ST) as (q & EV & S2). rewrite <- TE in EV, S2.
    assert (GT : grid T) by (rewrite TE; apply grid_step; exact G).
    assert (AH : 0 < Z.sgn dt * (T - t)) by (rewrite TE; destruct sg as [[? SG]|[? SG]]; rewrite SG; nia).
    assert (OT : Forall (ok dt T) v) by (eapply oks_shift; [exact GT|exact O]).
    destruct (evo_Xn _ _ _ OT EV) as (L1 & N1 & F1).
    assert (O1 : Forall (ok dt s0) q) by (eapply E_ok; eassumption).
    assert (O2 : Forall (ok dt s0) (rel T q)) by (apply rel_ok; assumption).
    assert (E2 : endt = T + Z.of_nat m' * dt) by (rewrite EE, TE; lia).
    pose (nx2 := fst (fst (serve (only_release batch) dt per out cbs T kinds nx ([] : list pcl)))).
    assert (SN : forall w1, exists tr2, serve (only_release batch) dt per out cbs T kinds nx w1 = (nx2, rel T w1, tr2)).
    { intros w1. destruct (serve (only_release batch) dt per out cbs T kinds nx w1) as [[nx3 w3] tr3] eqn:SV.
      exists tr3. apply serve_world in SV as WV. rewrite <- OW in WV. fold (rel T w1) in WV. rewrite WV.
      f_equal. f_equal. unfold nx2. clear - SV.
      assert (G : forall ks nx wa wb, fst (fst (serve (only_release batch) dt per out cbs T ks nx wa)) =
                                      fst (fst (serve (only_release batch) dt per out cbs T ks nx wb))).
      { induction ks as [|k ks IH]; intros nx' wa wb; cbn [serve]; [reflexivity|].
        destruct (nx' k) as [n|]; [|apply IH]. destruct (per k) as [p|]; [|apply IH]. destruct (T =? n); [|apply IH].
        set (wa1 := match event_of out cbs k T with [] => wa | _ => _ end).
        set (wb1 := match event_of out cbs k T with [] => wb | _ => _ end).
        specialize (IH (upd nx' k (Some (n + p * Z.sgn dt))) wa1 wb1).
        destruct (serve _ _ _ _ _ _ ks _ wa1) as [[a1 a2] a3], (serve _ _ _ _ _ _ ks _ wb1) as [[b1 b2] b3].
        exact IH. }
      rewrite (G _ _ _ w1), SV. reflexivity. }
    assert (NI2 : ninv T nx2).
    { destruct (SN []) as [tr2 SV]. eapply ninv_after; [exact NI|exact AH|exact GT| |exact SV].
      intros k' n NK. apply (window_end_le_next dt endt nx nin k' n D NK). }
    assert (IHw : exists L N, forall fuel lf rf w, (m' <= fuel)%nat -> (L <= lf)%nat -> (N <= rf)%nat ->
       map norm w = map norm (rel T q) -> exists w' tr,
       loop lf rf fuel dt endt per out cbs T nx2 (if T =? endt then nin else next T) w = (endt, w', tr, SDone) /\ map norm w' = r).
    { destruct (T =? endt) eqn:TQ.
      - apply Z.eqb_eq in TQ. assert (M0 : m' = 0%nat) by nia. exists 0%nat, 0%nat. intros fuel lf rf w LF LL NN M. exists w, [].
        split.
        + rewrite TQ. apply loop_exit.
        + subst m'. inversion S2; subst. exact M.
      - apply (IH m'); [lia|exact GT|exact NI2|apply iinv_next; exact GT|exact O2|exact E2|exact S2]. }
    destruct IHw as (L2 & N2 & F2).
    exists (Nat.max L1 L2), (Nat.max N1 N2). intros fuel lf rf w LF LL NN M.
    destruct fuel as [|fuel]; [lia|]. cbn [sloop].
    pose proof (loop_cond t (S m)) as LC. rewrite <- EE in LC. cbn [Nat.eqb negb] in LC. rewrite LC. fold T. destruct (F1 lf rf w ltac:(lia) ltac:(lia) M) as (w1 & -> & M1).
    destruct (SN w1) as [tr2 ->].
    replace (dt =? 0) with false by lia.
    assert (MR : map norm (rel T w1) = map norm (rel T q)).
    { apply rel_norm. rewrite M1. symmetry. eapply E_normal. exact EV. }
    destruct (F2 fuel lf rf (rel T w1) ltac:(lia) ltac:(lia) ltac:(lia) MR) as (w' & tr & RR & MM).
    destruct (T =? endt) eqn:TQ.
    + rewrite RR. eexists _, _. split; [reflexivity|exact MM].
    + unfold announces at 1. rewrite RR. eexists _, _. split; [reflexivity|exact MM].
Qed.

End Gen.
