(** Proofs for C43: calls of pset.execute. *)
From Coq Require Import List ZArith Bool Lia ZifyBool.
From Verif Require Import CollModel KLoopModel KLoopSpec KLoopProofs KLoopSetProofs KLoopEqProofs SchedModel SchedSpec SchedProofs SplitSpec SplitProofs SplitProofs2.
Import ListNotations.
Open Scope Z_scope.

Lemma sloop_ext : forall {W} (e1 e2 : W -> Z -> Z -> option W) act input dt,
  (forall w t, e1 w t dt = e2 w t dt) ->
  forall fuel endt per out cbs t nx nin w,
  sloop e1 act input fuel dt endt per out cbs t nx nin w = sloop e2 act input fuel dt endt per out cbs t nx nin w.
Proof.
  intros W e1 e2 act input dt EX. induction fuel; intros endt per out cbs t nx nin w; cbn [sloop]; [reflexivity|].
  destruct (_ || _); [|reflexivity]. rewrite EX. destruct (e2 w _ dt); [|reflexivity].
  destruct (serve _ _ _ _ _ _ _ _ _) as [[nx2 w2] tr2]. destruct (_ =? _).
  - destruct (dt =? 0); [reflexivity|]. rewrite IHfuel. reflexivity.
  - destruct (input _ _ _) as [[w3 nin']|]; [|reflexivity]. destruct (dt =? 0); [reflexivity|]. rewrite IHfuel. reflexivity.
Qed.

Lemma moves_facts : forall eps a start dflt endt, moves eps a start dflt endt ->
  resolve_once eps a start endt = (a_dt a, endt) /\ a_dt a <> 0 /\ 0 <= Z.sgn (a_dt a) * (endt - start).
Proof.
  exact (resolve_moves (W := unit) (fun _ _ _ => None) (fun w _ => w) (fun _ _ _ => None)).
Qed.
Lemma moves_end : forall eps a start dflt endt, moves eps a start dflt endt -> resolve_end a start dflt = Some endt.
Proof.
  intros eps a start dflt endt (RE & _).
  exact (requested_resolves (W := unit) (fun _ _ _ => None) (fun w _ => w) (fun _ _ _ => None) _ _ _ _ RE).
Qed.

Section Run.
Context {E X H : Type}.
Notation pcl := (pcl X).
Variable K : E -> pcl -> E * kres X.
Variable interp : handlers E X H.
Variable user : Z -> option H.
Variables (atol dt : Z) (jit out : bool) (e : E).
Hypothesis U : uninterruptible K interp.
Hypothesis HA : 0 <= atol.
Hypothesis HD : atol < Z.abs dt.

Notation ex := (fun lf rf ps t => mode_exec jit K interp lf rf atol user out e ps t dt).

Lemma modes_here : forall lf rf t ps, Forall (ok dt t) ps ->
  jit_exec K interp lf rf atol user out e ps t dt = scipy_exec K interp lf rf atol user out e ps t dt.
Proof.
  intros lf rf t ps OK. destruct U as (SC & SK & SH & NE). unfold jit_exec, scipy_exec.
  rewrite (execute_modes K interp); [| | |exact HA|exact HD|].
  - destruct (py_execute _ _ _ _ _ _ _ _ _ _ _) as [[[e' ps'] tr] r]. destruct r; reflexivity.
  - intros e0 p QD. cbv zeta. destruct (SK e0 p) as (KT & KD & KX). rewrite KD, KX. repeat split; auto. discriminate.
  - intros h e0 p e' p1 Q QD. destruct (SH _ _ _ _ _ Q) as [_ ->]. exact QD.
  - eapply Forall_impl; [|exact OK]. intros p [Q _]. rewrite Q. lia.
Qed.

(** The course of particles, for this kernel. *)
Lemma evo_exists : exists evo : Z -> list pcl -> list pcl -> Prop,
  (forall stop t ps qs, evo stop ps qs -> Forall (ok dt t) ps -> Forall (ok dt t) qs) /\
  (forall t1 t2 ps qs, 0 <= Z.sgn dt * (t2 - t1) -> Forall (ok dt t1) ps ->
     evo t2 ps qs -> exists ms, evo t1 ps ms /\ evo t2 ms qs) /\
  (forall t1 t2 ps ms qs, 0 <= Z.sgn dt * (t2 - t1) -> evo t1 ps ms -> evo t2 ms qs -> evo t2 ps qs) /\
  (forall stop ps qs, evo stop ps qs <-> evo stop (map norm ps) qs) /\
  (forall stop ps qs, evo stop ps qs -> map norm qs = qs) /\
  (forall lf rf ps t ps', Forall (ok dt t) ps -> ex lf rf ps t = Some ps' -> evo t ps (map norm ps')) /\
  (forall ps t qs, Forall (ok dt t) ps -> evo t ps qs ->
     exists L N, forall lf rf, (L <= lf)%nat -> (N <= rf)%nat ->
     exists ps', ex lf rf ps t = Some ps' /\ map norm ps' = qs) /\
  (forall lf rf ps t, ex lf rf ps t = ex lf rf (map norm ps) t).
Proof.
  pose proof U as ([[f KF] [g GF]] & SK & SH & NE).
  assert (KS : forall p, k_time (f p) = q_time p /\ k_dt (f p) = q_dt p /\ k_next (f p) = None).
  { intros p. specialize (SK e p). rewrite KF in SK. exact SK. }
  assert (GS : forall h p p1, g h p = Some p1 -> q_time p1 = q_time p /\ q_dt p1 = q_dt p).
  { intros h p p1 G. apply (SH h e p e p1). rewrite GF, G. reflexivity. }
  assert (KN : forall p, wants_run p = true -> code f p <> st_Evaluate).
  { intros p W. specialize (NE e p). rewrite KF in NE. apply NE. unfold wants_run in W. lia. }
  exists (evolves f g user dt). repeat split.
  - intros stop t ps qs EV OK. eapply (evolves_ok K f g user dt KF KS GS KN); eassumption.
  - intros t1 t2 ps qs LE OK EV. eapply (evolves_split K f g user atol dt KF KS GS KN HA HD); eassumption.
  - intros t1 t2 ps ms qs LE E1 E2. eapply (evolves_join K f g user atol dt KF KS GS KN HA HD); eassumption.
  - intros EV. apply evolves_norm in EV. exact EV.
  - intros EV. apply evolves_norm. exact EV.
  - intros stop ps qs (rs & F & ->). induction F as [|p r ps rs [n JJ] F IH]; [reflexivity|].
    cbn. rewrite map_app. f_equal; [|exact IH]. destruct r as [q|]; [|reflexivity]. cbn. f_equal.
    assert (ST : q_st q = st_Evaluate).
    { apply (J_result _ _ _ _ _ _ _ _ _ JJ q eq_refl). }
    destruct q; cbn in ST; subst; reflexivity.
  - intros lf rf ps t ps' OK R.
    assert (R' : scipy_exec K interp lf rf atol user out e ps t dt = Some ps').
    { unfold mode_exec in R. destruct jit; [|exact R]. rewrite <- modes_here by exact OK. exact R. }
    unfold scipy_exec, completed in R'.
    destruct (py_execute _ _ _ _ _ _ _ _ _ _ _) as [[[e' ps1] tr] r] eqn:P. destruct r; try discriminate.
    inversion R'; subst. eapply (execute_course K interp f g user atol dt KF GF KS GS KN HA HD); eassumption.
  - intros ps t qs OK EV.
    destruct (course_execute K interp f g user atol dt KF GF KS GS KN HA HD t out e ps qs OK EV) as (L & N & F).
    exists L, N. intros lf rf LL NN. destruct (F lf rf LL NN) as (ps' & tr & R & M). exists ps'.
    split; [|exact M].
    assert (R' : scipy_exec K interp lf rf atol user out e ps t dt = Some ps').
    { unfold scipy_exec. rewrite R. reflexivity. }
    unfold mode_exec. destruct jit; [|exact R']. rewrite modes_here by exact OK. exact R'.
  - intros lf rf ps t.
    unfold mode_exec, jit_exec, scipy_exec, c_execute, py_execute, execute. destruct jit; cbv beta; rewrite map_map; reflexivity.
Qed.

Lemma ok_in_step : forall t (ps : list pcl), in_step dt t ps <-> Forall (ok dt t) ps.
Proof. intros t ps. split; intros F; exact F. Qed.

(** ** Windows *)

Lemma windows_all : forall ends1 ends2 t0 tend ps,
  in_step dt t0 ps -> onward_ends dt t0 (ends1 ++ [tend]) -> onward_ends dt t0 (ends2 ++ [tend]) ->
  forall lf rf ps', in_windows (ex lf rf) (ends1 ++ [tend]) ps = Some ps' ->
  exists L N, forall lf rf, (L <= lf)%nat -> (N <= rf)%nat ->
  exists ps'', in_windows (ex lf rf) (ends2 ++ [tend]) ps = Some ps'' /\ same_particles ps' ps''.
Proof.
  intros ends1 ends2 t0 tend ps IS O1 O2 lf rf ps' R.
  destruct evo_exists as (evo & H1 & H2 & H3 & H4 & H5 & H6 & H7 & H8).
  assert (D : dt <> 0) by lia.
  assert (EV : evo tend ps (map norm ps')).
  { eapply (evo_windows dt D evo H1 H2 H3 H4 H5 ex H6); [exact O1|exact IS|exact R]. }
  destruct (windows_evo dt D evo H1 H2 H3 H4 H5 ex H6 H7 H8 ends2 t0 tend ps _ O2 IS EV) as (L & N & F).
  exists L, N. intros lf' rf' LL NN. destruct (F lf' rf' ps LL NN eq_refl) as (ps'' & RR & M).
  exists ps''. split; [exact RR|]. apply seen_norm. symmetry. exact M.
Qed.

(** ** Calls of pset.execute *)

Variables (r : option Z) (batch : Z -> list pcl) (eps : Z).
Hypothesis HB : batch_in_step batch.
Notation run lf rf fuel next a := (run_set jit K interp lf rf fuel atol user out e batch next eps a).

Definition clock (rs : option Z) (start : Z) : Z := match rs with Some x => x | None => start end.

Lemma periods_in_step : forall a next k, run_in_step dt r a next -> period_in_step dt (periods a k).
Proof.
  intros a next k (A & B & O & M & C & R & _). destruct k; cbn [periods].
  - destruct (a_repeat a) as [[| |]|]; exact I || exact R.
  - exact O.
  - exact M.
  - unfold callback_period. destruct (a_callback a); [exact C|].
    destruct (a_movie a) as [m|], (a_output a) as [o|], (a_repeat a) as [q|]; cbn [omin period_in_step] in *; auto;
      repeat match goal with |- context [Z.min ?x ?y] => destruct (Z.min_spec x y) as [[? ->]|[? ->]] end; auto.
Qed.

Lemma first_ninv : forall a next rs start, run_in_step dt r a next -> clock_in_step dt rs start ->
  ninv dt start (clock rs start) (periods a) start (first_next a dt start (clock rs start)).
Proof.
  intros a next rs start RI CI k. pose proof (periods_in_step a next k RI) as PK.
  unfold first_next. destruct (periods a k) as [p|]; [|reflexivity].
  destruct PK as [P0 [d PD]]. assert (D : dt <> 0) by lia.
  assert (CL : (dt | start - clock rs start) /\ 0 <= Z.sgn dt * (start - clock rs start)).
  { destruct rs as [x|]; cbn [clock clock_in_step] in *; [exact CI|]. rewrite Z.sub_diag, Z.mul_0_r.
    split; [apply Z.divide_0_r|lia]. }
  destruct CL as [[c CL] ON]. set (rs0 := clock rs start) in *.
  assert (SG : (0 < dt /\ Z.sgn dt = 1) \/ (dt < 0 /\ Z.sgn dt = -1)) by lia.
  destruct k.
  - eexists. split; [reflexivity|].
    pose proof (Z.div_mod (Z.abs (start - rs0)) p ltac:(lia)) as DM.
    pose proof (Z.mod_pos_bound (Z.abs (start - rs0)) p P0) as MB.
    set (q := Z.abs (start - rs0) / p) in *. set (m := Z.abs (start - rs0) mod p) in *.
    assert (AB : Z.abs (start - rs0) = Z.sgn dt * (start - rs0)) by (destruct SG as [[? SG]|[? SG]]; rewrite SG in *; lia).
    assert (SS : Z.sgn dt * Z.sgn dt = 1) by (destruct SG as [[? SG]|[? SG]]; rewrite SG; lia).
    assert (DIST : Z.sgn dt * (rs0 + (q + 1) * p * Z.sgn dt - start) = p - m) by nia.
    split; [lia|]. split.
    + exists ((q + 1) * d * Z.sgn dt - c). nia.
    + intros _. split; [lia|]. exists ((q + 1) * Z.sgn dt). nia.
  - eexists. split; [reflexivity|]. destruct (0 <? dt) eqn:B.
    + split; [destruct SG as [[? SG]|[? SG]]; rewrite SG; lia|]. split; [exists d; lia|discriminate].
    + split; [destruct SG as [[? SG]|[? SG]]; rewrite SG; lia|]. split; [exists (- d); lia|discriminate].
  - eexists. split; [reflexivity|]. destruct (0 <? dt) eqn:B.
    + split; [destruct SG as [[? SG]|[? SG]]; rewrite SG; lia|]. split; [exists d; lia|discriminate].
    + split; [destruct SG as [[? SG]|[? SG]]; rewrite SG; lia|]. split; [exists (- d); lia|discriminate].
  - eexists. split; [reflexivity|]. destruct (0 <? dt) eqn:B.
    + split; [destruct SG as [[? SG]|[? SG]]; rewrite SG; lia|]. split; [exists d; lia|discriminate].
    + split; [destruct SG as [[? SG]|[? SG]]; rewrite SG; lia|]. split; [exists (- d); lia|discriminate].
Qed.

Definition rper : option Z := match r with Some 0 => None | x => x end.

Lemma rper_ok : forall a next, run_in_step dt r a next ->
  periods a KRelease = rper /\ match rper with Some p => 0 < p /\ (dt | p) | None => True end.
Proof.
  intros a next RI. pose proof (periods_in_step a next KRelease RI) as PK. destruct RI as (_ & B & _).
  assert (Q : periods a KRelease = rper) by (unfold rper; cbn [periods]; rewrite B; destruct r as [[| |]|]; reflexivity).
  split; [exact Q|]. rewrite Q in PK. exact PK.
Qed.

Lemma set_dt_ok : forall start (ps : list pcl), Forall (fun p => whole_steps dt (q_time p) start) ps ->
  Forall (ok dt start) (set_all_dt ps dt).
Proof.
  intros start ps F. unfold set_all_dt. rewrite Forall_map. eapply Forall_impl; [|exact F].
  intros p W. split; [reflexivity|exact W].
Qed.

Lemma count_steps : forall start endt, whole_steps dt start endt -> 0 <= Z.sgn dt * (endt - start) ->
  exists m, endt = start + Z.of_nat m * dt.
Proof.
  intros start endt [k W] L. exists (Z.to_nat k). assert (0 <= k) by nia. rewrite Z2Nat.id by lia. lia.
Qed.

Lemma act_output : forall (b : bool) (k : kind) (w : list pcl) t d, k <> KRelease ->
  (if b then only_release batch k w t d else w) = w.
Proof. intros [] [] w t d N; try reflexivity. contradiction. Qed.

(** A call of pset.execute is its loop. *)
Lemma run_is_loop : forall next a start rs dflt endt lf rf fuel w,
  moves eps a start dflt endt -> run_in_step dt r a next ->
  run lf rf fuel next a start rs dflt w =
  let '(t, w', tr, st) := sloop (fun w t _ => ex lf rf w t) (only_release batch) (announces next) fuel dt endt
      (periods a) (a_out a) (a_cbs a) start (first_next a dt start (clock rs start)) (next start) (set_all_dt w dt) in
  (w', (if a_out a then [SWrite start] else []) ++ (match a_movie a with Some (Zpos _) => [SShow start] | _ => [] end) ++
       (SInput start :: tr) ++ (if a_out a then match st with SDone => [SWrite t] | _ => [] end else []), st).
Proof.
  intros next a start rs dflt endt lf rf fuel w MV RI.
  destruct (moves_facts eps _ _ _ _ MV) as (RO & DN & LE). pose proof (moves_end eps _ _ _ _ MV) as RE.
  destruct RI as (AD & _). unfold run_set, sexecute. rewrite RE. cbn zeta. rewrite RO, AD. rewrite act_output by discriminate.
  assert (MVQ : match a_movie a with
     | Some (Z.pos _) => only_release batch KMovie (set_all_dt w dt) start dt
     | _ => set_all_dt w dt end = set_all_dt w dt) by (destruct (a_movie a) as [[| |]|]; reflexivity).
  rewrite MVQ. unfold announces at 1.
  rewrite (sloop_ext (mode_exec jit K interp lf rf atol user out e) (fun w t _ => ex lf rf w t)) by reflexivity.
  change (match rs with Some r0 => r0 | None => start end) with (clock rs start).
  destruct (sloop _ _ _ _ _ _ _ _ _ _ _ _ _) as [[[t w'] tr] st].
  destruct st, (a_out a); cbn [only_release]; rewrite <- ?app_assoc; cbn [app]; rewrite ?app_nil_r; try reflexivity.
Qed.

Lemma evo_pack : exists stp : Z -> Z -> Z -> list pcl -> nat -> list pcl -> Prop,
  (* start of the clock, anchor *)
  (forall rs0 s0 t w k q m q2, stp rs0 s0 t w k q -> stp rs0 s0 (t + Z.of_nat k * dt) q m q2 -> stp rs0 s0 t w (k + m)%nat q2) /\
  (forall rs0 s0 k t w m q2, stp rs0 s0 t w (k + m)%nat q2 -> exists q, stp rs0 s0 t w k q /\ stp rs0 s0 (t + Z.of_nat k * dt) q m q2) /\
  (forall rs0 s0 t w k q, stp rs0 s0 t w k q -> map norm q = q /\
     (grid dt s0 t -> Forall (ok dt s0) w -> Forall (ok dt s0) q)) /\
  (forall rs0 s0 t w w' k q, stp rs0 s0 t w k q -> map norm w = map norm w' -> stp rs0 s0 t w' k q) /\
  (forall rs0 s0 s1 t w k q, stp rs0 s0 t w k q -> stp rs0 s1 t w k q) /\
  (forall next a start rs dflt endt lf rf fuel w w' tr m,
     moves eps a start dflt endt -> run_in_step dt r a next -> clock_in_step dt rs start ->
     Forall (fun p => whole_steps dt (q_time p) start) w -> endt = start + Z.of_nat m * dt ->
     run lf rf fuel next a start rs dflt w = (w', tr, SDone) ->
     stp (clock rs start) start start (set_all_dt w dt) m (map norm w')) /\
  (forall next a start rs dflt endt v q m,
     moves eps a start dflt endt -> run_in_step dt r a next -> clock_in_step dt rs start ->
     Forall (fun p => whole_steps dt (q_time p) start) v -> endt = start + Z.of_nat m * dt ->
     stp (clock rs start) start start (set_all_dt v dt) m q ->
     exists L N, forall fuel lf rf w, (m <= fuel)%nat -> (L <= lf)%nat -> (N <= rf)%nat -> map norm w = map norm v ->
     exists w' tr, run lf rf fuel next a start rs dflt w = (w', tr, SDone) /\ map norm w' = q).
Proof.
  destruct evo_exists as (evo & H1 & H2 & H3 & H4 & H5 & H6 & H7 & H8).
  assert (D : dt <> 0) by lia.
  exists (fun rs0 s0 => steps dt evo rs0 rper batch).
  split; [intros rs0 s0 t w k q m q2 S1 S2; eapply (steps_app dt evo H1 H2 H3 H4 H5 ex H6 H7 H8 s0 rs0 rper batch HB); eassumption|].
  split; [intros rs0 s0 k t w m q2 S1; eapply (steps_split dt evo H1 H2 H3 H4 H5 ex H6 H7 H8 s0 rs0 rper batch HB); eassumption|].
  split.
  { intros rs0 s0 t w k q S1. induction S1 as [t w|t w q k r0 E1 S1 IH].
    - split; [rewrite map_map; reflexivity|]. intros _ O. apply ok_norm. exact O.
    - destruct IH as [IH1 IH2]. split; [exact IH1|]. intros G O. apply IH2.
      + destruct G as [c G]. exists (c + 1). lia.
      + apply (rel_ok dt evo H1 H2 H3 H4 H5 ex H7 s0 rs0 rper batch HB); [|eapply H1; eassumption].
        destruct G as [c G]. exists (c + 1). lia. }
  split; [intros rs0 s0 t w w' k q S1 M; eapply (steps_norm dt evo H4); eassumption|].
  split; [intros rs0 s0 s1 t w k q S1; exact S1|].
  split.
  - intros next a start rs dflt endt lf rf fuel w w' tr m MV RI CI WS EE R.
    rewrite (run_is_loop _ _ _ _ _ _ _ _ _ _ MV RI) in R.
    destruct (sloop _ _ _ _ _ _ _ _ _ _ _ _ _) as [[[t w1] tr1] st] eqn:SL. inversion R; subst w1 st. clear R.
    destruct (rper_ok _ _ RI) as [PR RP].
    assert (G0 : grid dt start start) by (unfold grid; rewrite Z.sub_diag; apply Z.divide_0_r).
    assert (NG : forall t x, next t = Some x -> 0 < Z.sgn dt * (x - t) /\ (dt | x - t)) by apply RI.
    eapply (loop_steps dt D evo H1 H2 H3 H4 H5 ex H6 H7 H8 start (clock rs start) rper batch RP HB (periods a) PR
       (fun k => periods_in_step a next k RI) next NG); try eassumption.
    + apply first_ninv with (next := next); assumption.
    + intros x NX. destruct (NG _ _ NX). split; assumption.
    + apply set_dt_ok. exact WS.
  - intros next a start rs dflt endt v q m MV RI CI WS EE ST.
    destruct (rper_ok _ _ RI) as [PR RP].
    assert (G0 : grid dt start start) by (unfold grid; rewrite Z.sub_diag; apply Z.divide_0_r).
    assert (NG : forall t x, next t = Some x -> 0 < Z.sgn dt * (x - t) /\ (dt | x - t)) by apply RI.
    destruct (steps_loop dt D evo H1 H2 H3 H4 H5 ex H6 H7 H8 start (clock rs start) rper batch RP HB (periods a) PR
       (fun k => periods_in_step a next k RI) next NG m (a_out a) (a_cbs a) endt start
       (first_next a dt start (clock rs start)) (next start) (set_all_dt v dt) q G0) as (L & N & F).
    + apply first_ninv with (next := next); assumption.
    + intros x NX. destruct (NG _ _ NX). split; assumption.
    + apply set_dt_ok. exact WS.
    + exact EE.
    + exact ST.
    + exists L, N. intros fuel lf rf w FU LL NN M.
      destruct (F fuel lf rf (set_all_dt w dt) FU LL NN) as (w' & tr & R & MM).
      { clear - M. revert v M. induction w as [|p w IH]; intros [|p' v] M; try discriminate; [reflexivity|].
        cbn in M. inversion M. cbn. f_equal; [|apply IH; assumption]. unfold norm, set_st. cbn. congruence. }
      rewrite (run_is_loop _ _ _ _ _ _ _ _ _ _ MV RI), R. eexists _, _. split; [reflexivity|exact MM].
Qed.

Lemma run_same : forall next1 next2 a1 a2 start rs dflt1 dflt2 endt ps,
  run_in_step dt r a1 next1 -> run_in_step dt r a2 next2 ->
  moves eps a1 start dflt1 endt -> moves eps a2 start dflt2 endt ->
  whole_steps dt start endt -> clock_in_step dt rs start ->
  Forall (fun p => whole_steps dt (q_time p) start) ps ->
  forall lf rf fuel ps1 tr1, run lf rf fuel next1 a1 start rs dflt1 ps = (ps1, tr1, SDone) ->
  exists F L N, forall fuel lf rf, (F <= fuel)%nat -> (L <= lf)%nat -> (N <= rf)%nat ->
  exists ps2 tr2, run lf rf fuel next2 a2 start rs dflt2 ps = (ps2, tr2, SDone) /\ same_particles ps1 ps2.
Proof.
  intros next1 next2 a1 a2 start rs dflt1 dflt2 endt ps R1 R2 M1 M2 WS CI PS lf rf fuel ps1 tr1 R.
  destruct evo_pack as (stp & Q1 & Q2 & Q3 & Q4 & Q5 & Q6 & Q7).
  destruct (moves_facts eps _ _ _ _ M1) as (_ & _ & LE). destruct R1 as [AD R1'] eqn:RE. rewrite AD in LE.
  destruct (count_steps _ _ WS LE) as [m EE].
  pose proof (Q6 _ _ _ _ _ _ _ _ _ _ _ _ _ M1 (conj AD R1') CI PS EE R) as ST.
  destruct (Q7 _ _ _ _ _ _ _ _ _ M2 R2 CI PS EE ST) as (L & N & F).
  exists m, L, N. intros fuel' lf' rf' FU LL NN. destruct (F fuel' lf' rf' ps FU LL NN eq_refl) as (w' & tr & RR & M).
  exists w', tr. split; [exact RR|]. apply seen_norm. symmetry. exact M.
Qed.

Lemma set_dt_same : forall ps, Forall (fun p : pcl => q_dt p = dt) ps -> set_all_dt ps dt = ps.
Proof.
  intros ps F. induction F as [|p ps Q F IH]; [reflexivity|]. cbn. fold (set_all_dt ps dt). rewrite IH. f_equal.
  destruct p; cbn in *; subst; reflexivity.
Qed.

Lemma clock_after : forall rs start mid, clock (rs_after rs start) mid = clock rs start.
Proof. intros [x|] start mid; reflexivity. Qed.

Lemma clock_in_step_after : forall rs start mid, clock_in_step dt rs start -> whole_steps dt start mid ->
  0 <= Z.sgn dt * (mid - start) -> clock_in_step dt (rs_after rs start) mid.
Proof.
  intros rs start mid CI [k W] L. destruct rs as [x|]; cbn in *.
  - destruct CI as [[c C1] C2]. unfold onward in *. split; [exists (k + c); lia|lia].
  - split; [exists k; lia|exact L].
Qed.

Lemma two_runs_one : forall next next1 next2 a a1 a2 start mid endt rs dflt dflt1 dflt2 ps,
  run_in_step dt r a next -> run_in_step dt r a1 next1 -> run_in_step dt r a2 next2 ->
  moves eps a start dflt endt -> moves eps a1 start dflt1 mid -> moves eps a2 mid dflt2 endt ->
  whole_steps dt start mid -> whole_steps dt mid endt -> clock_in_step dt rs start ->
  Forall (fun p => whole_steps dt (q_time p) start) ps ->
  (forall lf1 rf1 fuel1 ps1 tr1 lf2 rf2 fuel2 ps2 tr2,
     run lf1 rf1 fuel1 next1 a1 start rs dflt1 ps = (ps1, tr1, SDone) ->
     run lf2 rf2 fuel2 next2 a2 mid (rs_after rs start) dflt2 ps1 = (ps2, tr2, SDone) ->
     exists F L N, forall fuel lf rf, (F <= fuel)%nat -> (L <= lf)%nat -> (N <= rf)%nat ->
     exists ps' tr, run lf rf fuel next a start rs dflt ps = (ps', tr, SDone) /\ same_particles ps2 ps') /\
  (forall lf0 rf0 fuel0 ps' tr,
     run lf0 rf0 fuel0 next a start rs dflt ps = (ps', tr, SDone) ->
     exists F L N, forall fuel lf rf, (F <= fuel)%nat -> (L <= lf)%nat -> (N <= rf)%nat ->
     exists ps1 tr1 ps2 tr2, run lf rf fuel next1 a1 start rs dflt1 ps = (ps1, tr1, SDone) /\
       run lf rf fuel next2 a2 mid (rs_after rs start) dflt2 ps1 = (ps2, tr2, SDone) /\
       same_particles ps' ps2).
Proof.
  intros next next1 next2 a a1 a2 start mid endt rs dflt dflt1 dflt2 ps R0 R1 R2 M0 M1 M2 W1 W2 CI PS.
  destruct evo_pack as (stp & Q1 & Q2 & Q3 & Q4 & Q5 & Q6 & Q7).
  assert (LE1 : 0 <= Z.sgn dt * (mid - start)).
  { destruct (moves_facts eps _ _ _ _ M1) as (_ & _ & LE). destruct R1 as [AD _]. rewrite AD in LE. exact LE. }
  assert (LE2 : 0 <= Z.sgn dt * (endt - mid)).
  { destruct (moves_facts eps _ _ _ _ M2) as (_ & _ & LE). destruct R2 as [AD _]. rewrite AD in LE. exact LE. }
  destruct (count_steps _ _ W1 LE1) as [m1 EE1]. destruct (count_steps _ _ W2 LE2) as [m2 EE2].
  assert (EE : endt = start + Z.of_nat (m1 + m2) * dt) by (rewrite EE2, EE1; lia).
  pose proof (clock_in_step_after _ _ _ CI W1 LE1) as CI2.
  assert (G0 : grid dt start start) by (unfold grid; rewrite Z.sub_diag; apply Z.divide_0_r).
  assert (MIDOK : forall ps1, stp (clock rs start) start start (set_all_dt ps dt) m1 (map norm ps1) ->
     Forall (fun p => whole_steps dt (q_time p) mid) ps1 /\ set_all_dt ps1 dt = ps1).
  { intros ps1 ST. destruct (Q3 _ _ _ _ _ _ ST) as [_ OK]. specialize (OK G0 (set_dt_ok _ _ PS)).
    apply (proj1 (ok_norm dt start ps1)) in OK. split.
    - eapply Forall_impl; [|exact OK]. intros p [_ [c C]]. destruct W1 as [k W1]. exists (k + c). lia.
    - apply set_dt_same. eapply Forall_impl; [|exact OK]. intros p [Q _]. exact Q. }
  split.
  - intros lf1 rf1 fuel1 ps1 tr1 lf2 rf2 fuel2 ps2 tr2 RA RB.
    pose proof (Q6 _ _ _ _ _ _ _ _ _ _ _ _ _ M1 R1 CI PS EE1 RA) as S1.
    destruct (MIDOK _ S1) as [PS1 SD].
    pose proof (Q6 _ _ _ _ _ _ _ _ _ _ _ _ _ M2 R2 CI2 PS1 EE2 RB) as S2.
    rewrite clock_after, SD in S2. apply Q5 with (s1 := start) in S2.
    assert (S12 : stp (clock rs start) start start (set_all_dt ps dt) (m1 + m2)%nat (map norm ps2)).
    { eapply Q1; [exact S1|]. rewrite <- EE1. eapply Q4; [exact S2|]. rewrite map_map. reflexivity. }
    destruct (Q7 _ _ _ _ _ _ _ _ _ M0 R0 CI PS EE S12) as (L & N & F).
    exists (m1 + m2)%nat, L, N. intros fuel lf rf FU LL NN.
    destruct (F fuel lf rf ps FU LL NN eq_refl) as (w' & tr & RR & M).
    exists w', tr. split; [exact RR|]. apply seen_norm. symmetry. exact M.
  - intros lf0 rf0 fuel0 ps' tr R.
    pose proof (Q6 _ _ _ _ _ _ _ _ _ _ _ _ _ M0 R0 CI PS EE R) as ST.
    destruct (Q2 _ _ _ _ _ _ _ ST) as (q & S1 & S2). rewrite <- EE1 in S2.
    destruct (Q7 _ _ _ _ _ _ _ _ _ M1 R1 CI PS EE1 S1) as (L1 & N1 & F1).
    destruct (Q3 _ _ _ _ _ _ S1) as [NQ _].
    destruct (MIDOK q) as [PS1 SD]; [rewrite NQ; exact S1|].
    apply Q5 with (s1 := mid) in S2. rewrite <- SD in S2. rewrite <- (clock_after rs start mid) in S2.
    destruct (Q7 _ _ _ _ _ _ _ _ _ M2 R2 CI2 PS1 EE2 S2) as (L2 & N2 & F2).
    exists (Nat.max m1 m2), (Nat.max L1 L2), (Nat.max N1 N2). intros fuel lf rf FU LL NN.
    destruct (F1 fuel lf rf ps ltac:(lia) ltac:(lia) ltac:(lia) eq_refl) as (ps1 & tr1 & RA & MA).
    destruct (F2 fuel lf rf ps1 ltac:(lia) ltac:(lia) ltac:(lia)) as (ps2 & tr2 & RB & MB).
    { rewrite MA, NQ. reflexivity. }
    exists ps1, tr1, ps2, tr2. split; [exact RA|]. split; [exact RB|]. apply seen_norm. symmetry. exact MB.
Qed.

End Run.
