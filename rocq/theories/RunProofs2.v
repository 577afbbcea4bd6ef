(** Runs of kernels that do not fail arrive. *)
From Coq Require Import List ZArith Bool Lia ZifyBool.
From Verif Require Import CollModel KLoopModel KLoopSpec KLoopProofs KLoopStepProofs KLoopEqProofs KLoopSetProofs SchedModel SchedSpec SchedProofs SplitSpec SplitProofs3
  RunSpec RunProofs.
Import ListNotations.
Open Scope Z_scope.

Section Arrive.
Context {E X H : Type}.
Notation pcl := (pcl X).
Notation ev := (ev H).
Variable K : E -> pcl -> E * kres X.
Variable interp : handlers E X H.
Variables (dt atol : Z).
Hypothesis PK : plain_kernel K.
Hypothesis HK : handlers_keep_dt interp.
Hypothesis A0 : 0 <= atol.
Hypothesis AD : atol < Z.abs dt.

Definition any : Z -> Z -> X -> Prop := fun _ _ _ => True.
Notation fit := (good dt atol any).

Lemma plain_steady : steady_kernel K.
Proof. intros e p. destruct (PK e p) as (_ & T & D & _ & N). auto. Qed.
Lemma any_kept : forall t, step_keeps K dt t any.
Proof. intros t e p _ _ _ _. exact I. Qed.

(** What one window does to a particle. *)
Definition moved_on (t : Z) (p p' : pcl) : Prop :=
  q_id p' = q_id p /\ fit p' /\ arrived atol dt t p' /\
  (q_time p' = q_time p \/ 0 < Z.sgn dt * (q_time p' - q_time p) /\ 0 <= Z.sgn dt * (t - q_time p')).

Lemma tiles_forward : forall l a b, Forall (fun c : Z * Z => 0 < Z.sgn dt * snd c) l -> l <> [] -> tiles a l b -> 0 < Z.sgn dt * (b - a).
Proof.
  induction l as [|[t h] l IH]; intros a b F NE T; [congruence|]. inversion F; subst. cbn [tiles] in T. destruct T as [_ T].
  cbn [snd] in *. destruct l as [|c l]; [cbn [tiles] in T; subst b; replace (a + h - a) with h by lia; assumption|].
  specialize (IH _ _ H3 ltac:(discriminate) T). replace (b - a) with (b - (a + h) + h) by lia. nia.
Qed.

Lemma particle_moves : forall lf t e p, fit p -> (Z.to_nat (Z.abs (t - q_time p)) < lf)%nat -> q_st p = st_Evaluate ->
  exists e' p' tr, py_particle (H:=H) K lf atol dt t e p = Some (e', p', tr) /\ moved_on t p p' /\
    (q_st p' = st_Success \/ q_st p' = st_Evaluate).
Proof.
  intros lf t e p G LF ST.
  assert (S1 : Z.sgn dt = 1 /\ 0 < dt \/ Z.sgn dt = -1 /\ dt < 0) by lia.
  destruct (Z_lt_le_dec atol (Z.sgn dt * (t - q_time p))) as [B|B].
  - assert (BE : before_end atol dt t p) by (unfold before_end; destruct S1 as [[Q ?]|[Q ?]]; rewrite Q in B; [left|right]; lia).
    destruct G as [_ G].
    destruct (py_particle_plain (H:=H) K lf atol dt t e p PK A0 AD ST BE ltac:(lia) LF) as (e' & p' & front & tl & hl & R & TI & FR & HL & AR & ID & SS).
    exists e', p', (map (success_call (q_id p)) (front ++ [(tl, hl)])). split; [exact R|]. split; [|left; exact SS].
    split; [exact ID|]. split.
    { refine (py_particle_keeps K dt atol t any plain_steady (any_kept t) A0 AD lf t e p e' p' _ _ ltac:(lia) R). split; [exact I|exact G]. }
    split; [unfold arrived; lia|]. right. split; [|lia]. eapply tiles_forward; [| |exact TI].
    + apply Forall_app. split; [|constructor; [cbn [snd]; lia|constructor]]. eapply Forall_impl; [|exact FR].
      intros [tc h] ->. destruct S1 as [[-> _]|[-> _]]; lia.
    + destruct front; discriminate.
  - unfold py_particle.
    replace ((negb (Z.sgn (t - q_time p) =? Z.sgn dt) || close0 atol (Z.min (Z.abs (q_dt p)) (Z.abs (t - q_time p)))) && negb (close0 atol dt)) with true.
    2:{ symmetry. apply andb_true_intro. split; [|unfold close0; lia]. apply orb_true_iff. unfold close0.
        destruct S1 as [[Q ?]|[Q ?]]; rewrite Q in *; lia. }
    eexists _, _, _. split; [reflexivity|]. split; [|destruct (_ <=? _); cbn [set_st q_st]; [left; reflexivity|right; exact ST]].
    destruct (_ <=? _); (split; [reflexivity|]; split; [exact G|]; split; [exact B|left; reflexivity]).
Qed.

Lemma pass_moves : forall lf t ps e, Forall fit ps -> Forall (fun p => (Z.to_nat (Z.abs (t - q_time p)) < lf)%nat) ps ->
  Forall (fun p => q_st p = st_Evaluate) ps ->
  exists e' ps' tr, pass (H:=H) (py_particle K lf atol dt t) e ps = Some (e', ps', tr) /\ Forall2 (moved_on t) ps ps' /\
    Forall (fun p => q_st p = st_Success \/ q_st p = st_Evaluate) ps'.
Proof.
  intros lf t. induction ps as [|p ps IH]; intros e F L S; cbn [pass].
  - exists e, [], []. repeat split; constructor.
  - inversion F; subst. inversion L; subst. inversion S; subst.
    destruct (particle_moves lf t e p) as (e1 & p1 & tr1 & R1 & M1 & S1); [assumption..|].
    destruct (IH e1) as (e2 & ps2 & tr2 & R2 & M2 & S2); [assumption..|].
    rewrite R1, R2. exists e2, (p1 :: ps2), (tr1 ++ tr2). split; [reflexivity|]. split; constructor; assumption.
Qed.

Lemma no_error : forall ps : list pcl, Forall (fun p => q_st p = st_Success \/ q_st p = st_Evaluate) ps ->
  existsb in_error ps = false /\ filter (fun p => negb (is_deleted p)) ps = ps.
Proof.
  induction ps as [|p ps IH]; intros F; [split; reflexivity|]. inversion F; subst. destruct (IH H3) as [A B].
  cbn [existsb filter]. unfold in_error at 1, is_deleted at 1. destruct H2 as [-> | ->];
    change ((st_Success =? st_Success) || (st_Success =? st_Evaluate)) with true;
    change ((st_Evaluate =? st_Success) || (st_Evaluate =? st_Evaluate)) with true;
    change (st_Success =? op_Delete) with false; change (st_Evaluate =? op_Delete) with false;
    cbn [negb orb]; rewrite A, B; split; reflexivity.
Qed.

Lemma exec_moves : forall jit lf rf user out e t ps, Forall fit ps ->
  Forall (fun p => (Z.to_nat (Z.abs (t - q_time p)) < lf)%nat) ps ->
  exists ps', mode_exec jit K interp lf rf atol user out e ps t dt = Some ps' /\ Forall2 (moved_on t) ps ps'.
Proof.
  intros jit lf rf user out e t ps F L.
  assert (PY : exists e' ps' tr, py_execute K interp lf rf atol dt t user out e ps = (e', ps', tr, XDone) /\ Forall2 (moved_on t) ps ps').
  { unfold py_execute, execute, py_pass. set (ps0 := map (fun p => set_st p st_Evaluate) ps).
    destruct (pass_moves lf t ps0 e) as (e1 & ps1 & tr1 & R & M & S).
    - unfold ps0. apply Forall_map. exact F.
    - unfold ps0. apply Forall_map. exact L.
    - unfold ps0. apply Forall_map. apply Forall_forall. reflexivity.
    - rewrite R. destruct (no_error _ S) as [NE ND]. unfold remove_deleted. rewrite ND, rounds_none by exact NE.
      eexists _, _, _. split; [reflexivity|]. clear - M. unfold ps0 in M. clear ps0. revert ps1 M.
      induction ps as [|p ps IH]; intros ps1 M; inversion M; subst; constructor; [assumption|apply IH; assumption]. }
  destruct PY as (e' & ps' & tr & R & M). exists ps'. split; [|exact M]. destruct jit; unfold mode_exec, jit_exec, scipy_exec.
  - rewrite (execute_modes K interp); [|apply plain_neutral; exact PK|exact HK|exact A0|exact AD|].
    + rewrite R. reflexivity.
    + eapply Forall_impl; [|exact F]. intros p [_ G]. cbn. lia.
  - rewrite R. reflexivity.
Qed.

(** ** The loop *)
Variable batch : Z -> list pcl.
Hypothesis BT : batch_in_step batch.
Variables (start endt : Z).
Hypothesis LE : 0 <= Z.sgn dt * (endt - start).

(** There is fuel for the particle, whatever the windows. *)
Definition fuelled (lf : nat) (p : pcl) : Prop := (Z.to_nat (Z.abs (endt - q_time p) + Z.abs (endt - start)) < lf)%nat.
Notation ids := (map (@q_id X)).

Definition in_range (t : Z) : Prop := 0 <= Z.sgn dt * (t - start) /\ 0 <= Z.sgn dt * (endt - t).

Lemma range_abs : forall t, in_range t -> Z.abs (endt - t) <= Z.abs (endt - start).
Proof. intros t [A B]. assert (S1 : Z.sgn dt = 1 \/ Z.sgn dt = -1) by lia. destruct S1 as [Q|Q]; rewrite Q in *; lia. Qed.

Lemma fuelled_here : forall lf t p, in_range t -> fuelled lf p -> (Z.to_nat (Z.abs (t - q_time p)) < lf)%nat.
Proof. intros lf t p R F. unfold fuelled in F. pose proof (range_abs t R). lia. Qed.

Lemma moved_fuelled : forall lf t p p', in_range t -> moved_on t p p' -> fuelled lf p -> fuelled lf p'.
Proof.
  intros lf t p p' [R1 R2] (_ & _ & _ & [T | [M1 M2]]) F; unfold fuelled in *; [rewrite T; exact F|].
  assert (S1 : Z.sgn dt = 1 \/ Z.sgn dt = -1) by lia. destruct S1 as [Q|Q]; rewrite Q in *; lia.
Qed.

Lemma batch_ready : forall lf t, (Z.to_nat (2 * Z.abs (endt - start)) < lf)%nat -> in_range t ->
  Forall (fun p => fit p /\ fuelled lf p /\ arrived atol dt t p) (set_all_dt (batch t) dt) /\ ids (set_all_dt (batch t) dt) = ids (batch t).
Proof.
  intros lf t L R. unfold set_all_dt. split; [|rewrite map_map; reflexivity]. apply Forall_map. eapply Forall_impl; [|exact (BT t)].
  intros p T. cbv beta in T. split; [split; [exact I|cbn [q_dt]; lia]|]. unfold fuelled, arrived. cbn [q_time]. rewrite T.
  pose proof (range_abs t R). split; lia.
Qed.

Lemma Forall2_ids : forall t ps ps', Forall2 (moved_on t) ps ps' -> ids ps' = ids ps.
Proof. induction 1; [reflexivity|]. cbn [map]. destruct H0 as [-> _]. f_equal. assumption. Qed.

(** Ids of the particles released at these times. *)
Definition released (ts : list Z) : list Z := flat_map (fun t => ids (batch t)) ts.

Lemma serve_moves : forall lf per out cbs t ks nx ps nx' ps' tr, (Z.to_nat (2 * Z.abs (endt - start)) < lf)%nat -> in_range t ->
  Forall (fun p => fit p /\ fuelled lf p /\ arrived atol dt t p) ps ->
  serve (only_release batch) dt per out cbs t ks nx ps = (nx', ps', tr) ->
  Forall (fun p => fit p /\ fuelled lf p /\ arrived atol dt t p) ps' /\ ids ps' = ids ps ++ released (release_times tr).
Proof.
  intros lf per out cbs t ks nx ps nx' ps' tr L R. revert nx ps nx' ps' tr.
  induction ks as [|k ks IH]; intros nx ps nx' ps' tr F S; cbn [serve] in S.
  { inversion S; subst. cbn. rewrite app_nil_r. split; [exact F|reflexivity]. }
  destruct (nx k) as [n|]; [|eapply IH; eassumption]. destruct (per k) as [q|]; [|eapply IH; eassumption].
  destruct (t =? n) eqn:TN; [|eapply IH; eassumption].
  set (ps1 := match event_of out cbs k t with [] => ps | _ :: _ => only_release batch k ps t dt end) in *.
  destruct (serve (only_release batch) dt per out cbs t ks (upd nx k (Some (n + q * Z.sgn dt))) ps1) as [[nx2 w2] tr2] eqn:Q.
  assert (P1 : Forall (fun p => fit p /\ fuelled lf p /\ arrived atol dt t p) ps1 /\
               ids ps1 = ids ps ++ released (release_times (event_of out cbs k t))).
  { unfold ps1. destruct k; cbn [event_of].
    - cbn [only_release release_times flat_map]. destruct (batch_ready lf t L R) as [B1 B2].
      split; [apply Forall_app; auto|]. rewrite map_app, B2. cbn. rewrite !app_nil_r. reflexivity.
    - destruct out; cbn; rewrite app_nil_r; auto.
    - cbn. rewrite app_nil_r. auto.
    - destruct cbs; cbn; rewrite app_nil_r; auto. }
  destruct P1 as [P1 P2]. inversion S; subst. destruct (IH _ _ _ _ _ P1 Q) as [P3 P4]. split; [exact P3|].
  rewrite P4, P2. unfold release_times, released. rewrite !flat_map_app, app_assoc. reflexivity.
Qed.

Lemma sloop_moves : forall jit lf rf user out e next per cbs out2,
  (Z.to_nat (2 * Z.abs (endt - start)) < lf)%nat ->
  forall fuel time nx nin ps t' ps' tr r,
  reads_ahead dt next -> inv dt time per nx nin -> in_range time ->
  Forall (fun p => fit p /\ fuelled lf p) ps ->
  (time <> endt \/ Forall (arrived atol dt time) ps) ->
  sloop (mode_exec jit K interp lf rf atol user out e) (only_release batch) (announces next) fuel dt endt per out2 cbs time nx nin ps = (t', ps', tr, r) ->
  r <> SRaised /\
  (r = SDone -> Forall (arrived atol dt t') ps' /\ ids ps' = ids ps ++ released (release_times tr)).
Proof.
  intros jit lf rf user out e next per cbs out2 L. induction fuel; intros time nx nin ps t' ps' tr r RA IV R F ST S; cbn [sloop] in S.
  - destruct (((time <? endt) && (0 <? dt)) || ((endt <? time) && (dt <? 0)) || (dt =? 0)) eqn:C; inversion S; subst.
    + split; discriminate.
    + split; [discriminate|]. intros _. cbn. rewrite app_nil_r. split; [|reflexivity]. destruct ST as [NE|A]; [|exact A].
      exfalso. destruct R as [_ R]. lia.
  - destruct (((time <? endt) && (0 <? dt)) || ((endt <? time) && (dt <? 0)) || (dt =? 0)) eqn:C.
    2:{ inversion S; subst. split; [discriminate|]. intros _. cbn. rewrite app_nil_r. split; [|reflexivity].
        destruct ST as [NE|A]; [|exact A]. exfalso. destruct R as [_ R]. lia. }
    assert (D : dt <> 0) by lia.
    assert (LT : 0 < Z.sgn dt * (endt - time)) by lia.
    pose proof (window_end_after _ _ _ _ _ _ D IV LT) as WA.
    pose proof (window_end_le_end dt endt nx nin D) as WE.
    pose proof (fun k n => window_end_le_next dt endt nx nin k n D) as WN.
    set (t1 := window_end dt endt nx nin) in *.
    assert (R1 : in_range t1) by (destruct R as [R1 R2]; split; [assert (S1 : Z.sgn dt = 1 \/ Z.sgn dt = -1) by lia; destruct S1 as [Q|Q]; rewrite Q in *; lia|exact WE]).
    destruct (exec_moves jit lf rf user out e t1 ps) as (ps1 & X1 & M1).
    { eapply Forall_impl; [|exact F]. intros p G. apply G. }
    { eapply Forall_impl; [|exact F]. intros p [_ G]. apply fuelled_here; assumption. }
    rewrite X1 in S.
    assert (F1 : Forall (fun p => fit p /\ fuelled lf p /\ arrived atol dt t1 p) ps1).
    { clear - M1 F R1 A0 AD LE. induction M1 as [|p p1 l l1 MO M1 IH]; constructor.
      - apply Forall_inv in F. pose proof MO as (_ & G & A & _). split; [exact G|]. split; [|exact A]. eapply moved_fuelled; [exact R1|exact MO|apply F].
      - apply IH. apply Forall_inv_tail in F. exact F. }
    destruct (serve (only_release batch) dt per out2 cbs t1 kinds nx ps1) as [[nx2 ps2] tr2] eqn:SV.
    destruct (serve_moves _ _ _ _ _ _ _ _ _ _ _ L R1 F1 SV) as [F2 I2].
    rewrite (Forall2_ids _ _ _ M1) in I2.
    destruct (serve_kinds _ _ _ _ _ _ _ _ _ _ _ SV) as [EX SKD].
    assert (S1 : Z.sgn dt = 1 \/ Z.sgn dt = -1) by lia.
    assert (INV2 : forall nin', ahead dt t1 nin' -> inv dt t1 per nx2 nin').
    { intros nin' AN. destruct IV as (A & P & N & _). split; [|split; [exact P|split; [|exact AN]]].
      - intros k. destruct (SKD k) as [_ ->]. unfold due.
        specialize (A k). specialize (P k). specialize (N k). specialize (WN k).
        destruct (nx k) as [n|] eqn:NX; [|exact I].
        destruct (per k) as [p|] eqn:PE; [|exfalso; destruct N; intuition congruence].
        specialize (WN n eq_refl). cbn [ahead positive] in *.
        destruct (t1 =? n) eqn:TQ; cbn [ahead]; destruct S1 as [S1|S1]; rewrite S1 in *; lia.
      - intros k. destruct (SKD k) as [_ ->]. unfold due. specialize (N k).
        destruct (nx k) as [n|], (per k) as [p|]; try (destruct (t1 =? n)); split; intros; try congruence;
          destruct N as [N1 N2]; try (specialize (N1 eq_refl); congruence); try (specialize (N2 eq_refl); congruence). }
    replace (dt =? 0) with false in S by lia. change (announces next ps2 t1 dt) with (Some (ps2, next t1)) in S. cbv iota in S.
    assert (F3 : Forall (fun p => fit p /\ fuelled lf p) ps2) by (eapply Forall_impl; [|exact F2]; intros p (? & ? & _); split; assumption).
    assert (A3 : Forall (arrived atol dt t1) ps2) by (eapply Forall_impl; [|exact F2]; intros p (_ & _ & ?); assumption).
    assert (AN0 : t1 = endt -> forall nin', sloop (mode_exec jit K interp lf rf atol user out e) (only_release batch) (announces next) fuel dt endt per out2 cbs t1 nx2 nin' ps2
              = (t1, ps2, [], SDone)).
    { intros -> nin'. destruct fuel; cbn [sloop]; replace (((endt <? endt) && (0 <? dt)) || ((endt <? endt) && (dt <? 0)) || (dt =? 0)) with false by lia; reflexivity. }
    destruct (t1 =? endt) eqn:TE.
    + rewrite (AN0 ltac:(lia)) in S. inversion S; subst. split; [discriminate|]. intros _. split; [exact A3|].
      rewrite I2. f_equal. unfold release_times, released. cbn [flat_map]. rewrite app_nil_r. reflexivity.
    + destruct (sloop (mode_exec jit K interp lf rf atol user out e) (only_release batch) (announces next) fuel dt endt per out2 cbs t1 nx2 (next t1) ps2)
        as [[[t4 w4] tr4] r4] eqn:Q. inversion S; subst.
      assert (AN : ahead dt t1 (next t1)) by (destruct (next t1) as [n|] eqn:NT; [cbn; apply RA; exact NT|exact I]).
      destruct (IHfuel _ _ _ _ _ _ _ _ RA (INV2 _ AN) R1 F3 (or_intror A3) Q) as [B1 B2]. split; [exact B1|].
      intros RD. destruct (B2 RD) as [C1 C2]. split; [exact C1|]. rewrite C2, I2. unfold release_times, released.
      cbn [flat_map app]. rewrite !flat_map_app. cbn [flat_map app]. rewrite <- ?app_assoc. reflexivity.
Qed.
End Arrive.

Lemma run_arrives_all : forall (E X H : Type) (K : E -> pcl X -> E * kres X) (interp : handlers E X H) (user : Z -> option H)
    atol jit out e batch next eps a start rs dflt endt ps lf rf fuel,
  plain_kernel K -> handlers_keep_dt interp -> 0 <= atol -> atol < Z.abs (a_dt a) ->
  moves eps a start dflt endt -> positive_periods a -> reads_ahead (a_dt a) next -> batch_in_step batch ->
  Forall (fun p => (Z.to_nat (Z.abs (endt - q_time p) + Z.abs (endt - start)) < lf)%nat) ps ->
  (Z.to_nat (2 * Z.abs (endt - start)) < lf)%nat -> (Z.to_nat (Z.abs (endt - start)) < fuel)%nat ->
  exists ps' tr,
    run_set jit K interp lf rf fuel atol user out e batch next eps a start rs dflt ps = (ps', tr, SDone) /\
    Forall (arrived atol (a_dt a) endt) ps' /\
    map (@q_id X) ps' = map (@q_id X) ps ++ flat_map (fun t => map (@q_id X) (batch t)) (release_times tr).
Proof.
  intros E X H K interp user atol jit out e batch next eps a start rs dflt endt ps lf rf fuel PK HK A0 AD M PP RA BT FU L2 LF.
  destruct (run_set jit K interp lf rf fuel atol user out e batch next eps a start rs dflt ps) as [[ps' tr] r] eqn:R0.
  exists ps', tr. pose proof R0 as R.
  destruct (moves_facts _ _ _ _ _ M) as (RO & D & LE). pose proof (moves_end _ _ _ _ _ M) as RE.
  assert (IA : input_ahead (announces (X:=X) next) (a_dt a)).
  { intros w t d w' n SD Q. unfold announces in Q. inversion Q; subst. apply RA. assumption. }
  unfold run_set in R0. destruct (sexecute_spec _ _ _ _ _ _ _ _ _ _ _ _ _ _ _ RE RO D PP IA LE R0) as [NF _]. specialize (NF LF).
  unfold run_set, sexecute in R. rewrite RE in R. cbv zeta in R. rewrite RO in R. unfold announces in R at 1.
  set (rs0 := match rs with Some r => r | None => start end) in *.
  replace (match a_movie a with Some (Zpos _) => only_release batch KMovie (if a_out a then only_release batch KOutput (set_all_dt ps (a_dt a)) start (a_dt a) else set_all_dt ps (a_dt a)) start (a_dt a)
           | _ => if a_out a then only_release batch KOutput (set_all_dt ps (a_dt a)) start (a_dt a) else set_all_dt ps (a_dt a) end)
    with (set_all_dt ps (a_dt a)) in R by (destruct (a_movie a) as [[| |]|], (a_out a); reflexivity).
  destruct (sloop (mode_exec jit K interp lf rf atol user out e) (only_release batch) (announces next) fuel (a_dt a) endt (periods a) (a_out a) (a_cbs a) start
              (first_next a (a_dt a) start rs0) (next start) (set_all_dt ps (a_dt a))) as [[[t4 w4] tr4] r4] eqn:Q.
  assert (INV : inv (a_dt a) start (periods a) (first_next a (a_dt a) start rs0) (next start)).
  { split; [intros; apply (first_next_ahead (W := unit) (fun _ _ _ => None) (fun w _ => w) (fun _ w _ _ => w) (fun _ _ _ => None)); assumption|]. split; [apply (periods_pos (W := unit) (fun _ _ _ => None) (fun w _ => w) (fun _ _ _ => None)); exact PP|].
    split; [intros; apply (first_next_none)|]. destruct (next start) as [n|] eqn:N; [|exact I]. cbn. apply RA. exact N. }
  destruct (sloop_spec _ (fun w _ => w) _ _ _ _ _ _ _ _ _ _ _ _ _ _ _ _ D IA INV LE Q) as [F1 F2].
  assert (NE : start <> endt) by (destruct M as (_ & _ & _ & M); lia).
  assert (FIT : Forall (fun p => good (a_dt a) atol any p /\ fuelled start endt lf p) (set_all_dt ps (a_dt a))).
  { unfold set_all_dt. apply Forall_map. eapply Forall_impl; [|exact FU]. intros p G. split; [split; [exact I|cbn [q_dt]; lia]|exact G]. }
  destruct (sloop_moves K interp (a_dt a) atol PK HK A0 AD batch BT start endt LE jit lf rf user out e next (periods a) (a_cbs a) (a_out a) L2
              fuel start _ _ _ _ _ _ _ RA INV ltac:(split; lia) FIT (or_introl NE) Q) as [B1 B2].
  assert (R4 : r4 = SDone).
  { destruct r4; [reflexivity|congruence|]. exfalso. apply F1; [|reflexivity].
    replace (Z.sgn (a_dt a) * (endt - start)) with (Z.abs (endt - start)) by lia. exact LF. }
  subst r4. destruct (B2 eq_refl) as [C1 C2]. destruct (F2 eq_refl) as (-> & _ & _).
  assert (IDS : map (@q_id X) (set_all_dt ps (a_dt a)) = map (@q_id X) ps) by (unfold set_all_dt; rewrite map_map; reflexivity).
  rewrite IDS in C2.
  assert (RT : release_times (match a_movie a with Some (Zpos _) => [SShow start] | _ => [] end) = []) by (destruct (a_movie a) as [[| |]|]; reflexivity).
  assert (G : ps' = w4 /\ release_times tr = release_times tr4 /\ r = SDone).
  { destruct (a_out a); inversion R; subst; (split; [reflexivity|]); (split; [|reflexivity]); unfold release_times in *;
      rewrite ?flat_map_app; cbn [flat_map app]; rewrite ?flat_map_app, RT; cbn [flat_map app]; rewrite ?app_nil_r; reflexivity. }
  destruct G as (-> & G & ->). split; [reflexivity|]. split; [exact C1|]. rewrite G. exact C2.
Qed.
