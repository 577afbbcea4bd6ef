(** Proofs for C51: the file of a run. *)
From Coq Require Import String List ZArith Bool Lia ZifyBool Permutation Sorted.
From Verif Require Import CollModel KLoopModel KLoopSpec SchedModel SchedSpec SchedProofs SplitSpec SplitProofs3 OutModel OutSpec OutProofs RunSpec RunProofs
  TrajModel TrajSpec TrajProofs TrajProofs2 TrajProofs3.
Import ListNotations.
Open Scope Z_scope.

Definition final_of (ts : list Z) (l : option Z) : option Z := fold_left (fun _ t => Some t) ts l.

Lemma ordered_snoc : forall dt ts t e lt, ordered_after dt t ts -> final_of ts (Some t) = Some lt -> 0 < Z.sgn dt * (e - lt) -> ordered_after dt t (ts ++ [e]).
Proof.
  induction ts as [|x ts IH]; intros t e lt O F L; cbn [app ordered_after final_of fold_left] in *.
  - inversion F; subst. auto.
  - destruct O as [A B]. split; [exact A|]. eapply IH; eassumption.
Qed.

Lemma final_in : forall ts t lt, final_of ts (Some t) = Some lt -> lt = t \/ In lt ts.
Proof.
  induction ts as [|x ts IH]; intros t lt F; cbn [final_of fold_left] in F; [inversion F; auto|]. apply IH in F. cbn. destruct F; auto.
Qed.

Lemma last_reg_final : forall {X} (log : list (wcall X)) l, last_reg l log = final_of (map fst (regular log)) l.
Proof.
  induction log as [|[[t m] qs] log IH]; intros l; [reflexivity|]. unfold last_reg, final_of in *. cbn [fold_left regular flat_map]. rewrite IH.
  destruct m; reflexivity.
Qed.

Section File.
Context {E X H V : Type}.
Notation pcl := (pcl X).
Notation ids := (map (@q_id X)).
Variable val : string -> pcl -> V.
Notation logged log := (expected false None (map (as_write val) log)).

Lemma kept_first : forall dt t t2 (ps : list pcl), 0 < Z.sgn dt * (t2 - t) -> NoDup (ids ps) -> Forall (fun i => 0 <= i) (ids ps) ->
  kept val dt t2 (ids ps) [(t, DFalse, ps)].
Proof.
  intros dt t t2 ps L ND PO. unfold kept. cbn [gone_of flat_map map as_write expected orb andb to_record app].
  assert (SUB : forall i, In i (ids (filter (there t) ps)) -> In i (ids ps)).
  { intros i I. apply in_map_iff in I. destruct I as (p & <- & I). apply filter_In in I. apply in_map. apply I. }
  split; [rewrite app_nil_r; exact ND|]. split; [exact PO|]. split; [exists t; auto|]. split; [|split].
  - repeat constructor; cbn.
    + rewrite map_map. exact ND.
    + apply Forall_forall. intros w I. apply in_map_iff in I. destruct I as (p & <- & I). cbn. rewrite Forall_forall in PO. apply PO, in_map, I.
  - intros i. rewrite filter_as. change (fun p : pcl => active t (as_wp val p)) with (fun p : pcl => there t p). rewrite recorded_one. split.
    + apply nodup_const. rewrite filter_filter. etransitivity; [|apply (filter_id_one i ps ND)].
      clear. induction ps as [|p ps IH]; [cbn; lia|]. cbn [filter]. destruct (q_id p =? i), (there t p); cbn [andb length]; lia.
    + intros s I. apply in_filter_id in I. destruct I as [-> I]. split; [lia|]. split; [auto|]. rewrite app_nil_r. apply SUB, I.
  - intros i var. rewrite filter_as. change (fun p : pcl => active t (as_wp val p)) with (fun p : pcl => there t p). rewrite values_one, filter_filter.
    unfold history. cbn [regular flat_map filter map app]. rewrite !app_nil_r. reflexivity.
Qed.

Lemma gone_deleted : forall log : list (wcall X), Forall (fun p => q_st p = op_Delete) (gone_of log).
Proof.
  intros log. apply Forall_forall. intros p I. apply in_flat_map in I. destruct I as ([[t m] qs] & _ & I). destruct m; try contradiction.
  apply filter_In in I. destruct I as [_ I]. unfold is_deleted in I. lia.
Qed.

Lemma exact_rows : forall var log (hist : Z -> list V) rows, (forall i, values i var log = hist i) -> exact_matrix var log rows -> rows_of hist rows.
Proof.
  intros var log hist rows Q (js & width & S & I & R & L & M). exists js, width. split; [exact S|]. split; [|split; [|split]].
  - intros i. rewrite I, <- Q. pose proof (values_length var log i) as LN.
    destruct (recorded_at i log) as [|x l], (values i var log) as [|y l']; cbn in LN; try lia; split; congruence.
  - rewrite R. apply map_ext. intros i. rewrite Q. reflexivity.
  - intros i. rewrite <- Q. apply L.
  - destruct M as [M|(i & J & M)]; [left; exact M|right; exists i; split; [exact J|rewrite <- Q; exact M]].
Qed.

Variables (jit : bool) (K : E -> pcl -> E * kres X) (interp : handlers E X H) (lf rf fuel : nat) (atol : Z) (user : Z -> option H) (e : E).
Variables (batch : Z -> list pcl) (next : Z -> option Z) (eps : Z) (a : args) (start : Z) (rs : option Z) (dflt endt : Z).

(** What the file will hold is settled by the calls of write. *)
Lemma run_written_all : forall ps ps' log tr o,
  moves eps a start dflt endt -> positive_periods a -> reads_ahead (a_dt a) next ->
  a_out a = true -> a_output a = Some o -> eps <= o ->
  NoDup (ids ps ++ released batch tr) -> Forall (fun i => 0 <= i) (ids ps ++ released batch tr) ->
  run_written jit K interp lf rf fuel atol user e batch next eps a start rs dflt ps = (ps', log, tr, SDone) ->
  run_set jit K interp lf rf fuel atol user true e batch next eps a start rs dflt ps = (ps', tr, SDone) /\
  exists regs,
    output_times (a_dt a) start o endt (map fst regs) /\
    Forall (fun '(t, qs) => set_at jit K interp lf rf fuel atol user e batch next eps a start rs dflt ps t qs) regs /\
    incl regs (regular log) /\ incl (map fst (regular log)) (map fst regs) /\
    Forall (fun '(t, qs) => set_at jit K interp lf rf fuel atol user e batch next eps a start rs dflt ps t qs) (regular log) /\
    Permutation (ids ps' ++ ids (gone_of log)) (ids ps ++ released batch tr) /\
    Forall good_write (map (as_write val) log) /\
    (forall i, NoDup (recorded_at i (logged log))) /\
    (forall i var, values i var (logged log) = history (val var) regs (gone_of log) i).
Proof.
  intros ps ps' log tr o MV PP RA AO O EO ND PO R.
  assert (RS : run_set jit K interp lf rf fuel atol user true e batch next eps a start rs dflt ps = (ps', tr, SDone)).
  { unfold run_written in R. rewrite AO in R. destruct (sexecute _ _ _ _ _ _ _ _ _ _ _) as [[w tr0] r0] eqn:S. inversion R; subst.
    unfold run_set. refine (sexecute_map fst _ _ _ _ _ _ _ _ _ _ _ _ _ _ _ _ _ _ _ _ _ _ S).
    - intros w0 t d. unfold wexec. rewrite mode_same. destruct (mode_wexecute _ _ _ _ _ _ _ _ _ _ _ _) as [[q l] []]; reflexivity.
    - reflexivity.
    - intros k w0 t d. destruct k; reflexivity.
    - reflexivity. }
  split; [exact RS|].
  destruct (moves_facts _ _ _ _ _ MV) as (RO & D & LE). pose proof (moves_end _ _ _ _ _ MV) as RE.
  assert (IA : input_ahead (announces (X := X) next) (a_dt a)) by (intros w t d w' n _ Q; inversion Q; apply RA; assumption).
  destruct (writes_all _ _ _ _ _ _ _ _ _ _ _ _ _ _ _ MV PP IA AO O RS) as (mid & WT & AM).
  unfold run_written, sexecute in R. rewrite RE, AO in R. cbn zeta in R. rewrite RO in R.
  set (rs0 := match rs with Some r => r | None => start end) in *. set (dt := a_dt a) in *.
  set (ps0 := set_all_dt ps dt) in *.
  assert (W2 : match a_movie a with Some (Z.pos _) => wact batch KMovie (wact batch KOutput (wbegin (ps, []) dt) start dt) start dt
               | _ => wact batch KOutput (wbegin (ps, []) dt) start dt end = (ps0, [(start, DFalse, ps0)]))
    by (destruct (a_movie a) as [[| |]|]; reflexivity).
  rewrite W2 in R. clear W2.
  destruct (sloop (wexec jit K interp lf rf atol user true e) (wact batch) (fun w t _ => Some (w, next t)) fuel dt endt (periods a) true (a_cbs a) start
              (first_next a dt start rs0) (next start) (ps0, [(start, DFalse, ps0)])) as [[[t w4] tr4] r4] eqn:SL.
  assert (R4 : r4 = SDone) by (destruct r4; [reflexivity|inversion R..]). subst r4.
  set (tr2 := match a_movie a with Some (Z.pos _) => [SShow start] | _ => [] end) in *.
  assert (T2 : release_times tr2 = [] /\ write_times tr2 = []) by (unfold tr2; destruct (a_movie a) as [[| |]|]; auto). destruct T2 as [T2a T2b].
  cbn [app] in R. injection R as Rps Rlog Rtr.
  assert (REL : released batch tr = released batch tr4).
  { rewrite <- Rtr. change (released batch (SWrite start :: ?l)) with (released batch l). rewrite !released_app.
    unfold released at 1. rewrite T2a. cbn [flat_map app]. change (released batch (SInput start :: tr4)) with (released batch tr4).
    change (released batch [SWrite t]) with (@nil Z). apply app_nil_r. }
  assert (WT4 : start :: write_times tr4 ++ [t] = start :: mid ++ [endt]).
  { rewrite <- WT, <- Rtr. change (write_times (SWrite start :: ?l)) with (start :: write_times l). rewrite !write_times_app, T2b. reflexivity. }
  injection WT4 as WT4. apply app_inj_tail in WT4. destruct WT4 as [WT4 ->].
  assert (INV : inv dt start (periods a) (first_next a dt start rs0) (next start)).
  { split; [intros; apply (first_next_ahead (W := unit) (fun _ _ _ => None) (fun w _ => w) (fun _ w _ _ => w) (fun _ _ _ => None)); assumption|].
    split; [apply (periods_pos (W := unit) (fun _ _ _ => None) (fun w _ => w) (fun _ _ _ => None)); exact PP|].
    split; [intros; apply first_next_none|]. destruct (next start) as [n|] eqn:NX; [|exact I]. cbn. apply RA. exact NX. }
  assert (I0 : ids ps0 = ids ps) by apply ids_set_dt.
  rewrite REL in *. assert (ND0 : NoDup (ids ps0)) by (rewrite I0; apply (nodup_app_inv _ _ ND)).
  apply Forall_app in PO. destruct PO as [PO1 PO2]. rewrite <- I0 in PO1.
  destruct (loop_kept val jit K interp lf rf atol user e batch next dt D RA fuel endt (periods a) (a_cbs a) start (first_next a dt start rs0) (next start)
              ps0 [(start, DFalse, ps0)] endt w4 tr4 INV LE) as (AF & PM & RG).
  { split; [left; reflexivity|]. intros t2 L. apply kept_first; assumption. }
  { cbn [gone_of flat_map map app]. rewrite I0. exact ND. }
  { exact PO2. }
  { exact SL. }
  cbn [gone_of regular flat_map map app fst] in PM, RG. rewrite I0 in PM.
  pose proof (loop_prefix jit K interp lf rf atol user e batch next dt D RA fuel endt (periods a) (a_cbs a) start (first_next a dt start rs0) (next start)
              ps0 [(start, DFalse, ps0)] endt w4 tr4 INV LE SL) as PF.
  (* the run that is stopped at a time of output *)
  assert (EP : 0 < o) by (destruct PP as (_ & P2 & _); rewrite O in P2; exact P2).
  assert (STOP : forall s qs, 0 < Z.sgn dt * (s - start) -> eps <= Z.abs (s - start) ->
    (exists tr', sloop (mode_exec jit K interp lf rf atol user true e) (only_release batch) (announces next) fuel dt s (periods a) true (a_cbs a) start
       (first_next a dt start rs0) (next start) ps0 = (s, qs, tr', SDone)) ->
    set_at jit K interp lf rf fuel atol user e batch next eps a start rs dflt ps s qs).
  { intros s qs A B (tr' & Q). unfold set_at. replace (s =? start) with false by lia. unfold run_set, sexecute.
    assert (RE2 : resolve_end (until a s) start dflt = Some s).
    { unfold resolve_end in *. cbn [until a_runtime a_output a_movie a_endtime neg orb] in *.
      destruct (neg (a_output a)); [rewrite orb_true_r in RE; discriminate|]. destruct (neg (a_movie a)); [rewrite orb_true_r in RE; discriminate|]. reflexivity. }
    rewrite RE2. cbn zeta.
    assert (RO2 : resolve_once eps (until a s) start s = (dt, s)).
    { unfold resolve_once. cbn [until a_dt a_runtime]. fold dt. replace (Z.abs (s - start) <? eps) with false by lia. replace (dt =? 0) with false by lia. reflexivity. }
    rewrite RO2. change (a_out (until a s)) with (a_out a). change (a_movie (until a s)) with (a_movie a). rewrite AO. cbn [only_release].
    fold rs0. fold ps0. change (periods (until a s)) with (periods a). change (first_next (until a s)) with (first_next a). change (a_cbs (until a s)) with (a_cbs a).
    assert (W2 : match a_movie a with Some (Z.pos _) => ps0 | _ => ps0 end = ps0) by (destruct (a_movie a) as [[| |]|]; reflexivity).
    rewrite W2. unfold announces at 1. rewrite Q. eauto. }
  assert (MULT : forall s, In s mid -> eps <= Z.abs (s - start)).
  { intros s I. destruct AM as [_ AM]. apply AM in I. destruct I as ((k & K1 & ->) & _ & _). nia. }
  (* all but the write at the end *)
  assert (SETS : Forall (fun '(s, qs) => set_at jit K interp lf rf fuel atol user e batch next eps a start rs dflt ps s qs) (regular (snd w4))).
  { apply Forall_forall. intros [s qs] I. destruct (PF s qs I) as [J|(A & B & Q)].
    - destruct J as [J|[]]. inversion J; subst. unfold set_at. rewrite Z.eqb_refl. reflexivity.
    - apply STOP; try assumption. apply MULT. assert (J : In s (map fst (regular (snd w4)))) by (apply in_map_iff; exists (s, qs); auto).
      rewrite RG, WT4 in J. destruct J as [J|J]; [lia|exact J]. }
  assert (AMO : ordered_after dt start mid) by apply AM.
  assert (WT2 : map fst (regular (snd w4)) = start :: mid) by (rewrite RG, WT4; reflexivity).
  assert (FIN : exists lt, last_reg None (snd w4) = Some lt /\ final_of mid (Some start) = Some lt).
  { assert (AF2 := AF). destruct AF as [[Q|(_ & _ & (lt & Q & _) & _)] _]; eexists; (split; [exact Q|]);
      rewrite last_reg_final, WT2 in Q; exact Q. }
  destruct FIN as (lt & LR & FO).
  assert (L1 : log = snd w4 ++ [(endt, DFalse, fst w4)]) by (rewrite <- Rlog; reflexivity).
  assert (P1 : ps' = fst w4) by (rewrite <- Rps; reflexivity).
  assert (GN : gone_of log = gone_of (snd w4)) by (rewrite L1, gone_app; cbn [gone_of flat_map]; apply app_nil_r).
  destruct AF as [AF1 AF2].
  assert (LAST : set_at jit K interp lf rf fuel atol user e batch next eps a start rs dflt ps endt (fst w4)).
  { apply STOP; [destruct MV as (_ & _ & _ & MV); exact MV|apply MV|].
    assert (SM := sloop_map fst (wexec jit K interp lf rf atol user true e) (mode_exec jit K interp lf rf atol user true e) (wact batch) (only_release batch)
          (fun w t _ => Some (w, next t)) (announces next)). exists tr4. refine (SM _ _ _ _ _ _ _ _ _ _ _ _ _ _ _ _ _ SL).
    - intros w0 t d. unfold wexec. rewrite mode_same. destruct (mode_wexecute _ _ _ _ _ _ _ _ _ _ _ _) as [[q l] []]; reflexivity.
    - intros k w0 t d. destruct k; reflexivity.
    - reflexivity. }
  assert (REGS : Forall (fun '(t, qs) => set_at jit K interp lf rf fuel atol user e batch next eps a start rs dflt ps t qs) (regular log)).
  { rewrite L1, regular_app. apply Forall_app. split; [exact SETS|]. constructor; [exact LAST|constructor]. }
  destruct (Z.eq_dec lt endt) as [EQ|NE].
  - (* the end has been written before *)
    subst lt. exists (regular (snd w4)). split; [|split; [exact SETS|split; [rewrite L1, regular_app; apply incl_appl, incl_refl|split; [|split; [exact REGS|split; [|]]]]]].
    + exists mid. split; [exact WT2|]. split; [exact AMO|]. intros s. destruct AM as [_ AM]. rewrite AM. split.
      * intros (A & B & C). right. split; assumption.
      * intros [->|[(k & K1 & ->) C]].
        -- destruct (final_in _ _ _ FO) as [Q|Q]; [exfalso; destruct MV as (_ & _ & _ & MV); lia|]. apply AM in Q. exact Q.
        -- split; [exists k; auto|]. split; [nia|exact C].
    + rewrite L1, regular_app, map_app. apply incl_app; [apply incl_refl|]. intros s [<-|[]]. cbn [fst]. rewrite WT2.
      destruct (final_in _ _ _ FO) as [Q|Q]; [left; congruence|right; exact Q].
    + rewrite GN, P1. exact PM.
    + assert (LG : logged log = logged (snd w4)).
      { rewrite L1, expected_app. cbn [map as_write expected]. rewrite LR, Z.eqb_refl. cbn [orb]. apply app_nil_r. }
      destruct (AF2 (endt + Z.sgn dt)) as (_ & _ & _ & GW & RC & VS); [lia|]. rewrite LG, GN. split; [|split].
      * rewrite L1, map_app. apply Forall_app. split; [exact GW|].
        destruct (AF2 (endt + Z.sgn dt)) as (N4 & P4 & _); [lia|]. repeat constructor; cbn.
        -- rewrite map_map. apply (nodup_app_inv _ _ N4).
        -- apply Forall_forall. intros w I. apply in_map_iff in I. destruct I as (p & <- & I). cbn. rewrite Forall_forall in P4. apply P4, in_map, I.
      * intros i. apply RC.
      * exact VS.
  - assert (KP : kept val dt endt (ids (fst w4)) (snd w4)) by (destruct AF1 as [Q|Q]; [congruence|exact Q]).
    assert (LT : 0 < Z.sgn dt * (endt - lt)) by (destruct KP as (_ & _ & (l & Q & L) & _); replace lt with l by congruence; exact L).
    exists (regular log). rewrite L1 at 1 2. split; [|split; [|split; [apply incl_refl|split; [apply incl_refl|split; [exact REGS|split]]]]].
    + exists (mid ++ [endt]). rewrite regular_app, map_app, WT2. split; [reflexivity|]. split; [eapply ordered_snoc; eassumption|].
      intros s. rewrite in_app_iff. destruct AM as [_ AM]. rewrite AM. split.
      * intros [(A & B & C)|[->|[]]]; [right; split; assumption|left; reflexivity].
      * intros [->|[(k & K1 & ->) C]]; [right; left; reflexivity|]. left. split; [exists k; auto|]. split; [nia|exact C].
    + rewrite regular_app. apply Forall_app. split; [exact SETS|]. constructor; [|constructor].
      exact LAST.
    + rewrite GN, P1. exact PM.
    + destruct (kept_write val dt endt (endt + Z.sgn dt) (fst w4) (snd w4) D ltac:(lia) KP) as (_ & _ & _ & GW & RC & VS).
      rewrite <- L1 in *. split; [exact GW|]. split; [intros i; apply RC|exact VS].
Qed.

Lemma run_file : forall ps ps' log tr o,
  moves eps a start dflt endt -> positive_periods a -> reads_ahead (a_dt a) next ->
  a_out a = true -> a_output a = Some o -> eps <= o ->
  NoDup (ids ps ++ released batch tr) -> Forall (fun i => 0 <= i) (ids ps ++ released batch tr) ->
  run_written jit K interp lf rf fuel atol user e batch next eps a start rs dflt ps = (ps', log, tr, SDone) ->
  run_set jit K interp lf rf fuel atol user true e batch next eps a start rs dflt ps = (ps', tr, SDone) /\
  exists regs gone,
    output_times (a_dt a) start o endt (map fst regs) /\
    Forall (fun '(t, qs) => set_at jit K interp lf rf fuel atol user e batch next eps a start rs dflt ps t qs) regs /\
    Forall (fun p => q_st p = op_Delete) gone /\
    Permutation (ids ps' ++ ids gone) (ids ps ++ released batch tr) /\
    forall close warn_tol vars once f, file_after close warn_tol val vars once log = Some f -> forall var, In var vars ->
      exists rows, export_var false f var = Some rows /\ rows_of (history (val var) regs gone) rows.
Proof.
  intros ps ps' log tr o MV PP RA AO O EO ND PO R.
  destruct (run_written_all _ _ _ _ _ MV PP RA AO O EO ND PO R) as (RS & regs & OT & SA & _ & _ & _ & PM & GW & RC & VS).
  split; [exact RS|]. exists regs, (gone_of log). split; [exact OT|]. split; [exact SA|]. split; [apply gone_deleted|]. split; [exact PM|].
  intros close warn_tol vars once f FA var IV. unfold file_after in FA.
  destruct (export_all close warn_tol false vars once _ f var GW FA IV RC) as (rows & EX & XM). exists rows. split; [exact EX|].
  eapply exact_rows; [|exact XM]. intros i. apply VS.
Qed.
End File.
