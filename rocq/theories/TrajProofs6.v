(** Proofs for C51: the file as a table of particle states. *)
From Coq Require Import String List ZArith Bool Lia ZifyBool Permutation Sorted.
From Verif Require Import CollModel KLoopModel KLoopSpec SchedModel SchedSpec SplitSpec SplitProofs SplitProofs2 SplitProofs3
  RunSpec RunProofs OutModel OutSpec OutProofs TrajModel TrajSpec TrajProofs TrajProofs2 TrajProofs3 TrajProofs4 TrajProofs5.
Import ListNotations.
Open Scope Z_scope.

(** ** One matrix of each kind *)

Fixpoint put (x : Z) (l : list Z) : list Z :=
  match l with [] => [x] | y :: r => if x <? y then x :: l else if x =? y then l else y :: put x r end.
Lemma put_in : forall x l i, In i (put x l) <-> i = x \/ In i l.
Proof.
  induction l as [|y r IH]; intros i; cbn [put In]; [intuition|]. destruct (x <? y) eqn:A; [cbn [In]; intuition|].
  destruct (x =? y) eqn:B; cbn [In]; [assert (x = y) by lia; subst; intuition|]. rewrite IH. intuition.
Qed.
Lemma put_sorted : forall x l, StronglySorted Z.lt l -> StronglySorted Z.lt (put x l).
Proof.
  induction l as [|y r IH]; intros S; cbn [put]; [repeat constructor|]. inversion S; subst.
  destruct (x <? y) eqn:A.
  - constructor; [exact S|]. constructor; [lia|]. eapply Forall_impl; [|eassumption]. cbn. lia.
  - destruct (x =? y) eqn:B; [exact S|]. constructor; [apply IH; assumption|]. apply Forall_forall. intros i I. apply put_in in I.
    rewrite Forall_forall in H2. destruct I as [->|I]; [lia|apply H2, I].
Qed.
Lemma some_sorted : forall l : list Z, exists s, StronglySorted Z.lt s /\ forall i, In i s <-> In i l.
Proof.
  induction l as [|x l (s & S & Q)]; [exists []; split; [constructor|reflexivity]|].
  exists (put x s). split; [apply put_sorted, S|]. intros i. rewrite put_in, Q. cbn. intuition.
Qed.

Lemma sorted_same : forall s s', StronglySorted Z.lt s -> StronglySorted Z.lt s' -> (forall i, In i s <-> In i s') -> s = s'.
Proof.
  induction s as [|x s IH]; intros [|y s'] S S' Q; [reflexivity| | |].
  - exfalso. apply (proj2 (Q y)). left. reflexivity.
  - exfalso. apply (proj1 (Q x)). left. reflexivity.
  - inversion S as [|? ? SS FS]; inversion S' as [|? ? SS' FS']; subst. rewrite Forall_forall in FS, FS'. assert (x = y).
    { assert (A : In x (y :: s')) by (apply Q; left; reflexivity). assert (B : In y (x :: s)) by (apply Q; left; reflexivity).
      destruct A as [A|A]; [congruence|]. destruct B as [B|B]; [congruence|]. specialize (FS _ B). specialize (FS' _ A). lia. }
    subst y. f_equal. apply IH; try assumption. intros i. split; intros I.
    + assert (J : In i (x :: s')) by (apply Q; right; exact I). destruct J as [<-|J]; [|exact J]. specialize (FS _ I). lia.
    + assert (J : In i (x :: s)) by (apply Q; right; exact I). destruct J as [<-|J]; [|exact J]. specialize (FS' _ I). lia.
Qed.

Section Rows.
Context {V : Type}.

Lemma rows_exist : forall (hist : Z -> list V) l, (forall i, hist i <> [] -> In i l) -> exists rows, rows_of hist rows.
Proof.
  intros hist l IL.
  destruct (some_sorted (filter (fun i => match hist i with [] => false | _ => true end) l)) as (s & SS & Q).
  assert (Q' : forall i, In i s <-> hist i <> []).
  { intros i. rewrite Q, filter_In. split; [intros [_ A]; destruct (hist i); congruence|]. intros N. split; [apply IL, N|]. destruct (hist i); congruence. }
  set (w := list_max (map (fun i => length (hist i)) s)).
  assert (B : forall i, (length (hist i) <= w)%nat).
  { intros i. destruct (hist i) as [|v h] eqn:HE; [cbn; lia|]. rewrite <- HE.
    assert (I : In i s) by (apply Q'; congruence). unfold w.
    pose proof (proj1 (list_max_le (map (fun i => length (hist i)) s) (list_max (map (fun i => length (hist i)) s))) (Nat.le_refl _)) as F.
    rewrite Forall_forall in F. apply F. apply in_map_iff. exists i. auto. }
  exists (map (fun i => map Some (hist i) ++ repeat None (w - length (hist i))%nat) s). exists s, w.
  split; [exact SS|]. split; [exact Q'|]. split; [reflexivity|]. split; [exact B|].
  unfold w. clear. induction s as [|x s IH]; [left; reflexivity|]. cbn [map list_max fold_right]. fold (list_max (map (fun i => length (hist i)) s)).
  destruct (Nat.max_spec (length (hist x)) (list_max (map (fun i => length (hist i)) s))) as [[L ->]|[L ->]].
  - destruct IH as [IH|(i & I & IH)]; [left; exact IH|right; exists i; split; [right; exact I|exact IH]].
  - right. exists x. split; [left; reflexivity|reflexivity].
Qed.

Lemma rows_unique : forall (hist : Z -> list V) r1 r2, rows_of hist r1 -> rows_of hist r2 -> r1 = r2.
Proof.
  intros hist r1 r2 (s1 & w1 & S1 & Q1 & R1 & B1 & M1) (s2 & w2 & S2 & Q2 & R2 & B2 & M2).
  assert (s1 = s2) by (apply sorted_same; try assumption; intros i; rewrite Q1, Q2; reflexivity). subst s2.
  assert (w1 = w2).
  { destruct M1 as [->|(i & I & <-)].
    - destruct M2 as [->|(i & I & <-)]; [reflexivity|]. specialize (B1 i). lia.
    - destruct M2 as [->|(j & I2 & <-)]; [specialize (B2 i); lia|]. specialize (B1 j). specialize (B2 i). lia. }
  subst. reflexivity.
Qed.

End Rows.

Section Tables.
Context {X V : Type}.
Notation pcl := (pcl X).

Lemma map_flat : forall {A B C : Type} (f : B -> C) (g : A -> list B) l, map f (flat_map g l) = flat_map (fun x => map f (g x)) l.
Proof. intros A B C f g. induction l as [|x l IH]; [reflexivity|]. cbn [flat_map]. rewrite map_app, IH. reflexivity. Qed.

Lemma history_map : forall (val : pcl -> V) regs gone i, map val (history (fun p => p) regs gone i) = history val regs gone i.
Proof.
  intros val regs gone i. unfold history. rewrite map_app, map_map, map_flat. f_equal. apply flat_map_ext. intros [t qs]. apply map_map.
Qed.

Lemma column_rows : forall (val : pcl -> V) regs gone states, rows_of (history (fun p => p) regs gone) states ->
  rows_of (history val regs gone) (column val states).
Proof.
  intros val regs gone states (s & w & S & Q & R & B & M). exists s, w.
  assert (L : forall i, length (history val regs gone i) = length (history (fun p => p) regs gone i))
    by (intros i; rewrite <- (history_map val), map_length; reflexivity).
  split; [exact S|]. split; [|split; [|split]].
  - intros i. rewrite Q, <- (history_map val). destruct (history (fun p => p) regs gone i); cbn; split; congruence.
  - rewrite R. unfold column. rewrite map_map. apply map_ext. intros i. rewrite map_app, map_map, <- (history_map val), map_map, map_length.
    f_equal. clear. induction (w - length (history (fun p => p) regs gone i))%nat; [reflexivity|]. cbn. f_equal. assumption.
  - intros i. rewrite L. apply B.
  - destruct M as [M|(i & I & M)]; [left; exact M|right; exists i; rewrite L; auto].
Qed.

Lemma history_in : forall regs gone i (p : pcl), In p (history (fun p => p) regs gone i) ->
  (exists t qs, In (t, qs) regs /\ In p qs /\ there t p = true) \/ In p gone.
Proof.
  intros regs gone i p I. unfold history in I. rewrite map_id in I. apply in_app_iff in I. destruct I as [I|I].
  - left. apply in_flat_map in I. destruct I as ([t qs] & I1 & I2). rewrite map_id in I2. apply filter_In in I2. destruct I2 as [I2 T].
    apply andb_prop in T. exists t, qs. tauto.
  - right. apply filter_In in I. apply I.
Qed.

Lemma table_exists : forall (regs : list (Z * list pcl)) gone, exists states, rows_of (history (fun p => p) regs gone) states.
Proof.
  intros regs gone.
  assert (F : forall i, history (V := pcl) (fun p => p) regs gone i <> [] -> exists p, In p (history (fun p => p) regs gone i) /\ q_id p = i).
  { intros i N. destruct (history (V := pcl) (fun p => p) regs gone i) as [|p l] eqn:HE; [congruence|]. exists p. split; [left; reflexivity|].
    assert (I : In p (history (V := pcl) (fun p => p) regs gone i)) by (rewrite HE; left; reflexivity). unfold history in I. rewrite map_id in I.
    apply in_app_iff in I. destruct I as [I|I].
    - apply in_flat_map in I. destruct I as ([t qs] & _ & I). rewrite map_id in I. apply filter_In in I. lia.
    - apply filter_In in I. lia. }
  apply rows_exist with (l := map (@q_id X) (flat_map snd regs ++ gone)). intros i N. destruct (F i N) as (p & I & <-). apply in_map, in_app_iff.
  destruct (history_in _ _ _ _ I) as [(t & qs & I1 & I2 & _)|I1]; [left; apply in_flat_map; exists (t, qs); auto|right; exact I1].
Qed.
End Tables.

Lemma table_states : forall {X} (P : pcl X -> Prop) regs gone states, rows_of (history (fun p => p) regs gone) states ->
  Forall (fun '(t, qs) => Forall P qs) regs -> Forall P gone -> each_state P states.
Proof.
  intros X P regs gone states (s & w & S & Q & R & B & M) F1 F2. rewrite R. apply Forall_map. apply Forall_forall. intros i _. apply Forall_app. split.
  - apply Forall_map. apply Forall_forall. intros p I. destruct (history_in _ _ _ _ I) as [(t & qs & I1 & I2 & _)|I1].
    + rewrite Forall_forall in F1. specialize (F1 _ I1). cbn in F1. rewrite Forall_forall in F1. apply F1, I2.
    + rewrite Forall_forall in F2. apply F2, I1.
  - apply Forall_forall. intros o I. apply repeat_spec in I. subst. exact I.
Qed.

Lemma calls_states : forall {X} dt atol (J : Z -> Z -> X -> Prop) log, Forall (call_good dt atol J) log ->
  Forall (fun '(t, qs) => holds_of J qs) (regular log) /\ holds_of J (gone_of log).
Proof.
  intros X dt atol J log F. rewrite Forall_forall in F. split; apply Forall_forall.
  - intros [t qs] I. apply in_flat_map in I. destruct I as ([[t' m] qs'] & I1 & I2). destruct m; try contradiction. destruct I2 as [I2|[]]. inversion I2; subst.
    destruct (F _ I1) as [_ G]. apply (holds_good _ dt atol). exact G.
  - intros p I. apply in_flat_map in I. destruct I as ([[t' m] qs'] & I1 & I2). destruct m; try contradiction. apply filter_In in I2.
    destruct (F _ I1) as [_ G]. rewrite Forall_forall in G. apply (G p). apply I2.
Qed.

(** ** The file of a run *)
Section File.
Context {E X H V : Type}.
Notation pcl := (pcl X).
Notation ids := (map (@q_id X)).
Variable val : string -> pcl -> V.
Variables (jit : bool) (K : E -> pcl -> E * kres X) (interp : handlers E X H) (lf rf fuel : nat) (atol : Z) (user : Z -> option H) (e : E).
Variables (batch : Z -> list pcl) (next : Z -> option Z) (eps : Z) (a : args) (start : Z) (rs : option Z) (dflt endt : Z).
Notation set_at := (set_at jit K interp lf rf fuel atol user e batch next eps a start rs dflt).

Lemma table_of_file : forall ps ps' log tr o,
  moves eps a start dflt endt -> positive_periods a -> reads_ahead (a_dt a) next ->
  a_out a = true -> a_output a = Some o -> eps <= o ->
  NoDup (ids ps ++ released batch tr) -> Forall (fun i => 0 <= i) (ids ps ++ released batch tr) ->
  run_written jit K interp lf rf fuel atol user e batch next eps a start rs dflt ps = (ps', log, tr, SDone) ->
  run_set jit K interp lf rf fuel atol user true e batch next eps a start rs dflt ps = (ps', tr, SDone) /\
  exists regs states,
    output_times (a_dt a) start o endt (map fst regs) /\
    Forall (fun '(t, qs) => set_at ps t qs) regs /\ incl regs (regular log) /\ incl (map fst (regular log)) (map fst regs) /\
    Forall (fun '(t, qs) => set_at ps t qs) (regular log) /\
    Permutation (ids ps' ++ ids (gone_of log)) (ids ps ++ released batch tr) /\
    rows_of (history (fun p => p) regs (gone_of log)) states /\
    forall close warn_tol vars once f, file_after close warn_tol val vars once log = Some f -> forall var, In var vars ->
      export_var false f var = Some (column (val var) states).
Proof.
  intros ps ps' log tr o MV PP RA AO O EO ND PO R.
  destruct (run_written_all val _ _ _ _ _ _ _ _ _ _ _ _ _ _ _ _ _ _ _ _ _ _ MV PP RA AO O EO ND PO R) as (RS & regs & OT & SA & IC & IT & SR & PM & GW & RC & VS).
  split; [exact RS|]. destruct (table_exists regs (gone_of log)) as [states TS].
  exists regs, states. repeat (split; [assumption|]).
  intros close warn_tol vars once f FA var IV. unfold file_after in FA.
  destruct (export_all close warn_tol false vars once _ f var GW FA IV RC) as (rows & EX & XM). rewrite EX. f_equal.
  apply (rows_unique (history (val var) regs (gone_of log))); [|apply column_rows; exact TS].
  eapply exact_rows; try exact XM; try (intros i; apply VS); exact val.
Qed.

Lemma file_states : forall ps ps' log tr o,
  moves eps a start dflt endt -> positive_periods a -> reads_ahead (a_dt a) next ->
  a_out a = true -> a_output a = Some o -> eps <= o ->
  NoDup (ids ps ++ released batch tr) -> Forall (fun i => 0 <= i) (ids ps ++ released batch tr) ->
  run_written jit K interp lf rf fuel atol user e batch next eps a start rs dflt ps = (ps', log, tr, SDone) ->
  run_set jit K interp lf rf fuel atol user true e batch next eps a start rs dflt ps = (ps', tr, SDone) /\
  exists regs gone states,
    output_times (a_dt a) start o endt (map fst regs) /\
    Forall (fun '(t, qs) => set_at ps t qs) regs /\
    Forall (fun p => q_st p = op_Delete) gone /\
    Permutation (ids ps' ++ ids gone) (ids ps ++ released batch tr) /\
    rows_of (history (fun p => p) regs gone) states /\
    forall close warn_tol vars once f, file_after close warn_tol val vars once log = Some f -> forall var, In var vars ->
      export_var false f var = Some (column (val var) states).
Proof.
  intros ps ps' log tr o MV PP RA AO O EO ND PO R.
  destruct (table_of_file _ _ _ _ _ MV PP RA AO O EO ND PO R) as (RS & regs & states & OT & SA & IC & IT & SR & PM & TS & FS).
  split; [exact RS|]. exists regs, (gone_of log), states. split; [exact OT|]. split; [exact SA|]. split; [apply (gone_deleted val)|]. auto.
Qed.

Lemma file_keeps : forall J ps ps' log tr o,
  steady_kernel K -> step_keeps K (a_dt a) endt J -> recovery_keeps interp J -> 0 <= atol -> atol < Z.abs (a_dt a) ->
  holds_of J ps -> each_release a endt batch (fun p => J (q_id p) (q_time p) (q_x p)) ->
  moves eps a start dflt endt -> positive_periods a -> reads_ahead (a_dt a) next ->
  a_out a = true -> a_output a = Some o -> eps <= o ->
  NoDup (ids ps ++ released batch tr) -> Forall (fun i => 0 <= i) (ids ps ++ released batch tr) ->
  run_written jit K interp lf rf fuel atol user e batch next eps a start rs dflt ps = (ps', log, tr, SDone) ->
  exists states, each_state (fun p => J (q_id p) (q_time p) (q_x p)) states /\
    forall close warn_tol vars once f, file_after close warn_tol val vars once log = Some f -> forall var, In var vars ->
      export_var false f var = Some (column (val var) states).
Proof.
  intros J ps ps' log tr o SK KJ RJ A0 AD HJ BJ MV PP RA AO O EO ND PO R.
  destruct (table_of_file _ _ _ _ _ MV PP RA AO O EO ND PO R) as (RS & regs & states & OT & SA & IC & IT & SR & PM & TS & FS).
  pose proof (written_good _ _ _ _ _ _ _ _ _ _ _ _ _ _ _ _ _ _ _ _ _ _ _ _ _ _ SK KJ RJ A0 AD MV HJ BJ R) as G.
  destruct (calls_states _ _ _ _ G) as [G1 G2]. exists states. split; [|exact FS].
  eapply table_states; [exact TS| |exact G2]. apply Forall_forall. intros x I. rewrite Forall_forall in G1. apply G1, IC, I.
Qed.

(** ** Runs in step *)
Lemma writes_total : forall close warn_tol ws (f : pfile V),
  Forall (fun '(t, m, ps) => forall p, In p (to_record t m ps) -> w_st p = op_Delete \/ Z.abs (t - w_time p) <= warn_tol) ws ->
  writes close warn_tol f ws <> None.
Proof.
  intros close warn_tol. induction ws as [|[[t m] ps] ws IH]; intros f F; cbn [writes]; [discriminate|]. inversion F; subst.
  destruct (write close warn_tol f t m ps) as [f1|] eqn:W; [apply IH; assumption|]. exfalso. revert W. apply write_total. assumption.
Qed.

Lemma pointed_deleted : forall (qs : list pcl) p, In p (pointed (map is_deleted qs) (map (as_wp val) qs)) -> w_st p = op_Delete.
Proof.
  intros qs p I. unfold pointed in I. apply in_map_iff in I. destruct I as ([b w] & <- & I). apply filter_In in I. destruct I as [I B]. cbn in *. subst b.
  revert I. induction qs as [|q qs IH]; intros I; [contradiction|]. destruct I as [I|I]; [|apply IH, I]. inversion I; subst. cbn.
  unfold is_deleted in H1. lia.
Qed.

Variables (r : option Z).
Hypothesis U : uninterruptible K interp.
Hypothesis A0 : 0 <= atol.
Hypothesis AD : atol < Z.abs (a_dt a).
Hypothesis RI : run_in_step (a_dt a) r a next.
Hypothesis BI : batch_in_step batch.
Hypothesis CI : clock_in_step (a_dt a) rs start.
Hypothesis WE : whole_steps (a_dt a) start endt.

Lemma set_in_step : forall ps o t qs, Forall (fun p => whole_steps (a_dt a) (q_time p) start) ps ->
  moves eps a start dflt endt -> a_out a = true -> a_output a = Some o -> eps <= o -> 0 < o ->
  t = start \/ t = endt \/ (exists k, 1 <= k /\ t = start + Z.sgn (a_dt a) * (k * o)) ->
  set_at ps t qs -> Forall (ok (a_dt a) t) qs.
Proof.
  intros ps o t qs WS MV AO O EO O0 T S. unfold TrajSpec.set_at in S. destruct (t =? start) eqn:TS.
  { assert (t = start) by lia. subst. apply set_dt_ok; assumption. }
  destruct S as [tr R].
  assert (NE : eps <= Z.abs (t - start) /\ 0 < Z.sgn (a_dt a) * (t - start) /\ whole_steps (a_dt a) start t).
  { destruct T as [->|[->|(k & K1 & ->)]]; [lia|split; [apply MV|split; [apply MV|exact WE]]|].
    destruct RI as (_ & _ & RO & _). rewrite O in RO. cbn in RO. destruct RO as [_ [d RO]]. split; [nia|]. split; [nia|].
    exists (Z.sgn (a_dt a) * (k * d)). rewrite RO. ring. }
  destruct NE as (N1 & N2 & N3).
  assert (MV2 : moves eps (until a t) start dflt t).
  { destruct MV as ([M1 M2] & _). split; [split; [reflexivity|exact M2]|]. split; [discriminate|]. split; assumption. }
  assert (RI2 : run_in_step (a_dt a) r (until a t) next) by exact RI.
  destruct (count_steps user atol (a_dt a) A0 AD _ _ N3 ltac:(lia)) as [m EE].
  destruct (evo_pack K interp user atol (a_dt a) jit (a_out a) e U A0 AD r batch eps BI) as (stp & _ & _ & Q3 & _ & _ & Q6 & _).
  pose proof (Q6 _ _ _ _ _ _ _ _ _ _ _ _ _ MV2 RI2 CI WS EE R) as ST.
  destruct (Q3 _ _ _ _ _ _ ST) as [_ OK].
  assert (G0 : grid (a_dt a) start start) by (unfold grid; rewrite Z.sub_diag; apply Z.divide_0_r).
  specialize (OK G0 (set_dt_ok _ _ _ WS)). apply (proj1 (ok_norm (a_dt a) start qs)) in OK. eapply Forall_impl; [|exact OK]. intros p [P1 [c P2]]. destruct N3 as [k N3]. split; [exact P1|]. exists (k + c). lia.
Qed.

Lemma ok_there : forall t (p : pcl), ok (a_dt a) t p -> there t p = (q_time p =? t).
Proof using A0 AD.
  clear - A0 AD. intros t p [D [k Q]]. unfold there. rewrite D. assert (k = 0 \/ k <> 0) as [->|N] by lia; [lia|].
  assert (Z.abs (a_dt a) <= Z.abs (t - q_time p)) by (rewrite Q, Z.abs_mul; nia). lia.
Qed.

Lemma call_cases : forall ps ps' log tr st, Forall (fun p => whole_steps (a_dt a) (q_time p) start) ps -> moves eps a start dflt endt ->
  run_written jit K interp lf rf fuel atol user e batch next eps a start rs dflt ps = (ps', log, tr, st) ->
  Forall (call_good (a_dt a) atol (fun _ _ (_ : X) => True)) log.
Proof.
  intros ps ps' log tr st WS MV R. destruct U as (_ & SK & SH & _).
  eapply written_good; [exact SK| | |exact A0|exact AD|exact MV| | |exact R].
  - intros e0 p _ _ _ _. exact I.
  - split; [exact SH|]. auto.
  - apply Forall_forall. auto.
  - intros t _. apply Forall_forall. auto.
Qed.

Lemma file_in_step : forall ps ps' log tr o,
  Forall (fun p => whole_steps (a_dt a) (q_time p) start) ps ->
  moves eps a start dflt endt -> positive_periods a -> reads_ahead (a_dt a) next ->
  a_out a = true -> a_output a = Some o -> eps <= o ->
  NoDup (ids ps ++ released batch tr) -> Forall (fun i => 0 <= i) (ids ps ++ released batch tr) ->
  run_written jit K interp lf rf fuel atol user e batch next eps a start rs dflt ps = (ps', log, tr, SDone) ->
  exists regs gone states,
    output_times (a_dt a) start o endt (map fst regs) /\
    Forall (fun '(t, qs) => set_at ps t qs) regs /\
    Forall (fun p => q_st p = op_Delete) gone /\
    Permutation (ids ps' ++ ids gone) (ids ps ++ released batch tr) /\
    rows_of (exact_history (fun p => p) regs gone) states /\
    forall close warn_tol vars once, 0 <= warn_tol -> exists f, file_after close warn_tol val vars once log = Some f /\
      forall var, In var vars -> export_var false f var = Some (column (val var) states).
Proof.
  intros ps ps' log tr o WS MV PP RA AO O EO ND PO R.
  destruct (table_of_file _ _ _ _ _ MV PP RA AO O EO ND PO R) as (RS & regs & states & OT & SA & IC & IT & SR & PM & TS & FS).
  assert (O0 : 0 < o) by (destruct PP as (_ & P2 & _); rewrite O in P2; exact P2).
  assert (OKS : Forall (fun '(t, qs) => Forall (ok (a_dt a) t) qs) (regular log)).
  { apply Forall_forall. intros [t qs] I. rewrite Forall_forall in SR. specialize (SR _ I). cbn in SR.
    eapply set_in_step; try eassumption. assert (T : In t (map fst regs)) by (apply IT; apply in_map_iff; exists (t, qs); auto).
    destruct OT as (rest & EQ & _ & OT). rewrite EQ in T. destruct T as [<-|T]; [left; reflexivity|right]. apply OT in T. destruct T as [->|[T _]]; auto. }
  assert (HX : forall i, exact_history (fun p => p) regs (gone_of log) i = history (V := pcl) (fun p => p) regs (gone_of log) i).
  { intros i. unfold exact_history, history. f_equal. assert (OKR : Forall (fun '(t, qs) => Forall (ok (a_dt a) t) qs) regs)
      by (apply Forall_forall; intros x I; rewrite Forall_forall in OKS; apply OKS, IC, I).
    clear - OKR A0 AD. induction OKR as [|[t qs] regs F OKR IH]; [reflexivity|]. cbn [flat_map]. rewrite IH. f_equal. f_equal.
    apply filter_ext_in. intros p I. rewrite Forall_forall in F. rewrite (ok_there _ _ (F _ I)). reflexivity. }
  exists regs, (gone_of log), states. split; [exact OT|]. split; [exact SA|]. split; [apply (gone_deleted val)|]. split; [exact PM|]. split.
  { destruct TS as (s & w & S1 & S2 & S3 & S4 & S5). exists s, w. split; [exact S1|]. split; [intros i; rewrite HX; apply S2|]. split.
    - rewrite S3. apply map_ext. intros i. rewrite HX. reflexivity.
    - split; [intros i; rewrite HX; apply S4|]. destruct S5 as [S5|(i & I & S5)]; [left; exact S5|right; exists i; rewrite HX; auto]. }
  intros close warn_tol vars once W0. destruct (file_after close warn_tol val vars once log) as [f|] eqn:FA.
  { exists f. split; [reflexivity|]. intros var IV. eapply FS; eassumption. }
  exfalso. revert FA. apply writes_total. apply Forall_map. apply Forall_forall. intros [[t m] qs] I. cbn [as_write].
  pose proof (call_cases _ _ _ _ _ WS MV R) as CC. rewrite Forall_forall in CC. specialize (CC _ I). cbn in CC. destruct CC as [[->| ->] _].
  - intros p IP. right. cbn [to_record] in IP. apply filter_In in IP. destruct IP as [IP AC]. apply in_map_iff in IP. destruct IP as (q & <- & IQ).
    rewrite Forall_forall in OKS. assert (IR : In (t, qs) (regular log)) by (apply in_flat_map; exists (t, DFalse, qs); split; [exact I|left; reflexivity]).
    specialize (OKS _ IR). cbn in OKS. rewrite Forall_forall in OKS. specialize (OKS _ IQ). apply ok_there in OKS.
    change (there t q = true) in AC. rewrite AC in OKS. cbn. lia.
  - intros p IP. left. eapply pointed_deleted, IP.
Qed.
End File.
