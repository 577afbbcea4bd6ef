(** Proofs about the order of events, the shown frames and the callbacks of pset.execute. *)
From Coq Require Import List ZArith Bool Lia ZifyBool Sorted.
From Verif Require Import SchedModel SchedSpec SchedProofs.
Import ListNotations.
Open Scope Z_scope.

Lemma sorted_app : forall dt l1 l2, StronglySorted (before dt) l1 -> StronglySorted (before dt) l2 ->
  (forall x y, In x l1 -> In y l2 -> before dt x y) -> StronglySorted (before dt) (l1 ++ l2).
Proof.
  induction l1 as [|x l1 IH]; intros l2 A B C; [exact B|]. inversion A; subst. cbn [app]. constructor.
  - apply IH; auto. intros; apply C; [right|]; assumption.
  - apply Forall_app. split; [assumption|]. apply Forall_forall. intros y Y. apply C; [left; reflexivity|exact Y].
Qed.

Definition rank_of (k : kind) : Z := match k with KRelease => 1 | KOutput => 2 | KMovie => 3 | KCallback => 4 end.

Lemma event_of_in : forall out cbs k t e, In e (event_of out cbs k t) -> ev_time e = t /\ ev_rank e = rank_of k.
Proof. intros out cbs [] t e; cbn; destruct out, cbs; cbn; intros [<-|[]] || intros []; auto. Qed.

Lemma event_of_sorted : forall dt out cbs k t, StronglySorted (before dt) (event_of out cbs k t).
Proof. intros dt out cbs [] t; cbn; destruct out, cbs; repeat constructor. Qed.

Section P.
Context {W : Type}.
Variable exec : W -> Z -> Z -> option W.
Variable begin_run : W -> Z -> W.
Variable act : kind -> W -> Z -> Z -> W.
Variable input : W -> Z -> Z -> option (W * option Z).

Lemma serve_order : forall dt per out cbs t ks nx w nx2 w2 tr,
  StronglySorted (fun a b => rank_of a < rank_of b) ks ->
  serve act dt per out cbs t ks nx w = (nx2, w2, tr) ->
  StronglySorted (before dt) tr /\
  forall e, In e tr -> ev_time e = t /\ exists k, In k ks /\ ev_rank e = rank_of k.
Proof.
  intros dt per out cbs t ks. induction ks as [|k ks IH]; intros nx w nx2 w2 tr SO S; cbn [serve] in S.
  - inversion S; subst. split; [constructor|intros e []].
  - inversion SO; subst. rewrite Forall_forall in H2.
    assert (SK : forall nx w, serve act dt per out cbs t ks nx w = (nx2, w2, tr) ->
      StronglySorted (before dt) tr /\
      forall e, In e tr -> ev_time e = t /\ exists k', In k' (k :: ks) /\ ev_rank e = rank_of k').
    { intros nx' w' S'. destruct (IH _ _ _ _ _ H1 S') as [A B]. split; [exact A|]. intros e E.
      destruct (B e E) as (T & k' & K & R). split; [exact T|]. exists k'. split; [right; exact K|exact R]. }
    destruct (nx k) as [n|]; [|eapply SK; exact S]. destruct (per k) as [p|]; [|eapply SK; exact S].
    destruct (t =? n); [|eapply SK; exact S]. clear SK.
    match type of S with context [serve act dt per out cbs t ks ?x ?y] =>
      destruct (serve act dt per out cbs t ks x y) as [[nx3 w3] tr3] eqn:S3 end.
    inversion S; subst. destruct (IH _ _ _ _ _ H1 S3) as [A B]. split.
    + apply sorted_app; [apply event_of_sorted|exact A|]. intros x y X Y.
      apply event_of_in in X. destruct X as [X1 X2]. destruct (B y Y) as (Y1 & k' & K & Y2). right.
      split; [congruence|]. rewrite X2, Y2. apply H2. exact K.
    + intros e E. apply in_app_iff in E. destruct E as [E|E].
      * apply event_of_in in E. destruct E as [E1 E2]. split; [exact E1|]. exists k. split; [left; reflexivity|exact E2].
      * destruct (B e E) as (T & k' & K & R). split; [exact T|]. exists k'. split; [right; exact K|exact R].
Qed.

Lemma kinds_sorted : StronglySorted (fun a b => rank_of a < rank_of b) kinds.
Proof. repeat constructor. Qed.

Lemma rank_bounds : forall k, 1 <= rank_of k <= 4.
Proof. intros []; cbn; lia. Qed.

Lemma inv_step : forall dt endt time per out cbs nx nin w1 nx2 w2 tr2 nin',
  dt <> 0 -> inv dt time per nx nin ->
  serve act dt per out cbs (window_end dt endt nx nin) kinds nx w1 = (nx2, w2, tr2) ->
  ahead dt (window_end dt endt nx nin) nin' -> inv dt (window_end dt endt nx nin) per nx2 nin'.
Proof.
  intros dt endt time per out cbs nx nin w1 nx2 w2 tr2 nin' D INV SV AN.
  pose proof (fun k n => window_end_le_next dt endt nx nin k n D) as WN.
  set (t1 := window_end dt endt nx nin) in *.
  destruct (serve_kinds _ _ _ _ _ _ _ _ _ _ _ SV) as [EX SK].
  assert (S1 : Z.sgn dt = 1 \/ Z.sgn dt = -1) by lia.
  destruct INV as (A & P & N & _). split; [|split; [exact P|split; [|exact AN]]].
  - intros k. destruct (SK k) as [_ ->]. unfold due.
    specialize (A k). specialize (P k). specialize (N k). specialize (WN k).
    destruct (nx k) as [n|] eqn:NX; [|exact I].
    destruct (per k) as [p|] eqn:PK; [|exfalso; destruct N; intuition congruence].
    specialize (WN n eq_refl). cbn [ahead positive] in *.
    destruct (t1 =? n) eqn:TQ; cbn [ahead]; destruct S1 as [S1|S1]; rewrite S1 in *; lia.
  - intros k. destruct (SK k) as [_ ->]. unfold due. specialize (N k).
    destruct (nx k) as [n|], (per k) as [p|]; try (destruct (t1 =? n)); split; intros; try congruence;
      destruct N as [N1 N2]; try (specialize (N1 eq_refl); congruence); try (specialize (N2 eq_refl); congruence).
Qed.

(** The events of the loop are in order, after [time], and the kernels have reached the time of each. *)
Definition fine (dt time : Z) (tr : list sev) : Prop :=
  StronglySorted (before dt) tr /\
  forall e, In e tr -> 0 < Z.sgn dt * (ev_time e - time) /\ In (SExec (ev_time e)) tr.

Lemma fine_window : forall dt time t seg rest,
  0 < Z.sgn dt * (t - time) -> StronglySorted (before dt) seg ->
  (forall e, In e seg -> ev_time e = t /\ 1 <= ev_rank e) -> fine dt t rest ->
  fine dt time (SExec t :: seg ++ rest).
Proof.
  intros dt time t seg rest L S T [RS RT]. split.
  - constructor.
    + apply sorted_app; [exact S|exact RS|]. intros x y X Y. destruct (T x X) as [X1 _].
      destruct (RT y Y) as [Y1 _]. left. rewrite X1. exact Y1.
    + apply Forall_forall. intros x X. apply in_app_iff in X. destruct X as [X|X].
      * destruct (T x X) as [X1 X2]. right. cbn [ev_time ev_rank]. split; [symmetry; exact X1|lia].
      * destruct (RT x X) as [X1 _]. left. exact X1.
  - intros e [<-|E]; [cbn [ev_time]; split; [exact L|left; reflexivity]|].
    apply in_app_iff in E. destruct E as [E|E].
    + destruct (T e E) as [E1 _]. rewrite E1. split; [exact L|left; reflexivity].
    + destruct (RT e E) as [E1 E2]. split; [|right; apply in_app_iff; right; exact E2].
      assert (S1 : Z.sgn dt = 1 \/ Z.sgn dt = -1) by lia. destruct S1 as [S1|S1]; rewrite S1 in *; lia.
Qed.

Lemma sloop_fine : forall fuel dt endt per out cbs time nx nin w t w' tr r,
  dt <> 0 -> input_ahead input dt ->
  inv dt time per nx nin -> 0 <= Z.sgn dt * (endt - time) ->
  sloop exec act input fuel dt endt per out cbs time nx nin w = (t, w', tr, r) -> fine dt time tr.
Proof.
  assert (NIL : forall dt time, fine dt time []) by (intros; split; [constructor|intros e []]).
  induction fuel; intros dt endt per out cbs time nx nin w t w' tr r D IA INV LE R; cbn [sloop] in R.
  - destruct (((time <? endt) && (0 <? dt)) || ((endt <? time) && (dt <? 0)) || (dt =? 0));
      inversion R; subst; apply NIL.
  - destruct (((time <? endt) && (0 <? dt)) || ((endt <? time) && (dt <? 0)) || (dt =? 0)) eqn:C;
      [|inversion R; subst; apply NIL].
    assert (LT : 0 < Z.sgn dt * (endt - time)) by lia.
    pose proof (window_end_after _ _ _ _ _ _ D INV LT) as WA.
    pose proof (window_end_le_end dt endt nx nin D) as WE.
    pose proof (fun w1 nx2 w2 tr2 nin' => inv_step dt endt time per out cbs nx nin w1 nx2 w2 tr2 nin' D INV) as IS.
    set (t1 := window_end dt endt nx nin) in *.
    destruct (exec w t1 dt) as [w1|].
    2:{ inversion R; subst. apply (fine_window dt time t1 [] []); auto; [constructor|intros e []]. }
    destruct (serve act dt per out cbs t1 kinds nx w1) as [[nx2 w2] tr2] eqn:SV.
    pose proof (fun nin' => IS _ _ _ _ nin' SV) as INV2. clear IS.
    destruct (serve_order _ _ _ _ _ _ _ _ _ _ _ kinds_sorted SV) as [SO SE].
    replace (dt =? 0) with false in R by lia.
    assert (SR : forall e, In e tr2 -> ev_time e = t1 /\ 1 <= ev_rank e <= 4).
    { intros e E. destruct (SE e E) as (T & k & _ & ->). split; [exact T|apply rank_bounds]. }
    assert (FIN : forall nin' w3 seg t4 w4 tr4 r4,
       (seg = tr2 \/ seg = tr2 ++ [SInput t1]) -> ahead dt t1 nin' \/ t1 = endt ->
       sloop exec act input fuel dt endt per out cbs t1 nx2 nin' w3 = (t4, w4, tr4, r4) ->
       fine dt time (SExec t1 :: seg ++ tr4)).
    { intros nin' w3 seg t4 w4 tr4 r4 SG AN SL.
      assert (SL' : exists nin2, ahead dt t1 nin2 /\
         sloop exec act input fuel dt endt per out cbs t1 nx2 nin2 w3 = (t4, w4, tr4, r4)).
      { destruct AN as [AN|AN]; [exists nin'; auto|]. exists None. split; [exact I|].
        rewrite <- SL. destruct fuel; cbn [sloop];
          replace (((t1 <? endt) && (0 <? dt)) || ((endt <? t1) && (dt <? 0)) || (dt =? 0)) with false by lia;
          reflexivity. }
      destruct SL' as (nin2 & AN2 & SL2).
      pose proof (IHfuel _ _ _ _ _ _ _ _ _ _ _ _ _ D IA (INV2 nin2 AN2) WE SL2) as F.
      apply fine_window; auto.
      - destruct SG as [->| ->]; [exact SO|]. apply sorted_app; [exact SO|repeat constructor|].
        intros x y X [<-|[]]. destruct (SR x X) as [X1 X2]. right. cbn [ev_time ev_rank]. split; [exact X1|lia].
      - intros e E. destruct SG as [->| ->]; [destruct (SR e E); split; [assumption|lia]|].
        apply in_app_iff in E. destruct E as [E|[<-|[]]]; [destruct (SR e E); split; [assumption|lia]|].
        cbn. split; [reflexivity|lia]. }
    destruct (t1 =? endt) eqn:TE.
    + destruct (sloop exec act input fuel dt endt per out cbs t1 nx2 nin w2) as [[[t3 w3] tr3] r3] eqn:SL.
      inversion R; subst. eapply FIN; [left; reflexivity|right; lia|exact SL].
    + destruct (input w2 t1 dt) as [[w3 nin']|] eqn:IN.
      2:{ inversion R; subst. replace (tr2 ++ [SInput t1]) with ((tr2 ++ [SInput t1]) ++ []) by apply app_nil_r.
          apply fine_window; auto.
          - apply sorted_app; [exact SO|repeat constructor|].
            intros x y X [<-|[]]. destruct (SR x X) as [X1 X2]. right. cbn [ev_time ev_rank]. split; [exact X1|lia].
          - intros e E. apply in_app_iff in E. destruct E as [E|[<-|[]]]; [destruct (SR e E); split; [assumption|lia]|].
            cbn. split; [reflexivity|lia]. }
      destruct (sloop exec act input fuel dt endt per out cbs t1 nx2 nin' w3) as [[[t4 w4] tr4] r4] eqn:SL.
      inversion R; subst. replace (tr2 ++ SInput t1 :: tr4) with ((tr2 ++ [SInput t1]) ++ tr4)
        by (rewrite <- app_assoc; reflexivity).
      eapply FIN; [right; reflexivity| |exact SL].
      left. destruct nin' as [n|]; [|exact I]. cbn. eapply IA; [reflexivity|exact IN].
Qed.

(** What a completed call of execute that moves time consists of. *)
Lemma sexecute_parts : forall fuel eps a start rs dflt endt w w' tr,
  moves eps a start dflt endt -> positive_periods a -> input_ahead input (a_dt a) ->
  sexecute exec begin_run act input fuel eps a start rs dflt w = (w', tr, SDone) ->
  exists tr4,
    tr = (if a_out a then [SWrite start] else []) ++ (match a_movie a with Some _ => [SShow start] | None => [] end)
         ++ SInput start :: tr4 ++ (if a_out a then [SWrite endt] else []) /\
    fine (a_dt a) start tr4 /\
    forall k, times k tr4 =
      match first_next a (a_dt a) start (match rs with Some x => x | None => start end) k, periods a k with
      | Some n, Some p => if on (a_out a) (a_cbs a) k then ticks (Z.sgn (a_dt a)) n p endt else []
      | _, _ => []
      end.
Proof.
  intros fuel eps a start rs dflt endt w w' tr M PP IA R.
  destruct (resolve_moves exec begin_run input _ _ _ _ _ M) as (RO & D & LE). destruct M as (RE & _). apply (requested_resolves exec begin_run input) in RE.
  unfold sexecute in R. rewrite RE in R. set (rs0 := match rs with Some x => x | None => start end) in *.
  cbn zeta in R. rewrite RO in R. set (w0 := begin_run w (a_dt a)) in *.
  set (w1 := if a_out a then act KOutput w0 start (a_dt a) else w0) in *.
  set (w2 := match a_movie a with Some (Zpos _) => act KMovie w1 start (a_dt a) | _ => w1 end) in *.
  assert (MV : match a_movie a with Some (Zpos _) => [SShow start] | _ => [] end =
               match a_movie a with Some _ => [SShow start] | None => [] end).
  { destruct PP as (_ & _ & PM & _). destruct (a_movie a) as [[| |]|]; cbn in PM; try reflexivity; lia. }
  rewrite MV in R.
  destruct (input w2 start (Z.sgn (a_dt a))) as [[w3 nin]|] eqn:IN; [|discriminate].
  assert (SS : Z.sgn (Z.sgn (a_dt a)) = Z.sgn (a_dt a)) by lia.
  destruct (sloop exec act input fuel (a_dt a) endt (periods a) (a_out a) (a_cbs a) start
              (first_next a (a_dt a) start rs0) nin w3) as [[[t w4] tr4] r4] eqn:SL.
  assert (INV : inv (a_dt a) start (periods a) (first_next a (a_dt a) start rs0) nin).
  { split; [intros; apply (first_next_ahead exec begin_run act input); assumption|]. split; [apply (periods_pos exec begin_run input); exact PP|].
    split; [intros; apply first_next_none|]. destruct nin as [n|]; [|exact I]. cbn.
    eapply IA; [exact SS|exact IN]. }
  destruct (sloop_spec exec begin_run act input _ _ _ _ _ _ _ _ _ _ _ _ _ _ D IA INV LE SL) as [_ F2].
  pose proof (sloop_fine _ _ _ _ _ _ _ _ _ _ _ _ _ _ D IA INV LE SL) as FI.
  destruct r4; [|discriminate|discriminate]. destruct (F2 eq_refl) as (-> & _ & TK).
  exists tr4. split; [|split; [exact FI|exact TK]].
  destruct (a_out a); inversion R; subst; rewrite <- ?app_assoc; cbn [app]; rewrite ?app_nil_r; reflexivity.
Qed.

Lemma order_all : forall fuel eps a start rs dflt endt w w' tr,
  moves eps a start dflt endt -> positive_periods a -> input_ahead input (a_dt a) ->
  sexecute exec begin_run act input fuel eps a start rs dflt w = (w', tr, SDone) ->
  exists run, tr = run ++ (if a_out a then [SWrite endt] else []) /\
    StronglySorted (before (a_dt a)) run /\
    forall e, In e run -> ev_time e <> start -> In (SExec (ev_time e)) run.
Proof.
  intros fuel eps a start rs dflt endt w w' tr M PP IA R.
  destruct (sexecute_parts _ _ _ _ _ _ _ _ _ _ M PP IA R) as (tr4 & -> & [SO SE] & _).
  set (head := (if a_out a then [SWrite start] else []) ++
               (match a_movie a with Some _ => [SShow start] | None => [] end) ++ [SInput start]).
  assert (HT : forall e, In e head -> ev_time e = start).
  { unfold head. intros e. destruct (a_out a), (a_movie a); cbn; intuition (subst; reflexivity). }
  assert (HS : StronglySorted (before (a_dt a)) head).
  { unfold head. destruct (a_out a), (a_movie a); cbn; repeat constructor; right; cbn; split; reflexivity. }
  exists (head ++ tr4). split; [|split].
  - unfold head. rewrite <- !app_assoc. reflexivity.
  - apply sorted_app; auto. intros x y X Y. left. rewrite (HT x X). apply SE. exact Y.
  - intros e E N. apply in_app_iff in E. apply in_app_iff. destruct E as [E|E]; [destruct (N (HT e E))|].
    right. apply SE. exact E.
Qed.

Lemma step_first : forall dt start p, dt <> 0 ->
  (if 0 <? dt then start + p else start - p) = start + Z.sgn dt * ((0 + 1) * p).
Proof.
  intros dt start p D. destruct (0 <? dt) eqn:Q;
    [replace (Z.sgn dt) with 1 by lia|replace (Z.sgn dt) with (-1) by lia]; lia.
Qed.

Lemma shows_all : forall fuel eps a start rs dflt endt w w' tr,
  moves eps a start dflt endt -> positive_periods a -> input_ahead input (a_dt a) ->
  sexecute exec begin_run act input fuel eps a start rs dflt w = (w', tr, SDone) ->
  match a_movie a with
  | Some m => exists mid, show_times tr = start :: mid /\ all_multiples (a_dt a) start m start endt mid
  | None => show_times tr = []
  end.
Proof.
  intros fuel eps a start rs dflt endt w w' tr M PP IA R.
  destruct (resolve_moves exec begin_run input _ _ _ _ _ M) as (_ & D & _).
  destruct (sexecute_parts _ _ _ _ _ _ _ _ _ _ M PP IA R) as (tr4 & -> & _ & TK).
  specialize (TK KMovie). unfold first_next, periods in TK.
  assert (Q : forall l, show_times l = times KMovie l) by reflexivity.
  assert (Z1 : forall t (b : bool), times KMovie (if b then [SWrite t] else []) = []) by (intros t []; reflexivity).
  rewrite Q, times_app, Z1. cbn [app].
  rewrite times_app. change (SInput start :: tr4 ++ (if a_out a then [SWrite endt] else []))
    with ([SInput start] ++ tr4 ++ (if a_out a then [SWrite endt] else [])).
  rewrite !times_app, Z1, TK, app_nil_r. destruct (a_movie a) as [m|] eqn:AM; [|reflexivity].
  cbn [on times flat_map sel app]. eexists. split; [reflexivity|]. rewrite step_first by exact D.
  apply (ticks_multiples exec begin_run input); try assumption; try lia.
  destruct PP as (_ & _ & PM & _). rewrite AM in PM. exact PM. destruct PP as (_ & _ & PM & _). rewrite AM in PM. cbn in PM. lia.
Qed.

Lemma callback_every_period : forall a p, positive_periods a -> callback_every a p -> callback_period a = p /\ positive p.
Proof.
  intros a p (PR & PO & PM & PC) E. unfold callback_every in E. unfold callback_period.
  destruct (a_callback a) as [c|]; [subst p; split; [reflexivity|exact PC]|].
  unfold smallest in E. destruct (a_movie a) as [m|], (a_output a) as [o|], (a_repeat a) as [r|]; cbn [omin positive] in *;
    (destruct p as [v|]; [destruct E as [E1 E2]|]).
  all: try (exfalso; match goal with H : forall x, ~ In (Some x) (?l) |- _ =>
       match l with context [Some ?y] => apply (H y); cbn; tauto end end).
  all: try (split; [reflexivity|exact I]).
  all: cbn [In] in E1, E2.
  all: try pose proof (E2 m ltac:(tauto)); try pose proof (E2 o ltac:(tauto)); try pose proof (E2 r ltac:(tauto)).
  all: clear E2.
  all: repeat match goal with H : _ \/ _ |- _ => destruct H end.
  all: try contradiction; try discriminate.
  all: match goal with H : Some _ = Some _ |- _ => injection H as -> end.
  all: cbn [positive]; split; [f_equal; lia|assumption].
Qed.

Lemma callbacks_all : forall fuel eps a start rs dflt endt w w' tr p,
  moves eps a start dflt endt -> positive_periods a -> input_ahead input (a_dt a) ->
  callback_every a p ->
  sexecute exec begin_run act input fuel eps a start rs dflt w = (w', tr, SDone) ->
  match a_cbs a, p with
  | true, Some v => all_multiples (a_dt a) start v start endt (callback_times tr)
  | _, _ => callback_times tr = []
  end.
Proof.
  intros fuel eps a start rs dflt endt w w' tr p M PP IA CE R.
  destruct (resolve_moves exec begin_run input _ _ _ _ _ M) as (_ & D & _).
  destruct (sexecute_parts _ _ _ _ _ _ _ _ _ _ M PP IA R) as (tr4 & -> & _ & TK).
  destruct (callback_every_period _ _ PP CE) as [CP PV].
  specialize (TK KCallback). unfold first_next, periods in TK. rewrite CP in TK.
  assert (Q : forall l, callback_times l = times KCallback l) by reflexivity.
  assert (Z1 : forall t (b : bool), times KCallback (if b then [SWrite t] else []) = []) by (intros t []; reflexivity).
  assert (Z2 : times KCallback (match a_movie a with Some _ => [SShow start] | None => [] end) = [])
    by (destruct (a_movie a); reflexivity).
  rewrite Q, times_app, Z1, times_app, Z2. cbn [app].
  change (SInput start :: tr4 ++ (if a_out a then [SWrite endt] else []))
    with ([SInput start] ++ tr4 ++ (if a_out a then [SWrite endt] else [])).
  rewrite !times_app, Z1, TK, app_nil_r. cbn [times flat_map sel app on].
  destruct p as [v|]; [|destruct (a_cbs a); reflexivity]. destruct (a_cbs a); [|reflexivity].
  rewrite step_first by exact D. cbn [positive] in PV. apply (ticks_multiples exec begin_run input); try assumption; lia.
Qed.

Lemma no_file_writes : forall fuel eps a start rs dflt endt w w' tr,
  moves eps a start dflt endt -> positive_periods a -> input_ahead input (a_dt a) -> a_out a = false ->
  sexecute exec begin_run act input fuel eps a start rs dflt w = (w', tr, SDone) -> write_times tr = [].
Proof.
  intros fuel eps a start rs dflt endt w w' tr M PP IA AO R.
  destruct (resolve_moves exec begin_run input _ _ _ _ _ M) as (RO & D & LE). destruct M as (RE & _).
  apply (requested_resolves exec begin_run input) in RE.
  destruct (sexecute_spec exec begin_run act input _ _ _ _ _ _ _ _ _ _ _ RE RO D PP IA LE R) as [_ B].
  destruct (B eq_refl) as (_ & WT & _). rewrite AO in WT. exact WT.
Qed.
End P.
