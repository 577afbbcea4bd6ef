(** Proofs for C51: the loop of pset.execute with its writes. *)
From Coq Require Import String List ZArith Bool Lia ZifyBool Permutation Sorted.
From Verif Require Import CollModel KLoopModel KLoopSpec SchedModel SchedSpec SchedProofs SplitSpec SplitProofs3 OutModel OutSpec OutProofs RunSpec
  TrajModel TrajSpec TrajProofs TrajProofs2.
Import ListNotations.
Open Scope Z_scope.

Lemma window_end_prefix : forall dt endt t nx nin, dt <> 0 ->
  0 <= Z.sgn dt * (t - window_end dt endt nx nin) -> 0 <= Z.sgn dt * (endt - t) -> window_end dt t nx nin = window_end dt endt nx nin.
Proof.
  intros dt endt t nx nin D. unfold window_end, closest. destruct (0 <? dt) eqn:B.
  - replace (Z.sgn dt) with 1 by lia. destruct (nx KRelease), nin, (nx KOutput), (nx KMovie), (nx KCallback); lia.
  - replace (Z.sgn dt) with (-1) by lia. destruct (nx KRelease), nin, (nx KOutput), (nx KMovie), (nx KCallback); lia.
Qed.

Lemma inv_step : forall {W} (act : kind -> W -> Z -> Z -> W) dt endt time per out cbs nx nin w nx2 w2 tr2 nin', dt <> 0 ->
  inv dt time per nx nin -> 0 < Z.sgn dt * (endt - time) ->
  serve act dt per out cbs (window_end dt endt nx nin) kinds nx w = (nx2, w2, tr2) ->
  ahead dt (window_end dt endt nx nin) nin' -> inv dt (window_end dt endt nx nin) per nx2 nin'.
Proof.
  intros W act dt endt time per out cbs nx nin w nx2 w2 tr2 nin' D INV LT SV AN.
  pose proof (window_end_after _ _ _ _ _ _ D INV LT) as WA. pose proof (fun k n => window_end_le_next dt endt nx nin k n D) as WN.
  set (t1 := window_end dt endt nx nin) in *. assert (S1 : Z.sgn dt = 1 \/ Z.sgn dt = -1) by lia.
  destruct (serve_kinds _ _ _ _ _ _ _ _ _ _ _ SV) as [_ SK].
  destruct INV as (A & P & N & _). split; [|split; [exact P|split; [|exact AN]]].
  - intros k. destruct (SK k) as [_ ->]. unfold due. specialize (A k). specialize (P k). specialize (N k). specialize (WN k).
    destruct (nx k) as [n|] eqn:NX; [|exact I]. destruct (per k) as [p|] eqn:PK; [|exfalso; destruct N; intuition congruence].
    specialize (WN n eq_refl). cbn [ahead positive] in *. destruct (t1 =? n) eqn:TQ; cbn [ahead]; destruct S1 as [S1|S1]; rewrite S1 in *; lia.
  - intros k. destruct (SK k) as [_ ->]. unfold due. specialize (N k).
    destruct (nx k) as [n|], (per k) as [p|]; try (destruct (t1 =? n)); split; intros; try congruence;
      destruct N as [N1 N2]; try (specialize (N1 eq_refl); congruence); try (specialize (N2 eq_refl); congruence).
Qed.

Section Loop.
Context {E X H V : Type}.
Notation pcl := (pcl X).
Notation ids := (map (@q_id X)).
Variable val : string -> pcl -> V.
Variables (jit : bool) (K : E -> pcl -> E * kres X) (interp : handlers E X H) (lf rf : nat) (atol : Z) (user : Z -> option H) (e : E).
Variables (batch : Z -> list pcl) (next : Z -> option Z) (dt : Z).
Hypothesis D : dt <> 0.
Hypothesis RA : reads_ahead dt next.

Notation wloop := (sloop (wexec jit K interp lf rf atol user true e) (wact batch) (fun w t _ => Some (w, next t))).
Notation ploop := (sloop (mode_exec jit K interp lf rf atol user true e) (only_release batch) (announces next)).

Lemma ids_set_dt : forall (ps : list pcl) d, ids (set_all_dt ps d) = ids ps.
Proof. intros. unfold set_all_dt. rewrite map_map. reflexivity. Qed.

Lemma serve_cons : forall {W} (act : kind -> W -> Z -> Z -> W) per out cbs t k ks nx w,
  serve act dt per out cbs t (k :: ks) nx w =
  match nx k, per k with
  | Some n, Some p => if t =? n then
      let '(nx2, w2, tr) := serve act dt per out cbs t ks (upd nx k (Some (n + p * Z.sgn dt))) (match event_of out cbs k t with [] => w | _ => act k w t dt end) in
      (nx2, w2, event_of out cbs k t ++ tr)
    else serve act dt per out cbs t ks nx w
  | _, _ => serve act dt per out cbs t ks nx w
  end.
Proof. reflexivity. Qed.

Lemma serve_written : forall per cbs t nx ps log nx' w' tr, serve (wact batch) dt per true cbs t kinds nx (ps, log) = (nx', w', tr) ->
  exists r w : bool, fst w' = ps ++ (if r then set_all_dt (batch t) dt else []) /\
    snd w' = log ++ (if w then [(t, DFalse, fst w')] else []) /\
    release_times tr = (if r then [t] else []) /\ write_times tr = (if w then [t] else []).
Proof.
  intros per cbs t nx ps log nx' w' tr Q. unfold kinds in Q.
  assert (TL : forall ks nx (w : list pcl * list (wcall X)) nx' w' tr, Forall (fun k => k = KMovie \/ k = KCallback) ks ->
    serve (wact batch) dt per true cbs t ks nx w = (nx', w', tr) -> w' = w /\ release_times tr = [] /\ write_times tr = []).
  { clear. induction ks as [|k ks IH]; intros nx w nx' w' tr F Q; [inversion Q; auto|]. pose proof (Forall_inv F) as FK. pose proof (Forall_inv_tail F) as FT. rewrite serve_cons in Q.
    destruct (nx k) as [n|]; [|eapply IH; eassumption]. destruct (per k) as [p|]; [|eapply IH; eassumption]. destruct (t =? n); [|eapply IH; eassumption].
    match type of Q with context [serve ?a ?b ?c ?d ?e0 ?f ?g ?h ?i] => destruct (serve a b c d e0 f g h i) as [[nx2 w2] tr2] eqn:SV end.
    apply IH in SV; [|assumption]. destruct SV as (-> & B & C). inversion Q; subst.
    destruct FK as [-> | ->]; cbn [event_of wact app]; [cbn; auto|destruct cbs; cbn; auto]. }
  assert (MID : forall nx (w : list pcl * list (wcall X)) nx' w' tr, serve (wact batch) dt per true cbs t [KOutput; KMovie; KCallback] nx w = (nx', w', tr) ->
    exists b : bool, fst w' = fst w /\ snd w' = snd w ++ (if b then [(t, DFalse, fst w)] else []) /\ release_times tr = [] /\ write_times tr = if b then [t] else []).
  { intros nx0 w0 nx1 w1 tr1 Q1. rewrite serve_cons in Q1.
    assert (NO : serve (wact batch) dt per true cbs t [KMovie; KCallback] nx0 w0 = (nx1, w1, tr1) ->
      exists b : bool, fst w1 = fst w0 /\ snd w1 = snd w0 ++ (if b then [(t, DFalse, fst w0)] else []) /\ release_times tr1 = [] /\ write_times tr1 = if b then [t] else []).
    { intros Q2. apply TL in Q2; [|auto]. destruct Q2 as (-> & B & C). exists false. rewrite app_nil_r. auto. }
    destruct (nx0 KOutput) as [n|]; [|auto]. destruct (per KOutput) as [p|]; [|auto]. destruct (t =? n); [|auto].
    match type of Q1 with context [serve ?a ?b ?c ?d ?e0 ?f ?g ?h ?i] => destruct (serve a b c d e0 f g h i) as [[nx2 w2] tr2] eqn:SV end.
    apply TL in SV; [|auto]. destruct SV as (-> & B & C). inversion Q1; subst. exists true. cbn [event_of wact fst snd app release_times write_times flat_map] in *.
    split; [reflexivity|]. split; [reflexivity|]. split; [exact B|]. f_equal. exact C. }
  rewrite serve_cons in Q.
  assert (NO : serve (wact batch) dt per true cbs t [KOutput; KMovie; KCallback] nx (ps, log) = (nx', w', tr) ->
    exists r w : bool, fst w' = ps ++ (if r then set_all_dt (batch t) dt else []) /\
    snd w' = log ++ (if w then [(t, DFalse, fst w')] else []) /\
    release_times tr = (if r then [t] else []) /\ write_times tr = (if w then [t] else [])).
  { intros Q1. apply MID in Q1. destruct Q1 as (b & F & L & R & W). exists false, b. rewrite app_nil_r. rewrite F, L. cbn [fst snd] in *. auto. }
  destruct (nx KRelease) as [n|]; [|auto]. destruct (per KRelease) as [p|]; [|auto]. destruct (t =? n); [|auto].
  match type of Q with context [serve ?a ?b ?c ?d ?e0 ?f ?g ?h ?i] => destruct (serve a b c d e0 f g h i) as [[nx2 w2] tr2] eqn:SV end.
  apply MID in SV. destruct SV as (b & F & L & R & W). inversion Q; subst. exists true, b. rewrite F, L. cbn [event_of wact fst snd release_times write_times flat_map app] in *.
  split; [reflexivity|]. split; [reflexivity|]. split; [f_equal; exact R|exact W].
Qed.

Definition after (t : Z) (js : list Z) (log : list (wcall X)) : Prop :=
  (last_reg None log = Some t \/ kept val dt t js log) /\ forall t2, 0 < Z.sgn dt * (t2 - t) -> kept val dt t2 js log.

Lemma after_kept : forall t js log, kept val dt t js log -> after t js log.
Proof. intros t js log KP. split; [right; exact KP|]. intros t2 L. eapply kept_later; [exact D| |exact KP]. lia. Qed.

Lemma after_write : forall t (ps : list pcl) log, kept val dt t (ids ps) log -> after t (ids ps) (log ++ [(t, DFalse, ps)]).
Proof.
  intros t ps log KP. split.
  - left. rewrite last_reg_app. reflexivity.
  - intros t2 L. apply kept_write; assumption.
Qed.

Lemma wexec_inv : forall ps log t w1, wexec jit K interp lf rf atol user true e (ps, log) t dt = Some w1 ->
  exists dl, snd w1 = log ++ dl /\ deletions t (ids ps) dl (ids (fst w1)) /\
    mode_exec jit K interp lf rf atol user true e ps t dt = Some (fst w1).
Proof.
  intros ps log t w1 Q. unfold wexec in Q. rewrite mode_same. cbn [fst snd] in Q.
  destruct (mode_wexecute _ _ _ _ _ _ _ _ _ _ _ _) as [[ps' dl] []] eqn:M; try discriminate. inversion Q; subst. cbn [fst snd].
  exists dl. split; [reflexivity|]. split; [eapply mode_deletions, M|reflexivity].
Qed.

Lemma deletions_regular : forall t js (dl : list (wcall X)) js', deletions t js dl js' -> regular dl = [].
Proof. induction 1; [reflexivity|]. cbn [regular flat_map app]. exact IHdeletions. Qed.

Lemma released_app : forall a b, released batch (a ++ b) = released batch a ++ released batch b.
Proof. intros. unfold released, release_times. rewrite !flat_map_app. reflexivity. Qed.
Lemma write_times_app : forall a b, write_times (a ++ b) = write_times a ++ write_times b.
Proof. intros. apply flat_map_app. Qed.

(** One window. *)
Lemma window_kept : forall time endt per cbs nx nin ps log w1 nx2 w2 tr2 more,
  inv dt time per nx nin -> 0 < Z.sgn dt * (endt - time) -> after time (ids ps) log ->
  let t1 := window_end dt endt nx nin in
  wexec jit K interp lf rf atol user true e (ps, log) t1 dt = Some w1 ->
  serve (wact batch) dt per true cbs t1 kinds nx w1 = (nx2, w2, tr2) ->
  NoDup (ids ps ++ ids (gone_of log) ++ released batch tr2 ++ more) -> Forall (fun i => 0 <= i) (released batch tr2) ->
  after t1 (ids (fst w2)) (snd w2) /\
  Permutation (ids (fst w2) ++ ids (gone_of (snd w2))) (ids ps ++ ids (gone_of log) ++ released batch tr2) /\
  map fst (regular (snd w2)) = map fst (regular log) ++ write_times tr2.
Proof.
  intros time endt per cbs nx nin ps log [ps1 log1] nx2 w2 tr2 more INV LT [_ AF] t1 EX SV ND PO.
  pose proof (window_end_after _ _ _ _ _ _ D INV LT) as WA. fold t1 in WA.
  apply wexec_inv in EX. cbn [fst snd] in EX. destruct EX as (dl & -> & DL & _). specialize (AF t1 WA).
  destruct (kept_deletions val dt _ _ _ _ DL _ AF) as [KP PM].
  destruct (serve_written _ _ _ _ _ _ _ _ _ SV) as (r & w & F & L & R & W).
  assert (REL : released batch tr2 = if r then ids (batch t1) else []) by (unfold released; rewrite R; destruct r; cbn [flat_map]; [apply app_nil_r|reflexivity]).
  assert (IDS : ids (fst w2) = ids ps1 ++ released batch tr2) by (rewrite F, map_app, REL; f_equal; destruct r; [apply ids_set_dt|reflexivity]).
  assert (K2 : kept val dt t1 (ids (fst w2)) (log ++ dl)).
  { rewrite IDS. apply kept_release; [exact KP| |exact PO]. rewrite app_assoc.
    rewrite app_assoc in ND. rewrite app_assoc in ND. destruct (nodup_app_inv _ _ ND) as (N1 & _ & _).
    eapply Permutation_NoDup; [|exact N1]. apply Permutation_app_tail. apply Permutation_sym. exact PM. }
  assert (GN : gone_of (snd w2) = gone_of (log ++ dl)) by (rewrite L, gone_app; destruct w; cbn [gone_of flat_map]; apply app_nil_r).
  split; [|split].
  - rewrite L. destruct w; [apply after_write; exact K2|rewrite app_nil_r; apply after_kept; exact K2].
  - rewrite GN, IDS, <- app_assoc. rewrite (Permutation_app_comm (released batch tr2)). rewrite app_assoc, PM, <- app_assoc. reflexivity.
  - rewrite L, regular_app, regular_app, (deletions_regular _ _ _ _ DL), app_nil_r, map_app, W. f_equal. destruct w; reflexivity.
Qed.

Lemma loop_kept : forall fuel endt per cbs time nx nin ps log t w' tr,
  inv dt time per nx nin -> 0 <= Z.sgn dt * (endt - time) -> after time (ids ps) log ->
  NoDup (ids ps ++ ids (gone_of log) ++ released batch tr) -> Forall (fun i => 0 <= i) (released batch tr) ->
  wloop fuel dt endt per true cbs time nx nin (ps, log) = (t, w', tr, SDone) ->
  after t (ids (fst w')) (snd w') /\
  Permutation (ids (fst w') ++ ids (gone_of (snd w'))) (ids ps ++ ids (gone_of log) ++ released batch tr) /\
  map fst (regular (snd w')) = map fst (regular log) ++ write_times tr.
Proof.
  induction fuel as [|f IH]; intros endt per cbs time nx nin ps log t w' tr INV LE AF ND PO R; cbn [sloop] in R;
    destruct (((time <? endt) && (0 <? dt)) || ((endt <? time) && (dt <? 0)) || (dt =? 0)) eqn:C;
    try (inversion R; subst; cbn [fst snd released release_times write_times flat_map]; rewrite !app_nil_r; split; [exact AF|]; split; reflexivity);
    try discriminate.
  assert (LT : 0 < Z.sgn dt * (endt - time)) by lia.
  pose proof (window_end_le_end dt endt nx nin D) as WE.
  destruct (wexec jit K interp lf rf atol user true e (ps, log) (window_end dt endt nx nin) dt) as [w1|] eqn:EX; [|discriminate].
  destruct (serve (wact batch) dt per true cbs (window_end dt endt nx nin) kinds nx w1) as [[nx2 w2] tr2] eqn:SV.
  replace (dt =? 0) with false in R by lia. set (t1 := window_end dt endt nx nin) in *.
  assert (GO : forall nin' tr3 tr', ahead dt t1 nin' -> wloop f dt endt per true cbs t1 nx2 nin' w2 = (t, w', tr3, SDone) ->
    released batch tr' = released batch tr2 ++ released batch tr3 -> write_times tr' = write_times tr2 ++ write_times tr3 -> tr = tr' ->
    after t (ids (fst w')) (snd w') /\
    Permutation (ids (fst w') ++ ids (gone_of (snd w'))) (ids ps ++ ids (gone_of log) ++ released batch tr) /\
    map fst (regular (snd w')) = map fst (regular log) ++ write_times tr).
  { intros nin' tr3 tr' AH L RT WT ->. rewrite RT in ND, PO |- *. rewrite WT. apply Forall_app in PO. destruct PO as [PO1 PO2].
    destruct (window_kept time endt per cbs nx nin ps log w1 nx2 w2 tr2 _ INV LT AF EX SV ND PO1) as (A1 & P1 & R1).
    destruct w2 as [ps2 log2]. cbn [fst snd] in *.
    destruct (IH endt per cbs t1 nx2 nin' ps2 log2 t w' tr3) as (A2 & P2 & R2); try assumption.
    - eapply inv_step; eassumption.
    - rewrite app_assoc. eapply Permutation_NoDup; [|exact ND]. rewrite !app_assoc. apply Permutation_app_tail. rewrite <- app_assoc. apply Permutation_sym. exact P1.
    - split; [exact A2|]. split; [|rewrite R2, R1, app_assoc; reflexivity].
      rewrite P2, app_assoc, P1, <- !app_assoc. reflexivity. }
  destruct (t1 =? endt) eqn:TE.
  - destruct (wloop f dt endt per true cbs t1 nx2 nin w2) as [[[t3 w3] tr3] r3] eqn:L. inversion R; subst.
    assert (T1 : t1 = endt) by lia.
    (* the loop is over *)
    assert (Q : tr3 = [] /\ w' = w2 /\ t = t1).
    { clearbody t1. clear - L T1 D. subst t1. destruct f; cbn [sloop] in L;
        replace (((endt <? endt) && (0 <? dt)) || ((endt <? endt) && (dt <? 0)) || (dt =? 0)) with false in L by lia; inversion L; subst; auto. }
    destruct Q as (-> & -> & ->). rewrite app_nil_r in *.
    change (released batch (SExec t1 :: tr2)) with (released batch tr2) in *. change (write_times (SExec t1 :: tr2)) with (write_times tr2).
    apply (window_kept time endt per cbs nx nin ps log w1 nx2 w2 tr2 [] INV LT AF EX SV); [rewrite app_nil_r; exact ND|exact PO].
  - destruct (wloop f dt endt per true cbs t1 nx2 (next t1) w2) as [[[t3 w3] tr3] r3] eqn:L. inversion R; subst.
    apply (GO (next t1) tr3 (SExec t1 :: tr2 ++ SInput t1 :: tr3)); try reflexivity; try assumption.
    + destruct (next t1) as [n|] eqn:NX; [|exact I]. cbn. apply RA. exact NX.
    + change (released batch (SExec t1 :: tr2 ++ SInput t1 :: tr3)) with (released batch (tr2 ++ SInput t1 :: tr3)). rewrite released_app. reflexivity.
    + change (write_times (SExec t1 :: tr2 ++ SInput t1 :: tr3)) with (write_times (tr2 ++ SInput t1 :: tr3)). rewrite write_times_app. reflexivity.
Qed.

Lemma serve_plain : forall per cbs t nx (w : list pcl * list (wcall X)) nx' w' tr,
  serve (wact batch) dt per true cbs t kinds nx w = (nx', w', tr) ->
  serve (only_release batch) dt per true cbs t kinds nx (fst w) = (nx', fst w', tr).
Proof.
  intros. eapply (serve_map fst); [|eassumption]. intros k w0 t0 d. destruct k; reflexivity.
Qed.

(** Every regular write holds the particles of the loop that stops there. *)
Lemma loop_prefix : forall fuel endt per cbs time nx nin ps log t w' tr,
  inv dt time per nx nin -> 0 <= Z.sgn dt * (endt - time) ->
  wloop fuel dt endt per true cbs time nx nin (ps, log) = (t, w', tr, SDone) ->
  forall s qs, In (s, qs) (regular (snd w')) -> In (s, qs) (regular log) \/
    0 < Z.sgn dt * (s - time) /\ 0 <= Z.sgn dt * (endt - s) /\ exists tr', ploop fuel dt s per true cbs time nx nin ps = (s, qs, tr', SDone).
Proof.
  induction fuel as [|f IH]; intros endt per cbs time nx nin ps log t w' tr INV LE R s qs I; cbn [sloop] in R;
    destruct (((time <? endt) && (0 <? dt)) || ((endt <? time) && (dt <? 0)) || (dt =? 0)) eqn:C;
    try (inversion R; subst; left; exact I); try discriminate.
  assert (LT : 0 < Z.sgn dt * (endt - time)) by lia.
  pose proof (window_end_le_end dt endt nx nin D) as WE. pose proof (window_end_after _ _ _ _ _ _ D INV LT) as WA.
  pose proof (fun s => window_end_prefix dt endt s nx nin D) as WP.
  destruct (wexec jit K interp lf rf atol user true e (ps, log) (window_end dt endt nx nin) dt) as [w1|] eqn:EX; [|discriminate].
  destruct (serve (wact batch) dt per true cbs (window_end dt endt nx nin) kinds nx w1) as [[nx2 w2] tr2] eqn:SV.
  assert (INV2 : forall nin', ahead dt (window_end dt endt nx nin) nin' -> inv dt (window_end dt endt nx nin) per nx2 nin')
    by (intros nin' AH; eapply inv_step; eassumption).
  replace (dt =? 0) with false in R by lia. set (t1 := window_end dt endt nx nin) in *.
  destruct (wexec_inv _ _ _ _ EX) as (dl & LG & DL & PX). destruct w1 as [ps1 log1]. cbn [fst snd] in *. subst log1.
  pose proof (serve_plain _ _ _ _ _ _ _ _ SV) as SP. cbn [fst] in SP.
  destruct (serve_written _ _ _ _ _ _ _ _ _ SV) as (rb & wb & F & L2 & _ & _).
  assert (HERE : In (s, qs) (regular (snd w2)) -> In (s, qs) (regular log) \/ s = t1 /\ qs = fst w2).
  { rewrite L2, !regular_app, (deletions_regular _ _ _ _ DL), app_nil_r, in_app_iff. intros [J|J]; [left; exact J|].
    destruct wb; [|contradiction]. destruct J as [J|[]]. inversion J; subst. right. auto. }
  (* the shorter loop gets through the same window *)
  assert (SAME : forall r, 0 <= Z.sgn dt * (s - t1) -> 0 <= Z.sgn dt * (endt - s) ->
    (if t1 =? s then ploop f dt s per true cbs t1 nx2 nin (fst w2) = r else ploop f dt s per true cbs t1 nx2 (next t1) (fst w2) = r) ->
    snd r = SDone ->
    exists tr', ploop (S f) dt s per true cbs time nx nin ps = (fst (fst (fst r)), snd (fst (fst r)), tr', SDone)).
  { intros [[[t3 w3] tr3] r3] A B Q RD. cbn [fst snd] in *. subst r3. cbn [sloop].
    replace (((time <? s) && (0 <? dt)) || ((s <? time) && (dt <? 0)) || (dt =? 0)) with true by lia.
    rewrite (WP s A B). fold t1. rewrite PX. rewrite SP. replace (dt =? 0) with false by lia.
    destruct (t1 =? s); [|unfold announces at 1]; rewrite Q; eauto. }
  assert (STOP : s = t1 -> qs = fst w2 -> 0 < Z.sgn dt * (s - time) /\ 0 <= Z.sgn dt * (endt - s) /\
     exists tr', ploop (S f) dt s per true cbs time nx nin ps = (s, qs, tr', SDone)).
  { intros -> ->. split; [lia|]. split; [lia|].
    destruct (SAME (t1, fst w2, [], SDone)) as (tr' & Q); cbn [fst snd] in *; [lia|lia| |reflexivity|exists tr'; exact Q].
    rewrite Z.eqb_refl. destruct f; cbn [sloop]; replace (((t1 <? t1) && (0 <? dt)) || ((t1 <? t1) && (dt <? 0)) || (dt =? 0)) with false by lia; reflexivity. }
  destruct (t1 =? endt) eqn:TE.
  - destruct (wloop f dt endt per true cbs t1 nx2 nin w2) as [[[t3 w3] tr3] r3] eqn:L. inversion R; subst.
    assert (T1 : t1 = endt) by lia.
    assert (Q : w' = w2).
    { clearbody t1. clear - L T1 D. subst t1. destruct f; cbn [sloop] in L;
        replace (((endt <? endt) && (0 <? dt)) || ((endt <? endt) && (dt <? 0)) || (dt =? 0)) with false in L by lia; inversion L; subst; auto. }
    subst w'. destruct (HERE I) as [J|[A B]]; [left; exact J|right; apply STOP; assumption].
  - destruct (wloop f dt endt per true cbs t1 nx2 (next t1) w2) as [[[t3 w3] tr3] r3] eqn:L. inversion R; subst.
    destruct w2 as [ps2 log2]. cbn [fst snd] in *.
    assert (AH : ahead dt t1 (next t1)) by (destruct (next t1) as [n|] eqn:NX; [cbn; apply RA; exact NX|exact Logic.I]).
    destruct (IH endt per cbs t1 nx2 (next t1) ps2 (log ++ dl ++ (if wb then [(t1, DFalse, fst (ps2, log2))] else [])) t w' tr3 (INV2 _ AH) WE) with (s := s) (qs := qs) as [J|J].
    + rewrite <- L. rewrite L2, <- app_assoc. reflexivity.
    + exact I.
    + assert (J2 : In (s, qs) (regular log2)) by (rewrite L2, <- app_assoc; exact J).
      destruct (HERE J2) as [J3|[A B]]; [left; exact J3|right; apply STOP; assumption].
    + right. destruct J as (A & B & (tr' & Q)). split; [lia|]. split; [exact B|].
      destruct (SAME (s, qs, tr', SDone)) as (tr2' & Q2); cbn [fst snd] in *; [lia|exact B| |reflexivity|exists tr2'; exact Q2].
      replace (t1 =? s) with false by lia. exact Q.
Qed.
End Loop.
