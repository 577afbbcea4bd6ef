(** Whole-set statements: tiling (C07), deletion (C10), dispatch (C11), zero-length runs (C13). *)
From Coq Require Import List ZArith Bool Lia ZifyBool.
From Verif Require Import CollModel KLoopModel KLoopSpec KLoopProofs KLoopRecProofs KLoopStepProofs
  KLoopRelProofs KLoopMoreProofs KLoopEqProofs.
Import ListNotations.
Open Scope Z_scope.

Ltac Zify.zify_post_hook ::= Z.div_mod_to_equations.

Section SetLevel.
Context {E X H : Type}.
Notation pcl := (pcl X).
Notation ev := (ev H).
Variable K : E -> pcl -> E * kres X.
Variable interp : handlers E X H.
Notation ids := (map (@q_id X)).

Opaque py_loop c_loop.

(** ** C07 *)

Lemma calls_app : forall id (a b : list ev), calls_of id (a ++ b) = calls_of id a ++ calls_of id b.
Proof. intros. apply flat_map_app. Qed.

Lemma calls_events : forall id (tr : list ev), calls_of id tr = calls_of id (events_of id tr).
Proof.
  induction tr as [|v t IH]; [reflexivity|]. unfold events_of in *.
  destruct v; cbn [calls_of flat_map filter ev_about].
  - destruct (id0 =? id) eqn:B; cbn [calls_of flat_map]; [rewrite B; cbn [app]; f_equal|]; exact IH.
  - destruct (id0 =? id); exact IH.
  - destruct (id0 =? id); exact IH.
  - exact IH.
Qed.

Lemma calls_success : forall id l, calls_of (H:=H) id (map (success_call id) l) = l.
Proof.
  induction l as [|[t h] l IH]; [reflexivity|]. cbn [map success_call calls_of flat_map].
  rewrite Z.eqb_refl. cbn [app fst snd]. f_equal. exact IH.
Qed.

Lemma pass_total : forall {S} (one : S -> pcl -> option (S * pcl * list ev)) (ok : pcl -> Prop),
  (forall s p, ok p -> one s p <> None) ->
  forall ps s, Forall ok ps -> pass one s ps <> None.
Proof.
  intros S one ok HO. induction ps as [|p t IH]; intros s F; cbn [pass]; [discriminate|].
  apply Forall_cons_iff in F. destruct F as [FP FT]. specialize (HO s p FP).
  destruct (one s p) as [[[s1 p1] tr1]|]; [|congruence]. specialize (IH s1 FT).
  destruct (pass one s1 t) as [[[s2 ps2] tr2]|]; [discriminate|congruence].
Qed.

Lemma plain_honest : plain_kernel K -> honest_kernel K.
Proof. intros PK e p. destruct (PK e p) as (A & B & C & _). auto. Qed.

Lemma rounds_none : forall {S} fuel (rp : S -> list pcl -> option (S * list pcl * list ev)) ge pe rmap out s ps,
  existsb in_error ps = false -> rounds interp fuel rp ge pe rmap out s ps = (s, ps, [], XDone).
Proof. intros S [|f] rp ge pe rmap out s ps Q; cbn [rounds]; rewrite Q; reflexivity. Qed.

Lemma py_execute_plain : forall lf rf atol dt endt user out e ps,
  plain_kernel K -> 0 <= atol -> atol < Z.abs dt -> NoDup (ids ps) ->
  Forall (fun p => (Z.to_nat (Z.abs (endt - q_time p)) < lf)%nat) ps ->
  exists e' ps' tr,
    py_execute K interp lf rf atol dt endt user out e ps = (e', ps', tr, XDone) /\
    ids ps' = ids ps /\
    forall p, In p ps -> before_end atol dt endt p -> atol < Z.abs (q_dt p) ->
      exists p', In p' ps' /\ q_id p' = q_id p /\
                 tiled_to_end atol dt endt p p' (calls_of (q_id p) tr).
Proof.
  intros lf rf atol dt endt user out e ps PK A D ND FU.
  unfold py_execute, execute, py_pass. set (ps0 := map (fun p => set_st p st_Evaluate) ps). cbn zeta.
  assert (ID0 : ids ps0 = ids ps) by apply ids_reset.
  assert (ND0 : NoDup (ids ps0)) by (rewrite ID0; exact ND).
  assert (FU0 : Forall (fun p => (Z.to_nat (Z.abs (endt - q_time p)) < lf)%nat) ps0).
  { unfold ps0. apply Forall_map. exact FU. }
  assert (ST0 : Forall (fun p => q_st p = st_Evaluate) ps0).
  { unfold ps0. apply Forall_map. apply Forall_forall. reflexivity. }
  pose proof (pass_total (py_particle (H:=H) K lf atol dt endt) _
     (fun s p FP => py_particle_total K lf atol dt endt s p (plain_honest PK) A D FP) ps0 e FU0) as PT.
  destruct (pass (py_particle K lf atol dt endt) e ps0) as [[[e1 ps1] tr1]|] eqn:PA; [|congruence]. clear PT.
  pose proof (pass_each_raw (E:=E) _ (fun s p s' p' tr => py_particle_ok K lf atol dt endt s p s' p' tr)
     (fun e => e) (fun _ e => e) (fun _ => None) _ _ _ _ _ PA ND0) as PE.
  assert (ONE : forall p, In p ps0 -> exists s p1 s', In p1 ps1 /\
            py_particle K lf atol dt endt s p = Some (s', p1, events_of (q_id p) tr1)).
  { intros p IP. destruct (Forall2_in_l _ _ _ _ PE IP) as (p1 & IP1 & O1). firstorder. }
  assert (ONEr : forall p1, In p1 ps1 -> exists s p s' tr, In p ps0 /\
            py_particle (H:=H) K lf atol dt endt s p = Some (s', p1, tr)).
  { intros p1 IP1. destruct (Forall2_in_r _ _ _ _ PE IP1) as (p & IP & O1). firstorder eauto. }
  assert (NE : forall p1, In p1 ps1 -> in_error p1 = false).
  { intros p1 IP1. destruct (ONEr _ IP1) as (s & p & s' & tr & IP & O).
    rewrite Forall_forall in ST0, FU0. specialize (ST0 _ IP). specialize (FU0 _ IP). cbn beta in FU0.
    destruct (Z_lt_ge_dec atol (Z.abs (q_dt p))) as [DT|DT].
    - destruct (negb (Z.sgn (endt - q_time p) =? Z.sgn dt) || close0 atol (Z.abs (endt - q_time p))) eqn:B.
      + unfold py_particle in O.
        replace ((negb (Z.sgn (endt - q_time p) =? Z.sgn dt)
                  || close0 atol (Z.min (Z.abs (q_dt p)) (Z.abs (endt - q_time p)))) && negb (close0 atol dt))
          with true in O by (unfold close0 in *; lia).
        unfold in_error. destruct (_ <=? _) in O; inversion O; subst; cbn [set_st q_st]; [reflexivity|].
        rewrite ST0. reflexivity.
      + assert (BE : before_end atol dt endt p) by (unfold before_end, close0 in *; lia).
        destruct (py_particle_plain (H:=H) K lf atol dt endt s p PK A D ST0 BE DT FU0)
          as (e2 & p2 & fr & tl & hl & O2 & _ & _ & _ & _ & SS).
        rewrite O in O2. inversion O2; subst. unfold in_error. destruct SS as [_ SS]. rewrite SS. reflexivity.
    - unfold py_particle in O.
      replace ((negb (Z.sgn (endt - q_time p) =? Z.sgn dt)
                || close0 atol (Z.min (Z.abs (q_dt p)) (Z.abs (endt - q_time p)))) && negb (close0 atol dt))
        with true in O by (unfold close0 in *; lia).
      unfold in_error. destruct (_ <=? _) in O; inversion O; subst; cbn [set_st q_st]; [reflexivity|].
      rewrite ST0. reflexivity. }
  assert (EX : existsb in_error ps1 = false).
  { destruct (existsb in_error ps1) eqn:B; [|reflexivity]. apply existsb_exists in B.
    destruct B as (q & IQ & BQ). rewrite (NE _ IQ) in BQ. discriminate. }
  assert (RD : remove_deleted (H:=H) out ps1 = (ps1, [])).
  { assert (G1 : filter is_deleted ps1 = [] /\ filter (fun p => negb (is_deleted p)) ps1 = ps1).
    { clear - NE. induction ps1 as [|p t IH]; [auto|].
      assert (NDP : is_deleted p = false).
      { specialize (NE p (or_introl eq_refl)). unfold in_error in NE. unfold is_deleted. codes. lia. }
      cbn [filter]. rewrite NDP. cbn [negb]. destruct IH as [I1 I2]; [intros; apply NE; right; assumption|].
      split; [exact I1|f_equal; exact I2]. }
    destruct G1 as [G1 G2]. unfold remove_deleted. rewrite G1, G2. reflexivity. }
  rewrite RD, rounds_none by exact EX.
  exists e1, ps1, (tr1 ++ [] ++ []). split; [reflexivity|]. cbn [app]. rewrite app_nil_r.
  split.
  { rewrite <- ID0. eapply (pass_ids _ (fun s p s' p' tr => py_particle_ok K lf atol dt endt s p s' p' tr)); exact PA. }
  intros p IP BE DT.
  assert (IP0 : In (set_st p st_Evaluate) ps0) by (unfold ps0; apply (in_map (fun p => set_st p st_Evaluate)); exact IP).
  destruct (ONE _ IP0) as (s & p1 & s' & IP1 & O).
  rewrite Forall_forall in FU0. specialize (FU0 _ IP0).
  destruct (py_particle_plain (H:=H) K lf atol dt endt s (set_st p st_Evaluate) PK A D eq_refl BE DT FU0)
    as (e2 & p2 & fr & tl & hl & O2 & T & F & HL & EN & SS).
  rewrite O in O2. cbn [set_st q_id q_time q_dt] in *.
  assert (p2 = p1) by congruence. subst p2.
  assert (EV : events_of (q_id p) tr1 = map (success_call (q_id p)) (fr ++ [(tl, hl)])) by congruence.
  exists p1. split; [exact IP1|]. split; [destruct SS; assumption|].
  exists fr, tl, hl. rewrite calls_events, EV, calls_success. auto.
Qed.

(** ** C10 *)

Definition deletion_statement (ps : list pcl) (out : bool) (ps' : list pcl) (tr : list ev) (r : xstat) : Prop :=
  (forall id v a b, tr = a ++ v :: b -> deleting id v -> events_of id b = []) /\
  (exists keep, ids ps' = filter keep (ids ps)) /\
  (r = XDone -> forall id, In id (ids ps') <-> In id (ids ps) /\ ~ deleted_in id tr) /\
  (out = true -> NoDup (written_deleted tr)) /\
  (out = true -> r = XDone ->
     forall id, In id (written_deleted tr) <-> In id (ids ps) /\ deleted_in id tr).

Lemma deleting_about : forall id (v : ev), deleting id v -> ev_about id v = true.
Proof. intros id v D. destruct v; cbn [deleting ev_about] in *; try (destruct D; subst); subst; try contradiction; apply Z.eqb_refl. Qed.

Lemma deleted_in_events : forall id (tr : list ev), deleted_in id tr <-> exists v, In v (events_of id tr) /\ deleting id v.
Proof.
  intros. unfold deleted_in, events_of. split; intros (v & I & D); exists v; split; auto.
  - apply filter_In. split; [exact I|]. apply deleting_about; exact D.
  - apply filter_In in I. tauto.
Qed.

Lemma events_about : forall id (tr : list ev), Forall (fun v => ev_about id v = true) (events_of id tr).
Proof. intros. apply Forall_forall. intros v I. apply filter_In in I. tauto. Qed.

Lemma ex_statement_deletion : forall rmap ps out ps' tr r,
  ex_statement rmap ps out ps' tr r -> deletion_statement ps out ps' tr r.
Proof.
  intros rmap ps out ps' tr r (KK & FO & DI & DN & ST & RA & WF & WT & WD).
  assert (G : r = XDone -> forall id, In id (ids ps') <-> In id (ids ps) /\ ~ deleted_in id tr).
  { intros ->. intros id. split.
    - intros I. assert (I0 : In id (ids ps)).
      { destruct KK as [k KK]. rewrite KK in I. apply filter_In in I. tauto. }
      split; [exact I0|]. intros DE. destruct (DI id I0) as (b & DB & FB).
      destruct (disciplined_gone _ _ _ _ id DB (events_about id tr)) as [[_ G] _]; [discriminate|].
      rewrite (G (proj1 (deleted_in_events id tr) DE)) in FB. apply FB. exact I.
    - intros [I0 NDL]. destruct (DI id I0) as (b & DB & FB).
      destruct (disciplined_gone _ _ _ _ id DB (events_about id tr)) as [[G _] _]; [discriminate|].
      destruct b; cbn [final_ok] in FB; try contradiction; try exact FB.
      exfalso. apply NDL. apply (proj2 (deleted_in_events id tr)). apply G. reflexivity. }
  split; [|split; [exact KK|split; [exact G|split; [intros O; exact (proj1 (WT O))|]]]].
  - intros id v a b Q DV. subst tr.
    destruct (in_dec Z.eq_dec id (ids ps)) as [I|NI].
    + destruct (DI id I) as (c & DB & _).
      destruct (disciplined_gone _ _ _ _ id DB (events_about id _)) as [_ G2]; [discriminate|].
      eapply G2; [|exact DV]. rewrite events_of_app. f_equal.
      unfold events_of. cbn [filter]. rewrite (deleting_about _ _ DV). reflexivity.
    + specialize (FO id NI). rewrite events_of_app in FO. apply app_eq_nil in FO. destruct FO as [_ FO].
      unfold events_of in FO. cbn [filter] in FO. rewrite (deleting_about _ _ DV) in FO. discriminate.
  - intros O D id. split.
    + intros I. destruct (proj2 (WT O) _ I) as [I1 I2]. split; [exact I1|].
      assert (DEC : deleted_in id tr \/ ~ deleted_in id tr).
      { destruct (DI id I1) as (b & DB & _).
        destruct (disciplined_gone _ _ _ _ id DB (events_about id tr)) as [G1 _]; [discriminate|].
        rewrite deleted_in_events, <- G1. destruct (pend_dec b); auto. }
      destruct DEC as [Y|N]; [exact Y|]. exfalso. apply I2. apply (G D). auto.
    + intros [I DE]. apply (WD O D); [exact I|]. intros J. apply (G D) in J. tauto.
Qed.

Lemma py_execute_spec : forall lf rf atol dt endt user out e ps e' ps' tr r,
  NoDup (ids ps) ->
  py_execute K interp lf rf atol dt endt user out e ps = (e', ps', tr, r) ->
  ex_statement (recovery_map user) ps out ps' tr r.
Proof.
  intros lf rf atol dt endt user out e ps e' ps' tr r ND R.
  eapply (execute_spec interp (py_particle K lf atol dt endt)
    (fun s p s' p' tr => py_particle_ok K lf atol dt endt s p s' p' tr)
    (fun e => e) (fun _ e => e) (recovery_map user)); [reflexivity|exact R|exact ND].
Qed.

Lemma c_execute_spec : forall lf rf atol dt endt user out s ps s' ps' tr r,
  NoDup (ids ps) ->
  c_execute K interp lf rf atol dt endt user out s ps = (s', ps', tr, r) ->
  ex_statement (recovery_map user) ps out ps' tr r.
Proof.
  intros lf rf atol dt endt user out e ps e' ps' tr r ND R.
  eapply (execute_spec interp (c_one K lf atol dt endt)
    (fun s p s' p' tr => c_one_ok K lf atol dt endt s p s' p' tr)
    snd (fun s e => (fst s, e)) (recovery_map user)); [reflexivity|exact R|exact ND].
Qed.

(** ** C11 *)

Lemma recovery_map_in_force : forall user : Z -> option H, map_in_force user (recovery_map user).
Proof.
  intros user. unfold map_in_force, recovery_map. repeat split.
  - intros c h U. rewrite U. reflexivity.
  - intros h U1 U2. rewrite U1. cbn. rewrite U2. reflexivity.
  - intros U1 U2. rewrite U1. cbn. rewrite U2. reflexivity.
  - intros c U I. rewrite U. cbn [In] in I.
    destruct I as [<-|[<-|[<-|[<-|[]]]]]; reflexivity.
  - intros c U NI. rewrite U. cbn [In] in NI.
    destruct (c =? err_ThroughSurface) eqn:B; [exfalso; apply NI; apply Z.eqb_eq in B; subst c; tauto|].
    destruct (existsb (Z.eqb c) default_codes) eqn:EB; [|reflexivity].
    apply existsb_exists in EB. destruct EB as (x & IX & EQ). apply Z.eqb_eq in EQ. subst x.
    exfalso. apply NI. exact IX.
Qed.

(** ** C13 *)

Definition called_once (p : pcl) (v : ev) : Prop := exists c, v = ECall (q_id p) (q_time p) 0 c.
Definition moved_once (p p' : pcl) : Prop :=
  q_id p' = q_id p /\ q_time p' = q_time p /\ (in_error p' = false \/ is_deleted p' = true).

Lemma once_pass : forall {S} (one : S -> pcl -> option (S * pcl * list ev)) (okS : S -> Prop) (ok : pcl -> Prop),
  (forall s p, okS s -> ok p -> exists s' p' v,
     one s p = Some (s', p', [v]) /\ called_once p v /\ moved_once p p' /\ okS s') ->
  forall ps s, okS s -> Forall ok ps -> exists s' ps' tr,
    pass one s ps = Some (s', ps', tr) /\ Forall2 called_once ps tr /\ Forall2 moved_once ps ps'.
Proof.
  intros S one okS ok HO. induction ps as [|p t IH]; intros s SO F; cbn [pass].
  - exists s, [], []. repeat constructor.
  - apply Forall_cons_iff in F. destruct F as [FP FT].
    destruct (HO s p SO FP) as (s1 & p1 & v & O & C & M & SO1). rewrite O.
    destruct (IH s1 SO1 FT) as (s2 & ps2 & tr2 & P2 & C2 & M2). rewrite P2.
    exists s2, (p1 :: ps2), (v :: tr2). split; [reflexivity|]. split; constructor; assumption.
Qed.

Lemma called_calls : forall ps (tr : list ev), NoDup (ids ps) -> Forall2 called_once ps tr ->
  forall p, In p ps -> calls_of (q_id p) tr = [(q_time p, 0)].
Proof.
  assert (O : forall ps tr id, Forall2 called_once ps tr -> ~ In id (ids ps) -> calls_of id tr = []).
  { intros ps tr id F. induction F as [|p v l l' [c ->] F IH]; intros NI; [reflexivity|].
    cbn [map In] in NI. cbn [calls_of flat_map]. destruct (q_id p =? id) eqn:B; [apply Z.eqb_eq in B; tauto|].
    apply IH. tauto. }
  intros ps tr ND F. revert ND. induction F as [|p v l l' [c ->] F IH]; intros ND q IQ; [destruct IQ|].
  cbn [map] in ND. inversion ND as [|? ? N1 N2]; subst. cbn [calls_of flat_map]. destruct IQ as [<-|IQ].
  - rewrite Z.eqb_refl. cbn [app]. fold (calls_of (q_id p) l'). rewrite (O l l' (q_id p) F N1). reflexivity.
  - destruct (q_id p =? q_id q) eqn:B.
    + apply Z.eqb_eq in B. exfalso. apply N1. rewrite B. apply in_map. exact IQ.
    + cbn [app]. apply IH; assumption.
Qed.

Lemma execute_once : forall {S} (one : S -> pcl -> option (S * pcl * list ev)) ge pe (okS : S -> Prop) (ok : pcl -> Prop),
  (forall s p, okS s -> ok p -> exists s' p' v,
     one s p = Some (s', p', [v]) /\ called_once p v /\ moved_once p p' /\ okS s') ->
  forall rf user out s ps,
  okS s -> NoDup (ids ps) -> Forall (fun p => ok (set_st p st_Evaluate)) ps ->
  exists s' ps' tr,
    execute interp rf (pass one) ge pe user out s ps = (s', ps', tr, XDone) /\
    (forall p, In p ps -> calls_of (q_id p) tr = [(q_time p, 0)]) /\
    (forall p', In p' ps' -> exists p, In p ps /\ q_id p = q_id p' /\ q_time p = q_time p').
Proof.
  intros S one ge pe okS ok HO rf user out s ps SO ND F. unfold execute.
  set (ps0 := map (fun p => set_st p st_Evaluate) ps). cbn zeta.
  assert (F0 : Forall ok ps0) by (unfold ps0; apply Forall_map; exact F).
  destruct (once_pass one okS ok HO ps0 s SO F0) as (s1 & ps1 & tr1 & PA & C1 & M1). rewrite PA.
  assert (ND0 : NoDup (ids ps0)) by (unfold ps0; rewrite ids_reset; exact ND).
  rewrite remove_deleted_eq.
  rewrite rounds_none.
  2:{ clear - M1. induction M1 as [|p p' l l' (_ & _ & M) F IH]; [reflexivity|]. cbn [filter].
      destruct (is_deleted p') eqn:B; cbn [negb]; [exact IH|]. cbn [existsb]. rewrite IH, orb_false_r.
      destruct M as [M|M]; [exact M|discriminate]. }
  eexists s1, _, _. split; [reflexivity|]. split.
  - intros p IP.
    assert (IP0 : In (set_st p st_Evaluate) ps0) by (unfold ps0; apply (in_map (fun p => set_st p st_Evaluate)); exact IP).
    pose proof (called_calls _ _ ND0 C1 _ IP0) as CC. cbn [set_st q_id q_time] in CC.
    rewrite !calls_app, CC. cbn [app].
    assert (NC : calls_of (q_id p) (snd (remove_deleted (H:=H) out ps1)) = []).
    { unfold remove_deleted. cbn [snd]. destruct (filter is_deleted ps1); [reflexivity|]. destruct out; reflexivity. }
    rewrite remove_deleted_eq in NC. cbn [snd] in NC. rewrite NC. reflexivity.
  - intros p' IP'. apply filter_In in IP'. destruct IP' as [IP' _].
    destruct (Forall2_in_r _ _ _ _ M1 IP') as (q & IQ & Q1 & Q2 & _).
    unfold ps0 in IQ. apply in_map_iff in IQ. destruct IQ as (p & <- & IP).
    exists p. cbn [set_st q_id q_time] in *. auto.
Qed.

Lemma zero_outcome : forall same prev (r : kres X), same 0 0 = true -> k_dt r = 0 ->
  signalled prev r = st_Success \/ signalled prev r = op_Delete ->
  outcome same prev 0 r = signalled prev r /\ accepted (signalled prev r) = true.
Proof.
  intros same prev r S D SG. unfold outcome. rewrite D, S. cbn [negb]. rewrite andb_false_r.
  split; [reflexivity|]. unfold accepted. destruct SG as [-> | ->]; reflexivity.
Qed.

Lemma after_ok_moved : forall sg atol dt endt p c nd (r : kres X),
  c = st_Success \/ c = op_Delete -> k_time r = q_time p -> k_dt r = 0 ->
  moved_once p (fst (after_ok sg atol dt endt p c nd r)).
Proof.
  intros sg atol dt endt p c nd r C T D. unfold moved_once, after_ok. cbn [fst q_id q_time].
  split; [reflexivity|]. split; [lia|]. unfold in_error, is_deleted. cbn [q_st].
  destruct C as [-> | ->]; codes; cbn [Z.eqb Pos.eqb negb andb]; [|right; reflexivity].
  left. destruct (_ && _); reflexivity.
Qed.

Lemma py_execute_zero : forall lf rf atol endt user out e ps,
  zero_step_succeeds K -> 0 <= atol -> NoDup (ids ps) ->
  exists e' ps' tr,
    py_execute K interp (S lf) rf atol 0 endt user out e ps = (e', ps', tr, XDone) /\
    (forall p, In p ps -> calls_of (q_id p) tr = [(q_time p, 0)]) /\
    (forall p', In p' ps' -> exists p, In p ps /\ q_id p = q_id p' /\ q_time p = q_time p').
Proof.
  intros lf rf atol endt user out e ps ZS A ND.
  apply (execute_once (py_particle K (S lf) atol 0 endt) (fun e => e) (fun _ e => e)
           (fun _ => True) (fun p => q_st p = st_Evaluate)); [|exact I|exact ND|apply Forall_forall; reflexivity].
  intros s p _ SP. unfold py_particle.
  assert (C0 : close0 atol 0 = true) by (unfold close0; lia).
  rewrite C0. cbn [negb]. rewrite andb_false_r, py_loop_eq, C0, orb_true_r. cbn [Z.sgn]. cbn zeta.
  set (dp := Z.min _ _). change (0 * dp) with 0.
  destruct (ZS s (at_dt p 0) SP eq_refl) as (T & D & SG). cbn [at_dt q_st q_time] in T, SG.
  fold (at_dt p 0) in *. set (r := snd (K s (at_dt p 0))) in *.
  change (snd (K s {| q_id := q_id p; q_time := q_time p; q_dt := 0; q_st := q_st p; q_x := q_x p |})) with r in SG.
  destruct (zero_outcome (close atol) (q_st p) r (close_refl atol 0 A) D SG) as [O AC].
  rewrite O, AC.
  pose proof (after_ok_moved Z.sgn atol 0 endt p (signalled (q_st p) r) (k_next r) r SG T D) as MO.
  destruct (after_ok Z.sgn atol 0 endt p (signalled (q_st p) r) (k_next r) r) as [p2 dp'].
  do 3 eexists. split; [reflexivity|]. split; [|split; [exact MO|exact I]]. eexists; reflexivity.
Qed.

Lemma c_execute_zero : forall lf rf atol endt user out e ps,
  zero_step_succeeds K -> (forall e p, k_next (snd (K e p)) = None) -> 0 <= atol -> NoDup (ids ps) ->
  Forall (fun p => q_dt p = 0) ps ->
  exists s' ps' tr,
    c_execute K interp (S lf) rf atol 0 endt user out (None, e) ps = (s', ps', tr, XDone) /\
    (forall p, In p ps -> calls_of (q_id p) tr = [(q_time p, 0)]) /\
    (forall p', In p' ps' -> exists p, In p ps /\ q_id p = q_id p' /\ q_time p = q_time p').
Proof.
  intros lf rf atol endt user out e ps ZS KN A ND QD.
  apply (execute_once (c_one K (S lf) atol 0 endt) snd (fun s e => (fst s, e))
           (fun s => fst s = None) (fun p => q_st p = st_Evaluate /\ q_dt p = 0));
    [|reflexivity|exact ND|eapply Forall_impl; [|exact QD]; intros a Q; split; [reflexivity|exact Q]].
  intros [g s] p G [SP DP]. cbn [fst] in G. subst g. unfold c_one, c_particle. cbn [fst snd].
  rewrite DP, Z.eqb_refl. cbn [negb]. rewrite andb_false_r, c_loop_eq, SP, DP.
  cbn [Z.abs Z.eqb st_Evaluate Pos.eqb orb]. cbn zeta.
  set (dp := Z.min _ _). assert (DZ : dp * csgn 0 = 0) by (unfold dp; change (csgn 0) with (-1); lia). rewrite DZ.
  destruct (ZS s (at_dt p 0) SP eq_refl) as (T & D & SG). cbn [at_dt q_st q_time] in T, SG.
  fold (at_dt p 0) in *.
  change (k_next (snd (K s {| q_id := q_id p; q_time := q_time p; q_dt := 0; q_st := q_st p; q_x := q_x p |})))
    with (k_next (snd (K s (at_dt p 0)))) in *.
  set (r := snd (K s (at_dt p 0))) in *.
  change (snd (K s {| q_id := q_id p; q_time := q_time p; q_dt := 0; q_st := q_st p; q_x := q_x p |})) with r in SG.
  rewrite SP in SG.
  destruct (zero_outcome Z.eqb st_Evaluate r eq_refl D SG) as [O AC].
  change 1 with st_Evaluate. rewrite O, AC.
  assert (NN : k_next r = None) by apply KN. rewrite NN.
  pose proof (after_ok_moved csgn atol 0 endt p (signalled st_Evaluate r) None r SG T D) as MO.
  assert (D2 : q_dt (fst (after_ok csgn atol 0 endt p (signalled st_Evaluate r) None r)) = 0) by exact D.
  destruct (after_ok csgn atol 0 endt p (signalled st_Evaluate r) None r) as [p2 dp']. cbn [fst] in D2, MO.
  rewrite D2, Z.eqb_refl.
  do 3 eexists. split; [reflexivity|]. split; [eexists; reflexivity|]. split; [exact MO|reflexivity].
Qed.

(** ** C09 *)
Lemma rec_event_shows : forall same l,
  Forall2 (shows K same) (map (rec_event (H:=H) K same) l) l.
Proof.
  intros same l. induction l as [|c l IH]; constructor; [|exact IH].
  unfold shows, rec_event. eexists. split; [reflexivity|]. rewrite call_accepted_outcome.
  fold (at_dt (c_before c) (c_h c)).
  set (o := outcome _ _ _ _). unfold accepted. codes. lia.
Qed.

Lemma py_particle_calls : forall f atol dt endt e p e' p' tr,
  py_particle (H:=H) K f atol dt endt e p = Some (e', p', tr) ->
  exists l p1, linked p l p1 /\ Forall2 (shows K (close atol)) tr l /\ Forall (call_effect K (close atol)) l /\
    q_id p' = q_id p1 /\ q_time p' = q_time p1 /\ q_dt p' = q_dt p1 /\ q_x p' = q_x p1.
Proof.
  intros f atol dt endt e p e' p' tr L.
  destruct (py_particle_history _ _ _ _ _ _ _ _ _ _ L) as [[-> ->]|(l & LK & -> & F)].
  - exists [], p. cbn. repeat split; constructor.
  - exists l, p'. split; [exact LK|]. split; [apply rec_event_shows|]. auto.
Qed.

Lemma c_particle_calls : forall f atol dt endt g e p g' e' p' tr,
  c_particle (H:=H) K f atol dt endt g e p = Some (g', e', p', tr) ->
  exists l p1, linked p l p1 /\ Forall2 (shows K Z.eqb) tr l /\ Forall (call_effect K Z.eqb) l /\
    q_id p' = q_id p1 /\ q_time p' = q_time p1 /\ q_dt p' = q_dt p1 /\ q_x p' = q_x p1.
Proof.
  intros f atol dt endt g e p g' e' p' tr L.
  destruct (c_particle_history _ _ _ _ _ _ _ _ _ _ _ _ L) as [[-> ->]|(l & LK & -> & F)].
  - exists [], p. cbn. repeat split; constructor.
  - exists l, p'. split; [exact LK|]. split; [apply rec_event_shows|]. auto.
Qed.

(** ** JIT versions by agreement of the modes *)

Lemma plain_neutral : forall atol, plain_kernel K -> mode_neutral atol K.
Proof.
  intros atol PK e p DP. cbn zeta. destruct (PK e p) as (_ & _ & D & _ & N).
  rewrite D, N. split; [auto|]. split; [exact DP|]. split; [discriminate|reflexivity].
Qed.

Lemma c_execute_plain : forall lf rf atol dt endt user out e ps,
  plain_kernel K -> handlers_keep_dt interp ->
  0 <= atol -> atol < Z.abs dt -> NoDup (ids ps) ->
  Forall (fun p => q_dt p <> 0) ps ->
  Forall (fun p => (Z.to_nat (Z.abs (endt - q_time p)) < lf)%nat) ps ->
  exists s' ps' tr,
    c_execute K interp lf rf atol dt endt user out (None, e) ps = (s', ps', tr, XDone) /\
    ids ps' = ids ps /\
    forall p, In p ps -> before_end atol dt endt p -> atol < Z.abs (q_dt p) ->
      exists p', In p' ps' /\ q_id p' = q_id p /\
                 tiled_to_end atol dt endt p p' (calls_of (q_id p) tr).
Proof.
  intros lf rf atol dt endt user out e ps PK HH A D ND QD FU.
  destruct (py_execute_plain lf rf atol dt endt user out e ps PK A D ND FU) as (e' & ps' & tr & R & REST).
  exists (None, e'), ps', tr. split; [|exact REST].
  rewrite (execute_modes K interp) by (auto using plain_neutral). rewrite R. reflexivity.
Qed.

Lemma c_execute_split : forall lf rf atol dt endt user out e ps s' ps' tr,
  self_contained K interp -> never_evaluate K -> mode_neutral atol K -> handlers_keep_dt interp ->
  0 <= atol -> atol < Z.abs dt -> Forall (fun p => q_dt p <> 0) ps ->
  c_execute K interp lf rf atol dt endt user out (None, e) ps = (s', ps', tr, XDone) ->
  exists rs, Forall2 (fun p r => exists tr1,
                c_execute K interp lf rf atol dt endt user out (None, e) [p] = ((None, e), r, tr1, XDone)) ps rs /\
             ps' = concat rs.
Proof.
  intros lf rf atol dt endt user out e ps s' ps' tr HS HN MN HH A D QD R.
  rewrite (execute_modes K interp) in R by assumption.
  destruct (py_execute K interp lf rf atol dt endt user out e ps) as [[[e1 ps1] tr1] r1] eqn:P.
  inversion R; subst.
  destruct (execute_split K interp _ _ _ _ _ _ _ _ _ _ _ _ HS HN A D P) as (rs & F & ->).
  exists rs. split; [|reflexivity]. clear R P. revert QD. induction F as [|p r ps rs [t O] F IH]; intros QD; constructor.
  - exists t. rewrite (execute_modes K interp); [rewrite O; reflexivity|assumption|assumption|assumption|assumption|].
    apply Forall_cons_iff in QD. constructor; [tauto|constructor].
  - apply IH. apply Forall_cons_iff in QD. tauto.
Qed.

End SetLevel.
