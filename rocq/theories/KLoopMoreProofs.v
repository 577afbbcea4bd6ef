(** More proofs: tiling over all recovery rounds, whole sets under plain kernels, deletions,
    zero-length runs. *)
From Coq Require Import List ZArith Bool Lia ZifyBool.
From Verif Require Import CollModel KLoopModel KLoopSpec KLoopProofs KLoopRecProofs KLoopStepProofs
  KLoopRelProofs.
Import ListNotations.
Open Scope Z_scope.

Ltac Zify.zify_post_hook ::= Z.div_mod_to_equations.

Section More.
Context {E X H : Type}.
Notation pcl := (pcl X).
Notation ev := (ev H).
Variable K : E -> pcl -> E * kres X.
Variable interp : handlers E X H.
Notation ids := (map (@q_id X)).

Opaque py_loop c_loop.

(** ** Tiling for every honest kernel *)

Lemma tiles_app : forall a l1 b l2 c, tiles a l1 b -> tiles b l2 c -> tiles a (l1 ++ l2) c.
Proof.
  intros a l1. revert a. induction l1 as [|[t h] l1 IH]; intros a b l2 c T1 T2; cbn [tiles app] in *.
  - subst. exact T2.
  - destruct T1 as [E1 T1]. split; [exact E1|]. eapply IH; eassumption.
Qed.

Lemma completed_app : forall id (a b : list ev), completed_of id (a ++ b) = completed_of id a ++ completed_of id b.
Proof. intros. apply flat_map_app. Qed.

Definition tiled (dt endt : Z) (p : pcl) (tr : list ev) (p' : pcl) : Prop :=
  q_id p' = q_id p /\
  tiles (q_time p) (completed_of (q_id p) tr) (q_time p') /\
  Forall (fun c => 0 < Z.sgn dt * snd c) (completed_of (q_id p) tr) /\
  (0 <= dir_dist dt endt (q_time p) -> 0 <= dir_dist dt endt (q_time p')).

Lemma tiled_trans : forall dt endt p a q b r,
  tiled dt endt p a q -> tiled dt endt q b r -> tiled dt endt p (a ++ b) r.
Proof.
  intros dt endt p a q b r (A1 & A2 & A3 & A4) (B1 & B2 & B3 & B4).
  rewrite A1 in *. split; [exact B1|]. rewrite completed_app.
  split; [eapply tiles_app; eassumption|]. split; [apply Forall_app; auto|]. auto.
Qed.

Lemma tiled_quiet : forall dt endt (p p' : pcl) tr,
  q_id p' = q_id p -> q_time p' = q_time p -> completed_of (q_id p) tr = [] -> tiled dt endt p tr p'.
Proof.
  intros dt endt p p' tr A B C. unfold tiled. rewrite C, B. cbn [tiles]. auto.
Qed.

Lemma honest_dt : forall same e p h, honest_kernel K ->
  accepted (outcome same (q_st p) h (snd (K e (at_dt p h)))) = true ->
  k_dt (snd (K e (at_dt p h))) = h.
Proof.
  intros same e p h HK AC. destruct (HK e (at_dt p h)) as [_ D]. cbn [at_dt q_dt] in D. apply D.
  unfold outcome, signalled in AC. set (r := snd (K e (at_dt p h))) in *.
  destruct (k_res r =? st_Success) eqn:R0; [left; apply Z.eqb_eq; exact R0|].
  rewrite R0 in AC. cbn [andb] in AC. apply accepted_cases in AC. apply Z.eqb_neq in R0. tauto.
Qed.

Lemma py_loop_honest : forall f atol dt endt e p dp e' p' tr,
  honest_kernel K -> 0 <= atol -> atol < Z.abs dt ->
  0 <= dir_dist dt endt (q_time p) ->
  (wants_run p = true -> 0 < dp <= dir_dist dt endt (q_time p)) ->
  py_loop K f atol dt endt e p dp = Some (e', p', tr) -> tiled dt endt p tr p'.
Proof.
  induction f; intros atol dt endt e p dp e' p' tr HK A D DD WR L; [discriminate|].
  assert (S1 : Z.sgn dt = 1 \/ Z.sgn dt = -1) by lia.
  rewrite py_loop_eq in L.
  replace (close0 atol dt) with false in L by (unfold close0; lia). rewrite orb_false_r in L.
  fold (wants_run p) in L. destruct (wants_run p) eqn:W.
  2:{ inversion L; subst. apply tiled_quiet; reflexivity. }
  specialize (WR eq_refl). cbn zeta in L.
  set (pdt := Z.sgn dt * dp) in *. set (r := snd (K e (at_dt p pdt))) in *.
  set (c := outcome (close atol) (q_st p) pdt r) in *.
  destruct (accepted c) eqn:AC.
  - assert (KD : k_dt r = pdt) by (eapply honest_dt; eassumption).
    assert (KT : k_time r = q_time p) by (apply (HK e (at_dt p pdt))).
    pose proof (after_ok_facts Z.sgn atol dt endt p c (k_next r) r AC) as AF. cbn zeta in AF.
    destruct (after_ok Z.sgn atol dt endt p c (k_next r) r) as [p2 dp'] eqn:AO. cbn [fst] in AF.
    destruct AF as [I2 _].
    assert (T2 : q_time p2 = q_time p + pdt).
    { unfold after_ok in AO. inversion AO; subst p2. cbn [q_time]. rewrite KT, KD. reflexivity. }
    assert (DD2 : dir_dist dt endt (q_time p2) = dir_dist dt endt (q_time p) - dp).
    { rewrite T2. unfold dir_dist, pdt. nia. }
    assert (FIRST : tiled dt endt p [ECall (q_id p) (q_time p) pdt c] p2).
    { unfold tiled. split; [exact I2|]. cbn [completed_of flat_map]. rewrite Z.eqb_refl.
      unfold accepted in AC. rewrite AC. cbn [andb app tiles]. split; [auto|].
      split; [|intros; lia]. constructor; [|constructor]. cbn [snd]. unfold pdt. nia. }
    destruct (py_loop K f atol dt endt (fst (K e (at_dt p pdt))) p2 dp') as [[[e2 p3] tr2]|] eqn:L2;
      [|discriminate].
    inversion L; subst.
    apply (tiled_trans dt endt p [ECall (q_id p) (q_time p) pdt c] p2); [exact FIRST|].
    eapply IHf; [exact HK|exact A|exact D| |  |exact L2]; [lia|].
    intros W2. unfold after_ok in AO. inversion AO; subst p2 dp'. clear AO.
    cbn [q_time q_st wants_run] in *. unfold wants_run in W2. cbn [q_st] in W2.
    rewrite KT, KD in *.
    assert (RS : Z.sgn (endt - (q_time p + pdt)) =? Z.sgn dt = true /\
       close0 atol (Z.min (Z.abs match k_next r with Some d => d | None => pdt end)
                          (Z.abs (endt - (q_time p + pdt)))) = false).
    { destruct (accepted_cases _ AC) as [Ec|Ec]; rewrite Ec in W2; codes; cbn [Z.eqb Pos.eqb negb andb] in W2.
      - destruct (close0 _ _); cbn [negb andb] in W2; [discriminate|].
        destruct (Z.sgn (endt - (q_time p + pdt)) =? Z.sgn dt); [auto|discriminate].
      - discriminate. }
    destruct RS as [RS1 RS2]. rewrite RS1. cbn [negb].
    unfold close0, dir_dist in *. nia.
  - inversion L; subst. apply tiled_quiet; [reflexivity|reflexivity|].
    cbn [completed_of flat_map]. rewrite Z.eqb_refl. unfold accepted in AC. rewrite AC. reflexivity.
Qed.

Lemma py_particle_honest : forall f atol dt endt e p e' p' tr,
  honest_kernel K -> 0 <= atol -> atol < Z.abs dt ->
  py_particle K f atol dt endt e p = Some (e', p', tr) -> tiled dt endt p tr p'.
Proof.
  intros f atol dt endt e p e' p' tr HK A D L. unfold py_particle in L.
  replace (close0 atol dt) with false in L by (unfold close0; lia). rewrite andb_true_r in L.
  assert (S1 : Z.sgn dt = 1 \/ Z.sgn dt = -1) by lia.
  destruct (negb (Z.sgn (endt - q_time p) =? Z.sgn dt)
        || close0 atol (Z.min (Z.abs (q_dt p)) (Z.abs (endt - q_time p)))) eqn:SK.
  - destruct (_ <=? _); inversion L; subst; apply tiled_quiet; reflexivity.
  - eapply py_loop_honest; [exact HK|exact A|exact D| | |exact L].
    + unfold dir_dist. nia.
    + intros _. unfold close0, dir_dist in *. nia.
Qed.

Lemma py_execute_honest : forall lf rf atol dt endt user out e ps e' ps' tr r,
  honest_kernel K -> honest_handlers interp -> 0 <= atol -> atol < Z.abs dt -> NoDup (ids ps) ->
  py_execute K interp lf rf atol dt endt user out e ps = (e', ps', tr, r) ->
  forall p', In p' ps' -> exists p, In p ps /\ q_id p = q_id p' /\
    tiles (q_time p) (completed_of (q_id p) tr) (q_time p') /\
    Forall (fun c => 0 < Z.sgn dt * snd c) (completed_of (q_id p) tr) /\
    (0 <= Z.sgn dt * (endt - q_time p) -> 0 <= Z.sgn dt * (endt - q_time p')).
Proof.
  intros lf rf atol dt endt user out e ps e' ps' tr r HK HH A D ND RR p' IP'.
  destruct (execute_rel interp (py_particle K lf atol dt endt)
    (fun s p s' p' tr => py_particle_ok K lf atol dt endt s p s' p' tr)
    (fun e => e) (fun _ e => e) (recovery_map user) (tiled dt endt)
    (fun p s => tiled_quiet dt endt p (set_st p s) [] eq_refl eq_refl eq_refl)
    (tiled_trans dt endt)
    (fun s p s' p' tr L => py_particle_honest _ _ _ _ _ _ _ _ _ HK A D L)
    (fun h e e' p p1 c st2 I => tiled_quiet dt endt p (mkPcl (q_id p) (q_time p1) (q_dt p1) st2 (q_x p1)) [EHandler (q_id p) c (RUser h) (Some (q_st p1))] eq_refl (HH h e _ e' p1 I) eq_refl)
    (fun h p c => tiled_quiet dt endt p (set_st p st_Success) [EHandler (q_id p) c h None] eq_refl eq_refl eq_refl)
    (fun p c => tiled_quiet dt endt p (set_st p op_Delete) [EUnhandled (q_id p) c] eq_refl eq_refl eq_refl)
    _ _ _ _ _ _ _ _ _ eq_refl RR ND p' IP') as (p & IP & Q & T1 & T2 & T3 & T4).
  cbn [set_st q_id q_time] in *.
  assert (EQ : completed_of (q_id p) (events_of (q_id p) tr) = completed_of (q_id p) tr).
  { clear. induction tr as [|v t IH]; [reflexivity|]. cbn [events_of filter].
    destruct v as [i tt h c| | |]; cbn [ev_about].
    - destruct (i =? q_id p) eqn:B; cbn [completed_of flat_map]; rewrite B.
      + cbn [andb]. f_equal. exact IH.
      + exact IH.
    - destruct (id =? q_id p); cbn [completed_of flat_map app]; exact IH.
    - destruct (id =? q_id p); cbn [completed_of flat_map app]; exact IH.
    - exact IH. }
  rewrite EQ in *. exists p. split; [exact IP|]. split; [congruence|]. auto.
Qed.

(** Termination of the time loop. *)
Lemma py_loop_total : forall f atol dt endt e p dp,
  honest_kernel K -> 0 <= atol -> atol < Z.abs dt ->
  0 <= dir_dist dt endt (q_time p) ->
  (wants_run p = true -> 0 < dp <= dir_dist dt endt (q_time p)) ->
  (Z.to_nat (dir_dist dt endt (q_time p)) < f)%nat ->
  py_loop (H:=H) K f atol dt endt e p dp <> None.
Proof.
  induction f; intros atol dt endt e p dp HK A D DD WR FU; [lia|].
  assert (S1 : Z.sgn dt = 1 \/ Z.sgn dt = -1) by lia.
  rewrite py_loop_eq.
  replace (close0 atol dt) with false by (unfold close0; lia). rewrite orb_false_r.
  fold (wants_run p). destruct (wants_run p) eqn:W; [|discriminate].
  specialize (WR eq_refl). cbn zeta.
  set (pdt := Z.sgn dt * dp) in *. set (r := snd (K e (at_dt p pdt))) in *.
  set (c := outcome (close atol) (q_st p) pdt r) in *.
  destruct (accepted c) eqn:AC; [|discriminate].
  assert (KD : k_dt r = pdt) by (eapply honest_dt; eassumption).
  assert (KT : k_time r = q_time p) by (apply (HK e (at_dt p pdt))).
  destruct (after_ok Z.sgn atol dt endt p c (k_next r) r) as [p2 dp'] eqn:AO.
  assert (T2 : q_time p2 = q_time p + pdt).
  { unfold after_ok in AO. inversion AO; subst p2. cbn [q_time]. rewrite KT, KD. reflexivity. }
  assert (DD2 : dir_dist dt endt (q_time p2) = dir_dist dt endt (q_time p) - dp).
  { rewrite T2. unfold dir_dist, pdt. nia. }
  specialize (IHf atol dt endt (fst (K e (at_dt p pdt))) p2 dp' HK A D).
  destruct (py_loop K f atol dt endt (fst (K e (at_dt p pdt))) p2 dp') as [[[e2 p3] tr2]|];
    [discriminate|]. apply IHf; [lia| |lia].
  intros W2. unfold after_ok in AO. inversion AO; subst p2 dp'. clear AO.
  unfold wants_run in W2. cbn [q_st q_time] in *. rewrite KT, KD in *.
  assert (RS : Z.sgn (endt - (q_time p + pdt)) =? Z.sgn dt = true /\
     close0 atol (Z.min (Z.abs match k_next r with Some d => d | None => pdt end)
                        (Z.abs (endt - (q_time p + pdt)))) = false).
  { destruct (accepted_cases _ AC) as [Ec|Ec]; rewrite Ec in W2; codes; cbn [Z.eqb Pos.eqb negb andb] in W2.
    - destruct (close0 _ _); cbn [negb andb] in W2; [discriminate|].
      destruct (Z.sgn (endt - (q_time p + pdt)) =? Z.sgn dt); [auto|discriminate].
    - discriminate. }
  destruct RS as [RS1 RS2]. rewrite RS1. cbn [negb]. unfold close0, dir_dist in *. nia.
Qed.

Lemma py_particle_total : forall f atol dt endt e p,
  honest_kernel K -> 0 <= atol -> atol < Z.abs dt ->
  (Z.to_nat (Z.abs (endt - q_time p)) < f)%nat ->
  py_particle (H:=H) K f atol dt endt e p <> None.
Proof.
  intros f atol dt endt e p HK A D FU. unfold py_particle.
  replace (close0 atol dt) with false by (unfold close0; lia). rewrite andb_true_r.
  assert (S1 : Z.sgn dt = 1 \/ Z.sgn dt = -1) by lia.
  destruct (negb (Z.sgn (endt - q_time p) =? Z.sgn dt)
        || close0 atol (Z.min (Z.abs (q_dt p)) (Z.abs (endt - q_time p)))) eqn:SK; [discriminate|].
  apply py_loop_total; auto; unfold close0, dir_dist in *; nia.
Qed.

(** ** Deletions *)

Lemma pend_dec : forall b : pend, {b = Gone} + {b <> Gone}.
Proof. destruct b; (left; reflexivity) || (right; discriminate). Defined.

Lemma disciplined_gone : forall rmap a (l : list ev) b id,
  disciplined rmap a l b -> Forall (fun v => ev_about id v = true) l ->
  a <> Gone ->
  (b = Gone <-> exists v, In v l /\ deleting id v) /\
  (forall l1 v l2, l = l1 ++ v :: l2 -> deleting id v -> l2 = []).
Proof.
  intros rmap a l b id D. induction D as [a|a v b t c ST D IH]; intros F NG.
  - split; [split; [tauto|intros (v & [] & _)]|]. intros [|? ?] ? ? Q; discriminate.
  - apply Forall_cons_iff in F. destruct F as [FV FT].
    assert (DV : deleting id v <-> b = Gone).
    { assert (AF : forall (f : Z -> pend) c, (forall c, f c <> Gone) -> (after_code f c = Gone <-> c = op_Delete)).
      { intros f c0 NF. unfold after_code. codes.
        destruct (c0 =? 0) eqn:?; cbn [orb]; [split; [discriminate|lia]|].
        destruct (c0 =? 1) eqn:?; cbn [orb]; [split; [discriminate|lia]|].
        destruct (c0 =? 2) eqn:?; cbn [orb]; [split; [discriminate|lia]|].
        destruct (c0 =? 3) eqn:?; [split; [lia|reflexivity]|].
        split; [intros Q; exfalso; apply (NF _ Q)|lia]. }
      inversion ST; subst; cbn [deleting ev_about] in *; apply Z.eqb_eq in FV;
        try (rewrite AF by discriminate); intuition (try congruence; try discriminate). }
    assert (TG : b = Gone -> t = []).
    { intros ->. inversion D as [|? ? ? ? ? ST2]; subst; [reflexivity|]. inversion ST2. }
    destruct (pend_dec b) as [BG|BG].
    + specialize (TG BG). subst t. inversion D; subst. split.
      * split; [intros _; exists v; split; [left; reflexivity|apply DV; reflexivity]|auto].
      * intros [|? l1] v0 l2 Q DL; cbn [app] in Q.
        -- congruence.
        -- inversion Q. destruct l1; discriminate.
    + destruct (IH FT BG) as [IH1 IH2]. split.
      * rewrite IH1. split.
        -- intros (v0 & I0 & D0). exists v0. split; [right; exact I0|exact D0].
        -- intros (v0 & [I0|I0] & D0); [subst v0; tauto|eauto].
      * intros [|? l1] v0 l2 Q DL; cbn [app] in Q.
        -- inversion Q; subst. tauto.
        -- inversion Q; subst. eapply IH2; [reflexivity|exact DL].
Qed.

End More.
