(** Proofs of the step structure (C07, C09), of the untouched particles (C08), of the deletions
    (C10), of zero-length runs (C13) and of the agreement of the two modes (C14). *)
From Coq Require Import List ZArith Bool Lia ZifyBool.
From Verif Require Import CollModel KLoopModel KLoopSpec KLoopProofs KLoopRecProofs.
Import ListNotations.
Open Scope Z_scope.

Ltac Zify.zify_post_hook ::= Z.div_mod_to_equations.

Section Step.
Context {E X H : Type}.
Notation pcl := (pcl X).
Notation ev := (ev H).
Variable K : E -> pcl -> E * kres X.
Variable interp : handlers E X H.
Notation ids := (map (@q_id X)).

Opaque py_loop c_loop.

(** ** C08 *)

Lemma py_not_before : forall f atol dt endt e p e' p' tr,
  0 <= atol -> atol < Z.abs dt -> not_before_end dt endt p ->
  py_particle (H:=H) K f atol dt endt e p = Some (e', p', tr) ->
  e' = e /\ tr = [] /\ (p' = p \/ p' = set_st p st_Success).
Proof.
  intros f atol dt endt e p e' p' tr A D N L. unfold py_particle in L.
  replace (close0 atol dt) with false in L by (unfold close0; lia).
  replace (negb (Z.sgn (endt - q_time p) =? Z.sgn dt)) with true in L
    by (unfold not_before_end in N; lia).
  cbn [orb andb negb] in L. destruct (_ <=? _); inversion L; subst; auto.
Qed.

Lemma c_not_before : forall f atol dt endt g e p s' p' tr,
  0 <= atol -> q_dt p <> 0 -> not_before_end dt endt p ->
  c_one (H:=H) K f atol dt endt (g, e) p = Some (s', p', tr) ->
  s' = (g, e) /\ tr = [] /\ (p' = p \/ p' = set_st p st_Success).
Proof.
  intros f atol dt endt g e p s' p' tr A D N L. unfold c_one, c_particle in L. cbn [fst snd] in L.
  replace ((negb (csgn (endt - q_time p) =? csgn dt)
        || close0 atol (Z.min (Z.abs (q_dt p)) (Z.abs (endt - q_time p)))) && negb (q_dt p =? 0))
    with true in L
    by (unfold not_before_end, csgn, close0 in *; destruct (0 <? endt - q_time p) eqn:?, (0 <? dt) eqn:?; cbn; lia).
  destruct (_ <=? _); inversion L; subst; auto.
Qed.

Lemma py_execute_not_before : forall lf rf atol dt endt user out e ps e' ps' tr r p,
  0 <= atol -> atol < Z.abs dt -> NoDup (ids ps) -> In p ps -> not_before_end dt endt p ->
  py_execute K interp lf rf atol dt endt user out e ps = (e', ps', tr, r) ->
  events_of (q_id p) tr = [] /\
  exists p', In p' ps' /\ q_id p' = q_id p /\ q_time p' = q_time p /\ q_dt p' = q_dt p /\ q_x p' = q_x p.
Proof.
  intros lf rf atol dt endt user out e ps e' ps' tr r p A D ND IP N R.
  destruct (execute_frozen interp (py_particle K lf atol dt endt)
    (fun s p s' p' tr => py_particle_ok K lf atol dt endt s p s' p' tr)
    (fun e => e) (fun _ e => e) (recovery_map user) (not_before_end dt endt)
    (fun p s (F : not_before_end dt endt p) => F)
    (fun s p s' p' tr F O => proj2 (py_not_before _ _ _ _ _ _ _ _ _ A D F O))
    _ _ _ _ _ _ _ _ _ _ eq_refl R ND IP N) as (p' & IP' & S & _ & T).
  split; [exact T|]. exists p'. split; [exact IP'|exact S].
Qed.

Lemma c_execute_not_before : forall lf rf atol dt endt user out s ps s' ps' tr r p,
  0 <= atol -> NoDup (ids ps) -> In p ps -> q_dt p <> 0 -> not_before_end dt endt p ->
  c_execute K interp lf rf atol dt endt user out s ps = (s', ps', tr, r) ->
  events_of (q_id p) tr = [] /\
  exists p', In p' ps' /\ q_id p' = q_id p /\ q_time p' = q_time p /\ q_dt p' = q_dt p /\ q_x p' = q_x p.
Proof.
  intros lf rf atol dt endt user out s ps s' ps' tr r p A ND IP D N R.
  assert (FO : forall (s : option Z * E) p s' p' (tr : list ev),
     q_dt p <> 0 /\ not_before_end dt endt p ->
     c_one K lf atol dt endt s p = Some (s', p', tr) -> tr = [] /\ (p' = p \/ p' = set_st p st_Success)).
  { intros [g e] q s1 q' tr1 [F1 F2] O. exact (proj2 (c_not_before _ _ _ _ _ _ _ _ _ _ A F1 F2 O)). }
  destruct (execute_frozen interp (c_one K lf atol dt endt)
    (fun s p s' p' tr => c_one_ok K lf atol dt endt s p s' p' tr)
    snd (fun s e => (fst s, e)) (recovery_map user) (fun p => q_dt p <> 0 /\ not_before_end dt endt p)
    (fun p s F => F) FO
    _ _ _ _ _ _ _ _ _ _ eq_refl R ND IP (conj D N)) as (p' & IP' & S & _ & T).
  split; [exact T|]. exists p'. split; [exact IP'|exact S].
Qed.

(** ** C09 *)

Definition rec_event (same : Z -> Z -> bool) (c : call_record (E:=E) (X:=X)) : ev :=
  let b := c_before c in
  ECall (q_id b) (q_time b) (c_h c)
        (outcome same (q_st b) (c_h c) (snd (K (c_env c) (at_dt b (c_h c))))).

Lemma py_loop_history : forall f atol dt endt e p dp e' p' tr,
  py_loop (H:=H) K f atol dt endt e p dp = Some (e', p', tr) ->
  exists l, linked p l p' /\ tr = map (rec_event (close atol)) l /\ Forall (call_effect K (close atol)) l.
Proof.
  induction f; intros atol dt endt e p dp e' p' tr L; [discriminate|].
  rewrite py_loop_eq in L.
  destruct ((q_st p =? st_Evaluate) || (q_st p =? op_Repeat) || close0 atol dt).
  2:{ inversion L; subst. exists []. split; [reflexivity|]. split; constructor. }
  cbn zeta in L. set (pdt := Z.sgn dt * dp) in *. set (r := snd (K e (at_dt p pdt))) in *.
  set (c := outcome (close atol) (q_st p) pdt r) in *.
  assert (CE : forall q, q_id q = q_id p ->
     (if accepted c then q_time q = k_time r + k_dt r /\ q_x q = k_x r
      else q_time q = q_time p /\ q_x q = q_x p) ->
     call_effect K (close atol) (mkCall e p pdt q)).
  { intros q Q1 Q2. unfold call_effect. cbn [c_before c_h c_after c_env]. split; [exact Q1|].
    fold (at_dt p pdt). fold r. rewrite call_accepted_outcome. exact Q2. }
  destruct (accepted c) eqn:AC.
  - destruct (after_ok Z.sgn atol dt endt p c (k_next r) r) as [p2 dp'] eqn:AO.
    assert (P2 : q_id p2 = q_id p /\ q_time p2 = k_time r + k_dt r /\ q_x p2 = k_x r).
    { unfold after_ok in AO. inversion AO; subst. repeat split. }
    destruct P2 as (I2 & T2 & X2).
    destruct (close0 atol dt) eqn:CD.
    + inversion L; subst. exists [mkCall e p pdt p']. split; [split; reflexivity|].
      split; [reflexivity|]. constructor; [|constructor]. apply CE; auto.
    + destruct (py_loop K f atol dt endt (fst (K e (at_dt p pdt))) p2 dp') as [[[e2 p3] tr2]|] eqn:L2;
        [|discriminate].
      inversion L; subst. destruct (IHf _ _ _ _ _ _ _ _ _ L2) as (l & LK & TR & FE).
      exists (mkCall e p pdt p2 :: l). split; [split; [reflexivity|exact LK]|].
      split; [cbn [map]; rewrite TR; reflexivity|]. constructor; [|exact FE]. apply CE; auto.
  - inversion L; subst. exists [mkCall e p pdt (after_fail p c r)]. split; [split; reflexivity|].
    split; [reflexivity|]. constructor; [|constructor]. apply CE; [reflexivity|split; reflexivity].
Qed.

Lemma c_loop_history : forall f atol dt endt g e p dp g' e' p' tr,
  c_loop (H:=H) K f atol dt endt g e p dp = Some (g', e', p', tr) ->
  exists l, linked p l p' /\ tr = map (rec_event Z.eqb) l /\ Forall (call_effect K Z.eqb) l.
Proof.
  induction f; intros atol dt endt g e p dp g' e' p' tr L; [discriminate|].
  rewrite c_loop_eq in L.
  destruct ((q_st p =? st_Evaluate) || (q_st p =? op_Repeat) || (q_dt p =? 0)).
  2:{ inversion L; subst. exists []. split; [reflexivity|]. split; constructor. }
  cbn zeta in L. set (pdt := dp * csgn dt) in *. set (r := snd (K e (at_dt p pdt))) in *.
  set (c := outcome Z.eqb (q_st p) pdt r) in *.
  set (g1 := match k_next r with Some d => Some d | None => g end) in *.
  assert (CE : forall q, q_id q = q_id p ->
     (if accepted c then q_time q = k_time r + k_dt r /\ q_x q = k_x r
      else q_time q = q_time p /\ q_x q = q_x p) ->
     call_effect K Z.eqb (mkCall e p pdt q)).
  { intros q Q1 Q2. unfold call_effect. cbn [c_before c_h c_after c_env]. split; [exact Q1|].
    fold (at_dt p pdt). fold r. rewrite call_accepted_outcome. exact Q2. }
  destruct (accepted c) eqn:AC.
  - destruct (after_ok csgn atol dt endt p c g1 r) as [p2 dp'] eqn:AO.
    assert (P2 : q_id p2 = q_id p /\ q_time p2 = k_time r + k_dt r /\ q_x p2 = k_x r).
    { unfold after_ok in AO. inversion AO; subst. repeat split. }
    destruct P2 as (I2 & T2 & X2).
    destruct (q_dt p2 =? 0) eqn:CD.
    + inversion L; subst. exists [mkCall e p pdt p']. split; [split; reflexivity|].
      split; [reflexivity|]. constructor; [|constructor]. apply CE; auto.
    + destruct (c_loop K f atol dt endt None (fst (K e (at_dt p pdt))) p2 dp')
        as [[[[g2 e2] p3] tr2]|] eqn:L2; [|discriminate].
      inversion L; subst. destruct (IHf _ _ _ _ _ _ _ _ _ _ _ L2) as (l & LK & TR & FE).
      exists (mkCall e p pdt p2 :: l). split; [split; [reflexivity|exact LK]|].
      split; [cbn [map]; rewrite TR; reflexivity|]. constructor; [|exact FE]. apply CE; auto.
  - inversion L; subst. exists [mkCall e p pdt (after_fail p c r)]. split; [split; reflexivity|].
    split; [reflexivity|]. constructor; [|constructor]. apply CE; [reflexivity|split; reflexivity].
Qed.

(** The state set on skipped particles is the only effect outside calls. *)
Lemma py_particle_history : forall f atol dt endt e p e' p' tr,
  py_particle (H:=H) K f atol dt endt e p = Some (e', p', tr) ->
  (tr = [] /\ p' = set_st p st_Success) \/
  exists l, linked p l p' /\ tr = map (rec_event (close atol)) l /\ Forall (call_effect K (close atol)) l.
Proof.
  intros f atol dt endt e p e' p' tr L. unfold py_particle in L. destruct (_ && _).
  - destruct (_ <=? _); inversion L; subst; [left; auto|]. right. exists [].
    split; [reflexivity|]. split; constructor.
  - right. eapply py_loop_history; exact L.
Qed.

Lemma c_particle_history : forall f atol dt endt g e p g' e' p' tr,
  c_particle (H:=H) K f atol dt endt g e p = Some (g', e', p', tr) ->
  (tr = [] /\ p' = set_st p st_Success) \/
  exists l, linked p l p' /\ tr = map (rec_event Z.eqb) l /\ Forall (call_effect K Z.eqb) l.
Proof.
  intros f atol dt endt g e p g' e' p' tr L. unfold c_particle in L. destruct (_ && _).
  - destruct (_ <=? _); inversion L; subst; [left; auto|]. right. exists [].
    split; [reflexivity|]. split; constructor.
  - right. eapply c_loop_history; exact L.
Qed.

(** ** C07: plain kernels *)

Definition dir_dist (dt endt t : Z) : Z := Z.sgn dt * (endt - t).

Definition success_call (id : Z) (c : Z * Z) : ev := ECall id (fst c) (snd c) st_Success.

Lemma plain_outcome : forall same, (forall a, same a a = true) -> plain_kernel K ->
  forall e p h, outcome same (q_st p) h (snd (K e (at_dt p h))) = st_Success.
Proof.
  intros same RF PK e p h. destruct (PK e (at_dt p h)) as (R & T & D & S & N).
  cbn [at_dt q_dt q_st] in D, S.
  unfold outcome, signalled. rewrite R, S, D, RF. cbn [st_Success Z.eqb]. rewrite Z.eqb_refl.
  reflexivity.
Qed.

Lemma close_refl : forall atol a, 0 <= atol -> close atol a a = true.
Proof. intros. unfold close. replace (a - a) with 0 by lia. cbn [Z.abs]. lia. Qed.

Lemma py_loop_plain : forall f atol dt endt e p dp,
  plain_kernel K -> 0 <= atol -> atol < Z.abs dt ->
  q_st p = st_Evaluate -> atol < dp -> dp <= dir_dist dt endt (q_time p) ->
  (Z.to_nat (dir_dist dt endt (q_time p)) < f)%nat ->
  exists e' p' front tl hl,
    py_loop K f atol dt endt e p dp =
      Some (e', p', map (success_call (q_id p)) (front ++ [(tl, hl)])) /\
    tiles (q_time p) (front ++ [(tl, hl)]) (q_time p') /\
    Forall (fun c => snd c = Z.sgn dt * dp) front /\
    0 < Z.sgn dt * hl <= dp /\
    0 <= dir_dist dt endt (q_time p') <= atol /\
    q_id p' = q_id p /\ q_st p' = st_Success /\ q_dt p' = hl.
Proof.
  induction f; intros atol dt endt e p dp PK A D ST DP LE FU; [lia|].
  rewrite py_loop_eq, ST. cbn [st_Evaluate Z.eqb Pos.eqb orb]. cbn zeta.
  replace (close0 atol dt) with false by (unfold close0; lia).
  rewrite <- ST.
  rewrite (plain_outcome (close atol) (fun a => close_refl atol a A) PK).
  cbn [accepted st_Success op_Delete Z.eqb orb].
  set (pdt := Z.sgn dt * dp) in *.
  destruct (PK e (at_dt p pdt)) as (R & T & DT & S & N).
  set (r := snd (K e (at_dt p pdt))) in *. set (e1 := fst (K e (at_dt p pdt))) in *.
  cbn [at_dt q_time q_dt] in T, DT.
  unfold after_ok. rewrite T, DT, N. cbn [Z.eqb negb andb].
  set (t2 := q_time p + pdt) in *.
  assert (S1 : Z.sgn dt = 1 \/ Z.sgn dt = -1) by lia.
  assert (AP : Z.abs pdt = dp) by (unfold pdt; nia).
  rewrite AP.
  assert (DD : dir_dist dt endt t2 = dir_dist dt endt (q_time p) - dp).
  { unfold dir_dist, t2, pdt. nia. }
  assert (AD : Z.abs (endt - t2) = dir_dist dt endt t2) by (unfold dir_dist in *; nia).
  rewrite AD. change op_Delete with 3. cbn [Z.eqb negb andb].
  destruct (close0 atol (Z.min dp (dir_dist dt endt t2))) eqn:CL; cbn [negb andb].
  - (* last step *)
    destruct f; [unfold dir_dist in *; lia|]. rewrite py_loop_eq. cbn [q_st].
    cbn [st_Success st_Evaluate op_Repeat Z.eqb orb].
    replace (close0 atol dt) with false by (unfold close0; lia).
    eexists _, _, [], (q_time p), pdt. split; [reflexivity|]. cbn [app tiles q_time q_id q_st q_dt].
    split; [split; reflexivity|]. split; [constructor|].
    unfold close0 in CL. split; [unfold pdt; nia|]. split; [lia|]. repeat split.
  - assert (SG : Z.sgn (endt - t2) =? Z.sgn dt = true) by (unfold close0, dir_dist in *; nia).
    rewrite SG. cbn [negb].
    set (p2 := mkPcl (q_id p) t2 pdt st_Evaluate (k_x r)).
    destruct (IHf atol dt endt e1 p2 (Z.min dp (dir_dist dt endt t2)))
      as (e' & p' & front & tl & hl & L & TI & FR & HL & FD & Q1 & Q2 & Q3); auto.
    { unfold close0 in CL. lia. }
    { cbn [p2 q_time]. lia. }
    { cbn [p2 q_time]. lia. }
    cbn [p2 q_time q_id] in *.
    match goal with |- context [py_loop K f atol dt endt e1 ?q _] => change q with p2 end.
    rewrite L.
    exists e', p', ((q_time p, pdt) :: front), tl, hl.
    split; [reflexivity|]. cbn [app tiles]. fold t2. split; [split; [reflexivity|exact TI]|].
    split.
    { constructor; [reflexivity|].
      (* a shortened step is the last one *)
      destruct (Z_le_gt_dec dp (dir_dist dt endt t2)) as [G|G].
      - rewrite Z.min_l in FR by lia. exact FR.
      - destruct front as [|[tc h] fr]; [constructor|]. exfalso.
        apply Forall_cons_iff in FR; destruct FR as [F1 F2]. cbn [snd] in F1. rewrite Z.min_r in F1 by lia.
        cbn [app tiles] in TI. destruct TI as [-> TI].
        assert (TL : forall l a b, Forall (fun c => snd c = Z.sgn dt * Z.min dp (dir_dist dt endt t2)) l ->
                  tiles a (l ++ [(tl, hl)]) b -> Z.sgn dt * (b - a) >= Z.sgn dt * hl).
        { assert (PD : 0 <= dir_dist dt endt t2) by lia. clear - G S1 CL A PD DP. induction l as [|[tc h'] l IH]; intros a b F TT; cbn [app tiles] in TT.
          - destruct TT as [_ <-]. lia.
          - destruct TT as [_ TT]. apply Forall_cons_iff in F; destruct F as [F1 F]. cbn [snd] in F1.
            apply IH in TT; [|assumption]. unfold close0 in CL.
            assert (0 < Z.min dp (dir_dist dt endt t2)) by lia. destruct S1 as [S1|S1]; rewrite S1 in *; lia. }
        apply TL in TI; [|exact F2]. unfold dir_dist in *. nia. }
    split; [lia|]. split; [exact FD|]. auto.
Qed.

Lemma before_end_dist : forall atol dt endt (p : pcl), before_end atol dt endt p ->
  atol < dir_dist dt endt (q_time p) /\ Z.abs (endt - q_time p) = dir_dist dt endt (q_time p) \/ atol < 0.
Proof.
  unfold before_end, dir_dist. intros. destruct (Z_lt_ge_dec atol 0); [auto|]. left.
  destruct H0 as [[A B]|[A B]]; split; try rewrite (Z.sgn_pos dt A); try rewrite (Z.sgn_neg dt A); lia.
Qed.

Lemma py_particle_plain : forall f atol dt endt e p,
  plain_kernel K -> 0 <= atol -> atol < Z.abs dt -> q_st p = st_Evaluate ->
  before_end atol dt endt p -> atol < Z.abs (q_dt p) ->
  (Z.to_nat (Z.abs (endt - q_time p)) < f)%nat ->
  exists e' p' front tl hl,
    py_particle K f atol dt endt e p =
      Some (e', p', map (success_call (q_id p)) (front ++ [(tl, hl)])) /\
    tiles (q_time p) (front ++ [(tl, hl)]) (q_time p') /\
    Forall (fun c => snd c = Z.sgn dt * Z.abs (q_dt p)) front /\
    0 < Z.sgn dt * hl <= Z.abs (q_dt p) /\
    0 <= Z.sgn dt * (endt - q_time p') <= atol /\
    q_id p' = q_id p /\ q_st p' = st_Success.
Proof.
  intros f atol dt endt e p PK A D ST BE PD FU.
  destruct (before_end_dist _ _ _ _ BE) as [[B1 B2]|]; [|lia].
  unfold py_particle. rewrite B2 in *.
  set (dd := dir_dist dt endt (q_time p)) in *.
  replace (Z.sgn (endt - q_time p) =? Z.sgn dt) with true
    by (unfold before_end in BE; symmetry; lia).
  replace (close0 atol (Z.min (Z.abs (q_dt p)) dd)) with false by (unfold close0; lia).
  cbn [negb orb andb].
  destruct (py_loop_plain f atol dt endt e p (Z.min (Z.abs (q_dt p)) dd))
    as (e' & p' & front & tl & hl & L & TI & FR & HL & FD & Q1 & Q2 & Q3); auto; try lia.
  exists e', p', front, tl, hl. split; [exact L|]. split; [exact TI|].
  split.
  { destruct (Z_le_gt_dec (Z.abs (q_dt p)) dd) as [G|G].
    - rewrite Z.min_l in FR by lia. exact FR.
    - destruct front as [|[tc h] fr]; [constructor|]. exfalso.
      rewrite Z.min_r in FR by lia. apply Forall_cons_iff in FR; destruct FR as [F1 F2]. cbn [snd] in F1.
      cbn [app tiles] in TI. destruct TI as [-> TI].
      assert (S1 : Z.sgn dt = 1 \/ Z.sgn dt = -1) by lia.
      assert (TL : forall l a b, Forall (fun c => snd c = Z.sgn dt * dd) l ->
                tiles a (l ++ [(tl, hl)]) b -> Z.sgn dt * (b - a) >= Z.sgn dt * hl).
      { clear - G S1 B1 A. induction l as [|[tc h'] l IH]; intros a b F TT; cbn [app tiles] in TT.
        - destruct TT as [_ <-]. lia.
        - destruct TT as [_ TT]. apply Forall_cons_iff in F; destruct F as [F1 F]. cbn [snd] in F1.
          apply IH in TT; [|assumption]. nia. }
      apply TL in TI; [|exact F2]. unfold dd, dir_dist in *. nia. }
  split; [lia|]. split; [exact FD|]. auto.
Qed.

End Step.
