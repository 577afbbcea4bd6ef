(** Proofs for C57: chains of accepted steps through passes, rounds and windows; the modes. *)
From Coq Require Import Reals List ZArith Bool Lia Lra.
From Verif Require Import AdvModel AdvSpec AdvProofs3 Rk45Model Rk45Spec Rk45Proofs.
Import ListNotations.
Open Scope R_scope.

Lemma chain_app UV tl dt t x t1 x1 a : chain UV tl dt t x t1 x1 a -> forall t2 x2 b, chain UV tl dt t1 x1 t2 x2 b -> chain UV tl dt t x t2 x2 (a + b).
Proof.
  induction 1; intros t2 x2 b C.
  - rewrite Rplus_0_l. exact C.
  - rewrite Rplus_assoc. eapply chain_step; try eassumption. apply IHchain. exact C.
Qed.

Lemma chain_total UV tl dt t x t' x' a : 0 <= tl -> chain UV tl dt t x t' x' a -> 0 <= dt * (t' - t) /\ a <= tl * Rabs (t' - t).
Proof.
  intros TL. induction 1 as [t x|t x h x1 err t' x' total P F L C IH].
  - replace (t - t) with 0 by ring. rewrite Rabs_R0. split; lra.
  - destruct IH as [D IH]. replace (dt * (t' - t)) with (dt * h + dt * (t' - (t + h))) by ring. split; [lra|].
    assert (E : Rabs (t' - t) = Rabs h + Rabs (t' - (t + h))).
    { destruct (Rtotal_order dt 0) as [N|[N|N]].
      - assert (h < 0) by nra. assert (t' - (t + h) <= 0) by nra. rewrite !Rabs_left1 by lra. lra.
      - subst dt. lra.
      - assert (0 < h) by nra. assert (0 <= t' - (t + h)) by nra. rewrite !Rabs_right by lra. lra. }
    rewrite E, Rmult_plus_distr_l. lra.
Qed.

Section Dir.
Variables (atol dt : R).
Hypothesis A0 : 0 <= atol.
Hypothesis DT : atol < Rabs dt.
Variable UV : R -> R -> R -> R -> option (R * R).

Definition chained (p p' : rp) : Prop := exists total, chain UV tol dt (p_time p) (p_pos p) (p_time p') (p_pos p') total.
Lemma chained_same p p' : p_time p' = p_time p -> p_pos p' = p_pos p -> chained p p'.
Proof. intros A B. exists 0. rewrite A, B. apply chain_none. Qed.
Lemma chained_trans p q r : chained p q -> chained q r -> chained p r.
Proof. intros [a A] [b B]. exists (a + b). exact (chain_app _ _ _ _ _ _ _ _ A _ _ _ B). Qed.

Section Window.
Variable endt : R.
Notation left_ p := (left_to dt endt (p_time p)).
Notation active := (active atol dt endt).
Notation over := (over atol dt endt).
Notation dpos := (dpos endt).

(** What a pass does to a particle. *)
Definition T (p p' : rp) : Prop :=
  chained p p' /\ (p_time p' = p_time p \/ 0 <= left_ p') /\ (p_dt p <> 0 -> p_dt p' <> 0).
Lemma T_trans p q r : T p q -> T q r -> T p r.
Proof. intros (A & B & C) (A' & B' & C'). split; [exact (chained_trans _ _ _ A A')|]. split; [|auto]. destruct B' as [B'|B']; [|right; exact B']. rewrite B'. exact B. Qed.
Lemma T_state p q s : T p q -> T p (set_state q s).
Proof. intros H. exact H. Qed.

Definition pre (p : rp) : Prop := p_state p = Evaluate \/ (p_state p = Success /\ over p).
Definition post (p : rp) : Prop := in_error p = true \/ (over p /\ (p_state p = Evaluate \/ p_state p = Success)).

Lemma step_len p : active p -> 0 < dpos p /\ dpos p <= left_ p /\ dpos p <= Rabs (p_dt p).
Proof.
  intros [P D]. split; [lra|]. unfold Rk45Proofs.dpos. rewrite (left_abs atol dt A0 DT) by lra. split; [apply Rmin_r|apply Rmin_l].
Qed.

Lemma loop_inv f : forall p p', active p -> p_state p = Evaluate -> py_loop UV f atol dt endt p (dpos p) = Some p' -> T p p' /\ post p'.
Proof.
  induction f as [|f IH]; intros p p' A E H; [discriminate H|]. rewrite (loop_active atol dt DT UV endt f p A E) in H.
  destruct (step_len p A) as (S0 & S1 & S2). pose proof (call_cases UV p (dir dt * dpos p)) as CC.
  destruct CC as [(a & err & C & Da & F & L & N)|[(a & err & C & Da & _)|(a & C & _)]]; rewrite C in H.
  - destruct f as [|f]; [discriminate H|]. destruct (after_fields atol dt endt p a) as (FP & FT & FD).
    assert (TP : T p (after atol dt endt p a)).
    { split; [|split].
      - exists (err + 0). rewrite FP, FT, Da. eapply chain_step; [apply (dir_dt atol dt A0 DT); exact S0|exact F|exact L|apply chain_none].
      - right. rewrite FT, Da, (left_step atol dt A0 DT). lra.
      - intros _. rewrite FD. assert (dir dt * dpos p <> 0). { intros Z. pose proof (dir_dt atol dt A0 DT _ S0) as P. rewrite Z in P. lra. } destruct N as [->| ->]; lra. }
    destruct (after_state atol dt endt p a) as [ES|ES]; rewrite ES in H.
    + destruct (IH _ _ (proj2 (after_active atol dt A0 DT endt p a) ES) ES H) as [T2 P2]. split; [exact (T_trans _ _ _ TP T2)|exact P2].
    + injection H as <-. split; [exact TP|]. right. split; [|right; exact ES]. apply (not_active_over atol dt A0 DT). intros AC. apply (after_active atol dt A0 DT) in AC. congruence.
  - injection H as <-. split; [|left; reflexivity]. split; [apply chained_same; reflexivity|]. split; [left; reflexivity|]. intros _. cbn. rewrite Da.
    intros Z. pose proof (dir_dt atol dt A0 DT _ S0) as P. replace (dir dt * dpos p) with 0 in P by lra. lra.
  - injection H as <-. split; [|left; reflexivity]. split; [apply chained_same; reflexivity|]. split; [left; reflexivity|].
    intros _. cbn [undone p_dt].
    assert (NZ : dir dt * dpos p <> 0). { intros Z. pose proof (dir_dt atol dt A0 DT _ S0) as P. rewrite Z in P. lra. }
    assert (a_dt a = dir dt * dpos p); [|congruence]. unfold call in C. destruct (p_pos p) as [[x y] z].
    pose proof (rk45_ok UV (mkA x y z (p_time p) (dir dt * dpos p) None)) as R. unfold rk45_spec in R.
    destruct (stages _ _ _ _); [|rewrite C in R; injection R as ->; reflexivity].
    cbv zeta in R. destruct (Rle_dec _ _); destruct R as (q & Q & _); congruence.
Qed.

Lemma particle_inv f p p' : pre p -> py_particle UV f atol dt endt p = Some p' -> T p p' /\ post p'.
Proof.
  intros P H. destruct (active_dec atol dt endt p) as [A|A].
  - destruct P as [E|[_ O]]; [|exfalso; exact (over_not_active atol dt A0 DT _ _ O A)].
    rewrite (particle_active atol dt A0 DT UV endt f p A E) in H. exact (loop_inv f p p' A E H).
  - destruct (particle_over atol dt A0 DT UV endt f p A) as (s & R & S). rewrite R in H. injection H as <-. split.
    + split; [apply chained_same; reflexivity|]. split; [left; reflexivity|tauto].
    + right. split; [exact (not_active_over atol dt A0 DT _ _ A)|]. cbn. destruct P as [E|[E _]]; destruct S as [->| ->]; tauto.
Qed.

Lemma pass_forall2 one ps ps' : pass one ps = Some ps' <-> Forall2 (fun p p' => one p = Some p') ps ps'.
Proof.
  revert ps'. induction ps as [|p t IH]; intros ps'; cbn [pass].
  - split; [intros H; injection H as <-; constructor|intros H; inversion H; reflexivity].
  - destruct (one p) as [q|] eqn:E; [|split; [discriminate|intros H; inversion H; congruence]]. destruct (pass one t) as [t'|].
    + split; [intros H; injection H as <-; constructor; [exact E|apply IH; reflexivity]|].
      intros H. inversion H as [|? ? ? ? X Y]; subst. apply IH in Y. congruence.
    + split; [discriminate|]. intros H. inversion H as [|? ? ? ? X Y]; subst. apply IH in Y. discriminate.
Qed.

Lemma pass_inv f ps ps' : Forall pre ps -> pass (py_particle UV f atol dt endt) ps = Some ps' -> Forall2 T ps ps' /\ Forall post ps'.
Proof.
  intros P H. apply pass_forall2 in H. induction H as [|p p' t t' X Y IH]; [split; constructor|]. inversion P; subst.
  destruct (particle_inv f p p' ltac:(assumption) X). destruct (IH ltac:(assumption)). split; constructor; assumption.
Qed.

Lemma resume_pre p : post p -> is_failed p = false -> pre (resume p).
Proof.
  intros P F. unfold resume, is_failed in *. destruct (p_state p) eqn:E; try discriminate.
  - left. exact E.
  - destruct P as [P|[O _]]; [unfold in_error in P; rewrite E in P; discriminate|]. right. split; [exact E|exact O].
  - left. reflexivity.
Qed.
Lemma resume_T p q : T (resume p) q -> T p q.
Proof. unfold resume. destruct (p_state p); intros H; exact H. Qed.

Lemma forall2_trans ps qs rs : Forall2 T ps qs -> Forall2 T qs rs -> Forall2 T ps rs.
Proof.
  intros H. revert rs. induction H as [|p q a b X Y IH]; intros rs K; inversion K; subst; constructor; [|apply IH; assumption].
  eapply T_trans; eassumption.
Qed.

Lemma rounds_inv f n : forall ps ps', Forall post ps -> rounds n (py_particle UV f atol dt endt) ps = Done ps' -> Forall2 T ps ps' /\ Forall over ps'.
Proof.
  induction n as [|n IH]; intros ps ps' P H; cbn [rounds] in H; destruct (existsb in_error ps) eqn:E; cbn [negb] in H; try discriminate H.
  2: destruct (existsb is_failed ps) eqn:F; [discriminate H|]; destruct (pass _ (map resume ps)) as [qs|] eqn:Q; [|discriminate H].
  2:{ assert (PR : Forall pre (map resume ps)).
      { apply Forall_forall. intros x X. apply in_map_iff in X. destruct X as (y & <- & Y). apply resume_pre; [rewrite Forall_forall in P; exact (P y Y)|].
        destruct (is_failed y) eqn:FY; [|reflexivity]. rewrite <- F. symmetry. apply existsb_exists. exists y. split; assumption. }
      destruct (pass_inv f _ _ PR Q) as [T1 P1]. destruct (IH _ _ P1 H) as [T2 O2]. split; [|exact O2].
      eapply forall2_trans; [|exact T2]. clear - T1. revert qs T1. induction ps as [|p t IHt]; intros qs T1; inversion T1; subst; constructor;
        [apply resume_T; assumption|apply IHt; assumption]. }
  all: injection H as <-; split;
    [clear; induction ps; constructor; [split; [apply chained_same; reflexivity|]; split; [left; reflexivity|tauto]|assumption]|].
  all: apply Forall_forall; intros x X; rewrite Forall_forall in P; destruct (P x X) as [I|[O _]]; [|exact O].
  all: exfalso; assert (existsb in_error ps = true) by (apply existsb_exists; exists x; split; assumption); congruence.
Qed.

Lemma execute_inv f n ps ps' : execute n (py_particle UV f atol dt endt) ps = Done ps' -> Forall2 T ps ps' /\ Forall over ps'.
Proof.
  unfold execute. destruct (pass _ _) as [qs|] eqn:Q; [|discriminate]. intros H.
  assert (PR : Forall pre (map (fun p => set_state p Evaluate) ps)).
  { apply Forall_forall. intros x X. apply in_map_iff in X. destruct X as (y & <- & Y). left. reflexivity. }
  destruct (pass_inv f _ _ PR Q) as [T1 P1]. destruct (rounds_inv f n _ _ P1 H) as [T2 O2]. split; [|exact O2].
  eapply forall2_trans; [|exact T2]. clear - T1. revert qs T1. induction ps as [|p t IHt]; intros qs T1; inversion T1; subst; constructor; [assumption|apply IHt; assumption].
Qed.

(** * The modes *)

Lemma c_loop_same f : forall p dp, p_dt p <> 0 -> (running p = true -> 0 < dp) -> c_loop UV f atol dt endt p dp = py_loop UV f atol dt endt p dp.
Proof.
  induction f as [|f IH]; intros p dp NZ DP; [reflexivity|]. cbn [c_loop py_loop]. rewrite (dt_far atol dt DT), orb_false_r.
  assert (Z0 : is_zero (p_dt p) = false). { unfold is_zero. destruct (Req_EM_T _ _); [contradiction|reflexivity]. } rewrite Z0, orb_false_r.
  destruct (running p); [|reflexivity]. specialize (DP eq_refl). rewrite (cdir atol dt A0 DT). fold (dir dt). rewrite (Rmult_comm dp).
  destruct (call_cases UV p (dir dt * dp)) as [(a & err & C & Da & F & L & N)|[(a & err & C & _)|(a & C & _)]]; rewrite C; try reflexivity.
  assert (NZ2 : next_dt a <> 0). { assert (dir dt * dp <> 0). { intros Z. pose proof (dir_dt atol dt A0 DT _ DP) as P. rewrite Z in P. lra. } destruct N as [->| ->]; lra. }
  assert (Z2 : is_zero (next_dt a) = false). { unfold is_zero. destruct (Req_EM_T _ _); [contradiction|reflexivity]. } rewrite Z2.
  destruct (cahead atol dt A0 DT endt (p_time p + a_dt a)) as [CA|[CZ CF]].
  - rewrite CA. apply IH; [exact NZ2|]. unfold running. cbn [p_state]. destruct (close0 atol _) eqn:K; cbn [negb andb]; [discriminate|].
    intros RT. destruct (sgn (endt - (p_time p + a_dt a)) =? sgn dt)%Z; [|discriminate RT]. apply close_false in K. rewrite Rabs_right in K; [lra|]. apply Rle_ge, Rmin_glb; apply Rabs_pos.
  - rewrite CF, CZ, Rabs_R0. rewrite (Rmin_right _ 0) by apply Rabs_pos.
    replace (close0 atol 0) with true by (symmetry; apply close_true; rewrite Rabs_R0; exact A0). cbn [negb andb].
    destruct (csgn 0 =? csgn dt)%Z; (apply IH; [exact NZ2|discriminate]).
Qed.

Lemma c_particle_same f p : p_dt p <> 0 -> c_particle UV f atol dt endt p = py_particle UV f atol dt endt p.
Proof.
  intros NZ. unfold c_particle, py_particle. cbv zeta. rewrite (dt_far atol dt DT). 
  assert (Z0 : is_zero (p_dt p) = false). { unfold is_zero. destruct (Req_EM_T _ _); [contradiction|reflexivity]. } rewrite Z0. cbn [negb]. rewrite !andb_true_r.
  destruct (close0 atol (Rmin (Rabs (p_dt p)) (Rabs (endt - p_time p)))) eqn:K; [rewrite !orb_true_r; reflexivity|]. rewrite !orb_false_r.
  apply close_false in K. rewrite Rabs_right in K by (apply Rle_ge, Rmin_glb; apply Rabs_pos).
  destruct (cahead atol dt A0 DT endt (p_time p)) as [CA|[CZ _]].
  - rewrite CA. destruct (negb _); [reflexivity|]. apply c_loop_same; [exact NZ|]. intros _. lra.
  - exfalso. rewrite CZ, Rabs_R0, Rmin_right in K by apply Rabs_pos. lra.
Qed.
End Window.

Definition nonzero (ps : list rp) : Prop := Forall (fun p => p_dt p <> 0) ps.

Lemma particle_nonzero endt f p p' : p_dt p <> 0 -> p_state p <> Repeat -> py_particle UV f atol dt endt p = Some p' -> p_dt p' <> 0.
Proof.
  intros NZ S H. destruct (active_dec atol dt endt p) as [A|A].
  - destruct (p_state p) eqn:E; try (exfalso; congruence).
    + rewrite (particle_active atol dt A0 DT UV endt f p A E) in H. destruct (loop_inv endt f p p' A E H) as [(_ & _ & X) _]. auto.
    + unfold py_particle in H. cbv zeta in H. rewrite (dt_far atol dt DT) in H. destruct (_ && _).
      * injection H as <-. destruct (Rle_dec _ _); exact NZ.
      * destruct f; [discriminate H|]. cbn [py_loop] in H. unfold running in H. rewrite E, (dt_far atol dt DT) in H. injection H as <-. exact NZ.
    + unfold py_particle in H. cbv zeta in H. rewrite (dt_far atol dt DT) in H. destruct (_ && _).
      * injection H as <-. destruct (Rle_dec _ _); exact NZ.
      * destruct f; [discriminate H|]. cbn [py_loop] in H. unfold running in H. rewrite E, (dt_far atol dt DT) in H. injection H as <-. exact NZ.
  - destruct (particle_over atol dt A0 DT UV endt f p A) as (s & R & _). rewrite R in H. injection H as <-. exact NZ.
Qed.

Lemma pass_same endt f ps : nonzero ps -> pass (c_particle UV f atol dt endt) ps = pass (py_particle UV f atol dt endt) ps.
Proof.
  induction 1 as [|p t X Y IH]; [reflexivity|]. cbn [pass]. rewrite (c_particle_same endt f p X), IH. reflexivity.
Qed.
Lemma pass_nonzero endt f ps ps' : nonzero ps -> Forall (fun p => p_state p <> Repeat) ps -> pass (py_particle UV f atol dt endt) ps = Some ps' -> nonzero ps'.
Proof.
  intros NZ S H. apply pass_forall2 in H. induction H as [|p p' t t' X Y IH]; [constructor|]. inversion NZ; inversion S; subst. constructor; [|apply IH; assumption].
  eapply particle_nonzero; eassumption.
Qed.

Lemma rounds_same endt f n : forall ps, nonzero ps -> rounds n (c_particle UV f atol dt endt) ps = rounds n (py_particle UV f atol dt endt) ps.
Proof.
  induction n as [|n IH]; intros ps NZ; cbn [rounds]; [reflexivity|]. destruct (negb _); [reflexivity|]. destruct (existsb is_failed ps); [reflexivity|].
  assert (NZ' : nonzero (map resume ps)).
  { apply Forall_forall. intros x X. apply in_map_iff in X. destruct X as (y & <- & Y). unfold nonzero in NZ. rewrite Forall_forall in NZ. pose proof (NZ y Y) as N. unfold resume. destruct (p_state y); exact N. }
  rewrite (pass_same endt f _ NZ'). destruct (pass _ (map resume ps)) as [qs|] eqn:Q; [|reflexivity]. apply IH.
  eapply pass_nonzero; [exact NZ'| |exact Q]. apply Forall_forall. intros x X. apply in_map_iff in X. destruct X as (y & <- & Y). unfold resume. destruct (p_state y) eqn:E; cbn; congruence.
Qed.

Lemma execute_same endt f n ps : nonzero ps -> execute n (c_particle UV f atol dt endt) ps = execute n (py_particle UV f atol dt endt) ps.
Proof.
  intros NZ. unfold execute. assert (NZ' : nonzero (map (fun p => set_state p Evaluate) ps)).
  { apply Forall_forall. intros x X. apply in_map_iff in X. destruct X as (y & <- & Y). unfold nonzero in NZ. rewrite Forall_forall in NZ. exact (NZ y Y). }
  rewrite (pass_same endt f _ NZ'). destruct (pass _ _) as [qs|] eqn:Q; [|reflexivity]. apply rounds_same. eapply pass_nonzero; [exact NZ'| |exact Q].
  apply Forall_forall. intros x X. apply in_map_iff in X. destruct X as (y & <- & Y). cbn. discriminate.
Qed.

Lemma T_nonzero endt ps ps' : Forall2 (T endt) ps ps' -> nonzero ps -> nonzero ps'.
Proof. induction 1 as [|p p' t t' (_ & _ & X) Y IH]; intros N; [constructor|]. inversion N; subst. constructor; [apply X; assumption|apply IH; assumption]. Qed.

Lemma windows_same lf rf ends : forall ps, nonzero ps -> windows UV true lf rf atol dt ends ps = windows UV false lf rf atol dt ends ps.
Proof.
  induction ends as [|e r IH]; intros ps NZ; [reflexivity|]. cbn [windows]. rewrite (execute_same e lf rf ps NZ).
  destruct (execute rf _ ps) as [qs| |] eqn:Q; try reflexivity. apply IH. destruct (execute_inv e lf rf ps qs Q) as [X _]. exact (T_nonzero e _ _ X NZ).
Qed.

(** * All windows *)

Definition W (E : R) (p p' : rp) : Prop := chained p p' /\ (0 <= left_to dt E (p_time p) -> 0 <= left_to dt E (p_time p')).

Lemma windows_inv E lf rf ends : Forall (fun e => 0 <= left_to dt E e) ends -> forall ps ps', windows UV false lf rf atol dt ends ps = Done ps' -> Forall2 (W E) ps ps'.
Proof.
  induction 1 as [|e r L R IH]; intros ps ps' H; cbn [windows] in H.
  - injection H as <-. induction ps; constructor; [split; [apply chained_same; reflexivity|tauto]|assumption].
  - destruct (execute rf _ ps) as [qs| |] eqn:Q; try discriminate H. destruct (execute_inv e lf rf ps qs Q) as [X _]. specialize (IH _ _ H).
    clear - X IH L A0 DT. revert ps' IH. induction X as [|p q a b (C & M & _) Y IHX]; intros ps' IH; inversion IH as [|? p' ? ? Wq ?]; subst; constructor; [|apply IHX; assumption].
    destruct Wq as [C' M']. split; [exact (chained_trans _ _ _ C C')|]. intros P. apply M'. destruct M as [->|M]; [exact P|].
    rewrite !(left_dir atol dt A0 DT) in *. lra.
Qed.

Lemma windows_last lf rf ends E : forall ps ps', windows UV false lf rf atol dt (ends ++ [E]) ps = Done ps' -> Forall (over atol dt E) ps'.
Proof.
  induction ends as [|e r IH]; intros ps ps' H; cbn [app windows] in H.
  - destruct (execute rf _ ps) as [qs| |] eqn:Q; try discriminate H. injection H as <-. exact (proj2 (execute_inv E lf rf ps qs Q)).
  - destruct (execute rf _ ps) as [qs| |] eqn:Q; try discriminate H. exact (IH _ _ H).
Qed.
End Dir.
