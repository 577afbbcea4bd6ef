(** C57: runs with AdvectionRK45. *)
From Coq Require Import Reals List ZArith Bool Lia Lra.
From Verif Require Import AdvModel AdvSpec AdvProofs RunSpec Rk45Model Rk45Spec Rk45Proofs Rk45Proofs2 Rk45Proofs3 Rk45Proofs4 Rk45Proofs5.
Import ListNotations.
Open Scope R_scope.

Lemma farthest dt ends : dt <> 0 -> exists E, Forall (fun e => 0 <= left_to dt E e) ends.
Proof.
  intros D. induction ends as [|e r (E & IH)]; [exists 0; constructor|]. unfold left_to in *. destruct (Rlt_dec 0 dt).
  - exists (Rmax e E). constructor; [pose proof (Rmax_l e E); lra|]. eapply Forall_impl; [|exact IH]. cbv beta. intros a H. pose proof (Rmax_r e E). lra.
  - exists (Rmin e E). constructor; [pose proof (Rmin_l e E); lra|]. eapply Forall_impl; [|exact IH]. cbv beta. intros a H. pose proof (Rmin_r e E). lra.
Qed.
Lemma dt_nonzero atol dt : 0 <= atol -> atol < Rabs dt -> dt <> 0.
Proof. intros A D ->. rewrite Rabs_R0 in D. lra. Qed.
Lemma to_py UV jit lf rf atol dt ends ps ps' : 0 <= atol -> atol < Rabs dt -> Forall (fun p => p_dt p <> 0) ps ->
  windows UV jit lf rf atol dt ends ps = Done ps' -> windows UV false lf rf atol dt ends ps = Done ps'.
Proof. intros A D N H. destruct jit; [|exact H]. rewrite (windows_same atol dt A D) in H by exact N. exact H. Qed.

(** * What the run of a particle consists of *)

(** In both modes, a run that ends normally has moved each particle by steps of Fehlberg's method in the direction of dt, one after
    the other from its time to the time it ends with, each with an error estimate of at most 1e-5 per second; the estimates add up to at
    most 1e-5 per second. Repeated steps leave no trace. *)
Theorem rk45_run_steps UV jit lf rf atol dt ends ps ps' :
  0 <= atol -> atol < Rabs dt -> Forall (fun p => p_dt p <> 0) ps -> windows UV jit lf rf atol dt ends ps = Done ps' ->
  Forall2 (fun p p' => exists total, chain UV (1 / 100000) dt (p_time p) (p_pos p) (p_time p') (p_pos p') total /\
                         total <= 1 / 100000 * Rabs (p_time p' - p_time p)) ps ps'.
Proof.
  intros A D N H. apply (to_py _ _ _ _ _ _ _ _ _ A D N) in H. destruct (farthest dt ends (dt_nonzero _ _ A D)) as (E & F).
  pose proof (windows_inv atol dt A D UV E lf rf ends F ps ps' H) as W. clear - W. induction W as [|p p' t t' ((total & C) & _) Y IH]; constructor; [|exact IH].
  exists total. split; [exact C|]. apply (chain_total UV _ dt _ (p_pos p) _ (p_pos p')); [lra|exact C].
Qed.

(** No particle is moved beyond the last end, and none against the direction of dt. *)
Theorem rk45_in_time UV jit lf rf atol dt ends E ps ps' :
  0 <= atol -> atol < Rabs dt -> Forall (fun p => p_dt p <> 0) ps -> Forall (fun e => 0 <= left_to dt E e) ends ->
  windows UV jit lf rf atol dt ends ps = Done ps' ->
  Forall2 (fun p p' => 0 <= dt * (p_time p' - p_time p) /\ (0 <= left_to dt E (p_time p) -> 0 <= left_to dt E (p_time p'))) ps ps'.
Proof.
  intros A D N F H. apply (to_py _ _ _ _ _ _ _ _ _ A D N) in H. pose proof (windows_inv atol dt A D UV E lf rf ends F ps ps' H) as W. clear - W.
  induction W as [|p p' t t' ((total & C) & X) Y IH]; constructor; [|exact IH]. split; [|exact X].
  apply (chain_total UV tol dt _ (p_pos p) _ (p_pos p') total); [unfold tol; lra|exact C].
Qed.

(** Both modes do the same, step by step. *)
Theorem rk45_modes_agree UV lf rf atol dt ends ps :
  0 <= atol -> atol < Rabs dt -> Forall (fun p => p_dt p <> 0) ps -> windows UV true lf rf atol dt ends ps = windows UV false lf rf atol dt ends ps.
Proof. intros A D N. apply (windows_same atol dt A D). exact N. Qed.

(** A run that ends normally has brought each particle to the end, or its time step below the tolerance of the loop. *)
Theorem rk45_run_end UV jit lf rf atol dt ends E ps ps' :
  0 <= atol -> atol < Rabs dt -> Forall (fun p => p_dt p <> 0) ps -> windows UV jit lf rf atol dt (ends ++ [E]) ps = Done ps' ->
  Forall (fun p => reached atol dt E p \/ Rabs (p_dt p) <= atol) ps'.
Proof. intros A D N H. apply (to_py _ _ _ _ _ _ _ _ _ A D N) in H. exact (windows_last atol dt A D UV lf rf ends E ps ps' H). Qed.

(** * Where the end is reached *)

(** In water whose velocity is limited and changes at a limited rate, every run ends normally, with every particle at the end; so with
    the tolerance 1e-8 wherever the velocity along a path changes by less than 250 per second. *)
Theorem rk45_arrives UV vel L Lt M atol dt ends E ps :
  (forall t z y x, UV t z y x = Some (vel t z y x)) -> gentle2 vel L Lt M -> 0 <= atol -> atol < Rabs dt -> 4 * atol * (Lt + L * M) <= 1 / 100000 ->
  Forall (fun p => atol < Rabs (p_dt p)) ps ->
  exists ps', (forall jit, ends_with UV jit atol dt (ends ++ [E]) ps ps') /\ Forall (reached atol dt E) ps'.
Proof. apply gentle_arrives. Qed.

(** ... which says nothing about water that flows faster beyond a front, such as velocities of the nearest data point: at the front every
    step is repeated with half the time step, until that is below the tolerance; then the run ends normally, with the particle where it
    was at the beginning. *)
Theorem rk45_arrives_refuted atol E : 0 < atol < 1 -> 1 <= E ->
  exists h', 0 < h' <= atol /\
    forall jit, ends_with (fun _ _ _ x => Some (if Rle_dec x 0 then 1 else 2, 0)) jit atol 1 [E]
                  [mkRp (0, 0, 0) 0 1 Evaluate] [mkRp (0, 0, 0) 0 h' Evaluate].
Proof. intros A B. exact (stuck_run atol E A B). Qed.

(** * Where the path is followed *)

(** Velocities that at each depth are polynomials of the time of degree at most 3: each particle stays on the path of its water. *)
Theorem rk45_run_on_course UV cu cv jit lf rf atol dt ends ps ps' cs :
  samples UV (fun t z _ _ => (poly (cu z) t, poly (cv z) t)) -> (forall z, (length (cu z) <= 4)%nat /\ (length (cv z) <= 4)%nat) ->
  0 <= atol -> atol < Rabs dt -> Forall (fun p => p_dt p <> 0) ps ->
  Forall (fun c => forall until, drifts2 (fun t z _ _ => (poly (cu z) t, poly (cv z) t)) until c) cs ->
  Forall2 (fun p c => p_pos p = place c (p_time p)) ps cs ->
  windows UV jit lf rf atol dt ends ps = Done ps' -> Forall2 (fun p c => p_pos p = place c (p_time p)) ps' cs.
Proof.
  intros S LN A D N DR ON H. pose proof (rk45_run_steps _ _ _ _ _ _ _ _ _ A D N H) as ST. clear H N. revert cs DR ON.
  induction ST as [|p p' t t' (total & C & _) Y IH]; intros cs DR ON; inversion ON; subst; [constructor|]. inversion DR; subst. constructor; [|apply IH; assumption].
  assert (K : forall until, drifts2 (fun t z _ _ => (poly (cu z) t, poly (cv z) t)) until y) by assumption.
  apply (chain_on_course UV cu cv y (1 / 100000) dt (p_time p) (p_pos p) (p_time p') (p_pos p') total S LN); [apply (K 0)| |exact C|assumption].
  intros s. destruct (K s) as [_ Q]. apply (Q s). unfold from_to. pose proof (Rmin_r (c_start y) s). pose proof (Rmax_r (c_start y) s). lra.
Qed.

(** Without failing samples no step is repeated, and every run ends with each particle where its water is at the end. *)
Theorem rk45_run_exact UV cu cv atol dt ends E ps cs :
  (forall t z y x, UV t z y x = Some (poly (cu z) t, poly (cv z) t)) -> (forall z, (length (cu z) <= 4)%nat /\ (length (cv z) <= 4)%nat) ->
  0 <= atol -> atol < Rabs dt -> Forall (fun p => atol < Rabs (p_dt p)) ps ->
  Forall (fun c => forall until, drifts2 (fun t z _ _ => (poly (cu z) t, poly (cv z) t)) until c) cs ->
  Forall2 (fun p c => p_pos p = place c (p_time p)) ps cs ->
  exists ps', (forall jit, ends_with UV jit atol dt (ends ++ [E]) ps ps') /\ Forall (reached atol dt E) ps' /\
    Forall2 (fun p c => p_pos p = place c (p_time p)) ps' cs.
Proof.
  intros S LN A D F DR ON. assert (T : forall t z y x, UV t z y x <> None) by (intros; rewrite S; discriminate).
  destruct (run_ends atol dt (2 * atol + 1) A D UV ltac:(lra) ltac:(lra)) with (ends := ends) (E := E) (ps := ps) as (ps' & R & K).
  - intros p h _. exact (tide_accepts UV cu cv p h S LN).
  - apply no_fail. exact T.
  - exact F.
  - exists ps'. split; [exact R|]. split; [exact K|]. destruct (R false) as (n & W). specialize (W n n (le_n n) (le_n n)).
    eapply (rk45_run_on_course UV cu cv false n n atol dt (ends ++ [E]) ps ps' cs); try eassumption.
    + intros t z y x w H. rewrite S in H. congruence.
    + eapply Forall_impl; [|exact F]. cbv beta. intros a L Z0. rewrite Z0, Rabs_R0 in L. lra.
Qed.

(** The estimates that the run keeps small say nothing about the true error: for every distance there is a current, a polynomial of the
    time, that carries the water over that distance within a second, whereas the particle is accepted where it was, with the estimate 0, and goes on
    with twice the time step. *)
Theorem rk45_estimate_refuted dist atol : 0 <= atol < 1 ->
  exists cu c p', (forall until, drifts2 (fun t _ _ _ => (poly cu t, 0)) until c) /\ place c 0 = (0, 0, 0) /\ place c 1 = (dist, 0, 0) /\
    (forall jit, ends_with (fun t _ _ _ => Some (poly cu t, 0)) jit atol 1 [1] [mkRp (0, 0, 0) 0 1 Evaluate] [p']) /\
    p_pos p' = (0, 0, 0) /\ p_time p' = 1 /\ p_dt p' = 2.
Proof.
  intros A. destruct (pulse_run dist atol A) as (p' & P & T & N & R). exists (pulse dist), (pulse_course dist), p'.
  split; [intros e; apply (pulse_drifts dist e)|]. split; [apply pulse_end|]. split; [apply pulse_end|]. split; [exact R|]. split; [exact P|]. split; [exact T|exact N].
Qed.

(** * Examples *)

(** A tide with the velocity (3 t^2, -1): two time steps of 1 and 3/2 up to the output at 5/2, and one up to 4. *)
Definition tide : R -> R -> R -> R -> option (R * R) := fun t _ _ _ => Some (poly [0; 0; 3] t, poly [-1] t).
Definition tide_course : course := mkCourse (fun s => s ^ 3) (fun s => - s) (fun _ => 7) 0.
Lemma tide_drifts until : drifts2 (fun t z _ _ => (poly [0; 0; 3] t, poly [-1] t)) until tide_course.
Proof.
  split; [reflexivity|]. intros s _. cbn [tide_course c_lon c_lat c_depth]. split.
  - replace (poly [0; 0; 3] s) with (INR 3 * s ^ 2) by (cbn; ring). apply derivable_pt_lim_pow.
  - replace (poly [-1] s) with (-1) by (cbn; ring). apply (derivable_pt_lim_opp (fun s => s)). apply derivable_pt_lim_id.
Qed.
Lemma tide_run dt : dt <> 0 -> 0 <= left_to dt 4 0 -> 0 <= left_to dt 4 (5 / 2) -> exists p', (forall jit, ends_with tide jit 0 dt [5 / 2; 4] [mkRp (0, 0, 7) 0 dt Evaluate] [p']) /\ p_pos p' = (64, -4, 7) /\ p_time p' = 4.
Proof.
  intros DZ LE LM. assert (DT : 0 < Rabs dt) by (apply Rabs_pos_lt; exact DZ).
  destruct (rk45_run_exact tide (fun _ => [0; 0; 3]) (fun _ => [-1]) 0 dt [5 / 2] 4 [mkRp (0, 0, 7) 0 dt Evaluate] [tide_course]) as (ps' & R & K & O).
  - reflexivity.
  - intros z. cbn. lia.
  - lra.
  - exact DT.
  - repeat constructor. exact DT.
  - constructor; [exact tide_drifts|constructor].
  - constructor; [|constructor]. unfold place, tide_course. cbn. repeat f_equal; ring.
  - inversion O as [|p' c t' r P Q]; subst. inversion Q; subst. inversion K as [|? ? RE _]; subst. exists p'. split; [exact R|].
    destruct (R false) as (n & W). specialize (W n n (le_n n) (le_n n)).
    pose proof (rk45_in_time tide false n n 0 dt [5 / 2; 4] 4 [mkRp (0, 0, 7) 0 dt Evaluate] [p']) as IT.
    assert (TM : p_time p' = 4).
    { assert (F2 : Forall (fun e => 0 <= left_to dt 4 e) [5 / 2; 4]) by (constructor; [exact LM|constructor; [unfold left_to; destruct (Rlt_dec 0 dt); lra|constructor]]).
      specialize (IT ltac:(lra) DT ltac:(repeat constructor; exact DZ) F2 W). inversion IT as [|? ? ? ? [_ B] _]; subst. specialize (B LE).
      unfold reached, left_to in *. destruct (Rlt_dec 0 dt); lra. }
    split; [|exact TM]. rewrite P, TM. unfold place, tide_course. cbn [c_lon c_lat c_depth]. repeat f_equal; ring.
Qed.
Example rk45_run_exact_case : exists p', (forall jit, ends_with tide jit 0 1 [5 / 2; 4] [mkRp (0, 0, 7) 0 1 Evaluate] [p']) /\ p_pos p' = (64, -4, 7) /\ p_time p' = 4.
Proof. apply tide_run; [lra| |]; unfold left_to; destruct (Rlt_dec 0 1); lra. Qed.

(** The same run, seen as a chain. *)
Example rk45_run_steps_case : exists total, chain tide (1 / 100000) 1 0 (0, 0, 7) 4 (64, -4, 7) total /\ total <= 4 / 100000.
Proof.
  destruct rk45_run_exact_case as (p' & R & P & T). destruct (R true) as (n & W). specialize (W n n (le_n n) (le_n n)).
  pose proof (rk45_run_steps tide true n n 0 1 [5 / 2; 4] [mkRp (0, 0, 7) 0 1 Evaluate] [p'] ltac:(lra) ltac:(rewrite Rabs_R1; lra) ltac:(repeat constructor; cbn; lra) W) as S.
  inversion S as [|? ? ? ? (total & C & L) _]; subst. cbn [p_time p_pos] in C, L. rewrite P, T in C. exists total. split; [exact C|].
  rewrite T in L. replace (4 - 0) with 4 in L by ring. rewrite Rabs_right in L by lra. lra.
Qed.
Example rk45_run_on_course_case lf rf p' : windows tide true lf rf 0 1 [5 / 2; 4] [mkRp (0, 0, 7) 0 1 Evaluate] = Done [p'] -> p_pos p' = (p_time p' ^ 3, - p_time p', 7).
Proof.
  intros H. assert (F : Forall2 (fun p c => p_pos p = place c (p_time p)) [p'] [tide_course]).
  { apply (rk45_run_on_course tide (fun _ => [0; 0; 3]) (fun _ => [-1]) true lf rf 0 1 [5 / 2; 4] [mkRp (0, 0, 7) 0 1 Evaluate]); try exact H; try lra.
    - intros t z y x w W. unfold tide in W. congruence.
    - intros z. cbn. lia.
    - rewrite Rabs_R1. lra.
    - repeat constructor. cbn. lra.
    - constructor; [exact tide_drifts|constructor].
    - constructor; [|constructor]. unfold place, tide_course. cbn. repeat f_equal; ring. }
  inversion F; subst. assumption.
Qed.
(** With atol 1/1000 and a particle whose dt is 1/2. *)
Example rk45_in_time_case jit lf rf p' : windows front jit lf rf (1 / 1000) 1 [2; 3] [mkRp (1, 0, 0) 0 (1 / 2) Evaluate] = Done [p'] -> 0 <= p_time p' <= 3.
Proof.
  intros H. pose proof (rk45_in_time front jit lf rf (1 / 1000) 1 [2; 3] 3 [mkRp (1, 0, 0) 0 (1 / 2) Evaluate] [p'] ltac:(lra) ltac:(rewrite Rabs_R1; lra) ltac:(repeat constructor; cbn; lra)
    ltac:(repeat constructor; unfold left_to; destruct (Rlt_dec 0 1); lra) H) as I.
  inversion I as [|? ? ? ? [A B] _]; subst. unfold left_to in B. cbn [p_time] in A, B. destruct (Rlt_dec 0 1); [|lra]. lra.
Qed.
Example rk45_run_end_case jit lf rf p' : windows front jit lf rf (1 / 1000) 1 [2; 3] [mkRp (1, 0, 0) 0 (1 / 2) Evaluate] = Done [p'] -> 3 - p_time p' <= 1 / 1000 \/ Rabs (p_dt p') <= 1 / 1000.
Proof.
  intros H. pose proof (rk45_run_end front jit lf rf (1 / 1000) 1 [2] 3 [mkRp (1, 0, 0) 0 (1 / 2) Evaluate] [p'] ltac:(lra) ltac:(rewrite Rabs_R1; lra) ltac:(repeat constructor; cbn; lra) H) as I.
  inversion I as [|? ? A _]; subst. unfold reached, left_to in A. destruct (Rlt_dec 0 1); [exact A|lra].
Qed.
Example rk45_modes_agree_case lf rf : windows front true lf rf (1 / 1000) (-1) [2; -3] [mkRp (1, 0, 0) 4 (- 1 / 2) Evaluate] = windows front false lf rf (1 / 1000) (-1) [2; -3] [mkRp (1, 0, 0) 4 (- 1 / 2) Evaluate].
Proof. apply rk45_modes_agree; [lra|rewrite (Rabs_left (-1)) by lra; lra|]. repeat constructor. cbn. lra. Qed.

(** Water in a channel whose velocity decreases from 2 at its middle by 1 per unit of length, down to 0 at either bank. *)
Definition channel : R -> R -> R -> R -> R * R := fun _ _ y _ => (Rmax 0 (2 - Rabs y), 0).
Lemma channel_gentle : gentle2 channel 1 0 2.
Proof.
  unfold gentle2, near2, channel. cbn [fst snd]. split; [lra|]. split; [lra|]. split; [lra|]. split; [|split].
  - intros t z y x y' x' d [_ B]. replace (0 - 0) with 0 by ring. rewrite Rabs_R0. pose proof (Rabs_pos (y - y')). split; [|lra].
    revert B. unfold Rmax, Rabs. repeat destruct (Rle_dec _ _); repeat destruct (Rcase_abs _); intros; lra.
  - intros t t' z y x. unfold Rminus. rewrite !Rplus_opp_r, Rabs_R0. split; lra.
  - intros. replace (0 - 0) with 0 by ring. rewrite Rabs_R0. split; [|lra]. unfold Rmax, Rabs. repeat destruct (Rle_dec _ _); repeat destruct (Rcase_abs _); lra.
Qed.
Example rk45_arrives_case : exists ps', (forall jit, ends_with (fun t z y x => Some (channel t z y x)) jit (1 / 100000000) 3600 [86400; 172800] [mkRp (0, 1, 0) 0 3600 Evaluate] ps') /\
  Forall (fun p => 172800 - p_time p <= 1 / 100000000) ps'.
Proof.
  destruct (rk45_arrives (fun t z y x => Some (channel t z y x)) channel 1 0 2 (1 / 100000000) 3600 [86400] 172800 [mkRp (0, 1, 0) 0 3600 Evaluate]) as (ps' & R & K).
  - reflexivity.
  - exact channel_gentle.
  - lra.
  - rewrite Rabs_right; lra.
  - lra.
  - repeat constructor. cbn. rewrite Rabs_right; lra.
  - exists ps'. split; [exact R|]. eapply Forall_impl; [|exact K]. cbv beta. intros p H. unfold reached, left_to in H. destruct (Rlt_dec 0 3600); lra.
Qed.

Print Assumptions rk45_run_steps.
Print Assumptions rk45_in_time.
Print Assumptions rk45_modes_agree.
Print Assumptions rk45_run_end.
Print Assumptions rk45_arrives.
Print Assumptions rk45_arrives_refuted.
Print Assumptions rk45_run_on_course.
Print Assumptions rk45_run_exact.
Print Assumptions rk45_estimate_refuted.
