(** Proofs for C48: convergence, there and back, and the cases that meet the hypotheses. *)
From Coq Require Import Reals List ZArith Lra Lia Psatz.
From Verif Require Import CollModel KLoopModel KLoopSpec SchedModel SchedSpec SplitSpec AdvModel AdvSpec AdvProofs AdvProofs2
  RunModel RunSpec RunProofs RunProofs2 RunProofs3 RunProofs4.
Import ListNotations.
Open Scope R_scope.

Lemma step_length_pos tick a : 0 < tick -> 0 <= step_length tick a.
Proof. intros T. unfold step_length. apply Rmult_le_pos; [lra|]. apply (IZR_le 0). lia. Qed.

Lemma within_small tick course_of C L a T eps H0 ps :
  (forall H s, 0 <= H <= H0 -> s <= T -> growth C L H 1 s <= eps) -> 0 < tick -> step_length tick a <= H0 ->
  Forall (within tick course_of (growth C L (step_length tick a) 1)) ps -> Forall (within_for tick course_of T eps) ps.
Proof.
  intros G T0 SL F. eapply Forall_impl; [|exact F]. intros p W. unfold within, within_for in *. cbv zeta in *. intros U.
  eapply near_le; [exact W|]. apply G; [split; [apply step_length_pos; exact T0|exact SL]|exact U].
Qed.

Lemma euler_converges : forall L Lt M T eps, 0 < L -> 0 <= Lt -> 0 <= M -> 0 <= T -> 0 < eps ->
  exists step, 0 < step /\
  forall (E H : Type) tick code (interp : handlers E pos H) user atol teps a start dflt endt course_of UV vel jit out e batch next rs ps lf rf fuel ps' tr r,
  proper_run tick code interp atol teps a start dflt endt -> step_length tick a <= step ->
  samples UV vel -> gentle2 vel L Lt M -> (forall i, drifts2 vel (seconds tick endt) (course_of i)) ->
  Forall (starts_on tick course_of) ps -> each_release a endt batch (starts_on tick course_of) ->
  run_set jit (adv_kernel tick (ee UV) code) interp lf rf fuel atol user out e batch next teps a start rs dflt ps = (ps', tr, r) ->
  Forall (within_for tick course_of T eps) ps'.
Proof.
  intros L Lt M T eps L0 Lt0 M0 T0 E0. destruct (growth_small ((Lt + L * M) / 2) L T eps) as (H0 & P & G); [nra|exact L0|exact T0|exact E0|].
  exists H0. split; [exact P|]. intros E H tick code interp user atol teps a start dflt endt course_of UV vel jit out e batch next rs ps lf rf fuel ps' tr r OK SL S GV DR F B RUN.
  eapply within_small; [exact G|apply OK|exact SL|]. eapply euler_error; eassumption.
Qed.

Lemma rk4_converges : forall L Lt M T eps, 0 < L -> 0 <= Lt -> 0 <= M -> 0 <= T -> 0 < eps ->
  exists step, 0 < step /\
  forall (E H : Type) tick code (interp : handlers E pos H) user atol teps a start dflt endt course_of UV vel jit out e batch next rs ps lf rf fuel ps' tr r,
  proper_run tick code interp atol teps a start dflt endt -> step_length tick a <= step ->
  samples UV vel -> gentle2 vel L Lt M -> (forall i, drifts2 vel (seconds tick endt) (course_of i)) ->
  Forall (starts_on tick course_of) ps -> each_release a endt batch (starts_on tick course_of) ->
  run_set jit (adv_kernel tick (rk4 UV) code) interp lf rf fuel atol user out e batch next teps a start rs dflt ps = (ps', tr, r) ->
  Forall (within_for tick course_of T eps) ps'.
Proof.
  intros L Lt M T eps L0 Lt0 M0 T0 E0. destruct (growth_small (Lt + L * M) L T eps) as (H0 & P & G); [nra|exact L0|exact T0|exact E0|].
  exists H0. split; [exact P|]. intros E H tick code interp user atol teps a start dflt endt course_of UV vel jit out e batch next rs ps lf rf fuel ps' tr r OK SL S GV DR F B RUN.
  eapply within_small; [exact G|apply OK|exact SL|]. eapply rk4_error; eassumption.
Qed.

Lemma rk4_3d_converges : forall L Lt M T eps, 0 < L -> 0 <= Lt -> 0 <= M -> 0 <= T -> 0 < eps ->
  exists step, 0 < step /\
  forall (E H : Type) tick code (interp : handlers E pos H) user atol teps a start dflt endt course_of UVW vel jit out e batch next rs ps lf rf fuel ps' tr r,
  proper_run tick code interp atol teps a start dflt endt -> step_length tick a <= step ->
  samples UVW vel -> gentle vel L Lt M -> (forall i, drifts vel (seconds tick endt) (course_of i)) ->
  Forall (starts_on tick course_of) ps -> each_release a endt batch (starts_on tick course_of) ->
  run_set jit (adv_kernel tick (rk4_3d UVW) code) interp lf rf fuel atol user out e batch next teps a start rs dflt ps = (ps', tr, r) ->
  Forall (within_for tick course_of T eps) ps'.
Proof.
  intros L Lt M T eps L0 Lt0 M0 T0 E0. destruct (growth_small (Lt + L * M) L T eps) as (H0 & P & G); [nra|exact L0|exact T0|exact E0|].
  exists H0. split; [exact P|]. intros E H tick code interp user atol teps a start dflt endt course_of UVW vel jit out e batch next rs ps lf rf fuel ps' tr r OK SL S GV DR F B RUN.
  eapply within_small; [exact G|apply OK|exact SL|]. eapply rk4_3d_error; eassumption.
Qed.

(** * There and back *)

Lemma integ_poly cs x0 t0 s : derivable_pt_lim (fun s => x0 + (integ_from 0 cs s - t0)) s (poly cs s).
Proof.
  apply (deriv_eq _ _ (0 + (poly_from 0 cs s - 0))); [unfold poly_from; cbn; ring|].
  apply (derivable_pt_lim_plus (fun _ => x0) (fun s => integ_from 0 cs s - t0)); [apply derivable_pt_lim_const|].
  apply (derivable_pt_lim_minus (integ_from 0 cs) (fun _ => t0)); [apply integ_deriv|apply derivable_pt_lim_const].
Qed.

Definition poly_course (cu cv : R -> list R) (X : pos) (t0 : R) : course :=
  let '(x, y, z) := X in
  mkCourse (fun s => x + (integ_from 0 (cu z) s - integ_from 0 (cu z) t0)) (fun s => y + (integ_from 0 (cv z) s - integ_from 0 (cv z) t0)) (fun _ => z) t0.

Lemma poly_drifts cu cv X t0 until : drifts2 (fun t z _ _ => (poly (cu z) t, poly (cv z) t)) until (poly_course cu cv X t0).
Proof.
  destruct X as [[x y] z]. unfold poly_course. split; [reflexivity|]. intros s _. cbn [c_lon c_lat c_depth]. split; apply integ_poly.
Qed.

Lemma poly_course_start cu cv X t0 : place (poly_course cu cv X t0) t0 = X.
Proof. destruct X as [[x y] z]. unfold place, poly_course. cbn [c_lon c_lat c_depth]. apply pos_eq; ring. Qed.

Lemma there_back : forall (E H : Type) tick code (interp : handlers E pos H) user atol UV cu cv
    jit out e next eps a start rs dflt endt lf rf fuel jit2 out2 e2 next2 eps2 a2 rs2 dflt2 back lf2 rf2 fuel2 ps ps1 tr1 r1 ps2 tr2 r2,
  proper_run tick code interp atol eps a start dflt endt -> proper_run tick code interp atol eps2 a2 endt dflt2 back ->
  samples UV (fun t z _ _ => (poly (cu z) t, poly (cv z) t)) -> (forall z, (length (cu z) <= 4)%nat /\ (length (cv z) <= 4)%nat) ->
  NoDup (map (@q_id pos) ps) ->
  run_set jit (adv_kernel tick (rk4 UV) code) interp lf rf fuel atol user out e (fun _ => []) next eps a start rs dflt ps = (ps1, tr1, r1) ->
  run_set jit2 (adv_kernel tick (rk4 UV) code) interp lf2 rf2 fuel2 atol user out2 e2 (fun _ => []) next2 eps2 a2 endt rs2 dflt2 ps1 = (ps2, tr2, r2) ->
  forall p p2, In p ps -> In p2 ps2 -> q_id p2 = q_id p -> q_time p2 = q_time p -> q_x p2 = q_x p.
Proof.
  intros E H tick code interp user atol UV cu cv jit out e next eps a start rs dflt endt lf rf fuel jit2 out2 e2 next2 eps2 a2 rs2 dflt2 back lf2 rf2 fuel2
    ps ps1 tr1 r1 ps2 tr2 r2 OK OK2 S LE ND RUN RUN2 p p2 IN IN2 QI QT.
  set (course_of := fun i => match find (fun p => (q_id p =? i)%Z) ps with
    | Some p => poly_course cu cv (q_x p) (seconds tick (q_time p)) | None => poly_course cu cv (0, 0, 0) 0 end).
  assert (DR : forall i until, drifts2 (fun t z _ _ => (poly (cu z) t, poly (cv z) t)) until (course_of i)).
  { intros i until. unfold course_of. destruct (find _ ps); apply poly_drifts. }
  assert (FI : forall p, In p ps -> find (fun r => (q_id r =? q_id p)%Z) ps = Some p).
  { clear - ND. induction ps as [|r ps IH]; intros p []; cbn [find].
    - subst r. rewrite Z.eqb_refl. reflexivity.
    - cbn [map] in ND. inversion ND as [|? ? N1 N2]; subst. destruct (q_id r =? q_id p)%Z eqn:Q; [|apply IH; assumption].
      exfalso. apply Z.eqb_eq in Q. apply N1. rewrite Q. apply in_map. assumption. }
  assert (ON : Forall (on_course tick course_of) ps).
  { apply Forall_forall. intros q Hq. unfold on_course, course_of. rewrite (FI q Hq), poly_course_start. reflexivity. }
  assert (ON1 : Forall (on_course tick course_of) ps1).
  { eapply (rk4_exact tick code interp user atol eps a start dflt endt OK course_of UV cu cv S LE DR); [exact ON| |exact RUN]. intros; constructor. }
  assert (ON2 : Forall (on_course tick course_of) ps2).
  { eapply (rk4_exact tick code interp user atol eps2 a2 endt dflt2 back OK2 course_of UV cu cv S LE DR); [exact ON1| |exact RUN2]. intros; constructor. }
  pose proof (proj1 (Forall_forall _ _) ON _ IN) as A. pose proof (proj1 (Forall_forall _ _) ON2 _ IN2) as B.
  unfold on_course in A, B. rewrite QI, QT in B. congruence.
Qed.

(** * Cases *)

Definition rx_args : args := mkArgs 10 (Some 35%Z) None None None None None false false.
Definition rx_back : args := mkArgs (-10) None (Some 0%Z) None None None None false false.
Definition rx_interp : handlers unit pos unit := fun _ e p => (e, None).
Definition rx_code (p : pcl pos) : Z := err_OutOfBounds.
Definition rx_user (c : Z) : option unit := None.

Lemma rx_proper : proper_run 1 rx_code rx_interp 0 1 rx_args 0 0 35.
Proof.
  split; [lra|]. split; [intros p; cbn; tauto|]. split; [split; intros h e p e' p1 Q; discriminate|].
  split; [lia|]. split; [cbn; lia|]. unfold moves, requested, rx_args, rx_back. cbn. repeat split; try lia; try discriminate. intros x [Q|Q]; discriminate.
Qed.
Lemma rx_proper_back : proper_run 1 rx_code rx_interp 0 1 rx_back 35 0 0.
Proof.
  split; [lra|]. split; [intros p; cbn; tauto|]. split; [split; intros h e p e' p1 Q; discriminate|].
  split; [lia|]. split; [cbn; lia|]. unfold moves, requested, rx_args, rx_back. cbn. repeat split; try lia; try discriminate. intros x [Q|Q]; discriminate.
Qed.
Lemma rx_periods : positive_periods rx_args /\ positive_periods rx_back.
Proof. unfold positive_periods, rx_args, rx_back. cbn. repeat split; try discriminate; try lia. Qed.

Definition rx_set (X1 X2 : pos) : list (pcl pos) := [mkPcl 1 0 10 1 X1; mkPcl 2 7 10 1 X2].

Lemma rx_completes : forall adv jit X1 X2, (forall p, exists b, adv p = ADone b) ->
  exists ps' tr, run_set jit (adv_kernel 1 adv rx_code) rx_interp 80 5 40 0 rx_user false tt (fun _ => []) (fun _ => None) 1 rx_args 0 None 0 (rx_set X1 X2) = (ps', tr, SDone) /\
    Forall (fun p => q_time p = 35%Z) ps' /\ map (@q_id pos) ps' = [1%Z; 2%Z].
Proof.
  intros adv jit X1 X2 T.
  destruct (adv_arrives unit unit 1 adv rx_code rx_interp rx_user 0 jit false tt (fun _ => []) (fun _ => None) 1 rx_args 0 None 0 35 (rx_set X1 X2) 80 5 40) as (ps' & tr & R1 & R2 & R3).
  - exact rx_proper. - exact T. - apply rx_periods. - intros t n Q; discriminate. - intros t; constructor.
  - repeat constructor; cbn; lia. - cbn; lia. - cbn; lia.
  - exists ps', tr. split; [exact R1|]. split.
    + assert (G : Forall (fun p => 0 <= Z.sgn (SchedModel.a_dt rx_args) * (35 - q_time p))%Z ps').
      { eapply adv_stays_in_time; [exact rx_proper| | |exact R1]; [repeat constructor; cbn; lia|intros t _; constructor]. }
      rewrite Forall_forall in *. intros p Hp. specialize (G p Hp). specialize (R2 p Hp). unfold arrived in R2. change (SchedModel.a_dt rx_args) with 10%Z in G, R2. lia.
    + rewrite R3. clear. induction (release_times tr); [reflexivity|exact IHl].
Qed.

(** ... and the way back, in the other mode. *)
Lemma rx_returns : forall adv X1 X2, (forall p, exists b, adv p = ADone b) ->
  exists ps1 tr1 ps2 tr2,
    run_set true (adv_kernel 1 adv rx_code) rx_interp 80 5 40 0 rx_user false tt (fun _ => []) (fun _ => None) 1 rx_args 0 None 0 (rx_set X1 X2) = (ps1, tr1, SDone) /\
    run_set false (adv_kernel 1 adv rx_code) rx_interp 80 5 40 0 rx_user false tt (fun _ => []) (fun _ => None) 1 rx_back 35 None 0 ps1 = (ps2, tr2, SDone) /\
    Forall (fun p => q_time p = 0%Z) ps2 /\ map (@q_id pos) ps2 = [1%Z; 2%Z].
Proof.
  intros adv X1 X2 T. destruct (rx_completes adv true X1 X2 T) as (ps1 & tr1 & R1 & R2 & R3). exists ps1, tr1.
  destruct (adv_arrives unit unit 1 adv rx_code rx_interp rx_user 0 false false tt (fun _ => []) (fun _ => None) 1 rx_back 35 None 0 0 ps1 80 5 40) as (ps' & tr & Q1 & Q2 & Q3).
  - exact rx_proper_back. - exact T. - apply rx_periods. - intros t n Q; discriminate. - intros t; constructor.
  - eapply Forall_impl; [|exact R2]. cbv beta. intros p ->. cbn. lia.
  - cbn; lia. - cbn; lia.
  - exists ps', tr. split; [exact R1|]. split; [exact Q1|]. split.
    + assert (G : Forall (fun p => 0 <= Z.sgn (SchedModel.a_dt rx_back) * (0 - q_time p))%Z ps').
      { eapply adv_stays_in_time; [exact rx_proper_back| | |exact Q1]; [|intros t _; constructor].
        eapply Forall_impl; [|exact R2]. cbv beta. intros p ->. cbn. lia. }
      rewrite Forall_forall in *. intros p Hp. specialize (G p Hp). specialize (Q2 p Hp). unfold arrived in Q2. change (SchedModel.a_dt rx_back) with (-10)%Z in G, Q2. lia.
    + rewrite Q3, R3. clear. induction (release_times tr); [reflexivity|exact IHl].
Qed.

(** Velocities of time and depth: cubic in time to the east, slower at depth. *)
Definition tide_u (z : R) : list R := [1; 2; 0; 1 - z].
Definition tide_v (z : R) : list R := [z; 1].
Definition tide (t z y x : R) : option (R * R) := Some (poly (tide_u z) t, poly (tide_v z) t).
Definition rx_tide (i : Z) : course := if (i =? 1)%Z then poly_course tide_u tide_v (0, 0, 0) 0 else poly_course tide_u tide_v (1, 1, 5) 7.
Lemma tide_case :
  proper_run 1 rx_code rx_interp 0 1 rx_args 0 0 35 /\
  samples tide (fun t z _ _ => (poly (tide_u z) t, poly (tide_v z) t)) /\
  (forall z, (length (tide_u z) <= 4)%nat /\ (length (tide_v z) <= 4)%nat) /\
  (forall i until, drifts2 (fun t z _ _ => (poly (tide_u z) t, poly (tide_v z) t)) until (rx_tide i)) /\
  Forall (on_course 1 rx_tide) (rx_set (0, 0, 0) (1, 1, 5)) /\
  exists ps' tr, run_set true (adv_kernel 1 (rk4 tide) rx_code) rx_interp 80 5 40 0 rx_user false tt (fun _ => []) (fun _ => None)
                   1 rx_args 0 None 0 (rx_set (0, 0, 0) (1, 1, 5)) = (ps', tr, SDone) /\
    Forall (fun p => q_time p = 35%Z) ps' /\ map (@q_id pos) ps' = [1%Z; 2%Z].
Proof.
  split; [exact rx_proper|]. split; [intros t z y x w Q; unfold tide in Q; congruence|]. split; [intros z; cbn; lia|].
  split; [intros i until; unfold rx_tide; destruct (i =? 1)%Z; apply poly_drifts|]. split.
  - apply Forall_cons; [|apply Forall_cons; [|apply Forall_nil]]; unfold on_course, seconds, rx_tide; cbn [q_id q_x q_time Z.eqb Pos.eqb].
    + replace (1 * 0) with 0 by ring. rewrite poly_course_start. reflexivity.
    + replace (1 * 7) with 7 by ring. rewrite poly_course_start. reflexivity.
  - apply rx_completes. intros p. apply rk2_total. discriminate.
Qed.
Lemma tide_back :
  proper_run 1 rx_code rx_interp 0 1 rx_back 35 0 0 /\ NoDup (map (@q_id pos) (rx_set (0, 0, 0) (1, 1, 5))) /\
  exists ps1 tr1 ps2 tr2,
    run_set true (adv_kernel 1 (rk4 tide) rx_code) rx_interp 80 5 40 0 rx_user false tt (fun _ => []) (fun _ => None) 1 rx_args 0 None 0 (rx_set (0, 0, 0) (1, 1, 5)) = (ps1, tr1, SDone) /\
    run_set false (adv_kernel 1 (rk4 tide) rx_code) rx_interp 80 5 40 0 rx_user false tt (fun _ => []) (fun _ => None) 1 rx_back 35 None 0 ps1 = (ps2, tr2, SDone) /\
    Forall (fun p => q_time p = 0%Z) ps2 /\ map (@q_id pos) ps2 = [1%Z; 2%Z].
Proof.
  split; [exact rx_proper_back|]. split; [repeat constructor; cbn; lia|]. apply rx_returns. intros p. apply rk2_total. discriminate.
Qed.

Definition drift (t z y x : R) : option (R * R) := Some (z, 2).
Definition straight (x0 y0 z0 t0 : R) : course := mkCourse (fun s => x0 + z0 * (s - t0)) (fun s => y0 + 2 * (s - t0)) (fun _ => z0) t0.
Definition rx_straight (i : Z) : course := if (i =? 1)%Z then straight 0 0 0 0 else straight 1 1 5 7.
Lemma d_line x0 k t0 s : derivable_pt_lim (fun s => x0 + k * (s - t0)) s k.
Proof.
  apply (deriv_eq _ _ (0 + k * (1 - 0))); [ring|].
  apply (derivable_pt_lim_plus (fun _ => x0) (fun s => k * (s - t0))); [apply derivable_pt_lim_const|].
  apply (derivable_pt_lim_scal (fun s => s - t0)).
  apply (derivable_pt_lim_minus (fun s => s) (fun _ => t0)); [apply derivable_pt_lim_id|apply derivable_pt_lim_const].
Qed.
Lemma drift_case :
  samples drift (fun _ z _ _ => (z, 2)) /\
  (forall i until, drifts2 (fun _ z _ _ => (z, 2)) until (rx_straight i)) /\
  Forall (on_course 1 rx_straight) (rx_set (0, 0, 0) (1, 1, 5)) /\
  exists ps' tr, run_set true (adv_kernel 1 (ee drift) rx_code) rx_interp 80 5 40 0 rx_user false tt (fun _ => []) (fun _ => None)
                   1 rx_args 0 None 0 (rx_set (0, 0, 0) (1, 1, 5)) = (ps', tr, SDone) /\
    Forall (fun p => q_time p = 35%Z) ps' /\ map (@q_id pos) ps' = [1%Z; 2%Z].
Proof.
  split; [intros t z y x w Q; unfold drift in Q; congruence|]. split.
  { intros i until. unfold rx_straight. destruct (i =? 1)%Z; (split; [reflexivity|]); intros s _; cbn [straight c_lon c_lat c_depth]; split; apply d_line. }
  split.
  - apply Forall_cons; [|apply Forall_cons; [|apply Forall_nil]]; unfold on_course, seconds, rx_straight, place; cbn [q_id q_x q_time Z.eqb Pos.eqb straight c_lon c_lat c_depth]; apply pos_eq; ring.
  - apply rx_completes. intros p. apply ee_total. discriminate.
Qed.

(** The same in three dimensions. *)
Definition tide3 (t z y x : R) : option (R * R * R) := Some (poly [1; 2; 0; 1] t, poly [0; 1] t, poly [3] t).
Definition poly_course3 (cu cv cw : list R) (X : pos) (t0 : R) : course :=
  let '(x, y, z) := X in
  mkCourse (fun s => x + (integ_from 0 cu s - integ_from 0 cu t0)) (fun s => y + (integ_from 0 cv s - integ_from 0 cv t0))
           (fun s => z + (integ_from 0 cw s - integ_from 0 cw t0)) t0.
Definition rx_tide3 (i : Z) : course := if (i =? 1)%Z then poly_course3 [1; 2; 0; 1] [0; 1] [3] (0, 0, 0) 0 else poly_course3 [1; 2; 0; 1] [0; 1] [3] (1, 1, 5) 7.
Lemma tide3_case :
  samples tide3 (fun t _ _ _ => (poly [1; 2; 0; 1] t, poly [0; 1] t, poly [3] t)) /\
  (forall i until, drifts (fun t _ _ _ => (poly [1; 2; 0; 1] t, poly [0; 1] t, poly [3] t)) until (rx_tide3 i)) /\
  Forall (on_course 1 rx_tide3) (rx_set (0, 0, 0) (1, 1, 5)) /\
  exists ps' tr, run_set true (adv_kernel 1 (rk4_3d tide3) rx_code) rx_interp 80 5 40 0 rx_user false tt (fun _ => []) (fun _ => None)
                   1 rx_args 0 None 0 (rx_set (0, 0, 0) (1, 1, 5)) = (ps', tr, SDone) /\
    Forall (fun p => q_time p = 35%Z) ps' /\ map (@q_id pos) ps' = [1%Z; 2%Z].
Proof.
  split; [intros t z y x w Q; unfold tide3 in Q; congruence|]. split.
  { intros i until. unfold rx_tide3. destruct (i =? 1)%Z; intros s _; cbn [poly_course3 c_lon c_lat c_depth]; (split; [|split]); apply integ_poly. }
  split.
  - apply Forall_cons; [|apply Forall_cons; [|apply Forall_nil]]; unfold on_course, seconds, rx_tide3, place; cbn [q_id q_x q_time Z.eqb Pos.eqb poly_course3 c_lon c_lat c_depth].
    + replace (1 * 0) with 0 by ring. apply pos_eq; ring.
    + replace (1 * 7) with 7 by ring. apply pos_eq; ring.
  - apply rx_completes. intros p. apply rk3_total. discriminate.
Qed.

(** A flow of 1 to the east, and north with the sine of the longitude. *)
Definition wavy (t z y x : R) : R * R := (1, sin x).
Definition wavy3 (t z y x : R) : R * R * R := (1, sin x, cos x).
Definition wave (x0 y0 z0 t0 : R) : course :=
  mkCourse (fun s => x0 + (s - t0)) (fun s => y0 + (cos x0 - cos (x0 + (s - t0)))) (fun _ => z0) t0.
Definition wave3 (x0 y0 z0 t0 : R) : course :=
  mkCourse (fun s => x0 + (s - t0)) (fun s => y0 + (cos x0 - cos (x0 + (s - t0)))) (fun s => z0 + (sin (x0 + (s - t0)) - sin x0)) t0.

Lemma sin_lips a b : Rabs (sin a - sin b) <= Rabs (a - b).
Proof.
  rewrite <- (Rmult_1_l (Rabs (a - b))). apply (path_lips sin cos). intros r _. split; [apply derivable_pt_lim_sin|].
  apply Rabs_le. pose proof (COS_bound r). lra.
Qed.
Lemma cos_lips a b : Rabs (cos a - cos b) <= Rabs (a - b).
Proof.
  rewrite <- (Rmult_1_l (Rabs (a - b))). apply (path_lips cos (fun r => - sin r)). intros r _. split; [apply derivable_pt_lim_cos|].
  apply Rabs_le. pose proof (SIN_bound r). lra.
Qed.

Lemma wavy3_gentle : gentle wavy3 1 0 1.
Proof.
  split; [lra|]. split; [lra|]. split; [lra|]. unfold wavy3. split; [|split].
  - intros t z y x z' y' x' d N. pose proof (near_pos _ _ _ N). destruct N as (A & _ & _). unfold near. rewrite Rminus_eq_0, Rabs_R0, Rmult_1_l.
    pose proof (sin_lips x x'). pose proof (cos_lips x x'). lra.
  - intros. unfold near. rewrite !Rminus_eq_0, Rabs_R0. lra.
  - intros t z y x. unfold near. rewrite !Rminus_0_r. rewrite Rabs_R1. split; [lra|].
    split; apply Rabs_le; [pose proof (SIN_bound x)|pose proof (COS_bound x)]; lra.
Qed.
Lemma wavy_gentle : gentle2 wavy 1 0 1.
Proof.
  split; [lra|]. split; [lra|]. split; [lra|]. unfold wavy. split; [|split].
  - intros t z y x y' x' d [A B]. cbn [fst snd] in *. pose proof (Rabs_pos (x - x')). unfold near2. cbn [fst snd]. rewrite Rminus_eq_0, Rabs_R0, Rmult_1_l.
    pose proof (sin_lips x x'). lra.
  - intros. unfold near2. cbn [fst snd]. rewrite !Rminus_eq_0, Rabs_R0. lra.
  - intros t z y x. unfold near2. cbn [fst snd]. rewrite !Rminus_0_r. rewrite Rabs_R1. split; [lra|]. apply Rabs_le. pose proof (SIN_bound x). lra.
Qed.

Lemma d_shift x0 t0 s : derivable_pt_lim (fun s => x0 + (s - t0)) s 1.
Proof.
  apply (deriv_eq _ _ (0 + (1 - 0))); [ring|].
  apply (derivable_pt_lim_plus (fun _ => x0) (fun s => s - t0)); [apply derivable_pt_lim_const|].
  apply (derivable_pt_lim_minus (fun s => s) (fun _ => t0)); [apply derivable_pt_lim_id|apply derivable_pt_lim_const].
Qed.
Lemma d_lat x0 y0 t0 s : derivable_pt_lim (fun s => y0 + (cos x0 - cos (x0 + (s - t0)))) s (sin (x0 + (s - t0))).
Proof.
  apply (deriv_eq _ _ (0 + (0 - - sin (x0 + (s - t0)) * 1))); [ring|].
  apply (derivable_pt_lim_plus (fun _ => y0) (fun s => cos x0 - cos (x0 + (s - t0)))); [apply derivable_pt_lim_const|].
  apply (derivable_pt_lim_minus (fun _ => cos x0) (fun s => cos (x0 + (s - t0)))); [apply derivable_pt_lim_const|].
  apply (derivable_pt_lim_comp (fun s => x0 + (s - t0)) cos); [apply d_shift|apply derivable_pt_lim_cos].
Qed.
Lemma wave_drifts x0 y0 z0 t0 until : drifts2 wavy until (wave x0 y0 z0 t0).
Proof. split; [reflexivity|]. intros s _. unfold wavy. cbn [wave c_lon c_lat c_depth]. split; [apply d_shift|apply d_lat]. Qed.
Lemma wave3_drifts x0 y0 z0 t0 until : drifts wavy3 until (wave3 x0 y0 z0 t0).
Proof.
  intros s _. unfold wavy3. cbn [wave3 c_lon c_lat c_depth]. split; [apply d_shift|]. split; [apply d_lat|].
  apply (deriv_eq _ _ (0 + (cos (x0 + (s - t0)) * 1 - 0))); [ring|].
  apply (derivable_pt_lim_plus (fun _ => z0) (fun s => sin (x0 + (s - t0)) - sin x0)); [apply derivable_pt_lim_const|].
  apply (derivable_pt_lim_minus (fun s => sin (x0 + (s - t0))) (fun _ => sin x0)); [|apply derivable_pt_lim_const].
  apply (derivable_pt_lim_comp (fun s => x0 + (s - t0)) sin); [apply d_shift|apply derivable_pt_lim_sin].
Qed.

Definition rx_wave (i : Z) : course := if (i =? 1)%Z then wave 0 0 0 0 else wave 1 1 5 7.
Definition rx_wave3 (i : Z) : course := if (i =? 1)%Z then wave3 0 0 0 0 else wave3 1 1 5 7.

Lemma wave_starts : Forall (starts_on 1 rx_wave) (rx_set (0, 0, 0) (1, 1, 5)).
Proof.
  apply Forall_cons; [|apply Forall_cons; [|apply Forall_nil]]; unfold starts_on, seconds, rx_wave, place; cbn [q_id q_x q_time Z.eqb Pos.eqb wave c_lon c_lat c_depth c_start].
  - replace (1 * 0) with 0 by ring. replace (0 + (0 - 0)) with 0 by ring. split; [reflexivity|]. apply pos_eq; ring.
  - replace (1 * 7) with 7 by ring. replace (1 + (7 - 7)) with 1 by ring. split; [reflexivity|]. apply pos_eq; ring.
Qed.
Lemma wave3_starts : Forall (starts_on 1 rx_wave3) (rx_set (0, 0, 0) (1, 1, 5)).
Proof.
  apply Forall_cons; [|apply Forall_cons; [|apply Forall_nil]]; unfold starts_on, seconds, rx_wave3, place; cbn [q_id q_x q_time Z.eqb Pos.eqb wave3 c_lon c_lat c_depth c_start].
  - replace (1 * 0) with 0 by ring. replace (0 + (0 - 0)) with 0 by ring. split; [reflexivity|]. apply pos_eq; ring.
  - replace (1 * 7) with 7 by ring. replace (1 + (7 - 7)) with 1 by ring. split; [reflexivity|]. apply pos_eq; ring.
Qed.

Lemma wave_case :
  samples (fun t z y x => Some (wavy t z y x)) wavy /\ gentle2 wavy 1 0 1 /\
  (forall i, drifts2 wavy (seconds 1 35) (rx_wave i)) /\
  Forall (starts_on 1 rx_wave) (rx_set (0, 0, 0) (1, 1, 5)) /\
  forall adv, adv = ee (fun t z y x => Some (wavy t z y x)) \/ adv = rk4 (fun t z y x => Some (wavy t z y x)) ->
  exists ps' tr, run_set true (adv_kernel 1 adv rx_code) rx_interp 80 5 40 0 rx_user false tt (fun _ => []) (fun _ => None)
                   1 rx_args 0 None 0 (rx_set (0, 0, 0) (1, 1, 5)) = (ps', tr, SDone) /\
    Forall (fun p => q_time p = 35%Z) ps' /\ map (@q_id pos) ps' = [1%Z; 2%Z].
Proof.
  split; [intros t z y x w Q; congruence|]. split; [exact wavy_gentle|].
  split; [intros i; unfold rx_wave; destruct (i =? 1)%Z; apply wave_drifts|]. split; [exact wave_starts|].
  intros adv Q. apply rx_completes. intros p. destruct Q as [-> | ->]; [apply ee_total|apply rk2_total]; discriminate.
Qed.
Lemma wave3_case :
  samples (fun t z y x => Some (wavy3 t z y x)) wavy3 /\ gentle wavy3 1 0 1 /\
  (forall i, drifts wavy3 (seconds 1 35) (rx_wave3 i)) /\
  Forall (starts_on 1 rx_wave3) (rx_set (0, 0, 0) (1, 1, 5)) /\
  exists ps' tr, run_set true (adv_kernel 1 (rk4_3d (fun t z y x => Some (wavy3 t z y x))) rx_code) rx_interp 80 5 40 0 rx_user false tt (fun _ => []) (fun _ => None)
                   1 rx_args 0 None 0 (rx_set (0, 0, 0) (1, 1, 5)) = (ps', tr, SDone) /\
    Forall (fun p => q_time p = 35%Z) ps' /\ map (@q_id pos) ps' = [1%Z; 2%Z].
Proof.
  split; [intros t z y x w Q; congruence|]. split; [exact wavy3_gentle|].
  split; [intros i; unfold rx_wave3; destruct (i =? 1)%Z; apply wave3_drifts|]. split; [exact wave3_starts|].
  apply rx_completes. intros p. apply rk3_total. discriminate.
Qed.

Lemma abs_m1 : Rabs (-1) = 1.
Proof. rewrite Rabs_left by lra. ring. Qed.

(** Solid rotation. *)
Definition whirl : lin2 := mkLin 0 (-1) 1 0 0 0.
Definition circle (z0 t0 : R) : course := mkCourse cos sin (fun _ => z0) t0.
Definition rx_circle (i : Z) : course := if (i =? 1)%Z then circle 0 0 else circle 5 7.
Definition whirl3 : lin3 := mkLin3 (0, -1, 0, 0) (1, 0, 0, 0) (0, 0, 0, 1).
Definition helix (z0 t0 : R) : course := mkCourse cos sin (fun s => z0 + (s - t0)) t0.
Definition rx_helix (i : Z) : course := if (i =? 1)%Z then helix 0 0 else helix 5 7.

Lemma whirl_case :
  samples (fun t z y x => Some (lin_vel whirl t y x)) (fun t _ y x => lin_vel whirl t y x) /\ stretches2 whirl 1 /\
  (forall i, drifts2 (fun t _ y x => lin_vel whirl t y x) (seconds 1 35) (rx_circle i)) /\
  (forall i s, near2 (lin_deriv whirl 5 (c_lon (rx_circle i) s) (c_lat (rx_circle i) s)) (0, 0) 1) /\
  Forall (starts_on 1 rx_circle) (rx_set (1, 0, 0) (cos 7, sin 7, 5)) /\
  exists ps' tr, run_set true (adv_kernel 1 (rk4 (fun t z y x => Some (lin_vel whirl t y x))) rx_code) rx_interp 80 5 40 0 rx_user false tt (fun _ => []) (fun _ => None)
                   1 rx_args 0 None 0 (rx_set (1, 0, 0) (cos 7, sin 7, 5)) = (ps', tr, SDone) /\
    Forall (fun p => q_time p = 35%Z) ps' /\ map (@q_id pos) ps' = [1%Z; 2%Z].
Proof.
  assert (CI : forall i, exists z0 t0, rx_circle i = circle z0 t0) by (intros i; unfold rx_circle; destruct (i =? 1)%Z; eauto).
  split; [intros t z y x w Q; congruence|]. split.
  { unfold stretches2, whirl. cbn [l_a l_b l_c l_d]. rewrite Rabs_R0, abs_m1, Rabs_R1. lra. }
  split.
  { intros i. destruct (CI i) as (z0 & t0 & ->). split; [reflexivity|]. intros s _. cbn [circle c_lon c_lat c_depth]. unfold lin_vel, whirl. cbn [l_a l_b l_c l_d l_e l_f]. split.
    - apply (deriv_eq _ _ (- sin s)); [ring|apply derivable_pt_lim_cos].
    - apply (deriv_eq _ _ (cos s)); [ring|apply derivable_pt_lim_sin]. }
  split.
  { intros i s. destruct (CI i) as (z0 & t0 & ->). cbn [circle c_lon c_lat lin_deriv whirl l_a l_b l_c l_d l_e l_f]. unfold near2. cbn [fst snd].
    pose proof (SIN_bound s). pose proof (COS_bound s). split; apply Rabs_le; lra. }
  split.
  - apply Forall_cons; [|apply Forall_cons; [|apply Forall_nil]]; unfold starts_on, seconds, rx_circle, place; cbn [q_id q_x q_time Z.eqb Pos.eqb circle c_lon c_lat c_depth c_start].
    + replace (1 * 0) with 0 by ring. rewrite cos_0, sin_0. split; reflexivity.
    + replace (1 * 7) with 7 by ring. split; reflexivity.
  - apply rx_completes. intros p. apply rk2_total. discriminate.
Qed.

Lemma helix_case :
  samples (fun t z y x => Some (lin3_vel whirl3 t z y x)) (lin3_vel whirl3) /\ stretches3 whirl3 1 /\
  (forall i, drifts (lin3_vel whirl3) (seconds 1 35) (rx_helix i)) /\
  (forall i s, near (lin3_deriv whirl3 5 (c_lon (rx_helix i) s) (c_lat (rx_helix i) s) (c_depth (rx_helix i) s)) (0, 0, 0) 1) /\
  Forall (starts_on 1 rx_helix) (rx_set (1, 0, 0) (cos 7, sin 7, 5)) /\
  exists ps' tr, run_set true (adv_kernel 1 (rk4_3d (fun t z y x => Some (lin3_vel whirl3 t z y x))) rx_code) rx_interp 80 5 40 0 rx_user false tt (fun _ => []) (fun _ => None)
                   1 rx_args 0 None 0 (rx_set (1, 0, 0) (cos 7, sin 7, 5)) = (ps', tr, SDone) /\
    Forall (fun p => q_time p = 35%Z) ps' /\ map (@q_id pos) ps' = [1%Z; 2%Z].
Proof.
  assert (CI : forall i, exists z0 t0, rx_helix i = helix z0 t0) by (intros i; unfold rx_helix; destruct (i =? 1)%Z; eauto).
  split; [intros t z y x w Q; congruence|]. split.
  { unfold stretches3, whirl3. cbn [m_x m_y m_z]. repeat (apply Forall_cons; [rewrite ?abs_m1, ?Rabs_R0, ?Rabs_R1; lra|]). apply Forall_nil. }
  split.
  { intros i. destruct (CI i) as (z0 & t0 & ->). intros s _. cbn [helix c_lon c_lat c_depth]. unfold lin3_vel, whirl3, row3, cst3. cbn [m_x m_y m_z]. split; [|split].
    - apply (deriv_eq _ _ (- sin s)); [ring|apply derivable_pt_lim_cos].
    - apply (deriv_eq _ _ (cos s)); [ring|apply derivable_pt_lim_sin].
    - apply (deriv_eq _ _ 1); [ring|apply d_shift]. }
  split.
  { intros i s. destruct (CI i) as (z0 & t0 & ->). cbn [helix c_lon c_lat c_depth lin3_deriv lin3_vel whirl3 row3 cst3 m_x m_y m_z]. unfold near.
    pose proof (SIN_bound s). pose proof (COS_bound s). split; [|split]; apply Rabs_le; lra. }
  split.
  - apply Forall_cons; [|apply Forall_cons; [|apply Forall_nil]]; unfold starts_on, seconds, rx_helix, place; cbn [q_id q_x q_time Z.eqb Pos.eqb helix c_lon c_lat c_depth c_start].
    + replace (1 * 0) with 0 by ring. rewrite cos_0, sin_0. split; [reflexivity|]. apply pos_eq; ring.
    + replace (1 * 7) with 7 by ring. split; [reflexivity|]. apply pos_eq; ring.
  - apply rx_completes. intros p. apply rk3_total. discriminate.
Qed.
