(** C48: a run of pset.execute with an advection kernel integrates the flow. *)
From Coq Require Import Reals List ZArith.
From Verif Require Import CollModel KLoopModel KLoopSpec SchedModel SchedSpec SplitSpec AdvModel AdvSpec RunModel RunSpec
  RunProofs RunProofs4 RunProofs5.
Import ListNotations.
Open Scope R_scope.

(** C48: what every accepted call of the kernel and every recovery keeps holds of every particle after a run, however the run ends: in both modes, with any releases, outputs and readings of data in between.  Calls go in the direction of dt, are no longer than dt and do not pass the end. *)
Theorem run_keeps : forall (E X H : Type) (K : E -> pcl X -> E * kres X) (interp : handlers E X H) (user : Z -> option H)
    atol J jit out e batch next eps a start rs dflt endt ps lf rf fuel ps' tr r,
  steady_kernel K -> step_keeps K (SchedModel.a_dt a) endt J -> recovery_keeps interp J -> (0 <= atol)%Z -> (atol < Z.abs (SchedModel.a_dt a))%Z ->
  moves eps a start dflt endt -> holds_of J ps -> each_release a endt batch (fun p => J (q_id p) (q_time p) (q_x p)) ->
  run_set jit K interp lf rf fuel atol user out e batch next eps a start rs dflt ps = (ps', tr, r) ->
  holds_of J ps'.
Proof. exact run_holds. Qed.
Print Assumptions run_keeps.

(** C48: where no sample fails the run completes, no particle is left behind, and none is lost. *)
Theorem advection_arrives : forall (E H : Type) tick adv code (interp : handlers E pos H) user atol jit out e batch next eps a start rs dflt endt ps lf rf fuel,
  proper_run tick code interp atol eps a start dflt endt -> (forall p, exists b, adv p = ADone b) ->
  positive_periods a -> reads_ahead (SchedModel.a_dt a) next -> batch_in_step batch ->
  Forall (fun p => (Z.to_nat (Z.abs (endt - q_time p) + Z.abs (endt - start)) < lf)%nat) ps ->
  (Z.to_nat (2 * Z.abs (endt - start)) < lf)%nat -> (Z.to_nat (Z.abs (endt - start)) < fuel)%nat ->
  exists ps' tr,
    run_set jit (adv_kernel tick adv code) interp lf rf fuel atol user out e batch next eps a start rs dflt ps = (ps', tr, SDone) /\
    Forall (arrived atol (SchedModel.a_dt a) endt) ps' /\
    map (@q_id pos) ps' = map (@q_id pos) ps ++ flat_map (fun t => map (@q_id pos) (batch t)) (release_times tr).
Proof. exact adv_arrives. Qed.
Print Assumptions advection_arrives.

(** ... and none goes beyond the end. *)
Theorem advection_in_time : forall (E H : Type) tick adv code (interp : handlers E pos H) user atol jit out e batch next eps a start rs dflt endt ps lf rf fuel ps' tr r,
  proper_run tick code interp atol eps a start dflt endt ->
  Forall (fun p => 0 <= Z.sgn (SchedModel.a_dt a) * (endt - q_time p))%Z ps ->
  each_release a endt batch (fun p : pcl pos => 0 <= Z.sgn (SchedModel.a_dt a) * (endt - q_time p))%Z ->
  run_set jit (adv_kernel tick adv code) interp lf rf fuel atol user out e batch next eps a start rs dflt ps = (ps', tr, r) ->
  Forall (fun p => 0 <= Z.sgn (SchedModel.a_dt a) * (endt - q_time p))%Z ps'.
Proof. exact adv_stays_in_time. Qed.
Print Assumptions advection_in_time.

(** C48: AdvectionEE in a flow that is uniform at each depth: every particle is where its water parcel is. *)
Theorem euler_run_exact : forall (E H : Type) (tick : R) code (interp : handlers E pos H) user atol eps a start dflt endt course_of,
  proper_run tick code interp atol eps a start dflt endt ->
  forall UV (u v : R -> R), samples UV (fun _ z _ _ => (u z, v z)) ->
  (forall i until, drifts2 (fun _ z _ _ => (u z, v z)) until (course_of i)) ->
  forall jit out e batch next rs ps lf rf fuel ps' tr r,
  Forall (on_course tick course_of) ps -> each_release a endt batch (on_course tick course_of) ->
  run_set jit (adv_kernel tick (ee UV) code) interp lf rf fuel atol user out e batch next eps a start rs dflt ps = (ps', tr, r) ->
  Forall (on_course tick course_of) ps'.
Proof. intros E H tick code interp user atol eps a start dflt endt course_of OK. exact (euler_exact tick code interp user atol eps a start dflt endt OK course_of). Qed.
Print Assumptions euler_run_exact.

Example drift_runs :
  samples drift (fun _ z _ _ => (z, 2)) /\
  (forall i until, drifts2 (fun _ z _ _ => (z, 2)) until (rx_straight i)) /\
  Forall (on_course 1 rx_straight) (rx_set (0, 0, 0) (1, 1, 5)) /\
  exists ps' tr, run_set true (adv_kernel 1 (ee drift) rx_code) rx_interp 80 5 40 0 rx_user false tt (fun _ => []) (fun _ => None)
                   1 rx_args 0 None 0 (rx_set (0, 0, 0) (1, 1, 5)) = (ps', tr, SDone) /\
    Forall (fun p => q_time p = 35%Z) ps' /\ map (@q_id pos) ps' = [1%Z; 2%Z].
Proof. exact drift_case. Qed.

(** C48: AdvectionRK4 in a flow that depends on time, as a polynomial of degree up to three, and on depth: every particle is where its water parcel is. *)
Theorem rk4_run_exact : forall (E H : Type) (tick : R) code (interp : handlers E pos H) user atol eps a start dflt endt course_of,
  proper_run tick code interp atol eps a start dflt endt ->
  forall UV (cu cv : R -> list R), samples UV (fun t z _ _ => (poly (cu z) t, poly (cv z) t)) ->
  (forall z, (length (cu z) <= 4)%nat /\ (length (cv z) <= 4)%nat) ->
  (forall i until, drifts2 (fun t z _ _ => (poly (cu z) t, poly (cv z) t)) until (course_of i)) ->
  forall jit out e batch next rs ps lf rf fuel ps' tr r,
  Forall (on_course tick course_of) ps -> each_release a endt batch (on_course tick course_of) ->
  run_set jit (adv_kernel tick (rk4 UV) code) interp lf rf fuel atol user out e batch next eps a start rs dflt ps = (ps', tr, r) ->
  Forall (on_course tick course_of) ps'.
Proof. intros E H tick code interp user atol eps a start dflt endt course_of OK. exact (rk4_exact tick code interp user atol eps a start dflt endt OK course_of). Qed.
Print Assumptions rk4_run_exact.

Example tide_runs :
  proper_run 1 rx_code rx_interp 0 1 rx_args 0 0 35 /\
  samples tide (fun t z _ _ => (poly (tide_u z) t, poly (tide_v z) t)) /\
  (forall z, (length (tide_u z) <= 4)%nat /\ (length (tide_v z) <= 4)%nat) /\
  (forall i until, drifts2 (fun t z _ _ => (poly (tide_u z) t, poly (tide_v z) t)) until (rx_tide i)) /\
  Forall (on_course 1 rx_tide) (rx_set (0, 0, 0) (1, 1, 5)) /\
  exists ps' tr, run_set true (adv_kernel 1 (rk4 tide) rx_code) rx_interp 80 5 40 0 rx_user false tt (fun _ => []) (fun _ => None)
                   1 rx_args 0 None 0 (rx_set (0, 0, 0) (1, 1, 5)) = (ps', tr, SDone) /\
    Forall (fun p => q_time p = 35%Z) ps' /\ map (@q_id pos) ps' = [1%Z; 2%Z].
Proof. exact tide_case. Qed.

(** C48: the same for AdvectionRK4_3D and vertical velocities. *)
Theorem rk4_3d_run_exact : forall (E H : Type) (tick : R) code (interp : handlers E pos H) user atol eps a start dflt endt course_of,
  proper_run tick code interp atol eps a start dflt endt ->
  forall UVW (cu cv cw : list R), samples UVW (fun t _ _ _ => (poly cu t, poly cv t, poly cw t)) ->
  (length cu <= 4)%nat -> (length cv <= 4)%nat -> (length cw <= 4)%nat ->
  (forall i until, drifts (fun t _ _ _ => (poly cu t, poly cv t, poly cw t)) until (course_of i)) ->
  forall jit out e batch next rs ps lf rf fuel ps' tr r,
  Forall (on_course tick course_of) ps -> each_release a endt batch (on_course tick course_of) ->
  run_set jit (adv_kernel tick (rk4_3d UVW) code) interp lf rf fuel atol user out e batch next eps a start rs dflt ps = (ps', tr, r) ->
  Forall (on_course tick course_of) ps'.
Proof. intros E H tick code interp user atol eps a start dflt endt course_of OK. exact (rk4_3d_exact tick code interp user atol eps a start dflt endt OK course_of). Qed.
Print Assumptions rk4_3d_run_exact.

Example tide3_runs :
  samples tide3 (fun t _ _ _ => (poly [1; 2; 0; 1] t, poly [0; 1] t, poly [3] t)) /\
  (forall i until, drifts (fun t _ _ _ => (poly [1; 2; 0; 1] t, poly [0; 1] t, poly [3] t)) until (rx_tide3 i)) /\
  Forall (on_course 1 rx_tide3) (rx_set (0, 0, 0) (1, 1, 5)) /\
  exists ps' tr, run_set true (adv_kernel 1 (rk4_3d tide3) rx_code) rx_interp 80 5 40 0 rx_user false tt (fun _ => []) (fun _ => None)
                   1 rx_args 0 None 0 (rx_set (0, 0, 0) (1, 1, 5)) = (ps', tr, SDone) /\
    Forall (fun p => q_time p = 35%Z) ps' /\ map (@q_id pos) ps' = [1%Z; 2%Z].
Proof. exact tide3_case. Qed.

(** C48: in such flows a run and a run back in time end where the particle started. *)
Theorem rk4_there_and_back : forall (E H : Type) tick code (interp : handlers E pos H) user atol UV cu cv
    jit out e next eps a start rs dflt endt lf rf fuel jit2 out2 e2 next2 eps2 a2 rs2 dflt2 back lf2 rf2 fuel2 ps ps1 tr1 r1 ps2 tr2 r2,
  proper_run tick code interp atol eps a start dflt endt -> proper_run tick code interp atol eps2 a2 endt dflt2 back ->
  samples UV (fun t z _ _ => (poly (cu z) t, poly (cv z) t)) -> (forall z, (length (cu z) <= 4)%nat /\ (length (cv z) <= 4)%nat) ->
  NoDup (map (@q_id pos) ps) ->
  run_set jit (adv_kernel tick (rk4 UV) code) interp lf rf fuel atol user out e (fun _ => []) next eps a start rs dflt ps = (ps1, tr1, r1) ->
  run_set jit2 (adv_kernel tick (rk4 UV) code) interp lf2 rf2 fuel2 atol user out2 e2 (fun _ => []) next2 eps2 a2 endt rs2 dflt2 ps1 = (ps2, tr2, r2) ->
  forall p p2, In p ps -> In p2 ps2 -> q_id p2 = q_id p -> q_time p2 = q_time p -> q_x p2 = q_x p.
Proof. exact there_back. Qed.
Print Assumptions rk4_there_and_back.

Example tide_returns :
  proper_run 1 rx_code rx_interp 0 1 rx_back 35 0 0 /\ NoDup (map (@q_id pos) (rx_set (0, 0, 0) (1, 1, 5))) /\
  exists ps1 tr1 ps2 tr2,
    run_set true (adv_kernel 1 (rk4 tide) rx_code) rx_interp 80 5 40 0 rx_user false tt (fun _ => []) (fun _ => None) 1 rx_args 0 None 0 (rx_set (0, 0, 0) (1, 1, 5)) = (ps1, tr1, SDone) /\
    run_set false (adv_kernel 1 (rk4 tide) rx_code) rx_interp 80 5 40 0 rx_user false tt (fun _ => []) (fun _ => None) 1 rx_back 35 None 0 ps1 = (ps2, tr2, SDone) /\
    Forall (fun p => q_time p = 0%Z) ps2 /\ map (@q_id pos) ps2 = [1%Z; 2%Z].
Proof. exact tide_back. Qed.

(** C48: AdvectionEE in any gentle flow: the distance from the water parcel is at most of the first order in dt. *)
Theorem euler_run_error : forall (E H : Type) (tick : R) code (interp : handlers E pos H) user atol eps a start dflt endt course_of,
  proper_run tick code interp atol eps a start dflt endt ->
  forall UV vel L Lt M, samples UV vel -> gentle2 vel L Lt M ->
  (forall i, drifts2 vel (seconds tick endt) (course_of i)) ->
  forall jit out e batch next rs ps lf rf fuel ps' tr r,
  Forall (starts_on tick course_of) ps -> each_release a endt batch (starts_on tick course_of) ->
  run_set jit (adv_kernel tick (ee UV) code) interp lf rf fuel atol user out e batch next eps a start rs dflt ps = (ps', tr, r) ->
  Forall (within tick course_of (growth ((Lt + L * M) / 2) L (step_length tick a) 1)) ps'.
Proof. intros E H tick code interp user atol eps a start dflt endt course_of OK. exact (euler_error tick code interp user atol eps a start dflt endt OK course_of). Qed.
Print Assumptions euler_run_error.

(** C48: AdvectionRK4 in any gentle flow.  (Such flows need not be differentiable, so no higher order holds of all of them.) *)
Theorem rk4_run_error : forall (E H : Type) (tick : R) code (interp : handlers E pos H) user atol eps a start dflt endt course_of,
  proper_run tick code interp atol eps a start dflt endt ->
  forall UV vel L Lt M, samples UV vel -> gentle2 vel L Lt M ->
  (forall i, drifts2 vel (seconds tick endt) (course_of i)) ->
  forall jit out e batch next rs ps lf rf fuel ps' tr r,
  Forall (starts_on tick course_of) ps -> each_release a endt batch (starts_on tick course_of) ->
  run_set jit (adv_kernel tick (rk4 UV) code) interp lf rf fuel atol user out e batch next eps a start rs dflt ps = (ps', tr, r) ->
  Forall (within tick course_of (growth (Lt + L * M) L (step_length tick a) 1)) ps'.
Proof. intros E H tick code interp user atol eps a start dflt endt course_of OK. exact (rk4_error tick code interp user atol eps a start dflt endt OK course_of). Qed.
Print Assumptions rk4_run_error.

Example wave_runs :
  samples (fun t z y x => Some (wavy t z y x)) wavy /\ gentle2 wavy 1 0 1 /\
  (forall i, drifts2 wavy (seconds 1 35) (rx_wave i)) /\
  Forall (starts_on 1 rx_wave) (rx_set (0, 0, 0) (1, 1, 5)) /\
  forall adv, adv = ee (fun t z y x => Some (wavy t z y x)) \/ adv = rk4 (fun t z y x => Some (wavy t z y x)) ->
  exists ps' tr, run_set true (adv_kernel 1 adv rx_code) rx_interp 80 5 40 0 rx_user false tt (fun _ => []) (fun _ => None)
                   1 rx_args 0 None 0 (rx_set (0, 0, 0) (1, 1, 5)) = (ps', tr, SDone) /\
    Forall (fun p => q_time p = 35%Z) ps' /\ map (@q_id pos) ps' = [1%Z; 2%Z].
Proof. exact wave_case. Qed.

(** C48: AdvectionRK4_3D in any gentle flow. *)
Theorem rk4_3d_run_error : forall (E H : Type) (tick : R) code (interp : handlers E pos H) user atol eps a start dflt endt course_of,
  proper_run tick code interp atol eps a start dflt endt ->
  forall UVW vel L Lt M, samples UVW vel -> gentle vel L Lt M ->
  (forall i, drifts vel (seconds tick endt) (course_of i)) ->
  forall jit out e batch next rs ps lf rf fuel ps' tr r,
  Forall (starts_on tick course_of) ps -> each_release a endt batch (starts_on tick course_of) ->
  run_set jit (adv_kernel tick (rk4_3d UVW) code) interp lf rf fuel atol user out e batch next eps a start rs dflt ps = (ps', tr, r) ->
  Forall (within tick course_of (growth (Lt + L * M) L (step_length tick a) 1)) ps'.
Proof. intros E H tick code interp user atol eps a start dflt endt course_of OK. exact (rk4_3d_error tick code interp user atol eps a start dflt endt OK course_of). Qed.
Print Assumptions rk4_3d_run_error.

Example wave3_runs :
  samples (fun t z y x => Some (wavy3 t z y x)) wavy3 /\ gentle wavy3 1 0 1 /\
  (forall i, drifts wavy3 (seconds 1 35) (rx_wave3 i)) /\
  Forall (starts_on 1 rx_wave3) (rx_set (0, 0, 0) (1, 1, 5)) /\
  exists ps' tr, run_set true (adv_kernel 1 (rk4_3d (fun t z y x => Some (wavy3 t z y x))) rx_code) rx_interp 80 5 40 0 rx_user false tt (fun _ => []) (fun _ => None)
                   1 rx_args 0 None 0 (rx_set (0, 0, 0) (1, 1, 5)) = (ps', tr, SDone) /\
    Forall (fun p => q_time p = 35%Z) ps' /\ map (@q_id pos) ps' = [1%Z; 2%Z].
Proof. exact wave3_case. Qed.

(** C48: in linear flows the error of AdvectionRK4 is of the fourth order in dt; [B] bounds the fifth derivative along the paths. *)
Theorem rk4_run_fourth_order : forall (E H : Type) (tick : R) code (interp : handlers E pos H) user atol eps a start dflt endt course_of,
  proper_run tick code interp atol eps a start dflt endt ->
  forall UV A lam B, samples UV (fun t _ y x => lin_vel A t y x) -> stretches2 A lam -> 0 < lam -> 0 <= B ->
  (forall i, drifts2 (fun t _ y x => lin_vel A t y x) (seconds tick endt) (course_of i)) ->
  (forall i s, let c := course_of i in from_to (c_start c) (seconds tick endt) s ->
     near2 (lin_deriv A 5 (c_lon c s) (c_lat c s)) (0, 0) B) ->
  forall jit out e batch next rs ps lf rf fuel ps' tr r,
  Forall (starts_on tick course_of) ps -> each_release a endt batch (starts_on tick course_of) ->
  run_set jit (adv_kernel tick (rk4 UV) code) interp lf rf fuel atol user out e batch next eps a start rs dflt ps = (ps', tr, r) ->
  Forall (within tick course_of (growth (B / 120) lam (step_length tick a) 4)) ps'.
Proof. intros E H tick code interp user atol eps a start dflt endt course_of OK. exact (rk4_linear_run tick code interp user atol eps a start dflt endt OK course_of). Qed.
Print Assumptions rk4_run_fourth_order.

Example whirl_runs :
  samples (fun t z y x => Some (lin_vel whirl t y x)) (fun t _ y x => lin_vel whirl t y x) /\ stretches2 whirl 1 /\
  (forall i, drifts2 (fun t _ y x => lin_vel whirl t y x) (seconds 1 35) (rx_circle i)) /\
  (forall i s, near2 (lin_deriv whirl 5 (c_lon (rx_circle i) s) (c_lat (rx_circle i) s)) (0, 0) 1) /\
  Forall (starts_on 1 rx_circle) (rx_set (1, 0, 0) (cos 7, sin 7, 5)) /\
  exists ps' tr, run_set true (adv_kernel 1 (rk4 (fun t z y x => Some (lin_vel whirl t y x))) rx_code) rx_interp 80 5 40 0 rx_user false tt (fun _ => []) (fun _ => None)
                   1 rx_args 0 None 0 (rx_set (1, 0, 0) (cos 7, sin 7, 5)) = (ps', tr, SDone) /\
    Forall (fun p => q_time p = 35%Z) ps' /\ map (@q_id pos) ps' = [1%Z; 2%Z].
Proof. exact whirl_case. Qed.

(** C48: the same for AdvectionRK4_3D. *)
Theorem rk4_3d_run_fourth_order : forall (E H : Type) (tick : R) code (interp : handlers E pos H) user atol eps a start dflt endt course_of,
  proper_run tick code interp atol eps a start dflt endt ->
  forall UVW A lam B, samples UVW (lin3_vel A) -> stretches3 A lam -> 0 < lam -> 0 <= B ->
  (forall i, drifts (lin3_vel A) (seconds tick endt) (course_of i)) ->
  (forall i s, let c := course_of i in from_to (c_start c) (seconds tick endt) s ->
     near (lin3_deriv A 5 (c_lon c s) (c_lat c s) (c_depth c s)) (0, 0, 0) B) ->
  forall jit out e batch next rs ps lf rf fuel ps' tr r,
  Forall (starts_on tick course_of) ps -> each_release a endt batch (starts_on tick course_of) ->
  run_set jit (adv_kernel tick (rk4_3d UVW) code) interp lf rf fuel atol user out e batch next eps a start rs dflt ps = (ps', tr, r) ->
  Forall (within tick course_of (growth (B / 120) lam (step_length tick a) 4)) ps'.
Proof. intros E H tick code interp user atol eps a start dflt endt course_of OK. exact (rk4_3d_linear tick code interp user atol eps a start dflt endt OK course_of). Qed.
Print Assumptions rk4_3d_run_fourth_order.

Example helix_runs :
  samples (fun t z y x => Some (lin3_vel whirl3 t z y x)) (lin3_vel whirl3) /\ stretches3 whirl3 1 /\
  (forall i, drifts (lin3_vel whirl3) (seconds 1 35) (rx_helix i)) /\
  (forall i s, near (lin3_deriv whirl3 5 (c_lon (rx_helix i) s) (c_lat (rx_helix i) s) (c_depth (rx_helix i) s)) (0, 0, 0) 1) /\
  Forall (starts_on 1 rx_helix) (rx_set (1, 0, 0) (cos 7, sin 7, 5)) /\
  exists ps' tr, run_set true (adv_kernel 1 (rk4_3d (fun t z y x => Some (lin3_vel whirl3 t z y x))) rx_code) rx_interp 80 5 40 0 rx_user false tt (fun _ => []) (fun _ => None)
                   1 rx_args 0 None 0 (rx_set (1, 0, 0) (cos 7, sin 7, 5)) = (ps', tr, SDone) /\
    Forall (fun p => q_time p = 35%Z) ps' /\ map (@q_id pos) ps' = [1%Z; 2%Z].
Proof. exact helix_case. Qed.

(** C48: AdvectionEE converges: a step that is short enough for the flow, the length of the run and the distance is short enough for all runs.  (Cases: above.) *)
Theorem euler_runs_converge : forall L Lt M T eps, 0 < L -> 0 <= Lt -> 0 <= M -> 0 <= T -> 0 < eps ->
  exists step, 0 < step /\
  forall (E H : Type) tick code (interp : handlers E pos H) user atol teps a start dflt endt course_of UV vel jit out e batch next rs ps lf rf fuel ps' tr r,
  proper_run tick code interp atol teps a start dflt endt -> step_length tick a <= step ->
  samples UV vel -> gentle2 vel L Lt M -> (forall i, drifts2 vel (seconds tick endt) (course_of i)) ->
  Forall (starts_on tick course_of) ps -> each_release a endt batch (starts_on tick course_of) ->
  run_set jit (adv_kernel tick (ee UV) code) interp lf rf fuel atol user out e batch next teps a start rs dflt ps = (ps', tr, r) ->
  Forall (within_for tick course_of T eps) ps'.
Proof. exact euler_converges. Qed.
Print Assumptions euler_runs_converge.

(** C48: AdvectionRK4 converges: a step that is short enough for the flow, the length of the run and the distance is short enough for all runs.  (Cases: above.) *)
Theorem rk4_runs_converge : forall L Lt M T eps, 0 < L -> 0 <= Lt -> 0 <= M -> 0 <= T -> 0 < eps ->
  exists step, 0 < step /\
  forall (E H : Type) tick code (interp : handlers E pos H) user atol teps a start dflt endt course_of UV vel jit out e batch next rs ps lf rf fuel ps' tr r,
  proper_run tick code interp atol teps a start dflt endt -> step_length tick a <= step ->
  samples UV vel -> gentle2 vel L Lt M -> (forall i, drifts2 vel (seconds tick endt) (course_of i)) ->
  Forall (starts_on tick course_of) ps -> each_release a endt batch (starts_on tick course_of) ->
  run_set jit (adv_kernel tick (rk4 UV) code) interp lf rf fuel atol user out e batch next teps a start rs dflt ps = (ps', tr, r) ->
  Forall (within_for tick course_of T eps) ps'.
Proof. exact rk4_converges. Qed.
Print Assumptions rk4_runs_converge.

(** C48: AdvectionRK4_3D converges: a step that is short enough for the flow, the length of the run and the distance is short enough for all runs.  (Cases: above.) *)
Theorem rk4_3d_runs_converge : forall L Lt M T eps, 0 < L -> 0 <= Lt -> 0 <= M -> 0 <= T -> 0 < eps ->
  exists step, 0 < step /\
  forall (E H : Type) tick code (interp : handlers E pos H) user atol teps a start dflt endt course_of UVW vel jit out e batch next rs ps lf rf fuel ps' tr r,
  proper_run tick code interp atol teps a start dflt endt -> step_length tick a <= step ->
  samples UVW vel -> gentle vel L Lt M -> (forall i, drifts vel (seconds tick endt) (course_of i)) ->
  Forall (starts_on tick course_of) ps -> each_release a endt batch (starts_on tick course_of) ->
  run_set jit (adv_kernel tick (rk4_3d UVW) code) interp lf rf fuel atol user out e batch next teps a start rs dflt ps = (ps', tr, r) ->
  Forall (within_for tick course_of T eps) ps'.
Proof. exact rk4_3d_converges. Qed.
Print Assumptions rk4_3d_runs_converge.

