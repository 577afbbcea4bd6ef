(** C51: the output file of a run holds the states of the run.
    [val var p] is the value of the variable [var] of particle [p]; a file has any list of variables [vars], of which none
    is written once only.  [file_after ... = None] stands for the IndexError of C20's finding. *)
From Coq Require Import Reals String List ZArith Bool Lia Permutation.
From Verif Require Import CollModel KLoopModel KLoopSpec SchedModel SchedSpec SplitSpec SplitProofs3 SplitProps AdvModel AdvSpec
  RunModel RunSpec RunProofs2 RunProofs3 RunProofs4 RunProofs5 OutModel TrajModel TrajSpec TrajProofs6 TrajProofs7.
Import ListNotations.
Open Scope Z_scope.

(** ** Concrete material: the kernel, set and releases of C43's cases, with output every 10 s. *)
Definition tx_val (v : string) (p : pcl Z) : Z := if String.eqb v "time" then q_time p else q_x p.
Definition tx_next (t : Z) : option Z := if t mod 10 =? 0 then sx_forcing t else None.
Definition tx_run (jit : bool) := run_written jit sx_kernel sx_handlers 20 5 20 0 sx_user tt sx_batch tx_next 1 sx_busy 0 None 0 sx_set.
Definition tx_log : list (wcall Z) := snd (fst (fst (tx_run true))).
Definition tx_trace : list sev := snd (fst (tx_run true)).

(** C51: writing does not change the run; and the file has, for every particle, the state it had in the run at the start, at each multiple of outputdt and at the end, as far as it was there, and then the state in which it was deleted.  Entries of the different variables at the same place come from the same state.  The state at a time of output is the one that the same call of execute, asked to stop at that time, ends with. *)
Theorem file_holds_the_run : forall (E X H V : Type) (val : string -> pcl X -> V) jit (K : E -> pcl X -> E * kres X) (interp : handlers E X H) lf rf fuel atol user e
    batch next eps a start rs dflt endt ps ps' log tr o,
  moves eps a start dflt endt -> positive_periods a -> reads_ahead (SchedModel.a_dt a) next ->
  a_out a = true -> a_output a = Some o -> eps <= o ->
  NoDup (map (@q_id X) ps ++ released batch tr) -> Forall (fun i => 0 <= i) (map (@q_id X) ps ++ released batch tr) ->
  run_written jit K interp lf rf fuel atol user e batch next eps a start rs dflt ps = (ps', log, tr, SDone) ->
  run_set jit K interp lf rf fuel atol user true e batch next eps a start rs dflt ps = (ps', tr, SDone) /\
  exists regs gone states,
    output_times (SchedModel.a_dt a) start o endt (map fst regs) /\
    Forall (fun '(t, qs) => set_at jit K interp lf rf fuel atol user e batch next eps a start rs dflt ps t qs) regs /\
    Forall (fun p => q_st p = op_Delete) gone /\
    Permutation (map (@q_id X) ps' ++ map (@q_id X) gone) (map (@q_id X) ps ++ released batch tr) /\
    rows_of (history (fun p => p) regs gone) states /\
    forall close warn_tol vars once f, file_after close warn_tol val vars once log = Some f -> forall var, In var vars ->
      export_var false f var = Some (column (val var) states).
Proof. intros E X H V. exact file_states. Qed.
Print Assumptions file_holds_the_run.

Example file_holds_the_run_case :
  moves 1 sx_busy 0 0 40 /\ positive_periods sx_busy /\ reads_ahead 10 tx_next /\
  NoDup (map (@q_id Z) sx_set ++ released sx_batch tx_trace) /\ Forall (fun i => 0 <= i) (map (@q_id Z) sx_set ++ released sx_batch tx_trace) /\
  tx_run true = (fst (fst (fst (tx_run true))), tx_log, tx_trace, SDone) /\
  exists f, file_after Z.eqb 0 tx_val ["time"; "x"]%string [] tx_log = Some f /\
    export_var false f "time" = Some
      [[Some 0; Some 10; Some 20; Some 30; Some 40]; [Some 10; Some 20; Some 30; Some 40; None]; [Some 0; Some 10; None; None; None];
       [Some 20; Some 30; Some 40; None; None]; [Some 20; Some 30; Some 40; None; None]; [Some 40; None; None; None; None];
       [Some 20; Some 30; Some 40; None; None]; [Some 40; None; None; None; None]] /\
    export_var false f "x" = Some
      [[Some 0; Some 10; Some 30; Some 70; Some 150]; [Some 126; Some 262; Some 534; Some 1078; None]; [Some 102; Some 102; None; None; None];
       [Some 46; Some 102; Some 102; None; None]; [Some 1; Some 12; Some 34; None; None]; [Some 1; None; None; None; None];
       [Some 46; Some 102; Some 102; None; None]; [Some 46; None; None; None; None]].
Proof.
  split. { unfold moves, requested, sx_busy. cbn. repeat split; try lia; try discriminate. intros x [Q|Q]; [injection Q as <-; lia|discriminate]. }
  split. { unfold positive_periods, sx_busy. cbn. lia. }
  split. { intros t n Q. unfold tx_next in Q. destruct (t mod 10 =? 0) eqn:T; [|discriminate]. unfold sx_forcing in Q. assert (N : n = 30 * (t / 30 + 1)) by congruence.
    rewrite N. change (Z.sgn 10) with 1. pose proof (Z.div_mod t 30 ltac:(lia)). pose proof (Z.mod_pos_bound t 30 ltac:(lia)). lia. }
  split. { assert (Q : map (@q_id Z) sx_set ++ released sx_batch tx_trace = [1; 2; 3; 4; 5; 1020; 2020; 1040; 2040]) by (vm_compute; reflexivity).
    rewrite Q. repeat constructor; cbn; lia. }
  split. { assert (Q : map (@q_id Z) sx_set ++ released sx_batch tx_trace = [1; 2; 3; 4; 5; 1020; 2020; 1040; 2040]) by (vm_compute; reflexivity).
    rewrite Q. repeat constructor; lia. }
  split. { vm_compute. reflexivity. }
  destruct (file_after Z.eqb 0 tx_val ["time"; "x"]%string [] tx_log) as [f|] eqn:F; [|vm_compute in F; discriminate].
  exists f. vm_compute in F. injection F as <-. split; [reflexivity|]. vm_compute. split; reflexivity.
Qed.

(** C51: when all interruptions come after whole numbers of steps, no write fails, and the states in the file are those that particles had exactly at the times of output. *)
Theorem file_in_step_holds_the_run : forall (E X H V : Type) (val : string -> pcl X -> V) jit (K : E -> pcl X -> E * kres X) (interp : handlers E X H) lf rf fuel atol user e
    batch next eps a start rs dflt endt,
  forall r, uninterruptible K interp -> 0 <= atol -> atol < Z.abs (SchedModel.a_dt a) ->
  run_in_step (SchedModel.a_dt a) r a next -> batch_in_step batch -> clock_in_step (SchedModel.a_dt a) rs start -> whole_steps (SchedModel.a_dt a) start endt ->
  forall ps ps' log tr o, Forall (fun p => whole_steps (SchedModel.a_dt a) (q_time p) start) ps ->
  moves eps a start dflt endt -> positive_periods a -> reads_ahead (SchedModel.a_dt a) next ->
  a_out a = true -> a_output a = Some o -> eps <= o ->
  NoDup (map (@q_id X) ps ++ released batch tr) -> Forall (fun i => 0 <= i) (map (@q_id X) ps ++ released batch tr) ->
  run_written jit K interp lf rf fuel atol user e batch next eps a start rs dflt ps = (ps', log, tr, SDone) ->
  exists regs gone states,
    output_times (SchedModel.a_dt a) start o endt (map fst regs) /\
    Forall (fun '(t, qs) => set_at jit K interp lf rf fuel atol user e batch next eps a start rs dflt ps t qs) regs /\
    Forall (fun p => q_st p = op_Delete) gone /\
    Permutation (map (@q_id X) ps' ++ map (@q_id X) gone) (map (@q_id X) ps ++ released batch tr) /\
    rows_of (exact_history (fun p => p) regs gone) states /\
    forall close warn_tol vars once, 0 <= warn_tol -> exists f, file_after close warn_tol val vars once log = Some f /\
      forall var, In var vars -> export_var false f var = Some (column (val var) states).
Proof. intros E X H V. exact file_in_step. Qed.
Print Assumptions file_in_step_holds_the_run.

Example file_in_step_case :
  uninterruptible sx_kernel sx_handlers /\ run_in_step 10 (Some 20) sx_busy tx_next /\ batch_in_step sx_batch /\ clock_in_step 10 None 0 /\ whole_steps 10 0 40 /\
  Forall (fun p => whole_steps 10 (q_time p) 0) sx_set.
Proof.
  split; [exact sx_uninterruptible|]. split; [exact sx_busy_in_step|]. split; [exact sx_batch_in_step|]. split; [exact I|]. split; [exists 4; reflexivity|exact sx_set_start].
Qed.

(** C51: what every step and every recovery keeps holds of every state in the file, also of those of deleted particles. *)
Theorem file_shows_what_is_kept : forall (E X H V : Type) (val : string -> pcl X -> V) jit (K : E -> pcl X -> E * kres X) (interp : handlers E X H) lf rf fuel atol user e
    batch next eps a start rs dflt endt J ps ps' log tr o,
  steady_kernel K -> step_keeps K (SchedModel.a_dt a) endt J -> recovery_keeps interp J -> 0 <= atol -> atol < Z.abs (SchedModel.a_dt a) ->
  holds_of J ps -> each_release a endt batch (fun p => J (q_id p) (q_time p) (q_x p)) ->
  moves eps a start dflt endt -> positive_periods a -> reads_ahead (SchedModel.a_dt a) next ->
  a_out a = true -> a_output a = Some o -> eps <= o ->
  NoDup (map (@q_id X) ps ++ released batch tr) -> Forall (fun i => 0 <= i) (map (@q_id X) ps ++ released batch tr) ->
  run_written jit K interp lf rf fuel atol user e batch next eps a start rs dflt ps = (ps', log, tr, SDone) ->
  exists states, each_state (fun p => J (q_id p) (q_time p) (q_x p)) states /\
    forall close warn_tol vars once f, file_after close warn_tol val vars once log = Some f -> forall var, In var vars ->
      export_var false f var = Some (column (val var) states).
Proof. intros E X H V. exact file_keeps. Qed.
Print Assumptions file_shows_what_is_kept.

(** For the kernel of the cases: the variable never gets negative when dt is positive. *)
Example file_shows_case :
  steady_kernel sx_kernel /\ step_keeps sx_kernel 10 40 (fun _ _ x => 0 <= x) /\ recovery_keeps sx_handlers (fun _ _ x => 0 <= x) /\
  holds_of (fun _ _ x => 0 <= x) sx_set /\ each_release sx_busy 40 sx_batch (fun p => 0 <= q_x p).
Proof.
  split; [apply sx_uninterruptible|]. split.
  { intros e p D _ G S. unfold sx_kernel. change (Z.sgn 10) with 1 in D. destruct (q_x p =? 101); [cbn [snd k_x]; lia|]. destruct (q_x p =? 102); cbn [snd k_x]; lia. }
  split. { split; [apply sx_uninterruptible|]. intros h e p e' p1 Q G. inversion Q; subst. cbn. lia. }
  split. { repeat constructor; cbn; lia. }
  intros t _. repeat constructor; cbn; lia.
Qed.

(** ** Advection *)
Open Scope R_scope.

(** C51: AdvectionRK4 in a flow that is a polynomial of degree at most 3 in time at each depth: every position in the file is where the water parcel of that particle is at the time that stands beside it. *)
Theorem file_rk4_on_course : forall (E H V : Type) (val : string -> pcl pos -> V) tick code (interp : handlers E pos H) user atol eps a start dflt endt,
  proper_run tick code interp atol eps a start dflt endt ->
  forall jit lf rf fuel e batch next rs ps ps' log tr o,
  positive_periods a -> reads_ahead (SchedModel.a_dt a) next -> a_out a = true -> a_output a = Some o -> (eps <= o)%Z ->
  NoDup (map (@q_id pos) ps ++ released batch tr) -> Forall (fun i => 0 <= i)%Z (map (@q_id pos) ps ++ released batch tr) ->
  forall course_of UV (cu cv : R -> list R), samples UV (fun t z _ _ => (poly (cu z) t, poly (cv z) t)) ->
  (forall z, (length (cu z) <= 4)%nat /\ (length (cv z) <= 4)%nat) ->
  (forall i until, drifts2 (fun t z _ _ => (poly (cu z) t, poly (cv z) t)) until (course_of i)) ->
  Forall (on_course tick course_of) ps -> each_release a endt batch (on_course tick course_of) ->
  run_written jit (adv_kernel tick (rk4 UV) code) interp lf rf fuel atol user e batch next eps a start rs dflt ps = (ps', log, tr, SDone) ->
  exists states, each_state (on_course tick course_of) states /\
    forall close warn_tol vars once f, file_after close warn_tol val vars once log = Some f -> forall var, In var vars ->
      export_var false f var = Some (column (val var) states).
Proof. intros E H V. exact file_rk4_exact. Qed.
Print Assumptions file_rk4_on_course.

(** The tide of C48's case, with output every 10 s in a run of 35 s; the second particle starts at 7 s. *)
Example file_rk4_case :
  proper_run 1 rx_code rx_interp 0 1 tx_args 0 0 35 /\ positive_periods tx_args /\
  Forall (on_course 1 rx_tide) (rx_set (0, 0, 0) (1, 1, 5)) /\
  exists ps' log tr, run_written true (adv_kernel 1 (rk4 tide) rx_code) rx_interp 80 5 40 0 rx_user tt (fun _ => []) (fun _ => None) 1 tx_args 0 None 0
    (rx_set (0, 0, 0) (1, 1, 5)) = (ps', log, tr, SDone) /\ map (@q_id pos) ps' = [1%Z; 2%Z].
Proof.
  split; [exact tx_proper|]. split; [unfold positive_periods, tx_args; cbn; lia|]. split; [apply tide_case|]. apply tx_written. intros p. apply rk2_total. discriminate.
Qed.

(** C51: AdvectionRK4 in any gentle flow: no position in the file is further from the parcel than the bound of C48. *)
Theorem file_rk4_within : forall (E H V : Type) (val : string -> pcl pos -> V) tick code (interp : handlers E pos H) user atol eps a start dflt endt,
  proper_run tick code interp atol eps a start dflt endt ->
  forall jit lf rf fuel e batch next rs ps ps' log tr o,
  positive_periods a -> reads_ahead (SchedModel.a_dt a) next -> a_out a = true -> a_output a = Some o -> (eps <= o)%Z ->
  NoDup (map (@q_id pos) ps ++ released batch tr) -> Forall (fun i => 0 <= i)%Z (map (@q_id pos) ps ++ released batch tr) ->
  forall course_of UV vel L Lt M, samples UV vel -> gentle2 vel L Lt M ->
  (forall i, drifts2 vel (seconds tick endt) (course_of i)) ->
  Forall (starts_on tick course_of) ps -> each_release a endt batch (starts_on tick course_of) ->
  run_written jit (adv_kernel tick (rk4 UV) code) interp lf rf fuel atol user e batch next eps a start rs dflt ps = (ps', log, tr, SDone) ->
  exists states, each_state (within tick course_of (growth (Lt + L * M) L (step_length tick a) 1)) states /\
    forall close warn_tol vars once f, file_after close warn_tol val vars once log = Some f -> forall var, In var vars ->
      export_var false f var = Some (column (val var) states).
Proof. intros E H V. exact file_rk4_error. Qed.
Print Assumptions file_rk4_within.
