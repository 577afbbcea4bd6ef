(** C15-C17: the window loop of pset.execute. [exec], [begin_run], [act], [input] stand for kernel.execute,
    the assignment of dt, the actions at interrupts and the forcing reader; they are arbitrary. *)
From Coq Require Import List ZArith Bool Lia Sorted.
From Verif Require Import SchedModel SchedSpec SchedProofs SchedProofs2.
Import ListNotations.
Open Scope Z_scope.

(** A forcing reader that reloads every 4 ticks, and the arguments of a run from 1 to 14 with dt=2,
    outputdt=3, repeatdt=5. *)
Definition ex_input (w : unit) (t d : Z) : option (unit * option Z) :=
  Some (w, Some (if 0 <? d then (t / 4 + 1) * 4 else - ((- t / 4 + 1) * 4))).
Definition ex_exec (w : unit) (t d : Z) : option unit := Some w.
Definition ex_begin (w : unit) (d : Z) : unit := w.
Definition ex_act (k : kind) (w : unit) (t d : Z) : unit := w.
Definition ex_args : args := mkArgs 2 (Some 13) None (Some 5) (Some 3) None None true false.
Definition ex_back : args := mkArgs (-2) None (Some (-10)) (Some 5) (Some 3) None None true false.

Lemma ex_input_ahead : forall dt, dt <> 0 -> input_ahead ex_input dt.
Proof.
  intros dt D w t d w' n S E. unfold ex_input in E. inversion E; subst; clear E. destruct (0 <? d) eqn:B.
  - apply Z.ltb_lt in B. rewrite <- S. pose proof (Z.mul_succ_div_gt t 4 eq_refl). lia.
  - apply Z.ltb_ge in B. rewrite <- S. pose proof (Z.mul_succ_div_gt (- t) 4 eq_refl). lia.
Qed.

(** * C15: execute covers the requested interval and stops. *)
Theorem execute_covers : forall (W : Type) exec begin_run act input fuel eps a start rs dflt endt (w w' : W) tr r,
  moves eps a start dflt endt -> positive_periods a -> input_ahead input (a_dt a) ->
  sexecute exec begin_run act input fuel eps a start rs dflt w = (w', tr, r) ->
  ((Z.to_nat (Z.abs (endt - start)) < fuel)%nat -> r <> SFuel) /\
  (r = SDone -> leads_to (a_dt a) start (exec_times tr) endt).
Proof. intros W. exact execute_covers_all. Qed.
Print Assumptions execute_covers.

Example execute_covers_case :
  moves 1 ex_args 1 99 14 /\ positive_periods ex_args /\ input_ahead ex_input (a_dt ex_args) /\
  (let '(_, tr, r) := sexecute ex_exec ex_begin ex_act ex_input 20 1 ex_args 1 None 99 tt in
   r = SDone /\ exec_times tr = [4; 6; 7; 8; 10; 11; 12; 13; 14]) /\
  moves 1 ex_back 1 99 (-10) /\ positive_periods ex_back /\
  (let '(_, tr, r) := sexecute ex_exec ex_begin ex_act ex_input 20 1 ex_back 1 (Some 2) 99 tt in
   r = SDone /\ exec_times tr = [0; -2; -3; -4; -5; -8; -10]).
Proof.
  split; [show_moves|]. split; [repeat split|].
  split; [apply ex_input_ahead; cbn; lia|]. split; [vm_compute; auto|].
  split; [show_moves|]. split; [repeat split|]. vm_compute; auto.
Qed.

(** A call that does not move time (dt = 0, or no time to cover) executes exactly one window, at the
    start time. *)
Theorem execute_once_one_window : forall (W : Type) exec begin_run act input fuel eps a start rs dflt endt (w w' : W) tr r,
  requested a start dflt endt ->
  (a_dt a = 0 \/ Z.abs (endt - start) < eps \/ a_runtime a = Some 0) ->
  positive_periods a ->
  (forall w1 w2 n, input w1 start 0 = Some (w2, Some n) -> n <= start) ->
  match rs with Some x => x <= start | None => True end ->
  sexecute exec begin_run act input (S fuel) eps a start rs dflt w = (w', tr, r) ->
  r <> SFuel /\ (r = SDone -> exec_times tr = [start]).
Proof. intros W. exact once_all. Qed.
Print Assumptions execute_once_one_window.

Example execute_once_one_window_case :
  let a := mkArgs 0 None (Some 9) (Some 5) (Some 3) None None true true in
  requested a 7 0 9 /\ positive_periods a /\
  (let '(_, tr, r) := sexecute ex_exec ex_begin ex_act ex_input 1 1 a 7 (Some 2) 99 tt in
   r = SDone /\ exec_times tr = [7]).
Proof. cbv zeta. split; [show_requested|]. split; [repeat split|]. vm_compute. auto. Qed.

(** An end time on the wrong side of the start executes and releases nothing. *)
Theorem execute_wrong_side : forall (W : Type) exec begin_run act input fuel eps a start rs dflt endt (w w' : W) tr r,
  requested a start dflt endt -> eps <= Z.abs (endt - start) -> a_runtime a <> Some 0 ->
  0 < eps -> Z.sgn (a_dt a) * (endt - start) < 0 ->
  sexecute exec begin_run act input fuel eps a start rs dflt w = (w', tr, r) ->
  exec_times tr = [] /\ release_times tr = [].
Proof. intros W. exact wrong_side_all. Qed.
Print Assumptions execute_wrong_side.

Example execute_wrong_side_case :
  let a := mkArgs (-2) None (Some 9) (Some 5) (Some 3) None None true true in
  requested a 7 0 9 /\ Z.sgn (a_dt a) * (9 - 7) < 0 /\
  (let '(_, tr, r) := sexecute ex_exec ex_begin ex_act ex_input 1 1 a 7 (Some 2) 99 tt in
   r = SDone /\ write_times tr = [7; 7]).
Proof. cbv zeta. split; [show_requested|]. split; [repeat split|]. vm_compute. auto. Qed.

(** The periods have to be positive although execute accepts 0: with outputdt = 0 it never ends. *)
Theorem zero_outputdt_never_ends_refuted :
  exists a : args, moves 1 a 0 99 10 /\ a_output a = Some 0 /\
    forall fuel, snd (sexecute ex_exec ex_begin ex_act (fun w _ _ => Some (w, None)) fuel 1 a 0 None 99 tt) = SFuel.
Proof. exact zero_output_run. Qed.
Print Assumptions zero_outputdt_never_ends_refuted.

(** * C16: output is written at the start, at every multiple of outputdt, and at the end; nowhere else. *)
Theorem writes_exact : forall (W : Type) exec begin_run act input fuel eps a start rs dflt endt (w w' : W) tr o,
  moves eps a start dflt endt -> positive_periods a -> input_ahead input (a_dt a) ->
  a_out a = true -> a_output a = Some o ->
  sexecute exec begin_run act input fuel eps a start rs dflt w = (w', tr, SDone) ->
  exists mid, write_times tr = start :: mid ++ [endt] /\ all_multiples (a_dt a) start o start endt mid.
Proof. intros W. exact writes_all. Qed.
Print Assumptions writes_exact.

Example writes_exact_case :
  (let '(_, tr, r) := sexecute ex_exec ex_begin ex_act ex_input 20 1 ex_args 1 None 99 tt in
   r = SDone /\ write_times tr = [1; 4; 7; 10; 13; 14]) /\
  a_out ex_args = true /\ a_output ex_args = Some 3 /\ moves 1 ex_args 1 99 14 /\ positive_periods ex_args.
Proof. split; [vm_compute; auto|]. split; [reflexivity|]. split; [reflexivity|]. split; [show_moves|repeat split]. Qed.

(** Without outputdt: at the start and at the end. *)
Theorem writes_no_period : forall (W : Type) exec begin_run act input fuel eps a start rs dflt endt (w w' : W) tr,
  moves eps a start dflt endt -> positive_periods a -> input_ahead input (a_dt a) ->
  a_out a = true -> a_output a = None ->
  sexecute exec begin_run act input fuel eps a start rs dflt w = (w', tr, SDone) ->
  write_times tr = [start; endt].
Proof. intros W. exact no_output_period_writes. Qed.
Print Assumptions writes_no_period.

Example writes_no_period_case :
  let a := mkArgs 2 (Some 13) None (Some 5) None None None true false in
  moves 1 a 1 99 14 /\ positive_periods a /\
  (let '(_, tr, r) := sexecute ex_exec ex_begin ex_act ex_input 20 1 a 1 None 99 tt in r = SDone).
Proof. split; [show_moves|]. split; [repeat split|]. vm_compute. reflexivity. Qed.

(** Without an output file nothing is written. *)
Theorem writes_no_file : forall (W : Type) exec begin_run act input fuel eps a start rs dflt endt (w w' : W) tr,
  moves eps a start dflt endt -> positive_periods a -> input_ahead input (a_dt a) -> a_out a = false ->
  sexecute exec begin_run act input fuel eps a start rs dflt w = (w', tr, SDone) -> write_times tr = [].
Proof. intros W. exact no_file_writes. Qed.
Print Assumptions writes_no_file.

Example writes_no_file_case :
  let a := mkArgs 2 (Some 13) None (Some 5) (Some 3) None None false false in
  moves 1 a 1 99 14 /\ positive_periods a /\
  (let '(_, tr, r) := sexecute ex_exec ex_begin ex_act ex_input 20 1 a 1 None 99 tt in
   r = SDone /\ exec_times tr = [4; 6; 7; 8; 10; 11; 12; 13; 14]).
Proof. split; [show_moves|]. split; [repeat split|]. vm_compute. auto. Qed.

(** Apart from the last write, everything happens in the order of time, and at one time in the order: kernels,
    release, write, show, callbacks, forcing. So a batch released at a time is in the output of that time. *)
Theorem execute_order : forall (W : Type) exec begin_run act input fuel eps a start rs dflt endt (w w' : W) tr,
  moves eps a start dflt endt -> positive_periods a -> input_ahead input (a_dt a) ->
  sexecute exec begin_run act input fuel eps a start rs dflt w = (w', tr, SDone) ->
  exists run, tr = run ++ (if a_out a then [SWrite endt] else []) /\
    StronglySorted (before (a_dt a)) run /\
    forall e, In e run -> ev_time e <> start -> In (SExec (ev_time e)) run.
Proof. intros W. exact order_all. Qed.
Print Assumptions execute_order.

(** The particles are shown at the start and at every multiple of moviedt; not at the end as such. *)
Theorem shows_exact : forall (W : Type) exec begin_run act input fuel eps a start rs dflt endt (w w' : W) tr,
  moves eps a start dflt endt -> positive_periods a -> input_ahead input (a_dt a) ->
  sexecute exec begin_run act input fuel eps a start rs dflt w = (w', tr, SDone) ->
  match a_movie a with
  | Some m => exists mid, show_times tr = start :: mid /\ all_multiples (a_dt a) start m start endt mid
  | None => show_times tr = []
  end.
Proof. intros W. exact shows_all. Qed.
Print Assumptions shows_exact.

(** The callbacks are called at every multiple of callbackdt, by default the smallest period given. *)
Theorem callbacks_exact : forall (W : Type) exec begin_run act input fuel eps a start rs dflt endt (w w' : W) tr p,
  moves eps a start dflt endt -> positive_periods a -> input_ahead input (a_dt a) ->
  callback_every a p ->
  sexecute exec begin_run act input fuel eps a start rs dflt w = (w', tr, SDone) ->
  match a_cbs a, p with
  | true, Some v => all_multiples (a_dt a) start v start endt (callback_times tr)
  | _, _ => callback_times tr = []
  end.
Proof. intros W. exact callbacks_all. Qed.
Print Assumptions callbacks_exact.

Definition ex_all : args := mkArgs 2 (Some 12) None (Some 6) (Some 6) (Some 4) None true true.
Example execute_order_case :
  moves 1 ex_all 0 99 12 /\ positive_periods ex_all /\ input_ahead ex_input (a_dt ex_all) /\
  callback_every ex_all (Some 4) /\
  (let '(_, tr, r) := sexecute ex_exec ex_begin ex_act ex_input 20 1 ex_all 0 None 99 tt in
   r = SDone /\
   tr = [SWrite 0; SShow 0; SInput 0; SExec 4; SShow 4; SCallback 4; SInput 4;
         SExec 6; SRelease 6; SWrite 6; SInput 6; SExec 8; SShow 8; SCallback 8; SInput 8;
         SExec 12; SRelease 12; SWrite 12; SShow 12; SCallback 12; SWrite 12]).
Proof.
  split; [show_moves|]. split; [repeat split|]. split; [apply ex_input_ahead; cbn; lia|].
  split; [split; [cbn; auto|cbn; intros x [Q|[Q|[Q|[]]]]; inversion Q; lia]|]. vm_compute. auto.
Qed.

(** * C17: repeated releases.
    Partial: the calls run on in one direction from repeat_starttime or later; the positions of the
    batches are in [batches_original_partial]. *)
Theorem releases_exact_partial : forall (W : Type) exec begin_run act input eps dt r rs t0 t2 tr,
  @input_ahead W input dt -> dt <> 0 -> 0 < r ->
  consecutive exec begin_run act input eps dt r rs t0 t2 tr ->
  let base := match rs with Some x => x | None => t0 end in
  0 <= Z.sgn dt * (t0 - base) ->
  0 <= Z.sgn dt * (t2 - t0) /\ all_multiples dt base r t0 t2 (release_times tr).
Proof. intros W. exact releases_split. Qed.
Print Assumptions releases_exact_partial.

Definition ex_leg (rt : Z) : args := mkArgs 2 (Some rt) None (Some 5) (Some 3) None None true false.
Example releases_exact_case : exists tr,
  consecutive ex_exec ex_begin ex_act ex_input 1 2 5 None 1 24 tr /\ release_times tr = [6; 11; 16; 21].
Proof.
  eexists. split.
  - eapply (consecutive_call _ _ _ _ _ _ _ _ _ 6 _ _ _ 20%nat (ex_leg 5) 99 tt tt); try (vm_compute; reflexivity).
    { repeat split. } { show_moves. }
    eapply (consecutive_call _ _ _ _ _ _ _ _ _ 18 _ _ _ 20%nat (ex_leg 12) 99 tt tt); try (vm_compute; reflexivity).
    { repeat split. } { show_moves. }
    eapply (consecutive_call _ _ _ _ _ _ _ _ _ 24 _ _ _ 20%nat (ex_leg 6) 99 tt tt); try (vm_compute; reflexivity).
    { repeat split. } { show_moves. }
    apply consecutive_nil.
  - vm_compute. reflexivity.
Qed.

(** A run forward from 0 to 10 and then backward to -20: the releases at -3, -6 and -9 are skipped. *)
Theorem releases_backward_skipped_refuted :
  exists a1 a2,
    a_repeat a1 = Some 3 /\ a_repeat a2 = Some 3 /\ moves 1 a1 0 99 10 /\ moves 1 a2 10 99 (-20) /\
    positive_periods a1 /\ positive_periods a2 /\
    (let '(_, tr1, r1) := sexecute ex_exec ex_begin ex_act ex_input 40 1 a1 0 None 99 tt in
     r1 = SDone /\ release_times tr1 = [3; 6; 9]) /\
    (let '(_, tr2, r2) := sexecute ex_exec ex_begin ex_act ex_input 60 1 a2 10 (rs_after None 0) 99 tt in
     r2 = SDone /\ release_times tr2 = [-12; -15; -18]).
Proof.
  exists (mkArgs 1 (Some 10) None (Some 3) None None None false false),
         (mkArgs (-1) (Some 30) None (Some 3) None None None false false).
  split; [reflexivity|]. split; [reflexivity|].
  split; [show_moves|]. split; [show_moves|].
  split; [repeat split|]. split; [repeat split|]. split; vm_compute; auto.
Qed.
Print Assumptions releases_backward_skipped_refuted.

(** A call that does not move time (runtime 0) at repeat_starttime releases a second copy of the first
    batch. *)
Theorem zero_run_releases_refuted :
  exists a, a_repeat a = Some 5 /\ a_runtime a = Some 0 /\ positive_periods a /\
    (let '(_, tr, r) := sexecute ex_exec ex_begin ex_act ex_input 40 1 a 7 None 99 tt in
     r = SDone /\ release_times tr = [7]).
Proof.
  exists (mkArgs 1 (Some 0) None (Some 5) None None None false false). repeat split.
Qed.
Print Assumptions zero_run_releases_refuted.

(** Positions of the batches. All batches of a set are alike, and they are the positions given at
    construction if nothing moved the particles before the set's arrays were first replaced. *)
Theorem batches_alike_each_other : forall xs os b1 b2,
  In b1 (rrun (rconstruct xs) os) -> In b2 (rrun (rconstruct xs) os) -> b1 = b2.
Proof. exact batches_alike. Qed.
Print Assumptions batches_alike_each_other.

Theorem batches_original_partial : forall xs os,
  (match os with RKernel _ :: _ => False | _ => True end) -> Forall (eq xs) (rrun (rconstruct xs) os).
Proof. exact batches_original. Qed.
Print Assumptions batches_original_partial.

Example batches_case :
  rrun (rconstruct [1; 2]) [RRemove (fun _ => true); RKernel (map (Z.add 10)); RRelease;
                             RKernel (map (Z.add 10)); RRemove (Nat.eqb 1); RRelease] = [[1; 2]; [1; 2]].
Proof. reflexivity. Qed.

(** A kernel runs, then a batch is released: the batch starts where the kernel has moved the first one. *)
Theorem batches_moved_refuted : exists xs os, rrun (rconstruct xs) os = [map (Z.add 10) xs; map (Z.add 10) xs] /\ xs <> map (Z.add 10) xs.
Proof.
  exists [1; 2], [RKernel (map (Z.add 10)); RRemove (fun _ => true); RRelease; RKernel (map (Z.add 10)); RRelease].
  split; [reflexivity|discriminate].
Qed.
Print Assumptions batches_moved_refuted.
