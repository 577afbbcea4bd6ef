(** C43: interrupting a run does not change its result.
    pset.execute runs the kernels in windows cut at every output, animation, callback, release and
    forcing time (baseparticleset.py 428-478).  When all of these are whole numbers of steps apart, the
    cuts cannot be seen in the particles; neither can a run cut in two calls of pset.execute.
    Fuel: "exists L N, forall lf >= L, rf >= N" says the loops end, whatever large number of iterations
    they are allowed.  [next] is the time of the next reading of forcing data, [batch t] the particles
    released at [t].  In the code the batch released at [t] is a copy of the first batch only as long as
    C18's finding about its starting positions does not strike; the theorems take any batches that
    depend on the time of release alone. *)
From Coq Require Import List ZArith Bool Lia.
From Verif Require Import CollModel KLoopModel KLoopSpec SchedModel SchedSpec SplitSpec SplitProofs3.
Import ListNotations.
Open Scope Z_scope.

(** ** Concrete material: the variable is doubled and dt added at every step, so that the number and
    the sizes of the steps show; one value fails and is reset by a recovery kernel, another (also reached by way
    of 46) deletes. *)
Definition sx_kernel (e : unit) (p : pcl Z) : unit * kres Z :=
  if q_x p =? 101 then (e, mkKres err_OutOfBounds (q_time p) (q_dt p) (q_st p) 555 None)
  else if q_x p =? 102 then (e, mkKres op_Delete (q_time p) (q_dt p) (q_st p) 102 None)
  else (e, mkKres st_Success (q_time p) (q_dt p) (q_st p) (2 * q_x p + q_dt p) None).
Definition sx_handlers (h : Z) (e : unit) (p : pcl Z) : unit * option (pcl Z) :=
  (e, Some (mkPcl (q_id p) (q_time p) (q_dt p) st_Success 7)).
Definition sx_user (code : Z) : option Z := if code =? err_OutOfBounds then Some 0 else None.
Definition sx_set : list (pcl Z) :=
  [mkPcl 1 0 10 0 0; mkPcl 2 (-20) 10 0 101; mkPcl 3 0 10 0 102; mkPcl 4 90 10 0 5; mkPcl 5 20 10 0 46].
Definition sx_batch (t : Z) : list (pcl Z) := [mkPcl (1000 + t) t 99 0 1; mkPcl (2000 + t) t 99 0 46].

Lemma sx_uninterruptible : uninterruptible sx_kernel sx_handlers.
Proof.
  split; [split|split; [|split]].
  - exists (fun p => snd (sx_kernel tt p)). intros [] p. unfold sx_kernel. destruct (_ =? _); [reflexivity|]. destruct (_ =? _); reflexivity.
  - exists (fun h p => snd (sx_handlers h tt p)). intros h [] p. reflexivity.
  - intros e p. unfold sx_kernel. destruct (_ =? _); [cbn; auto|]. destruct (_ =? _); cbn; auto.
  - intros h e p e' p1 Q. inversion Q; subst. auto.
  - intros e p _. unfold sx_kernel, signalled. destruct (q_x p =? 101); [discriminate|]. destruct (q_x p =? 102); [discriminate|].
    cbn. rewrite Z.eqb_refl. discriminate.
Qed.

Ltac divides := unfold whole_steps; match goal with |- (?a | ?b) => exists (b / a); vm_compute; reflexivity end.

(** ** Windows: however the way from [t0] to [tend] is cut into windows, at whole numbers of steps, the
    kernel loops give the same particles, in either mode. *)
Theorem windows_do_not_matter : forall (E X H : Type) (K : E -> pcl X -> E * kres X) (interp : handlers E X H)
    (user : Z -> option H) atol dt jit out e,
  uninterruptible K interp -> 0 <= atol -> atol < Z.abs dt ->
  forall ends1 ends2 t0 tend ps,
  in_step dt t0 ps -> onward_ends dt t0 (ends1 ++ [tend]) -> onward_ends dt t0 (ends2 ++ [tend]) ->
  forall lf rf ps',
  in_windows (fun ps t => mode_exec jit K interp lf rf atol user out e ps t dt) (ends1 ++ [tend]) ps = Some ps' ->
  exists L N, forall lf rf, (L <= lf)%nat -> (N <= rf)%nat ->
  exists ps'',
  in_windows (fun ps t => mode_exec jit K interp lf rf atol user out e ps t dt) (ends2 ++ [tend]) ps = Some ps'' /\
  same_particles ps' ps''.
Proof. intros E X H. exact windows_all. Qed.
Print Assumptions windows_do_not_matter.

Example windows_case :
  uninterruptible sx_kernel sx_handlers /\ in_step 10 0 sx_set /\
  onward_ends 10 0 ([20; 30] ++ [50]) /\ onward_ends 10 0 ([] ++ [50]) /\
  in_windows (fun ps t => mode_exec true sx_kernel sx_handlers 20 5 0 sx_user true tt ps t 10) [20; 30; 50] sx_set =
    Some [mkPcl 1 50 10 0 310; mkPcl 2 50 10 0 2166; mkPcl 4 90 10 0 5] /\
  in_windows (fun ps t => mode_exec true sx_kernel sx_handlers 20 5 0 sx_user true tt ps t 10) [50] sx_set =
    Some [mkPcl 1 50 10 0 310; mkPcl 2 50 10 0 2166; mkPcl 4 90 10 0 5].
Proof.
  split; [exact sx_uninterruptible|]. split.
  { repeat constructor; cbn; unfold whole_steps; cbn; try reflexivity.
    - exists 0. reflexivity. - exists 2. reflexivity. - exists 0. reflexivity. - exists (-9). reflexivity. - exists (-2). reflexivity. }
  split. { cbn. unfold onward, whole_steps. repeat split; try (cbn; lia); divides. }
  split. { cbn. unfold onward, whole_steps. repeat split; try (cbn; lia); divides. }
  split; vm_compute; reflexivity.
Qed.

(** ** Calls of pset.execute with the same step, releases and times, which differ in their outputs,
    animations, callbacks and in the times at which forcing data is read, end with the same particles;
    if one of them completes, so does the other. *)
Theorem interruptions_do_not_matter : forall (E X H : Type) (K : E -> pcl X -> E * kres X) (interp : handlers E X H)
    (user : Z -> option H) atol dt jit out e,
  uninterruptible K interp -> 0 <= atol -> atol < Z.abs dt ->
  forall r batch eps, batch_in_step batch ->
  forall next1 next2 a1 a2 start rs dflt1 dflt2 endt ps,
  run_in_step dt r a1 next1 -> run_in_step dt r a2 next2 ->
  moves eps a1 start dflt1 endt -> moves eps a2 start dflt2 endt ->
  whole_steps dt start endt -> clock_in_step dt rs start ->
  Forall (fun p => whole_steps dt (q_time p) start) ps ->
  forall lf rf fuel ps1 tr1,
  run_set jit K interp lf rf fuel atol user out e batch next1 eps a1 start rs dflt1 ps = (ps1, tr1, SDone) ->
  exists F L N, forall fuel lf rf, (F <= fuel)%nat -> (L <= lf)%nat -> (N <= rf)%nat ->
  exists ps2 tr2,
  run_set jit K interp lf rf fuel atol user out e batch next2 eps a2 start rs dflt2 ps = (ps2, tr2, SDone) /\
  same_particles ps1 ps2.
Proof. intros E X H. exact run_same. Qed.
Print Assumptions interruptions_do_not_matter.

(** A run of 40 s in steps of 10 s with a release every 20 s: with output every 10 s, callbacks and
    forcing every 30 s, and without any of these. *)
Definition sx_busy : args := mkArgs 10 (Some 40) None (Some 20) (Some 10) None (Some 30) true true.
Definition sx_quiet : args := mkArgs 10 None (Some 40) (Some 20) None None None false false.
Definition sx_forcing (t : Z) : option Z := Some (30 * (t / 30 + 1)).
Definition sx_none (t : Z) : option Z := None.

Lemma sx_busy_in_step : run_in_step 10 (Some 20) sx_busy (fun t => if t mod 10 =? 0 then sx_forcing t else None).
Proof.
  unfold run_in_step, sx_busy, period_in_step; cbn [a_dt a_repeat a_output a_movie a_callback].
  repeat split; try lia; try (divides).
  - destruct (t mod 10 =? 0); [|discriminate]. unfold sx_forcing in H. assert (Q : x = 30 * (t / 30 + 1)) by congruence.
    rewrite Q. change (Z.sgn 10) with 1.
    pose proof (Z.div_mod t 30 ltac:(lia)). pose proof (Z.mod_pos_bound t 30 ltac:(lia)). lia.
  - destruct (t mod 10 =? 0) eqn:T; [|discriminate]. unfold sx_forcing in H. assert (Q : x = 30 * (t / 30 + 1)) by congruence.
    rewrite Q. unfold whole_steps.
    apply Z.eqb_eq in T. pose proof (Z.div_mod t 10 ltac:(lia)). exists (3 * (t / 30 + 1) - t / 10). lia.
Qed.
Lemma sx_quiet_in_step : run_in_step 10 (Some 20) sx_quiet sx_none.
Proof.
  unfold run_in_step, sx_quiet, period_in_step; cbn [a_dt a_repeat a_output a_movie a_callback].
  repeat split; try lia; try (divides); discriminate.
Qed.
Lemma sx_set_start : Forall (fun p => whole_steps 10 (q_time p) 0) sx_set.
Proof. repeat constructor; cbn; unfold whole_steps; cbn; [exists 0|exists 2|exists 0|exists (-9)|exists (-2)]; reflexivity. Qed.
Lemma sx_batch_in_step : batch_in_step sx_batch.
Proof. intros t. repeat constructor. Qed.

Example interruptions_case :
  uninterruptible sx_kernel sx_handlers /\ batch_in_step sx_batch /\
  run_in_step 10 (Some 20) sx_busy (fun t => if t mod 10 =? 0 then sx_forcing t else None) /\
  run_in_step 10 (Some 20) sx_quiet sx_none /\
  moves 1 sx_busy 0 0 40 /\ moves 1 sx_quiet 0 0 40 /\ whole_steps 10 0 40 /\ clock_in_step 10 None 0 /\
  Forall (fun p => whole_steps 10 (q_time p) 0) sx_set /\
  run_set true sx_kernel sx_handlers 20 5 20 0 sx_user true tt sx_batch
     (fun t => if t mod 10 =? 0 then sx_forcing t else None) 1 sx_busy 0 None 0 sx_set =
   ([mkPcl 1 40 10 0 150; mkPcl 2 40 10 0 1078; mkPcl 4 90 10 0 5;
     mkPcl 1020 40 10 0 34; mkPcl 1040 40 10 0 1; mkPcl 2040 40 10 0 46],
    [SWrite 0; SInput 0; SExec 10; SWrite 10; SInput 10; SExec 20; SRelease 20; SWrite 20; SInput 20; SExec 30;
     SWrite 30; SCallback 30; SInput 30; SExec 40; SRelease 40; SWrite 40; SWrite 40], SDone) /\
  map seen (fst (fst (run_set true sx_kernel sx_handlers 20 5 20 0 sx_user true tt sx_batch sx_none 1 sx_quiet 0 None 0 sx_set))) =
   map seen [mkPcl 1 40 10 0 150; mkPcl 2 40 10 0 1078; mkPcl 4 90 10 0 5;
     mkPcl 1020 40 10 0 34; mkPcl 1040 40 10 0 1; mkPcl 2040 40 10 0 46].
Proof.
  split; [exact sx_uninterruptible|]. split; [exact sx_batch_in_step|]. split; [exact sx_busy_in_step|].
  split; [exact sx_quiet_in_step|].
  split. { unfold moves, requested, sx_busy. cbn. repeat split; try lia; try discriminate. intros x [Q|Q]; inversion Q; lia. }
  split. { unfold moves, requested, sx_quiet. cbn. repeat split; try lia; try discriminate. intros x [Q|Q]; discriminate. }
  split; [exists 4; reflexivity|]. split; [exact I|]. split; [exact sx_set_start|].
  split; vm_compute; reflexivity.
Qed.

(** ** A run cut in two calls of pset.execute: the second call finds the release clock of the first. *)
Theorem two_calls_as_one : forall (E X H : Type) (K : E -> pcl X -> E * kres X) (interp : handlers E X H)
    (user : Z -> option H) atol dt jit out e,
  uninterruptible K interp -> 0 <= atol -> atol < Z.abs dt ->
  forall r batch eps, batch_in_step batch ->
  forall next next1 next2 a a1 a2 start mid endt rs dflt dflt1 dflt2 ps,
  run_in_step dt r a next -> run_in_step dt r a1 next1 -> run_in_step dt r a2 next2 ->
  moves eps a start dflt endt -> moves eps a1 start dflt1 mid -> moves eps a2 mid dflt2 endt ->
  whole_steps dt start mid -> whole_steps dt mid endt -> clock_in_step dt rs start ->
  Forall (fun p => whole_steps dt (q_time p) start) ps ->
  (* if the two calls complete, so does the one *)
  (forall lf1 rf1 fuel1 ps1 tr1 lf2 rf2 fuel2 ps2 tr2,
     run_set jit K interp lf1 rf1 fuel1 atol user out e batch next1 eps a1 start rs dflt1 ps = (ps1, tr1, SDone) ->
     run_set jit K interp lf2 rf2 fuel2 atol user out e batch next2 eps a2 mid (rs_after rs start) dflt2 ps1
       = (ps2, tr2, SDone) ->
     exists F L N, forall fuel lf rf, (F <= fuel)%nat -> (L <= lf)%nat -> (N <= rf)%nat ->
     exists ps' tr,
     run_set jit K interp lf rf fuel atol user out e batch next eps a start rs dflt ps = (ps', tr, SDone) /\
     same_particles ps2 ps') /\
  (* and if the one completes, so do the two *)
  (forall lf0 rf0 fuel0 ps' tr,
     run_set jit K interp lf0 rf0 fuel0 atol user out e batch next eps a start rs dflt ps = (ps', tr, SDone) ->
     exists F L N, forall fuel lf rf, (F <= fuel)%nat -> (L <= lf)%nat -> (N <= rf)%nat ->
     exists ps1 tr1 ps2 tr2,
     run_set jit K interp lf rf fuel atol user out e batch next1 eps a1 start rs dflt1 ps = (ps1, tr1, SDone) /\
     run_set jit K interp lf rf fuel atol user out e batch next2 eps a2 mid (rs_after rs start) dflt2 ps1
       = (ps2, tr2, SDone) /\
     same_particles ps' ps2).
Proof. intros E X H. exact two_runs_one. Qed.
Print Assumptions two_calls_as_one.

Definition sx_first : args := mkArgs 10 (Some 30) None (Some 20) None None None false false.
Definition sx_second : args := mkArgs 10 (Some 10) None (Some 20) (Some 10) None None true false.
Example two_calls_case :
  run_in_step 10 (Some 20) sx_first sx_none /\ run_in_step 10 (Some 20) sx_second sx_none /\
  moves 1 sx_quiet 0 0 40 /\ moves 1 sx_first 0 0 30 /\ moves 1 sx_second 30 0 40 /\
  whole_steps 10 0 30 /\ whole_steps 10 30 40 /\
  let '(ps1, _, r1) := run_set false sx_kernel sx_handlers 20 5 20 0 sx_user true tt sx_batch sx_none 1 sx_first 0 None 0 sx_set in
  let '(ps2, tr2, r2) := run_set false sx_kernel sx_handlers 20 5 20 0 sx_user true tt sx_batch sx_none 1 sx_second 30 (rs_after None 0) 0 ps1 in
  r1 = SDone /\ r2 = SDone /\ tr2 = [SWrite 30; SInput 30; SExec 40; SRelease 40; SWrite 40; SWrite 40] /\
  map q_id ps2 = [1; 2; 4; 1020; 1040; 2040] /\
  same_particles ps2 (fst (fst (run_set false sx_kernel sx_handlers 20 5 20 0 sx_user true tt sx_batch sx_none 1 sx_quiet 0 None 0 sx_set))).
Proof.
  split. { unfold run_in_step, sx_first, period_in_step; cbn [a_dt a_repeat a_output a_movie a_callback].
           repeat split; try lia; try (divides); discriminate. }
  split. { unfold run_in_step, sx_second, period_in_step; cbn [a_dt a_repeat a_output a_movie a_callback].
           repeat split; try lia; try (divides); discriminate. }
  split. { unfold moves, requested, sx_quiet. cbn. repeat split; try lia; try discriminate. intros x [Q|Q]; discriminate. }
  split. { unfold moves, requested, sx_first. cbn. repeat split; try lia; try discriminate. intros x [Q|Q]; discriminate. }
  split. { unfold moves, requested, sx_second. cbn. repeat split; try lia; try discriminate. intros x [Q|Q]; inversion Q; lia. }
  split; [exists 3; reflexivity|]. split; [exists 1; reflexivity|]. vm_compute. repeat split.
Qed.

(** ** Where the claim stops.  Interruptions that are not whole numbers of steps apart change the
    result, and for the rest of the run: the step before the cut is shortened and the particle keeps the
    shortened step (kernel.py 311-313 and 344-347 write particle.dt; only the next pset.execute sets it
    back).  With dt = 10 an output at 25 turns the steps after it into steps of 5. *)
Theorem off_step_output_refuted : exists (K : unit -> pcl Z -> unit * kres Z) (interp : handlers unit Z Z)
    (a1 a2 : args) (ps ps1 ps2 : list (pcl Z)) tr1 tr2,
  uninterruptible K interp /\ moves 1 a1 0 0 50 /\ moves 1 a2 0 0 50 /\ a_dt a1 = 10 /\ a_dt a2 = 10 /\
  a_output a1 = None /\ a_output a2 = Some 25 /\
  Forall (fun p => q_time p = 0) ps /\
  run_set false K interp 20 5 20 0 (fun _ => None) true tt (fun _ => []) (fun _ => None) 1 a1 0 None 0 ps = (ps1, tr1, SDone) /\
  run_set false K interp 20 5 20 0 (fun _ => None) true tt (fun _ => []) (fun _ => None) 1 a2 0 None 0 ps = (ps2, tr2, SDone) /\
  map q_dt ps1 = [10] /\ map q_dt ps2 = [5] /\ map q_x ps1 <> map q_x ps2.
Proof.
  exists sx_kernel, sx_handlers, (mkArgs 10 (Some 50) None None None None None false false),
    (mkArgs 10 (Some 50) None None (Some 25) None None true false), [mkPcl 1 0 10 0 0],
    [mkPcl 1 50 10 0 310], [mkPcl 1 50 5 0 2235], [SInput 0; SExec 50],
    [SWrite 0; SInput 0; SExec 25; SWrite 25; SInput 25; SExec 50; SWrite 50; SWrite 50].
  split; [exact sx_uninterruptible|].
  split. { unfold moves, requested. cbn. repeat split; try lia; try discriminate. intros x [Q|Q]; discriminate. }
  split. { unfold moves, requested. cbn. repeat split; try lia; try discriminate. intros x [Q|Q]; inversion Q; lia. }
  do 4 (split; [reflexivity|]). split; [repeat constructor|].
  split; [vm_compute; reflexivity|]. split; [vm_compute; reflexivity|]. split; [reflexivity|]. split; [reflexivity|discriminate].
Qed.
Print Assumptions off_step_output_refuted.

(** A particle that starts between two steps is cut at every output: with dt = 10 and an output every
    10, a particle starting at 3 takes steps 7, then 7 and 3, then 3, 3, 3 and 1, and so on, each step of
    the run being no longer than the last one before. *)
Theorem off_step_start_refuted : exists (K : unit -> pcl Z -> unit * kres Z) (interp : handlers unit Z Z)
    (ps ps1 ps2 : list (pcl Z)),
  uninterruptible K interp /\ map q_time ps = [3] /\ map q_dt ps = [10] /\
  in_windows (fun ps t => mode_exec false K interp 50 5 0 (fun _ => None) true tt ps t 10) [10; 20; 30] ps = Some ps1 /\
  in_windows (fun ps t => mode_exec false K interp 50 5 0 (fun _ => None) true tt ps t 10) [30] ps = Some ps2 /\
  map q_dt ps1 = [1] /\ map q_dt ps2 = [7] /\ map q_x ps1 <> map q_x ps2.
Proof.
  eexists sx_kernel, sx_handlers, [mkPcl 1 3 10 0 0], _, _.
  split; [exact sx_uninterruptible|]. split; [reflexivity|]. split; [reflexivity|].
  split; [vm_compute; reflexivity|]. split; [vm_compute; reflexivity|]. split; [reflexivity|]. split; [reflexivity|discriminate].
Qed.
Print Assumptions off_step_start_refuted.
