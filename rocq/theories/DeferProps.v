(** C30: deferred loading. *)
From Coq Require Import List ZArith Bool QArith Lia.
From Verif Require Import IdxModel IdxSpec IdxProofs TimeModel DeferModel DeferSpec DeferProofs DeferProofs2 DeferProofs3 DeferProofs4.
Import ListNotations.
Open Scope Z_scope.

(** C30, the values (missing: a frame added from a first file of several frames, see deferred_values_refuted): after any requests and samples, in any order and direction, each grid has two consecutive frames
    of its series in memory, and the values of every field are those of these frames in its files. *)
Theorem deferred_values_partial : forall V es (gs gs' : list (dgrid V)), Forall is_fresh gs -> Forall grid_ok gs ->
  history V gs es = Some gs' ->
  Forall2 same_source gs gs' /\
  ((exists t dt, In (Request t dt) es) -> Forall (fun g => exists i, window_is g i /\ frames_are g i) gs').
Proof. exact history_frames. Qed.
Print Assumptions deferred_values_partial.

(** C30, forward, series that are not periodic: after any history, the frames in memory after a request are those on
    both sides of the time requested and of all times until the next reload. *)
Theorem deferred_forward : forall V (gs0 : list (dgrid V)) es gs t dt gs' n, Forall is_fresh gs0 -> Forall grid_ok gs0 ->
  Forall (fun g => d_periodic _ g = false) gs0 ->
  history V gs0 es = Some gs -> (0 <= dt)%Q -> request V gs t dt = Ok (gs', n) ->
  Forall (fun g => answered g t dt n) gs'.
Proof. exact forward_any. Qed.
Print Assumptions deferred_forward.

(** C30, forward runs, with periodic series too, in both modes. Missing: runs that start before the first time of a
    periodic series (see deferred_forward_refuted). *)
Theorem deferred_forward_run_partial : forall V dt rq mo (gs0 : list (dgrid V)) t0 gs t u n, (0 < dt)%Q ->
  Forall is_fresh gs0 -> Forall grid_ok gs0 ->
  Forall (fun g => d_periodic _ g = true -> (first_ (time_full (d_series _ g)) <= t0)%Q) gs0 ->
  run_from dt rq mo gs0 t0 gs t u n -> Forall (fun g => answered g t dt n) gs.
Proof. exact run_forward_answered. Qed.
Print Assumptions deferred_forward_run_partial.

(** A request for a time with data succeeds, at the start of a run and later. *)
Theorem deferred_forward_starts_partial : forall V dt (gs0 : list (dgrid V)) t0, (0 < dt)%Q -> Forall is_fresh gs0 -> Forall grid_ok gs0 ->
  Forall (fun g => d_periodic _ g = true -> (first_ (time_full (d_series _ g)) <= t0)%Q) gs0 -> Forall (fun g => has_data g t0 dt) gs0 ->
  exists gs n, request V gs0 t0 dt = Ok (gs, n).
Proof. exact run_forward_starts. Qed.
Print Assumptions deferred_forward_starts_partial.

Theorem deferred_forward_continues_partial : forall V dt rq mo (gs0 : list (dgrid V)) t0 gs t u n t', (0 < dt)%Q ->
  Forall is_fresh gs0 -> Forall grid_ok gs0 ->
  Forall (fun g => d_periodic _ g = true -> (first_ (time_full (d_series _ g)) <= t0)%Q) gs0 ->
  run_from dt rq mo gs0 t0 gs t u n -> (u <= t')%Q -> Forall (fun g => has_data g t' dt) gs0 ->
  exists gs' n', request V gs t' dt = Ok (gs', n').
Proof. exact run_forward_continues. Qed.
Print Assumptions deferred_forward_continues_partial.

(** C30, backward runs. Missing: runs that start between two frames (see deferred_backward_refuted), and for periodic series runs
    that start at or after the last time (see deferred_backward_period_refuted), requests between two frames and Scipy
    mode. *)
Theorem deferred_backward_run_partial : forall V dt (gs0 : list (dgrid V)) t0 gs t u n, (dt < 0)%Q ->
  Forall is_fresh gs0 -> Forall grid_ok gs0 -> Forall (fun g => start_ok g t0) gs0 ->
  run_from dt (fun t => Forall (fun g => d_periodic _ g = true -> frame_time g t) gs0)
              (fun jit => jit = true \/ Forall (fun g => d_periodic _ g = false) gs0) gs0 t0 gs t u n ->
  Forall (fun g => answered g t dt n) gs.
Proof. exact run_backward_answered. Qed.
Print Assumptions deferred_backward_run_partial.

Theorem deferred_backward_starts_partial : forall V dt (gs0 : list (dgrid V)) t0, (dt < 0)%Q -> Forall is_fresh gs0 -> Forall grid_ok gs0 ->
  Forall (fun g => start_ok g t0) gs0 -> Forall (fun g => d_periodic _ g = true -> frame_time g t0) gs0 -> Forall (fun g => has_data g t0 dt) gs0 ->
  exists gs n, request V gs0 t0 dt = Ok (gs, n).
Proof. exact run_backward_starts. Qed.
Print Assumptions deferred_backward_starts_partial.

Theorem deferred_backward_continues_partial : forall V dt (gs0 : list (dgrid V)) t0 gs t u n t', (dt < 0)%Q ->
  Forall is_fresh gs0 -> Forall grid_ok gs0 -> Forall (fun g => start_ok g t0) gs0 ->
  run_from dt (fun t => Forall (fun g => d_periodic _ g = true -> frame_time g t) gs0)
              (fun jit => jit = true \/ Forall (fun g => d_periodic _ g = false) gs0) gs0 t0 gs t u n ->
  (t' <= u)%Q -> after_ext t' n -> Forall (fun g => d_periodic _ g = true -> frame_time g t') gs0 -> Forall (fun g => has_data g t' dt) gs0 ->
  exists gs' n', request V gs t' dt = Ok (gs', n').
Proof. exact run_backward_continues. Qed.
Print Assumptions deferred_backward_continues_partial.

(** ** Cases *)
(** Four frames in two files; the value of a frame is its file and its position. *)
Definition two_files : series := {| se_files := [[0%Q]; [10%Q; 20%Q; 30%Q]]; se_added := None |}.
Definition label (f : nat) (k : Z) : nat * Z := (f, k).
Definition plain_grid := fresh_grid (nat * Z) two_files false false [label].
Definition periodic_grid := fresh_grid (nat * Z) two_files true false [label].
(** The same, with a period of 40: the first frame is added at time 40. *)
Definition added_files : series := {| se_files := [[0%Q]; [10%Q; 20%Q; 30%Q]]; se_added := Some 40%Q |}.
Definition added_grid := fresh_grid (nat * Z) added_files true false [label].

Lemma two_files_ok : series_ok two_files.
Proof. split; [apply axis_ok_b; vm_compute; reflexivity|]. split; [vm_compute; discriminate|discriminate]. Qed.
Lemma added_files_ok : series_ok added_files.
Proof. split; [apply axis_ok_b; vm_compute; reflexivity|]. split; [vm_compute; discriminate|discriminate]. Qed.
Example plain_ok : Forall is_fresh [plain_grid] /\ Forall grid_ok [plain_grid].
Proof.
  split; (constructor; [|constructor]); [eexists; eexists; eexists; eexists; reflexivity|]. split; [exact two_files_ok|].
  split; [left; reflexivity|discriminate].
Qed.
Example added_grid_ok : Forall is_fresh [added_grid; periodic_grid] /\ Forall grid_ok [added_grid; periodic_grid].
Proof.
  split.
  - constructor; [|constructor; [|constructor]]; (eexists; eexists; eexists; eexists; reflexivity).
  - constructor; [|constructor; [|constructor]].
    + split; [exact added_files_ok|]. split; [right; reflexivity|reflexivity].
    + split; [exact two_files_ok|]. split; [left; reflexivity|reflexivity].
Qed.

(** Forward, then a jump, then backward. *)
Example values_case : exists gs, history _ [plain_grid] [Request 3 2; Request 10 2; Request 25 2; Request 20 (-2)] = Some gs /\
  map (fun g => (s_time (d_state _ g), map snd (d_fields _ g))) gs = [([10%Q; 20%Q], [Some ((1%nat, 0), (1%nat, 1))])].
Proof. eexists. split; vm_compute; reflexivity. Qed.

(** A forward run over more than one period, with samples in both modes. *)
Ltac go := first [ exact I | left; reflexivity | vm_compute; reflexivity | discriminate
                 | intros _; split; [|split]; vm_compute; discriminate | intros _; split; vm_compute; discriminate ].
Ltac started R dt rq mo gs0 t0 :=
  let r := eval vm_compute in (request _ gs0 t0 dt) in
  match r with Ok (?g, ?n) => assert (R : run_from dt rq mo gs0 t0 g t0 t0 n) by (eapply run_first; go) end.
Ltac requested R t' :=
  match type of R with run_from ?dt ?rq ?mo ?gs0 ?t0 ?gs ?t ?u ?n =>
    let r := eval vm_compute in (request _ gs t' dt) in
    match r with Ok (?g', ?n') =>
      let R' := fresh in assert (R' : run_from dt rq mo gs0 t0 g' t' t' n') by (eapply run_request; [exact R|go..]); clear R; rename R' into R
    end end.
Ltac sampled R jit k m s :=
  match type of R with run_from ?dt ?rq ?mo ?gs0 ?t0 ?gs ?t ?u ?n =>
    let r := eval vm_compute in (event_step _ gs (Sampled jit k m s)) in
    let u' := eval vm_compute in (if qlt 0 dt then qmax u s else qmin u s) in
    match r with Some ?g' =>
      let R' := fresh in assert (R' : run_from dt rq mo gs0 t0 g' t u' n)
        by (eapply (run_sample dt rq mo gs0 t0 gs t u n jit k m s g' u'); [exact R|go..]); clear R; rename R' into R
    end end.
Example forward_case : exists gs n,
  run_from 5 (fun _ => True) (fun _ => True) [added_grid; periodic_grid] 5 gs 30 30 n /\ n = Fin 40 /\
  map (fun g => (s_time (d_state _ g), map snd (d_fields _ g))) gs =
    [([30%Q; 40%Q], [Some ((1%nat, 2), (0%nat, 0))]); ([0%Q; 10%Q], [Some ((0%nat, 0), (1%nat, 0))])].
Proof.
  started R 5%Q (fun _ : Q => True) (fun _ : bool => True) [added_grid; periodic_grid] 5%Q.
  sampled R true 2%nat 0%nat 7%Q. requested R 10%Q. requested R 20%Q. sampled R false 2%nat 1%nat 30%Q. requested R 30%Q.
  eexists. eexists. split; [exact R|]. split; vm_compute; reflexivity.
Qed.
Example forward_data : Forall (fun g => d_periodic _ g = true -> (first_ (time_full (d_series _ g)) <= 5)%Q) [added_grid; periodic_grid] /\
  Forall (fun g => has_data g 5 5) [added_grid; periodic_grid] /\ has_data plain_grid 29 5 /\ ~ has_data plain_grid 30 5.
Proof.
  split; [constructor; [|constructor; [|constructor]]; intros _; vm_compute; discriminate|].
  split; [constructor; [|constructor; [|constructor]]; left; reflexivity|].
  split; [right; right; left; split; [reflexivity|]; split; [vm_compute; discriminate|reflexivity]|].
  intros [H|[H|[(_ & _ & H)|(H & _)]]]; vm_compute in H; discriminate.
Qed.

(** A backward run of a grid that is not periodic, and one of a periodic grid into the period before. *)
Definition at_frames (gs : list (dgrid (nat * Z))) (t : Q) : Prop := Forall (fun g => d_periodic _ g = true -> frame_time g t) gs.
Definition jit_if_periodic (gs : list (dgrid (nat * Z))) (jit : bool) : Prop := jit = true \/ Forall (fun g => d_periodic _ g = false) gs.
Lemma frame_time_by : forall (g : dgrid (nat * Z)) i m t, 0 <= i < zlen (time_full (d_series _ g)) -> (d_periodic _ g = false -> m = 0) ->
  Qeq_bool t (at_ (time_full (d_series _ g)) i + inject_Z m * period (d_series _ g)) = true -> frame_time g t.
Proof. intros g i m t H M E. exists i, m. split; [exact H|]. split; [exact M|]. apply Qeq_bool_iff. exact E. Qed.
Ltac at_frame i m := constructor; [|constructor]; intros _; apply (frame_time_by _ i m); [split; [discriminate|reflexivity]|discriminate|reflexivity].
Example backward_case : exists gs n,
  run_from (-5) (at_frames [periodic_grid]) (jit_if_periodic [periodic_grid]) [periodic_grid] 10 gs (-10) (-10) n /\ n = Fin (-20) /\
  map (fun g => (s_time (d_state _ g), map snd (d_fields _ g))) gs = [([10%Q; 20%Q], [Some ((1%nat, 0), (1%nat, 1))])] /\
  Forall (fun g => start_ok g 10) [periodic_grid] /\ Forall (fun g => has_data g 10 (-5)) [periodic_grid].
Proof.
  assert (A1 : at_frames [periodic_grid] 10) by (at_frame 1 0).
  assert (A2 : at_frames [periodic_grid] 0) by (at_frame 0 0).
  assert (A3 : at_frames [periodic_grid] (-10)) by (at_frame 2 (-1)).
  assert (R : exists gs n, run_from (-5) (at_frames [periodic_grid]) (jit_if_periodic [periodic_grid]) [periodic_grid] 10 gs 10 10 n /\
    Ok (gs, n) = request _ [periodic_grid] 10 (-5)) by (eexists; eexists; split; [eapply run_first; [exact A1|vm_compute; reflexivity]|vm_compute; reflexivity]).
  destruct R as (gs & n & R & E). vm_compute in E. injection E as -> ->.
  sampled R true 3%nat 0%nat 4%Q.
  match type of R with run_from _ _ _ _ _ ?gs _ _ _ => let r := eval vm_compute in (request _ gs 0 (-5)) in match r with Ok (?g, ?n) =>
    assert (R' : run_from (-5) (at_frames [periodic_grid]) (jit_if_periodic [periodic_grid]) [periodic_grid] 10 g 0 0 n)
      by (eapply run_request; [exact R|exact A2|go..]) end end.
  sampled R' true 3%nat 0%nat (-10)%Q.
  match type of R' with run_from _ _ _ _ _ ?gs _ _ _ => let r := eval vm_compute in (request _ gs (-10) (-5)) in match r with Ok (?g, ?n) =>
    assert (R'' : run_from (-5) (at_frames [periodic_grid]) (jit_if_periodic [periodic_grid]) [periodic_grid] 10 g (-10) (-10) n)
      by (eapply run_request; [exact R'|exact A3|go..]) end end.
  eexists. eexists. split; [exact R''|]. split; [vm_compute; reflexivity|]. split; [vm_compute; reflexivity|].
  split; (constructor; [|constructor]); [reflexivity|left; reflexivity].
Qed.

(** ** What is false *)
(** A backward run that starts between two frames is given the two frames before: not those on both sides. *)
Theorem deferred_backward_refuted : exists gs n,
  Forall is_fresh [plain_grid] /\ Forall grid_ok [plain_grid] /\ has_data plain_grid 15 (-5) /\
  run_from (-5) (fun _ => True) (fun _ => True) [plain_grid] 15 gs 15 15 n /\
  map (fun g => s_time (d_state _ g)) gs = [[0%Q; 10%Q]] /\
  ~ Forall (fun g => answered g 15 (-5) n) gs.
Proof.
  started R (-5)%Q (fun _ : Q => True) (fun _ : bool => True) [plain_grid] 15%Q.
  eexists. eexists. split; [apply plain_ok|]. split; [apply plain_ok|].
  split; [right; right; right; split; [reflexivity|]; split; [reflexivity|discriminate]|].
  split; [exact R|]. split; [reflexivity|].
  intros F. inversion_clear F as [|g l A _]. destruct A as (i & m & (_ & _ & W) & _ & M & (_ & B) & _).
  rewrite (M eq_refl) in B. cbn [d_series d_state s_time] in W, B. injection W as _ W. cbn [d_series] in W, B. rewrite <- W in B. destruct B as [B|[B _]]; [vm_compute in B; apply B; reflexivity|discriminate].
Qed.
Print Assumptions deferred_backward_refuted.

(** A backward run of a periodic series that starts after its last time announces a reload in the wrong direction. *)
Theorem deferred_backward_period_refuted : exists gs n,
  Forall is_fresh [periodic_grid] /\ Forall grid_ok [periodic_grid] /\
  run_from (-10) (fun t => Forall (fun g => frame_time g t) [periodic_grid]) (fun jit => jit = true) [periodic_grid] 40 gs 20 20 n /\
  n = Fin 40 /\ ~ Forall (fun g => answered g 20 (-10) n) gs.
Proof.
  assert (A1 : Forall (fun g => frame_time g 40) [periodic_grid]) by (constructor; [apply (frame_time_by _ 1 1); [split; [discriminate|reflexivity]|discriminate|reflexivity]|constructor]).
  assert (A2 : Forall (fun g => frame_time g 30) [periodic_grid]) by (constructor; [apply (frame_time_by _ 3 0); [split; [discriminate|reflexivity]|discriminate|reflexivity]|constructor]).
  assert (A3 : Forall (fun g => frame_time g 20) [periodic_grid]) by (constructor; [apply (frame_time_by _ 2 0); [split; [discriminate|reflexivity]|discriminate|reflexivity]|constructor]).
  set (rq := fun t => Forall (fun g => frame_time g t) [periodic_grid]).
  assert (R : exists gs n, run_from (-10) rq (fun jit => jit = true) [periodic_grid] 40 gs 40 40 n /\
    Ok (gs, n) = request _ [periodic_grid] 40 (-10)) by (eexists; eexists; split; [eapply run_first; [exact A1|vm_compute; reflexivity]|vm_compute; reflexivity]).
  destruct R as (gs & n & R & E). vm_compute in E. injection E as -> ->.
  match type of R with run_from _ _ _ _ _ ?gs _ _ _ => let r := eval vm_compute in (request _ gs 30 (-10)) in match r with Ok (?g, ?n) =>
    assert (R' : run_from (-10) rq (fun jit => jit = true) [periodic_grid] 40 g 30 30 n) by (eapply run_request; [exact R|exact A2|go..]) end end.
  match type of R' with run_from _ _ _ _ _ ?gs _ _ _ => let r := eval vm_compute in (request _ gs 20 (-10)) in match r with Ok (?g, ?n) =>
    assert (R'' : run_from (-10) rq (fun jit => jit = true) [periodic_grid] 40 g 20 20 n) by (eapply run_request; [exact R'|exact A3|go..]) end end.
  eexists. eexists. split; [|split; [|split; [exact R''|split; [vm_compute; reflexivity|]]]].
  - constructor; [|constructor]. eexists; eexists; eexists; eexists; reflexivity.
  - constructor; [|constructor]. split; [exact two_files_ok|]. split; [left; reflexivity|reflexivity].
  - intros F. inversion_clear F as [|g l A _]. destruct A as (i & m & _ & _ & _ & _ & _ & A). destruct (A eq_refl) as (B & _). vm_compute in B. discriminate.
Qed.
Print Assumptions deferred_backward_period_refuted.

(** A forward run of a periodic series that starts before its first time announces a reload in the past once it passes
    this time. *)
Theorem deferred_forward_refuted : exists gs n,
  Forall is_fresh [periodic_grid] /\ Forall grid_ok [periodic_grid] /\
  run_from 10 (fun _ => True) (fun _ => True) [periodic_grid] (-10) gs 0 0 n /\
  n = Fin (-20) /\ ~ Forall (fun g => answered g 0 10 n) gs.
Proof.
  started R 10%Q (fun _ : Q => True) (fun _ : bool => True) [periodic_grid] (-10)%Q. requested R 0%Q.
  eexists. eexists. split; [|split; [|split; [exact R|split; [vm_compute; reflexivity|]]]].
  - constructor; [|constructor]. eexists; eexists; eexists; eexists; reflexivity.
  - constructor; [|constructor]. split; [exact two_files_ok|]. split; [left; reflexivity|reflexivity].
  - intros F. inversion_clear F as [|g l A _]. destruct A as (i & m & _ & _ & _ & _ & A & _). destruct (A eq_refl) as (B & _). vm_compute in B. discriminate.
Qed.
Print Assumptions deferred_forward_refuted.

(** If the first file holds several frames, the frame added to close the period is read from the last of them. *)
Definition one_file : series := {| se_files := [[0%Q; 10%Q; 20%Q]]; se_added := Some 30%Q |}.
Theorem deferred_values_refuted : exists gs,
  series_ok one_file /\ history _ [fresh_grid _ one_file true false [label]] [Request 25 5] = Some gs /\
  map (fun g => s_time (d_state _ g)) gs = [[20%Q; 30%Q]] /\
  map (fun g => map snd (d_fields _ g)) gs = [[Some ((0%nat, 2), (0%nat, 2))]] /\ frame one_file label 3 = Some (0%nat, 0).
Proof.
  eexists. split; [split; [apply axis_ok_b; vm_compute; reflexivity|]; split; [vm_compute; discriminate|discriminate]|].
  split; [vm_compute; reflexivity|]. split; [vm_compute; reflexivity|]. split; vm_compute; reflexivity.
Qed.
Print Assumptions deferred_values_refuted.

(** In Scipy mode, a field of a periodic series sampled at the last time of the period, which is also the time announced
    for the next reload, gives the value of the frame before. *)
Theorem deferred_scipy_sample_refuted : exists g n,
  run_from 10 (fun _ => True) (fun _ => True) [periodic_grid] 20 [g] 20 20 n /\ n = Fin 30 /\ answered g 20 10 n /\
  s_time (d_state _ g) = [20%Q; 30%Q] /\
  forall a b : Q, py_eval true false (s_time (d_state _ g)) 0 30 (fun i => if i =? 0 then IVal a else IVal b) 30 = IVal a.
Proof.
  started R 10%Q (fun _ : Q => True) (fun _ : bool => True) [periodic_grid] 20%Q.
  eexists. eexists. split; [exact R|]. split; [vm_compute; reflexivity|]. split; [|split; [vm_compute; reflexivity|intros a b; vm_compute; reflexivity]].
  pose proof (fun a b c => deferred_forward_run_partial _ 10%Q _ _ _ _ _ _ _ _ eq_refl a b c R) as F.
  match type of R with run_from _ _ _ _ _ ?gs _ _ _ => assert (G : Forall (fun g => answered g 20 10 (Fin 30)) gs) end.
  { apply F.
    - constructor; [|constructor]. eexists; eexists; eexists; eexists; reflexivity.
    - constructor; [|constructor]. split; [exact two_files_ok|]. split; [left; reflexivity|reflexivity].
    - constructor; [|constructor]. intros _. vm_compute. discriminate. }
  inversion_clear G as [|g l A _]. exact A.
Qed.
Print Assumptions deferred_scipy_sample_refuted.
