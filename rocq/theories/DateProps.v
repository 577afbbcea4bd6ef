(** C52: dates mean the same whatever the time origin. *)
From Coq Require Import String List ZArith QArith Bool Lia Lqa.
From Verif Require Import CollModel KLoopModel SchedModel SplitSpec IdxModel IdxSpec TimeModel InterpSpec GsetModel DateModel DateSpec DateProofs DateProofs2.
Import ListNotations.
Open Scope Z_scope.

(** C52: TimeConverter.reltime gives the seconds between two dates of one calendar, and no number for any other pair. *)
Theorem relative_time_is_the_gap : forall origin t,
  (comparable origin t -> exists q, reltime origin t = DOk (PNum q) /\ (q == instant t - instant origin)%Q) /\
  (forall q, reltime origin t = DOk (PNum q) -> comparable origin t).
Proof. intros origin t. split; [exact (reltime_gap origin t)|exact (reltime_only origin t)]. Qed.
Print Assumptions relative_time_is_the_gap.
Example gap_case :
  reltime (PDate 2000000000) (PDate 5500000000) = DOk (PNum (3500000000 # 1000000000)) /\
  reltime (PCf "noleap" 2000000) (PCf "noleap" 1000000) = DOk (PNum (-1000000 # 1000000)) /\
  reltime (PCf "noleap" 2000000) (PCf "360_day" 1000000) = DType /\ reltime (PDate 0) (PNum 4) = DType /\ reltime (PNum 0) (PDate 4) = DOk (PDate 4).
Proof. repeat split. Qed.

(** C52: TimeConverter.fulltime undoes it for whole numbers of seconds. *)
Theorem whole_seconds_return : forall origin q n, comparable origin origin -> (q == inject_Z n)%Q ->
  exists d, fulltime origin q = DOk d /\ comparable origin d /\ (instant d == dated origin q)%Q.
Proof. exact fulltime_whole. Qed.
Print Assumptions whole_seconds_return.
Example return_case : fulltime (PDate 2500000000) (-14 # 2) = DOk (PDate (-4500000000)) /\ fulltime (PCf "noleap" 7) 3 = DOk (PCf "noleap" 3000007).
Proof. split; reflexivity. Qed.
(** numpy dates lose the parts of a second. *)
Theorem parts_of_seconds_refuted : exists o t q d, comparable o t /\ reltime o t = DOk (PNum q) /\ fulltime o q = DOk d /\ ~ (instant d == instant t)%Q.
Proof. exists (PDate 0), (PDate 1500000000). eexists. eexists. split; [constructor|]. split; [reflexivity|]. split; [reflexivity|]. vm_compute. discriminate. Qed.
Print Assumptions parts_of_seconds_refuted.

(** C52: Field.collect_timeslices: frames of one calendar in increasing order get their dates, counted from the first; any
    other list of time stamps is refused. *)
Theorem frames_keep_their_stamps : forall stamps origin ts, collect stamps = DOk (origin, ts) ->
  hd_error stamps = Some origin /\ Forall (comparable origin) stamps /\ increasing (map instant stamps) /\
  same_dates (dates origin ts) (map instant stamps).
Proof. exact collect_dates. Qed.
Print Assumptions frames_keep_their_stamps.
Theorem increasing_stamps_are_read : forall s l, Forall (comparable s) (s :: l) ->
  (increasing (map instant (s :: l)) -> exists ts, collect (s :: l) = DOk (s, ts)) /\
  ((exists a b, In (a, b) (pairs (map instant (s :: l))) /\ b < a)%Q -> collect (s :: l) = DAssert).
Proof. intros s l C. pose proof (collect_total s l C) as (A & B & _). exact (conj A B). Qed.
Print Assumptions increasing_stamps_are_read.
Example stamps_case :
  collect [PDate 1000000000; PDate 3000000000] = DOk (PDate 1000000000, [0 # 1000000000; 2000000000 # 1000000000])%Q /\
  collect [PDate 3; PDate 1; PDate 5] = DAssert /\ collect [PDate 3; PDelta 5] = DType /\ collect [] = DIndex.
Proof. repeat split. Qed.
(** Frames with the same stamp are refused with an IndexError out of the search for the message. *)
Theorem repeated_stamps_refuted : ~ (forall s l, Forall (comparable s) (s :: l) -> ~ increasing (map instant (s :: l)) -> collect (s :: l) = DAssert).
Proof.
  intros Q. specialize (Q (PDate 0) [PDate 0]). assert (X : collect [PDate 0; PDate 0] = DIndex) by reflexivity. rewrite X in Q. assert (Y : DIndex = @DAssert (pyt * list QArith_base.Q)); [|discriminate].
  apply Q; [repeat constructor|]. intros I. specialize (I 0%Z 1%Z ltac:(lia) ltac:(cbn; lia)). vm_compute in I. discriminate.
Qed.
Print Assumptions repeated_stamps_refuted.

(** C52: FieldSet.check_complete keeps the date of every frame of every grid, and of every frame of time_full of the grids
    loaded later; from then on grids with several frames count from the origin of the FieldSet. *)
Theorem completing_keeps_dates : forall fs gs gs', check_complete fs gs = DOk gs' ->
  Forall2 (fun g g' => same_dates (dates (d_origin g') (d_time g')) (dates (d_origin g) (d_time g)) /\
                       (length (d_time g) <> 1%nat -> d_origin g' = fs) /\
                       (d_defer g = true -> same_dates (dates (d_origin g') (d_full g')) (dates (d_origin g) (d_full g)))) gs gs'.
Proof. exact keep_dates. Qed.
Print Assumptions completing_keeps_dates.
(** C52: it succeeds exactly if the grids with several frames have origins of the calendar of the FieldSet. *)
Theorem completing_succeeds : forall fs gs, comparable fs fs ->
  ((exists gs', check_complete fs gs = DOk gs') <-> Forall (fun g => length (d_time g) <> 1%nat -> comparable fs (d_origin g)) gs).
Proof. exact complete_iff. Qed.
Print Assumptions completing_succeeds.
(** C52: completing a second time moves nothing. *)
Theorem completing_again : forall fs gs gs', check_complete fs gs = DOk gs' ->
  exists gs'', check_complete fs gs' = DOk gs'' /\
    Forall2 (fun g g' => d_origin g' = d_origin g /\ Forall2 Qeq (d_time g') (d_time g) /\ Forall2 Qeq (d_full g') (d_full g) /\ d_defer g' = d_defer g) gs' gs''.
Proof. exact again. Qed.
Print Assumptions completing_again.
Definition dx_fs := PDate 1000000000.
Definition dx_grids := [new_grid dx_fs [0; 10] true; new_grid (PDate 6000000000) [0; 10; 20] true; new_grid (PNum 0) [3] false]%Q.
Example completing_case :
  check_complete dx_fs dx_grids =
    DOk [mkDg dx_fs [0 # 1000000000; 10000000000 # 1000000000] [0 # 1000000000; 10000000000 # 1000000000] true;
         mkDg dx_fs [5000000000 # 1000000000; 15000000000 # 1000000000; 25000000000 # 1000000000]
                    [5000000000 # 1000000000; 15000000000 # 1000000000; 25000000000 # 1000000000] true;
         new_grid (PNum 0) [3] false]%Q /\
  check_complete dx_fs [new_grid (PCf "noleap" 0) [0; 10] true]%Q = DAssert.
Proof. split; vm_compute; reflexivity. Qed.
(** time_full of a grid in memory stays where it was, though its origin changes. *)
Theorem full_axis_in_memory_refuted : exists fs g g', d_full g = d_time g /\ check_complete fs [g] = DOk [g'] /\
  ~ same_dates (dates (d_origin g') (d_full g')) (dates (d_origin g) (d_full g)).
Proof.
  exists (PDate 0), (new_grid (PDate 100000000000) [0; 5; 10]%Q false). eexists. split; [reflexivity|]. split; [vm_compute; reflexivity|].
  intros Q. inversion Q as [|a b l l' X _]. vm_compute in X. discriminate.
Qed.
Print Assumptions full_axis_in_memory_refuted.

(** C52: after alignment, sampling at the relative time of a date gives what the frames of the field, with their own dates, have at
    that date: the interpolation in time inside, first and last frame or an error outside.  [w i]: value in frame i. *)
Theorem samples_by_date : forall fs g g' v w ex, align fs g = DOk g' -> axis_ok (d_time g) ->
  (forall n, (0 <= n < zlen (d_time g))%Z -> v n = IVal (w n)) ->
  forall D f0 fn, length (d_time g) <> 1%nat \/ ex = true ->
  by_date (dates (d_origin g) (d_time g)) w false ex D (py_eval false ex (d_time g') f0 fn v (D - instant fs)) /\
  forall k ti, (0 < k)%nat -> (ti < zlen (d_time g))%Z ->
  by_date (dates (d_origin g) (d_time g)) w false ex D (c_eval k false ex (d_time g') f0 fn v (D - instant fs) ti).
Proof.
  intros fs g g' v w ex A AX F D f0 fn N. split; [exact (sample_date fs g g' v w ex A AX F D f0 fn N)|].
  intros k ti. exact (sample_date_jit fs g g' v w ex A AX F k D f0 fn ti N).
Qed.
Print Assumptions samples_by_date.
Example by_date_case : exists g',
  align (PDate 0) (new_grid (PDate 100000000000) [0; 5; 10]%Q false) = DOk g' /\ axis_ok [0; 5; 10]%Q /\
  (forall n, dx_wave n = IVal (inject_Z (10 * n))) /\
  (exists q, py_eval false false (d_time g') 0 0 dx_wave (107 - 0) = IVal q /\ q == 14)%Q /\
  (exists q, c_eval 1 false false (d_time g') 0 0 dx_wave (107 - 0) 2 = IVal q /\ q == 14)%Q /\
  py_eval false false (d_time g') 0 0 dx_wave (7 - 0) = IExtrap.
Proof.
  eexists. split; [vm_compute; reflexivity|]. split; [split; [cbn; lia|]|].
  - apply pairs_increasing. reflexivity.
  - split; [reflexivity|]. split; [eexists; split; vm_compute; reflexivity|]. split; [eexists; split; vm_compute; reflexivity|vm_compute; reflexivity].
Qed.
(** C52: a periodic series that is loaded later repeats by date. *)
Theorem periodic_samples_by_date : forall fs g g' v w ex, align fs g = DOk g' -> axis_ok (d_time g) ->
  (forall n, (0 <= n < zlen (d_time g))%Z -> v n = IVal (w n)) -> d_full g = d_time g -> d_defer g = true -> (1 < zlen (d_time g))%Z ->
  forall D,
  by_date (dates (d_origin g) (d_time g)) w true ex D (py_eval true ex (d_time g') (first_ (d_full g')) (last_ (d_full g')) v (D - instant fs)) /\
  forall k ti, (1 < k)%nat -> (ti < zlen (d_time g))%Z -> ~ (D == last_ (dates (d_origin g) (d_time g)))%Q ->
  by_date (dates (d_origin g) (d_time g)) w true ex D (c_eval k true ex (d_time g') (first_ (d_full g')) (last_ (d_full g')) v (D - instant fs) ti).
Proof.
  intros fs g g' v w ex A AX F FU DE L D. split; [exact (sample_date_periodic fs g g' v w ex A AX F FU DE L D)|].
  intros k ti. exact (sample_date_periodic_jit fs g g' v w ex A AX F FU DE L k D ti).
Qed.
Print Assumptions periodic_samples_by_date.
Example periodic_case : exists g',
  align (PDate 0) (new_grid (PDate 100000000000) [0; 5; 10]%Q true) = DOk g' /\
  (exists q, py_eval true false (d_time g') (first_ (d_full g')) (last_ (d_full g')) dx_wave (127 - 0) = IVal q /\ q == 14)%Q /\
  (exists q, c_eval 2 true false (d_time g') (first_ (d_full g')) (last_ (d_full g')) dx_wave (127 - 0) 0 = IVal q /\ q == 14)%Q.
Proof. eexists. split; [vm_compute; reflexivity|]. split; eexists; (split; [vm_compute; reflexivity|]); vm_compute; reflexivity. Qed.

(** A periodic series in memory with an origin of its own: Scipy gives another value, JIT calls itself without end. *)
Theorem periodic_in_memory_refuted : exists fs g g' D, align fs g = DOk g' /\ axis_ok (d_time g) /\ d_full g = d_time g /\ d_defer g = false /\
  ~ by_date (dates (d_origin g) (d_time g)) (fun n => inject_Z (10 * n)) true false D
      (py_eval true false (d_time g') (first_ (d_full g')) (last_ (d_full g')) dx_wave (D - instant fs)) /\
  forall k ti, c_time k true (d_time g') (first_ (d_full g')) (last_ (d_full g')) (D - instant fs) ti = None.
Proof. exact memory_refuted. Qed.
Print Assumptions periodic_in_memory_refuted.
(** A field of one frame keeps its own origin: without extrapolation it is found at another date. *)
Theorem single_frame_refuted : exists fs g g' D, align fs g = DOk g' /\ axis_ok (d_time g) /\ comparable fs (d_origin g) /\
  ~ by_date (dates (d_origin g) (d_time g)) (fun n => inject_Z (10 * n)) false false D (py_eval false false (d_time g') 0 0 dx_wave (D - instant fs)) /\
  exists q, py_eval false false (d_time g') 0 0 dx_wave 0 = IVal q.
Proof. exact single_refuted. Qed.
Print Assumptions single_frame_refuted.

(** C52: the default times of release and end (dimrange of time_full): for grids loaded later they bound the dates at which
    all series have frames on both sides. *)
Theorem default_times_by_date : forall fs gs gs' lo hi, check_complete fs gs = DOk gs' ->
  Forall (fun g => d_defer g = true /\ d_full g = d_time g /\ d_time g <> []) gs -> (exists g, In g gs /\ length (d_time g) <> 1%nat) ->
  time_range gs' = Some (lo, hi) ->
  forall D, (dated fs lo <= D <= dated fs hi)%Q <->
    forall g, In g gs -> length (d_time g) <> 1%nat -> (first_ (dates (d_origin g) (d_time g)) <= D <= last_ (dates (d_origin g) (d_time g)))%Q.
Proof. exact range_dates. Qed.
Print Assumptions default_times_by_date.
Example default_times_case : exists gs' lo hi,
  check_complete dx_fs (removelast dx_grids) = DOk gs' /\ time_range gs' = Some (lo, hi) /\ (lo == 5)%Q /\ (hi == 10)%Q.
Proof. eexists. eexists. eexists. split; [vm_compute; reflexivity|]. split; [vm_compute; reflexivity|]. split; vm_compute; reflexivity. Qed.
(** In memory they need not even be dates of the series. *)
Theorem default_times_in_memory_refuted : exists fs gs gs' lo hi, check_complete fs gs = DOk gs' /\
  Forall (fun g => d_defer g = false /\ d_full g = d_time g) gs /\ time_range gs' = Some (lo, hi) /\
  exists g, In g gs /\ length (d_time g) <> 1%nat /\ (dated fs lo < first_ (dates (d_origin g) (d_time g)))%Q.
Proof.
  exists (PDate 0), [new_grid (PDate 0) [0; 300]%Q false; dx_memory]. eexists. eexists. eexists. split; [vm_compute; reflexivity|]. split; [repeat constructor|].
  split; [vm_compute; reflexivity|]. exists dx_memory. split; [right; left; reflexivity|]. split; [discriminate|]. vm_compute. reflexivity.
Qed.
Print Assumptions default_times_in_memory_refuted.

(** C52: release times and end times that are given as dates (numpy, cftime, datetime) become the seconds from the origin to the date. *)
Theorem times_as_dates : forall fs t d, (t = d \/ exists us, t = PDatetime us /\ d = PDate (us * 1000)) ->
  (exists ns, d = PDate ns) \/ (exists c us, d = PCf c us) -> comparable fs d ->
  (instant d == instant t)%Q /\
  exists q, release_time fs t = DOk (PNum q) /\ end_time fs t = DOk (PNum q) /\ (dated fs q == instant t)%Q.
Proof. exact dates_taken. Qed.
Print Assumptions times_as_dates.
Example times_case :
  (exists q, release_time (PDate 1000000000) (PDatetime 4500000) = DOk (PNum q) /\ q == 7 # 2)%Q /\
  (exists q, end_time (PCf "noleap" 0) (PCf "noleap" 4500000) = DOk (PNum q) /\ q == 9 # 2)%Q /\
  end_time (PDate 0) (PTimedelta 5) = DRuntime /\ release_time (PDate 0) (PCf "noleap" 5) = DType /\ release_time (PDate 0) (PNum 5) = DOk (PNum 5).
Proof. split; [|split]; [eexists; split; vm_compute; reflexivity..|]. repeat split. Qed.
(** C52: a date as the end time of a run on a FieldSet without dates is refused ... *)
Theorem undated_end_refused : forall q t, (exists ns, t = PDate ns) \/ (exists us, t = PDatetime us) -> end_time (PNum q) t = DNotImplemented.
Proof. exact end_undated. Qed.
Print Assumptions undated_end_refused.
Example undated_end_case : end_time (PNum 0) (PDatetime 3) = DNotImplemented.
Proof. reflexivity. Qed.
(** ... but as a release time it is let through, and is no number of seconds. *)
Theorem undated_release_refuted : exists t, (exists us, t = PDatetime us) /\ exists ns, release_time (PNum 0) t = DOk (PDate ns).
Proof. exists (PDatetime 3). split; [eauto|]. exists 3000. reflexivity. Qed.
Print Assumptions undated_release_refuted.

(** C52: runs do not depend on the origin: if all times are counted from an origin [c] ticks earlier (particles, end time,
    releases, forcing, and what kernels and recovery kernels do at those times), pset.execute does the same at the
    times that are later by [c] and leaves the same particles, in both modes. *)
Theorem run_by_date : forall (E X H : Type) c (K K' : E -> pcl X -> E * kres X) (I I' : handlers E X H) jit lf rf fuel atol user out e batch batch' next next'
    eps a start rs dflt ps ps' tr r,
  same_kernel c K K' -> same_handlers c I I' -> settles I -> same_batches c batch batch' -> same_forcing c next next' ->
  run_set jit K I lf rf fuel atol user out e batch next eps a start rs dflt ps = (ps', tr, r) ->
  exists qs', run_set jit K' I' lf rf fuel atol user out e batch' next' eps (later_args c a) (start + c) (option_map (Z.add c) rs) (dflt + c) (map (later c) ps)
      = (qs', map (later_event c) tr, r) /\ map seen qs' = map seen (map (later c) ps').
Proof. exact run_later. Qed.
Print Assumptions run_by_date.
(** A kernel that adds the time of a clock that starts at [c], fails for one value, deletes for another. *)
Definition dx_kernel (c : Z) (e : unit) (p : pcl Z) : unit * kres Z :=
  if q_x p =? 101 then (e, mkKres err_OutOfBounds (q_time p) (q_dt p) (q_st p) 555 None)
  else if q_x p =? 102 then (e, mkKres op_Delete (q_time p) (q_dt p) (q_st p) 102 None)
  else (e, mkKres st_Success (q_time p) (q_dt p) (q_st p) (q_x p + (q_time p - c)) None).
Definition dx_handlers (h : Z) (e : unit) (p : pcl Z) : unit * option (pcl Z) := (e, Some (mkPcl (q_id p) (q_time p) (q_dt p) st_Success 7)).
Definition dx_user (code : Z) : option Z := if code =? err_OutOfBounds then Some 0 else None.
Definition dx_set : list (pcl Z) := [mkPcl 1 0 10 0 0; mkPcl 2 (-20) 10 0 101; mkPcl 3 0 10 0 102; mkPcl 4 20 10 0 5].
Definition dx_args := mkArgs 10 None (Some 40) (Some 20) (Some 20) None None true false.
Example run_by_date_case :
  same_kernel 1000 (dx_kernel 0) (dx_kernel 1000) /\ same_handlers 1000 dx_handlers dx_handlers /\ settles dx_handlers /\
  same_batches 1000 (fun t => [mkPcl (7 + t) t 10 0 1]) (fun t => [mkPcl (7 + (t - 1000)) t 10 0 1]) /\ same_forcing 1000 (fun _ => None) (fun _ => None) /\
  (exists tr, run_set true (dx_kernel 0) dx_handlers 80 5 40 0 dx_user true tt (fun t => [mkPcl (7 + t) t 10 0 1]) (fun _ => None) 1 dx_args 0 (Some 0) 0 dx_set =
     ([mkPcl 1 40 10 0 60; mkPcl 2 40 10 0 37; mkPcl 4 40 10 0 55; mkPcl 27 40 10 0 51; mkPcl 47 40 10 0 1], tr, SDone)) /\
  (exists tr, run_set true (dx_kernel 1000) dx_handlers 80 5 40 0 dx_user true tt (fun t => [mkPcl (7 + (t - 1000)) t 10 0 1]) (fun _ => None) 1 (later_args 1000 dx_args) 1000 (Some 1000) 1000
       (map (later 1000) dx_set) =
     ([mkPcl 1 1040 10 0 60; mkPcl 2 1040 10 0 37; mkPcl 4 1040 10 0 55; mkPcl 27 1040 10 0 51; mkPcl 47 1040 10 0 1], tr, SDone)).
Proof.
  split. { intros e p. unfold dx_kernel, later, later_res; cbn. destruct (_ =? _); [reflexivity|]. destruct (_ =? _); [reflexivity|]. replace (q_time p + 1000 - 1000) with (q_time p - 0) by lia. reflexivity. }
  split; [intros h e p; reflexivity|]. split; [intros h e p e' p1 Q; inversion Q; subst; left; reflexivity|].
  split. { intros t. cbn. replace (t + 1000 - 1000) with t by lia. reflexivity. }
  split; [intros t; reflexivity|]. split; eexists; vm_compute; reflexivity.
Qed.
