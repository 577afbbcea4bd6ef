(** Specification of deferred loading: frames of a time series and times covered by two frames. *)
From Coq Require Import List ZArith Bool QArith.
From Verif Require Import IdxModel IdxSpec DeferModel.
Import ListNotations.
Open Scope Z_scope.

(** Frame number [k] of a series of files, counted over the files in their order. *)
Fixpoint frame_from {V} (n : nat) (files : list (list Q)) (content : nat -> Z -> V) (k : Z) : option V :=
  match files with
  | [] => None
  | ts :: r => if k <? zlen ts then Some (content n k) else frame_from (S n) r content (k - zlen ts)
  end.
Definition frames_in_files (se : series) : Z := zlen (concat (se_files se)).
(** The frame added at the end of a periodic series is the first one. *)
Definition frame {V} (se : series) (content : nat -> Z -> V) (k : Z) : option V :=
  match se_added se with
  | Some _ => if k =? frames_in_files se then frame_from 0 (se_files se) content 0 else frame_from 0 (se_files se) content k
  | None => frame_from 0 (se_files se) content k
  end.

(** The times increase, and there are more than two of them (field.py 408: only then loading is deferred). *)
Definition series_ok (se : series) : Prop :=
  axis_ok (time_full se) /\ 3 <= frames_in_files se /\ nth 0 (se_files se) [] <> [].
(** The added frame, if any, comes from a file with one frame. *)
Definition added_ok (se : series) : Prop :=
  se_added se = None \/ zlen (nth 0 (se_files se) []) = 1.

Definition period (se : series) : Q := (last_ (time_full se) - first_ (time_full se))%Q.

(** Frames [i] and [i + 1] of the series are in memory. *)
Definition window_is {V} (g : dgrid V) (i : Z) : Prop :=
  let full := time_full (d_series _ g) in
  0 <= i /\ i + 1 < zlen full /\ s_time (d_state _ g) = [at_ full i; at_ full (i + 1)].
Definition frames_are {V} (g : dgrid V) (i : Z) : Prop :=
  Forall (fun f => exists a b, snd f = Some (a, b) /\
                     frame (d_series _ g) (fst f) i = Some a /\ frame (d_series _ g) (fst f) (i + 1) = Some b)
         (d_fields _ g).

(** The two frames [i], [i + 1] are those on both sides of time [s]; before the first and after the last frame the
    nearest two frames, if extrapolation is allowed. *)
Definition brackets (full : list Q) (extrapolate : bool) (i : Z) (s : Q) : Prop :=
  ((at_ full i <= s)%Q \/ extrapolate = true /\ i = 0) /\
  ((s <= at_ full (i + 1))%Q \/ extrapolate = true /\ i + 2 = zlen full).

Definition before_ext (s : Q) (e : ext) : Prop :=
  match e with NegInf => False | Fin q => (s <= q)%Q | PosInf => True end.
Definition after_ext (s : Q) (e : ext) : Prop :=
  match e with NegInf => True | Fin q => (q <= s)%Q | PosInf => False end.
Definition later (t : Q) (e : ext) : Prop :=
  match e with NegInf => False | Fin q => (t < q)%Q | PosInf => True end.
Definition earlier (t : Q) (e : ext) : Prop :=
  match e with NegInf => True | Fin q => (q < t)%Q | PosInf => False end.

(** A run as made by ParticleSet.execute: data are requested at a first time, and then again at times not
    further than announced; in between, fields are sampled at times not further than announced. [requested] and
    [mode] restrict the times of the requests and the mode of sampling. The result: the grids, the time of the last
    request, the furthest time of a request or sample, and the time announced. *)
Section Runs.
Context {V : Type}.
Variable dt : Q.
Variable requested : Q -> Prop.
Variable mode : bool -> Prop.
Inductive run_from (gs0 : list (dgrid V)) (t0 : Q) : list (dgrid V) -> Q -> Q -> ext -> Prop :=
  | run_first gs n :
      requested t0 -> request _ gs0 t0 dt = Ok (gs, n) -> run_from gs0 t0 gs t0 t0 n
  | run_sample gs t u n jit k m s gs' u' :
      run_from gs0 t0 gs t u n -> mode jit -> event_step _ gs (Sampled jit k m s) = Some gs' ->
      (0 < dt -> t <= s /\ before_ext s n)%Q -> (dt < 0 -> s <= t /\ after_ext s n)%Q ->
      u' = (if qlt 0 dt then qmax u s else qmin u s) ->
      run_from gs0 t0 gs' t u' n
  | run_request gs t u n t' gs' n' :
      run_from gs0 t0 gs t u n -> requested t' -> request _ gs t' dt = Ok (gs', n') ->
      (0 < dt -> t <= t' /\ u <= t' /\ before_ext t' n)%Q -> (dt < 0 -> t' <= t /\ t' <= u /\ after_ext t' n)%Q ->
      run_from gs0 t0 gs' t' t' n'.
End Runs.

(** A request is answered for the grid: the two frames in memory, with their values, are those on both sides of [t]
    and of every time from [t] until the time [n] announced, which is further. [m] counts the periods. *)
Definition answered {V} (g : dgrid V) (t dt : Q) (n : ext) : Prop :=
  let se := d_series _ g in
  exists i m, window_is g i /\ frames_are g i /\ (d_periodic _ g = false -> m = 0) /\
    brackets (time_full se) (d_extrapolate _ g) i (t - inject_Z m * period se) /\
    (0 < dt -> later t n /\ forall s, t <= s -> before_ext s n ->
                 brackets (time_full se) (d_extrapolate _ g) i (s - inject_Z m * period se))%Q /\
    (dt < 0 -> earlier t n /\ forall s, s <= t -> after_ext s n ->
                 brackets (time_full se) (d_extrapolate _ g) i (s - inject_Z m * period se))%Q.

(** [t] is the time of a frame, in some period if the series is periodic. *)
Definition frame_time {V} (g : dgrid V) (t : Q) : Prop :=
  exists i m, 0 <= i < zlen (time_full (d_series _ g)) /\ (d_periodic _ g = false -> m = 0) /\
    (t == at_ (time_full (d_series _ g)) i + inject_Z m * period (d_series _ g))%Q.

Definition grid_ok {V} (g : dgrid V) : Prop :=
  series_ok (d_series _ g) /\ added_ok (d_series _ g) /\ (d_periodic _ g = true -> d_extrapolate _ g = false).
Definition is_fresh {V} (g : dgrid V) : Prop :=
  exists se p e cs, g = fresh_grid _ se p e cs.

(** The first time of a backward run: a frame time, or in the first cell, or after the last frame; for a periodic series
    before the last frame. *)
Definition start_ok {V} (g : dgrid V) (t : Q) : Prop :=
  if d_periodic _ g then (t < last_ (time_full (d_series _ g)))%Q
  else frame_time g t \/ (t <= at_ (time_full (d_series _ g)) 1)%Q \/ (last_ (time_full (d_series _ g)) <= t)%Q.

(** There are data for [t] and after it (before it, for a backward run). *)
Definition has_data {V} (g : dgrid V) (t dt : Q) : Prop :=
  let full := time_full (d_series _ g) in
  d_periodic _ g = true \/ d_extrapolate _ g = true \/
  (0 < dt /\ first_ full <= t < last_ full \/ dt < 0 /\ first_ full < t <= last_ full)%Q.

(** Two states of the same grid: the files, and the settings. *)
Definition same_source {V} (g g' : dgrid V) : Prop :=
  d_series _ g' = d_series _ g /\ d_periodic _ g' = d_periodic _ g /\ d_extrapolate _ g' = d_extrapolate _ g /\
  map fst (d_fields _ g') = map fst (d_fields _ g).
