(** Vocabulary for C48: what a run of pset.execute with an advection kernel is compared with. *)
From Coq Require Import Reals List ZArith Bool.
From Verif Require Import CollModel KLoopModel KLoopSpec SchedModel SchedSpec SplitSpec AdvModel AdvSpec RunModel.
Import ListNotations.
Open Scope Z_scope.

(** * Runs and what they keep *)

Section Keep.
Context {E X H : Type}.

(** [J id time variables] is kept by every call that is not undone, for steps in the direction of [dt], at most of its length, and
    not beyond [endt]. *)
Definition step_keeps (K : E -> pcl X -> E * kres X) (dt endt : Z) (J : Z -> Z -> X -> Prop) : Prop :=
  forall e p, 0 < Z.sgn dt * q_dt p <= Z.abs dt -> 0 <= Z.sgn dt * (endt - (q_time p + q_dt p)) -> J (q_id p) (q_time p) (q_x p) ->
    signalled (q_st p) (snd (K e p)) = st_Success \/ signalled (q_st p) (snd (K e p)) = op_Delete ->
    J (q_id p) (q_time p + q_dt p) (k_x (snd (K e p))).

(** ... and by the recovery kernels, which leave time and dt alone. *)
Definition recovery_keeps (interp : handlers E X H) (J : Z -> Z -> X -> Prop) : Prop :=
  steady_handlers interp /\
  forall h e p e' p1, interp h e p = (e', Some p1) ->
    J (q_id p) (q_time p) (q_x p) -> J (q_id p) (q_time p1) (q_x p1).

(** Recovery kernels that at most delete the particle: they leave it at its place and time. *)
Definition recovery_stays (interp : handlers E X H) : Prop :=
  steady_handlers interp /\
  forall h e p e' p1, interp h e p = (e', Some p1) -> q_time p1 = q_time p /\ q_x p1 = q_x p.

Definition holds_of (J : Z -> Z -> X -> Prop) (ps : list (pcl X)) : Prop :=
  Forall (fun p => J (q_id p) (q_time p) (q_x p)) ps.
End Keep.

(** What holds of every particle that is released up to the end of the run. *)
Definition each_release {X} (a : args) (endt : Z) (batch : Z -> list (pcl X)) (P : pcl X -> Prop) : Prop :=
  forall t, 0 <= Z.sgn (SchedModel.a_dt a) * (endt - t) -> Forall P (batch t).

(** The next reading of forcing data lies ahead. *)
Definition reads_ahead (dt : Z) (next : Z -> option Z) : Prop := forall t n, next t = Some n -> 0 < Z.sgn dt * (n - t).

(** The particle is not left behind: it is at the end time up to the tolerance, or its own time lies beyond. *)
Definition arrived {X} (atol dt endt : Z) (p : pcl X) : Prop := Z.sgn dt * (endt - q_time p) <= atol.

(** A run that goes from [start] to [endt] with dt larger than the tolerance of the loop, failed samples reported as errors,
    and recovery kernels that at most delete. *)
Definition proper_run {E H} (tick : R) (code : pcl pos -> Z) (interp : handlers E pos H) (atol eps : Z) (a : args) (start dflt endt : Z) : Prop :=
  (0 < tick)%R /\ (forall p, In (code p) default_codes) /\ recovery_stays interp /\ 0 <= atol /\ atol < Z.abs (SchedModel.a_dt a) /\
  moves eps a start dflt endt.

(** * Water parcels *)
Open Scope R_scope.

(** The path of one: where it is at each time, and the time at which it is followed from. *)
Record course : Type := mkCourse { c_lon : R -> R; c_lat : R -> R; c_depth : R -> R; c_start : R }.
Definition place (c : course) (s : R) : pos := (c_lon c s, c_lat c s, c_depth c s).

(** The times from [a] to [b], whichever comes first. *)
Definition from_to (a b s : R) : Prop := Rmin a b <= s <= Rmax a b.

(** It moves with the velocity [vel] (of time, depth, lat, lon), up to the time [until]. *)
Definition drifts (vel : R -> R -> R -> R -> R * R * R) (until : R) (c : course) : Prop :=
  forall s, from_to (c_start c) until s -> let '(u, v, w) := vel s (c_depth c s) (c_lat c s) (c_lon c s) in
    derivable_pt_lim (c_lon c) s u /\ derivable_pt_lim (c_lat c) s v /\ derivable_pt_lim (c_depth c) s w.

(** It moves with the horizontal velocity [vel], at its depth. *)
Definition drifts2 (vel : R -> R -> R -> R -> R * R) (until : R) (c : course) : Prop :=
  (forall s, c_depth c s = c_depth c (c_start c)) /\
  forall s, from_to (c_start c) until s -> let '(u, v) := vel s (c_depth c s) (c_lat c s) (c_lon c s) in
    derivable_pt_lim (c_lon c) s u /\ derivable_pt_lim (c_lat c) s v.

(** No coordinate differs by more than [d]. *)
Definition near (a b : pos) (d : R) : Prop :=
  let '(x, y, z) := a in let '(x', y', z') := b in Rabs (x - x') <= d /\ Rabs (y - y') <= d /\ Rabs (z - z') <= d.

(** The particle is where the parcel of its own id starts, at the time at which that starts. *)
Definition starts_on (tick : R) (course_of : Z -> course) (p : pcl pos) : Prop :=
  seconds tick (q_time p) = c_start (course_of (q_id p)) /\
  q_x p = place (course_of (q_id p)) (seconds tick (q_time p)).

(** The particle is where the parcel is. *)
Definition on_course (tick : R) (course_of : Z -> course) (p : pcl pos) : Prop :=
  q_x p = place (course_of (q_id p)) (seconds tick (q_time p)).

(** The particle is that near the parcel, after the time it has been under way. *)
Definition within (tick : R) (course_of : Z -> course) (bound : R -> R) (p : pcl pos) : Prop :=
  let t := seconds tick (q_time p) in let c := course_of (q_id p) in
  near (q_x p) (place c t) (bound (Rabs (t - c_start c))).

(** Every sample either fails or gives [vel]. *)
Definition samples {A} (UV : R -> R -> R -> R -> option A) (vel : R -> R -> R -> R -> A) : Prop :=
  forall t z y x w, UV t z y x = Some w -> w = vel t z y x.

(** Velocities that change with the place at most by [L] per unit of length, with time at most by [Lt] per second,
    and are at most [M].  Interpolated data are of this kind; they need not be differentiable. *)
Definition gentle (vel : R -> R -> R -> R -> R * R * R) (L Lt M : R) : Prop :=
  0 < L /\ 0 <= Lt /\ 0 <= M /\
  (forall t z y x z' y' x' d, near (x, y, z) (x', y', z') d -> near (vel t z y x) (vel t z' y' x') (L * d)) /\
  (forall t t' z y x, near (vel t z y x) (vel t' z y x) (Lt * Rabs (t - t'))) /\
  (forall t z y x, near (vel t z y x) (0, 0, 0) M).

(** The same for horizontal velocities, at each depth. *)
Definition near2 (a b : R * R) (d : R) : Prop := Rabs (fst a - fst b) <= d /\ Rabs (snd a - snd b) <= d.
Definition gentle2 (vel : R -> R -> R -> R -> R * R) (L Lt M : R) : Prop :=
  0 < L /\ 0 <= Lt /\ 0 <= M /\
  (forall t z y x y' x' d, near2 (x, y) (x', y') d -> near2 (vel t z y x) (vel t z y' x') (L * d)) /\
  (forall t t' z y x, near2 (vel t z y x) (vel t' z y x) (Lt * Rabs (t - t'))) /\
  (forall t z y x, near2 (vel t z y x) (0, 0) M).

(** Error after time [s] when each step of length at most [h] errs by [C] times its length to the power [q+1], and errors
    grow at rate [L]. *)
Definition growth (C L h : R) (q : nat) (s : R) : R := C * h ^ q / L * (exp (L * s) - 1).

(** The largest step of a run, in seconds. *)
Definition step_length (tick : R) (a : args) : R := tick * IZR (Z.abs (SchedModel.a_dt a)).

(** Linear fields that stretch distances at most by [lam] per second. *)
Definition stretches3 (A : lin3) (lam : R) : Prop :=
  Forall (fun r => let '(a, b, c, _) := r in Rabs a + Rabs b + Rabs c <= lam) [m_x A; m_y A; m_z A].
Definition stretches2 (A : lin2) (lam : R) : Prop :=
  Rabs (l_a A) + Rabs (l_b A) <= lam /\ Rabs (l_c A) + Rabs (l_d A) <= lam.

(** As near as [eps] if it has been under way for at most [T]. *)
Definition within_for (tick : R) (course_of : Z -> course) (T eps : R) (p : pcl pos) : Prop :=
  let t := seconds tick (q_time p) in let c := course_of (q_id p) in
  Rabs (t - c_start c) <= T -> near (q_x p) (place c t) eps.
