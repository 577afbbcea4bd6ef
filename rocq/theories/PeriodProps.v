(** C24: time-periodic fields whose period is longer than their data, when all frames are in memory. [v n] is the value in frame [n] at
    some position; after the last frame the field should go back to the first, which is why the model and the code add it. *)
From Coq Require Import List ZArith Bool QArith Lia Lqa.
From Verif Require Import IdxModel IdxSpec IdxProofs TimeModel InterpSpec TimeProofs PeriodModel PeriodSpec PeriodProofs.
Import ListNotations.
Open Scope Q_scope.

(** A field is refused if, and only if, its data are longer than the period. *)
Theorem period_accepted : forall period given v t, axis_ok given -> 0 < period ->
  (py_period period given v t = None <-> period < last_ given - first_ given).
Proof.
  intros period given v t AX PP. unfold py_period. split.
  - intros E. destruct (Qlt_le_dec period (last_ given - first_ given)) as [|C]; [assumption|]. exfalso.
    destruct (times_of period given AX PP C) as (tm & ET & _). rewrite ET in E. discriminate.
  - intros C. rewrite (times_none period given AX C). reflexivity.
Qed.
Print Assumptions period_accepted.

(** Scipy mode: the value is right at the times that correspond to one between the first and the last time given; in the rest of the
    period it is that of the last frame. *)
Theorem scipy_period_partial : forall period given v w t, axis_ok given -> 0 < period -> frames given v w ->
  last_ given - first_ given <= period ->
  exists q t', py_period period given v t = Some (IVal q) /\ in_period period given t t' /\
    (t' <= last_ given -> periodic_value period given w t' q) /\ (last_ given < t' -> q = w (zlen given - 1)%Z).
Proof.
  intros period given v w t AX PP F LE. destruct (py_period_at period given AX PP v w F LE t) as (q & t' & E & IP & A & B).
  exists q, t'. split; [exact E|]. split; [exact IP|]. split; [|exact B]. intros C. split; [exact A|]. intros D. exfalso. lra.
Qed.
Print Assumptions scipy_period_partial.

(** So the value is wrong there, unless the last frame is the same as the first. *)
Theorem scipy_period_refuted : forall period given v w t t' q, axis_ok given -> 0 < period -> frames given v w ->
  in_period period given t t' -> last_ given < t' -> py_period period given v t = Some (IVal q) ->
  (periodic_value period given w t' q <-> w (zlen given - 1)%Z == w 0%Z).
Proof.
  intros period given v w t t' q AX PP F IP G E.
  assert (LE : last_ given - first_ given <= period) by (destruct IP as [[_ A] _]; lra).
  destruct (py_period_at period given AX PP v w F LE t) as (q1 & t1 & E1 & IP1 & _ & B1). rewrite E in E1. injection E1 as <-.
  pose proof (unique_period period given PP t t' t1 IP IP1) as U. rewrite B1 by lra. destruct IP as [[_ A] _].
  set (a := w (zlen given - 1)%Z). set (b := w 0%Z). unfold periodic_value. fold a b. cbv zeta.
  set (r := (t' - last_ given) / (first_ given + period - last_ given)).
  assert (R : ~ r == 0).
  { intros R. assert (P1 : 0 < r) by (apply Qlt_shift_div_l; lra). lra. }
  split.
  - intros [_ H]. specialize (H G). assert (Q1 : r * (b - a) == 0) by lra. destruct (Qmult_integral _ _ Q1); [contradiction|lra].
  - intros EQ. split; [intros C; lra|]. intros _. rewrite EQ. ring.
Qed.
Print Assumptions scipy_period_refuted.
Example scipy_period_case :
  let v n := IVal (inject_Z (5 + 3 * n)) in
  py_period 10 [0; 2; 5] v 12 = Some (IVal 8) /\ py_period 10 [0; 2; 5] v (-9) = Some (IVal (13 # 2)) /\
  py_period 10 [0; 2; 5] v (29 # 2) = Some (IVal (63 # 6)) /\ py_period 10 [0; 2; 5] v (19 # 2) = Some (IVal 11) /\
  py_period 3 [0; 2; 5] v 1 = None /\ in_period 10 [0; 2; 5] (19 # 2) (19 # 2) /\
  periodic_value 10 [0; 2; 5] (fun n => inject_Z (5 + 3 * n)) (19 # 2) (28 # 5).
Proof.
  cbv zeta. split; [vm_compute; reflexivity|]. split; [vm_compute; reflexivity|]. split; [vm_compute; reflexivity|].
  split; [vm_compute; reflexivity|]. split; [vm_compute; reflexivity|]. split.
  - split; [split; [vm_compute; discriminate|vm_compute; reflexivity]|]. exists 0%Z. reflexivity.
  - split; [intros C; exfalso; revert C; vm_compute; intros C; apply C; reflexivity|]. intros _. reflexivity.
Qed.

(** JIT mode: the value is right at the same times ([k] bounds the recursion of the time search)... *)
Theorem jit_period_partial : forall k period given v w t t' ti, axis_ok given -> 0 < period -> frames given v w ->
  last_ given - first_ given < period -> (ti < zlen given)%Z -> (1 < k)%nat ->
  in_period period given t t' -> t' <= last_ given ->
  exists q, c_period k period given v t ti = Some (IVal q) /\ periodic_value period given w t' q.
Proof.
  intros k period given v w t t' ti AX PP F LT ST K IP G. assert (LE : last_ given - first_ given <= period) by lra.
  destruct (c_period_at period given AX PP v w F LE LT k t t' ti IP G ST K) as (q & E & TV). exists q. split; [exact E|].
  split; [intros _; exact TV|]. intros D. exfalso. lra.
Qed.
Print Assumptions jit_period_partial.

(** ... and at the others the time search never ends. *)
Theorem jit_period_refuted : forall k period given v t t' ti, axis_ok given -> 0 < period ->
  in_period period given t t' -> last_ given < t' -> c_period k period given v t ti = Some IBad.
Proof.
  intros k period given v t t' ti AX PP IP G. assert (LE : last_ given - first_ given <= period) by (destruct IP as [[_ A] _]; lra).
  exact (c_period_gap period given AX PP v LE k t t' ti IP G).
Qed.
Print Assumptions jit_period_refuted.
Example jit_period_case :
  let v n := IVal (inject_Z (5 + 3 * n)) in
  (exists q, c_period 2 10 [0; 2; 5] v (29 # 2) 1 = Some (IVal q) /\ q == 21 # 2) /\
  (exists q, c_period 2 10 [0; 2; 5] v (-9) 2 = Some (IVal q) /\ q == 13 # 2) /\
  c_period 100 10 [0; 2; 5] v (19 # 2) 0 = Some IBad /\ c_period 100 10 [0; 2; 5] v (-4) 0 = Some IBad.
Proof.
  cbv zeta. split; [eexists; split; [vm_compute; reflexivity|reflexivity]|]. split; [eexists; split; [vm_compute; reflexivity|reflexivity]|].
  split; vm_compute; reflexivity.
Qed.
