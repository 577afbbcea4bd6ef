(** C35: adaptive advection (RK45). *)
From Coq Require Import Reals List.
From Verif Require Import AdvModel AdvSpec AdvProofs AdvProofs2 AdvProofs3 AdvExamples.
Import ListNotations.
Open Scope R_scope.

(** AdvectionRK45 in any velocity field: with the fourth and fifth order solutions of Fehlberg's method, it moves the particle to
    the fourth order one if the two are no more than 1e-5 |dt| apart, and notes the doubled dt if they are no more than a tenth of
    that apart; otherwise it leaves the particle in place, halves dt and asks for the step to be repeated. *)
Theorem rk45_accepts_within_tolerance : forall UV p, rk45_spec UV p (1 / 100000) (rk45 UV p).
Proof. exact rk45_ok. Qed.
Print Assumptions rk45_accepts_within_tolerance.

(** When the velocity depends on time only: the fourth order solution is exact for polynomials of degree 3, the fifth order one
    for degree 4. *)
Theorem rk45_time_fourth : forall UV p cu cv x y ks,
  (length cu <= 4)%nat -> (length cv <= 4)%nat ->
  samples_are UV (fun t _ _ => (poly cu t, poly cv t)) p ->
  path (fun t _ _ => (poly cu t, poly cv t)) p x y ->
  stages UV p fehlberg [] = Some ks ->
  solution p fehlberg4 ks = (x (a_time p + a_dt p), y (a_time p + a_dt p)).
Proof. exact rk45_poly4. Qed.
Print Assumptions rk45_time_fourth.

Theorem rk45_time_fifth : forall UV p cu cv x y ks,
  (length cu <= 5)%nat -> (length cv <= 5)%nat ->
  samples_are UV (fun t _ _ => (poly cu t, poly cv t)) p ->
  path (fun t _ _ => (poly cu t, poly cv t)) p x y ->
  stages UV p fehlberg [] = Some ks ->
  solution p fehlberg5 ks = (x (a_time p + a_dt p), y (a_time p + a_dt p)).
Proof. exact rk45_poly5. Qed.
Print Assumptions rk45_time_fifth.

(** ... so that every step in such a flow is accepted (unless a sample fails), is exact, and doubles the next one. *)
Theorem rk45_exact : forall UV p cu cv x y,
  (length cu <= 4)%nat -> (length cv <= 4)%nat ->
  samples_are UV (fun t _ _ => (poly cu t, poly cv t)) p ->
  path (fun t _ _ => (poly cu t, poly cv t)) p x y ->
  rk45 UV p = AFail p \/
  exists p', rk45 UV p = ADone p' /\ a_lon p' = x (a_time p + a_dt p) /\ a_lat p' = y (a_time p + a_dt p) /\
    a_depth p' = a_depth p /\ a_time p' = a_time p /\ a_dt p' = a_dt p /\ a_next p' = Some (2 * a_dt p).
Proof. exact rk45_time. Qed.
Print Assumptions rk45_exact.

Example rk45_exact_case :
  samples_are acc_UV (fun t _ _ => (poly acc_u t, poly acc_v t)) (xa (1/2)) /\
  path (fun t _ _ => (poly acc_u t, poly acc_v t)) (xa (1/2)) (fun s => 1 + integ_from 0 acc_u s) (fun s => 1 + integ_from 0 acc_v s).
Proof. exact (conj acc_samples acc_path). Qed.

(** In a linear velocity field the two solutions differ from the path by terms of order dt^5 and dt^6. *)
Theorem rk45_orders : forall UV L p x y ks,
  samples_are UV (lin_vel L) p -> path (lin_vel L) p x y ->
  stages UV p fehlberg [] = Some ks ->
  let d k s := lin_deriv L k (x s) (y s) in
  let t := a_time p in let h := a_dt p in
  exists s1 s2 s3 s4, during p s1 /\ during p s2 /\ during p s3 /\ during p s4 /\
    solution p fehlberg4 ks =
      (x (t + h) - h ^ 5 * (fst (d 5%nat s1) / 120 - fst (d 5%nat t) / 104),
       y (t + h) - h ^ 5 * (snd (d 5%nat s2) / 120 - snd (d 5%nat t) / 104)) /\
    solution p fehlberg5 ks =
      (x (t + h) - h ^ 6 * (fst (d 6%nat s3) / 720 - fst (d 6%nat t) / 2080),
       y (t + h) - h ^ 6 * (snd (d 6%nat s4) / 720 - snd (d 6%nat t) / 2080)).
Proof. exact rk45_linear. Qed.
Print Assumptions rk45_orders.

Example rk45_orders_case :
  samples_are (fun t z y x => Some (lin_vel rot t y x)) (lin_vel rot) xr /\ path (lin_vel rot) xr cos sin /\
  exists ks, stages (fun t z y x => Some (lin_vel rot t y x)) xr fehlberg [] = Some ks.
Proof. exact (conj rot_all (conj rot_path rot_stages)). Qed.

(** A field in which the step is repeated: with u = 1 at the particle and 0 elsewhere the two solutions are dt/360 apart. *)
Theorem rk45_repeats : exists UV p p', rk45 UV p = ARepeat p' /\ a_lon p' = a_lon p /\ a_lat p' = a_lat p /\ a_dt p' = a_dt p / 2.
Proof. exact rk45_repeat_case. Qed.
Print Assumptions rk45_repeats.
