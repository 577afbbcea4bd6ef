(** C34: Euler and RK4 advection. *)
From Coq Require Import String List ZArith QArith Qreals Reals Arith Lra Lia.
From Verif Require Import GenModel GenSpec AdvModel AdvSpec AdvGenModel AdvGenSpec.
From Verif Require Import AdvProofs AdvProofs2 AdvProofs3 AdvGenProofs AdvExamples.
Import ListNotations.
Open Scope R_scope.

(** AdvectionEE with constant velocity: the particle ends where a parcel of water ends; dt may be negative. *)
Theorem euler_exact : forall UV p u v x y,
  UV (a_time p) (a_depth p) (a_lat p) (a_lon p) = Some (u, v) ->
  path (fun _ _ _ => (u, v)) p x y ->
  exists p', ee UV p = ADone p' /\ moved_to p p' (x (a_time p + a_dt p)) (y (a_time p + a_dt p)) (a_depth p).
Proof. exact ee_constant. Qed.
Print Assumptions euler_exact.

Example euler_exact_case : path (fun _ _ _ => (2, -3)) (xa (-5)) (fun s => 1 + 2 * s) (fun s => 1 + -3 * s).
Proof. exact uniform_path. Qed.

(** AdvectionEE in any velocity field: the error of a step is dt^2/2 times the acceleration of the parcel ([ax], [ay]) at some
    time of the step. *)
Theorem euler_first_order : forall UV vel p x y ax ay,
  UV (a_time p) (a_depth p) (a_lat p) (a_lon p) = Some (vel (a_time p) (a_lat p) (a_lon p)) ->
  path vel p x y ->
  (forall s, during p s -> derivable_pt_lim (fun r => fst (vel r (y r) (x r))) s (ax s) /\
                           derivable_pt_lim (fun r => snd (vel r (y r) (x r))) s (ay s)) ->
  exists p' s1 s2, ee UV p = ADone p' /\ during p s1 /\ during p s2 /\
    moved_to p p' (x (a_time p + a_dt p) - a_dt p ^ 2 / 2 * ax s1)
                  (y (a_time p + a_dt p) - a_dt p ^ 2 / 2 * ay s2) (a_depth p).
Proof. exact ee_error. Qed.
Print Assumptions euler_first_order.

Example euler_first_order_case : path (lin_vel rot) xr cos sin /\
  (forall s, during xr s ->
     derivable_pt_lim (fun r => fst (lin_vel rot r (sin r) (cos r))) s (fst (lin_deriv rot 2 (cos s) (sin s))) /\
     derivable_pt_lim (fun r => snd (lin_vel rot r (sin r) (cos r))) s (snd (lin_deriv rot 2 (cos s) (sin s)))).
Proof. exact (conj rot_path (fun s H => lin_derives rot xr cos sin rot_path 1 s H)). Qed.

(** AdvectionRK4 when the velocity depends on time only, as polynomials of degree at most 3 (a constant among them). *)
Theorem rk4_exact : forall UV p M cu cv x y,
  (length cu <= 4)%nat -> (length cv <= 4)%nat ->
  field_is UV (fun t _ _ => (poly cu t, poly cv t)) p M ->
  path (fun t _ _ => (poly cu t, poly cv t)) p x y ->
  exists p', rk4 UV p = ADone p' /\ moved_to p p' (x (a_time p + a_dt p)) (y (a_time p + a_dt p)) (a_depth p).
Proof. exact rk4_time. Qed.
Print Assumptions rk4_exact.

Example rk4_exact_case :
  field_is acc_UV (fun t _ _ => (poly acc_u t, poly acc_v t)) (xa (1/2)) 2 /\
  path (fun t _ _ => (poly acc_u t, poly acc_v t)) (xa (1/2)) (fun s => 1 + integ_from 0 acc_u s) (fun s => 1 + integ_from 0 acc_v s).
Proof. exact (conj acc_field acc_path). Qed.

(** AdvectionRK4 in a linear velocity field: the degree 4 Taylor polynomial of the path. *)
Theorem rk4_taylor : forall UV L p M, field_is UV (lin_vel L) p M ->
  exists p', rk4 UV p = ADone p' /\
    moved_to p p' (taylor 4 (a_dt p) (fun k => fst (lin_deriv L k (a_lon p) (a_lat p))))
                  (taylor 4 (a_dt p) (fun k => snd (lin_deriv L k (a_lon p) (a_lat p)))) (a_depth p).
Proof. exact rk4_linear. Qed.
Print Assumptions rk4_taylor.

(** ... and so the error of a step is dt^5/120 times the fifth derivative of the path at some time of the step. *)
Theorem rk4_fourth_order : forall UV L p M x y, field_is UV (lin_vel L) p M -> path (lin_vel L) p x y ->
  exists p' s1 s2, rk4 UV p = ADone p' /\ during p s1 /\ during p s2 /\
    moved_to p p' (x (a_time p + a_dt p) - a_dt p ^ 5 / 120 * fst (lin_deriv L 5 (x s1) (y s1)))
                  (y (a_time p + a_dt p) - a_dt p ^ 5 / 120 * snd (lin_deriv L 5 (x s2) (y s2))) (a_depth p).
Proof. exact rk4_linear_err. Qed.
Print Assumptions rk4_fourth_order.

Example rk4_linear_case : field_is rot_UV (lin_vel rot) xr 2 /\ path (lin_vel rot) xr cos sin.
Proof. exact (conj rot_field rot_path). Qed.

(** [lin_deriv] are the derivatives of the path. *)
Theorem lin_deriv_is_derivative : forall L p x y, path (lin_vel L) p x y ->
  forall k s, during p s ->
    derivable_pt_lim (fun r => fst (lin_deriv L k (x r) (y r))) s (fst (lin_deriv L (S k) (x s) (y s))) /\
    derivable_pt_lim (fun r => snd (lin_deriv L k (x r) (y r))) s (snd (lin_deriv L (S k) (x s) (y s))).
Proof. exact lin_derives. Qed.
Print Assumptions lin_deriv_is_derivative.

(** AdvectionRK4_3D: the same with a vertical velocity. *)
Theorem rk4_3d_exact : forall UVW p M cu cv cw x y z,
  (length cu <= 4)%nat -> (length cv <= 4)%nat -> (length cw <= 4)%nat ->
  field3_is UVW (fun t _ _ _ => (poly cu t, poly cv t, poly cw t)) p M ->
  path3 (fun t _ _ _ => (poly cu t, poly cv t, poly cw t)) p x y z ->
  exists p', rk4_3d UVW p = ADone p' /\
    moved_to p p' (x (a_time p + a_dt p)) (y (a_time p + a_dt p)) (z (a_time p + a_dt p)).
Proof. exact rk3_time. Qed.
Print Assumptions rk4_3d_exact.

Example rk4_3d_exact_case :
  field3_is acc3_UVW (fun t _ _ _ => (poly acc_u t, poly acc_v t, poly [2] t)) (xa (1/2)) 2 /\
  path3 (fun t _ _ _ => (poly acc_u t, poly acc_v t, poly [2] t)) (xa (1/2))
    (fun s => 1 + integ_from 0 acc_u s) (fun s => 1 + integ_from 0 acc_v s) (fun s => 1 + integ_from 0 [2] s).
Proof. exact (conj acc3_field acc3_path). Qed.

Theorem rk4_3d_fourth_order : forall UVW L p M x y z, field3_is UVW (lin3_vel L) p M -> path3 (lin3_vel L) p x y z ->
  let d k s := lin3_deriv L k (x s) (y s) (z s) in
  exists p' s1 s2 s3, rk4_3d UVW p = ADone p' /\ during p s1 /\ during p s2 /\ during p s3 /\
    moved_to p p' (taylor 4 (a_dt p) (fun k => fst (fst (d k (a_time p)))))
                  (taylor 4 (a_dt p) (fun k => snd (fst (d k (a_time p)))))
                  (taylor 4 (a_dt p) (fun k => snd (d k (a_time p)))) /\
    moved_to p p' (x (a_time p + a_dt p) - a_dt p ^ 5 / 120 * fst (fst (d 5%nat s1)))
                  (y (a_time p + a_dt p) - a_dt p ^ 5 / 120 * snd (fst (d 5%nat s2)))
                  (z (a_time p + a_dt p) - a_dt p ^ 5 / 120 * snd (d 5%nat s3)).
Proof. exact rk3_linear_err. Qed.
Print Assumptions rk4_3d_fourth_order.

Example rk4_3d_linear_case : field3_is swirl_UVW (lin3_vel swirl) xs 2 /\ path3 (lin3_vel swirl) xs cos sin exp.
Proof. exact (conj swirl_field swirl_path). Qed.

(** The kernels as they are written, run as Python and as the C code generated from them, do what the model over the reals
    says (ends with the same result, at the same place, with nothing else changed). *)
Theorem euler_in_both_modes : forall ncomp vdim aint libm fsample vfsample consts UV p c t x y z h nx,
  runnable ncomp vdim aint fsample vfsample "UV" 2 p c -> reads2 vfsample UV -> coords p t x y z h ->
  both_modes ncomp vdim aint libm fsample vfsample consts ee_body p c
    (ee UV (mkA (Q2R x) (Q2R y) (Q2R z) (Q2R t) (Q2R h) nx)).
Proof. exact ee_both. Qed.
Print Assumptions euler_in_both_modes.

Theorem rk4_in_both_modes : forall ncomp vdim aint libm fsample vfsample consts UV p c t x y z h nx,
  runnable ncomp vdim aint fsample vfsample "UV" 2 p c -> reads2 vfsample UV -> coords p t x y z h ->
  both_modes ncomp vdim aint libm fsample vfsample consts rk4_body p c
    (rk4 UV (mkA (Q2R x) (Q2R y) (Q2R z) (Q2R t) (Q2R h) nx)).
Proof. exact rk4_both. Qed.
Print Assumptions rk4_in_both_modes.

Theorem rk4_3d_in_both_modes : forall ncomp vdim aint libm fsample vfsample consts UVW p c t x y z h nx,
  runnable ncomp vdim aint fsample vfsample "UVW" 3 p c -> reads3 vfsample UVW -> coords p t x y z h ->
  both_modes ncomp vdim aint libm fsample vfsample consts rk4_3d_body p c
    (rk4_3d UVW (mkA (Q2R x) (Q2R y) (Q2R z) (Q2R t) (Q2R h) nx)).
Proof. exact rk3_both. Qed.
Print Assumptions rk4_3d_in_both_modes.

Example both_modes_case :
  runnable gx_ncomp gx_vdim gx_aint gx_fsample gx_vfsample "UV" 2 gx_p gx_c /\
  runnable gx_ncomp gx_vdim gx_aint gx_fsample gx_vfsample "UVW" 3 gx_p gx_c /\
  reads2 gx_vfsample (fun t z y x => Some (- y, x)) /\ reads3 gx_vfsample (fun t z y x => Some (- y, x, z)) /\
  coords gx_p 3 1 2 2 (1#2).
Proof.
  exact (conj (gx_runnable "UV" 2 eq_refl) (conj (gx_runnable "UVW" 3 eq_refl) (conj gx_reads (conj gx_reads3 gx_coords)))).
Qed.

(** A sample that fails leaves the particle as it is. *)
Theorem failed_sample_moves_nothing : forall UV UVW p p',
  (ee UV p = AFail p' -> p' = p) /\ (rk4 UV p = AFail p' -> p' = p) /\
  (rk4_3d UVW p = AFail p' -> p' = p) /\ (rk45 UV p = AFail p' -> p' = p).
Proof. exact fail_unmoved. Qed.
Print Assumptions failed_sample_moves_nothing.

Example failed_sample_case : ee (fun _ _ _ _ => None) (xa 1) = AFail (xa 1).
Proof. exact eq_refl. Qed.
