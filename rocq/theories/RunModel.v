(** The advection kernels as kernels of the particle loop (KLoopModel).

    Source: parcels/kernels/advection.py (AdvModel) called by parcels/kernel.py 315 and codegenerator.py 1038.

    The variables besides id, time, dt and state are the position.  Times of the loop are whole numbers of ticks; the kernel
    sees seconds.  A failed sample makes the call end with the code of its exception (kernel.py 325-337).  The kernels
    that never change particle.dt (AdvectionEE, AdvectionRK4, AdvectionRK4_3D) are meant here: they do not ask for repetition. *)
From Coq Require Import Reals List ZArith.
From Verif Require Import CollModel KLoopModel AdvModel.
Open Scope R_scope.

(** lon, lat, depth *)
Definition pos : Type := R * R * R.

(** A time of the loop in seconds; [tick] is the length of a tick. *)
Definition seconds (tick : R) (t : Z) : R := tick * IZR t.

(** The particle as the kernel sees it. *)
Definition seen_by_kernel (tick : R) (p : pcl pos) : apart :=
  let '(x, y, z) := q_x p in mkA x y z (seconds tick (q_time p)) (seconds tick (q_dt p)) None.

Definition pos_of (a : apart) : pos := (a_lon a, a_lat a, a_depth a).

(** One call; [code] is the code of the exception of a sample that fails. *)
Definition adv_kernel {E} (tick : R) (adv : apart -> aout) (code : pcl pos -> Z) (e : E) (p : pcl pos) : E * kres pos :=
  match adv (seen_by_kernel tick p) with
  | ADone a => (e, mkKres st_Success (q_time p) (q_dt p) (q_st p) (pos_of a) None)
  | ARepeat a => (e, mkKres op_Repeat (q_time p) (q_dt p) (q_st p) (pos_of a) None)
  | AFail a => (e, mkKres (code p) (q_time p) (q_dt p) (q_st p) (pos_of a) None)
  end.
