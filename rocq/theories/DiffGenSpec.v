(** When the diffusion kernels can be called. *)
From Coq Require Import String List ZArith QArith Qreals Reals.
From Verif Require Import GenModel GenSpec AdvGenSpec.
Import ListNotations.
Local Open Scope string_scope.

(** The samples of fieldset.f of the kernel program are those of the model. *)
Definition reads1 (fsample : string -> Q -> Q -> Q -> Q -> sample) (f : string) (F : R -> R -> R -> R -> option R) : Prop :=
  forall t z y x : Q,
  F (Q2R t) (Q2R z) (Q2R y) (Q2R x) =
  match fsample f (Qred t) (Qred z) (Qred y) (Qred x) with Sampled vs => Some (Q2R (qsum vs)) | SampleErr _ => None end.
(** Its square roots are those of the model. *)
Definition roots (libm : string -> list Q -> option Q) (root : R -> R) : Prop :=
  forall q : Q, (0 <= q)%Q -> exists r, libm "sqrt" [Qred q] = Some r /\ Q2R r = root (Q2R q).
(** A diffusivity. *)
Definition nonnegative (F : R -> R -> R -> R -> option R) : Prop := forall t z y x k, F t z y x = Some k -> (0 <= k)%R.
(** Particle and fieldset the kernels can be called with, after the draws. *)
Definition diffusable (ncomp vdim : string -> nat) (aint : string -> bool) (consts : leaf -> Q)
  (libm : string -> list Q -> option Q) (fsample : string -> Q -> Q -> Q -> Q -> sample) (vfsample : string -> Q -> Q -> Q -> Q -> vsample)
  (root : R -> R) (U V Kx Ky : R -> R -> R -> R -> option R) (dres dWx dWy : Q) (p : pst) (c : cst) : Prop :=
  samples_ok ncomp vdim fsample vfsample /\
  ncomp "Kh_zonal" = 1%nat /\ ncomp "Kh_meridional" = 1%nat /\ (1 <= ncomp "U")%nat /\ (1 <= ncomp "V")%nat /\
  aint "lon" = false /\ aint "lat" = false /\ aint "depth" = false /\ aint "dt" = false /\
  agree aint p c /\ p_del p = false /\ p_odd p = false /\ ~ (pnum (p_att p "state") == inject_Z (py_code KDelete))%Q /\
  reads1 fsample "U" U /\ reads1 fsample "V" V /\ reads1 fsample "Kh_zonal" Kx /\ reads1 fsample "Kh_meridional" Ky /\
  nonnegative Kx /\ nonnegative Ky /\ roots libm root /\ consts (LConst "dres") = dres /\ ~ (dres == 0)%Q /\
  p_loc p "dWx" = Some (PF dWx) /\ p_loc p "dWy" = Some (PF dWy).
