(** C46: diffusion. *)
From Coq Require Import String List ZArith QArith Qreals Reals.
From Verif Require Import RandModel RandSpec GenModel GenSpec AdvModel AdvGenSpec DiffModel DiffGenModel DiffSpec DiffGenSpec
  DiffProofs DiffGenProofs2.
Import ListNotations.
Open Scope R_scope.

(** C46, mean and spread.  The increments have mean 0 and variance |dt| (the docstrings: "normally distributed with zero mean
    and a standard deviation of sqrt(dt)") and are independent.  AdvectionDiffusionEM: the mean displacement is the velocity
    plus the slope of the diffusivity, times dt; the variances are 2 K |dt| and the two directions are uncorrelated. *)
Theorem euler_maruyama_statistics : forall U V Kx Ky dres p u v kx ky kxp kxm kyp kym Ex Ey,
  surroundings U V Kx Ky dres p u v kx ky kxp kxm kyp kym ->
  centred Ex (Rabs (a_dt p)) -> centred Ey (Rabs (a_dt p)) ->
  statistics Ex Ey p (em sqrt U V Kx Ky dres)
    ((u + slope kxp kxm dres) * a_dt p) ((v + slope kyp kym dres) * a_dt p) (2 * kx * Rabs (a_dt p)) (2 * ky * Rabs (a_dt p)).
Proof. exact em_statistics. Qed.
Print Assumptions euler_maruyama_statistics.

(** DiffusionUniformKh: no drift, the same spread. *)
Theorem uniform_diffusion_statistics : forall Kx Ky p kx ky Ex Ey,
  Kx (a_time p) (a_depth p) (a_lat p) (a_lon p) = Some kx -> Ky (a_time p) (a_depth p) (a_lat p) (a_lon p) = Some ky ->
  0 <= kx -> 0 <= ky -> centred Ex (Rabs (a_dt p)) -> centred Ey (Rabs (a_dt p)) ->
  statistics Ex Ey p (unif sqrt Kx Ky) 0 0 (2 * kx * Rabs (a_dt p)) (2 * ky * Rabs (a_dt p)).
Proof. exact unif_statistics. Qed.
Print Assumptions uniform_diffusion_statistics.

(** AdvectionDiffusionM1, for increments with the third and fourth moments of a normal distribution as well. *)
Theorem milstein_statistics : forall U V Kx Ky dres p u v kx ky kxp kxm kyp kym Ex Ey,
  surroundings U V Kx Ky dres p u v kx ky kxp kxm kyp kym ->
  normal4 Ex (Rabs (a_dt p)) -> normal4 Ey (Rabs (a_dt p)) ->
  statistics Ex Ey p (m1 sqrt U V Kx Ky dres)
    (u * a_dt p + slope kxp kxm dres * (Rabs (a_dt p) + a_dt p) / 2) (v * a_dt p + slope kyp kym dres * (Rabs (a_dt p) + a_dt p) / 2)
    (2 * kx * Rabs (a_dt p) + slope kxp kxm dres ^ 2 * a_dt p ^ 2 / 2)
    (2 * ky * Rabs (a_dt p) + slope kyp kym dres ^ 2 * a_dt p ^ 2 / 2).
Proof. exact m1_statistics. Qed.
Print Assumptions milstein_statistics.

(** Forward in time both schemes have the same mean displacement. *)
Theorem milstein_forward : forall U V Kx Ky dres p u v kx ky kxp kxm kyp kym Ex Ey,
  surroundings U V Kx Ky dres p u v kx ky kxp kxm kyp kym -> 0 <= a_dt p ->
  normal4 Ex (Rabs (a_dt p)) -> normal4 Ey (Rabs (a_dt p)) ->
  mean2 Ex Ey (fun a b => east p (m1 sqrt U V Kx Ky dres a b p)) = mean2 Ex Ey (fun a b => east p (em sqrt U V Kx Ky dres a b p)) /\
  mean2 Ex Ey (fun a b => north p (m1 sqrt U V Kx Ky dres a b p)) = mean2 Ex Ey (fun a b => north p (em sqrt U V Kx Ky dres a b p)).
Proof. exact m1_forward. Qed.
Print Assumptions milstein_forward.

(** Backward in time they do not: the drift towards higher diffusivity is lost in AdvectionDiffusionM1. *)
Theorem milstein_backward_refuted : exists Ex Ey p m,
  a_dt p < 0 /\ normal4 Ex (Rabs (a_dt p)) /\ normal4 Ey (Rabs (a_dt p)) /\
  mean2 Ex Ey (fun a b => east p (em sqrt (fun _ _ _ _ => Some 5) (fun _ _ _ _ => Some 7) dKx dKy (1 / 2) a b p)) = m - 2 /\
  mean2 Ex Ey (fun a b => east p (m1 sqrt (fun _ _ _ _ => Some 5) (fun _ _ _ _ => Some 7) dKx dKy (1 / 2) a b p)) = m.
Proof. exact backward_differs. Qed.
Print Assumptions milstein_backward_refuted.

Example statistics_case : forall dt,
  surroundings (fun _ _ _ _ => Some 5) (fun _ _ _ _ => Some 7) dKx dKy (1 / 2) (dp dt) 5 7 1 20 (11 / 4) (3 / 4) (41 / 2) (39 / 2) /\
  normal4 (three (Rabs dt)) (Rabs dt).
Proof. exact (fun dt => conj (dp_around dt) (three_normal (Rabs dt) (Rabs_pos dt))). Qed.

(** The slope is the derivative for every diffusivity that is quadratic between the points sampled. *)
Theorem slope_of_quadratic : forall (k : R -> R) x dres a b c, dres <> 0 ->
  (forall d, (d = dres \/ d = - dres) -> k (x + d) = a + b * d + c * d ^ 2) -> slope (k (x + dres)) (k (x - dres)) dres = b.
Proof. exact slope_quadratic. Qed.
Print Assumptions slope_of_quadratic.

Example slope_case : slope (1 + 2 * 10 + 3 * 10 ^ 2) (1 - 2 * 10 + 3 * 10 ^ 2) 10 = 2.
Proof. unfold slope. field. Qed.

(** C46, uniform diffusivity: all three are a step of AdvectionEE followed by DiffusionUniformKh, with the same draws. *)
Theorem uniform_diffusivity_all_agree : forall U V UV Kx Ky dres p u v kx ky a b,
  dres <> 0 -> (forall t z y x, Kx t z y x = Some kx) -> (forall t z y x, Ky t z y x = Some ky) -> 0 <= kx -> 0 <= ky ->
  U (a_time p) (a_depth p) (a_lat p) (a_lon p) = Some u -> V (a_time p) (a_depth p) (a_lat p) (a_lon p) = Some v ->
  UV (a_time p) (a_depth p) (a_lat p) (a_lon p) = Some (u, v) ->
  exists q q', em sqrt U V Kx Ky dres a b p = ADone q /\ m1 sqrt U V Kx Ky dres a b p = ADone q /\
    ee UV p = ADone q' /\ unif sqrt Kx Ky a b q' = ADone q.
Proof. exact uniform_all. Qed.
Print Assumptions uniform_diffusivity_all_agree.

Example uniform_case : exists q q',
  em sqrt (fun _ _ _ _ => Some 5) (fun _ _ _ _ => Some 7) (fun _ _ _ _ => Some 1) (fun _ _ _ _ => Some 2) 3 4 (-5) (dp 6) = ADone q /\
  m1 sqrt (fun _ _ _ _ => Some 5) (fun _ _ _ _ => Some 7) (fun _ _ _ _ => Some 1) (fun _ _ _ _ => Some 2) 3 4 (-5) (dp 6) = ADone q /\
  ee (fun _ _ _ _ => Some (5, 7)) (dp 6) = ADone q' /\ unif sqrt (fun _ _ _ _ => Some 1) (fun _ _ _ _ => Some 2) 4 (-5) q' = ADone q.
Proof. exact uniform_example. Qed.

(** C46, the draws: with the C generator no step of DiffusionUniformKh is longer than 2 sqrt (K |dt| ln (RAND_MAX^2/2)) in
    either direction, and turning rand() over turns the step over. *)
Theorem step_bounded : forall Kx Ky G (rnd : G -> Z * G) M fuel g p o g' kx ky,
  rand_ok rnd M -> Z.Odd M ->
  Kx (a_time p) (a_depth p) (a_lat p) (a_lon p) = Some kx -> Ky (a_time p) (a_depth p) (a_lat p) (a_lon p) = Some ky ->
  0 <= kx -> 0 <= ky ->
  with_draws sqrt G rnd M (unif sqrt Kx Ky) fuel g p = Some (o, g') ->
  moves p o /\
  east p o ^ 2 <= 2 * kx * Rabs (a_dt p) * (2 * ln (IZR M * IZR M / 2)) /\
  north p o ^ 2 <= 2 * ky * Rabs (a_dt p) * (2 * ln (IZR M * IZR M / 2)).
Proof. exact draws_bounded. Qed.
Print Assumptions step_bounded.

Theorem step_symmetric : forall Kx Ky G (rnd : G -> Z * G) M fuel g p o g' kx ky,
  rand_ok rnd M ->
  Kx (a_time p) (a_depth p) (a_lat p) (a_lon p) = Some kx -> Ky (a_time p) (a_depth p) (a_lat p) (a_lon p) = Some ky ->
  0 <= kx -> 0 <= ky ->
  with_draws sqrt G rnd M (unif sqrt Kx Ky) fuel g p = Some (o, g') ->
  exists o', with_draws sqrt G (turned rnd M) M (unif sqrt Kx Ky) fuel g p = Some (o', g') /\
    moves p o' /\ east p o' = - east p o /\ north p o' = - north p o.
Proof. exact draws_turned. Qed.
Print Assumptions step_symmetric.

Example draws_case : rand_ok (only 1073741824) 2147483647 /\ Z.Odd 2147483647 /\
  exists o, with_draws sqrt unit (only 1073741824) 2147483647 (unif sqrt dKx dKy) 2 tt (dp 6) = Some (o, tt).
Proof. exact draws_example. Qed.

(** C46, failures: a sample that fails, a negative diffusivity and dres = 0 leave the particle where it is. *)
Theorem failed_diffusion_moves_nothing : forall root U V Kx Ky dres a b p p',
  (em root U V Kx Ky dres a b p = AFail p' -> p' = p) /\ (m1 root U V Kx Ky dres a b p = AFail p' -> p' = p) /\
  (unif root Kx Ky a b p = AFail p' -> p' = p).
Proof. exact fail_stays. Qed.
Print Assumptions failed_diffusion_moves_nothing.

Example failed_case : unif sqrt (fun _ _ _ _ => None) dKy 1 2 (dp 6) = AFail (dp 6).
Proof. exact eq_refl. Qed.

(** C46, both modes: the kernels as they are written, run as Python and as the C code generated from them, do what the model
    over the reals says. *)
Theorem euler_maruyama_in_both_modes :
  forall ncomp vdim aint consts libm fsample vfsample root U V Kx Ky dres dWx dWy p c t x y z h nx,
  diffusable ncomp vdim aint consts libm fsample vfsample root U V Kx Ky dres dWx dWy p c -> coords p t x y z h ->
  both_modes ncomp vdim aint libm fsample vfsample consts em_body p c
    (em root U V Kx Ky (Q2R dres) (Q2R dWx) (Q2R dWy) (mkA (Q2R x) (Q2R y) (Q2R z) (Q2R t) (Q2R h) nx)).
Proof. exact em_both. Qed.
Print Assumptions euler_maruyama_in_both_modes.

Theorem milstein_in_both_modes :
  forall ncomp vdim aint consts libm fsample vfsample root U V Kx Ky dres dWx dWy p c t x y z h nx,
  diffusable ncomp vdim aint consts libm fsample vfsample root U V Kx Ky dres dWx dWy p c -> coords p t x y z h ->
  both_modes ncomp vdim aint libm fsample vfsample consts m1_body p c
    (m1 root U V Kx Ky (Q2R dres) (Q2R dWx) (Q2R dWy) (mkA (Q2R x) (Q2R y) (Q2R z) (Q2R t) (Q2R h) nx)).
Proof. exact m1_both. Qed.
Print Assumptions milstein_in_both_modes.

Theorem uniform_diffusion_in_both_modes :
  forall ncomp vdim aint consts libm fsample vfsample root U V Kx Ky dres dWx dWy p c t x y z h nx,
  diffusable ncomp vdim aint consts libm fsample vfsample root U V Kx Ky dres dWx dWy p c -> coords p t x y z h ->
  both_modes ncomp vdim aint libm fsample vfsample consts unif_body p c
    (unif root Kx Ky (Q2R dWx) (Q2R dWy) (mkA (Q2R x) (Q2R y) (Q2R z) (Q2R t) (Q2R h) nx)).
Proof. exact unif_both. Qed.
Print Assumptions uniform_diffusion_in_both_modes.

Example diffusion_in_both_modes_case :
  diffusable (fun _ => 1%nat) (fun _ => 2%nat) dx_aint dx_consts dx_libm dx_fsample (fun _ _ _ _ _ => VSampleErr 6)
  dx_root (fun t z y x => Some y) (fun t z y x => Some x) (fun _ _ _ _ => Some 1%R) (fun _ _ _ _ => Some 2%R)
  (1 # 10) (1 # 3) (-1 # 7) dx_p dx_c /\ coords dx_p 3 1 2 2 (1 # 2).
Proof. exact dx_case. Qed.

(** A diffusivity that is a sum of two fields: the text generated for 2 * Kh_zonal doubles the first field only, and the
    particle ends elsewhere. *)
Theorem summed_diffusivity_refuted :
  lon_py (presult (PI 1) (pexec dx_libm dy_fsample (fun _ _ _ _ _ => VSampleErr 6) dx_aint dx_consts 30 unif_body dx_p)) = Some (5 # 3)%Q /\
  exists zs, compile dy_ncomp (fun _ => 2%nat) unif_body = Some zs /\
  lon_c (cresult (CI 1) (cexec dx_libm dy_fsample (fun _ _ _ _ _ => VSampleErr 6) dx_aint dx_consts 30 zs dx_c)) = Some (31547 # 20000)%Q.
Proof. exact (conj dy_py dy_c). Qed.
Print Assumptions summed_diffusivity_refuted.
