(** Model of the diffusion kernels, over the real numbers.

    Source: parcels/kernels/advectiondiffusion.py AdvectionDiffusionM1 12-48, AdvectionDiffusionEM 51-83,
    DiffusionUniformKh 86-111.

    Numbers are real: rounding is not modelled.  The samples may fail (None); the increments dWx and dWy are drawn first
    (two calls of ParcelsRandom.normalvariate, see RandModel).  [root] is math.sqrt; it raises for a negative argument, as
    the division by 2 * dres does for dres = 0 (AFail stands for both; in JIT mode the result is then NaN or infinite). *)
From Coq Require Import Reals.
From Verif Require Import RandModel AdvModel.
Open Scope R_scope.

Section Kernels.
Variable root : R -> R.
(** fieldset.U, V, Kh_zonal, Kh_meridional: time, depth, lat, lon. *)
Variables U V Kx Ky : R -> R -> R -> R -> option R.
(** fieldset.dres *)
Variable dres : R.

Definition rooted (p : apart) (a : R) (k : R -> aout) : aout := if Rle_dec 0 a then k (root a) else AFail p.
Definition over (p : apart) (a b : R) (k : R -> aout) : aout := if Req_EM_T b 0 then AFail p else k (a / b).

(** 32-48, after the draws *)
Definition m1 (dWx dWy : R) (p : apart) : aout :=
  let time := a_time p in let depth := a_depth p in let lat := a_lat p in let lon := a_lon p in let dt := a_dt p in
  sampled p (Kx time depth lat (lon + dres)) (fun Kxp1 =>
  sampled p (Kx time depth lat (lon - dres)) (fun Kxm1 =>
  over p (Kxp1 - Kxm1) (2 * dres) (fun dKdx =>
  sampled p (U time depth lat lon) (fun u =>
  sampled p (Kx time depth lat lon) (fun kx =>
  rooted p (2 * kx) (fun bx =>
  sampled p (Ky time depth (lat + dres) lon) (fun Kyp1 =>
  sampled p (Ky time depth (lat - dres) lon) (fun Kym1 =>
  over p (Kyp1 - Kym1) (2 * dres) (fun dKdy =>
  sampled p (V time depth lat lon) (fun v =>
  sampled p (Ky time depth lat lon) (fun ky =>
  rooted p (2 * ky) (fun by_ =>
  ADone (move p (lon + (u * dt + 1 / 2 * dKdx * (dWx * dWx + dt) + bx * dWx))
                (lat + (v * dt + 1 / 2 * dKdy * (dWy * dWy + dt) + by_ * dWy)) depth))))))))))))).

(** 69-83, after the draws *)
Definition em (dWx dWy : R) (p : apart) : aout :=
  let time := a_time p in let depth := a_depth p in let lat := a_lat p in let lon := a_lon p in let dt := a_dt p in
  sampled p (Kx time depth lat (lon + dres)) (fun Kxp1 =>
  sampled p (Kx time depth lat (lon - dres)) (fun Kxm1 =>
  over p (Kxp1 - Kxm1) (2 * dres) (fun dKdx =>
  sampled p (U time depth lat lon) (fun u =>
  let ax := u + dKdx in
  sampled p (Kx time depth lat lon) (fun kx =>
  rooted p (2 * kx) (fun bx =>
  sampled p (Ky time depth (lat + dres) lon) (fun Kyp1 =>
  sampled p (Ky time depth (lat - dres) lon) (fun Kym1 =>
  over p (Kyp1 - Kym1) (2 * dres) (fun dKdy =>
  sampled p (V time depth lat lon) (fun v =>
  let ay := v + dKdy in
  sampled p (Ky time depth lat lon) (fun ky =>
  rooted p (2 * ky) (fun by_ =>
  ADone (move p (lon + (ax * dt + bx * dWx)) (lat + (ay * dt + by_ * dWy)) depth))))))))))))).

(** 107-111, after the draws *)
Definition unif (dWx dWy : R) (p : apart) : aout :=
  sampled p (Kx (a_time p) (a_depth p) (a_lat p) (a_lon p)) (fun kx =>
  rooted p (2 * kx) (fun bx =>
  sampled p (Ky (a_time p) (a_depth p) (a_lat p) (a_lon p)) (fun ky =>
  rooted p (2 * ky) (fun by_ =>
  ADone (move p (a_lon p + bx * dWx) (a_lat p + by_ * dWy) (a_depth p)))))).

(** 29-30, 66-67, 104-105: the draws; [None]: the loop of normalvariate goes on for more than [fuel] turns. *)
Variable G : Type.
Variable rnd : G -> Z * G.
Variable RAND_MAX : Z.
Definition with_draws (kernel : R -> R -> apart -> aout) (fuel : nat) (g : G) (p : apart) : option (aout * G) :=
  match normalvariate G rnd RAND_MAX fuel 0 (root (Rabs (a_dt p))) g with
  | None => None
  | Some (dWx, g) =>
      match normalvariate G rnd RAND_MAX fuel 0 (root (Rabs (a_dt p))) g with
      | None => None
      | Some (dWy, g) => Some (kernel dWx dWy p, g)
      end
  end.
End Kernels.
