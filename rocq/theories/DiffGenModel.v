(** The diffusion kernels as kernel programs: the source text of parcels/kernels/advectiondiffusion.py 32-48, 69-83 and
    107-111 in the syntax of GenModel (without comments).  The two draws before (29-30, 66-67, 104-105) are not part of
    it: the locals dWx and dWy already have values. *)
From Coq Require Import String List ZArith QArith.
From Verif Require Import GenModel AdvGenModel.
Import ListNotations.
Local Open Scope string_scope.

Definition g_sub := EBin BSub.
Definition g_div := EBin BDiv.
Definition g_dres : expr := ELeaf (LConst "dres").                 (* fieldset.dres *)
(** fieldset.f[time, particle.depth, particle.lat, particle.lon], also written fieldset.f[particle] *)
Definition g_here (f : string) : expr := EField f (g_var "time") (g_part "depth") (g_part "lat") (g_part "lon").
(** at lon + dres and so on *)
Definition g_beside (f : string) (o : bop) : expr :=
  EField f (g_var "time") (g_part "depth") (g_part "lat") (EBin o (g_part "lon") g_dres).
Definition g_above (f : string) (o : bop) : expr :=
  EField f (g_var "time") (g_part "depth") (EBin o (g_part "lat") g_dres) (g_part "lon").
(** (a - b) / (2 * fieldset.dres) *)
Definition g_slope (a b : string) : expr := g_div (g_sub (g_var a) (g_var b)) (g_mul g_two g_dres).
(** math.sqrt(2 * fieldset.f[...]) *)
Definition g_root (f : string) : expr := ECall1 "sqrt" (g_mul g_two (g_here f)).

(** AdvectionDiffusionM1, 32-48.  u * particle.dt + 0.5 * dKdx * (dWx**2 + particle.dt) + bx * dWx *)
Definition g_milstein (u dK dW b : string) : expr :=
  g_add (g_add (g_mul (g_var u) g_dt)
               (g_mul (g_mul g_half (g_var dK)) (g_add (EBin BPow (g_var dW) g_two) g_dt)))
        (g_mul (g_var b) (g_var dW)).
Definition m1_body : list stmt :=
  [SAssign (TVar "Kxp1") (g_beside "Kh_zonal" BAdd);
   SAssign (TVar "Kxm1") (g_beside "Kh_zonal" BSub);
   SAssign (TVar "dKdx") (g_slope "Kxp1" "Kxm1");
   SAssign (TVar "u") (g_here "U");
   SAssign (TVar "bx") (g_root "Kh_zonal");
   SAssign (TVar "Kyp1") (g_above "Kh_meridional" BAdd);
   SAssign (TVar "Kym1") (g_above "Kh_meridional" BSub);
   SAssign (TVar "dKdy") (g_slope "Kyp1" "Kym1");
   SAssign (TVar "v") (g_here "V");
   SAssign (TVar "by") (g_root "Kh_meridional");
   SAug (TAttr "lon") BAdd (g_milstein "u" "dKdx" "dWx" "bx");
   SAug (TAttr "lat") BAdd (g_milstein "v" "dKdy" "dWy" "by")].

(** AdvectionDiffusionEM, 69-83. *)
Definition g_maruyama (a b dW : string) : expr := g_add (g_mul (g_var a) g_dt) (g_mul (g_var b) (g_var dW)).
Definition em_body : list stmt :=
  [SAssign (TVar "Kxp1") (g_beside "Kh_zonal" BAdd);
   SAssign (TVar "Kxm1") (g_beside "Kh_zonal" BSub);
   SAssign (TVar "dKdx") (g_slope "Kxp1" "Kxm1");
   SAssign (TVar "ax") (g_add (g_here "U") (g_var "dKdx"));
   SAssign (TVar "bx") (g_root "Kh_zonal");
   SAssign (TVar "Kyp1") (g_above "Kh_meridional" BAdd);
   SAssign (TVar "Kym1") (g_above "Kh_meridional" BSub);
   SAssign (TVar "dKdy") (g_slope "Kyp1" "Kym1");
   SAssign (TVar "ay") (g_add (g_here "V") (g_var "dKdy"));
   SAssign (TVar "by") (g_root "Kh_meridional");
   SAug (TAttr "lon") BAdd (g_maruyama "ax" "bx" "dWx");
   SAug (TAttr "lat") BAdd (g_maruyama "ay" "by" "dWy")].

(** DiffusionUniformKh, 107-111. *)
Definition unif_body : list stmt :=
  [SAssign (TVar "bx") (g_root "Kh_zonal");
   SAssign (TVar "by") (g_root "Kh_meridional");
   SAug (TAttr "lon") BAdd (g_mul (g_var "bx") (g_var "dWx"));
   SAug (TAttr "lat") BAdd (g_mul (g_var "by") (g_var "dWy"))].
