(** The advection kernels as kernel programs: the source text of parcels/kernels/advection.py 11-56 in the syntax
    of GenModel (without the docstrings). *)
From Coq Require Import String List ZArith QArith.
From Verif Require Import GenModel.
Import ListNotations.
Local Open Scope string_scope.

Definition g_part (a : string) : expr := ELeaf (LAttr a).         (* particle.a *)
Definition g_var (x : string) : expr := ELeaf (LVar x).
Definition g_dt : expr := g_part "dt".
Definition g_half : expr := ENum (NFlt (1#2)).                    (* .5 *)
Definition g_mul := EBin BMul.
Definition g_add := EBin BAdd.

(** particle.a + k*.5*particle.dt and particle.a + k*particle.dt *)
Definition g_halfway (a k : string) : expr := g_add (g_part a) (g_mul (g_mul (g_var k) g_half) g_dt).
Definition g_whole (a k : string) : expr := g_add (g_part a) (g_mul (g_var k) g_dt).
(** time + .5 * particle.dt and time + particle.dt *)
Definition g_thalf : expr := g_add (g_var "time") (g_mul g_half g_dt).
Definition g_tend : expr := g_add (g_var "time") g_dt.
(** (k1 + 2*k2 + 2*k3 + k4) / 6. * particle.dt *)
Definition g_two : expr := ENum (NInt 2).
Definition g_sum (k1 k2 k3 k4 : string) : expr :=
  g_mul (EBin BDiv (g_add (g_add (g_add (g_var k1) (g_mul g_two (g_var k2))) (g_mul g_two (g_var k3))) (g_var k4))
                   (ENum (NFlt 6))) g_dt.

(** AdvectionEE, 50-56. *)
Definition ee_body : list stmt :=
  [SVec [TVar "u1"; TVar "v1"] "UV" (g_var "time") (g_part "depth") (g_part "lat") (g_part "lon");
   SAug (TAttr "lon") BAdd (g_mul (g_var "u1") g_dt);
   SAug (TAttr "lat") BAdd (g_mul (g_var "v1") g_dt)].

(** AdvectionRK4, 11-24. *)
Definition rk4_body : list stmt :=
  [SVec [TVar "u1"; TVar "v1"] "UV" (g_var "time") (g_part "depth") (g_part "lat") (g_part "lon");
   STuple [TVar "lon1"; TVar "lat1"] [g_halfway "lon" "u1"; g_halfway "lat" "v1"];
   SVec [TVar "u2"; TVar "v2"] "UV" g_thalf (g_part "depth") (g_var "lat1") (g_var "lon1");
   STuple [TVar "lon2"; TVar "lat2"] [g_halfway "lon" "u2"; g_halfway "lat" "v2"];
   SVec [TVar "u3"; TVar "v3"] "UV" g_thalf (g_part "depth") (g_var "lat2") (g_var "lon2");
   STuple [TVar "lon3"; TVar "lat3"] [g_whole "lon" "u3"; g_whole "lat" "v3"];
   SVec [TVar "u4"; TVar "v4"] "UV" g_tend (g_part "depth") (g_var "lat3") (g_var "lon3");
   SAug (TAttr "lon") BAdd (g_sum "u1" "u2" "u3" "u4");
   SAug (TAttr "lat") BAdd (g_sum "v1" "v2" "v3" "v4")].

(** AdvectionRK4_3D, 27-47. *)
Definition rk4_3d_body : list stmt :=
  [SVec [TVar "u1"; TVar "v1"; TVar "w1"] "UVW" (g_var "time") (g_part "depth") (g_part "lat") (g_part "lon");
   SAssign (TVar "lon1") (g_halfway "lon" "u1");
   SAssign (TVar "lat1") (g_halfway "lat" "v1");
   SAssign (TVar "dep1") (g_halfway "depth" "w1");
   SVec [TVar "u2"; TVar "v2"; TVar "w2"] "UVW" g_thalf (g_var "dep1") (g_var "lat1") (g_var "lon1");
   SAssign (TVar "lon2") (g_halfway "lon" "u2");
   SAssign (TVar "lat2") (g_halfway "lat" "v2");
   SAssign (TVar "dep2") (g_halfway "depth" "w2");
   SVec [TVar "u3"; TVar "v3"; TVar "w3"] "UVW" g_thalf (g_var "dep2") (g_var "lat2") (g_var "lon2");
   SAssign (TVar "lon3") (g_whole "lon" "u3");
   SAssign (TVar "lat3") (g_whole "lat" "v3");
   SAssign (TVar "dep3") (g_whole "depth" "w3");
   SVec [TVar "u4"; TVar "v4"; TVar "w4"] "UVW" g_tend (g_var "dep3") (g_var "lat3") (g_var "lon3");
   SAug (TAttr "lon") BAdd (g_sum "u1" "u2" "u3" "u4");
   SAug (TAttr "lat") BAdd (g_sum "v1" "v2" "v3" "v4");
   SAug (TAttr "depth") BAdd (g_sum "w1" "w2" "w3" "w4")].
