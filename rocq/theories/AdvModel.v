(** Model of the advection kernels, over the real numbers.

    Source: parcels/kernels/advection.py AdvectionRK4 11-24, AdvectionRK4_3D 27-47, AdvectionEE 50-56,
    AdvectionRK45 59-104.

    Numbers are real: rounding is not modelled.  A velocity sample is a function of time, depth, latitude and
    longitude that may fail (None stands for the exception or error code); fieldset.UV[particle] samples at the
    particle's own time, depth, lat and lon (field.py 1673-1677), and the argument [time] of a kernel is the
    particle's time (kernel.py 320, codegenerator.py 1038). *)
From Coq Require Import Reals List.
Import ListNotations.
Open Scope R_scope.

(** The particle variables the kernels use; [a_next] is what update_next_dt has noted (collectionsoa.py 945-951). *)
Record apart : Type := mkA { a_lon : R; a_lat : R; a_depth : R; a_time : R; a_dt : R; a_next : option R }.

(** How a kernel ends: normally, with Repeat, or with the error of a sample (the particle as it is then). *)
Inductive aout : Type := ADone (p : apart) | ARepeat (p : apart) | AFail (p : apart).

Definition move (p : apart) (x y z : R) : apart := mkA x y z (a_time p) (a_dt p) (a_next p).
Definition set_dt (p : apart) (h : R) : apart := mkA (a_lon p) (a_lat p) (a_depth p) (a_time p) h (a_next p).
Definition note_dt (p : apart) (h : R) : apart :=
  mkA (a_lon p) (a_lat p) (a_depth p) (a_time p) (a_dt p) (Some h).

Section Kernels.
(** fieldset.UV and fieldset.UVW: time, depth, lat, lon. *)
Variable UV : R -> R -> R -> R -> option (R * R).
Variable UVW : R -> R -> R -> R -> option (R * R * R).

(** A sample that fails ends the kernel; nothing has been written to the particle by then. *)
Definition sampled {A} (p : apart) (s : option A) (k : A -> aout) : aout :=
  match s with Some v => k v | None => AFail p end.

(** AdvectionEE, 50-56. *)
Definition ee (p : apart) : aout :=
  sampled p (UV (a_time p) (a_depth p) (a_lat p) (a_lon p)) (fun w1 => let '(u1, v1) := w1 in
  ADone (move p (a_lon p + u1 * a_dt p) (a_lat p + v1 * a_dt p) (a_depth p))).

(** AdvectionRK4, 11-24. *)
Definition rk4 (p : apart) : aout :=
  let time := a_time p in
  let dt := a_dt p in
  sampled p (UV (a_time p) (a_depth p) (a_lat p) (a_lon p)) (fun w1 => let '(u1, v1) := w1 in
  let lon1 := a_lon p + u1 * (1/2) * dt in
  let lat1 := a_lat p + v1 * (1/2) * dt in
  sampled p (UV (time + 1/2 * dt) (a_depth p) lat1 lon1) (fun w2 => let '(u2, v2) := w2 in
  let lon2 := a_lon p + u2 * (1/2) * dt in
  let lat2 := a_lat p + v2 * (1/2) * dt in
  sampled p (UV (time + 1/2 * dt) (a_depth p) lat2 lon2) (fun w3 => let '(u3, v3) := w3 in
  let lon3 := a_lon p + u3 * dt in
  let lat3 := a_lat p + v3 * dt in
  sampled p (UV (time + dt) (a_depth p) lat3 lon3) (fun w4 => let '(u4, v4) := w4 in
  ADone (move p (a_lon p + (u1 + 2 * u2 + 2 * u3 + u4) / 6 * dt)
                (a_lat p + (v1 + 2 * v2 + 2 * v3 + v4) / 6 * dt) (a_depth p)))))).

(** AdvectionRK4_3D, 27-47. *)
Definition rk4_3d (p : apart) : aout :=
  let time := a_time p in
  let dt := a_dt p in
  sampled p (UVW (a_time p) (a_depth p) (a_lat p) (a_lon p)) (fun s1 => let '(u1, v1, w1) := s1 in
  let lon1 := a_lon p + u1 * (1/2) * dt in
  let lat1 := a_lat p + v1 * (1/2) * dt in
  let dep1 := a_depth p + w1 * (1/2) * dt in
  sampled p (UVW (time + 1/2 * dt) dep1 lat1 lon1) (fun s2 => let '(u2, v2, w2) := s2 in
  let lon2 := a_lon p + u2 * (1/2) * dt in
  let lat2 := a_lat p + v2 * (1/2) * dt in
  let dep2 := a_depth p + w2 * (1/2) * dt in
  sampled p (UVW (time + 1/2 * dt) dep2 lat2 lon2) (fun s3 => let '(u3, v3, w3) := s3 in
  let lon3 := a_lon p + u3 * dt in
  let lat3 := a_lat p + v3 * dt in
  let dep3 := a_depth p + w3 * dt in
  sampled p (UVW (time + dt) dep3 lat3 lon3) (fun s4 => let '(u4, v4, w4) := s4 in
  ADone (move p (a_lon p + (u1 + 2 * u2 + 2 * u3 + u4) / 6 * dt)
                (a_lat p + (v1 + 2 * v2 + 2 * v3 + v4) / 6 * dt)
                (a_depth p + (w1 + 2 * w2 + 2 * w3 + w4) / 6 * dt)))))).

(** The tables of AdvectionRK45, 66-73 ([a i j] is A[i][j]); rk45tol is 1e-5. *)
Definition rk45tol : R := 1 / 100000.
Definition rk_c : list R := [1/4; 3/8; 12/13; 1; 1/2].
Definition rk_A : list (list R) :=
  [[1/4; 0; 0; 0; 0];
   [3/32; 9/32; 0; 0; 0];
   [1932/2197; -7200/2197; 7296/2197; 0; 0];
   [439/216; -8; 3680/513; -845/4104; 0];
   [-8/27; 2; -3544/2565; 1859/4104; -11/40]].
Definition rk_b4 : list R := [25/216; 0; 1408/2565; 2197/4104; -1/5].
Definition rk_b5 : list R := [16/135; 0; 6656/12825; 28561/56430; -9/50; 2/55].

(** AdvectionRK45, 75-104. *)
Definition rk45 (p : apart) : aout :=
  let time := a_time p in
  let dt := a_dt p in
  let c i := nth i rk_c 0 in
  let A i j := nth j (nth i rk_A []) 0 in
  let b4 i := nth i rk_b4 0 in
  let b5 i := nth i rk_b5 0 in
  let lon := a_lon p in
  let lat := a_lat p in
  sampled p (UV time (a_depth p) lat lon) (fun w1 => let '(u1, v1) := w1 in
  let lon1 := lon + u1 * A 0%nat 0%nat * dt in
  let lat1 := lat + v1 * A 0%nat 0%nat * dt in
  sampled p (UV (time + c 0%nat * dt) (a_depth p) lat1 lon1) (fun w2 => let '(u2, v2) := w2 in
  let lon2 := lon + (u1 * A 1%nat 0%nat + u2 * A 1%nat 1%nat) * dt in
  let lat2 := lat + (v1 * A 1%nat 0%nat + v2 * A 1%nat 1%nat) * dt in
  sampled p (UV (time + c 1%nat * dt) (a_depth p) lat2 lon2) (fun w3 => let '(u3, v3) := w3 in
  let lon3 := lon + (u1 * A 2%nat 0%nat + u2 * A 2%nat 1%nat + u3 * A 2%nat 2%nat) * dt in
  let lat3 := lat + (v1 * A 2%nat 0%nat + v2 * A 2%nat 1%nat + v3 * A 2%nat 2%nat) * dt in
  sampled p (UV (time + c 2%nat * dt) (a_depth p) lat3 lon3) (fun w4 => let '(u4, v4) := w4 in
  let lon4 := lon + (u1 * A 3%nat 0%nat + u2 * A 3%nat 1%nat + u3 * A 3%nat 2%nat + u4 * A 3%nat 3%nat) * dt in
  let lat4 := lat + (v1 * A 3%nat 0%nat + v2 * A 3%nat 1%nat + v3 * A 3%nat 2%nat + v4 * A 3%nat 3%nat) * dt in
  sampled p (UV (time + c 3%nat * dt) (a_depth p) lat4 lon4) (fun w5 => let '(u5, v5) := w5 in
  let lon5 := lon + (u1 * A 4%nat 0%nat + u2 * A 4%nat 1%nat + u3 * A 4%nat 2%nat + u4 * A 4%nat 3%nat
                     + u5 * A 4%nat 4%nat) * dt in
  let lat5 := lat + (v1 * A 4%nat 0%nat + v2 * A 4%nat 1%nat + v3 * A 4%nat 2%nat + v4 * A 4%nat 3%nat
                     + v5 * A 4%nat 4%nat) * dt in
  sampled p (UV (time + c 4%nat * dt) (a_depth p) lat5 lon5) (fun w6 => let '(u6, v6) := w6 in
  let lon_4th := lon + (u1 * b4 0%nat + u2 * b4 1%nat + u3 * b4 2%nat + u4 * b4 3%nat + u5 * b4 4%nat) * dt in
  let lat_4th := lat + (v1 * b4 0%nat + v2 * b4 1%nat + v3 * b4 2%nat + v4 * b4 3%nat + v5 * b4 4%nat) * dt in
  let lon_5th := lon + (u1 * b5 0%nat + u2 * b5 1%nat + u3 * b5 2%nat + u4 * b5 3%nat + u5 * b5 4%nat
                        + u6 * b5 5%nat) * dt in
  let lat_5th := lat + (v1 * b5 0%nat + v2 * b5 1%nat + v3 * b5 2%nat + v4 * b5 3%nat + v5 * b5 4%nat
                        + v6 * b5 5%nat) * dt in
  let kappa2 := (lon_5th - lon_4th) ^ 2 + (lat_5th - lat_4th) ^ 2 in
  if Rle_dec kappa2 (Rabs (dt * rk45tol) ^ 2)
  then let p' := move p lon_4th lat_4th (a_depth p) in
       if Rle_dec kappa2 (Rabs (dt * rk45tol / 10) ^ 2) then ADone (note_dt p' (dt * 2)) else ADone p'
  else ARepeat (set_dt p (dt / 2)))))))).
End Kernels.
