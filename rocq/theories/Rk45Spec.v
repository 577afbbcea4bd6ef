(** Vocabulary for C57: chains of accepted steps of Fehlberg's method, and arriving. *)
From Coq Require Import Reals List ZArith Bool.
From Verif Require Import AdvModel AdvSpec RunSpec Rk45Model.
Import ListNotations.
Open Scope R_scope.

(** The step of Fehlberg's method from the time [t] and the place [x] over the time [h]: the place of the fourth order formula, and the
    distance to the place of the fifth order formula. *)
Definition fehlberg_step (UV : R -> R -> R -> R -> option (R * R)) (t : R) (x : R * R * R) (h : R) (x' : R * R * R) (err : R) : Prop :=
  let '(lon, lat, depth) := x in
  let p := mkA lon lat depth t h None in
  exists ks, stages UV p fehlberg [] = Some ks /\
    x' = (fst (solution p fehlberg4 ks), snd (solution p fehlberg4 ks), depth) /\
    err = distance (solution p fehlberg4 ks) (solution p fehlberg5 ks).

(** A chain of steps in the direction of [dt], each with an error estimate of at most [tol] per unit of time; [total] is the sum of the
    estimates. *)
Inductive chain (UV : R -> R -> R -> R -> option (R * R)) (tol dt : R) : R -> R * R * R -> R -> R * R * R -> R -> Prop :=
| chain_none t x : chain UV tol dt t x t x 0
| chain_step t x h x1 err t' x' total :
    0 < dt * h -> fehlberg_step UV t x h x1 err -> err <= tol * Rabs h ->
    chain UV tol dt (t + h) x1 t' x' total -> chain UV tol dt t x t' x' (err + total).

(** How far the time [t] still is from [endt], in the direction of [dt]. *)
Definition left_to (dt endt t : R) : R := if Rlt_dec 0 dt then endt - t else t - endt.

(** The particle has reached the end up to the tolerance of the loop, or was beyond it. *)
Definition reached (atol dt endt : R) (p : rp) : Prop := left_to dt endt (p_time p) <= atol.

(** The number of steps and repetitions is not limited by the model: with enough fuel the run ends with [ps']. *)
Definition ends_with (UV : R -> R -> R -> R -> option (R * R)) (jit : bool) (atol dt : R) (ends : list R) (ps ps' : list rp) : Prop :=
  exists n, forall lf rf, (n <= lf)%nat -> (n <= rf)%nat -> windows UV jit lf rf atol dt ends ps = Done ps'.
