(** What the advection kernels are meant to do: trajectories of a velocity field, and Runge-Kutta methods as they
    are defined in textbooks. *)
From Coq Require Import Reals List.
From Verif Require Import AdvModel.
Import ListNotations.
Open Scope R_scope.

(** The times of the step, for dt of either sign. *)
Definition during (p : apart) (s : R) : Prop :=
  Rmin (a_time p) (a_time p + a_dt p) <= s <= Rmax (a_time p) (a_time p + a_dt p).

(** Only the position has changed. *)
Definition moved_to (p p' : apart) (x y z : R) : Prop :=
  a_lon p' = x /\ a_lat p' = y /\ a_depth p' = z /\
  a_time p' = a_time p /\ a_dt p' = a_dt p /\ a_next p' = a_next p.

(** [x], [y] is the path of a water parcel in the velocity field [vel] (of time, lat, lon) that starts where the
    particle is. *)
Definition path (vel : R -> R -> R -> R * R) (p : apart) (x y : R -> R) : Prop :=
  x (a_time p) = a_lon p /\ y (a_time p) = a_lat p /\
  forall s, during p s ->
    derivable_pt_lim x s (fst (vel s (y s) (x s))) /\ derivable_pt_lim y s (snd (vel s (y s) (x s))).

(** The samples are [vel], and no larger than [M], for the times of the step and everywhere a particle of speed
    [M] can get to. *)
Definition field_is (UV : R -> R -> R -> R -> option (R * R)) (vel : R -> R -> R -> R * R) (p : apart) (M : R) : Prop :=
  0 <= M /\ forall t y x, during p t ->
    Rabs (x - a_lon p) <= M * Rabs (a_dt p) -> Rabs (y - a_lat p) <= M * Rabs (a_dt p) ->
    UV t (a_depth p) y x = Some (vel t y x) /\ Rabs (fst (vel t y x)) <= M /\ Rabs (snd (vel t y x)) <= M.

(** The same with a vertical velocity: [vel] is a function of time, depth, lat, lon. *)
Definition path3 (vel : R -> R -> R -> R -> R * R * R) (p : apart) (x y z : R -> R) : Prop :=
  x (a_time p) = a_lon p /\ y (a_time p) = a_lat p /\ z (a_time p) = a_depth p /\
  forall s, during p s ->
    derivable_pt_lim x s (fst (fst (vel s (z s) (y s) (x s)))) /\
    derivable_pt_lim y s (snd (fst (vel s (z s) (y s) (x s)))) /\
    derivable_pt_lim z s (snd (vel s (z s) (y s) (x s))).

Definition field3_is (UVW : R -> R -> R -> R -> option (R * R * R)) (vel : R -> R -> R -> R -> R * R * R)
    (p : apart) (M : R) : Prop :=
  0 <= M /\ forall t z y x, during p t ->
    Rabs (x - a_lon p) <= M * Rabs (a_dt p) -> Rabs (y - a_lat p) <= M * Rabs (a_dt p) ->
    Rabs (z - a_depth p) <= M * Rabs (a_dt p) ->
    UVW t z y x = Some (vel t z y x) /\
    Rabs (fst (fst (vel t z y x))) <= M /\ Rabs (snd (fst (vel t z y x))) <= M /\ Rabs (snd (vel t z y x)) <= M.

(** Polynomials, by their coefficients (constant term first). *)
Fixpoint poly (cs : list R) (t : R) : R :=
  match cs with [] => 0 | c :: r => c + t * poly r t end.

(** Linear velocity fields in the plane: x' = a x + b y + e, y' = c x + d y + f. *)
Record lin2 : Type := mkLin { l_a : R; l_b : R; l_c : R; l_d : R; l_e : R; l_f : R }.
Definition lin_vel (L : lin2) (_ : R) (y x : R) : R * R :=
  (l_a L * x + l_b L * y + l_e L, l_c L * x + l_d L * y + l_f L).
(** The k-th time derivative of a path through (x, y). *)
Fixpoint lin_deriv (L : lin2) (k : nat) (x y : R) : R * R :=
  match k with
  | O => (x, y)
  | 1%nat => (l_a L * x + l_b L * y + l_e L, l_c L * x + l_d L * y + l_f L)
  | S j => let '(u, v) := lin_deriv L j x y in (l_a L * u + l_b L * v, l_c L * u + l_d L * v)
  end.

(** Linear velocity fields in space: the matrix and a constant. *)
Record lin3 : Type := mkLin3 { m_x : R * R * R * R; m_y : R * R * R * R; m_z : R * R * R * R }.
Definition row3 (r : R * R * R * R) (x y z : R) : R := let '(a, b, c, _) := r in a * x + b * y + c * z.
Definition cst3 (r : R * R * R * R) : R := let '(_, _, _, g) := r in g.
Definition lin3_vel (L : lin3) (_ : R) (z y x : R) : R * R * R :=
  (row3 (m_x L) x y z + cst3 (m_x L), row3 (m_y L) x y z + cst3 (m_y L), row3 (m_z L) x y z + cst3 (m_z L)).
Fixpoint lin3_deriv (L : lin3) (k : nat) (x y z : R) : R * R * R :=
  match k with
  | O => (x, y, z)
  | 1%nat => lin3_vel L 0 z y x
  | S j => let '(u, v, w) := lin3_deriv L j x y z in
           (row3 (m_x L) u v w, row3 (m_y L) u v w, row3 (m_z L) u v w)
  end.

(** Taylor polynomial: the sum of h^k/k! d_k for k = 0..n. *)
Definition taylor (n : nat) (h : R) (d : nat -> R) : R :=
  sum_f_R0 (fun k => h ^ k / INR (fact k) * d k) n.

(** * Explicit Runge-Kutta methods *)

Definition dot (a b : list R) : R := fold_right Rplus 0 (map (fun q => fst q * snd q) (combine a b)).

(** One stage per row (node, coefficients): the velocity at the time of the node, at the place reached with the
    combination of the velocities so far.  None if a sample fails. *)
Fixpoint stages (UV : R -> R -> R -> R -> option (R * R)) (p : apart) (rows : list (R * list R)) (ks : list (R * R))
  : option (list (R * R)) :=
  match rows with
  | [] => Some ks
  | (c, a) :: r =>
      match UV (a_time p + c * a_dt p) (a_depth p)
               (a_lat p + a_dt p * dot a (map snd ks)) (a_lon p + a_dt p * dot a (map fst ks)) with
      | Some k => stages UV p r (ks ++ [k])
      | None => None
      end
  end.

(** The new position with the weights [b]. *)
Definition solution (p : apart) (b : list R) (ks : list (R * R)) : R * R :=
  (a_lon p + a_dt p * dot b (map fst ks), a_lat p + a_dt p * dot b (map snd ks)).

(** The classical fourth order method. *)
Definition classical : list (R * list R) := [(0, []); (1/2, [1/2]); (1/2, [0; 1/2]); (1, [0; 0; 1])].
Definition classical_b : list R := [1/6; 1/3; 1/3; 1/6].

(** Fehlberg's method: Hairer, Norsett and Wanner, Solving Ordinary Differential Equations I, table II.4.5.1. *)
Definition fehlberg : list (R * list R) :=
  [(0, []);
   (1/4, [1/4]);
   (3/8, [3/32; 9/32]);
   (12/13, [1932/2197; -7200/2197; 7296/2197]);
   (1, [439/216; -8; 3680/513; -845/4104]);
   (1/2, [-8/27; 2; -3544/2565; 1859/4104; -11/40])].
Definition fehlberg4 : list R := [25/216; 0; 1408/2565; 2197/4104; -1/5; 0].
Definition fehlberg5 : list R := [16/135; 0; 6656/12825; 28561/56430; -9/50; 2/55].

Definition distance (a b : R * R) : R := sqrt ((fst a - fst b) ^ 2 + (snd a - snd b) ^ 2).

(** What RK45 does, by Fehlberg's method. *)
Definition rk45_spec (UV : R -> R -> R -> R -> option (R * R)) (p : apart) (tol : R) (o : aout) : Prop :=
  match stages UV p fehlberg [] with
  | None => o = AFail p
  | Some ks =>
      let s4 := solution p fehlberg4 ks in
      let s5 := solution p fehlberg5 ks in
      let err := distance s4 s5 in
      if Rle_dec err (Rabs (a_dt p) * tol)
      then exists p', o = ADone p' /\
             a_lon p' = fst s4 /\ a_lat p' = snd s4 /\ a_depth p' = a_depth p /\
             a_time p' = a_time p /\ a_dt p' = a_dt p /\
             a_next p' = if Rle_dec err (Rabs (a_dt p) * tol / 10) then Some (2 * a_dt p) else a_next p
      else exists p', o = ARepeat p' /\
             a_lon p' = a_lon p /\ a_lat p' = a_lat p /\ a_depth p' = a_depth p /\
             a_time p' = a_time p /\ a_dt p' = a_dt p / 2 /\ a_next p' = a_next p
  end.

(** Every sample that succeeds is [vel]. *)
Definition samples_are (UV : R -> R -> R -> R -> option (R * R)) (vel : R -> R -> R -> R * R) (p : apart) : Prop :=
  forall t y x w, UV t (a_depth p) y x = Some w -> w = vel t y x.

