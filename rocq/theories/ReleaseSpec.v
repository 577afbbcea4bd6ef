(** Specification for C56: where particles are released, and what the density of a set is. *)
From Coq Require Import List ZArith QArith Bool.
From Verif Require Import IdxModel IdxSpec ReleaseModel.
Import ListNotations.
Open Scope Q_scope.

(** The [k]-th of [n] points from [a] to [b] at equal distances, the first [a] and the last [b]. *)
Definition equidistant (a b : Q) (n : nat) (k : nat) (x : Q) : Prop :=
  (n = 1%nat /\ x == a) \/ ((1 < n)%nat /\ inject_Z (Z.of_nat (n - 1)) * (x - a) == inject_Z (Z.of_nat k) * (b - a)).

(** A field of one level with [ny] rows and [nx] columns. *)
Definition layer (ny nx : nat) (d : nat -> nat -> Q) : frame :=
  mkFrame [ny; nx] (fun idx => match idx with [j; i] => d j i | _ => 0 end).
(** The share of a cell: the tracer in it, or the mean of its corners, unless one of them is 0. *)
Definition share (tracer : bool) (d : nat -> nat -> Q) (j i : nat) (w : Q) : Prop :=
  if tracer then w == d (S j) (S i)
  else let cs := [d j i; d j (S i); d (S j) i; d (S j) (S i)] in
    ((exists c, In c cs /\ c == 0) -> w == 0) /\ ((forall c, In c cs -> ~ c == 0) -> 4 * w == d j i + d j (S i) + d (S j) i + d (S j) (S i)).
(** The cells, and the sum of [w] over them. *)
Definition cells (ny nx : nat) : list (nat * nat) := flat_map (fun j => map (fun i => (j, i)) (seq 0 (nx - 1))) (seq 0 (ny - 1)).
Definition total (ny nx : nat) (w : nat -> nat -> Q) : Q := fold_right Qplus 0 (map (fun c => w (fst c) (snd c)) (cells ny nx)).

Definition unit_ (u : Q) : Prop := 0 <= u < 1.
(** A number drawn from [0, 1) gives the event with probability [p]: it does so in an interval of this length. *)
Definition with_probability (p : Q) (event : Q -> Prop) : Prop :=
  exists a, 0 <= a /\ a + p <= 1 /\ forall u, unit_ u -> (event u <-> a <= u /\ u < a + p).

(** Cell [(j, i)] of a rectilinear grid contains the position; an axis of one point has one cell, of any extent. *)
Definition holds (l : list Q) (x : Q) (i : Z) : Prop := (zlen l = 1%Z /\ i = 0%Z) \/ exists r, in_cell l x i r.
Definition cell_holds (g : rgrid) (x y : Q) (c : Z * Z) : Prop := holds (g_lat g) y (fst c) /\ holds (g_lon g) x (snd c).
(** Strictly: not on its edge. *)
Definition strictly (l : list Q) (x : Q) (i : Z) : bool :=
  if (zlen l =? 1)%Z then (i =? 0)%Z
  else ((0 <=? i) && (i + 1 <? zlen l))%Z && negb (Qle_bool x (at_ l i)) && negb (Qle_bool (at_ l (i + 1)) x).
Definition off_edges (l : list Q) (x : Q) : Prop := zlen l = 1%Z \/ forall i, (0 <= i < zlen l)%Z -> ~ x == at_ l i.

(** The weights of the particles of cell [(j, i)], the particles being in the cells [cs]. *)
Fixpoint weight_in (cs : list (Z * Z)) (ws : list Q) (j i : Z) : Q :=
  match cs, ws with
  | (j', i') :: cs, w :: ws => (if (j' =? j)%Z && (i' =? i)%Z then w else 0) + weight_in cs ws j i
  | _, _ => 0
  end.
Fixpoint weight_strictly_in (g : rgrid) (ps : list dpart) (ws : list Q) (j i : Z) : Q :=
  match ps, ws with
  | p :: ps, w :: ws => (if strictly (g_lat g) (d_lat p) j && strictly (g_lon g) (d_lon p) i then w else 0) + weight_strictly_in g ps ws j i
  | _, _ => 0
  end.
(** The sum of an array over [n] rows and [m] columns. *)
Definition sum_over (n m : Z) (d : Z -> Z -> Q) : Q :=
  fold_right Qplus 0 (flat_map (fun j => map (fun i => d (Z.of_nat j) (Z.of_nat i)) (seq 0 (Z.to_nat m))) (seq 0 (Z.to_nat n))).

(** The particles of a set, all within the grid; those of JIT mode have indices of the grid. *)
Definition within_grid (g : rgrid) (p : dpart) : Prop :=
  inside (g_lon g) (d_lon p) /\ inside (g_lat g) (d_lat p) /\ depth_inside (g_depth g) (d_depth p) /\
  match d_jit p with Some (xi, yi, zi) => valid_starts g xi yi zi | None => True end.
(** The weights asked for. *)
Definition weighs (n : nat) (w : weights) (ws : list Q) : Prop :=
  length ws = n /\ match w with WNone => forall x, In x ws -> x = 1 | WName l | WList l => l = ws /\ (0 < n)%nat | WArray l => False end.
(** Equal steps. *)
Definition regular (l : list Q) (h : Q) : Prop := (2 <= zlen l)%Z /\ 0 < h /\ forall i, (0 <= i)%Z -> (i + 1 < zlen l)%Z -> at_ l (i + 1) - at_ l i == h.
