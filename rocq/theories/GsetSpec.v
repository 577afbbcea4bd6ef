(** Specification for C38: what it means for a field to be on a grid of the set. *)
From Coq Require Import String List ZArith QArith Qabs Bool.
From Verif Require Import GsetModel.
Import ListNotations.
Open Scope Z_scope.

(** Arrays hold as many elements as their shape says. *)
Definition wf_arr (a : narr) : Prop := length (n_data a) = fold_right Nat.mul 1%nat (n_shape a).
Definition wf_grid (g : grid) : Prop := wf_arr (g_lon g) /\ wf_arr (g_lat g) /\ wf_arr (g_depth g) /\ wf_arr (g_time g).

(** One object has one identity. *)
Definition objects (gs : list grid) : Prop := forall g g', In g gs -> In g' gs -> g_id g = g_id g' -> g = g'.

(** Equal up to the tolerance of numpy: 1e-8 + 1e-5 times the coordinate. *)
Definition close (a b : Q) : Prop := (Qabs (a - b) <= (1 # 100000000) + (1 # 100000) * Qabs b)%Q.
Definition axis_close (a b : narr) : Prop := n_shape a = n_shape b /\ Forall2 close (n_data a) (n_data b).
Definition grid_close (g g' : grid) : Prop :=
  g_origin g = g_origin g' /\
  axis_close (g_lon g) (g_lon g') /\ axis_close (g_lat g) (g_lat g') /\
  axis_close (g_depth g) (g_depth g') /\ axis_close (g_time g) (g_time g').

(** The keys of a dict are distinct. *)
Definition dict_ok (c : chunking) : Prop := match c with ChunkDict l => NoDup (map fst l) | _ => True end.

Definition axis_equal (a b : narr) : Prop := n_shape a = n_shape b /\ Forall2 Qeq (n_data a) (n_data b).
Definition grid_equal (g g' : grid) : Prop :=
  g_origin g = g_origin g' /\ g_chunk g = g_chunk g' /\
  axis_equal (g_lon g) (g_lon g') /\ axis_equal (g_lat g) (g_lat g') /\
  axis_equal (g_depth g) (g_depth g') /\ axis_equal (g_time g) (g_time g').

(** The coordinates of a grid in a dimension (time: of the data in memory; full time: of all the files). *)
Definition coordinates (d : dim) (g : grid) : narr :=
  match d with
  | DLon => g_lon g
  | DLat => g_lat g
  | DDepth => g_depth g
  | DTime => g_time g
  | DTimeFull => g_time_full g
  end.

(** A value in the range of a grid: between its first and last coordinate, or, for depths, between two of them. *)
Definition covers (d : dim) (g : grid) (x : Q) : Prop :=
  match d with
  | DDepth => exists a b, In a (n_data (g_depth g)) /\ In b (n_data (g_depth g)) /\ (a <= x <= b)%Q
  | _ => exists a l, n_data (coordinates d g) = a :: l /\ (a <= x <= last (a :: l) a)%Q
  end.

(** Grids with a single coordinate in a dimension do not limit it. *)
Definition limits (d : dim) (g : grid) : Prop := length (n_data (coordinates d g)) <> 1%nat.

(** Coordinates along one axis (depths may be arrays of any shape). *)
Definition ranged (d : dim) (g : grid) : Prop :=
  n_data (coordinates d g) <> [] /\ (d = DDepth \/ exists n, n_shape (coordinates d g) = [n]).
