(** Vocabulary for C58: what it means that a field was restored. *)
From Coq Require Import List Arith Bool QArith Qabs String.
From Verif Require Import DateModel ReadModel SaveModel.
Import ListNotations.
Open Scope nat_scope.

(** The coordinates of a node, its value, and which nodes there are. *)
Definition lon_at (f : field) (y x : nat) : Q := match fg_c (f_grid f) with CLines lon _ => nth x lon 0%Q | CSheets _ _ X _ => X y x end.
Definition lat_at (f : field) (y x : nat) : Q := match fg_c (f_grid f) with CLines _ lat => nth y lat 0%Q | CSheets _ _ _ Y => Y y x end.
Definition rows (f : field) : nat := match fg_c (f_grid f) with CLines _ lat => List.length lat | CSheets ny _ _ _ => ny end.
Definition columns (f : field) : nat := match fg_c (f_grid f) with CLines lon _ => List.length lon | CSheets _ nx _ _ => nx end.
Definition levels (f : field) : nat := match fg_z (f_grid f) with Some z => List.length z | None => 0 end.
Definition frames_of (f : field) : nat := List.length (fg_time (f_grid f)).
Definition value_at (f : field) (t z y x : nat) : value :=
  match f_data f with
  | Some a => if levels f =? 1 then get a [t; y; x] else get a [t; z; y; x]
  | None => None
  end.
Definition is_node_of (f : field) (t z y x : nat) : Prop := t < frames_of f /\ z < levels f /\ y < rows f /\ x < columns f.

Definition increasing (l : list Q) : Prop := forall i, S i < List.length l -> (nth i l 0 < nth (S i) l 0)%Q.

(** A field as it is after its data were loaded: every node has a value, latitudes do not run southwards. *)
Definition loaded (f : field) : Prop :=
  fg_tdim (f_grid f) = frames_of f /\ 0 < frames_of f /\ increasing (fg_time (f_grid f)) /\ 0 < levels f /\ 0 < rows f /\ 0 < columns f /\
  (exists a, f_data f = Some a /\ dims a = if levels f =? 1 then [frames_of f; rows f; columns f] else [frames_of f; levels f; rows f; columns f]) /\
  (forall t z y x, is_node_of f t z y x -> value_at f t z y x <> None) /\
  match fg_c (f_grid f) with CLines _ lat => (nth 0 lat 0 <= nth (List.length lat - 1) lat 0)%Q | CSheets _ _ _ _ => True end.

(** Times that a file can hold: numbers, or dates that are whole nanoseconds after an origin of numpy. *)
Definition whole (t : Q) : Prop := exists k, (t * 1000000000 == inject_Z k)%Q.
Definition times_ok (f : field) : Prop :=
  match fg_origin (f_grid f) with PNum _ => True | PDate _ => Forall whole (fg_time (f_grid f)) | _ => False end.

(** The same name, mesh, levels and numbers of nodes. *)
Definition same_form (f f' : field) : Prop :=
  f_name f' = f_name f /\ fg_mesh (f_grid f') = fg_mesh (f_grid f) /\ fg_z (f_grid f') = fg_z (f_grid f) /\
  frames_of f' = frames_of f /\ rows f' = rows f /\ columns f' = columns f.
(** Every node has the value and the coordinates it had. *)
Definition same_nodes (f f' : field) : Prop :=
  forall t z y x, is_node_of f t z y x ->
    value_at f' t z y x = value_at f t z y x /\ lon_at f' y x = lon_at f y x /\ lat_at f' y x = lat_at f y x.

(** np.isclose. *)
Definition near (q q' : Q) : Prop := (Qabs (q - q') <= (1 # 100000000) + (1 # 100000) * Qabs q')%Q.
(** Every node is there, perhaps in another row, with its value and with coordinates near those it had. *)
Definition near_nodes (f f' : field) : Prop :=
  exists row, (forall y, y < rows f -> row y < rows f /\ row (row y) = y) /\
    forall t z y x, is_node_of f t z y x ->
      value_at f' t z (row y) x = value_at f t z y x /\ near (lon_at f' (row y) x) (lon_at f y x) /\ near (lat_at f' (row y) x) (lat_at f y x).
(** A row of longitudes or a column of latitudes differs from the first. *)
Definition bent (f : field) : Prop :=
  exists y x, y < rows f /\ x < columns f /\ (~ near (lon_at f 0 x) (lon_at f y x) \/ ~ near (lat_at f y 0) (lat_at f y x)).

(** The instant of frame [k], in nanoseconds of the calendar of numpy. *)
Definition instant (f : field) (k : nat) (i : Q) : Prop :=
  exists o, fg_origin (f_grid f) = PDate o /\ (i == inject_Z o + nth k (fg_time (f_grid f)) 0 * 1000000000)%Q.

(** What is restored of any field: also the dates, and the times that count from 0. *)
Definition restored (f f' : field) : Prop :=
  same_form f f' /\ near_nodes f f' /\
  (forall k i, k < frames_of f -> instant f k i -> instant f' k i) /\
  (forall q, fg_origin (f_grid f) = PNum q -> (nth 0 (fg_time (f_grid f)) 0 == 0)%Q ->
     forall k, k < frames_of f -> (nth k (fg_time (f_grid f')) 0 == nth k (fg_time (f_grid f)) 0)%Q).
