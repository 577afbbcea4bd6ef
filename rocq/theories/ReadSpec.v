(** Specification for C55: which value belongs to which node of a field. *)
From Coq Require Import List Arith Bool QArith.
From Verif Require Import ReadModel.
Import ListNotations.
Open Scope nat_scope.

(** The layouts of an array for a grid: its axes. *)
Inductive layout : Set := TZYX | TYX | ZYX | YX.
(** An axis may be left out if the grid has one time (one level). *)
Definition fits (l : layout) (g : gdims) : Prop :=
  match l with TZYX => True | TYX => g_z g = 1 | ZYX => g_t g = 1 | YX => g_t g = 1 /\ g_z g = 1 end.
Definition shape_of (l : layout) (nt nz ny nx : nat) : list nat :=
  match l with TZYX => [nt; nz; ny; nx] | TYX => [nt; ny; nx] | ZYX => [nz; ny; nx] | YX => [ny; nx] end.
(** The place of time t, level z, row y, column x. *)
Definition place_of (l : layout) (t z y x : nat) : list nat :=
  match l with TZYX => [t; z; y; x] | TYX => [t; y; x] | ZYX => [z; y; x] | YX => [y; x] end.

(** Axes in the opposite order, for transpose=True. *)
Definition turn (tr : bool) (l : list nat) : list nat := if tr then rev l else l.

(** The nodes of a grid, and how the data of a field are read (field.py: data[ti, zi, yi, xi], or data[ti, yi, xi] on
    grids with one level). *)
Definition is_node (g : gdims) (t z y x : nat) : Prop := t < g_t g /\ z < g_z g /\ y < g_y g /\ x < g_x g.
Definition node {A : Type} (g : gdims) (a : arr A) (t z y x : nat) : A :=
  if g_z g =? 1 then get a [t; y; x] else get a [t; z; y; x].
(** The row of the input that became row [y]. *)
Definition row (g : gdims) (y : nat) : nat := if g_flipped g then g_y g - 1 - y else y.

(** [w] is [v], except that what is missing or outside the limits is 0. *)
Definition within (vmin vmax : option Q) (q : Q) : Prop :=
  (forall m, vmin = Some m -> (m <= q)%Q) /\ (forall m, vmax = Some m -> (q <= m)%Q).
Definition kept (vmin vmax : option Q) (v w : value) : Prop :=
  (forall q, v = Some q -> within vmin vmax q -> w = Some q) /\
  ((forall q, v = Some q -> ~ within vmin vmax q) -> w = Some 0%Q).

(** ** Files *)

(** A variable with axes [l] in a file of [n] times, on which the subset can be taken. A file without a time axis has one time; one
    without an axis of levels gives the one level of the field. *)
Definition file_ok (s : subset) (l : layout) (n : nat) (a : arr value) : Prop :=
  exists nz ny nx, dims a = shape_of l n nz ny nx /\
    Forall (fun k => k < ny) (i_lat s) /\ Forall (fun k => k < nx) (i_lon s) /\
    match l with
    | TZYX => Forall (fun k => k < nz) (i_depth s)
    | ZYX => n = 1 /\ 1 < length (i_depth s) /\ Forall (fun k => k < nz) (i_depth s)
    | TYX => length (i_depth s) = 1
    | YX => n = 1 /\ length (i_depth s) = 1
    end.
(** The value in the file of its time [i], at level z, row y, column x of the subset. *)
Definition in_file (s : subset) (l : layout) (a : arr value) (i z y x : nat) : value :=
  get a (place_of l i (nth z (i_depth s) 0) (nth y (i_lat s) 0) (nth x (i_lon s) 0)).

(** The frames of all files in order: layout, contents, time in the file. *)
Definition series : Type := list (layout * nat * arr value).
Definition frames (fs : series) : list (layout * arr value * nat) :=
  flat_map (fun '(l, n, a) => map (fun i => (l, a, i)) (seq 0 n)) fs.

Definition series_ok (s : subset) (fs : series) : Prop := fs <> [] /\ Forall (fun '(l, n, a) => file_ok s l n a) fs.
Definition files_of (fs : series) : list (nat * arr value) := map (fun '(l, n, a) => (n, a)) fs.

(** The grid has the sizes of the subset. *)
Definition grid_for (g : gdims) (s : subset) : Prop :=
  g_z g = length (i_depth s) /\ g_y g = length (i_lat s) /\ g_x g = length (i_lon s) /\ 0 < g_z g /\ 0 < g_y g /\ 0 < g_x g.

(** With a scaling factor: the product of what is kept. *)
Definition kept_scaled (factor vmin vmax : option Q) (v w : value) : Prop :=
  exists u, kept vmin vmax v u /\ w = match factor with None => u | Some f => match u with Some q => Some (q * f)%Q | None => None end end.

(** The index [k] given to xarray means frame [i] of [n]. *)
Definition means (k : Z) (i n : nat) : Prop := i < n /\ (k = Z.of_nat i \/ (k = -1)%Z /\ i = n - 1).

(** [src] reads the frames of the files. *)
Definition reads (s : subset) (fs : series) (src : nat -> Z * arr value) : Prop :=
  forall j l a i, nth_error (frames fs) j = Some (l, a, i) ->
    snd (src j) = a /\ exists n, file_ok s l n a /\ means (fst (src j)) i n.

(** Where the moves lead from [j], as long as both frames are among the [n] there are. *)
Fixpoint reaches (n j : nat) (l : list bool) (k : nat) : Prop :=
  match l with
  | [] => k = j
  | true :: l' => j + 2 < n /\ reaches n (j + 1) l' k
  | false :: l' => 0 < j /\ reaches n (j - 1) l' k
  end.

(** The coordinate of a row or column of the files; [is_lat] if it is a latitude. *)
Definition file_coord (is_lat : bool) (a : arr Q) (r c : nat) : Q :=
  match ndim a with
  | 1 => get a [if is_lat then r else c]
  | 2 => get a [r; c]
  | 3 => get a [0; r; c]
  | _ => get a [0; 0; r; c]
  end.
Definition file_depth (a : arr Q) (t k r c : nat) : Q :=
  match ndim a with 1 => get a [k] | 3 => get a [k; r; c] | _ => get a [t; k; r; c] end.
(** The file's row of row [y] of a grid, its column and level. *)
Definition file_row (g : gdims) (s : subset) (y : nat) : nat := nth (row g y) (i_lat s) 0.
Definition file_col (s : subset) (x : nat) : nat := nth x (i_lon s) 0.
Definition file_level (s : subset) (z : nat) : nat := nth z (i_depth s) 0.

(** The same grid with one more time. *)
Definition one_more (g : gdims) : gdims := Gdims (S (g_t g)) (g_z g) (g_y g) (g_x g) (g_flipped g).
(** The shape of the data of a field. *)
Definition data_shape (g : gdims) : list nat := if g_z g =? 1 then [g_t g; g_y g; g_x g] else [g_t g; g_z g; g_y g; g_x g].
