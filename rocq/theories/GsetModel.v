(** Model of the set of grids of a FieldSet.

    Source: parcels/gridset.py (all of it), parcels/fieldset.py 128-164 (add_field).  Numbers are rationals. *)
From Coq Require Import String List ZArith QArith Qabs Qminmax Bool.
Import ListNotations.
Open Scope Z_scope.

(** numpy arrays: shape and elements in C order. *)
Record narr := mkNarr { n_shape : list nat; n_data : list Q }.

(** chunksize of a grid or a field: None or False, 'auto', or a dict from dimension to (name, size). *)
Inductive chunking : Set :=
| ChunkNone | ChunkAuto | ChunkDict (l : list (string * Z)).

(** Grid objects (grid.py 37-67): [g_id] is the identity of the object; [g_origin] its time origin (TimeConverter compares
    by value, converters.py 97-103).  Other attributes are not looked at by GridSet: mesh, defer_load. *)
Record grid := mkGrid {
  g_id : nat; g_origin : Z; g_lon : narr; g_lat : narr; g_depth : narr; g_time : narr; g_time_full : narr;
  g_chunk : chunking; g_spherical : bool; g_defer : bool }.

(** numpy.allclose(a, b): |a - b| <= 1e-8 + 1e-5 |b| for all elements (arrays of the same shape). *)
Definition isclose (a b : Q) : bool := Qle_bool (Qabs (a - b)) ((1 # 100000000) + (1 # 100000) * Qabs b).
Fixpoint allclose (l l' : list Q) : bool :=
  match l, l' with
  | a :: l, b :: l' => isclose a b && allclose l l'
  | _, _ => true
  end.

Fixpoint shape_eq (a b : list nat) : bool :=
  match a, b with
  | [], [] => true
  | x :: a, y :: b => Nat.eqb x y && shape_eq a b
  | _, _ => false
  end.

(** 25-30, for one attribute: [not (gattr.shape != gridattr.shape or not np.allclose(gattr, gridattr))]. *)
Definition same_attr (gattr gridattr : narr) : bool :=
  if negb (shape_eq (n_shape gattr) (n_shape gridattr)) then false
  else allclose (n_data gattr) (n_data gridattr).

Definition same_attrs (g new : grid) : bool :=
  same_attr (g_lon g) (g_lon new) && same_attr (g_lat g) (g_lat new)
  && same_attr (g_depth g) (g_depth new) && same_attr (g_time g) (g_time new).

Fixpoint lookup (d : string) (l : list (string * Z)) : option Z :=
  match l with
  | [] => None
  | (k, v) :: l => if String.eqb d k then Some v else lookup d l
  end.

Definition dict_eq (a b : list (string * Z)) : bool :=
  forallb (fun kv => match lookup (fst kv) b with Some v => Z.eqb v (snd kv) | None => false end) a
  && forallb (fun kv => match lookup (fst kv) a with Some v => Z.eqb v (snd kv) | None => false end) b.

Definition chunk_eq (a b : chunking) : bool :=
  match a, b with
  | ChunkNone, ChunkNone | ChunkAuto, ChunkAuto => true
  | ChunkDict l, ChunkDict l' => dict_eq l l'
  | _, _ => false
  end.

(** 33-36: the sizes of the dimensions in turn, until one differs; None is an exception (KeyError). *)
Fixpoint same_sizes (l : list (string * Z)) (g : list (string * Z)) : option bool :=
  match l with
  | [] => Some true
  | (d, v) :: l =>
      match lookup d g with
      | None => None
      | Some w => if Z.eqb v w then same_sizes l g else Some false
      end
  end.

(** 32-36.  Indexing None, False or a string by the name of a dimension raises TypeError, and so does iterating over
    'auto'.  The names in the dict entries (index 0) are not modelled; they only enter [!=], which then compares again
    by size. *)
Definition same_chunks (g new : grid) : option bool :=
  if chunk_eq (g_chunk g) (g_chunk new) then Some true
  else match g_chunk new with
       | ChunkNone => Some true
       | ChunkAuto => None
       | ChunkDict [] => Some true
       | ChunkDict l => match g_chunk g with ChunkDict l' => same_sizes l l' | _ => None end
       end.

(** The loop of add_grid, 15-41: None is an exception; Some None, no existing grid; Some (Some g), field.grid is g. *)
Fixpoint find_grid (auto : bool) (new : grid) (l : list grid) : option (option grid) :=
  match l with
  | [] => Some None
  | g :: l =>
      if auto then Some None                                        (* 16-17: break *)
      else if Nat.eqb (g_id g) (g_id new) then Some (Some new)      (* 18-20 *)
      else if negb (Z.eqb (g_origin new) (g_origin g)) then find_grid auto new l   (* 22-23: continue *)
      else match same_chunks g new with
           | None => None
           | Some sc => if same_attrs g new && sc then Some (Some g) else find_grid auto new l
           end
  end.

(** self.grids.index(field.grid), 45 (grids are compared by identity). *)
Fixpoint index_of (id : nat) (l : list grid) : option nat :=
  match l with
  | [] => None
  | g :: l => if Nat.eqb (g_id g) id then Some O else option_map S (index_of id l)
  end.

Record field := mkField { f_grid : grid; f_chunk : chunking }.
Definition is_auto (c : chunking) : bool := match c with ChunkAuto => true | _ => false end.

(** add_grid, 13-45: the grids, field.grid and field.igrid afterwards. *)
Definition add_grid (gs : list grid) (f : field) : option (list grid * grid * nat) :=
  match find_grid (is_auto (f_chunk f)) (f_grid f) gs with
  | None => None
  | Some r =>
      let '(gs', g) := match r with Some g => (gs, g) | None => (gs ++ [f_grid f], f_grid f) end in
      match index_of (g_id g) gs' with
      | Some i => Some (gs', g, i)
      | None => None
      end
  end.

(** add_field, in turn (the components of summed and nested fields too, 149-163). *)
Fixpoint add_fields (gs : list grid) (fs : list field) : option (list grid * list (grid * nat)) :=
  match fs with
  | [] => Some (gs, [])
  | f :: fs =>
      match add_grid gs f with
      | None => None
      | Some (gs', g, i) =>
          match add_fields gs' fs with
          | Some (gs'', r) => Some (gs'', (g, i) :: r)
          | None => None
          end
      end
  end.

(** * dimrange, 47-67 *)
Inductive dim : Set := DLon | DLat | DDepth | DTime | DTimeFull.
Definition attr (d : dim) (g : grid) : narr :=
  match d with
  | DLon => g_lon g | DLat => g_lat g | DDepth => g_depth g | DTime => g_time g | DTimeFull => g_time_full g
  end.

Definition qmin_list (a : Q) (l : list Q) : Q := fold_left Qmin l a.
Definition qmax_list (a : Q) (l : list Q) : Q := fold_left Qmax l a.

(** The two ends of a grid; None is an exception: two-dimensional coordinates are compared as whole rows (ValueError for rows
    of two or more), an empty array has no first element.  (Rows of one element would work; not modelled.) *)
Definition ends (d : dim) (a : narr) : option (Q * Q) :=
  match n_data a with
  | [] => None
  | x :: l =>
      match d with
      | DDepth => Some (qmin_list x l, qmax_list x l)
      | _ => match n_shape a with
             | [_] => Some (x, last (x :: l) x)
             | _ => None
             end
      end
  end.

(** [maxleft] and [minright] start as -inf and inf: None. *)
Definition wider (f : Q -> Q -> Q) (a : option Q) (b : Q) : option Q :=
  match a with None => Some b | Some a => Some (f a b) end.
Fixpoint range_loop (d : dim) (gs : list grid) (lo hi : option Q) : option (option Q * option Q) :=
  match gs with
  | [] => Some (lo, hi)
  | g :: gs =>
      if Nat.eqb (length (n_data (attr d g))) 1 then range_loop d gs lo hi
      else match ends d (attr d g) with
           | None => None
           | Some (a, b) => range_loop d gs (wider Qmax lo a) (wider Qmin hi b)
           end
  end.
Definition dimrange (d : dim) (gs : list grid) : option (Q * Q) :=
  match range_loop d gs None None with
  | None => None
  | Some (lo, hi) => Some (match lo with Some x => x | None => 0%Q end, match hi with Some x => x | None => 0%Q end)
  end.
