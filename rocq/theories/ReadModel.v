(** Model of how a field gets its data: from an array, and from files at once or frame by frame.

    Sources: parcels/field.py 158-176 (Field.__init__: reshape, missing values, limits, added frame), 402-434 (Field.from_netcdf without deferred loading), 490-540 (Field.reshape), 542-556
    (set_scaling_factor), 1307-1330 (rescale_and_set_minmax, data_concatenate), 1344-1379 (Field.computeTimeChunk);
    parcels/fieldset.py 1044-1112 (FieldSet.computeTimeChunk); parcels/fieldfilebuffer.py 70-166 (NetcdfFileBuffer);
    parcels/grid.py 70-89, 263-277, 363-384 (create_grid, flipped latitudes).

    Simplifications: numbers are rationals (no rounding to float32). Interpolation methods other than those of B-grids
    and indexing types other than 'pop' (whose data may have a level less); no halo (HaloModel), no dask, no timestamps
    argument, no depth field. Which frame of which file is read when is in DeferModel. *)
From Coq Require Import List Arith Bool QArith.
Import ListNotations.
Open Scope nat_scope.

(** ** Arrays of numpy and xarray *)
Record arr (A : Type) := Arr { dims : list nat; get : list nat -> A }.
Arguments Arr {A}. Arguments dims {A}. Arguments get {A}.

Section Arrays.
Variable A : Type.
Implicit Type a : arr A.

Definition ndim a : nat := length (dims a).
(** np.transpose. *)
Definition transpose a : arr A := Arr (rev (dims a)) (fun i => get a (rev i)).
(** np.flip(data, axis=-2). *)
Definition flip_lat a : arr A :=
  Arr (dims a) (fun i => match rev i, rev (dims a) with
                         | x :: y :: r, _ :: ny :: _ => get a (rev (x :: (ny - 1 - y) :: r))
                         | _, _ => get a i
                         end).
(** np.squeeze: all axes of length 1 are removed. *)
Fixpoint unsqueeze (ds i : list nat) : list nat :=
  match ds with
  | [] => []
  | d :: r => if d =? 1 then 0 :: unsqueeze r i else match i with [] => [] | k :: i' => k :: unsqueeze r i' end
  end.
Definition squeeze a : arr A := Arr (filter (fun d => negb (d =? 1)) (dims a)) (fun i => get a (unsqueeze (dims a) i)).
(** np.expand_dims(data, axis=-1) and axis=-2 (which needs at least one axis). *)
Definition expand_last a : arr A := Arr (dims a ++ [1]) (fun i => get a (removelast i)).
Definition expand_before_last a : arr A :=
  Arr (removelast (dims a) ++ [1; last (dims a) 0]) (fun i => get a (removelast (removelast i) ++ [last i 0])).
(** data.reshape((1,) + data.shape). *)
Definition lead a : arr A := Arr (1 :: dims a) (fun i => get a (tl i)).
(** data.reshape((shape[0],) + shape[2:]): the second axis must have length 1. *)
Definition drop_second a : option (arr A) :=
  match dims a with
  | n :: 1 :: r => Some (Arr (n :: r) (fun i => match i with [] => get a [] | k :: i' => get a (k :: 0 :: i') end))
  | _ => None
  end.
(** data.reshape((n, 1) + shape[1:]): the first axis must have length n. *)
Definition add_second (n : nat) a : option (arr A) :=
  match dims a with
  | n' :: r => if n' =? n then Some (Arr (n :: 1 :: r) (fun i => match i with k :: _ :: i' => get a (k :: i') | _ => get a i end)) else None
  | [] => None
  end.
(** The same shape. *)
Definition same (a b : list nat) : bool := if list_eq_dec Nat.eq_dec a b then true else false.
(** np.concatenate((a, b), axis=0): the other axes must agree. *)
Definition concat2 (a b : arr A) : option (arr A) :=
  match dims a, dims b with
  | n :: r, n' :: r' =>
      if same r r'
      then Some (Arr ((n + n') :: r) (fun i => match i with k :: i' => if k <? n then get a i else get b ((k - n) :: i') | [] => get a i end))
      else None
  | _, _ => None
  end.
Fixpoint concat_all (l : list (arr A)) : option (arr A) :=
  match l with
  | [] => None
  | [a] => Some a
  | a :: r => match concat_all r with Some b => concat2 a b | None => None end
  end.
(** data[:1, :]. *)
Definition first_frame a : arr A := Arr (match dims a with n :: r => min 1 n :: r | [] => [] end) (get a).
(** Elementwise. *)
Definition amap {B : Type} (f : A -> B) (a : arr A) : arr B := Arr (dims a) (fun i => f (get a i)).

(** Indexing an axis of an xarray by a list or by one index. *)
Inductive sel : Type := Many (l : list nat) | One (k : nat).
Definition in_range (s : sel) (d : nat) : bool :=
  match s with Many l => forallb (fun k => k <? d) l | One k => k <? d end.
Fixpoint pick (s : list sel) (i : list nat) : list nat :=
  match s with
  | [] => []
  | Many l :: s' => match i with [] => [] | k :: i' => nth k l 0 :: pick s' i' end
  | One k :: s' => k :: pick s' i
  end.
Definition select (s : list sel) a : option (arr A) :=
  if (length s =? ndim a) && forallb (fun p => in_range (fst p) (snd p)) (combine s (dims a))
  then Some (Arr (flat_map (fun x => match x with Many l => [length l] | One _ => [] end) s) (fun i => get a (pick s i)))
  else None.
End Arrays.
Arguments ndim {A}. Arguments transpose {A}. Arguments flip_lat {A}. Arguments squeeze {A}. Arguments expand_last {A}.
Arguments expand_before_last {A}. Arguments lead {A}. Arguments drop_second {A}. Arguments add_second {A}. Arguments concat2 {A}.
Arguments concat_all {A}. Arguments first_frame {A}. Arguments amap {A B}. Arguments select {A}.

(** ** Field data *)

(** A value, or NaN. *)
Definition value : Type := option Q.
Definition zero : value := Some 0%Q.

(** The dimensions of the grid that reshape looks at. *)
Record gdims := Gdims { g_t : nat; g_z : nat; g_y : nat; g_x : nat; g_flipped : bool }.

(** Field.reshape, 490-540. None for an assertion or ValueError. *)
Definition reshape {A : Type} (g : gdims) (transposed : bool) (a : arr A) : option (arr A) :=
  let a := if transposed then transpose a else a in
  if g_flipped g && (ndim a <? 2) then None
  else
    let a := if g_flipped g then flip_lat a else a in
    let a := if (g_x g =? 1) || (g_y g =? 1) then squeeze a else a in
    let a := if (g_x g =? 1) && (ndim a <? 4) then expand_last a else a in
    let a := if (g_y g =? 1) && (ndim a <? 4) then expand_before_last a else a in
    let a := if (g_t g =? 1) && (ndim a <? 4) then lead a else a in
    match (if (g_z g =? 1) && (ndim a =? 4) then drop_second a else Some a) with
    | None => None
    | Some a =>
        if ndim a =? 4 then
          if same (dims a) [g_t g; g_z g; g_y g; g_x g] then Some a else None
        else if same (dims a) [g_t g; g_y g; g_x g] then Some a else None
    end.

(** field.py 163-168: values that are missing or outside the limits become 0; comparisons with NaN are false, but there
    are none left. *)
Definition not_nan (v : value) : value := match v with None => zero | Some _ => v end.
Definition above (vmin : option Q) (v : value) : value :=
  match vmin, v with Some m, Some q => if Qle_bool m q then v else zero | _, _ => v end.
Definition below (vmax : option Q) (v : value) : value :=
  match vmax, v with Some m, Some q => if Qle_bool q m then v else zero | _, _ => v end.
Definition clean (vmin vmax : option Q) (v : value) : value := below vmax (above vmin (not_nan v)).
Definition times_factor (f : Q) (v : value) : value := match v with Some q => Some (q * f)%Q | None => None end.

(** Field.__init__, 158-171, when loading is not deferred. [added]: _add_last_periodic_data_timestep, in which case
    g_t, read by reshape, is still the number of times given (grid.tdim is set before 155 appends to grid.time). *)
Definition init_data (g : gdims) (transposed : bool) (vmin vmax : option Q) (added : bool) (a : arr value) : option (arr value) :=
  match reshape g transposed a with
  | None => None
  | Some a => let a := amap (clean vmin vmax) a in if added then concat2 a (first_frame a) else Some a
  end.
(** set_scaling_factor, 542-556, when loading is not deferred. *)
Definition scale_loaded (factor : option Q) (a : arr value) : arr value :=
  match factor with None => a | Some f => amap (times_factor f) a end.

(** rescale_and_set_minmax, 1307-1315; a factor of 0 is not applied. *)
Definition rescale (factor : option Q) (vmin vmax : option Q) (v : value) : value :=
  let v := not_nan v in
  let v := match factor with Some f => if Qeq_bool f 0 then v else times_factor f v | None => v end in
  below vmax (above vmin v).

(** ** Files *)

(** indices['depth'], indices['lat'], indices['lon']; None if not given. *)
Record subset := Subset { i_depth : list nat; i_lat : list nat; i_lon : list nat }.

(** self.ti: None for all times; Some k for one, which may be -1 for the last. *)
Definition time_sel (ti : option Z) (n : nat) : sel :=
  match ti with None => Many (seq 0 n) | Some k => One (if (k <? 0)%Z then Z.to_nat (k + Z.of_nat n) else Z.to_nat k) end.

(** _apply_indices, fieldfilebuffer.py 138-154. *)
Definition apply_indices (s : subset) (ti : option Z) (a : arr value) : option (arr value) :=
  match dims a with
  | [_; _] => select [Many (i_lat s); Many (i_lon s)] a
  | [n; _; _] =>
      if 1 <? length (i_depth s) then select [Many (i_depth s); Many (i_lat s); Many (i_lon s)] a
      else select [time_sel ti n; Many (i_lat s); Many (i_lon s)] a
  | [n; _; _; _] => select [time_sel ti n; Many (i_depth s); Many (i_lat s); Many (i_lon s)] a
  | _ => None
  end.

(** field.py 411-425: the data of a file with [n] times as a four-dimensional array. *)
Definition file_data (s : subset) (n : nat) (a : arr value) : option (arr value) :=
  match apply_indices s None a with
  | None => None
  | Some b =>
      match ndim b with
      | 2 => if n =? 1 then Some (lead (lead b)) else None
      | 3 => if 1 <? length (i_depth s) then Some (lead b) else add_second n b
      | _ => Some b
      end
  end.

(** 402-434: all files, each with its number of times. *)
Fixpoint all_some {A : Type} (l : list (option A)) : option (list A) :=
  match l with
  | [] => Some []
  | None :: _ => None
  | Some x :: r => match all_some r with Some r' => Some (x :: r') | None => None end
  end.
Definition load_all (s : subset) (files : list (nat * arr value)) : option (arr value) :=
  match all_some (map (fun f => file_data s (fst f) (snd f)) files) with
  | None => None
  | Some l => concat_all l
  end.
(** Field.from_netcdf with deferred_load=False, then set_scaling_factor. *)
Definition immediate (g : gdims) (s : subset) (vmin vmax factor : option Q) (added : bool) (files : list (nat * arr value))
  : option (arr value) :=
  match load_all s files with
  | None => None
  | Some a => match init_data g false vmin vmax added a with Some b => Some (scale_loaded factor b) | None => None end
  end.

(** Field.computeTimeChunk, 1363-1376: frame [ti] of a file. *)
Definition frame_data (g : gdims) (s : subset) (ti : Z) (a : arr value) : option (arr value) :=
  match apply_indices s (Some ti) a with
  | None => None
  | Some b =>
      match ndim b with
      | 2 => Some (lead (lead b))
      | 3 => if 1 <? g_z g then Some (lead b)
             else match dims b with n :: _ => add_second n b | [] => None end
      | _ => Some b
      end
  end.
(** data_concatenate, 1317-1330, and 1044-1069: the first load. [g] has tdim 2 (grid.py 221). *)
Definition first_load (g : gdims) (s : subset) (vmin vmax factor : option Q) (f0 f1 : Z * arr value) : option (arr value) :=
  match frame_data g s (fst f0) (snd f0), frame_data g s (fst f1) (snd f1) with
  | Some a, Some b =>
      match concat2 a b with
      | Some c => reshape g false (amap (rescale factor vmin vmax) c)
      | None => None
      end
  | _, _ => None
  end.
(** 1085-1111: one frame moves on. data[k, :] of the two frames; [other] is what np.empty had in the place of the other frame. *)
Definition frame (k : nat) {A : Type} (a : arr A) : arr A := Arr (tl (dims a)) (fun i => get a (k :: i)).
Definition set_frame (k : nat) {A : Type} (a b : arr A) : arr A :=
  Arr (dims a) (fun i => match i with j :: i' => if j =? k then get b i' else get a i | [] => get a i end).
Definition next_load (g : gdims) (s : subset) (vmin vmax factor : option Q) (old other : arr value) (f1 : Z * arr value) : option (arr value) :=
  match frame_data g s (fst f1) (snd f1) with
  | Some b =>
      match concat2 other b with
      | Some c =>
          match reshape g false (amap (rescale factor vmin vmax) c) with
          | Some d => Some (set_frame 1 (set_frame 0 old (frame 1 old)) (frame 1 d))
          | None => None
          end
      | None => None
      end
  | None => None
  end.
Definition back_load (g : gdims) (s : subset) (vmin vmax factor : option Q) (old other : arr value) (f0 : Z * arr value) : option (arr value) :=
  match frame_data g s (fst f0) (snd f0) with
  | Some b =>
      match concat2 b other with
      | Some c =>
          match reshape g false (amap (rescale factor vmin vmax) c) with
          | Some d => Some (set_frame 0 (set_frame 1 old (frame 0 old)) (frame 0 d))
          | None => None
          end
      | None => None
      end
  | None => None
  end.

(** A run with deferred loading: the frames [j] and [j + 1] are loaded first, then one frame at a time, on (true) or back (false).
    [src j] is the index and the file of frame [j] of the series, [other] what np.empty gave. *)
Definition move (g : gdims) (s : subset) (vmin vmax factor : option Q) (src : nat -> Z * arr value) (other : nat -> arr value) (on : bool)
    (m : nat * arr value) : option (nat * arr value) :=
  let '(j, old) := m in
  if on then match next_load g s vmin vmax factor old (other j) (src (j + 2)) with Some d => Some (j + 1, d) | None => None end
  else match back_load g s vmin vmax factor old (other j) (src (j - 1)) with Some d => Some (j - 1, d) | None => None end.
Fixpoint moves (g : gdims) (s : subset) (vmin vmax factor : option Q) (src : nat -> Z * arr value) (other : nat -> arr value) (l : list bool)
    (m : nat * arr value) : option (nat * arr value) :=
  match l with
  | [] => Some m
  | on :: l' => match move g s vmin vmax factor src other on m with Some m' => moves g s vmin vmax factor src other l' m' | None => None end
  end.
Definition deferred (g : gdims) (s : subset) (vmin vmax factor : option Q) (src : nat -> Z * arr value) (other : nat -> arr value)
    (j : nat) (l : list bool) : option (nat * arr value) :=
  match first_load g s vmin vmax factor (src j) (src (j + 1)) with Some d => moves g s vmin vmax factor src other l (j, d) | None => None end.

(** ** Coordinates *)
Section Coordinates.
(** np.allclose of two numbers. *)
Variable close : Q -> Q -> bool.

(** NetcdfFileBuffer.lonlat, 70-106: the longitudes and latitudes of the subset. *)
Inductive lonlat : Type :=
| Lines (lon lat : list Q)                    (* rectilinear *)
| Sheets (lon lat : nat -> nat -> Q).         (* curvilinear: row, column *)
Definition sub1 (l : list nat) (a : arr Q) : list Q := map (fun k => get a [k]) l.
(** The last two axes; of further ones index 0. *)
Definition sheet (a : arr Q) (y x : nat) : Q := get a (repeat 0 (ndim a - 2) ++ [y; x]).
Definition py_lonlat (s : subset) (lon lat : arr Q) : option lonlat :=
  match ndim lon with
  | 1 => Some (Lines (sub1 (i_lon s) lon) (sub1 (i_lat s) lat))
  | 2 | 3 | 4 =>
      let X y x := sheet lon (nth y (i_lat s) 0) (nth x (i_lon s) 0) in
      let Y y x := sheet lat (nth y (i_lat s) 0) (nth x (i_lon s) 0) in
      let nx := length (i_lon s) in
      let ny := length (i_lat s) in
      let rectilinear :=
        forallb (fun y => forallb (fun x => close (X 0 x) (X y x)) (seq 0 nx)) (seq 1 (ny - 1)) &&
        forallb (fun x => forallb (fun y => close (Y y 0) (Y y x)) (seq 0 ny)) (seq 1 (nx - 1)) in
      Some (if rectilinear then Lines (map (X 0) (seq 0 nx)) (map (fun y => Y y 0) (seq 0 ny)) else Sheets X Y)
  | _ => None
  end.

(** create_grid and RectilinearGrid.__init__, grid.py 70-89, 263-277: latitudes from north to south are turned round. *)
Definition flipped (lat : list Q) : bool :=
  match lat with [] => false | l0 :: _ => (1 <? length lat) && negb (Qle_bool l0 (last lat 0%Q)) end.
Definition grid_lat (c : lonlat) (y x : nat) : Q :=
  match c with Lines _ lat => nth y (if flipped lat then rev lat else lat) 0%Q | Sheets _ Y => Y y x end.
Definition grid_lon (c : lonlat) (y x : nat) : Q :=
  match c with Lines lon _ => nth x lon 0%Q | Sheets X _ => X y x end.
Definition grid_flipped (c : lonlat) : bool := match c with Lines _ lat => flipped lat | Sheets _ _ => false end.

(** NetcdfFileBuffer.depth, 108-124, and RectilinearSGrid, 379-383 (CurvilinearSGrid without the flip): depths of the
    nodes, on levels given by one number each or by an array. *)
Definition grid_depth (s : subset) (c : lonlat) (depth : arr Q) (t z y x : nat) : Q :=
  let y := if grid_flipped c then length (i_lat s) - 1 - y else y in
  match ndim depth with
  | 1 => get depth [nth z (i_depth s) 0]
  | 3 => get depth [nth z (i_depth s) 0; nth y (i_lat s) 0; nth x (i_lon s) 0]
  | _ => get depth [t; nth z (i_depth s) 0; nth y (i_lat s) 0; nth x (i_lon s) 0]
  end.
End Coordinates.
