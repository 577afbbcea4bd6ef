(** Model of saving fields to files and reading them back.

    Sources: parcels/field.py 1268-1305 (Field.write), 215-252 and 254-453 (Field.from_netcdf; 347-349 for the mesh), parcels/fieldset.py 926-940, 973-988
    (get_fields, FieldSet.write), 834-878 (FieldSet.from_parcels), parcels/fieldfilebuffer.py 36-180.
    The contents of the arrays read are those of ReadModel, times and dates those of DateModel.

    Simplifications: a file is the dataset that was given to xarray; names are ASCII; one process (978); numbers are rationals, single
    precision is not modelled. Dates are decoded by xarray to whole nanoseconds; the calendars of cftime are an argument. The sharing of grids
    when fields are added is C38. Chunks, indices and wildcards of from_parcels are not used. *)
From Coq Require Import List Arith Bool QArith String Ascii.
From Verif Require Import GsetModel DateModel ReadModel.
Import ListNotations.
Open Scope nat_scope.

(** ** Fields in memory *)

(** grid.lon and grid.lat: one number for each column and row (the latitudes as they are in the grid, grid.py 273-276), or sheets. *)
Inductive coords : Type := CLines (lon lat : list Q) | CSheets (ny nx : nat) (lon lat : nat -> nat -> Q).
(** grid.ydim and grid.xdim. *)
Definition n_rows (c : coords) : nat := match c with CLines _ lat => List.length lat | CSheets ny _ _ _ => ny end.
Definition n_cols (c : coords) : nat := match c with CLines lon _ => List.length lon | CSheets _ nx _ _ => nx end.

(** grid.depth of z grids (None: s grids), grid.tdim, grid.time, grid.time_origin.time_origin, grid.mesh.  tdim is not the number of
    times when Field.__init__ 155 has added one. *)
Record fgrid := FGrid { fg_c : coords; fg_z : option (list Q); fg_tdim : nat; fg_time : list Q; fg_origin : pyt; fg_mesh : string }.
(** The data are None as long as they are a DeferredArray (field.py 1695-1715). *)
Record field := Field { f_name : string; f_grid : fgrid; f_data : option (arr value); f_interp : string; f_extrapolates : bool }.

(** ** Files *)
Record file := NcFile {
  n_var : string; n_data : arr value;                (* the variable and its four axes *)
  n_lon : arr Q; n_lat : arr Q;                      (* nav_lon, nav_lat *)
  n_depth_name : string; n_depth : list Q;
  n_units : option pyt; n_time : list Q;             (* 'seconds since' this origin; time_counter *)
  n_mesh : string }.                                 (* the attribute parcels_mesh *)

(** np.reshape: the elements in the order of rows. *)
Fixpoint prod (ds : list nat) : nat := match ds with [] => 1 | d :: r => d * prod r end.
Fixpoint ravel (ds i : list nat) : nat := match ds, i with _ :: r, k :: i' => k * prod r + ravel r i' | _, _ => 0 end.
Fixpoint unravel (ds : list nat) (m : nat) : list nat :=
  match ds with [] => [] | _ :: r => m / prod r :: unravel r (m mod prod r) end.
Definition np_reshape {A : Type} (ds : list nat) (a : arr A) : option (arr A) :=
  if prod (dims a) =? prod ds then Some (Arr ds (fun i => get a (unravel (dims a) (ravel ds i)))) else None.

(** str.lower. *)
Definition lower_char (a : ascii) : ascii :=
  let n := nat_of_ascii a in if (65 <=? n) && (n <=? 90) then ascii_of_nat (n + 32) else a.
Fixpoint lower (s : string) : string := match s with EmptyString => EmptyString | String a r => String (lower_char a) (lower r) end.
(** 1277, fieldset.py 872. *)
Definition depth_name (name : string) : string := ("depth" ++ lower name)%string.
(** 1273, fieldset.py 873. *)
Definition file_name (base name : string) : string := (base ++ name ++ ".nc")%string.

(** 1293: units only if the origin has a calendar; the calendar itself is not written. *)
Definition units_of (origin : pyt) : option pyt := match calendar_of origin with CalNone => None | _ => Some origin end.

(** 1280-1289: a row or column of numbers becomes a sheet. *)
Definition nav_lon (c : coords) : arr Q :=
  Arr [n_rows c; n_cols c] (fun i => match i, c with [y; x], CLines lon _ => nth x lon 0%Q | [y; x], CSheets _ _ X _ => X y x | _, _ => 0%Q end).
Definition nav_lat (c : coords) : arr Q :=
  Arr [n_rows c; n_cols c] (fun i => match i, c with [y; x], CLines _ lat => nth y lat 0%Q | [y; x], CSheets _ _ _ Y => Y y x | _, _ => 0%Q end).

(** What writing comes to. *)
Inductive wres : Type := WFile (n : file) | WNotImplemented | WAttribute | WValue.

(** Field.write, 1268-1305. 1291: s grids; a DeferredArray has no reshape; 1297: sizes must agree, also (1301) the numbers of times. *)
Definition write (var : string) (f : field) : wres :=
  let g := f_grid f in
  let c := fg_c g in
  match fg_z g with
  | None => WNotImplemented
  | Some z =>
      match f_data f with
      | None => WAttribute
      | Some a =>
          match np_reshape [fg_tdim g; List.length z; n_rows c; n_cols c] a with
          | None => WValue
          | Some d =>
              if fg_tdim g =? List.length (fg_time g)
              then WFile (NcFile var d (nav_lon c) (nav_lat c) (depth_name (f_name f)) z (units_of (fg_origin g)) (fg_time g) (fg_mesh g))
              else WValue
          end
      end
  end.

(** ** Reading a field back *)
Section Read.
(** The date of the standard calendar, in nanoseconds, that is written like this date (microseconds) of this calendar; None if there is no such date. *)
Variable rewrite_date : string -> Z -> option Z.

(** xarray's decoding, fieldfilebuffer.py 163-180: numbers without units, else dates. None for an exception. *)
Definition decode (units : option pyt) (t : Q) : option pyt :=
  let ns := py_int (t * per_s)%Q in
  match units with
  | None => Some (PNum t)
  | Some (PDate o) => Some (PDate (o + ns))
  | Some (PCf c o) => match rewrite_date c o with Some o' => Some (PDate (o' + ns)) | None => None end
  | Some _ => None
  end.

(** create_grid, grid.py 70-89, 263-277. *)
Definition new_coords (c : lonlat) (ny nx : nat) : coords :=
  match c with
  | Lines lon lat => CLines lon (if flipped lat then rev lat else lat)
  | Sheets X Y => CSheets ny nx X Y
  end.

(** All nodes: fieldfilebuffer.py 76-77, 113, without indices. *)
Definition everything (n : file) : subset :=
  match dims (n_lon n) with
  | [ny; nx] => Subset (seq 0 (List.length (n_depth n))) (seq 0 ny) (seq 0 nx)
  | _ => Subset [] [] []
  end.
(** The sizes of the grid it is on. *)
Definition sizes (n : file) (nt : nat) (c : lonlat) : gdims :=
  let s := everything n in Gdims nt (List.length (i_depth s)) (List.length (i_lat s)) (List.length (i_lon s)) (grid_flipped c).

(** Field.from_netcdf with the arguments of from_parcels (866-878); None for an exception.  395-396: up to two times are loaded at once.
    335, 443-444: the interpolation is linear and extrapolation in time is off unless asked for. *)
Definition read (deferred : bool) (name var : string) (n : file) : option field :=
  if String.eqb var (n_var n) && String.eqb (depth_name name) (n_depth_name n) then
    match py_lonlat isclose (everything n) (n_lon n) (n_lat n), all_some (map (decode (n_units n)) (n_time n)) with
    | Some c, Some stamps =>
        match collect stamps with
        | DOk (origin, ts) =>
            let s := everything n in
            let g := FGrid (new_coords c (List.length (i_lat s)) (List.length (i_lon s))) (Some (n_depth n)) (List.length ts) ts origin (n_mesh n) in
            if deferred && (2 <? List.length ts) then Some (Field name g None "linear" false)
            else match immediate (sizes n (List.length ts) c) s None None None false [(List.length ts, n_data n)] with
                 | Some d => Some (Field name g (Some d) "linear" false)
                 | None => None
                 end
        | _ => None
        end
    | _, _ => None
    end
  else None.
End Read.

(** ** Field sets *)

(** What get_fields returns: fields, and objects without a method write: VectorField, SummedField, NestedField. *)
Inductive item : Type := IField (f : field) | IOther (name : string).
Definition item_name (i : item) : string := match i with IField f => f_name f | IOther s => s end.

(** The files, by name. *)
Definition disk : Type := string -> option file.
Definition put (d : disk) (name : string) (n : file) : disk := fun s => if String.eqb s name then Some n else d s.

(** A run of writes: what is on the disk at the end, and whether an exception ended it. *)
Definition put_item (base var : string) (i : item) (d : disk) : bool * disk :=
  match i with
  | IField f => match write var f with WFile n => (true, put d (file_name base (f_name f)) n) | _ => (false, d) end
  | IOther _ => (false, d)
  end.
Fixpoint put_rest (base : string) (l : list item) (d : disk) : bool * disk :=
  match l with
  | [] => (true, d)
  | i :: r =>
      if String.eqb (item_name i) "U" || String.eqb (item_name i) "V" then put_rest base r d
      else match put_item base (item_name i) i d with (true, d') => put_rest base r d' | o => o end
  end.
Definition put_named (base var : string) (i : option item) (d : disk) : bool * disk :=
  match i with None => (true, d) | Some i => put_item base var i d end.
(** FieldSet.write, 973-988: [u] and [v] are its attributes U and V, [l] all its fields (926-940). *)
Definition write_all (base : string) (u v : option item) (l : list item) (d : disk) : bool * disk :=
  match put_named base "vozocrtx" u d with
  | (true, d1) => match put_named base "vomecrty" v d1 with (true, d2) => put_rest base l d2 | o => o end
  | o => o
  end.

(** FieldSet.from_parcels, 834-878: [extra] maps further fields to their variables; U and V come last (869), which is
    of no consequence. *)
Definition with_uv (extra : list (string * string)) : list (string * string) :=
  filter (fun p => negb (String.eqb (fst p) "U" || String.eqb (fst p) "V")) extra ++ [("U", "vozocrtx"); ("V", "vomecrty")]%string.
Definition from_parcels (rewrite_date : string -> Z -> option Z) (deferred : bool) (base : string) (extra : list (string * string)) (d : disk) : option (list field) :=
  all_some (map (fun p => match d (file_name base (fst p)) with Some n => read rewrite_date deferred (fst p) (snd p) n | None => None end) (with_uv extra)).
