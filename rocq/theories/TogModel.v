(** Model of reading several variables together from files.

    Sources: parcels/fieldset.py 50-54 (checkvaliddimensionsdict), 273-284 (parse_wildcards), 286-417 (FieldSet.from_netcdf);
    parcels/field.py 92-130 (Field.__init__), 207-252 (get_dim_filenames, collect_timeslices), 309-452 (Field.from_netcdf),
    1344-1379 (Field.computeTimeChunk); parcels/fieldfilebuffer.py 70-166; parcels/tools/converters.py 218-220.

    Simplifications: coordinates in files are lines (no sheets, rising latitudes); depth is a line and not 'not_yet_set'; no chunks
    (385-395: nothing is compared then), no timestamps argument, no period; a variable has one name in the files; variables are not
    called lon, lat, depth or time. Values and coordinates are rationals, times whole ticks. How the numbers of one file get to
    the nodes is C55 (ReadModel); when frames are read is C15 (DeferModel). All errors are None. *)
From Coq Require Import List Arith Bool ZArith QArith String.
From Verif Require Import UnitModel.
Import ListNotations.
Open Scope string_scope.
Open Scope nat_scope.

(** ** Files *)
(** The values of one frame: level, row, column. *)
Definition frame : Type := nat -> nat -> nat -> Q.
(** A variable with values has the axes time, depth, lat, lon (4 axes) or time, lat, lon. *)
Record nvar := NVar { v_levels : bool; v_frames : list frame }.
(** A dataset: coordinate variables, parcels_mesh (Some true: 'flat'), time variables, variables with values. *)
Record nfile := NFile { n_line : string -> option (list Q); n_mesh : option bool; n_time : string -> option (list Z); n_var : string -> option nvar }.
(** glob of a pattern (sorted, fieldset.py 276) and the files that exist. *)
Record world := World { w_glob : string -> list string; w_file : string -> option nfile }.

(** ** Arguments *)
(** A string is a pattern, a list is taken as it is (275). *)
Inductive pat : Type := Glob (s : string) | Files (l : list string).
Inductive dim : Type := DLon | DLat | DDepth | DData.
(** The files of one variable: the same for everything, or a dictionary {dim: files}. *)
Inductive paths : Type := Same (p : pat) | PerDim (d : list (dim * pat)).
(** The argument filenames: not a dictionary, a dictionary {dim: files}, a dictionary {var: ...} (fieldset.py 294-296). *)
Inductive filenames : Type := Plain (p : pat) | Dims (d : list (dim * pat)) | Vars (d : list (string * paths)).
(** {'lon': .., 'lat': .., 'depth': .., 'time': ..}; the last two may be missing. *)
Record dimdict := DimDict { d_lon : string; d_lat : string; d_depth : option string; d_time : option string }.
(** The indices of lon, lat, depth; those of time are ignored (field.py 389). *)
Record inds := Inds { i_lon : option (list nat); i_lat : option (list nat); i_depth : option (list nat) }.
(** The arguments dimensions and indices: for all variables, or for each (369-371). *)
Inductive per (A : Type) : Type := All (a : A) | Each (l : list (string * A)).
Arguments All {A}. Arguments Each {A}.
(** The argument fieldtype: None, a string or a dictionary. *)
Inductive ftype : Type := FNone | FStr (s : string) | FDict (d : list (string * option string)).
(** variables is the ordered dictionary of names. a_flat: mesh == 'flat'. *)
Record args := Args { a_files : filenames; a_vars : list (string * string); a_dims : per dimdict; a_inds : per (option inds);
                      a_type : ftype; a_flat : bool; a_deferred : bool }.

(** == of Python on these. *)
Definition pat_eq (a b : pat) : {a = b} + {a <> b}. Proof. decide equality; [apply string_dec|apply (list_eq_dec string_dec)]. Defined.
Definition dim_eq (a b : dim) : {a = b} + {a <> b}. Proof. decide equality. Defined.
Definition dimdict_eq (a b : dimdict) : {a = b} + {a <> b}.
Proof. decide equality; try apply string_dec; decide equality; apply string_dec. Defined.
Definition inds_eq (a b : option inds) : {a = b} + {a <> b}.
Proof. decide equality. decide equality; decide equality; apply (list_eq_dec Nat.eq_dec). Defined.
Fixpoint find {A : Type} (k : string) (l : list (string * A)) : option A :=
  match l with [] => None | (k', a) :: r => if string_dec k k' then Some a else find k r end.
Fixpoint find_dim {A : Type} (k : dim) (l : list (dim * A)) : option A :=
  match l with [] => None | (k', a) :: r => if dim_eq k k' then Some a else find_dim k r end.
(** == of dictionaries does not see the order of the keys. *)
Definition opt_pat_eq (a b : option pat) : {a = b} + {a <> b}. Proof. decide equality; apply pat_eq. Defined.
Definition dict_eqb (a b : list (dim * pat)) : bool :=
  forallb (fun k => if opt_pat_eq (find_dim k a) (find_dim k b) then true else false) [DLon; DLat; DDepth; DData].
Definition paths_eqb (a b : paths) : bool :=
  match a, b with
  | Same p, Same q => if pat_eq p q then true else false
  | PerDim d, PerDim e => dict_eqb d e
  | _, _ => false
  end.

(** ** Names of files *)
(** parse_wildcards. *)
Definition exists_ (w : world) (f : string) : bool := match w_file w f with Some _ => true | None => false end.
Definition parse (w : world) (p : pat) : option (list string) :=
  let l := match p with Glob s => w_glob w s | Files l => l end in
  match l with [] => None | _ => if forallb (exists_ w) l then Some l else None end.
(** fieldset.py 364-366: the dictionary itself gets the lists. *)
Fixpoint parse_dims (w : world) (d : list (dim * pat)) : option (list (dim * pat)) :=
  match d with
  | [] => Some []
  | (k, p) :: r => match parse w p, parse_dims w r with Some l, Some r' => Some ((k, Files l) :: r') | _, _ => None end
  end.
Fixpoint set_key {A : Type} (k : string) (a : A) (l : list (string * A)) : list (string * A) :=
  match l with [] => [] | (k', b) :: r => if string_dec k k' then (k, a) :: r else (k', b) :: set_key k a r end.
(** 361-366 for one variable: the paths given to Field.from_netcdf, and the argument filenames afterwards. *)
Definition resolve_paths (w : world) (p : paths) : option (paths * paths) :=
  match p with
  | Same q => match parse w q with Some l => Some (Same (Files l), p) | None => None end
  | PerDim d => match parse_dims w d with Some d' => Some (PerDim d', PerDim d') | None => None end
  end.
Definition resolve (w : world) (fn : filenames) (var : string) : option (paths * filenames) :=
  match fn with
  | Plain q => match parse w q with Some l => Some (Same (Files l), fn) | None => None end
  | Dims d => match parse_dims w d with Some d' => Some (PerDim d', Dims d') | None => None end
  | Vars m => match find var m with
              | Some p => match resolve_paths w p with Some (r, p') => Some (r, Vars (set_key var p' m)) | None => None end
              | None => None (* str(filenames) of a dictionary is no file *)
              end
  end.
(** Field.get_dim_filenames, after the names have been resolved. *)
Definition as_list (p : pat) : list string := match p with Files l => l | Glob s => [s] end.
Definition dim_files (p : paths) (k : dim) : option (list string) :=
  match p with Same q => Some (as_list q) | PerDim d => option_map as_list (find_dim k d) end.

(** ** Fields *)
(** grid.lon, lat, depth, mesh, time_origin, time, timeslices. *)
Record grid := Grid { g_lon : list Q; g_lat : list Q; g_depth : list Q; g_flat : bool; g_origin : Z; g_time : list Z; g_slices : list (list Z) }.
(** field.data: frames in memory, or a DeferredArray. f_inds are the indices after defaults: lon, lat, depth. *)
Inductive data : Type := Loaded (l : list frame) | Deferred.
Record field := Field { f_grid : grid; f_files : list string; f_data : data; f_name : string; f_dims : dimdict;
                        f_inds : list nat * list nat * list nat; f_units : converter }.

(** xarray indexing of a line by a list. *)
Fixpoint take (l : list Q) (ks : list nat) : option (list Q) :=
  match ks with [] => Some [] | k :: r => match nth_error l k, take l r with Some q, Some t => Some (q :: t) | _, _ => None end end.
(** fieldfilebuffer.py 73-84, 113-121: the default is range(size). *)
Definition all_or (o : option (list nat)) (l : list Q) : list nat := match o with Some ks => ks | None => seq 0 (List.length l) end.
(** filebuffer.time: [None] becomes 0 without a time dimension (field.py 242-243). *)
Definition file_times (w : world) (d : dimdict) (f : string) : option (list Z) :=
  match w_file w f with
  | None => None
  | Some n => match d_time d with None => Some [0%Z] | Some t => n_time n t end
  end.
(** _apply_indices (140-155) for one frame. *)
Definition pick (ks : list nat * list nat * list nat) (levels : bool) (fr : frame) : frame :=
  fun k j i => let '(il, ia, iz) := ks in fr (if levels then nth k iz 0 else 0) (nth j ia 0) (nth i il 0).
Fixpoint increasing (l : list Z) : bool :=
  match l with a :: (b :: _) as r => (a <? b)%Z && increasing r | _ => true end.
Fixpoint sequence {A : Type} (l : list (option A)) : option (list A) :=
  match l with [] => Some [] | o :: r => match o, sequence r with Some a, Some t => Some (a :: t) | _, _ => None end end.

(** collect_timeslices: times from the first one, the first time, timeslices, the file of each time. *)
Definition collect (w : world) (d : dimdict) (fs : list string) : option (list Z * Z * list (list Z) * list string) :=
  match sequence (map (file_times w d) fs) with
  | None => None
  | Some sl =>
      let time := List.concat sl in
      match time with
      | [] => None
      | o :: _ => if increasing time
                  then Some (map (fun t => (t - o)%Z) time, o, sl, List.concat (map (fun p => repeat (fst p) (List.length (snd p))) (combine fs sl)))
                  else None
      end
  end.

(** The values of one file, field.py 414-434: with three axes the reshape needs as many frames as times; with three axes and
    more than one level xarray would take the time axis for depth (not modelled: None). *)
Definition load_file (w : world) (name : string) (ks : list nat * list nat * list nat) (tslice : list Z) (f : string) : option (list frame) :=
  match w_file w f with
  | None => None
  | Some n =>
      match n_var n name with
      | None => None
      | Some v => if v_levels v then Some (map (pick ks true) (v_frames v))
                  else if (1 <? List.length (snd ks)) then None
                  else if List.length (v_frames v) =? List.length tslice then Some (map (pick ks false) (v_frames v)) else None
      end
  end.
(** field.py 410-438: zip(grid.timeslices, data_filenames). *)
Definition load (w : world) (name : string) (ks : list nat * list nat * list nat) (sl : list (list Z)) (fs : list string) : option (list frame) :=
  option_map (@List.concat frame) (sequence (map (fun p => load_file w name ks (fst p) (snd p)) (combine sl fs))).

(** unitconverters_map and Field.__init__ 115-121; a dictionary as fieldtype is not hashable. *)
Definition converter_of (key : string) : converter :=
  if string_dec key "U" then GeographicPolar else if string_dec key "V" then Geographic
  else if string_dec key "Kh_zonal" then GeographicPolarSquare else if string_dec key "Kh_meridional" then GeographicSquare
  else NoConversion.
Definition units (flat : bool) (var : string) (ft : ftype) : option converter :=
  if flat then Some NoConversion
  else match ft with FNone => Some (converter_of var) | FStr s => Some (converter_of s) | FDict _ => None end.

(** Field.from_netcdf (field.py 309-452) and Field.__init__: shared and dfiles are the arguments grid and dataFiles of fieldset.py 409-412. *)
Definition read_field (w : world) (p : paths) (var name : string) (d : dimdict) (ind : option inds) (ft : ftype) (flat deferred : bool)
    (shared : option grid) (dfiles : option (list string)) : option field :=
  let ind := match ind with Some i => i | None => Inds None None None end in
  match dim_files p DData, dim_files p DLon, dim_files p DLat with
  | Some dfs, Some lons, Some lats =>
      if match p with PerDim _ => List.length lons =? 1 | Same _ => true end then
      if list_eq_dec string_dec lons lats then
      match lons with
      | [] => None
      | lf :: _ =>
          match w_file w lf with
          | None => None
          | Some n =>
              match n_line n (d_lon d), n_line n (d_lat d) with
              | Some X, Some Y =>
                  let il := all_or (i_lon ind) X in let ia := all_or (i_lat ind) Y in
                  let zread :=
                    match d_depth d with
                    | None => Some ([0%Q], [0])
                    | Some z =>
                        match dim_files p DDepth with
                        | Some (zf :: more) =>
                            if match p, more with PerDim _, _ :: _ => true | _, _ => false end then None
                            else match w_file w zf with
                                 | None => None
                                 | Some m => match n_line m z with
                                             | None => None
                                             | Some L => let iz := all_or (i_depth ind) L in option_map (fun l => (l, iz)) (take L iz)
                                             end
                                 end
                        | _ => None
                        end
                    end in
                  match take X il, take Y ia, zread with
                  | Some lon, Some lat, Some (dep, iz) =>
                      if (1 <? List.length dfs) && (match d_time d with None => true | Some _ => false end) then None else
                      let fl := match n_mesh n with Some b => b | None => flat end in
                      let got :=
                        match shared, dfiles with
                        | None, _ => match collect w d dfs with
                                     | Some (t, o, sl, df) => Some (Grid lon lat dep fl o t sl, df)
                                     | None => None
                                     end
                        | Some g, Some df => Some (g, df)
                        | Some g, None => match collect w d dfs with Some (_, _, _, df) => Some (g, df) | None => None end
                        end in
                      match got with
                      | None => None
                      | Some (g, df) =>
                          match units (g_flat g) var ft with
                          | None => None
                          | Some u =>
                              if (List.length (g_time g) <=? 2) || negb deferred
                              then match load w name (il, ia, iz) (g_slices g) dfs with
                                   | Some fr => if List.length fr =? List.length (g_time g)
                                                then Some (Field g df (Loaded fr) name d (il, ia, iz) u) else None
                                   | None => None
                                   end
                              else Some (Field g df Deferred name d (il, ia, iz) u)
                          end
                      end
                  | _, _, _ => None
                  end
              | _, _ => None
              end
          end
      end
      else None else None
  | _, _, _ => None
  end.

(** ** Several variables *)
(** fieldset.py 372: fieldtype[var] if (fieldtype and var in fieldtype) else fieldtype; the result replaces the argument. On strings `in` looks
    for a substring, and a string cannot be indexed by a string. *)
Definition next_type (ft : ftype) (var : string) : option ftype :=
  match ft with
  | FNone => Some FNone
  | FStr s => match s with EmptyString => Some ft | _ => match index 0 var s with Some _ => None | None => Some ft end end
  | FDict l => match find var l with Some (Some s) => Some (FStr s) | Some None => Some FNone | None => Some ft end
  end.
(** dimensions[var] if var in dimensions else dimensions: a dictionary of dictionaries is no valid one (369-370). *)
Definition of_var {A : Type} (p : per A) (var : string) : option A := match p with All a => Some a | Each l => find var l end.
(** 396-404: whether the grid of procvar is taken (None: an exception). *)
Definition same_files (ds : per dimdict) (a b : list (dim * pat)) : option bool :=
  match ds with
  | Each _ => Some true
  | All d =>
      fold_right (fun k acc => match acc with
                               | None => None
                               | Some r => match find_dim k a, find_dim k b with
                                           | Some x, Some y => Some (r && (if pat_eq x y then true else false))
                                           | _, _ => None
                                           end
                               end) (Some true)
                 ([DLon; DLat] ++ match d_depth d with Some _ => [DDepth] | None => [] end)
  end.
Definition same_grid (fn : filenames) (ds : per dimdict) (procvar var : string) : option bool :=
  match fn with
  | Plain _ => Some true
  | Dims _ => None
  | Vars m => match find procvar m, find var m with
              | Some pp, Some pv =>
                  if paths_eqb pp pv then Some true
                  else match pp, pv with
                       | PerDim a, PerDim b => same_files ds a b
                       | PerDim _, Same _ => match ds with Each _ => Some true | All _ => None end
                       | Same _, _ => Some false
                       end
              | _, _ => None
              end
  end.
(** procpaths == nowpaths (406). *)
Definition same_paths (fn : filenames) (procvar var : string) : bool :=
  match fn with
  | Vars m => match find procvar m, find var m with Some pp, Some pv => paths_eqb pp pv | _, _ => false end
  | _ => true
  end.
(** 378-408: the loop over the fields read before. *)
Fixpoint search (fn : filenames) (a : args) (var : string) (d : dimdict) (i : option inds) (done : list (string * field))
    (g : option grid) : option (option grid * option (list string)) :=
  match done with
  | [] => Some (g, None)
  | (pv, f) :: r =>
      match of_var (a_dims a) pv, of_var (a_inds a) pv with
      | Some pd, Some pi =>
          if dimdict_eq pd d then
            if inds_eq pi i then
              match same_grid fn (a_dims a) pv var with
              | None => None
              | Some true => if same_paths fn pv var then Some (Some (f_grid f), Some (f_files f)) else search fn a var d i r (Some (f_grid f))
              | Some false => search fn a var d i r g
              end
            else search fn a var d i r g
          else search fn a var d i r g
      | _, _ => None
      end
  end.
(** 357-416 (U and V are set apart, 414-415). *)
Fixpoint read_vars (w : world) (a : args) (fn : filenames) (ft : ftype) (vs : list (string * string)) (done : list (string * field))
    : option (list (string * field)) :=
  match vs with
  | [] => Some done
  | (var, name) :: r =>
      match resolve w fn var, of_var (a_dims a) var, of_var (a_inds a) var, next_type ft var with
      | Some (p, fn'), Some d, Some i, Some ft' =>
          match search fn' a var d i done None with
          | None => None
          | Some (g, df) =>
              match read_field w p var name d i ft' (a_flat a) (a_deferred a) g df with
              | None => None
              | Some f => read_vars w a fn' ft' r (done ++ [(var, f)])
              end
          end
      | _, _, _, _ => None
      end
  end.
Definition from_netcdf (w : world) (a : args) : option (list (string * field)) := read_vars w a (a_files a) (a_type a) (a_vars a) [].

(** ** What a field gives *)
(** The date of frame j. *)
Definition date_of (f : field) (j : nat) : option Z := option_map (fun t => (g_origin (f_grid f) + t)%Z) (nth_error (g_time (f_grid f)) j).
(** (time_data <= t).argmin() - 1 (field.py 1366): argmin is 0 if nothing is False, and index -1 is the last one. *)
Fixpoint first_after (l : list Z) (t : Z) (k : nat) : option nat :=
  match l with [] => None | a :: r => if (t <? a)%Z then Some k else first_after r t (S k) end.
Definition time_index (l : list Z) (t : Z) : nat :=
  match first_after l t 0 with Some (S k) => k | _ => List.length l - 1 end.
(** Frame j: in memory, or read by computeTimeChunk from dataFiles[j]. *)
Definition frame_of (w : world) (f : field) (j : nat) : option frame :=
  match f_data f with
  | Loaded l => nth_error l j
  | Deferred =>
      match nth_error (f_files f) j, date_of f j with
      | Some fn, Some t =>
          match w_file w fn, file_times w (f_dims f) fn with
          | Some n, Some ts =>
              match n_var n (f_name f) with
              | None => None
              | Some v => if v_levels v || (List.length (snd (f_inds f)) <=? 1)
                          then option_map (pick (f_inds f) (v_levels v)) (nth_error (v_frames v) (time_index ts t))
                          else None
              end
          | _, _ => None
          end
      | _, _ => None
      end
  end.
