(** What it means that a field of a field set is what its own files say. *)
From Coq Require Import List Arith Bool ZArith QArith String.
From Verif Require Import UnitModel TogModel.
Import ListNotations.
Open Scope string_scope.
Open Scope nat_scope.

(** The files the user gave for a variable and one of lon, lat, depth, data. *)
Definition expand (w : world) (p : pat) : list string := match p with Glob s => w_glob w s | Files l => l end.
Definition given (fn : filenames) (var : string) (k : dim) : option pat :=
  match fn with
  | Plain p => Some p
  | Dims d => find_dim k d
  | Vars m => match find var m with
              | Some (Same p) => Some p
              | Some (PerDim d) => find_dim k d
              | None => None
              end
  end.
Definition own_files (w : world) (fn : filenames) (var : string) (k : dim) : option (list string) := option_map (expand w) (given fn var k).
(** The variable has a dictionary {dim: files} of its own. *)
Definition per_dim (fn : filenames) (var : string) : Prop := exists m d, fn = Vars m /\ find var m = Some (PerDim d).

(** L is the line `name` of the file at the wanted indices (None: all). *)
Definition line_of (w : world) (f name : string) (o : option (list nat)) (L : list Q) : Prop :=
  exists n X, w_file w f = Some n /\ n_line n name = Some X /\
    match o with
    | None => L = X
    | Some ks => List.length L = List.length ks /\ forall k i, nth_error ks k = Some i -> nth_error L k = nth_error X i /\ i < List.length X
    end.
Definition wanted (i : option inds) (c : inds -> option (list nat)) : option (list nat) := match i with Some x => c x | None => None end.
(** The coordinates and the mesh are those of the files of the variable. *)
Definition own_coords (w : world) (a : args) (var : string) (g : grid) : Prop :=
  exists d i f more n,
    of_var (a_dims a) var = Some d /\ of_var (a_inds a) var = Some i /\
    own_files w (a_files a) var DLon = Some (f :: more) /\
    line_of w f (d_lon d) (wanted i i_lon) (g_lon g) /\ line_of w f (d_lat d) (wanted i i_lat) (g_lat g) /\
    match d_depth d with
    | None => g_depth g = [0%Q]
    | Some z => exists zf more', own_files w (a_files a) var DDepth = Some (zf :: more') /\ line_of w zf z (wanted i i_depth) (g_depth g)
    end /\
    w_file w f = Some n /\ g_flat g = match n_mesh n with Some b => b | None => a_flat a end.

(** The dates in the files of the values of a variable, file by file. *)
Definition dates_in (w : world) (d : dimdict) (f : string) (ts : list Z) : Prop :=
  exists n, w_file w f = Some n /\ match d_time d with None => ts = [0%Z] | Some t => n_time n t = Some ts end.
Definition own_dates (w : world) (a : args) (var : string) (fs : list string) (tss : list (list Z)) : Prop :=
  exists d, of_var (a_dims a) var = Some d /\ own_files w (a_files a) var DData = Some fs /\ Forall2 (dates_in w d) fs tss.
(** Where the values of node (z, y, x) are in a frame of a file. *)
Definition place (o : option (list nat)) (k : nat) : nat := match o with None => k | Some ks => nth k ks 0 end.
Definition own_value (d : dimdict) (i : option inds) (levels : bool) (fr : frame) (z y x : nat) : Q :=
  fr (if levels then match d_depth d with None => 0 | Some _ => place (wanted i i_depth) z end else 0)
     (place (wanted i i_lat) y) (place (wanted i i_lon) x).
(** Every frame has the date and, at every node, the value of its own file: frame k of file number m.
    The variable must be in the file, and have levels if the grid has more than one. *)
Definition own_frames (w : world) (a : args) (var name : string) (f : field) : Prop :=
  exists fs tss d i,
    own_dates w a var fs tss /\ of_var (a_dims a) var = Some d /\ of_var (a_inds a) var = Some i /\
    (forall j, date_of f j = nth_error (List.concat tss) j) /\
    forall m k fn ts n v,
      nth_error fs m = Some fn -> nth_error tss m = Some ts -> k < List.length ts ->
      w_file w fn = Some n -> n_var n name = Some v -> (v_levels v = false -> List.length (g_depth (f_grid f)) <= 1) ->
      exists fr fr',
        nth_error (v_frames v) k = Some fr /\
        frame_of w f (List.length (List.concat (firstn m tss)) + k) = Some fr' /\
        forall z y x, z < List.length (g_depth (f_grid f)) -> y < List.length (g_lat (f_grid f)) -> x < List.length (g_lon (f_grid f)) ->
          fr' z y x = own_value d i (v_levels v) fr z y x.

(** In a file every variable has as many frames as there are dates. *)
Definition aligned (w : world) : Prop :=
  forall f n t ts name v, w_file w f = Some n -> n_time n t = Some ts -> n_var n name = Some v -> List.length (v_frames v) = List.length ts.

(** One dictionary of dimensions for all variables, or no variable with a dictionary {dim: files} of its own. *)
Definition uniform (a : args) : Prop := (exists d, a_dims a = All d) \/ (forall v, ~ per_dim (a_files a) v).
(** All variables have the same dates, file by file; or only one file after the other, and more than two. *)
Definition same_dates (w : world) (a : args) : Prop :=
  forall v v' fs fs' tss tss', own_dates w a v fs tss -> own_dates w a v' fs' tss' -> tss = tss'.
Definition same_dates_overall (w : world) (a : args) : Prop :=
  forall v v' fs fs' tss tss', own_dates w a v fs tss -> own_dates w a v' fs' tss' ->
    List.concat tss = List.concat tss' /\ 2 < List.length (List.concat tss).

(** The same call for one variable. *)
Definition only (a : args) (vn : string * string) : args :=
  Args (a_files a) [vn] (a_dims a) (a_inds a) (a_type a) (a_flat a) (a_deferred a).
(** No variable has a dictionary {dim: files}, or all have one and the same dimensions. *)
Definition regular (a : args) : Prop :=
  match a_files a with Dims _ => False | _ => True end /\
  ((forall v, ~ per_dim (a_files a) v) \/
   ((exists d, a_dims a = All d) /\ forall v, In v (map fst (a_vars a)) -> per_dim (a_files a) v)).

(** The unit conversion of a field on a grid: the one of the type the user gave for it, otherwise of its name. *)
Definition own_units (ft : ftype) (flat : bool) (var : string) : converter :=
  if flat then NoConversion
  else let key := match ft with
                  | FDict l => match find var l with Some (Some s) => s | _ => var end
                  | FStr s => s
                  | FNone => var
                  end in
       if string_dec key "U" then GeographicPolar else if string_dec key "V" then Geographic
       else if string_dec key "Kh_zonal" then GeographicPolarSquare else if string_dec key "Kh_meridional" then GeographicSquare
       else NoConversion.
