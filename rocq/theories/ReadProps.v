(** C55: every node of a field gets the value the input has for its time, level, row and column, and its coordinates. *)
From Coq Require Import List Arith Bool QArith Lia.
From Verif Require Import ReadModel ReadSpec ReadProofs ReadProofs2 ReadProofs3 ReadProofs4.
Import ListNotations.
Open Scope nat_scope.

(** C55: data given as an array, with its axes in either order, without the axis of times or levels if the grid has one, and on
    grids with one row or column. *)
Theorem data_from_array : forall g l (transposed : bool) vmin vmax a,
  fits l g -> dims a = turn transposed (shape_of l (g_t g) (g_z g) (g_y g) (g_x g)) ->
  exists d, init_data g transposed vmin vmax false a = Some d /\ dims d = data_shape g /\
    (forall t z y x, is_node g t z y x -> kept vmin vmax (get a (turn transposed (place_of l t z (row g y) x))) (node g d t z y x)).
Proof. exact array_at. Qed.
Print Assumptions data_from_array.

(** C55: with a period longer than the data, the first frame is repeated at the end. *)
Theorem data_from_array_periodic : forall g l (transposed : bool) vmin vmax a,
  fits l g -> dims a = turn transposed (shape_of l (g_t g) (g_z g) (g_y g) (g_x g)) -> 0 < g_t g ->
  exists d, init_data g transposed vmin vmax true a = Some d /\ dims d = data_shape (one_more g) /\
    (forall t z y x, is_node (one_more g) t z y x ->
       kept vmin vmax (get a (turn transposed (place_of l (if t =? g_t g then 0 else t) z (row g y) x))) (node g d t z y x)).
Proof. exact array_added_at. Qed.
Print Assumptions data_from_array_periodic.

(** The value 100 t + 10 y + x, or nothing where it is 11, with two times, two rows and three columns, from north to south. *)
Definition ex_value (t y x : nat) : value := if (t =? 0) && (y =? 1) && (x =? 1) then None else Some (inject_Z (Z.of_nat (100 * t + 10 * y + x))).
Definition ex_array : arr value := Arr [2; 2; 3] (fun i => match i with [t; y; x] => ex_value t y x | _ => None end).
Definition ex_grid : gdims := Gdims 2 1 2 3 true.
Definition values_of (g : gdims) (d : option (arr value)) : list (list (list value)) :=
  match d with
  | None => []
  | Some d => map (fun t => map (fun y => map (fun x => node g d t 0 y x) (seq 0 (g_x g))) (seq 0 (g_y g))) (seq 0 (hd 0 (dims d)))
  end.

Example data_from_array_case : fits TYX ex_grid /\ dims ex_array = turn false (shape_of TYX 2 1 2 3) /\
  values_of ex_grid (init_data ex_grid false None (Some 110%Q) true ex_array) =
    [[[Some (10#1); Some 0; Some (12#1)]; [Some 0; Some (1#1); Some (2#1)]]; [[Some (110#1); Some 0; Some 0]; [Some (100#1); Some (101#1); Some (102#1)]];
     [[Some (10#1); Some 0; Some (12#1)]; [Some 0; Some (1#1); Some (2#1)]]]%Q.
Proof. repeat split; vm_compute; reflexivity. Qed.

(** C55: data read from files all at once. *)
Theorem data_from_files : forall s g vmin vmax factor fs, grid_for g s -> series_ok s fs -> g_t g = length (frames fs) ->
  exists d, immediate g s vmin vmax factor false (files_of fs) = Some d /\ dims d = data_shape g /\
  (forall t z y x l a i, is_node g t z y x -> nth_error (frames fs) t = Some (l, a, i) ->
     kept_scaled factor vmin vmax (in_file s l a i z (row g y) x) (node g d t z y x)).
Proof.
  intros s g vmin vmax factor fs GF SO GT. assert (D1 : 0 < length (i_depth s)) by (destruct GF as (E & _ & _ & P & _); lia).
  exact (immediate_at s D1 g vmin vmax factor fs SO GF GT).
Qed.
Print Assumptions data_from_files.

Theorem data_from_files_periodic : forall s g vmin vmax factor fs, grid_for g s -> series_ok s fs -> g_t g = length (frames fs) -> 0 < g_t g ->
  exists d, immediate g s vmin vmax factor true (files_of fs) = Some d /\ dims d = data_shape (one_more g) /\
  (forall t z y x l a i, is_node (one_more g) t z y x -> nth_error (frames fs) (if t =? g_t g then 0 else t) = Some (l, a, i) ->
     kept_scaled factor vmin vmax (in_file s l a i z (row g y) x) (node g d t z y x)).
Proof.
  intros s g vmin vmax factor fs GF SO GT P. assert (D1 : 0 < length (i_depth s)) by (destruct GF as (E & _ & _ & P' & _); lia).
  exact (immediate_added_at s D1 g vmin vmax factor fs SO GF GT P).
Qed.
Print Assumptions data_from_files_periodic.

(** C55: data read frame by frame: wherever the run has got to, the two frames in memory are those of the files. With a factor and
    limits see below. *)
Theorem data_from_files_deferred_partial : forall s g vmin vmax factor fs src other, grid_for g s -> g_t g = 2 -> reads s fs src ->
  (forall j, dims (other j) = [1; length (i_depth s); length (i_lat s); length (i_lon s)]) ->
  (factor = None \/ (vmin = None /\ vmax = None /\ exists f, factor = Some f /\ ~ (f == 0)%Q)) ->
  forall l j k, j + 1 < length (frames fs) -> reaches (length (frames fs)) j l k ->
  exists d, deferred g s vmin vmax factor src other j l = Some (k, d) /\ k + 1 < length (frames fs) /\ dims d = data_shape g /\
    forall t z y x lo a i, is_node g t z y x -> nth_error (frames fs) (k + t) = Some (lo, a, i) ->
      kept_scaled factor vmin vmax (in_file s lo a i z (row g y) x) (node g d t z y x).
Proof. exact deferred_kept. Qed.
Print Assumptions data_from_files_deferred_partial.

(** C55: both ways of reading give the same field. *)
Theorem reading_ways_agree_partial : forall s g g' vmin vmax factor fs src other, grid_for g s -> g_t g = 2 -> g_t g' = length (frames fs) ->
  g_z g' = g_z g -> g_y g' = g_y g -> g_x g' = g_x g -> g_flipped g' = g_flipped g ->
  reads s fs src -> series_ok s fs ->
  (forall j, dims (other j) = [1; length (i_depth s); length (i_lat s); length (i_lon s)]) ->
  (factor = None \/ (vmin = None /\ vmax = None /\ exists f, factor = Some f /\ ~ (f == 0)%Q)) ->
  forall l j k, j + 1 < length (frames fs) -> reaches (length (frames fs)) j l k ->
  exists d e, deferred g s vmin vmax factor src other j l = Some (k, d) /\ immediate g' s vmin vmax factor false (files_of fs) = Some e /\
    forall t z y x, is_node g t z y x -> node g d t z y x = node g' e (k + t) z y x.
Proof. exact same_both_ways. Qed.
Print Assumptions reading_ways_agree_partial.

(** Two files: the array above, of which the lower row and two columns are used, and one frame without an axis of times. *)
Definition ex_sheet : arr value := Arr [2; 3] (fun i => match i with [y; x] => ex_value 7 y x | _ => None end).
Definition ex_files : series := [(TYX, 2, ex_array); (YX, 1, ex_sheet)].
Definition ex_subset : subset := Subset [0] [1] [0; 2].
Definition ex_src (j : nat) : Z * arr value := match j with 0 => (0%Z, ex_array) | 1 => (1%Z, ex_array) | _ => ((-1)%Z, ex_sheet) end.
Definition ex_other (_ : nat) : arr value := Arr [1; 1; 1; 2] (fun _ => None).
Definition ex_grid2 : gdims := Gdims 2 1 1 2 false.
Definition ex_grid3 : gdims := Gdims 3 1 1 2 false.

Example data_from_files_case : grid_for ex_grid3 ex_subset /\ series_ok ex_subset ex_files /\ g_t ex_grid3 = length (frames ex_files) /\
  reads ex_subset ex_files ex_src /\ reaches (length (frames ex_files)) 0 [true; false; true] 1 /\
  values_of ex_grid3 (immediate ex_grid3 ex_subset None None (Some 2%Q) false (files_of ex_files)) =
    [[[Some (20#1); Some (24#1)]]; [[Some (220#1); Some (224#1)]]; [[Some (1420#1); Some (1424#1)]]]%Q /\
  (exists d, deferred ex_grid2 ex_subset None None (Some 2%Q) ex_src ex_other 0 [true; false; true] = Some (1, d) /\
    values_of ex_grid2 (Some d) = [[[Some (220#1); Some (224#1)]]; [[Some (1420#1); Some (1424#1)]]]%Q).
Proof.
  assert (F1 : file_ok ex_subset TYX 2 ex_array) by (exists 1, 2, 3; repeat split; repeat constructor).
  assert (F2 : file_ok ex_subset YX 1 ex_sheet) by (exists 1, 2, 3; repeat split; repeat constructor).
  split; [repeat split; cbn; lia|]. split; [split; [discriminate|repeat constructor; assumption]|]. split; [reflexivity|].
  split.
  { intros [|[|[|j]]] l a i E; cbn in E; [injection E as <- <- <-|injection E as <- <- <-|injection E as <- <- <-|destruct j; discriminate].
    - split; [reflexivity|]. exists 2. split; [exact F1|]. split; [lia|left; reflexivity].
    - split; [reflexivity|]. exists 2. split; [exact F1|]. split; [lia|left; reflexivity].
    - split; [reflexivity|]. exists 1. split; [exact F2|]. split; [lia|right; split; reflexivity]. }
  split; [cbn; lia|]. split; [vm_compute; reflexivity|]. eexists. split; [reflexivity|]. vm_compute. reflexivity.
Qed.

(** C55 is false with a factor and limits: all at once the limits come first, frame by frame the factor does. Here the value is
    1/2, the factor 10, vmax 1. *)
Definition half : arr value := Arr [2; 1; 1] (fun _ => Some (1#2)%Q).
Theorem limits_and_factor_refuted : exists s g a d e, g_t g = 2 /\ grid_for g s /\ series_ok s [(TYX, 2, a)] /\
  immediate g s None (Some 1%Q) (Some 10%Q) false [(2, a)] = Some d /\
  first_load g s None (Some 1%Q) (Some 10%Q) (0%Z, a) (1%Z, a) = Some e /\
  (forall v, node g d 0 0 0 0 = Some v -> v == 5)%Q /\ node g d 0 0 0 0 <> None /\ node g e 0 0 0 0 = Some 0%Q.
Proof.
  exists (Subset [0] [0] [0]), (Gdims 2 1 1 1 false), half. do 2 eexists.
  split; [reflexivity|]. split; [repeat split; cbn; lia|].
  split; [split; [discriminate|repeat constructor; exists 1, 1, 1; repeat split; repeat constructor]|].
  split; [reflexivity|]. split; [reflexivity|]. split; [intros v E; vm_compute in E; injection E as <-; reflexivity|].
  split; [vm_compute; discriminate|vm_compute; reflexivity].
Qed.
Print Assumptions limits_and_factor_refuted.

(** C55 is false with a factor of 0: frame by frame it is not applied. *)
Theorem factor_zero_refuted : exists s g a d e, g_t g = 2 /\ grid_for g s /\ series_ok s [(TYX, 2, a)] /\
  immediate g s None None (Some 0%Q) false [(2, a)] = Some d /\
  first_load g s None None (Some 0%Q) (0%Z, a) (1%Z, a) = Some e /\
  (exists v, node g d 0 0 0 0 = Some v /\ v == 0)%Q /\ node g e 0 0 0 0 = Some (1#2)%Q.
Proof.
  exists (Subset [0] [0] [0]), (Gdims 2 1 1 1 false), half. do 2 eexists.
  split; [reflexivity|]. split; [repeat split; cbn; lia|].
  split; [split; [discriminate|repeat constructor; exists 1, 1, 1; repeat split; repeat constructor]|].
  split; [reflexivity|]. split; [reflexivity|]. split; [eexists; split; [vm_compute; reflexivity|reflexivity]|vm_compute; reflexivity].
Qed.
Print Assumptions factor_zero_refuted.

(** C55: the longitude and latitude of a node are those the file has for the row and column its value was read from; if they were
    stored as sheets of equal rows and columns, within np.allclose. *)
Theorem node_coordinates : forall close s g lon lat c, grid_for g s -> ndim lat = ndim lon -> py_lonlat close s lon lat = Some c -> g_flipped g = grid_flipped c ->
  forall y x, y < g_y g -> x < g_x g ->
  let r := file_row g s y in
  let k := file_col s x in
  (ndim lon = 1 -> grid_lon c y x = file_coord false lon r k /\ grid_lat c y x = file_coord true lat r k) /\
  (2 <= ndim lon <= 4 ->
    (grid_lon c y x = file_coord false lon r k \/ close (grid_lon c y x) (file_coord false lon r k) = true) /\
    (grid_lat c y x = file_coord true lat r k \/ close (grid_lat c y x) (file_coord true lat r k) = true)).
Proof.
  intros close s g lon lat c GF SD E FL y x Y X r k. split; intros N.
  - exact (coord_lines close s g lon lat c GF SD E FL N y x Y X).
  - exact (coord_sheets close s g lon lat c GF SD E FL N y x Y X).
Qed.
Print Assumptions node_coordinates.

(** C55: so is its depth. *)
Theorem node_depth : forall s g c depth t z y x, grid_for g s -> g_flipped g = grid_flipped c -> y < g_y g ->
  grid_depth s c depth t z y x = file_depth depth t (file_level s z) (file_row g s y) (file_col s x).
Proof. intros s g c depth t z y x GF FL Y. exact (coord_depth s g c GF FL depth t z y x Y). Qed.
Print Assumptions node_depth.

(** The latitudes of a rectilinear grid never run from north to south. *)
Theorem latitudes_turned : forall lon lat, lat <> [] -> let c := Lines lon lat in (grid_lat c 0 0 <= grid_lat c (length lat - 1) 0)%Q.
Proof. exact flip_orders. Qed.
Print Assumptions latitudes_turned.

(** Latitudes 60, 50, 40, of which 60 and 40 are used: row 0 has latitude 40 and the values of row 2 of the file. *)
Example node_coordinates_case :
  let lat := Arr [3] (fun i => match i with [0] => 60%Q | [1] => 50%Q | _ => 40%Q end) in
  let lon := Arr [3] (fun i => match i with [k] => inject_Z (Z.of_nat k) | _ => 0%Q end) in
  let s := Subset [0] [0; 2] [1; 2] in
  let g := Gdims 1 1 2 2 true in
  exists c, py_lonlat Qeq_bool s lon lat = Some c /\ grid_for g s /\ g_flipped g = grid_flipped c /\
    grid_lat c 0 0 = 40%Q /\ grid_lon c 0 0 = 1%Q /\ file_row g s 0 = 2 /\ file_col s 0 = 1 /\ grid_lat c 1 0 = 60%Q.
Proof. eexists. split; [reflexivity|]. repeat split; cbn; lia. Qed.

(** C55: only arrays with the sizes of the grid are accepted, except that the axis of levels may be missing. *)
Theorem shape_checked_partial : forall g (transposed : bool) (a d : arr value), reshape g transposed a = Some d ->
  dims d = [g_t g; g_z g; g_y g; g_x g] \/ dims d = [g_t g; g_y g; g_x g].
Proof. exact (@accepted_shape value). Qed.
Print Assumptions shape_checked_partial.

(** It may also be missing if the grid has several levels: such a field is accepted, with fewer values than the grid has nodes. *)
Theorem missing_levels_refuted : exists g (a d : arr value), g_z g = 5 /\ dims a = [g_t g; g_y g; g_x g] /\
  init_data g false None None false a = Some d /\ dims d = [g_t g; g_y g; g_x g].
Proof. exists (Gdims 2 5 2 3 false), ex_array. eexists. repeat split. Qed.
Print Assumptions missing_levels_refuted.
