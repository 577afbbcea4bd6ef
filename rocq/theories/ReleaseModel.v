(** Model of releasing particles along a line or according to a field, and of the density of a particle set.

    Sources: parcels/particlesets/baseparticleset.py 124-148 (from_line); parcels/particlesets/particlesetsoa.py 261-306
    (monte_carlo_sample), 309-329 (from_field), 481-535 (density); parcels/field.py 573-599 (calc_cell_edge_sizes, cell_areas).

    Simplifications: numbers are rationals (real numbers on curvilinear grids), without rounding. Random numbers are arguments: those of
    np.random.choice and of the two calls of np.random.uniform are anything in [0, 1). The data of the start field are in memory. In the
    density every particle is evaluated by the run of length 0 that precedes the counting. None is any exception. *)
From Coq Require Import List ZArith Bool QArith Reals.
From Verif Require Import IdxModel CurvModel.
Import ListNotations.
Open Scope Q_scope.

(** * Lines *)
(** np.linspace(a, b, n). *)
Definition linspace (a b : Q) (n : nat) : list Q :=
  map (fun k => if (1 <? n)%nat && (k =? n - 1)%nat then b else a + inject_Z (Z.of_nat k) * ((b - a) / inject_Z (Z.of_nat (n - 1)))) (seq 0 n).
(** baseparticleset.py 144-147: the argument depth: None, a number or an array. *)
Inductive depth_arg := DNone | DNumber (z : Q) | DArray (l : list Q).
Definition line_depth (d : depth_arg) (n : nat) : option (list Q) :=
  match d with DNone => None | DNumber z => Some (repeat z n) | DArray l => Some l end.
Definition from_line (start finish : Q * Q) (n : nat) (d : depth_arg) : list Q * list Q * option (list Q) :=
  (linspace (fst start) (fst finish) n, linspace (snd start) (snd finish) n, line_depth d n).

(** * Fields *)
(** data[0]: its shape, and the value at an index. *)
Record frame := mkFrame { f_dims : list nat; f_get : list nat -> Q }.

(** np.squeeze. *)
Fixpoint unsqueeze (dims idx : list nat) : list nat :=
  match dims with
  | [] => []
  | d :: r => if (d =? 1)%nat then 0%nat :: unsqueeze r idx else match idx with k :: idx' => k :: unsqueeze r idx' | [] => [] end
  end.
Definition squeeze (f : frame) : frame := mkFrame (filter (fun d => negb (d =? 1)%nat) (f_dims f)) (fun idx => f_get f (unsqueeze (f_dims f) idx)).

(** The shape of [1:, 1:] and [:-1, :-1]. *)
Definition trim (dims : list nat) : list nat := match dims with a :: b :: r => (a - 1)%nat :: (b - 1)%nat :: r | _ => dims end.
(** particlesetsoa.py 273-275. *)
Definition tracer_p (f : frame) : frame :=
  squeeze (mkFrame (trim (f_dims f)) (fun idx => match idx with j :: i :: r => f_get f (S j :: S i :: r) | _ => f_get f idx end)).
(** 276-282. *)
Definition corner_mean (f : frame) (idx : list nat) : Q :=
  match idx with
  | j :: i :: r =>
      let a := f_get f (j :: i :: r) in let b := f_get f (S j :: i :: r) in
      let c := f_get f (j :: S i :: r) in let d := f_get f (S j :: S i :: r) in
      let p := (a + b + c + d) / 4 in
      let p := if Qeq_bool a 0 then 0 else p in
      let p := if Qeq_bool b 0 then 0 else p in
      let p := if Qeq_bool d 0 then 0 else p in
      if Qeq_bool c 0 then 0 else p
  | _ => f_get f idx
  end.
Definition corner_p (f : frame) : frame := mkFrame (trim (f_dims f)) (corner_mean f).
(** [tracer]: interp_method == 'cgrid_tracer'. *)
Definition interior (tracer : bool) (f : frame) : frame := if tracer then tracer_p f else corner_p f.

(** np.unravel_index, and np.reshape to one row. *)
Fixpoint prod (dims : list nat) : nat := match dims with [] => 1 | d :: r => d * prod r end.
Fixpoint unravel (dims : list nat) (m : nat) : list nat :=
  match dims with [] => [] | d :: r => (m / prod r)%nat :: unravel r (m mod prod r) end.
Definition flat (f : frame) : list Q := map (fun m => f_get f (unravel (f_dims f) m)) (seq 0 (prod (f_dims f))).

Definition qsum (l : list Q) : Q := fold_right Qplus 0 l.
(** numpy.random.choice with p: ValueError for an empty range, probabilities that are negative or not numbers; otherwise
    cdf.searchsorted(u, side='right') with cdf = p.cumsum(). *)
Fixpoint cumsum (s : Q) (l : list Q) : list Q := match l with [] => [] | x :: t => (s + x) :: cumsum (s + x) t end.
Fixpoint search_right (cdf : list Q) (u : Q) : nat := match cdf with [] => 0 | c :: t => if qle c u then S (search_right t u) else 0 end.
Definition choice (p : list Q) (u : Q) : option nat :=
  match p with
  | [] => None
  | _ => if existsb (fun x => qlt x 0) p then None else Some (search_right (cumsum 0 p) u)
  end.
(** 283-287: the cell of a draw. 0 / 0 is not a number, for which choice raises ValueError. *)
Definition draw_cell (tracer : bool) (f : frame) (u : Q) : option (nat * nat) :=
  let p := interior tracer f in
  if Qeq_bool (qsum (flat p)) 0 then None
  else
    match choice (map (fun x => x / qsum (flat p)) (flat p)) u with
    | None => None
    | Some m => match unravel (f_dims p) m with [j; i] => Some (j, i) | _ => None end
    end.
(** 290-292. *)
Definition between (l : list Q) (i : nat) (r : Q) : option Q :=
  match pyget l (Z.of_nat i), pyget l (Z.of_nat i + 1) with Some a, Some b => Some (a + r * (b - a)) | _, _ => None end.
Definition rect_position (lon lat : list Q) (c : nat * nat) (xsi eta : Q) : option (Q * Q) :=
  match between lon (snd c) xsi, between lat (fst c) eta with Some x, Some y => Some (x, y) | _, _ => None end.
(** 283-292 for one particle, and for all. *)
Definition release (tracer : bool) (f : frame) (lon lat : list Q) (d : Q * Q * Q) : option (Q * Q) :=
  let '(u, xsi, eta) := d in
  match draw_cell tracer f u with None => None | Some c => rect_position lon lat c xsi eta end.
Fixpoint release_all (tracer : bool) (f : frame) (lon lat : list Q) (ds : list (Q * Q * Q)) : option (list (Q * Q)) :=
  match ds with
  | [] => Some []
  | d :: ds' =>
      match release tracer f lon lat d, release_all tracer f lon lat ds' with Some p, Some ps => Some (p :: ps) | _, _ => None end
  end.
(** 293-305: curvilinear grids. *)
Definition to_first (spherical : bool) (l0 l : R) : R :=
  if spherical then
    let l := if Rlt_dec 180 (l - l0) then (l - 360)%R else l in
    if Rlt_dec 180 (- l + l0) then (l + 360)%R else l
  else l.
Definition blend (a0 a1 a2 a3 xsi eta : R) : R :=
  ((1 - xsi) * (1 - eta) * a0 + xsi * (1 - eta) * a1 + xsi * eta * a2 + (1 - xsi) * eta * a3)%R.
Definition curv_position (g : curv) (j i : Z) (xsi eta : R) : R * R :=
  let l0 := v_lon g j i in
  let fit := to_first (v_spherical g) l0 in
  (blend l0 (fit (v_lon g j (i + 1))) (fit (v_lon g (j + 1) (i + 1))) (fit (v_lon g (j + 1) i)) xsi eta,
   blend (v_lat g j i) (v_lat g j (i + 1)) (v_lat g (j + 1) (i + 1)) (v_lat g (j + 1) i) xsi eta)%Z.

(** * Density *)
(** 512-515: particle_val is None, the name of a variable (its values), a list or an array. *)
Inductive weights := WNone | WName (l : list Q) | WList (l : list Q) | WArray (l : list Q).
Definition weights_of (n : nat) (w : weights) : option (list Q) :=
  match w with
  | WNone | WList [] | WArray [] => Some (repeat 1 n)
  | WName l | WList l => Some l
  | WArray [x] => Some (if Qeq_bool x 0 then repeat 1 n else [x])
  | WArray _ => None
  end.
(** A particle: position, and in JIT mode the indices it has before the run (xi, yi, zi). *)
Record dpart := mkDpart { d_lon : Q; d_lat : Q; d_depth : Q; d_jit : option (Z * Z * Z) }.
(** 500-510, 518-526: the run samples at the particle, and sets its indices in JIT mode; in Scipy mode p.ti is missing, and the search is
    repeated without depth. *)
Definition cell_of (g : rgrid) (p : dpart) : option (Z * Z) :=
  match d_jit p with
  | Some (xi, yi, zi) => match c_search g (d_lon p) (d_lat p) (d_depth p) xi yi zi with Found _ _ _ xi yi _ => Some (yi, xi) | _ => None end
  | None =>
      match py_search g (d_lon p) (d_lat p) (d_depth p) with
      | Found _ _ _ _ _ _ =>
          match py_search (mkRgrid (g_lon g) (g_lat g) [0] (g_spherical g) (g_zonal_periodic g) (g_mom5 g)) (d_lon p) (d_lat p) (d_depth p) with
          | Found _ _ _ xi yi _ => Some (yi, xi)
          | _ => None
          end
      | _ => None
      end
  end.
(** A numpy index of an axis of [n] entries. *)
Definition np_index (n k : Z) : option Z := let k := if (k <? 0)%Z then (k + n)%Z else k in if ((0 <=? k) && (k <? n))%Z then Some k else None.
(** 516: the shape, for a rectilinear grid and for a curvilinear one (whose lat and lon are matrices). *)
Definition density_shape (curvilinear : bool) (ydim xdim : Z) : Z * Z := if curvilinear then (ydim * xdim, ydim * xdim)%Z else (ydim, xdim).
(** 518-527. *)
Fixpoint count (g : rgrid) (ps : list dpart) (ws : list Q) (acc : Z -> Z -> Q) : option (Z -> Z -> Q) :=
  match ps with
  | [] => Some acc
  | p :: ps' =>
      match cell_of g p, ws with
      | Some (yi, xi), w :: ws' =>
          match np_index (zlen (g_lat g)) yi, np_index (zlen (g_lon g)) xi with
          | Some j, Some i => count g ps' ws' (fun j' i' => if (j' =? j)%Z && (i' =? i)%Z then acc j' i' + w else acc j' i')
          | _, _ => None
          end
      | _, _ => None
      end
  end.
(** np.gradient of an axis of two or more points. *)
Definition gradient (l : list Q) (i : Z) : Q :=
  let v k := nth (Z.to_nat k) l 0 in
  if (i =? 0)%Z then v 1%Z - v 0%Z else if (i =? zlen l - 1)%Z then v i - v (i - 1)%Z else (v (i + 1)%Z - v (i - 1)%Z) / 2.
(** field.py 576-586, 594-599 on a rectilinear grid: [mx lat] and [my] are the lengths of a degree (1 on a flat mesh). *)
Definition cell_areas (mx : Q -> Q) (my : Q) (g : rgrid) : option (Z -> Z -> Q) :=
  if (zlen (g_lon g) <? 2)%Z || (zlen (g_lat g) <? 2)%Z then None
  else Some (fun j i => (gradient (g_lon g) i * mx (nth (Z.to_nat j) (g_lat g) 0)) * (gradient (g_lat g) j * my)).
(** 511-535. *)
Definition density (mx : Q -> Q) (my : Q) (g : rgrid) (ps : list dpart) (w : weights) (relative area_scale : bool) : option (Z -> Z -> Q) :=
  match weights_of (length ps) w with
  | None => None
  | Some ws =>
      match count g ps ws (fun _ _ => 0) with
      | None => None
      | Some d =>
          let d := if relative then fun j i => d j i / qsum ws else d in
          if area_scale then match cell_areas mx my g with None => None | Some a => Some (fun j i => d j i / a j i) end
          else Some d
      end
  end.
