(** C54: velocities on C-grids with s-levels. *)
From Coq Require Import List ZArith Reals.
From Verif Require Import UnitModel UnitSpec CGridModel CGridSpec CGridProofs HexModel HexSpec HexProofs HexProofs2 HexProofs3 HexProofs4.
Import ListNotations.
Open Scope R_scope.

(** C54: in every cell between two s-levels, the deeper one with the higher index, over a convex cell of a rectilinear or
    curvilinear grid, flat or spherical: the velocity is defined everywhere in the cell, and its component through each
    of the six faces, in metres, is the value given for that face at every point of the face. *)
Theorem face_velocity_3d_partial : forall m g d U V W xi yi zi c xsi eta zet,
  let h := cell3_of d c xi yi zi in
  same_cell m (cell_of g xi yi) c -> convex c -> thick h -> unit_cube xsi eta zet ->
  away m (snd (place c xsi eta)) -> away m (snd (place c (1/2) (1/2))) ->
  exists uvw, py_uvw m g (Fixed d) U V W xsi eta zet xi yi zi (fst (place c xsi eta)) = Some uvw /\
    crosses_faces3 m h xsi eta zet uvw (face_values U V W xi yi zi).
Proof. exact (fun m g d => py_faces3 m g (Fixed d)). Qed.
Print Assumptions face_velocity_3d_partial.

Example face_velocity_3d_case : forall m, cell3_of steps (rectangle 0 10 0 60) 0 0 0 = box 0 10 0 60 0 10 /\
  same_cell m (cell_of tall 0 0) (rectangle 0 10 0 60) /\ convex (rectangle 0 10 0 60) /\ narrow (rectangle 0 10 0 60) /\
  thick (cell3_of steps (rectangle 0 10 0 60) 0 0 0) /\
  away m (snd (place (rectangle 0 10 0 60) 1 (1/2))) /\ away m (snd (place (rectangle 0 10 0 60) (1/2) (1/2))).
Proof. exact steps_case. Qed.

(** C54: between two times the components through the faces are interpolated linearly. *)
Theorem face_velocity_3d_in_time_partial : forall times tdim m g d U V W ti time xi yi zi c xsi eta zet,
  let h := cell3_of d c xi yi zi in
  same_cell m (cell_of g xi yi) c -> convex c -> thick h -> unit_cube xsi eta zet ->
  away m (snd (place c xsi eta)) -> away m (snd (place c (1/2) (1/2))) ->
  (0 <= ti < tdim)%Z -> ((ti < tdim - 1)%Z -> times ti < times (ti + 1)%Z) -> times ti <= time ->
  exists uvw, py_uvw_at times tdim m g (Fixed d) U V W ti time xsi eta zet xi yi zi (fst (place c xsi eta)) = Some uvw /\
    crosses_faces3 m h xsi eta zet uvw (speeds_at times tdim ti time (fun k => face_values (U k) (V k) (W k) xi yi zi)).
Proof. exact (fun times tdim m g d => py_faces3_at times tdim m g (Fixed d)). Qed.
Print Assumptions face_velocity_3d_in_time_partial.

(** C54: in JIT mode the same, also when the levels move: with the levels of the time index. *)
Theorem jit_face_velocity_3d : forall m g U V W ti xi yi zi c xsi eta zet,
  same_cell m (cell_of g xi yi) c -> (m = Flat -> narrow c) -> convex c -> unit_cube xsi eta zet ->
  away m (snd (place c xsi eta)) -> away m (snd (place c (1/2) (1/2))) ->
  (forall d, thick (cell3_of d c xi yi zi) ->
   exists uvw, c_uvw m g (Fixed d) U V W ti xsi eta zet xi yi zi = Some uvw /\
     crosses_faces3 m (cell3_of d c xi yi zi) xsi eta zet uvw (face_values U V W xi yi zi)) /\
  (forall d, thick (cell3_of (d ti) c xi yi zi) ->
   exists uvw, c_uvw m g (Moving d) U V W ti xsi eta zet xi yi zi = Some uvw /\
     crosses_faces3 m (cell3_of (d ti) c xi yi zi) xsi eta zet uvw (face_values U V W xi yi zi)).
Proof.
  intros m g U V W ti xi yi zi c xsi eta zet SC NR C S A AH.
  split; intros d T; [exact (c_faces3 m g (Fixed d) U V W ti xi yi zi c xsi eta zet SC NR C T S A AH)
                     |exact (c_faces3 m g (Moving d) U V W ti xi yi zi c xsi eta zet SC NR C T S A AH)].
Qed.
Print Assumptions jit_face_velocity_3d.

(** C54: between two times, in JIT mode with levels that move: a velocity through the faces as they are at the first
    time and one through the faces as they are at the second, interpolated linearly. *)
Theorem jit_moving_levels_in_time : forall times tdim m g d U V W ti time xi yi zi c xsi eta zet,
  same_cell m (cell_of g xi yi) c -> (m = Flat -> narrow c) -> convex c -> unit_cube xsi eta zet ->
  away m (snd (place c xsi eta)) -> away m (snd (place c (1/2) (1/2))) ->
  thick (cell3_of (d ti) c xi yi zi) -> thick (cell3_of (d (ti + 1)%Z) c xi yi zi) ->
  (ti < tdim - 1)%Z -> times ti < times (ti + 1)%Z -> times ti <= time ->
  exists a b, crosses_faces3 m (cell3_of (d ti) c xi yi zi) xsi eta zet a (face_values (U ti) (V ti) (W ti) xi yi zi) /\
    crosses_faces3 m (cell3_of (d (ti + 1)%Z) c xi yi zi) xsi eta zet b (face_values (U (ti + 1)%Z) (V (ti + 1)%Z) (W (ti + 1)%Z) xi yi zi) /\
    c_uvw_at times tdim m g (Moving d) U V W ti time xsi eta zet xi yi zi =
    Some (let w := (time - times ti) / (times (ti + 1)%Z - times ti) in
          let '(a1, a2, a3) := a in let '(b1, b2, b3) := b in
          ((1 - w) * a1 + w * b1, (1 - w) * a2 + w * b2, (1 - w) * a3 + w * b3)).
Proof. exact c_moving_at. Qed.
Print Assumptions jit_moving_levels_in_time.

(** Levels 10 deep at the first time and 20 at the second. *)
Example jit_moving_levels_in_time_case :
  same_cell Flat (cell_of tall 0 0) (cell_of tall 0 0) /\ narrow (cell_of tall 0 0) /\
  (forall t, (t = 0 \/ t = 1)%Z -> thick (cell3_of (moving t) (cell_of tall 0 0) 0 0 0)).
Proof. exact (conj eq_refl (conj tall_narrow (proj1 moving_modes))). Qed.

(** C54: JIT and Scipy mode return the same velocity when the levels do not move, at one time and between times; on
    flat meshes in cells less than half a turn wide, as in two dimensions. *)
Theorem modes_agree_3d_partial : forall m g d xsi eta zet xi yi zi c,
  same_cell m (cell_of g xi yi) c -> (m = Flat -> narrow c) -> unit_square xsi eta ->
  (forall U V W ti, c_uvw m g (Fixed d) U V W ti xsi eta zet xi yi zi = py_uvw m g (Fixed d) U V W xsi eta zet xi yi zi (fst (place c xsi eta))) /\
  (forall times tdim U V W ti time,
     c_uvw_at times tdim m g (Fixed d) U V W ti time xsi eta zet xi yi zi =
     py_uvw_at times tdim m g (Fixed d) U V W ti time xsi eta zet xi yi zi (fst (place c xsi eta))).
Proof.
  intros m g d xsi eta zet xi yi zi c SC NR S.
  split; [intros U V W ti; exact (modes3 m g d U V W ti xsi eta zet xi yi zi c SC NR S)
         |intros times tdim U V W ti time; exact (modes3_at times tdim m g d U V W ti time xsi eta zet xi yi zi c SC NR S)].
Qed.
Print Assumptions modes_agree_3d_partial.

(** C54: cells that share a face agree on what flows through it: side by side, one behind the other, one above the other. *)
Theorem shared_face_3d_east_west : forall m g d U V W c c' xi yi zi eta zet,
  same_cell m (cell_of g xi yi) c -> convex c -> thick (cell3_of d c xi yi zi) -> away m (snd (place c (1/2) (1/2))) ->
  same_cell m (cell_of g (xi + 1) yi) c' -> convex c' -> thick (cell3_of d c' (xi + 1) yi zi) -> away m (snd (place c' (1/2) (1/2))) ->
  sw c' = se c -> nw c' = ne c -> 0 <= eta <= 1 -> 0 <= zet <= 1 -> away m (snd (place c 1 eta)) ->
  exists a b, py_uvw m g (Fixed d) U V W 1 eta zet xi yi zi (fst (place c 1 eta)) = Some a /\
    py_uvw m g (Fixed d) U V W 0 eta zet (xi + 1) yi zi (fst (place c 1 eta)) = Some b /\
    let n := normal_x m (cell3_of d c xi yi zi) 1 eta zet in
    let lat := snd (place c 1 eta) in
    along3 (in_metres3 m lat a) n = U zi (yi + 1)%Z (xi + 1)%Z /\ along3 (in_metres3 m lat b) n = U zi (yi + 1)%Z (xi + 1)%Z.
Proof.
  intros m g d U V W c c' xi yi zi eta zet A1 A2 A3 A4 B1 B2 B3 B4.
  exact (shared_x m g d U V W c c' xi yi zi eta zet (conj A1 (conj A2 (conj A3 A4))) (conj B1 (conj B2 (conj B3 B4)))).
Qed.
Print Assumptions shared_face_3d_east_west.

Theorem shared_face_3d_north_south : forall m g d U V W c c' xi yi zi xsi zet,
  same_cell m (cell_of g xi yi) c -> convex c -> thick (cell3_of d c xi yi zi) -> away m (snd (place c (1/2) (1/2))) ->
  same_cell m (cell_of g xi (yi + 1)) c' -> convex c' -> thick (cell3_of d c' xi (yi + 1) zi) -> away m (snd (place c' (1/2) (1/2))) ->
  sw c' = nw c -> se c' = ne c -> 0 <= xsi <= 1 -> 0 <= zet <= 1 -> away m (snd (place c xsi 1)) ->
  exists a b, py_uvw m g (Fixed d) U V W xsi 1 zet xi yi zi (fst (place c xsi 1)) = Some a /\
    py_uvw m g (Fixed d) U V W xsi 0 zet xi (yi + 1) zi (fst (place c xsi 1)) = Some b /\
    let n := normal_y m (cell3_of d c xi yi zi) xsi 1 zet in
    let lat := snd (place c xsi 1) in
    along3 (in_metres3 m lat a) n = V zi (yi + 1)%Z (xi + 1)%Z /\ along3 (in_metres3 m lat b) n = V zi (yi + 1)%Z (xi + 1)%Z.
Proof.
  intros m g d U V W c c' xi yi zi xsi zet A1 A2 A3 A4 B1 B2 B3 B4.
  exact (shared_y m g d U V W c c' xi yi zi xsi zet (conj A1 (conj A2 (conj A3 A4))) (conj B1 (conj B2 (conj B3 B4)))).
Qed.
Print Assumptions shared_face_3d_north_south.

Theorem shared_face_3d_vertical : forall m g d U V W c xi yi zi xsi eta,
  same_cell m (cell_of g xi yi) c -> convex c -> away m (snd (place c (1/2) (1/2))) ->
  thick (cell3_of d c xi yi zi) -> thick (cell3_of d c xi yi (zi + 1)) ->
  0 <= xsi <= 1 -> 0 <= eta <= 1 -> away m (snd (place c xsi eta)) ->
  exists a b, py_uvw m g (Fixed d) U V W xsi eta 1 xi yi zi (fst (place c xsi eta)) = Some a /\
    py_uvw m g (Fixed d) U V W xsi eta 0 xi yi (zi + 1) (fst (place c xsi eta)) = Some b /\
    let n := normal_z m (cell3_of d c xi yi zi) xsi eta 1 in
    let lat := snd (place c xsi eta) in
    along3 (in_metres3 m lat a) n = W (zi + 1)%Z (yi + 1)%Z (xi + 1)%Z /\ along3 (in_metres3 m lat b) n = W (zi + 1)%Z (yi + 1)%Z (xi + 1)%Z.
Proof.
  intros m g d U V W c xi yi zi xsi eta A1 A2 A4 A3 B3.
  exact (shared_z m g d U V W c xi yi zi xsi eta (conj A1 (conj A2 (conj A3 A4))) (conj A1 (conj A2 (conj B3 A4)))).
Qed.
Print Assumptions shared_face_3d_vertical.

(** C54: a uniform flow is returned exactly, everywhere in the cell, in both modes: on flat meshes, in every convex cell
    between two levels that are planes there, however they slope. *)
Theorem uniform_flow_3d : forall g d U V W xi yi zi xsi eta zet v,
  let c := cell_of g xi yi in
  let h := cell3_of d c xi yi zi in
  convex c -> thick h -> planar c (lower h) -> planar c (upper h) -> unit_cube xsi eta zet ->
  flows_through h v (face_values U V W xi yi zi) ->
  py_uvw Flat g (Fixed d) U V W xsi eta zet xi yi zi (fst (place c xsi eta)) = Some v /\
  (narrow c -> forall ti, c_uvw Flat g (Fixed d) U V W ti xsi eta zet xi yi zi = Some v).
Proof.
  intros g d U V W xi yi zi xsi eta zet v c h C T LO UP S FT.
  split; [exact (py_uniform g (Fixed d) U V W xi yi zi xsi eta zet v C T LO UP S FT)
         |intros N ti; exact (c_uniform g (Fixed d) U V W ti xi yi zi xsi eta zet v C N T LO UP S FT)].
Qed.
Print Assumptions uniform_flow_3d.

(** A bottom that slopes by 3/4 under a flat level, and the flow (1, 2, 3): at 9/5 through the bottom. *)
Example uniform_flow_3d_case :
  let c := cell_of tall 0 0 in
  let h := cell3_of slope c 0 0 0 in
  convex c /\ narrow c /\ thick h /\ planar c (lower h) /\ planar c (upper h) /\
  flows_through h (1, 2, 3) (face_values one3 south3 up3 0 0 0).
Proof. exact slope_case. Qed.

(** C54: in a box through whose faces as much flows in as out, each component is linear between its two faces: the
    formula used on z-levels. *)
Theorem balanced_box_3d_partial : forall g d U V W xi yi zi x0 x1 y0 y1 z0 z1 xsi eta zet,
  let s := face_values U V W xi yi zi in
  x0 < x1 -> y0 < y1 -> z0 < z1 -> cell3_of d (cell_of g xi yi) xi yi zi = box x0 x1 y0 y1 z0 z1 ->
  unit_cube xsi eta zet -> balanced (x1 - x0) (y1 - y0) (z1 - z0) s ->
  py_uvw Flat g (Fixed d) U V W xsi eta zet xi yi zi (blend x0 x1 xsi) =
  Some (blend (s_w s) (s_e s) xsi, blend (s_s s) (s_n s) eta, blend (s_l s) (s_u s) zet).
Proof. exact py_box. Qed.
Print Assumptions balanced_box_3d_partial.

Example balanced_box_3d_case : balanced 10 60 10 (face_values one3 none3 none3 0 0 0) /\
  (forall x e z, unit_cube x e z -> py_uvw Flat tall (Fixed steps) one3 none3 none3 x e z 0 0 0 (blend 0 10 x) = Some (1, 0, 0)).
Proof. exact (conj east_balanced east_flow). Qed.

(** C54 is false when more flows into a box than out: with nothing flowing through its sides (U and V zero everywhere)
    particles in the middle are moved sideways. *)
Theorem unbalanced_box_3d_refuted : exists g d W xi yi zi,
  cell3_of d (cell_of g xi yi) xi yi zi = box 0 10 0 60 0 10 /\
  py_uvw Flat g (Fixed d) (fun _ _ _ => 0) (fun _ _ _ => 0) W (1/2) (1/2) (1/2) xi yi zi 5 = Some (1/2, 3, 1).
Proof.
  exists tall, steps, bottom, 0%Z, 0%Z, 0%Z. split; [rewrite tall_cell; exact (proj1 (steps_case Flat))|exact leak].
Qed.
Print Assumptions unbalanced_box_3d_refuted.

(** C54 is false for levels that move: Scipy mode takes the levels of the first time, JIT mode those of the time index. *)
Theorem moving_levels_3d_refuted : exists g d (U V W : Z -> Z -> Z -> Z -> R),
  (forall t, (t = 0 \/ t = 1)%Z -> thick (cell3_of (d t) (cell_of g 0 0) 0 0 0)) /\
  py_uvw_at (fun t => IZR t) 2 Flat g (Moving d) U V W 1 1 (1/2) (1/2) (1/2) 0 0 0 5 = Some (1/2, 3, 1) /\
  c_uvw_at (fun t => IZR t) 2 Flat g (Moving d) U V W 1 1 (1/2) (1/2) (1/2) 0 0 0 = Some (1/4, 3/2, 1).
Proof. exact (ex_intro _ tall (ex_intro _ moving (ex_intro _ (fun _ => none3) (ex_intro _ (fun _ => none3) (ex_intro _ (fun _ => bottom) moving_modes))))). Qed.
Print Assumptions moving_levels_3d_refuted.

(** With the depths of all levels negated both modes return the same vertical velocity and the opposite horizontal one,
    in every cell. *)
Theorem depths_negated_3d : forall m g d U V W xsi eta zet xi yi zi,
  let opposite := option_map (fun '(u, v, w) => (- u, - v, w)) in
  (forall x, py_uvw m g (Fixed (fun k j i => - d k j i)) U V W xsi eta zet xi yi zi x = opposite (py_uvw m g (Fixed d) U V W xsi eta zet xi yi zi x)) /\
  (forall ti, c_uvw m g (Fixed (fun k j i => - d k j i)) U V W ti xsi eta zet xi yi zi = opposite (c_uvw m g (Fixed d) U V W ti xsi eta zet xi yi zi)).
Proof.
  intros m g d U V W xsi eta zet xi yi zi opposite.
  split; [intros x; exact (py_upside_down m g d U V W xsi eta zet xi yi zi x)|intros ti; exact (c_upside_down m g d U V W ti xsi eta zet xi yi zi)].
Qed.
Print Assumptions depths_negated_3d.

(** So C54 is false for levels whose depths decrease with the index (which search_indices accepts): with U = 1 through
    every face everything moves at -1. *)
Theorem decreasing_levels_3d_refuted : exists g d U V W, forall x e z, unit_cube x e z ->
  cell3_of d (cell_of g 0 0) 0 0 0 = box 0 10 0 60 (- 0) (- 10) /\ (forall k j i, U k j i = 1 /\ V k j i = 0 /\ W k j i = 0) /\
  py_uvw Flat g (Fixed d) U V W x e z 0 0 0 (blend 0 10 x) = Some (-1, 0, 0) /\
  c_uvw Flat g (Fixed d) U V W 0 x e z 0 0 0 = Some (-1, 0, 0).
Proof.
  exists tall, (fun k j i => - steps k j i), one3, none3, none3. intros x e z S.
  split; [apply box_cell; intros; unfold steps; cbn; f_equal; ring|]. split; [intros; repeat split|exact (reversed x e z S)].
Qed.
Print Assumptions decreasing_levels_3d_refuted.

(** C54 is false for MITgcm indexing: the values of the faces are taken as in NEMO. *)
Theorem mitgcm_3d_refuted : exists g d U V W uvw,
  py_uvw Flat g (Fixed d) U V W 0 (1/2) (1/2) 0 0 0 0 = Some uvw /\
  let n := normal_x Flat (cell3_of d (cell_of g 0 0) 0 0 0) 0 (1/2) (1/2) in
  along3 uvw n = 1 /\ west_value Mitgcm (U 0%Z) 0 0 = 0.
Proof. exact (ex_intro _ tall (ex_intro _ steps (ex_intro _ by_row (ex_intro _ none3 (ex_intro _ none3 mitgcm_ignored))))). Qed.
Print Assumptions mitgcm_3d_refuted.
