(** C47: the analytical kernel follows the exact path through the cells of a C-grid. *)
From Coq Require Import Reals ZArith List.
From Verif Require Import UnitModel UnitSpec CGridModel CGridSpec AdvModel AnaModel AnaSpec AnaProofs AnaProofs2 AnaProofs3 AnaProofs4 AnaProofs5.
Import ListNotations.
Open Scope R_scope.

(** C47 on a flat mesh, forward in time: from a place in a cell where the tolerances of the kernel do not come into play, one
    call follows a path of the velocity field of the cell (the data at the time of the particle), stays in the cell, and
    ends after dt, after the longest step between two frames, or on a face.  particle.dt is the time passed.
    Missing: spherical meshes (below), backward runs and the tolerances (refuted below), velocities that change in time
    (the kernel takes the data at the time of the particle during the step), the rotated faces of curvilinear grids. *)
Theorem analytical_exact_partial : forall f lon lat ti w p,
  fl_mesh f = Flat -> fl_grid f = Rectilinear lon lat -> 0 < a_dt p -> in_time f ti (a_time p) ->
  let v := shift f w in
  let b := box_of f lon lat v in
  let tau := weight f ti (a_time p) in
  solid (fl_withW f) b -> located (fl_withW f) b v p -> clear_box f ti tau v b ->
  exists p' X Y Z, analytical f ti w p = ADone p' /\
    0 < a_dt p' <= a_dt p /\
    trajectory (velocity f ti tau (level f (s_zi v)) v b) p (a_dt p') X Y Z /\
    (forall t, 0 <= t <= a_dt p' -> inside (fl_withW f) b (X t) (Y t) (Z t)) /\
    (a_lon p' = X (a_dt p') /\ a_lat p' = Y (a_dt p') /\ a_depth p' = Z (a_dt p')) /\
    (a_time p' = a_time p /\ a_next p' = a_next p) /\
    (a_dt p' = a_dt p \/ ninth f ti (a_time p) (a_dt p') \/ on_face (fl_withW f) b (a_lon p') (a_lat p') (a_depth p')).
Proof. exact exact_flat. Qed.
Print Assumptions analytical_exact_partial.

(** C47: there is no other path. *)
Theorem analytical_path_unique : forall f lon lat ti w tau k p T X Y Z X2 Y2 Z2,
  fl_mesh f = Flat -> fl_grid f = Rectilinear lon lat -> let b := box_of f lon lat w in solid (fl_withW f) b -> 0 <= T ->
  trajectory (velocity f ti tau k w b) p T X Y Z -> trajectory (velocity f ti tau k w b) p T X2 Y2 Z2 ->
  X T = X2 T /\ Y T = Y2 T /\ Z T = Z2 T.
Proof. exact path_unique. Qed.
Print Assumptions analytical_path_unique.

(** A cell that meets the hypotheses of both, with W: faster and faster to the east, slower and slower to the north. *)
Example stretching_cell :
  in_time stretching 0 0 /\ shift stretching (here 0 (1/4)) = here 0 (1/4) /\
  let b := box_of stretching (fun i => 1 * IZR i) (fun j => 1 * IZR j) (here 0 (1/4)) in
  solid true b /\ located true b (here 0 (1/4)) (part 0 (1/4) 5) /\
  clear_box stretching 0 (weight stretching 0 0) (here 0 (1/4)) b.
Proof. exact stretching_met. Qed.

(** C47: the cell in which the step is made contains the particle: the one found by the search or, on an upper face with the
    flow (of the first frame) going on, the next one. *)
Theorem analytical_next_cell : forall f lon lat w p,
  located (fl_withW f) (box_of f lon lat w) w p ->
  (forall r, In r [s_xsi w; s_eta w; s_zeta w] -> r = 1 \/ tol <= Rabs (r - 1)) ->
  let v := shift f w in
  let k := level f (s_zi w) in
  located (fl_withW f) (box_of f lon lat v) v p /\
  moved_on (s_xsi w = 1 /\ 0 < fl_U f 0%Z k (s_yi w + 1)%Z (s_xi w + 1)%Z) (s_xi w) (s_xi v) (s_xsi w) (s_xsi v) /\
  moved_on (s_eta w = 1 /\ 0 < fl_V f 0%Z k (s_yi w + 1)%Z (s_xi v + 1)%Z) (s_yi w) (s_yi v) (s_eta w) (s_eta v) /\
  moved_on (fl_withW f = true /\ s_zeta w = 1 /\ 0 < fl_W f 0%Z k (s_yi v + 1)%Z (s_xi v + 1)%Z) (s_zi w) (s_zi v) (s_zeta w) (s_zeta v).
Proof. exact next_cell. Qed.
Print Assumptions analytical_next_cell.

Example next_cell_case :
  let f := zonal 1 (fun _ => 1) in let w := here 1 (1/2) in
  located false (box_of f (fun i => 1 * IZR i) (fun j => 1 * IZR j) w) w (part 1 (1/2) 10) /\
  (forall r, In r [s_xsi w; s_eta w; s_zeta w] -> r = 1 \/ tol <= Rabs (r - 1)) /\
  (s_xsi w = 1 /\ 0 < fl_U f 0%Z (level f (s_zi w)) (s_yi w + 1)%Z (s_xi w + 1)%Z) /\
  shift f w = mkFound 0 (1/2) 0 1 0 0.
Proof. exact next_cell_met. Qed.

(** C47 without W on either mesh: the line that the particle follows is a line of the velocity field.  Along it the clock
    of the kernel runs at the rate of the first latitude: [s] is time over the area of the cell at the latitude of the
    particle, particle.dt is [s] times the area at its first latitude. *)
Theorem analytical_line_partial : forall f lon lat ti w p,
  fl_withW f = false -> fl_grid f = Rectilinear lon lat -> 0 < a_dt p -> in_time f ti (a_time p) ->
  let v := shift f w in
  let b := box_of f lon lat v in
  let tau := weight f ti (a_time p) in
  solid false b -> plain (fl_mesh f) b p -> located false b v p -> clear_box f ti tau v b ->
  exists p' s X Y, analytical f ti w p = ADone p' /\ 0 < s /\ (X 0 = a_lon p /\ Y 0 = a_lat p) /\
    (forall t, 0 <= t <= s -> inside false b (X t) (Y t) 0 /\
       exists u v', velocity f ti tau 0 v b (X t) (Y t) 0 = Some (u, v', 0) /\
         let area := width (fl_mesh f) b (Y t) * height (fl_mesh f) b in
         derivable_pt_lim X t (u * area) /\ derivable_pt_lim Y t (v' * area)) /\
    (a_lon p' = X s /\ a_lat p' = Y s /\ a_depth p' = a_depth p /\ a_time p' = a_time p /\ a_next p' = a_next p) /\
    a_dt p' = s * (width (fl_mesh f) b (a_lat p) * height (fl_mesh f) b) /\
    0 < a_dt p' <= a_dt p /\
    (a_dt p' = a_dt p \/ ninth f ti (a_time p) (a_dt p') \/ on_face false b (a_lon p') (a_lat p') (a_depth p')).
Proof. exact exact_line. Qed.
Print Assumptions analytical_line_partial.

(** C47 is false on a spherical mesh: no particle is at 30 degrees at the time the kernel says (the hypotheses of
    [analytical_line_partial] hold here). *)
Theorem spherical_time_refuted :
  exists p', analytical northward 0 equator ship = ADone p' /\ a_lat p' = 30 /\ a_dt p' = 30 * 111120 /\
  forall X Y Z, trajectory (velocity northward 0 0 0 equator nbox) ship (a_dt p') X Y Z ->
    (forall t, 0 <= t <= a_dt p' -> inside false nbox (X t) (Y t) (Z t)) -> Y (a_dt p') <> a_lat p'.
Proof. exact slow_clock. Qed.
Print Assumptions spherical_time_refuted.

(** C47 is false backward in time: in a flow of 1 to the east a particle at 1/4 of the cell from 0 to 1 ends at -1/2. *)
Theorem backward_in_cell_refuted :
  exists p', analytical (zonal 1 (fun _ => 1)) 0 (here (1/4) (1/2)) (part (1/4) (1/2) (-10)) = ADone p' /\
  a_lon p' = - (1 / 2) /\ a_dt p' = - (3 / 4).
Proof. exact backward_leaves. Qed.
Print Assumptions backward_in_cell_refuted.

(** C47 is false near a stagnant face: with U from 0 to 1 the particle passes the other face. *)
Theorem stagnant_face_refuted :
  exists p', analytical (zonal 1 IZR) 0 (here (1/100000000000) (1/2)) (part (1/100000000000) (1/2) 100) = ADone p' /\
  a_lon p' > 1 /\ a_dt p' = 100.
Proof. exact stagnant_leaves. Qed.
Print Assumptions stagnant_face_refuted.

(** C47 is false within 1e-10 of the western or southern face: the particle goes on for all of dt. *)
Theorem near_face_refuted :
  exists p', analytical (zonal 1 (fun _ => -1)) 0 (here (1/100000000000) (1/2)) (part (1/100000000000) (1/2) 10) = ADone p' /\
  a_lon p' < -9 /\ a_dt p' = 10.
Proof. exact at_face_leaves. Qed.
Print Assumptions near_face_refuted.

(** C47 is false where the fluxes differ by 1e-10 exactly: an exception. *)
Theorem flux_difference_refuted : forall p, 0 < a_dt p ->
  exists p', analytical (zonal 1 (fun i => tol * IZR i)) 0 (here (1/4) (1/2)) p = AFail p'.
Proof. exact difference_fails. Qed.
Print Assumptions flux_difference_refuted.

(** C47 is false at longitudes of more than 225 degrees plus the latitude: a particle at rest ends one turn away. *)
Theorem resting_longitude_refuted :
  exists p', analytical resting 0 (here (1/2) (1/2)) (part (310 + 1/2) (10 + 1/2) 10) = ADone p' /\
  a_lon p' = a_lon (part (310 + 1/2) (10 + 1/2) 10) - 360 /\ a_lat p' = 10 + 1/2.
Proof. exact resting_turned. Qed.
Print Assumptions resting_longitude_refuted.

(** C47: a step does not end at the next frame. *)
Theorem next_frame_refuted : in_time two_frames 0 (a_time late) /\
  exists p', analytical two_frames 0 (here (1/4) (1/2)) late = ADone p' /\ a_dt p' = 9 /\ a_time late + a_dt p' > fl_times two_frames 1.
Proof. exact past_frame. Qed.
Print Assumptions next_frame_refuted.

(** C47 is false of the velocity of fieldset.UV in three dimensions: U and V are taken one level further down. *)
Theorem horizontal_level_refuted :
  velocity layered 0 0 (s_zi in_layer) in_layer (box_of layered (fun i => IZR i) (fun j => IZR j) in_layer) (1/4) (1/2) (1/2) = Some (1, 0, 0) /\
  exists p', analytical layered 0 in_layer top = ADone p' /\ a_lon p' = a_lon top /\ a_dt p' = a_dt top.
Proof. exact other_level. Qed.
Print Assumptions horizontal_level_refuted.
