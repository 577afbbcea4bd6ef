(** C56: particles released along a line or from a field are where they were asked for, and the density counts every particle once. *)
From Coq Require Import List ZArith Bool QArith Reals Lia Lqa Arith.
From Verif Require Import IdxModel IdxBase IdxSpec IdxProofs TimeModel InterpModel InterpSpec MethSpec CurvModel ReleaseModel ReleaseSpec ReleaseProofs ReleaseProofs2.
From Verif Require CurvSpec.
Import ListNotations.
Open Scope Q_scope.

(** * Lines *)
(** from_line: as many positions as asked for, at equal distances, the first at the start and the last at the finish. *)
Theorem line_positions : forall start finish n d lon lat depth, from_line start finish n d = (lon, lat, depth) ->
  length lon = n /\ length lat = n /\
  (forall k x, nth_error lon k = Some x -> equidistant (fst start) (fst finish) n k x) /\
  (forall k y, nth_error lat k = Some y -> equidistant (snd start) (snd finish) n k y) /\
  match d with DNone => depth = None | DNumber z => exists l, depth = Some l /\ length l = n /\ (forall y, In y l -> y = z) | DArray l => depth = Some l end.
Proof.
  intros start finish n d lon lat depth E. unfold from_line in E. injection E as <- <- <-.
  split; [apply linspace_length|]. split; [apply linspace_length|]. split; [intros k x H; apply (linspace_at _ _ _ _ _ H)|].
  split; [intros k x H; apply (linspace_at _ _ _ _ _ H)|]. destruct d as [|z|l]; cbn; [reflexivity| |reflexivity].
  eexists. split; [reflexivity|]. split; [apply repeat_length|]. intros y Y. exact (repeat_spec _ _ _ Y).
Qed.
Print Assumptions line_positions.
Example line_positions_case :
  exists lon lat, from_line (2, 10) (8, 7) 4 (DNumber 5) = (lon, lat, Some [5; 5; 5; 5]) /\ map Qred lon = [2; 4; 6; 8] /\ map Qred lat = [10; 9; 8; 7].
Proof. do 2 eexists. split; [reflexivity|]. split; reflexivity. Qed.

(** * Fields of one level *)
(** A cell is drawn with the probability of its share in the total. *)
Theorem cell_probability : forall (tracer : bool) ny nx d w, (2 <= ny)%nat -> (2 <= nx)%nat -> (tracer = true -> (3 <= ny)%nat /\ (3 <= nx)%nat) ->
  (forall j i, (j + 1 < ny)%nat -> (i + 1 < nx)%nat -> share tracer d j i (w j i) /\ 0 <= w j i) -> 0 < total ny nx w ->
  forall j i, (j + 1 < ny)%nat -> (i + 1 < nx)%nat ->
    with_probability (w j i / total ny nx w) (fun u => draw_cell tracer (layer ny nx d) u = Some (j, i)).
Proof. exact draw_probability. Qed.
Print Assumptions cell_probability.

(** Each draw gives a position in a cell with a positive share, uniformly placed in it. *)
Theorem released_in_cell : forall (tracer : bool) ny nx d w lon lat, (2 <= ny)%nat -> (2 <= nx)%nat -> (tracer = true -> (3 <= ny)%nat /\ (3 <= nx)%nat) ->
  (forall j i, (j + 1 < ny)%nat -> (i + 1 < nx)%nat -> share tracer d j i (w j i) /\ 0 <= w j i) -> 0 < total ny nx w ->
  length lat = ny -> length lon = nx ->
  forall u xsi eta, unit_ u -> unit_ xsi -> unit_ eta ->
  exists x y j i, release tracer (layer ny nx d) lon lat (u, xsi, eta) = Some (x, y) /\ draw_cell tracer (layer ny nx d) u = Some (j, i) /\
    (j + 1 < ny)%nat /\ (i + 1 < nx)%nat /\ 0 < w j i /\ in_cell lon x (Z.of_nat i) xsi /\ in_cell lat y (Z.of_nat j) eta.
Proof.
  intros tracer ny nx d w lon lat NY NX TR SH TP LY LX u xsi eta U [X0 X1] [E0 E1].
  destruct (draw_some tracer ny nx d w NY NX TR SH TP u U) as (j & i & E & J & I & W).
  destruct (between_at lon i xsi ltac:(unfold zlen; lia) ltac:(lra)) as (x & EX & CX). destruct (between_at lat j eta ltac:(unfold zlen; lia) ltac:(lra)) as (y & EY & CY).
  exists x, y, j, i. split; [|repeat split; try assumption; try apply CX; try apply CY].
  unfold release. rewrite E. unfold rect_position. cbn [fst snd]. rewrite EX, EY. reflexivity.
Qed.
Print Assumptions released_in_cell.

(** All particles asked for are released, each by its own draw. *)
Theorem all_released : forall tracer f lon lat ds ps, release_all tracer f lon lat ds = Some ps <-> Forall2 (fun d p => release tracer f lon lat d = Some p) ds ps.
Proof.
  intros tracer f lon lat. induction ds as [|d ds IH]; intros ps; cbn [release_all].
  - split; [intros E; injection E as <-; constructor|]. intros F. inversion F. reflexivity.
  - split.
    + destruct (release tracer f lon lat d) as [p|] eqn:E; [|discriminate]. destruct (release_all tracer f lon lat ds) as [qs|]; [|discriminate].
      intros X. injection X as <-. constructor; [exact E|]. apply IH. reflexivity.
    + intros F. inversion F as [|? p ? qs A B EA EB]; subst. rewrite A. rewrite (proj2 (IH qs) B). reflexivity.
Qed.
Print Assumptions all_released.

(** Where particles are released the field is positive: sampled linearly in space, ... *)
Theorem released_on_positive : forall f w lon lat u xsi eta x y z q, linear_field f -> zlen (s_depth f) = 1%Z -> (forall j i, 0 <= s_data f 0 0 j i) ->
  let d j i := s_data f 0 0 (Z.of_nat j) (Z.of_nat i) in let ny := length (s_lat f) in let nx := length (s_lon f) in
  lon = s_lon f -> lat = s_lat f -> (2 <= ny)%nat -> (2 <= nx)%nat ->
  (forall j i, (j + 1 < ny)%nat -> (i + 1 < nx)%nat -> share false d j i (w j i) /\ 0 <= w j i) -> 0 < total ny nx w ->
  unit_ u -> unit_ xsi -> unit_ eta -> release false (layer ny nx d) lon lat (u, xsi, eta) = Some (x, y) ->
  position_inside f x y z /\ (frame_value f 0 x y z q -> 0 < q).
Proof.
  intros f w lon lat u xsi eta x y z q LF Z1 D d ny nx -> -> NY NX SH TP U X E R.
  destruct (released_in_cell false ny nx d w (s_lon f) (s_lat f) NY NX ltac:(discriminate) SH TP eq_refl eq_refl u xsi eta U X E) as (x' & y' & j & i & R' & _ & J & I & W & CX & CY).
  rewrite R in R'. injection R' as <- <-. pose proof LF as (_ & _ & _ & _ & AX & AY & _ & _). split.
  - split; [right; exact (in_cell_inside _ _ _ _ AX CX)|]. split; [right; exact (in_cell_inside _ _ _ _ AY CY)|]. left. exact Z1.
  - destruct (SH j i J I) as [S _]. exact (sampled_positive f x y z j i xsi eta q LF Z1 (fun a b => D _ _) J I (w j i) S W CX CY).
Qed.
Print Assumptions released_on_positive.
(** ... or as the tracer of a C-grid, in the interior of the cell. *)
Theorem released_on_tracer : forall f w lon lat u xsi eta x y z q, axis_ok (s_lon f) -> axis_ok (s_lat f) -> zlen (s_depth f) = 1%Z ->
  let d j i := s_data f 0 0 (Z.of_nat j) (Z.of_nat i) in let ny := length (s_lat f) in let nx := length (s_lon f) in
  lon = s_lon f -> lat = s_lat f -> (3 <= ny)%nat -> (3 <= nx)%nat ->
  (forall j i, (j + 1 < ny)%nat -> (i + 1 < nx)%nat -> share true d j i (w j i) /\ 0 <= w j i) -> 0 < total ny nx w ->
  unit_ u -> unit_ xsi -> unit_ eta -> 0 < xsi -> 0 < eta -> release true (layer ny nx d) lon lat (u, xsi, eta) = Some (x, y) ->
  tracer_value f 0 x y z q -> 0 < q /\ exists j i, draw_cell true (layer ny nx d) u = Some (j, i) /\ q == w j i.
Proof.
  intros f w lon lat u xsi eta x y z q AX AY Z1 d ny nx -> -> NY NX SH TP U X E X0 E0 R V.
  destruct (released_in_cell true ny nx d w (s_lon f) (s_lat f) ltac:(lia) ltac:(lia) ltac:(lia) SH TP eq_refl eq_refl u xsi eta U X E) as (x' & y' & j & i & R' & DR & J & I & W & CX & CY).
  rewrite R in R'. injection R' as <- <-. destruct (SH j i J I) as [S _]. destruct X as [_ X1]. destruct E as [_ E1].
  pose proof (sampled_tracer f x y z j i xsi eta q (w j i) AX AY Z1 J I S ltac:(lra) ltac:(lra) CX CY V) as Q. split; [rewrite Q; exact W|].
  exists j, i. split; [exact DR|exact Q].
Qed.
Print Assumptions released_on_tracer.

Definition ex_d (j i : nat) : Q := nth (j * 4 + i) [1; 2; 3; 0;  1; 2; 5; 1;  4; 1; 1; 1] 0.
Definition ex_w (j i : nat) : Q := nth (j * 3 + i) [3 # 2; 3; 0; 2; 9 # 4; 2] 0.
Lemma ex_share : forall j i, (j + 1 < 3)%nat -> (i + 1 < 4)%nat -> share false ex_d j i (ex_w j i) /\ 0 <= ex_w j i.
Proof.
  intros j i J I. destruct j as [|[|]]; [| |lia]; (destruct i as [|[|[|]]]; [| | |lia]);
    (split; [|vm_compute; discriminate]); cbv [share]; cbv zeta; split;
    first [ intros (c & [<-|[<-|[<-|[<-|[]]]]] & E); vm_compute in E; discriminate E || reflexivity
          | intros (c & [<-|[<-|[<-|[<-|[]]]]] & E); reflexivity
          | intros N; reflexivity
          | intros N; exfalso; apply (N 0); [cbn; tauto|reflexivity] ].
Qed.
Example cell_probability_case :
  (forall j i, (j + 1 < 3)%nat -> (i + 1 < 4)%nat -> share false ex_d j i (ex_w j i) /\ 0 <= ex_w j i) /\ total 3 4 ex_w == 43 # 4 /\
  map (draw_cell false (layer 3 4 ex_d)) [0; 5 # 43; 6 # 43; 1 # 2; 35 # 43; 42 # 43] =
    [Some (0, 0); Some (0, 0); Some (0, 1); Some (1, 0); Some (1, 2); Some (1, 2)]%nat /\
  release false (layer 3 4 ex_d) [0; 1; 3; 4] [10; 20; 40] (6 # 43, 1 # 2, 1 # 4) = Some (4 # 2, 50 # 4).
Proof. split; [exact ex_share|]. split; [reflexivity|]. split; vm_compute; reflexivity. Qed.

Definition ex_pos (m : method) : sfield :=
  mkField [0; 1; 3; 4] [10; 20; 40] [0] false false Nemo m [0] false true (fun t k j i => if ((0 <=? j) && (j <? 3) && (0 <=? i) && (i <? 4))%Z then ex_d (Z.to_nat j) (Z.to_nat i) else 0).
Example released_on_positive_case : linear_field (ex_pos Linear) /\ (forall j i, 0 <= s_data (ex_pos Linear) 0 0 j i) /\
  (exists q, py_sample (ex_pos Linear) 0 (4 # 2) (50 # 4) 0 = IVal q /\ q == 11 # 4) /\ py_sample (ex_pos CgridTracer) 0 (4 # 2) (50 # 4) 0 = IVal 5.
Proof.
  split; [|split].
  - unfold linear_field. cbn [ex_pos s_spherical s_zonal_periodic s_method s_indexing s_lon s_lat s_depth s_time].
    repeat (split; [first [reflexivity|left; reflexivity|apply axis_ok_b; reflexivity]|]).
    split; [split; [vm_compute; discriminate|left; apply axis_ok_b; reflexivity]|]. apply axis_ok_b; reflexivity.
  - intros j i. cbn [ex_pos s_data]. destruct ((0 <=? j) && (j <? 3) && (0 <=? i) && (i <? 4))%Z eqn:R; [|lra]. unfold ex_d.
    assert (C : (Z.to_nat j * 4 + Z.to_nat i < 12)%nat) by lia. revert C. generalize (Z.to_nat j * 4 + Z.to_nat i)%nat. intros n C.
    do 12 (destruct n as [|n]; [vm_compute; discriminate|]). lia.
  - split; [eexists; split; [vm_compute; reflexivity|reflexivity]|vm_compute; reflexivity].
Qed.

(** The size of the cells does not matter: of two cells with the same values, one three times as wide, each gets half of the particles, so
    the particles per area do not follow the field. *)
Theorem release_per_area_refuted : exists ny nx d w (lon : list Q), (forall j i, d j i = 1) /\
  (forall j i, (j + 1 < ny)%nat -> (i + 1 < nx)%nat -> share false d j i (w j i) /\ 0 <= w j i) /\ length lon = nx /\ axis_ok lon /\
  with_probability (1 # 2) (fun u => draw_cell false (layer ny nx d) u = Some (0%nat, 0%nat)) /\
  with_probability (1 # 2) (fun u => draw_cell false (layer ny nx d) u = Some (0%nat, 1%nat)) /\
  at_ lon 1 - at_ lon 0 == 1 /\ at_ lon 2 - at_ lon 1 == 3.
Proof.
  exists 2%nat, 3%nat, (fun _ _ => 1), (fun _ _ => 1), [0; 1; 4]. split; [reflexivity|].
  assert (SH : forall j i, (j + 1 < 2)%nat -> (i + 1 < 3)%nat -> share false (fun _ _ => 1) j i 1 /\ 0 <= 1).
  { intros j i _ _. split; [|lra]. split; [|intros _; reflexivity]. intros (c & [<-|[<-|[<-|[<-|[]]]]] & E); lra. }
  split; [exact SH|]. split; [reflexivity|]. split; [apply axis_ok_b; reflexivity|].
  pose proof (draw_probability false 2 3 (fun _ _ => 1) (fun _ _ => 1) ltac:(lia) ltac:(lia) ltac:(discriminate) SH ltac:(reflexivity)) as P.
  assert (H : forall j i, (j + 1 < 2)%nat -> (i + 1 < 3)%nat -> with_probability (1 # 2) (fun u => draw_cell false (layer 2 3 (fun _ _ => 1)) u = Some (j, i))).
  { intros j i J I. destruct (P j i J I) as (a & A & B & C). assert (T : 1 / total 2 3 (fun _ _ => 1) == 1 # 2) by reflexivity.
    exists a. split; [exact A|]. split; [lra|]. intros u U. rewrite (C u U). split; intros [? ?]; split; lra. }
  split; [apply H; lia|]. split; [apply H; lia|]. split; reflexivity.
Qed.
Print Assumptions release_per_area_refuted.

(** Fields of several levels: nothing can be released from one sampled linearly ... *)
Theorem release_levels_refuted : forall nz ny nx get u, draw_cell false (mkFrame [nz; ny; nx] get) u = None.
Proof.
  intros nz ny nx get u. unfold draw_cell. cbv zeta. destruct (Qeq_bool _ 0); [reflexivity|]. destruct (choice _ u) as [m|]; reflexivity.
Qed.
Print Assumptions release_levels_refuted.
(** ... and the tracer of a C-grid with two levels is taken one column off: all of it is in the cells of column 1, the particles are released
    in column 2 or raise IndexError. *)
Theorem release_two_levels_refuted : exists get lon lat u x y, let f := mkFrame [2; 3; 4]%nat get in
  (forall k j i, 0 < get [k; j; i] <-> i = 2%nat) /\ (forall k j i, get [k; j; i] = 0 \/ get [k; j; i] = 1) /\
  length lon = 4%nat /\ length lat = 3%nat /\ axis_ok lon /\ axis_ok lat /\ unit_ u /\
  release true f lon lat (u, 1 # 2, 1 # 2) = Some (x, y) /\ in_cell lon x 2 (1 # 2).
Proof.
  exists (fun idx => match idx with [k; j; i] => if (i =? 2)%nat then 1 else 0 | _ => 0 end), [0; 1; 2; 3], [0; 1; 2], 0, (5 # 2), (1 # 2). cbv zeta.
  split; [intros k j i; destruct (i =? 2)%nat eqn:E; [apply Nat.eqb_eq in E; split; [intros _; exact E|intros _; reflexivity]|apply Nat.eqb_neq in E; split; [intros H; exfalso; lra|intros H; contradiction]]|].
  split; [intros k j i; destruct (i =? 2)%nat; [right|left]; reflexivity|]. split; [reflexivity|]. split; [reflexivity|].
  split; [apply axis_ok_b; reflexivity|]. split; [apply axis_ok_b; reflexivity|]. split; [split; [lra|reflexivity]|].
  split; [vm_compute; reflexivity|]. split; [lia|]. split; [reflexivity|]. split; [lra|]. split; [lra|]. reflexivity.
Qed.
Print Assumptions release_two_levels_refuted.
(** A C-grid with one row of cells: its tracer cannot be released from. *)
Theorem release_one_row_refuted : forall nx d u, (3 <= nx)%nat -> draw_cell true (layer 2 nx d) u = None.
Proof.
  intros nx d u N. unfold draw_cell. cbv zeta. destruct (Qeq_bool _ 0); [reflexivity|]. destruct (choice _ u) as [m|]; [|reflexivity].
  cbn. replace (nx - 1 =? 1)%nat with false by (symmetry; apply Nat.eqb_neq; lia). reflexivity.
Qed.
Print Assumptions release_one_row_refuted.

(** * Curvilinear grids *)
(** The position is the point of the cell with the relative coordinates drawn, its corners being next to each other. *)
Theorem released_in_curvilinear_cell : forall g j i xsi eta x y,
  (v_spherical g = true -> Rabs (v_lon g j (i + 1)%Z - v_lon g j i) <= 540 /\ Rabs (v_lon g (j + 1)%Z (i + 1)%Z - v_lon g j i) <= 540 /\
    Rabs (v_lon g (j + 1)%Z i - v_lon g j i) <= 540)%R ->
  curv_position g j i xsi eta = (x, y) -> exists q, CurvSpec.point_of g j i q x y xsi eta.
Proof. exact curv_released. Qed.
Print Assumptions released_in_curvilinear_cell.
Example released_in_curvilinear_cell_case :
  let g := mkCurv (fun j i => IZR (170 + 20 * i - if (i =? 1)%Z then 360 else 0)%Z) (fun j i => IZR (10 * j + i)%Z) 2 2 true false in
  v_lon g 0%Z 0%Z = 170%R /\ v_lon g 0%Z 1%Z = (-170)%R /\ curv_position g 0 0 (1 / 4) (1 / 2) = (175, 21 / 4)%R.
Proof.
  cbv zeta. split; [reflexivity|]. split; [reflexivity|]. unfold curv_position, to_first, blend. cbn [v_lon v_lat v_spherical].
  change (0 + 1)%Z with 1%Z. change (IZR (170 + 20 * 0 - (if (0 =? 1)%Z then 360 else 0))) with 170%R. change (IZR (170 + 20 * 1 - (if (1 =? 1)%Z then 360 else 0))) with (-170)%R.
  change (IZR (10 * 0 + 0)) with 0%R. change (IZR (10 * 0 + 1)) with 1%R. change (IZR (10 * 1 + 1)) with 11%R. change (IZR (10 * 1 + 0)) with 10%R.
  repeat match goal with |- context [Rlt_dec ?a ?b] => destruct (Rlt_dec a b); try (exfalso; Lra.lra) end.
  f_equal; Lra.lra.
Qed.

(** * Density *)
(** Each particle is counted once, with its weight, in a cell it is in; the sum is that of the weights. In both modes. *)
Theorem density_counts : forall mx my g ps w ws, plain g -> (forall p, In p ps -> within_grid g p) -> weighs (length ps) w ws ->
  exists D cs, density mx my g ps w false false = Some D /\ Forall2 (fun p c => cell_holds g (d_lon p) (d_lat p) c) ps cs /\
    (forall j i, D j i == weight_in cs ws j i) /\ sum_over (zlen (g_lat g)) (zlen (g_lon g)) D == qsum ws.
Proof.
  intros mx my g ps w ws PL IN W. destruct (density_plain mx my g ps w ws PL IN W) as (D & cs & A & B & C & E & _).
  exists D, cs. repeat split; assumption.
Qed.
Print Assumptions density_counts.
(** If no particle is on the edge of a cell, the density is the weight of the particles in the cell, whatever the mode. *)
Theorem density_in_cells : forall mx my g ps w ws D, plain g -> (forall p, In p ps -> within_grid g p) -> weighs (length ps) w ws ->
  (forall p, In p ps -> off_edges (g_lon g) (d_lon p) /\ off_edges (g_lat g) (d_lat p)) ->
  density mx my g ps w false false = Some D -> forall j i, D j i == weight_strictly_in g ps ws j i.
Proof.
  intros mx my g ps w ws D PL IN W OFF E j i. destruct (density_plain mx my g ps w ws PL IN W) as (D' & cs & A & B & C & _).
  rewrite E in A. injection A as <-. rewrite C. destruct PL as (_ & _ & _ & AX & AY & _). apply weight_strict; assumption.
Qed.
Print Assumptions density_in_cells.
(** Relative densities are the same divided by the total weight; they add up to 1. *)
Theorem density_relative : forall mx my g ps w ws D, plain g -> (forall p, In p ps -> within_grid g p) -> weighs (length ps) w ws -> ~ qsum ws == 0 ->
  density mx my g ps w true false = Some D ->
  sum_over (zlen (g_lat g)) (zlen (g_lon g)) D == 1 /\ exists D0, density mx my g ps w false false = Some D0 /\ forall j i, D j i * qsum ws == D0 j i.
Proof.
  intros mx my g ps w ws D PL IN W NZ E. destruct (density_plain mx my g ps w ws PL IN W) as (D' & cs & A & B & C & S & R & _).
  rewrite (R true) in E. injection E as <-. split.
  - rewrite sum_over_rows. unfold rows. rewrite sum_map_eq with (h := fun j => qsum (map (fun i => D' (Z.of_nat j) (Z.of_nat i)) (seq 0 (Z.to_nat (zlen (g_lon g))))) / qsum ws).
    + rewrite sum_map_div. fold (rows (zlen (g_lat g)) (zlen (g_lon g)) D'). rewrite <- sum_over_rows, S. field. exact NZ.
    + intros j _. apply (sum_map_div (fun i => D' (Z.of_nat j) (Z.of_nat i))).
  - exists D'. split; [exact A|]. intros j i. field. exact NZ.
Qed.
Print Assumptions density_relative.
(** Scaled by area on a grid with equal steps, it is the weight in the cell per area of the cell ([mx lat] and [my]: the lengths of a degree, 1 on
    a flat mesh, taken at the southern edge). *)
Theorem density_per_area_partial : forall mx my g ps w ws hx hy D, plain g -> (forall p, In p ps -> within_grid g p) -> weighs (length ps) w ws ->
  regular (g_lon g) hx -> regular (g_lat g) hy -> density mx my g ps w false true = Some D ->
  exists D0, density mx my g ps w false false = Some D0 /\
  forall j i, (0 <= j)%Z -> (j + 1 < zlen (g_lat g))%Z -> (0 <= i)%Z -> (i + 1 < zlen (g_lon g))%Z -> ~ mx (at_ (g_lat g) j) == 0 -> ~ my == 0 ->
    D j i * ((at_ (g_lon g) (i + 1) - at_ (g_lon g) i) * mx (at_ (g_lat g) j) * ((at_ (g_lat g) (j + 1) - at_ (g_lat g) j) * my)) == D0 j i.
Proof.
  intros mx my g ps w ws hx hy D PL IN W RX RY E. destruct (density_plain mx my g ps w ws PL IN W) as (D' & cs & A & B & C & S & _ & R).
  pose proof RX as (LX & HX & SX). pose proof RY as (LY & HY & SY).
  assert (EA : cell_areas mx my g = Some (fun j i => (gradient (g_lon g) i * mx (nth (Z.to_nat j) (g_lat g) 0)) * (gradient (g_lat g) j * my))).
  { unfold cell_areas. replace ((zlen (g_lon g) <? 2)%Z || (zlen (g_lat g) <? 2)%Z) with false by lia. reflexivity. }
  rewrite (R false _ EA) in E. injection E as <-. exists D'. split; [exact A|]. intros j i J0 J1 I0 I1 MX MY. cbv beta. fold (at_ (g_lat g) j).
  rewrite (gradient_regular _ _ _ RX) by lia. rewrite (gradient_regular _ _ _ RY) by lia. rewrite (SX i I0 I1), (SY j J0 J1). field.
  repeat split; try assumption; lra.
Qed.
Print Assumptions density_per_area_partial.
Definition ex_dgrid := mkRgrid [0; 1; 4] [0; 2; 4] [0] false false false.
Definition ex_dps := [mkDpart (1 # 2) 1 0 None; mkDpart (3 # 2) 1 0 (Some (0, 0, 0)%Z); mkDpart (7 # 2) (3 # 2) 0 (Some (1, 1, 0)%Z); mkDpart 3 3 0 None].
Example density_counts_case :
  plain ex_dgrid /\ (forall p, In p ex_dps -> within_grid ex_dgrid p) /\ (forall p, In p ex_dps -> off_edges (g_lon ex_dgrid) (d_lon p) /\ off_edges (g_lat ex_dgrid) (d_lat p)) /\
  exists D, density (fun _ => 1) 1 ex_dgrid ex_dps (WList [1; 2; 3; 5]) false false = Some D /\
    map (fun c => Qred (D (fst c) (snd c))) [(0, 0); (0, 1); (0, 2); (1, 0); (1, 1)]%Z = [1; 5; 0; 0; 5].
Proof.
  split; [split; [left; reflexivity|]; split; [reflexivity|]; split; [reflexivity|]; split; [apply axis_ok_b; reflexivity|]; split; [apply axis_ok_b; reflexivity|]; split; [vm_compute; discriminate|left; apply axis_ok_b; reflexivity]|].
  split; [|split].
  - intros p [<-|[<-|[<-|[<-|[]]]]]; (split; [right; split; vm_compute; discriminate|]; split; [right; split; vm_compute; discriminate|]; split; [left; reflexivity|]);
      cbn; try exact I; unfold valid_starts, valid_start; cbn; repeat split; first [right; split; vm_compute; (discriminate || reflexivity)|left; reflexivity].
  - intros p [<-|[<-|[<-|[<-|[]]]]]; (split; right; intros i R; cbn in R; assert (C : i = 0%Z \/ i = 1%Z \/ i = 2%Z) by (change (zlen (g_lon ex_dgrid)) with 3%Z in *; change (zlen (g_lat ex_dgrid)) with 3%Z in *; cbn in R; lia);
      destruct C as [-> | [-> | ->]]; vm_compute; discriminate).
  - eexists. split; [vm_compute; reflexivity|]. vm_compute. reflexivity.
Qed.

Example density_per_area_partial_case :
  let g := mkRgrid [0; 2; 4] [0; 3] [0] false false false in regular (g_lon g) 2 /\ regular (g_lat g) 3 /\
  exists D, density (fun _ => 1) 1 g [mkDpart 1 1 0 None; mkDpart (1 # 2) 2 0 None; mkDpart 3 2 0 (Some (0, 0, 0)%Z)] (WName [1; 4; 2]) false true = Some D /\
    D 0%Z 0%Z == 5 # 6 /\ D 0%Z 1%Z == 1 # 3 /\
  exists R, density (fun _ => 1) 1 g [mkDpart 1 1 0 None; mkDpart (1 # 2) 2 0 None; mkDpart 3 2 0 (Some (0, 0, 0)%Z)] (WName [1; 4; 2]) true false = Some R /\
    R 0%Z 0%Z == 5 # 7 /\ R 0%Z 1%Z == 2 # 7.
Proof.
  cbv zeta. split; [|split].
  - split; [vm_compute; discriminate|]. split; [reflexivity|]. intros i A B. change (zlen [0; 2; 4]) with 3%Z in B. assert (C : i = 0%Z \/ i = 1%Z) by (cbn in B; lia). destruct C as [-> | ->]; reflexivity.
  - split; [vm_compute; discriminate|]. split; [reflexivity|]. intros i A B. assert (C : i = 0%Z) by (change (zlen (g_lat _)) with 2%Z in B; lia). subst. reflexivity.
  - eexists. split; [reflexivity|]. split; [vm_compute; reflexivity|]. split; [vm_compute; reflexivity|]. eexists. split; [reflexivity|]. split; vm_compute; reflexivity.
Qed.

(** With steps that differ, the area is not that of the cell the particles are counted in: it is the one around its first node. *)
Theorem density_area_refuted : exists g ps D D0, plain g /\ (forall p, In p ps -> within_grid g p) /\ g_spherical g = false /\
  density (fun _ => 1) 1 g ps WNone false true = Some D /\ density (fun _ => 1) 1 g ps WNone false false = Some D0 /\
  ~ D 0%Z 1%Z * ((at_ (g_lon g) 2 - at_ (g_lon g) 1) * (at_ (g_lat g) 1 - at_ (g_lat g) 0)) == D0 0%Z 1%Z.
Proof.
  exists (mkRgrid [0; 1; 4; 5] [0; 2] [0] false false false), [mkDpart 2 1 0 None]. do 2 eexists.
  split; [split; [left; reflexivity|]; split; [reflexivity|]; split; [reflexivity|]; split; [apply axis_ok_b; reflexivity|]; split; [apply axis_ok_b; reflexivity|]; split; [vm_compute; discriminate|left; apply axis_ok_b; reflexivity]|].
  split; [intros p [<-|[]]; split; [right; split; vm_compute; discriminate|]; split; [right; split; vm_compute; discriminate|]; split; [left; reflexivity|exact I]|].
  split; [reflexivity|]. split; [reflexivity|]. split; [reflexivity|]. vm_compute. discriminate.
Qed.
Print Assumptions density_area_refuted.
(** Weights in an array, as the documentation asks for, raise an exception; one weight of 0 counts as 1. *)
Theorem density_weights_refuted : forall mx my g ps l rel area, (2 <= length l)%nat -> density mx my g ps (WArray l) rel area = None.
Proof. intros mx my g ps l rel area L. unfold density. destruct l as [|a [|b l]]; [cbn in L; lia..|]. reflexivity. Qed.
Print Assumptions density_weights_refuted.
Theorem density_zero_weight_refuted : exists g ps D, plain g /\ (forall p, In p ps -> within_grid g p) /\ length ps = 1%nat /\
  density (fun _ => 1) 1 g ps (WArray [0]) false false = Some D /\ D 0%Z 0%Z == 1.
Proof.
  exists (mkRgrid [0; 1] [0; 2] [0] false false false), [mkDpart (1 # 2) 1 0 None]. eexists.
  split; [split; [left; reflexivity|]; split; [reflexivity|]; split; [reflexivity|]; split; [apply axis_ok_b; reflexivity|]; split; [apply axis_ok_b; reflexivity|]; split; [vm_compute; discriminate|left; apply axis_ok_b; reflexivity]|].
  split; [intros p [<-|[]]; split; [right; split; vm_compute; discriminate|]; split; [right; split; vm_compute; discriminate|]; split; [left; reflexivity|exact I]|].
  split; [reflexivity|]. split; [reflexivity|]. vm_compute. reflexivity.
Qed.
Print Assumptions density_zero_weight_refuted.
(** On a curvilinear grid the array has not the shape of the field. *)
Theorem density_shape_refuted : forall ydim xdim, (1 < ydim)%Z -> (1 < xdim)%Z -> density_shape true ydim xdim <> (ydim, xdim) /\ density_shape false ydim xdim = (ydim, xdim).
Proof. intros ydim xdim Y X. split; [|reflexivity]. unfold density_shape. intros E. injection E as E1 E2. nia. Qed.
Print Assumptions density_shape_refuted.
