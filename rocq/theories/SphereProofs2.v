(** Proofs about searches and samples on spherical meshes (C39). *)
From Coq Require Import List ZArith Bool QArith Lia Lqa ZifyBool.
From Verif Require Import IdxModel IdxSpec IdxProofs TimeModel InterpModel InterpSpec TimeProofs InterpProofs SphereSpec.
Import ListNotations.
Open Scope Q_scope.

(** ** Turns *)
Lemma turn_unique (a b : Q) (J K : Z) : -(360) < a - b < 360 -> a == b + 360 * inject_Z (J - K) -> J = K.
Proof.
  intros H E. assert (U : inject_Z (J - K) < 1) by nra. assert (V : -(1) < inject_Z (J - K)) by nra.
  change 1 with (inject_Z 1) in U. rewrite <- Zlt_Qlt in U. change (-(1)) with (inject_Z (-1)) in V. rewrite <- Zlt_Qlt in V. lia.
Qed.
Lemma turned_same m x x1 x2 : last_ m - first_ m < 360 -> turned x x1 -> turned x x2 -> first_ m <= x1 <= last_ m -> first_ m <= x2 <= last_ m -> x1 == x2.
Proof.
  intros S (J & E1) (K & E2) B1 B2. assert (J = K).
  { apply (turn_unique x2 x1); [lra|]. rewrite E1, E2. unfold Z.sub. rewrite inject_Z_plus, inject_Z_opp. ring. }
  subst K. rewrite E1, E2. reflexivity.
Qed.
Lemma turned_shift x c : c = 0 \/ c = 360 \/ c = -360 -> turned x (x - c).
Proof. intros [-> | [-> | ->]]; [exists 0%Z|exists 1%Z|exists (-1)%Z]; unfold inject_Z; ring. Qed.

(** ** Bounds *)
Lemma bounds_minmax l x : (1 <= zlen l)%Z -> (in_bounds l x <-> axis_min l <= x /\ x <= axis_max l).
Proof.
  intros L. assert (N : l <> []) by (intros ->; unfold zlen in L; cbn in L; lia).
  destruct (axis_min_spec l N) as [A1 A2]. destruct (axis_max_spec l N) as [B1 B2]. split.
  - intros ((i & I & U) & (j & J & V)). split; [specialize (A2 _ (at_in l i I))|specialize (B2 _ (at_in l j J))]; lra.
  - intros [U V]. destruct (in_at _ _ A1) as (i & I & E1). destruct (in_at _ _ B1) as (j & J & E2). split.
    + exists i. split; [exact I|]. rewrite E1. exact U.
    + exists j. split; [exact J|]. rewrite E2. exact V.
Qed.
Lemma lat_bounds l y : axis_ok l -> ((1 <? zlen l)%Z && (qlt y (axis_min l) || qlt (axis_max l) y) = false <-> inside l y).
Proof.
  intros (L & I). pose proof (axis_min_first _ I L) as M1. pose proof (axis_max_last _ I L) as M2. unfold inside.
  destruct (1 <? zlen l)%Z eqn:E; cbn [andb].
  - rewrite orb_false_iff, !qlt_false. split; [intros []; right; lra|]. intros [C|[]]; [lia|split; lra].
  - split; [left; lia|reflexivity].
Qed.
Lemma outside_sphere g x y : (1 < zlen (g_lon g))%Z -> axis_ok (g_lat g) ->
  (outside g x y = false <-> (g_zonal_periodic g = true \/ in_bounds (g_lon g) x) /\ inside (g_lat g) y).
Proof.
  intros L A. unfold outside. rewrite orb_false_iff, (lat_bounds _ y A). replace (1 <? zlen (g_lon g))%Z with true by lia. cbn [andb].
  rewrite (bounds_minmax (g_lon g) x) by lia. destruct (g_zonal_periodic g); cbn [negb andb]; [tauto|].
  rewrite orb_false_iff, !qlt_false. assert (false <> true) by discriminate. tauto.
Qed.

(** ** Along longitude *)
Lemma wrap_bounds l m k x : wraps l m k -> increasing m -> last_ m - first_ m < 360 -> in_bounds l x -> at_ m k - 360 <= x <= at_ m (k - 1).
Proof.
  intros WR I D ((i & Hi & U) & (j & Hj & V)). pose proof (wr_ends l m k WR I).
  destruct (wr_node l m k WR I i Hi) as (N1 & N2). destruct (wr_node l m k WR I j Hj) as (N3 & N4). split.
  - destruct N2 as [(_ & E & _)|(_ & E & G)]; rewrite E in U; lra.
  - destruct N4 as [(_ & E & G)|(_ & E & _)]; rewrite E in V; lra.
Qed.

Lemma inc_bounds l x : (1 < zlen l)%Z -> increasing l -> in_bounds l x -> first_ l <= x <= last_ l.
Proof.
  intros L I ((i & Hi & U) & (j & Hj & V)). split.
  - apply Qle_trans with (at_ l i); [apply inc_le; [exact I|lia..]|exact U].
  - apply Qle_trans with (at_ l j); [exact V|apply inc_le; [exact I|lia..]].
Qed.

Lemma turned_0 x : turned x x. Proof. exists 0%Z. unfold inject_Z. ring. Qed.

Lemma py_lon_circle l m x x' : circle_axis l m -> in_bounds l x -> on_axis m x x' ->
  exists i r, py_axis (lon_fixed l x) x = Some (i, r) /\ in_cell m x' i r.
Proof.
  intros (L & I & (S & N & LN) & C) B (T & X').
  assert (U : zlen (unwrap l) = zlen m /\ forall j, (0 <= j < zlen m)%Z -> at_ (unwrap l) j == at_ m j).
  { destruct C as [-> | (k & WR)]; [rewrite (unwrap_inc m) by (exact I || lia); split; reflexivity|]. exact (unwrap_wraps l m k WR I S). }
  destruct U as (U1 & U2). destruct (py_fixed l m x L I U1 U2) as (P1 & P2).
  assert (ALT : first_ m <= x <= last_ m \/ first_ m - 360 <= x <= last_ m - 360).
  { destruct C as [-> | (k & WR)]; [left; apply inc_bounds; assumption|].
    pose proof (wrap_bounds l m k x WR I S B) as WB. pose proof (wr_ends l m k WR I) as WE. destruct T as (J & E). rewrite E in X'.
    destruct (wr_J l m k x WR I S WB J X') as [(_ & A)|(_ & A)]; [left; lra|right; lra]. }
  destruct ALT as [ALT|ALT].
  - destruct (P1 ALT) as (i & r & A1 & A2). exists i, r. split; [exact A1|]. revert A2. apply in_cell_eq.
    apply (turned_same m x x x' S (turned_0 x) T ALT X').
  - destruct (P2 ltac:(lra) ltac:(lra) ltac:(lra)) as (i & r & A1 & A2). exists i, r. split; [exact A1|]. revert A2. apply in_cell_eq.
    apply (turned_same m x (x + 360) x' S); [exists (-1)%Z; unfold inject_Z; ring|exact T|lra|exact X'].
Qed.

(** What the C search returns is a cell of the axis. *)
Lemma c_found_circle l m x j : circle_axis l m -> l = m \/ in_bounds l x -> (0 <= j <= zlen l - 2)%Z -> cell_found l x j ->
  exists x', turned x x' /\ in_cell m x' j ((x - near_x (at_ l j) x) / (near_cell (at_ l (j + 1)) (near_x (at_ l j) x) - near_x (at_ l j) x)).
Proof.
  intros (L & I & (S & N & LN) & C) B J F. destruct C as [-> | (k & WR)].
  - destruct (inc_found_cell m x I N j J F) as (c & C & IC & _). exists (x - c). split; [apply turned_shift; exact C|exact IC].
  - assert (BB : in_bounds l x).
    { destruct B as [E|B]; [|exact B]. exfalso. rewrite E in WR. destruct WR as (_ & K & W). specialize (W k ltac:(lia)).
      replace (k <? k)%Z with false in W by lia. lra. }
    pose proof (wrap_bounds l m k x WR I S BB) as WB.
    destruct (wr_found_cell l m k x WR I N WB j J F) as (K & _ & IC). exists (x - 360 * inject_Z K). split; [exists K; reflexivity|exact IC].
Qed.

Lemma circle_len l m : circle_axis l m -> zlen l = zlen m.
Proof. intros (_ & _ & _ & [-> | (k & WR)]); [reflexivity|]. symmetry. apply WR. Qed.

Lemma c_lon_circle l m x x' i0 : circle_axis l m -> in_bounds l x -> on_axis m x x' -> (0 <= i0 <= zlen l - 2)%Z ->
  exists i r, c_sphere itmax l x i0 = Some (Some (i, r)) /\ in_cell m x' i r.
Proof.
  intros CA B (T & X') I0. pose proof (circle_len l m CA) as LE. pose proof CA as (L & I & (S & N & LN) & C).
  assert (FA : found_at l x (c_sphere itmax l x i0)).
  { destruct C as [-> | (k & WR)].
    - apply (sphere_finds m x I L N ltac:(lra) 0%Z ltac:(auto)); [|exact I0|rewrite itmax_is; lia].
      change (inject_Z 0) with 0. pose proof (inc_bounds m x L I B). lra.
    - pose proof (wrap_bounds l m k x WR I S B) as WB. destruct T as (J & E). rewrite E in X'.
      apply (wrapped_finds l m k x WR I N S WB J X'); [exact I0|rewrite itmax_is; lia]. }
  destruct FA as (j & J & F & E). destruct (c_found_circle l m x j CA ltac:(auto) J F) as (x2 & T2 & IC).
  eexists. eexists. split; [exact E|]. pose proof (in_cell_range _ _ _ _ I IC) as R. revert IC. apply in_cell_eq.
  apply (turned_same m x x2 x' S T2 T R X').
Qed.

(** ** Searches *)
Lemma py_search_core : forall g x x' m y z xi xsi, outside g x y = false -> (1 < zlen (g_lon g))%Z -> g_mom5 g = false -> axis_ok (g_lat g) -> depth_ok (g_depth g) ->
  inside (g_lat g) y -> depth_inside (g_depth g) z -> py_axis (if g_spherical g then lon_fixed (g_lon g) x else g_lon g) x = Some (xi, xsi) ->
  in_cell m x' xi xsi ->
  exists eta zeta yi zi, py_search g x y z = Found xsi eta zeta xi yi zi /\
    located (g_lat g) y yi eta /\ located (g_depth g) z zi zeta /\ (zlen (g_lat g) = 1 -> yi = -1)%Z.
Proof.
  intros g x x' m y z xi xsi O L M5 AY (LZ & MZ) Y Z0 EX LX.
  unfold py_search. rewrite O, M5, EX. replace (1 <? zlen (g_lon g))%Z with true by lia.
  destruct (py_axis_located _ y AY Y) as (yi & eta & -> & LY & NY).
  assert (V : exists zi zeta, (if (1 <? zlen (g_depth g))%Z then py_vertical_z false (g_depth g) z else VFound (-1) 0) = VFound zi zeta /\ located (g_depth g) z zi zeta).
  { destruct (1 <? zlen (g_depth g))%Z eqn:E.
    - destruct Z0 as [Z0|Z0]; [lia|]. destruct (py_vertical_spec (g_depth g) z ltac:(lia) MZ) as (A & _).
      destruct (A Z0) as (i & r & Q1 & Q2). exists i, r. split; [exact Q1|]. right. split; [lia|exact Q2].
    - exists (-1)%Z, 0. split; [reflexivity|]. left. split; [lia|lra]. }
  assert (LX' : in01 xsi = true). { destruct LX as (_ & _ & A & B & _). unfold in01. apply andb_true_iff. split; apply qle_spec; assumption. }
  destruct V as (zi & zeta & -> & LZ'). rewrite LX', (in01_cell _ _ _ _ LY), (in01_cell _ _ _ _ LZ').
  do 4 eexists. split; [reflexivity|]. repeat (split; [assumption|]). exact NY.
Qed.

(** The same for JIT mode; the cell may be that of another axis, as it is for [m]. *)
Lemma c_search_core' : forall g x x' m y z xi0 yi0 zi0 xi xsi, outside g x y = false -> (1 < zlen (g_lon g))%Z -> zlen m = zlen (g_lon g) -> g_spherical g = true -> g_mom5 g = false ->
  axis_ok (g_lat g) -> depth_ok (g_depth g) -> inside (g_lat g) y -> depth_inside (g_depth g) z -> valid_starts g xi0 yi0 zi0 ->
  c_sphere itmax (g_lon g) x xi0 = Some (Some (xi, xsi)) -> in_cell m x' xi xsi ->
  exists eta zeta yi zi, c_search g x y z xi0 yi0 zi0 = Found xsi eta zeta xi yi zi /\
    located (g_lat g) y yi eta /\ located (g_depth g) z zi zeta /\ valid_starts g xi yi zi /\ (zlen (g_lat g) = 1 -> yi = 0)%Z.
Proof.
  intros g x x' m y z xi0 yi0 zi0 xi xsi O L LM SP M5 AY AZ Y Z0 V EX LX. pose proof LX as (A & B & C & D & _).
  apply (c_search_core g x (at_ (g_lon g) xi + xsi * (at_ (g_lon g) (xi + 1) - at_ (g_lon g) xi)) y z xi0 yi0 zi0 xi xsi O M5 AY AZ Y Z0 V).
  - rewrite SP. replace (zlen (g_lon g) =? 1)%Z with false by lia. exact EX.
  - right. split; [exact L|]. split; [exact A|]. split; [lia|]. split; [exact C|]. split; [exact D|]. reflexivity.
Qed.

Theorem sphere_py_found : forall g m x x' y z, sphere_grid g m -> in_bounds (g_lon g) x -> on_axis m x x' ->
  inside (g_lat g) y -> depth_inside (g_depth g) z -> found_in g m x' y z (py_search g x y z).
Proof.
  intros g m x x' y z (SP & ZP & M5 & CA & AY & AZ) B X Y Z0. pose proof (circle_len _ _ CA) as LE. pose proof CA as (L & _).
  destruct (py_lon_circle _ m x x' CA B X) as (i & r & E & IC).
  assert (O : outside g x y = false) by (apply outside_sphere; [lia|exact AY|auto]).
  destruct (py_search_core g x x' m y z i r O ltac:(lia) M5 AY AZ Y Z0) as (eta & zeta & yi & zi & E2 & LY & LZ & _); [rewrite SP; exact E|exact IC|].
  exists r, eta, zeta, i, yi, zi. auto.
Qed.
Theorem sphere_c_found : forall g m x x' y z xi yi zi, sphere_grid g m -> in_bounds (g_lon g) x -> on_axis m x x' ->
  inside (g_lat g) y -> depth_inside (g_depth g) z -> valid_starts g xi yi zi -> found_in g m x' y z (c_search g x y z xi yi zi).
Proof.
  intros g m x x' y z xi yi zi (SP & ZP & M5 & CA & AY & AZ) B X Y Z0 V. pose proof (circle_len _ _ CA) as LE. pose proof CA as (L & _).
  assert (V0 : (0 <= xi <= zlen (g_lon g) - 2)%Z) by (destruct V as ([V|V] & _); lia).
  destruct (c_lon_circle _ m x x' xi CA B X V0) as (i & r & E & IC).
  assert (O : outside g x y = false) by (apply outside_sphere; [lia|exact AY|auto]).
  destruct (c_search_core' g x x' m y z xi yi zi i r O ltac:(lia) ltac:(lia) SP M5 AY AZ Y Z0 V E IC) as (eta & zeta & yi' & zi' & E2 & LY & LZ & _).
  exists r, eta, zeta, i, yi', zi'. auto.
Qed.

Theorem sphere_out : forall g m x y z xi yi zi, sphere_grid g m -> ~ (in_bounds (g_lon g) x /\ inside (g_lat g) y) ->
  py_search g x y z = OutOfBounds /\ c_search g x y z xi yi zi = OutOfBounds.
Proof.
  intros g m x y z xi yi zi (SP & ZP & M5 & CA & AY & AZ) N. pose proof (circle_len _ _ CA) as LE. pose proof CA as (L & _).
  assert (O : outside g x y = true).
  { destruct (outside g x y) eqn:E; [reflexivity|]. exfalso. apply N. apply outside_sphere in E; [|lia|exact AY].
    destruct E as ([E|E] & Y); [congruence|]. split; assumption. }
  unfold py_search, c_search. rewrite O. split; reflexivity.
Qed.

Theorem sphere_c_gap : forall g m x y z xi yi zi, sphere_grid g m -> valid_starts g xi yi zi -> (forall x', ~ on_axis m x x') ->
  c_search g x y z xi yi zi = OutOfBounds.
Proof.
  intros g m x y z xi yi zi (SP & ZP & M5 & CA & AY & AZ) V N. pose proof (circle_len _ _ CA) as LE. pose proof CA as (L & I & _).
  unfold c_search. destruct (outside g x y) eqn:O; [reflexivity|]. rewrite SP. replace (zlen (g_lon g) =? 1)%Z with false by lia.
  assert (V0 : (0 <= xi <= zlen (g_lon g) - 2)%Z) by (destruct V as ([V|V] & _); lia).
  destruct (sphere_safe (g_lon g) x itmax xi V0) as [-> | (j & J & F & E)]; [reflexivity|]. exfalso.
  apply outside_sphere in O; [|lia|exact AY]. destruct O as ([O|O] & _); [congruence|].
  destruct (c_found_circle _ m x j CA ltac:(auto) J F) as (x' & T & IC). apply (N x'). split; [exact T|]. exact (in_cell_range _ _ _ _ I IC).
Qed.

(** ** Zonally periodic grids *)
Theorem halo_py_found : forall g x y z, halo_lons g ->
  first_ (g_lon g) <= x <= last_ (g_lon g) \/ first_ (g_lon g) - 360 <= x <= last_ (g_lon g) - 360 /\ x < first_ (g_lon g) ->
  inside (g_lat g) y -> depth_inside (g_depth g) z ->
  exists x', turned x x' /\ found_in g (g_lon g) x' y z (py_search g x y z).
Proof.
  intros g x y z (SP & ZP & M5 & (_ & I) & (L & LN) & N & W & AY & AZ) X Y Z0.
  assert (O : outside g x y = false) by (apply outside_sphere; [lia|exact AY|auto]).
  pose proof (unwrap_inc (g_lon g) ltac:(lia) I) as U.
  destruct (py_fixed (g_lon g) (g_lon g) x L I) as (P1 & P2); [rewrite U; reflexivity|intros j _; rewrite U; reflexivity|].
  destruct X as [X|(X & X0)].
  - destruct (P1 X) as (i & r & E & IC). exists x. split; [apply turned_0|].
    destruct (py_search_core g x x (g_lon g) y z i r O L M5 AY AZ Y Z0) as (eta & zeta & yi & zi & E2 & LY & LZ & _); [rewrite SP; exact E|exact IC|].
    exists r, eta, zeta, i, yi, zi. auto.
  - destruct (P2 X0 ltac:(lra) ltac:(lra)) as (i & r & E & IC). exists (x + 360). split; [exists (-1)%Z; unfold inject_Z; ring|].
    destruct (py_search_core g x (x + 360) (g_lon g) y z i r O L M5 AY AZ Y Z0) as (eta & zeta & yi & zi & E2 & LY & LZ & _); [rewrite SP; exact E|exact IC|].
    exists r, eta, zeta, i, yi, zi. auto.
Qed.
Theorem halo_c_found : forall g x J y z xi yi zi, halo_lons g -> (-1 <= J <= 1)%Z ->
  first_ (g_lon g) + 360 * inject_Z J <= x <= last_ (g_lon g) + 360 * inject_Z J ->
  inside (g_lat g) y -> depth_inside (g_depth g) z -> valid_starts g xi yi zi ->
  exists x', turned x x' /\ found_in g (g_lon g) x' y z (c_search g x y z xi yi zi).
Proof.
  intros g x J y z xi yi zi (SP & ZP & M5 & (_ & I) & (L & LN) & N & W & AY & AZ) HJ X Y Z0 V.
  assert (O : outside g x y = false) by (apply outside_sphere; [lia|exact AY|auto]).
  assert (V0 : (0 <= xi <= zlen (g_lon g) - 2)%Z) by (destruct V as ([V|V] & _); lia).
  destruct (sphere_finds (g_lon g) x I L N W J ltac:(lia) X xi itmax V0 ltac:(rewrite itmax_is; lia)) as (j & Hj & F & E).
  destruct (inc_found_cell (g_lon g) x I N j Hj F) as (c & C & IC & _).
  destruct (c_search_core' g x (x - c) (g_lon g) y z xi yi zi j _ O L eq_refl SP M5 AY AZ Y Z0 V E IC) as (eta & zeta & yi' & zi' & E2 & LY & LZ & _).
  exists (x - c). split; [apply turned_shift; exact C|]. do 6 eexists. split; [exact E2|]. auto.
Qed.
(** Never a wrong cell, whatever the longitude. *)
Theorem halo_c_safe : forall g x y z xi yi zi, halo_lons g -> valid_starts g xi yi zi ->
  (forall x', turned x x' -> ~ (first_ (g_lon g) <= x' <= last_ (g_lon g))) -> c_search g x y z xi yi zi = OutOfBounds.
Proof.
  intros g x y z xi yi zi (SP & ZP & M5 & (_ & I) & (L & LN) & N & W & AY & AZ) V NO.
  unfold c_search. destruct (outside g x y) eqn:O; [reflexivity|]. rewrite SP. replace (zlen (g_lon g) =? 1)%Z with false by lia.
  assert (V0 : (0 <= xi <= zlen (g_lon g) - 2)%Z) by (destruct V as ([V|V] & _); lia).
  destruct (sphere_safe (g_lon g) x itmax xi V0) as [-> | (j & J & F & E)]; [reflexivity|]. exfalso.
  destruct (inc_found_cell (g_lon g) x I N j J F) as (c & C & IC & _).
  exact (NO (x - c) (turned_shift x c C) (in_cell_range _ _ _ _ I IC)).
Qed.

(** ** Sampled values *)
Section Samples.
Variables (f : sfield) (m : list Q).
Hypothesis SG : sphere_grid (s_grid f) m.
Hypothesis M : s_method f = Linear.
Hypothesis IX : s_indexing f = Nemo \/ s_indexing f = Mitgcm.
Hypothesis AT : axis_ok (s_time f).
Notation F0 := (on_lon m f).

Lemma on_lon_linear : linear_field F0.
Proof.
  destruct SG as (SP & ZP & M5 & (L & I & _) & AY & AZ). split; [left; reflexivity|]. split; [reflexivity|]. split; [exact M|]. split; [exact IX|].
  split; [split; [cbn; lia|exact I]|]. split; [exact AY|]. split; [exact AZ|exact AT].
Qed.
Lemma same_frame n : s_frame f n = s_frame F0 n.
Proof.
  destruct SG as (_ & _ & _ & CA & _). pose proof (circle_len _ _ CA) as LE. change (g_lon (s_grid f)) with (s_lon f) in LE.
  unfold s_frame. cbn [on_lon s_lon s_lat s_depth s_data]. rewrite LE. reflexivity.
Qed.

Theorem sphere_py_sample : forall t x x' y z, in_bounds (s_lon f) x -> on_axis m x x' -> inside (s_lat f) y -> depth_inside (s_depth f) z ->
  samples_as F0 t x' y z (py_sample f t x y z).
Proof.
  intros t x x' y z B X Y Z0. apply py_sample_frames; try reflexivity; [exact AT|]. intros n N.
  pose proof SG as (SP & ZP & M5 & CA & AY & AZ). pose proof (circle_len _ _ CA) as LE. pose proof CA as (L & I & _).
  change (g_lon (s_grid f)) with (s_lon f) in LE, CA. change (g_lat (s_grid f)) with (s_lat f) in AY. change (g_depth (s_grid f)) with (s_depth f) in AZ.
  destruct (py_lon_circle _ m x x' CA B X) as (i & r & E & IC).
  assert (O : outside (s_grid f) x y = false) by (apply outside_sphere; [cbn [s_grid g_lon]; lia|exact AY|auto]).
  destruct (py_search_core (s_grid f) x x' m y z i r O) as (eta & zeta & yi & zi & E2 & LY & LZ & NY); try assumption; [cbn [s_grid g_lon]; lia|rewrite SP; exact E|].
  unfold py_spatial. rewrite E2, py_index_in by exact N. change (s_depth f) with (s_depth F0). rewrite same_frame.
  apply (py_interp_found F0 x' y z n r eta zeta i yi zi); try assumption.
  - split; [cbn [on_lon s_lon]; lia|exact I].
  - right. split; [exact L|exact IC].
  - cbn [on_lon s_lon]. lia.
Qed.
Theorem sphere_c_sample : forall k t x x' y z xi yi zi ti, in_bounds (s_lon f) x -> on_axis m x x' -> inside (s_lat f) y -> depth_inside (s_depth f) z ->
  indices_ok f xi yi zi -> (ti < zlen (s_time f))%Z -> (1 < k)%nat -> s_periodic f = false \/ ~ t == last_ (s_time f) ->
  samples_as F0 t x' y z (c_sample k f t x y z xi yi zi ti).
Proof.
  intros k t x x' y z xi yi zi ti B X Y Z0 I0 T0 K NL. apply c_sample_frames; try reflexivity; try assumption. intros n N.
  pose proof SG as (SP & ZP & M5 & CA & AY & AZ). pose proof (circle_len _ _ CA) as LE. pose proof CA as (L & I & _).
  change (g_lon (s_grid f)) with (s_lon f) in LE, CA. change (g_lat (s_grid f)) with (s_lat f) in AY. change (g_depth (s_grid f)) with (s_depth f) in AZ.
  assert (V0 : (0 <= xi <= zlen (s_lon f) - 2)%Z) by (destruct I0 as ([V|V] & _); lia).
  destruct (c_lon_circle _ m x x' xi CA B X V0) as (i & r & E & IC).
  assert (O : outside (s_grid f) x y = false) by (apply outside_sphere; [cbn [s_grid g_lon]; lia|exact AY|auto]).
  destruct (c_search_core' (s_grid f) x x' m y z xi yi zi i r O) as (eta & zeta & yi' & zi' & E2 & LY & LZ & _ & NY); try assumption; try (cbn [s_grid g_lon]; lia).
  unfold c_spatial. rewrite E2. replace ((0 <=? n)%Z && (n <? zlen (s_time f))%Z) with true by lia. rewrite same_frame.
  apply (c_interp_found F0 x' y z n r eta zeta i yi' zi'); try assumption.
  - split; [cbn [on_lon s_lon]; lia|exact I].
  - right. split; [exact L|exact IC].
  - cbn [on_lon s_lon]. lia.
Qed.
End Samples.
