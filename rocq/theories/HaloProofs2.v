(** Proofs about periodic halos: fieldsets and sampling. *)
From Coq Require Import List ZArith Bool QArith Lia Lqa ZifyBool.
From Verif Require Import IdxModel IdxSpec IdxProofs TimeModel InterpModel InterpSpec TimeProofs InterpProofs HaloModel HaloSpec HaloProofs.
Import ListNotations.
Open Scope Z_scope.

Lemma map_opt_spec : forall A B (f : A -> option B) (R : A -> B -> Prop) l, (forall a, In a l -> exists b, f a = Some b /\ R a b) ->
  exists l', map_opt f l = Some l' /\ Forall2 R l l'.
Proof.
  induction l as [|a l IH]; intros H; [exists []; split; [reflexivity|constructor]|].
  destruct (H a (or_introl eq_refl)) as (b & E & Rb). destruct IH as (l' & E' & F); [intros x X; apply H; right; exact X|].
  exists (b :: l'). cbn [map_opt]. rewrite E, E'. split; [reflexivity|constructor; assumption].
Qed.
Lemma forall2_nth : forall A B (R : A -> B -> Prop) l l', Forall2 R l l' -> forall n a, nth_error l n = Some a ->
  exists b, nth_error l' n = Some b /\ R a b.
Proof.
  intros A B R l l' F. induction F as [|a b l l' H F IH]; intros n x E; [destruct n; discriminate|].
  destruct n as [|n]; [injection E as <-; exists b; split; [reflexivity|exact H]|]. apply IH. exact E.
Qed.
Lemma dims_pos : forall g, grid_ok g -> 1 <= h_xdim g /\ 1 <= h_ydim g.
Proof.
  intros g (C & _). destruct (h_coords g); [destruct C as ((A1 & _) & (A2 & _) & -> & ->); split; assumption|destruct C as (-> & -> & _ & _ & ? & ?); split; assumption].
Qed.

Lemma reshape_spec : forall zonal meridional h g g', grid_ok g -> fits zonal meridional h g ->
  extends_grid zonal meridional h g g' -> h_zonal_halo g' = (if zonal then h else 0) -> h_meridional_halo g' = (if meridional then h else 0) ->
  loads_extended zonal meridional h g g'.
Proof.
  intros zonal meridional h g g' G (H & Z & M) (_ & _ & X & Y & _) HZ HM a AX AY. pose proof (dims_pos g G) as P.
  unfold reshape_halo. rewrite HZ, HM.
  replace (a_y a =? _) with true by (destruct meridional; lia). replace (a_x a =? _) with true by (destruct zonal; lia). cbn [andb].
  assert (N : extends_array false false h a a).
  { split; [lia|]. split; [lia|]. intros t j i J I. destruct (origin_zero (a_x a) i I) as (O & _), (origin_zero (a_y a) j J) as (O' & _). rewrite O, O'. reflexivity. }
  assert (B : forall b : bool, (0 <? (if b then h else 0)) = b) by (intros [|]; lia). rewrite !B.
  destruct zonal, meridional; cbn [orb]; cbv iota.
  - replace (Z.max h h) with h by lia. apply array_halo_spec; lia.
  - replace (Z.max 0 h) with h by lia. apply array_halo_spec; lia.
  - replace (Z.max h 0) with h by lia. apply array_halo_spec; lia.
  - exists a. split; [reflexivity|exact N].
Qed.

Theorem fset_halo_spec : forall zonal meridional h fs, fset_ok zonal meridional h fs ->
  exists fs', fset_halo zonal meridional h fs = Some fs' /\
    Forall2 (fun g g' => extends_grid zonal meridional h g g' /\ loads_extended zonal meridional h g g') (fs_grids fs) (fs_grids fs') /\
    Forall2 (extends_attr zonal meridional h (fs_grids fs)) (fs_attrs fs) (fs_attrs fs').
Proof.
  intros zonal meridional h fs (G & F). unfold fset_halo.
  destruct (map_opt_spec _ _ (grid_halo zonal meridional h)
    (fun g g' => (grid_ok g /\ fits zonal meridional h g) /\ extends_grid zonal meridional h g g' /\ loads_extended zonal meridional h g g') (fs_grids fs)) as (gs' & E & R).
  { intros g I. rewrite Forall_forall in G. destruct (G g I) as (K & Fi & H1 & H2).
    destruct (grid_halo_spec zonal meridional h g K Fi) as (g' & E & S & S1 & S2). exists g'. split; [exact E|]. split; [split; assumption|]. split; [exact S|].
    apply reshape_spec; [assumption..| |]; [rewrite S1, H1; reflexivity|rewrite S2, H2; reflexivity]. }
  rewrite E.
  destruct (map_opt_spec _ _ (attr_halo zonal meridional h gs') (extends_attr zonal meridional h (fs_grids fs)) (fs_attrs fs)) as (l' & E' & R').
  { intros x I. rewrite Forall_forall in F. specialize (F x I). destruct x as [n a|l]; [|exists (AGroup l); split; reflexivity].
    destruct F as (g & Ng & AX & AY). destruct (forall2_nth _ _ _ _ _ R n g Ng) as (g' & Ng' & (K & (H & Z & M)) & S & _).
    pose proof (dims_pos g K) as P. destruct S as (_ & _ & X & Y & _ & D).
    cbn [attr_halo]. rewrite Ng'. unfold field_halo. rewrite D. destruct (h_defer g) eqn:Dg.
    - exists (AField n a). split; [reflexivity|]. split; [reflexivity|]. intros g0 N0. replace g0 with g by congruence. rewrite Dg. reflexivity.
    - destruct (array_halo_spec zonal meridional h (h_xdim g') (h_ydim g') a) as (a' & Ea & Sa);
        [lia|lia|exact H|intros T; specialize (Z T); lia|intros T; specialize (M T); lia|lia|lia|].
      rewrite Ea. exists (AField n a'). split; [reflexivity|]. split; [reflexivity|]. intros g0 N0. replace g0 with g by congruence. rewrite Dg. exact Sa. }
  rewrite E'. eexists. split; [reflexivity|]. split; [|exact R'].
  cbn [fs_grids]. clear -R. induction R as [|g g' l l' (_ & H) R IH]; constructor; assumption.
Qed.

(** ** Sampling *)
(** The zonally periodic flag does not matter inside the grid. *)
Lemma outside_flag : forall g b x y, axis_ok (g_lon g) -> inside (g_lon g) x ->
  outside g x y = outside (mkRgrid (g_lon g) (g_lat g) (g_depth g) (g_spherical g) b (g_mom5 g)) x y.
Proof.
  intros g b x y (N & I) P. unfold outside. cbn [g_lon g_lat g_depth g_spherical g_zonal_periodic g_mom5]. f_equal.
  destruct (Z.ltb_spec 1 (zlen (g_lon g))) as [L|L]; [|reflexivity]. cbn [andb].
  assert (R : qlt x (axis_min (g_lon g)) || qlt (axis_max (g_lon g)) x = false).
  { destruct P as [P|P]; [lia|]. apply orb_false_iff. split; apply qlt_false; [rewrite axis_min_first|rewrite axis_max_last]; try assumption; apply P. }
  rewrite R, !andb_false_r. reflexivity.
Qed.
Definition plain_flag (f : sfield) : sfield := 
  {| s_lon := s_lon f; s_lat := s_lat f; s_depth := s_depth f; s_spherical := false; s_zonal_periodic := false;
     s_indexing := s_indexing f; s_method := s_method f; s_time := s_time f; s_periodic := s_periodic f; s_extrapolate := s_extrapolate f;
     s_data := s_data f |}.
Lemma lon_fixed_inside : forall l x, axis_ok l -> (first_ l <= x)%Q -> lon_fixed l x = l.
Proof.
  intros l x (N & I) X. rewrite lon_fixed_eq, (unwrap_inc l N I), hd_at by exact N. change (at_ l 0) with (first_ l).
  replace (qlt x (first_ l)) with false by (symmetry; apply qlt_false; exact X). reflexivity.
Qed.
Lemma py_flag : forall f t x y z, axis_ok (s_lon f) -> inside (s_lon f) x -> py_sample f t x y z = py_sample (plain_flag f) t x y z.
Proof.
  intros f t x y z A I. unfold py_sample, py_spatial.
  assert (E : py_search (s_grid f) x y z = py_search (s_grid (plain_flag f)) x y z).
  { unfold py_search. rewrite (outside_flag (s_grid f) false x y A I).
    change (outside (mkRgrid (g_lon (s_grid f)) (g_lat (s_grid f)) (g_depth (s_grid f)) (g_spherical (s_grid f)) false (g_mom5 (s_grid f))) x y)
      with (outside (s_grid (plain_flag f)) x y).
    destruct (outside (s_grid (plain_flag f)) x y); [reflexivity|]. cbn [s_grid plain_flag g_lon g_lat g_depth g_spherical g_mom5 s_lon s_lat s_depth s_indexing].
    destruct (1 <? zlen (s_lon f)) eqn:L; [|reflexivity]. destruct I as [I|(I & _)]; [lia|]. rewrite (lon_fixed_inside _ _ A I). destruct (s_spherical f); reflexivity. }
  rewrite E. reflexivity.
Qed.
Lemma c_flag : forall k f t x y z xi yi zi ti, axis_ok (s_lon f) -> inside (s_lon f) x -> s_spherical f = false ->
  c_sample k f t x y z xi yi zi ti = c_sample k (plain_flag f) t x y z xi yi zi ti.
Proof.
  intros k f t x y z xi yi zi ti A I S. unfold c_sample, c_spatial.
  assert (E : c_search (s_grid f) x y z xi yi zi = c_search (s_grid (plain_flag f)) x y z xi yi zi).
  { unfold c_search. rewrite (outside_flag (s_grid f) false x y A I). cbn [s_grid plain_flag g_lon g_lat g_depth g_spherical g_mom5 g_zonal_periodic s_lon s_lat s_depth s_indexing s_spherical s_zonal_periodic]. rewrite S. reflexivity. }
  rewrite E. reflexivity.
Qed.

(** What a sample should be carries over from one field and place to another with the same frame values. *)
Lemma samples_move : forall f f' t x y z x' y' z' r, s_time f' = s_time f -> s_periodic f' = s_periodic f -> s_extrapolate f' = s_extrapolate f ->
  (1 <= zlen (s_time f)) ->
  (forall n q, 0 <= n < zlen (s_time f) -> frame_value f n x y z q -> frame_value f' n x' y' z' q) ->
  samples_as f t x y z r -> samples_as f' t x' y' z' r.
Proof.
  intros f f' t x y z x' y' z' r T P X N FV. unfold samples_as. rewrite T, P, X. cbv zeta.
  assert (G : forall s q, field_value f s x y z q -> field_value f' s x' y' z' q).
  { intros s q (w & W & V). exists w. split; [|rewrite T; exact V]. intros n K. rewrite T in K. apply FV; [exact K|]. apply W. exact K. }
  destruct (s_periodic f).
  - intros H L. destruct (H L) as (q & t' & -> & W & V). exists q, t'. split; [reflexivity|]. split; [exact W|]. apply G. exact V.
  - intros (A & B & C & D). split; [|split; [|split]].
    + intros L. destruct (A L) as (q & -> & V). exists q. split; [reflexivity|apply G; exact V].
    + exact B.
    + intros L E. destruct (C L E) as (q & -> & V). exists q. split; [reflexivity|apply FV; [lia|exact V]].
    + intros L E. destruct (D L E) as (q & -> & V). exists q. split; [reflexivity|apply FV; [lia|exact V]].
Qed.
