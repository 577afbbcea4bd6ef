(** Proofs about sampling on s levels: search and value (C41). *)
From Coq Require Import List ZArith Bool QArith Qround Lia Lqa ZifyBool.
From Verif Require Import IdxModel IdxSpec IdxProofs TimeModel InterpModel InterpSpec TimeProofs InterpProofs.
From Verif Require Import SlevModel SlevSpec SlevTime SlevProofs.
Import ListNotations.
Open Scope Q_scope.

Lemma column_cases : forall f t x y z p d, slev_field f -> place_of f t x y p -> is_column f p d ->
  (level_inside f t x y z -> within d z) /\ (level_above f t x y z -> above_first d z) /\ (level_below f t x y z -> below_last d z).
Proof.
  intros f t x y z p d (_ & _ & _ & _ & AX & AY & AT & LV) P C.
  destruct (column_mono f t x y p d AX AY AT LV P C) as [L M]. destruct C as [LD E].
  assert (F : forall p', place_of f t x y p' -> first_ d == depth_at f p' 0 /\ last_ d == depth_at f p' (l_zdim f - 1)).
  { intros p' P'. unfold first_, last_. rewrite !E by lia. rewrite LD. unfold depth_at.
    split; apply (at_place_unique f t x y); assumption. }
  split; [|split]; intros (p' & P' & H); destruct (F p' P') as [F1 F2].
  - unfold within. rewrite F1, F2. exact H.
  - split; [exact L|]. destruct M as [M|M].
    + pose proof (inc_dir d L M). left. split; [exact M|]. destruct H as [[_ H]|[H _]]; lra.
    + pose proof (dec_dir d L M). right. split; [exact M|]. destruct H as [[H _]|[_ H]]; lra.
  - split; [exact L|]. destruct M as [M|M].
    + pose proof (inc_dir d L M). left. split; [exact M|]. destruct H as [[_ H]|[H _]]; lra.
    + pose proof (dec_dir d L M). right. split; [exact M|]. destruct H as [[H _]|[_ H]]; lra.
Qed.

Lemma l_outside_in : forall f x y, axis_ok (l_lon f) -> axis_ok (l_lat f) -> l_zonal_periodic f = false ->
  inside (l_lon f) x -> inside (l_lat f) y -> l_outside f x y = false.
Proof.
  intros f x y AX AY ZP X Y. unfold l_outside.
  change (outside (mkRgrid (l_lon f) (l_lat f) [] (l_spherical f) (l_zonal_periodic f) false) x y)
    with (outside (mkRgrid (l_lon f) (l_lat f) [0] false (l_zonal_periodic f) false) x y).
  apply outside_plain; [|split; [exact X|exact Y]]. repeat split; cbn; try assumption; try (apply AX || apply AY); [left; reflexivity|lia|].
  left. intros i j A B. cbn in B. lia.
Qed.
Lemma l_outside_out : forall f x y, axis_ok (l_lon f) -> axis_ok (l_lat f) -> l_zonal_periodic f = false ->
  ~ (inside (l_lon f) x /\ inside (l_lat f) y) -> l_outside f x y = true.
Proof.
  intros f x y AX AY ZP H. destruct (l_outside f x y) eqn:E; [reflexivity|]. exfalso. apply H. unfold l_outside in E.
  change (outside (mkRgrid (l_lon f) (l_lat f) [] (l_spherical f) (l_zonal_periodic f) false) x y)
    with (outside (mkRgrid (l_lon f) (l_lat f) [0] false (l_zonal_periodic f) false) x y) in E.
  apply outside_plain in E; [exact E|]. repeat split; cbn; try assumption; try (apply AX || apply AY); [left; reflexivity|lia|].
  left. intros i j A B. cbn in B. lia.
Qed.

(** ** Python *)
Definition found_s (d : list Q) (z : Q) (r : vres) : Prop :=
  (within d z -> exists zi zeta, r = VFound zi zeta /\ in_cell d z zi zeta) /\
  (above_first d z -> r = VSurface) /\ (below_last d z -> r = VOut).

Lemma in_cell_01 : forall d z i r, in_cell d z i r -> in01 r = true.
Proof. intros d z i r (_ & _ & A & B & _). unfold in01. rewrite andb_true_iff, !qle_spec. auto. Qed.

Lemma py_search_s_spec : forall f x y z, slev_field f -> inside (l_lon f) x -> inside (l_lat f) y ->
  exists xi xsi yi eta, located (l_lon f) x xi xsi /\ located (l_lat f) y yi eta /\
    (zlen (l_lon f) = 1 -> xi = -1)%Z /\ (zlen (l_lat f) = 1 -> yi = -1)%Z /\
    forall ti time d, py_column f xi yi xsi eta ti time = Some d -> (1 < zlen d)%Z -> increasing d \/ decreasing d ->
      (within d z -> exists zi zeta, in_cell d z zi zeta /\ forall ti' time', py_column f xi yi xsi eta ti' time' = Some d ->
         py_search_s f x y z ti' time' = Found xsi eta zeta xi yi zi) /\
      (above_first d z -> py_search_s f x y z ti time = ThroughSurface) /\
      (below_last d z -> py_search_s f x y z ti time = OutOfBounds).
Proof.
  intros f x y z (S & ZP & MT & IX & AX & AY & AT & (LZ & LV)) X Y.
  destruct (py_lon_located (l_spherical f) _ x AX X) as (xi & xsi & EX & LX & NX).
  destruct (py_axis_located _ y AY Y) as (yi & eta & EY & LY & NY).
  exists xi, xsi, yi, eta. split; [exact LX|]. split; [exact LY|]. split; [exact NX|]. split; [exact NY|].
  assert (SR : forall ti time d, py_column f xi yi xsi eta ti time = Some d -> py_search_s f x y z ti time =
    match py_vertical_s d z with VFound zi zeta => if in01 xsi && in01 eta && in01 zeta then Found xsi eta zeta xi yi zi else Sampling
    | VOut => OutOfBounds | VSurface => ThroughSurface | VBad => BadIndex end).
  { intros ti time d C. unfold py_search_s. rewrite (l_outside_in f x y) by assumption. rewrite EX, EY.
    replace (1 <? l_zdim f)%Z with true by lia. rewrite C. reflexivity. }
  intros ti time d C L M. destruct (py_vertical_spec d z L M) as (W & A & B). rewrite <- py_vertical_s_z in W, A, B by assumption.
  split; [|split].
  - intros I. destruct (W I) as (zi & zeta & V & IC). exists zi, zeta. split; [exact IC|]. intros ti' time' C'. rewrite (SR _ _ _ C'), V.
    rewrite (in01_cell _ _ _ _ LX), (in01_cell _ _ _ _ LY), (in_cell_01 _ _ _ _ IC). reflexivity.
  - intros H. rewrite (SR _ _ _ C), (A H). reflexivity.
  - intros H. rewrite (SR _ _ _ C), (B H). reflexivity.
Qed.

Definition slice (f : lfield) (n : Z) (xi : Z) (xsi : Q) (yi : Z) (eta : Q) (zi : Z) (zeta : Q) : Q :=
  (1 - zeta) * bilin f (fun j i => l_data f n zi j i) xi xsi yi eta + zeta * bilin f (fun j i => l_data f n (zi + 1) j i) xi xsi yi eta.

Lemma py_interp_s : forall f n x y xi xsi yi eta zi zeta, slev_field f -> located (l_lon f) x xi xsi -> located (l_lat f) y yi eta ->
  (zlen (l_lon f) = 1 -> xi = -1)%Z -> (zlen (l_lat f) = 1 -> yi = -1)%Z -> (0 <= zi)%Z -> (zi + 1 < l_zdim f)%Z ->
  exists q, py_interp3D (l_indexing f) (l_method f) (l_frame f n) xsi eta zeta xi yi zi = IVal q /\ q == slice f n xi xsi yi eta zi zeta.
Proof.
  intros f n x y xi xsi yi eta zi zeta (S & ZP & MT & IX & AX & AY & AT & (LZ & LV)) LX LY NX NY Z0 Z1. rewrite MT. unfold py_interp3D.
  destruct (py_bilinear_level (l_frame f n) (l_lon f) (l_lat f) x y xi yi xsi eta zi zi eq_refl eq_refl AX AY LX LY NX NY) as (q0 & -> & Q0).
  { cbn. apply py_index_in. lia. }
  destruct (py_bilinear_level (l_frame f n) (l_lon f) (l_lat f) x y xi yi xsi eta (zi + 1) (zi + 1) eq_refl eq_refl AX AY LX LY NX NY) as (q1 & -> & Q1).
  { cbn. apply py_index_in. lia. }
  replace (is_pop (l_indexing f)) with false by (destruct IX as [-> | ->]; reflexivity). cbn [andb].
  eexists. split; [reflexivity|]. unfold slice. rewrite Q0, Q1. reflexivity.
Qed.

Lemma cell_depth : forall f p d z zi zeta, is_column f p d -> in_cell d z zi zeta ->
  (0 <= zi)%Z /\ (zi + 1 < l_zdim f)%Z /\ 0 <= zeta /\ zeta <= 1 /\ z == depth_at f p zi + zeta * (depth_at f p (zi + 1) - depth_at f p zi).
Proof.
  intros f p d z zi zeta (LD & E) (A & B & C & D & F). rewrite LD in B. rewrite !E in F by lia. auto.
Qed.

Lemma not_bgrid : forall f, slev_field f -> is_bgrid (l_method f) = false.
Proof. intros f (_ & _ & -> & _). reflexivity. Qed.

Theorem py_level_sampled : forall f t x y z, slev_field f -> inside (l_lon f) x -> inside (l_lat f) y ->
  level_sampled f t x y z (py_sample_s f t x y z).
Proof.
  intros f t x y z SF X Y t' SA. pose proof SF as (S & ZP & MT & IX & AX & AY & AT & (LZ & LV)).
  destruct (py_picked f t t' AT SA) as (i & pr & EI & (IR & PK) & STR).
  destruct (py_search_s_spec f x y z SF X Y) as (xi & xsi & yi & eta & LX & LY & NX & NY & SRCH).
  unfold py_sample_s, py_eval_s. rewrite EI. cbv zeta. rewrite pyget_in by exact IR.
  destruct PK as [(-> & TC & I1 & A & B)|(-> & TE)].
  - set (tc := t - inject_Z pr * (l_fn f - l_f0 f)) in *. rewrite pyget_in by lia.
    assert (B' : tc < at_ (l_time f) (i + 1)) by (specialize (STR I1); lra). assert (A' : at_ (l_time f) i < tc) by lra.
    destruct (place_between f i tc x y xi yi xsi eta AT ltac:(lia) I1 A' ltac:(lra) LX LY) as (P & R0 & R1 & V).
    set (r := (tc - at_ (l_time f) i) / (at_ (l_time f) (i + 1) - at_ (l_time f) i)) in *. set (p := mkPlace xi xsi yi eta i r) in *.
    destruct (py_column_between f x y xi yi xsi eta AX AY AT LZ LX LY (not_bgrid f SF) NX NY i tc p i ltac:(lia) I1 A' B' (or_introl eq_refl) P) as (d & ED & CD).
    assert (ED1 : py_column f xi yi xsi eta (i + 1) tc = Some d).
    { rewrite <- ED. unfold py_column. cbv zeta. rewrite (pyget_in (l_time f) (i + 1)), (pyget_in (l_time f) i) by lia.
      replace (qlt tc (at_ (l_time f) (i + 1))) with true by (symmetry; apply qlt_spec; exact B').
      replace (qlt tc (at_ (l_time f) i)) with false by (symmetry; apply qlt_false; lra).
      replace (i + 1 - 1)%Z with i by lia. reflexivity. }
    destruct (column_mono f tc x y p d AX AY AT (conj LZ LV) P CD) as [LD MD].
    destruct (SRCH i tc d ED LD MD) as (S1 & S2 & S3).
    assert (P' : place_of f t' x y p) by (eapply place_eq; [exact TC|exact P]).
    destruct (column_cases f t' x y z p d SF P' CD) as (K1 & K2 & K3).
    unfold py_spatial_s. split; [|split].
    + intros H. destruct (S1 (K1 H)) as (zi & zeta & IC & FO). rewrite (FO _ _ ED), (FO _ _ ED1).
      unfold l_tdim. rewrite !py_index_in by lia. replace (l_zdim f =? 1)%Z with false by lia.
      destruct (cell_depth f p d z zi zeta CD IC) as (Z0 & Z1 & Q0 & Q1 & ZE).
      destruct (py_interp_s f i x y xi xsi yi eta zi zeta SF LX LY NX NY Z0 Z1) as (q0 & -> & E0).
      destruct (py_interp_s f (i + 1) x y xi xsi yi eta zi zeta SF LX LY NX NY Z0 Z1) as (q1 & -> & E1).
      eexists. split; [reflexivity|]. exists p, zi, zeta. repeat (split; [assumption|]).
      unfold data_at. rewrite !V. unfold lin. fold r. rewrite E0, E1. unfold slice. ring.
    + intros H. rewrite (S2 (K2 H)). reflexivity.
    + intros H. rewrite (S3 (K3 H)). reflexivity.
  - destruct (place_at_frame f i x y xi yi xsi eta AT IR LX LY) as (p & P & _ & _ & _ & _ & V).
    destruct (py_column_frame f x y xi yi xsi eta AX AY AT LZ LX LY (not_bgrid f SF) NX NY i p IR P) as (d & ED & CD).
    destruct (column_mono f _ x y p d AX AY AT (conj LZ LV) P CD) as [LD MD].
    destruct (SRCH i _ d ED LD MD) as (S1 & S2 & S3).
    assert (P' : place_of f t' x y p) by (eapply place_eq; [symmetry; exact TE|exact P]).
    destruct (column_cases f t' x y z p d SF P' CD) as (K1 & K2 & K3).
    unfold py_spatial_s. split; [|split].
    + intros H. destruct (S1 (K1 H)) as (zi & zeta & IC & FO). rewrite (FO _ _ ED).
      unfold l_tdim. rewrite !py_index_in by lia. replace (l_zdim f =? 1)%Z with false by lia.
      destruct (cell_depth f p d z zi zeta CD IC) as (Z0 & Z1 & Q0 & Q1 & ZE).
      destruct (py_interp_s f i x y xi xsi yi eta zi zeta SF LX LY NX NY Z0 Z1) as (q0 & -> & E0).
      eexists. split; [reflexivity|]. exists p, zi, zeta. repeat (split; [assumption|]).
      unfold data_at. rewrite !V, E0. unfold slice. reflexivity.
    + intros H. rewrite (S2 (K2 H)). reflexivity.
    + intros H. rewrite (S3 (K3 H)). reflexivity.
Qed.

(** ** C *)
Lemma c_search_s_spec : forall f x y z xi0 yi0 zi0, slev_field f -> inside (l_lon f) x -> inside (l_lat f) y -> l_indices_ok f xi0 yi0 zi0 ->
  exists xi xsi yi eta, located (l_lon f) x xi xsi /\ located (l_lat f) y yi eta /\
    (zlen (l_lon f) = 1 -> xi = 0)%Z /\ (zlen (l_lat f) = 1 -> yi = 0)%Z /\
    forall ti time t0 t1 d, c_column f xi yi xsi eta ti time t0 t1 = Some d -> zlen d = l_zdim f -> increasing d \/ decreasing d ->
      (within d z -> exists zi zeta, in_cell d z zi zeta /\ c_search_s f x y z xi0 yi0 zi0 ti time t0 t1 = Found xsi eta zeta xi yi zi) /\
      (above_first d z -> c_search_s f x y z xi0 yi0 zi0 ti time t0 t1 = ThroughSurface) /\
      (below_last d z -> c_search_s f x y z xi0 yi0 zi0 ti time t0 t1 = OutOfBounds).
Proof.
  intros f x y z xi0 yi0 zi0 (S & ZP & MT & IX & AX & AY & AT & (LZ & LV)) X Y (VX & VY & VZ).
  destruct (c_lon_located (l_spherical f) _ x xi0 AX X VX S) as (xi & xsi & EX & LX & NX).
  destruct (c_axis_located _ y yi0 AY Y VY) as (yi & eta & EY & LY & NY).
  exists xi, xsi, yi, eta. split; [exact LX|]. split; [exact LY|]. split; [exact NX|]. split; [exact NY|].
  intros ti time t0 t1 d C LD M. destruct (c_vertical_spec d z zi0 ltac:(lia) M ltac:(lia)) as (W & A & B).
  unfold c_search_s. rewrite (l_outside_in f x y) by assumption. rewrite EX, EY.
  replace (1 <? l_zdim f)%Z with true by lia. rewrite C.
  split; [|split].
  - intros I. destruct (W I) as (zi & zeta & V & IC). exists zi, zeta. split; [exact IC|]. rewrite V.
    rewrite (in01_cell _ _ _ _ LX), (in01_cell _ _ _ _ LY), (in_cell_01 _ _ _ _ IC). reflexivity.
  - intros H. rewrite (A H). reflexivity.
  - intros H. rewrite (B H). reflexivity.
Qed.

Lemma c_interp_s : forall f n x y xi xsi yi eta zi zeta, slev_field f -> located (l_lon f) x xi xsi -> located (l_lat f) y yi eta ->
  (zlen (l_lon f) = 1 -> xi = 0)%Z -> (zlen (l_lat f) = 1 -> yi = 0)%Z -> (0 <= zi)%Z -> (zi + 1 < l_zdim f)%Z ->
  exists q, c_interp (l_indexing f) (l_method f) (l_frame f n) xsi eta zeta xi yi zi = IVal q /\ q == slice f n xi xsi yi eta zi zeta.
Proof.
  intros f n x y xi xsi yi eta zi zeta (S & ZP & MT & IX & AX & AY & AT & (LZ & LV)) LX LY NX NY Z0 Z1. rewrite MT. unfold c_interp.
  replace (is_mom5 (l_indexing f)) with false by (destruct IX as [-> | ->]; reflexivity).
  replace (is_pop (l_indexing f)) with false by (destruct IX as [-> | ->]; reflexivity). cbn [andb].
  change (f_zdim (l_frame f n)) with (l_zdim f). replace (l_zdim f =? 1)%Z with false by lia.
  rewrite (c_cell_ok_located (l_frame f n) (l_lon f) (l_lat f) x y xi yi xsi eta zi eq_refl eq_refl AX AY LX LY NX NY) by (right; cbn; lia).
  cbn [negb]. eexists. split; [reflexivity|]. unfold c_trilinear.
  rewrite !(c_bilinear_level (l_frame f n) (l_lon f) (l_lat f) x y xi yi xsi eta zi _ eq_refl eq_refl AX AY LX LY NX NY).
  change (f_zdim (l_frame f n)) with (l_zdim f). replace (l_zdim f =? 1)%Z with false by lia. cbn [b2z]. rewrite Z.add_0_r. reflexivity.
Qed.

Theorem c_level_sampled : forall k f t x y z xi0 yi0 zi0 ti0, slev_field f -> (1 < zlen (l_lon f))%Z -> (1 < zlen (l_lat f))%Z ->
  inside (l_lon f) x -> inside (l_lat f) y -> l_indices_ok f xi0 yi0 zi0 -> (ti0 < zlen (l_time f))%Z -> (1 < k)%nat ->
  (l_periodic f = true -> ~ t == last_ (l_time f)) ->
  level_sampled f t x y z (c_sample_s k f t x y z xi0 yi0 zi0 ti0).
Proof.
  intros k f t x y z xi0 yi0 zi0 ti0 SF DX DY X Y V0 T0 K NL t' SA. pose proof SF as (S & ZP & MT & IX & AX & AY & AT & (LZ & LV)).
  destruct (tm_ends _ AT) as (_ & _ & E1 & E2). destruct (c_picked k f t t' ti0 AT SA NL T0 K) as (NX0 & i & tc & EI & (IR & PK)).
  destruct (c_search_s_spec f x y z xi0 yi0 zi0 SF X Y V0) as (xi & xsi & yi & eta & LX & LY & NX & NY & SRCH).
  unfold c_sample_s. cbv zeta. rewrite E1, E2, NX0, EI, cget_in by exact IR.
  destruct PK as [(-> & TC & I1 & A & B)|(-> & TE)].
  - rewrite cget_in by lia.
    destruct (place_between f i tc x y xi yi xsi eta AT ltac:(lia) I1 ltac:(lra) ltac:(lra) LX LY) as (P & R0 & R1 & V).
    set (r := (tc - at_ (l_time f) i) / (at_ (l_time f) (i + 1) - at_ (l_time f) i)) in *. set (p := mkPlace xi xsi yi eta i r) in *.
    destruct (c_column_between f x y xi yi xsi eta AX AY AT LZ (not_bgrid f SF) LX LY DX DY i tc tc p ltac:(lia) I1 ltac:(lra) ltac:(lra) (Qeq_refl _) P) as (d & ED & CD).
    destruct (column_mono f tc x y p d AX AY AT (conj LZ LV) P CD) as [LD MD].
    destruct (SRCH i tc _ _ d ED (proj1 CD) MD) as (S1 & S2 & S3).
    assert (P' : place_of f t' x y p) by (eapply place_eq; [exact TC|exact P]).
    destruct (column_cases f t' x y z p d SF P' CD) as (K1 & K2 & K3).
    split; [|split].
    + intros H. destruct (S1 (K1 H)) as (zi & zeta & IC & ->).
      destruct (cell_depth f p d z zi zeta CD IC) as (Z0 & Z1 & Q0 & Q1 & ZE).
      destruct (c_interp_s f i x y xi xsi yi eta zi zeta SF LX LY NX NY Z0 Z1) as (q0 & -> & E0).
      destruct (c_interp_s f (i + 1) x y xi xsi yi eta zi zeta SF LX LY NX NY Z0 Z1) as (q1 & -> & E1').
      eexists. split; [reflexivity|]. exists p, zi, zeta. repeat (split; [assumption|]).
      unfold data_at. rewrite !V. unfold lin. fold r. rewrite E0, E1'. unfold slice. ring.
    + intros H. rewrite (S2 (K2 H)). reflexivity.
    + intros H. rewrite (S3 (K3 H)). reflexivity.
  - destruct (place_at_frame f i x y xi yi xsi eta AT IR LX LY) as (p & P & _ & _ & _ & _ & V).
    destruct (c_column_frame f x y xi yi xsi eta AX AY AT LZ (not_bgrid f SF) LX LY DX DY i p IR P) as (d & ED & CD).
    destruct (column_mono f _ x y p d AX AY AT (conj LZ LV) P CD) as [LD MD].
    destruct (SRCH i _ _ _ d ED (proj1 CD) MD) as (S1 & S2 & S3).
    assert (P' : place_of f t' x y p) by (eapply place_eq; [symmetry; exact TE|exact P]).
    destruct (column_cases f t' x y z p d SF P' CD) as (K1 & K2 & K3).
    split; [|split].
    + intros H. destruct (S1 (K1 H)) as (zi & zeta & IC & ->).
      destruct (cell_depth f p d z zi zeta CD IC) as (Z0 & Z1 & Q0 & Q1 & ZE).
      destruct (c_interp_s f i x y xi xsi yi eta zi zeta SF LX LY NX NY Z0 Z1) as (q0 & -> & E0).
      eexists. split; [reflexivity|]. exists p, zi, zeta. repeat (split; [assumption|]).
      unfold data_at. rewrite !V. unfold lin. rewrite E0. unfold slice. field. lra.
    + intros H. rewrite (S2 (K2 H)). reflexivity.
    + intros H. rewrite (S3 (K3 H)). reflexivity.
Qed.

(** Outside the grid horizontally. *)
Theorem py_level_outside : forall f t t' x y z, slev_field f -> sampled_at f t t' -> ~ (inside (l_lon f) x /\ inside (l_lat f) y) ->
  py_sample_s f t x y z = ISearch OutOfBounds.
Proof.
  intros f t t' x y z (S & ZP & MT & IX & AX & AY & AT & _) SA H. destruct (py_picked f t t' AT SA) as (i & pr & EI & (IR & PK) & STR).
  unfold py_sample_s, py_eval_s. rewrite EI. cbv zeta. rewrite pyget_in by exact IR.
  assert (SR : forall ti time, py_spatial_s f x y z ti time = ISearch OutOfBounds).
  { intros. unfold py_spatial_s, py_search_s. rewrite l_outside_out by assumption. reflexivity. }
  destruct PK as [(-> & TC & I1 & A & B)|(-> & TE)]; [rewrite pyget_in by lia|]; rewrite SR; reflexivity.
Qed.
Theorem c_level_outside : forall k f t t' x y z xi0 yi0 zi0 ti0, slev_field f -> sampled_at f t t' -> (l_periodic f = true -> ~ t == last_ (l_time f)) ->
  ~ (inside (l_lon f) x /\ inside (l_lat f) y) -> (ti0 < zlen (l_time f))%Z -> (1 < k)%nat ->
  c_sample_s k f t x y z xi0 yi0 zi0 ti0 = ISearch OutOfBounds.
Proof.
  intros k f t t' x y z xi0 yi0 zi0 ti0 (S & ZP & MT & IX & AX & AY & AT & _) SA NL H T0 K.
  destruct (tm_ends _ AT) as (_ & _ & E1 & E2). destruct (c_picked k f t t' ti0 AT SA NL T0 K) as (NX0 & i & tc & EI & (IR & PK)).
  unfold c_sample_s. cbv zeta. rewrite E1, E2, NX0, EI, cget_in by exact IR.
  assert (SR : forall ti time t0 t1, c_search_s f x y z xi0 yi0 zi0 ti time t0 t1 = OutOfBounds).
  { intros. unfold c_search_s. rewrite l_outside_out by assumption. reflexivity. }
  destruct PK as [(-> & TC & I1 & A & B)|(-> & TE)]; [rewrite cget_in by lia|]; rewrite SR; reflexivity.
Qed.
Lemma c_extrap_s : forall k f t x y z xi0 yi0 zi0 ti0, axis_ok (l_time f) -> l_periodic f = false -> l_extrapolate f = false ->
  t < first_ (l_time f) \/ last_ (l_time f) < t -> c_sample_s k f t x y z xi0 yi0 zi0 ti0 = IExtrap.
Proof.
  intros k f t x y z xi0 yi0 zi0 ti0 AX P E H. destruct (tm_ends _ AX) as (_ & _ & E1 & E2). unfold c_sample_s. cbv zeta. rewrite P, E, E1, E2. cbn [negb andb].
  destruct H as [H|H].
  - replace (qlt t (first_ (l_time f))) with true by (symmetry; apply qlt_spec; exact H). reflexivity.
  - replace (qlt (last_ (l_time f)) t) with true by (symmetry; apply qlt_spec; exact H). rewrite orb_true_r. reflexivity.
Qed.

(** ** The value is determined *)
Lemma column_of : forall f t x y p, slev_field f -> place_of f t x y p -> exists d, is_column f p d /\ (1 < zlen d)%Z /\ (increasing d \/ decreasing d).
Proof.
  intros f t x y p (S & ZP & MT & IX & AX & AY & AT & LV) P. exists (map (depth_at f p) (zrange (l_zdim f))).
  assert (C : is_column f p (map (depth_at f p) (zrange (l_zdim f)))).
  { split; [rewrite zlen_map; apply zrange_len; destruct LV; lia|]. intros k K. rewrite at_zrange by exact K. reflexivity. }
  split; [exact C|]. eapply column_mono; eassumption.
Qed.

Theorem level_value_unique : forall f t t' x y z q q', slev_field f -> t == t' -> level_value f t x y z q -> level_value f t' x y z q' -> q == q'.
Proof.
  intros f t t' x y z q q' SF TT (p & zi & zeta & P & Z0 & Z1 & A0 & A1 & EZ & EQ) (p' & zi' & zeta' & P' & Z0' & Z1' & A0' & A1' & EZ' & EQ').
  pose proof SF as (S & ZP & MT & IX & AX & AY & AT & LV).
  apply (place_eq f t' t) in P'; [|symmetry; exact TT].
  destruct (column_of f t x y p SF P) as (d & (LD & ED) & L & M).
  assert (U : forall k, data_at f p' k == data_at f p k) by (intros k; apply (at_place_unique f t x y); assumption).
  assert (UD : forall k, (0 <= k < l_zdim f)%Z -> depth_at f p' k == at_ d k).
  { intros k K. rewrite ED by exact K. apply (at_place_unique f t x y); assumption. }
  assert (C : in_cell d z zi zeta).
  { repeat split; try assumption; try lia. rewrite !ED by lia. exact EZ. }
  assert (C' : in_cell d z zi' zeta').
  { repeat split; try assumption; try lia. rewrite <- !UD by lia. exact EZ'. }
  rewrite EQ, EQ', !U. destruct (same_cell d z zi zeta zi' zeta' M C C') as [[-> RS]|[(-> & R & S0)|(-> & S0 & R)]].
  - rewrite RS. reflexivity.
  - rewrite R, S0. ring.
  - rewrite R, S0. ring.
Qed.

(** A position is inside, above or below. *)
Lemma place_exists : forall f t x y, slev_field f -> inside (l_lon f) x -> inside (l_lat f) y -> first_ (l_time f) <= t <= last_ (l_time f) ->
  exists p, place_of f t x y p.
Proof.
  intros f t x y SF X Y T. pose proof SF as (S & ZP & MT & IX & AX & AY & AT & LV).
  destruct (py_axis_located _ x AX X) as (xi & xsi & _ & LX & _). destruct (py_axis_located _ y AY Y) as (yi & eta & _ & LY & _).
  destruct (py_axis_located _ t AT (or_intror T)) as (ti & r & _ & LT & _). exists (mkPlace xi xsi yi eta ti r). repeat split; assumption.
Qed.
Lemma sampled_in : forall f t t', axis_ok (l_time f) -> sampled_at f t t' -> first_ (l_time f) <= t' <= last_ (l_time f).
Proof.
  intros f t t' [L I] S. assert (FL : first_ (l_time f) <= last_ (l_time f)) by (unfold first_, last_; apply inc_le; [exact I|lia..]).
  unfold sampled_at in S. destruct (l_periodic f).
  - destruct S as (_ & A & B & _). lra.
  - destruct S as [[[A B] E]|[(_ & _ & E)|(_ & _ & E)]]; rewrite E; lra.
Qed.
Lemma level_cases : forall f t x y z, slev_field f -> inside (l_lon f) x -> inside (l_lat f) y -> first_ (l_time f) <= t <= last_ (l_time f) ->
  level_inside f t x y z \/ level_above f t x y z \/ level_below f t x y z.
Proof.
  intros f t x y z SF X Y T. destruct (place_exists f t x y SF X Y T) as (p & P).
  destruct (column_of f t x y p SF P) as (d & (LD & ED) & L & M).
  assert (F : first_ d == depth_at f p 0) by (apply ED; lia).
  assert (G : last_ d == depth_at f p (l_zdim f - 1)) by (unfold last_; rewrite LD; apply ED; lia).
  destruct M as [M|M].
  - pose proof (inc_dir d L M). destruct (Qlt_le_dec z (first_ d)) as [A|A].
    + right; left. exists p. split; [exact P|]. left. split; lra.
    + destruct (Qlt_le_dec (last_ d) z) as [B|B].
      * right; right. exists p. split; [exact P|]. left. split; lra.
      * left. exists p. split; [exact P|]. left. split; lra.
  - pose proof (dec_dir d L M). destruct (Qlt_le_dec (first_ d) z) as [A|A].
    + right; left. exists p. split; [exact P|]. right. split; lra.
    + destruct (Qlt_le_dec z (last_ d)) as [B|B].
      * right; right. exists p. split; [exact P|]. right. split; lra.
      * left. exists p. split; [exact P|]. right. split; lra.
Qed.

Lemma both_in_dec : forall f x y, axis_ok (l_lon f) -> axis_ok (l_lat f) ->
  (inside (l_lon f) x /\ inside (l_lat f) y) \/ ~ (inside (l_lon f) x /\ inside (l_lat f) y).
Proof.
  intros f x y AX AY. destruct (inside_dec (l_lon f) x) as [A|A], (inside_dec (l_lat f) y) as [B|B]; [left; split; assumption|right; intros [C D]; contradiction..].
Qed.
Lemma sampled_dec : forall f t, axis_ok (l_time f) -> (l_periodic f = true -> (1 < zlen (l_time f))%Z) ->
  (exists t', sampled_at f t t') \/
  (l_periodic f = false /\ l_extrapolate f = false /\ (t < first_ (l_time f) \/ last_ (l_time f) < t)).
Proof.
  intros f t [L I] PL. unfold sampled_at. destruct (l_periodic f).
  - left. specialize (PL eq_refl). pose proof (inc_dir _ PL I) as D. destruct (floor_wrap t _ _ D) as [A B]. eexists. split; [exact PL|].
    split; [exact A|]. split; [exact B|].
    exists (Qfloor ((t - first_ (l_time f)) / (last_ (l_time f) - first_ (l_time f)))). ring.
  - destruct (Qlt_le_dec t (first_ (l_time f))) as [A|A].
    + destruct (l_extrapolate f); [|right; auto]. left. exists (first_ (l_time f)). right; left. split; [reflexivity|]. split; [exact A|reflexivity].
    + destruct (Qlt_le_dec (last_ (l_time f)) t) as [B|B].
      * destruct (l_extrapolate f); [|right; auto]. left. exists (last_ (l_time f)). right; right. split; [reflexivity|]. split; [exact B|reflexivity].
      * left. exists t. left. split; [split; assumption|reflexivity].
Qed.

Theorem level_modes_same : forall k f t x y z xi0 yi0 zi0 ti0, slev_field f -> (1 < zlen (l_lon f))%Z -> (1 < zlen (l_lat f))%Z ->
  (l_periodic f = true -> (1 < zlen (l_time f))%Z /\ ~ t == last_ (l_time f)) ->
  l_indices_ok f xi0 yi0 zi0 -> (ti0 < zlen (l_time f))%Z -> (1 < k)%nat ->
  same_result (py_sample_s f t x y z) (c_sample_s k f t x y z xi0 yi0 zi0 ti0).
Proof.
  intros k f t x y z xi0 yi0 zi0 ti0 SF DX DY PL V0 T0 K. pose proof SF as (S & ZP & MT & IX & AX & AY & AT & LV).
  destruct (sampled_dec f t AT (fun e => proj1 (PL e))) as [[t' SA]|(P & E & O)].
  - destruct (both_in_dec f x y AX AY) as [[X Y]|O].
    + destruct (py_level_sampled f t x y z SF X Y t' SA) as (P1 & P2 & P3).
      destruct (c_level_sampled k f t x y z xi0 yi0 zi0 ti0 SF DX DY X Y V0 T0 K (fun e => proj2 (PL e)) t' SA) as (C1 & C2 & C3).
      destruct (level_cases f t' x y z SF X Y (sampled_in f t t' AT SA)) as [H|[H|H]].
      * destruct (P1 H) as (q & -> & Q1). destruct (C1 H) as (q' & -> & Q2). exact (level_value_unique f t' t' x y z q q' SF (Qeq_refl _) Q1 Q2).
      * rewrite (P2 H), (C2 H). reflexivity.
      * rewrite (P3 H), (C3 H). reflexivity.
    + rewrite (py_level_outside f t t') by assumption. rewrite (c_level_outside k f t t'); try assumption; [reflexivity|]. intros e. apply (PL e).
  - unfold py_sample_s. rewrite py_extrap_s by assumption. rewrite c_extrap_s by assumption. reflexivity.
Qed.

(** ** Exactness and bounds *)
Lemma at_place_lin : forall f p d d' a b, at_place f p (fun n j i => a * d n j i + b * d' n j i) == a * at_place f p d + b * at_place f p d'.
Proof.
  intros. unfold at_place, bilin, lin1. destruct (zlen (l_time f) =? 1)%Z, (zlen (l_lat f) =? 1)%Z, (zlen (l_lon f) =? 1)%Z; ring.
Qed.
Lemma lin1_aff : forall l g x i r A B, (1 <= zlen l)%Z -> located l x i r -> (forall a, g a == A + B * at_ l a) -> lin1 l g i r == A + B * coord l x.
Proof. intros l g x i r A B L H E. rewrite <- (lin1_affine l x i r A B H). apply lin1_ext; [|exact L]. intros a _. apply E. Qed.
Lemma at_place_affine : forall f t x y p a bx by_ bt, axis_ok (l_lon f) -> axis_ok (l_lat f) -> axis_ok (l_time f) -> place_of f t x y p ->
  at_place f p (fun n j i => a + bx * at_ (l_lon f) i + by_ * at_ (l_lat f) j + bt * at_ (l_time f) n) ==
  a + bx * coord (l_lon f) x + by_ * coord (l_lat f) y + bt * coord (l_time f) t.
Proof.
  intros f t x y p a bx by_ bt [LX _] [LY _] [LT _] (PX & PY & PT). unfold at_place.
  apply (lin1_aff (l_time f) _ t _ _ (a + bx * coord (l_lon f) x + by_ * coord (l_lat f) y) bt LT PT). intros n. unfold bilin.
  rewrite (lin1_aff (l_lat f) _ y _ _ (a + bx * coord (l_lon f) x + bt * at_ (l_time f) n) by_ LY PY); [ring|]. intros j.
  rewrite (lin1_aff (l_lon f) _ x _ _ (a + by_ * at_ (l_lat f) j + bt * at_ (l_time f) n) bx LX PX); [ring|]. intros i. ring.
Qed.

(** Data that are a linear function of position, time and the depth of the level itself. *)
Theorem level_value_affine : forall f t x y z q a bx by_ bt bz, slev_field f -> level_value f t x y z q ->
  (forall n j i k, is_node f n j i -> (0 <= k < l_zdim f)%Z ->
     l_data f n k j i == a + bx * at_ (l_lon f) i + by_ * at_ (l_lat f) j + bt * at_ (l_time f) n + bz * level_depth f n k j i) ->
  q == a + bx * coord (l_lon f) x + by_ * coord (l_lat f) y + bt * coord (l_time f) t + bz * z.
Proof.
  intros f t x y z q a bx by_ bt bz SF (p & zi & zeta & P & Z0 & Z1 & A0 & A1 & EZ & EQ) H.
  pose proof SF as (S & ZP & MT & IX & AX & AY & AT & LV).
  assert (D : forall k, (0 <= k < l_zdim f)%Z -> data_at f p k ==
    a + bx * coord (l_lon f) x + by_ * coord (l_lat f) y + bt * coord (l_time f) t + bz * depth_at f p k).
  { intros k K. unfold data_at, depth_at.
    rewrite (at_place_ext f t x y p _ (fun n j i => 1 * (a + bx * at_ (l_lon f) i + by_ * at_ (l_lat f) j + bt * at_ (l_time f) n) + bz * level_depth f n k j i) AX AY AT P).
    - rewrite at_place_lin, (at_place_affine f t x y) by assumption. ring.
    - intros n j i N. rewrite (H n j i k N K). ring. }
  rewrite EQ, !D by lia. rewrite EZ. ring.
Qed.

(** The value is between the data of the corners. *)
Definition p_corner (f : lfield) (p : place) (n j i : Z) : Prop :=
  cell_node (l_lon f) (p_xi p) i /\ cell_node (l_lat f) (p_yi p) j /\ cell_node (l_time f) (p_ti p) n.
Lemma at_place_bounds : forall f t x y p d lo hi, place_of f t x y p -> (forall n j i, p_corner f p n j i -> lo <= d n j i <= hi) ->
  lo <= at_place f p d <= hi.
Proof.
  intros f t x y p d lo hi (PX & PY & PT) H. unfold at_place. apply (lin1_bounds _ _ t); [exact PT|]. intros n N. unfold bilin.
  apply (lin1_bounds _ _ y); [exact PY|]. intros j J. apply (lin1_bounds _ _ x); [exact PX|]. intros i I. apply H. repeat split; assumption.
Qed.

Theorem level_value_bounds : forall f t x y z q p zi zeta lo hi, slev_field f -> level_value f t x y z q ->
  place_of f t x y p -> (0 <= zi)%Z -> (zi + 1 < l_zdim f)%Z -> 0 <= zeta <= 1 ->
  z == depth_at f p zi + zeta * (depth_at f p (zi + 1) - depth_at f p zi) ->
  (forall n j i k, cell_node (l_lon f) (p_xi p) i -> cell_node (l_lat f) (p_yi p) j -> cell_node (l_time f) (p_ti p) n -> k = zi \/ k = (zi + 1)%Z ->
     lo <= l_data f n k j i <= hi) -> lo <= q <= hi.
Proof.
  intros f t x y z q p zi zeta lo hi SF V P Z0 Z1 [A0 A1] EZ H.
  assert (V' : level_value f t x y z ((1 - zeta) * data_at f p zi + zeta * data_at f p (zi + 1))).
  { exists p, zi, zeta. repeat (split; [assumption|]). reflexivity. }
  rewrite (level_value_unique f t t x y z _ _ SF (Qeq_refl _) V V').
  assert (B0 : lo <= data_at f p zi <= hi) by (apply (at_place_bounds f t x y); [exact P|]; intros n j i (I & J & N); apply H; auto).
  assert (B1 : lo <= data_at f p (zi + 1) <= hi) by (apply (at_place_bounds f t x y); [exact P|]; intros n j i (I & J & N); apply H; auto).
  split; nra.
Qed.

(** ** Levels at the same depths everywhere: the z grid *)
Lemma place_value : forall f d t x y p w, place_of f t x y p -> (forall n, (0 <= n < zlen (l_time f))%Z -> w n == bilin f (d n) (p_xi p) (p_xsi p) (p_yi p) (p_eta p)) ->
  axis_ok (l_time f) -> first_ (l_time f) <= t <= last_ (l_time f) -> time_value (l_time f) w t (at_place f p d).
Proof.
  intros f d t x y p w (PX & PY & PT) H [LT _] T. split; [exact T|]. exists (p_ti p), (p_r p). split; [exact PT|]. unfold at_place.
  apply (lin1_ext' _ _ _ t); [exact LT|exact PT|]. intros n N. symmetry. apply H, N.
Qed.

Lemma flat_depth : forall f d t x y p k, slev_field f -> flat_levels f d -> place_of f t x y p -> (0 <= k < l_zdim f)%Z -> depth_at f p k == at_ d k.
Proof.
  intros f d t x y p k (S & ZP & MT & IX & AX & AY & AT & LV) (LD & E) P K. unfold depth_at.
  rewrite (at_place_ext f t x y p _ (fun n j i => at_ d k + 0 * at_ (l_lon f) i + 0 * at_ (l_lat f) j + 0 * at_ (l_time f) n) AX AY AT P).
  - rewrite (at_place_affine f t x y) by assumption. ring.
  - intros n j i N. rewrite E by assumption. ring.
Qed.

Lemma flat_linear : forall f d, slev_field f -> flat_levels f d -> linear_field (z_field f d) /\ (1 < zlen d)%Z.
Proof.
  intros f d (S & ZP & MT & IX & AX & AY & AT & (LZ & LV)) (LD & E). split; [|lia].
  repeat split; cbn; try assumption; try (apply AX || apply AY || apply AT); [lia|].
  assert (N : is_node f 0 0 0) by (unfold is_node, l_tdim, l_ydim, l_xdim; destruct AX, AY, AT; lia).
  destruct LV as [LV|LV]; [left|right]; intros i j I J; rewrite <- !(E 0%Z 0%Z 0%Z) by (exact N || lia); (apply LV; [exact N|lia..]).
Qed.

Lemma lin1_comb : forall l g h i r a b, lin1 l (fun n => a * g n + b * h n) i r == a * lin1 l g i r + b * lin1 l h i r.
Proof. intros. unfold lin1. destruct (zlen l =? 1)%Z; ring. Qed.

Lemma flat_value : forall f d t x y z q, slev_field f -> flat_levels f d -> first_ (l_time f) <= t <= last_ (l_time f) ->
  level_value f t x y z q -> field_value (z_field f d) t x y z q.
Proof.
  intros f d t x y z q SF FL T (p & zi & zeta & P & Z0 & Z1 & A0 & A1 & EZ & EQ).
  pose proof SF as (S & ZP & MT & IX & AX & AY & AT & LV). pose proof FL as (LD & _). pose proof P as (PX & PY & PT).
  assert (C : in_cell d z zi zeta).
  { repeat split; try assumption; try lia. rewrite EZ, !(flat_depth f d t x y p) by (assumption || lia). reflexivity. }
  exists (fun n => slice f n (p_xi p) (p_xsi p) (p_yi p) (p_eta p) zi zeta). split.
  - intros n N. exists (p_xi p), (p_yi p), zi, (p_xsi p), (p_eta p), zeta. split; [exact PX|]. split; [exact PY|]. split; [right; split; [cbn; lia|exact C]|].
    unfold lin1 at 1. cbn [s_depth z_field]. replace (zlen d =? 1)%Z with false by lia. reflexivity.
  - split; [exact T|]. exists (p_ti p), (p_r p). split; [exact PT|]. cbn [s_time z_field]. rewrite EQ. symmetry. unfold data_at, at_place, slice. apply lin1_comb.
Qed.

Lemma flat_frame_value : forall f d n t x y z q q', slev_field f -> flat_levels f d -> (0 <= n < zlen (l_time f))%Z -> t == at_ (l_time f) n ->
  field_value (z_field f d) t x y z q -> frame_value (z_field f d) n x y z q' -> q == q'.
Proof.
  intros f d n t x y z q q' SF FL N T (w & F & TV) FV. pose proof SF as (S & ZP & MT & IX & AX & AY & AT & LV).
  rewrite (time_value_node _ w t q n AT TV N T). destruct (flat_linear f d SF FL) as [LF _].
  exact (frame_value_unique _ n x y z _ _ LF (F n N) FV).
Qed.

Theorem flat_levels_as_z : forall f d t x y z, slev_field f -> flat_levels f d -> (l_periodic f = true -> (1 < zlen (l_time f))%Z) ->
  same_result (py_sample_s f t x y z) (py_sample (z_field f d) t x y z).
Proof.
  intros f d t x y z SF FL PL. pose proof SF as (S & ZP & MT & IX & AX & AY & AT & LV).
  destruct (flat_linear f d SF FL) as [LF L]. pose proof FL as (LD & _).
  destruct (sampled_dec f t AT PL) as [[t' SA]|(P & E & O)].
  - assert (TOK : time_ok (z_field f d) t).
    { unfold time_ok, sampled_at in *. cbn. destruct (l_periodic f); [left; split; [reflexivity|apply SA]|right]. split; [reflexivity|].
      destruct SA as [[SA _]|[(SA & _)|(SA & _)]]; auto. }
    pose proof (sampled_in f t t' AT SA) as TI.
    destruct (both_in_dec f x y AX AY) as [[X Y]|O].
    + destruct (py_level_sampled f t x y z SF X Y t' SA) as (P1 & P2 & P3).
      destruct (place_exists f t' x y SF X Y TI) as (p & P).
      assert (D0 : depth_at f p 0 == first_ d) by (apply (flat_depth f d t' x y); auto; lia).
      assert (DN : depth_at f p (l_zdim f - 1) == last_ d) by (unfold last_; rewrite LD; apply (flat_depth f d t' x y); auto; lia).
      pose proof LF as (_ & _ & _ & _ & _ & _ & (_ & MD) & _). cbn [s_depth z_field] in MD.
      destruct (level_cases f t' x y z SF X Y TI) as [H|[H|H]].
      * destruct (P1 H) as (q & -> & Q1). apply flat_value with (d := d) in Q1; [|assumption..].
        assert (PI : position_inside (z_field f d) x y z).
        { split; [exact X|]. split; [exact Y|]. right. cbn [s_depth z_field]. destruct H as (p' & P' & H).
          assert (D0' : depth_at f p' 0 == first_ d) by (apply (flat_depth f d t' x y); auto; lia).
          assert (DN' : depth_at f p' (l_zdim f - 1) == last_ d) by (unfold last_; rewrite LD; apply (flat_depth f d t' x y); auto; lia).
          destruct H as [H|H]; [left|right]; lra. }
        pose proof (py_sample_value (z_field f d) t x y z LF PI) as V. unfold samples_as in V. cbn [s_periodic s_time s_extrapolate z_field] in V.
        unfold sampled_at in SA. destruct (l_periodic f).
        -- destruct SA as [L1 SA]. destruct (V L1) as (q' & t'' & -> & W & FV).
           apply (field_value_unique (z_field f d) t' t'' x y z); [exact LF|exact Q1|exact FV|].
           apply (wraps_unique (l_time f) t t); [apply inc_dir; [exact L1|apply AT]|exact SA|exact W|exists 0%Z; change (inject_Z 0) with 0; ring].
        -- destruct V as (V1 & _ & V3 & V4). destruct SA as [[T TT]|[(EX & T & TT)|(EX & T & TT)]].
           ++ destruct (V1 T) as (q' & -> & FV). exact (field_value_unique (z_field f d) t' t x y z q q' LF Q1 FV TT).
           ++ destruct (V3 T EX) as (q' & -> & FV). refine (flat_frame_value f d 0 t' x y z q q' SF FL _ TT Q1 FV). destruct AT; lia.
           ++ destruct (V4 T EX) as (q' & -> & FV). refine (flat_frame_value f d (zlen (l_time f) - 1) t' x y z q q' SF FL _ TT Q1 FV). destruct AT; lia.
      * rewrite (P2 H), (py_sample_error (z_field f d) t x y z ThroughSurface LF); [reflexivity| |exact TOK].
        right; left. split; [exact X|]. split; [exact Y|]. split; [|reflexivity]. split; [exact L|]. cbn [s_depth z_field].
        destruct H as (p' & P' & H).
        assert (D0' : depth_at f p' 0 == first_ d) by (apply (flat_depth f d t' x y); auto; lia).
        assert (DN' : depth_at f p' (l_zdim f - 1) == last_ d) by (unfold last_; rewrite LD; apply (flat_depth f d t' x y); auto; lia).
        destruct MD as [MD|MD]; [pose proof (inc_dir d L MD); left|pose proof (dec_dir d L MD); right]; (split; [exact MD|]); destruct H as [[H1 H2]|[H1 H2]]; lra.
      * rewrite (P3 H), (py_sample_error (z_field f d) t x y z OutOfBounds LF); [reflexivity| |exact TOK].
        right; right. split; [exact X|]. split; [exact Y|]. split; [|reflexivity]. split; [exact L|]. cbn [s_depth z_field].
        destruct H as (p' & P' & H).
        assert (D0' : depth_at f p' 0 == first_ d) by (apply (flat_depth f d t' x y); auto; lia).
        assert (DN' : depth_at f p' (l_zdim f - 1) == last_ d) by (unfold last_; rewrite LD; apply (flat_depth f d t' x y); auto; lia).
        destruct MD as [MD|MD]; [pose proof (inc_dir d L MD); left|pose proof (dec_dir d L MD); right]; (split; [exact MD|]); destruct H as [[H1 H2]|[H1 H2]]; lra.
    + rewrite (py_level_outside f t t') by assumption. rewrite (py_sample_error (z_field f d) t x y z OutOfBounds LF); [reflexivity| |exact TOK].
      left. split; [exact O|reflexivity].
  - unfold py_sample_s, py_sample. rewrite py_extrap_s by assumption. rewrite (py_extrap (z_field f d)) by assumption. reflexivity.
Qed.

Lemma level_cases_at : forall f t t' x y z, slev_field f -> inside (l_lon f) x -> inside (l_lat f) y -> sampled_at f t t' ->
  level_inside f t' x y z \/ level_above f t' x y z \/ level_below f t' x y z.
Proof. intros f t t' x y z SF X Y SA. pose proof SF as (_ & _ & _ & _ & _ & _ & AT & _). apply level_cases; try assumption. eapply sampled_in; eassumption. Qed.
Lemma level_value_one_lemma : forall f t x y z q q', slev_field f -> level_value f t x y z q -> level_value f t x y z q' -> q == q'.
Proof. intros f t x y z q q' SF. apply level_value_unique; [exact SF|reflexivity]. Qed.

(** ** One column *)
Definition thin : lfield :=
  mkLfield [0] [0; 1] 2 false (fun m => inject_Z (m / 2)) false false Nemo Linear [0] false true (fun n k j i => inject_Z (10 * k + j)%Z).
Lemma one_column : exists f t x y z xi yi zi ti q,
  slev_field f /\ inside (l_lon f) x /\ inside (l_lat f) y /\ l_indices_ok f xi yi zi /\
  py_sample_s f t x y z = IVal q /\ c_sample_s 2 f t x y z xi yi zi ti = ISearch BadIndex.
Proof.
  exists thin, 0, 0, (1 # 2), (1 # 2), 0%Z, 0%Z, 0%Z, 0%Z. eexists.
  split. { split; [left; reflexivity|]. split; [reflexivity|]. split; [reflexivity|]. split; [left; reflexivity|].
    split; [split; [cbn; lia|intros i j A B; cbn in B; lia]|].
    split; [split; [cbn; lia|]|].
    { intros i j A B. change (j < 2)%Z in B. assert (i = 0%Z) by lia. assert (j = 1%Z) by lia. subst. reflexivity. }
    split; [split; [cbn; lia|intros i j A B; cbn in B; lia]|].
    split; [cbn; lia|]. left. intros n j i k k' (N & J & X) K K'.
    unfold l_tdim, l_ydim, l_xdim in N, J, X. cbn in N, J, X, K'.
    assert (n = 0)%Z as -> by lia. assert (i = 0)%Z as -> by lia. assert (k = 0)%Z as -> by lia. assert (k' = 1)%Z as -> by lia.
    assert (j = 0 \/ j = 1)%Z as [-> | ->] by lia; reflexivity. }
  split; [left; reflexivity|]. split; [right; split; vm_compute; discriminate|]. split; [unfold l_indices_ok, valid_start; cbn; lia|].
  split; vm_compute; reflexivity.
Qed.
