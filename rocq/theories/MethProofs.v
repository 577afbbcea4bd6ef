From Coq Require Import List ZArith Bool QArith Qabs Qround Lia Lqa ZifyBool Psatz.
From Verif Require Import IdxModel IdxSpec IdxBase IdxProofs TimeModel InterpModel InterpSpec TimeProofs InterpProofs MethSpec.
Import ListNotations.
Open Scope Q_scope.

(** ** The searches, whatever the indexing *)
Definition unmom (g : rgrid) : rgrid := mkRgrid (g_lon g) (g_lat g) (g_depth g) (g_spherical g) (g_zonal_periodic g) false.
Lemma unmom_plain : forall f, gridded f -> plain (unmom (s_grid f)).
Proof.
  intros f (S & ZP & AX & AY & AZ & AT). unfold plain, unmom, s_grid. cbn.
  repeat split; try assumption; try (apply AX || apply AY || apply AZ).
Qed.

Lemma within_vertical : forall m d z, (1 < zlen d)%Z -> increasing d \/ decreasing d -> IdxSpec.within d z ->
  py_vertical_z m d z = py_vertical_z false d z /\ forall zi, c_vertical_z m d z zi = c_vertical_z false d z zi.
Proof.
  intros m d z L M W. unfold py_vertical_z, c_vertical_z. rewrite (pyget_in d 0), pyget_last, (cget_in d 0), (cget_in d (zlen d - 1)) by lia.
  fold (first_ d). fold (last_ d). destruct M as [I|D].
  - pose proof (inc_dir d L I) as DIR. assert (B : first_ d <= z <= last_ d) by (destruct W; [assumption|lra]).
    replace (qlt (first_ d) (last_ d)) with true by (symmetry; apply qlt_spec; exact DIR).
    replace (qlt z (first_ d)) with false by (symmetry; apply qlt_false; lra). cbn [andb]. split; reflexivity.
  - pose proof (dec_dir d L D) as DIR.
    replace (qlt (first_ d) (last_ d)) with false by (symmetry; apply qlt_false; lra). split; reflexivity.
Qed.

Lemma py_found : forall f x y z, gridded f -> position_inside f x y z ->
  exists xsi eta zeta xi yi zi, py_search (s_grid f) x y z = Found xsi eta zeta xi yi zi /\
    located (s_lon f) x xi xsi /\ located (s_lat f) y yi eta /\ located (s_depth f) z zi zeta /\
    (zlen (s_lon f) = 1 -> xi = -1)%Z /\ (zlen (s_lat f) = 1 -> yi = -1)%Z.
Proof.
  intros f x y z G (IX & IY & IZ).
  destruct (py_search_found (unmom (s_grid f)) x y z (unmom_plain f G) IX IY IZ) as (xsi & eta & zeta & xi & yi & zi & E & R).
  exists xsi, eta, zeta, xi, yi, zi. split; [|exact R]. rewrite <- E. unfold py_search. cbn.
  change (outside (unmom (s_grid f)) x y) with (outside (s_grid f) x y). destruct (outside (s_grid f) x y); [reflexivity|].
  destruct (1 <? zlen (s_depth f))%Z eqn:L; [|reflexivity].
  destruct G as (_ & _ & _ & _ & (_ & MZ) & _). destruct IZ as [IZ|IZ]; [lia|].
  rewrite (proj1 (within_vertical (is_mom5 (s_indexing f)) (s_depth f) z ltac:(lia) MZ IZ)). reflexivity.
Qed.

(** Starting from -1 is as starting from 0, below the first level. *)
Lemma walk_from_m1 : forall d z, (1 < zlen d)%Z -> first_ d < z -> c_walk false d z (-1) = c_walk false d z 0.
Proof.
  intros d z L H. unfold c_walk. replace (Z.to_nat (zlen d - 1 - -1)) with (S (Z.to_nat (zlen d - 1 - 0))) by lia.
  cbn [c_up]. replace (-1 <? zlen d - 1)%Z with true by lia. change (-1 + 1)%Z with 0%Z. rewrite (cget_in d 0) by lia. fold (first_ d).
  unfold before. replace (qlt (first_ d) z) with true by (symmetry; apply qlt_spec; exact H). reflexivity.
Qed.
Lemma vertical_from_m1 : forall m d z, (1 < zlen d)%Z -> first_ d < z -> first_ d < last_ d ->
  c_vertical_z m d z (-1) = c_vertical_z m d z 0.
Proof.
  intros m d z L H D. unfold c_vertical_z. rewrite (cget_in d 0), (cget_in d (zlen d - 1)) by lia. fold (first_ d). fold (last_ d).
  replace (qlt (first_ d) (last_ d)) with true by (symmetry; apply qlt_spec; exact D). rewrite walk_from_m1 by assumption. reflexivity.
Qed.
Lemma dec_walk_from_m1 : forall d z, (1 < zlen d)%Z -> z < first_ d -> c_walk true d z (-1) = c_walk true d z 0.
Proof.
  intros d z L H. unfold c_walk. replace (Z.to_nat (zlen d - 1 - -1)) with (S (Z.to_nat (zlen d - 1 - 0))) by lia.
  cbn [c_up]. replace (-1 <? zlen d - 1)%Z with true by lia. change (-1 + 1)%Z with 0%Z. rewrite (cget_in d 0) by lia. fold (first_ d).
  unfold before. replace (qlt z (first_ d)) with true by (symmetry; apply qlt_spec; exact H). reflexivity.
Qed.
Lemma dec_vertical_from_m1 : forall m d z, (1 < zlen d)%Z -> z < first_ d -> last_ d < first_ d ->
  c_vertical_z m d z (-1) = c_vertical_z m d z 0.
Proof.
  intros m d z L H D. unfold c_vertical_z. rewrite (cget_in d 0), (cget_in d (zlen d - 1)) by lia. fold (first_ d). fold (last_ d).
  replace (qlt (first_ d) (last_ d)) with false by (symmetry; apply qlt_false; lra). rewrite dec_walk_from_m1 by assumption. reflexivity.
Qed.

Lemma c_found : forall f x y z xi0 yi0 zi0, gridded f -> position_inside f x y z -> carries f z xi0 yi0 zi0 ->
  exists xsi eta zeta xi yi zi, c_search (s_grid f) x y z xi0 yi0 zi0 = Found xsi eta zeta xi yi zi /\
    located (s_lon f) x xi xsi /\ located (s_lat f) y yi eta /\ located (s_depth f) z zi zeta /\
    (zlen (s_lon f) = 1 -> xi = 0)%Z /\ (zlen (s_lat f) = 1 -> yi = 0)%Z.
Proof.
  intros f x y z xi0 yi0 zi0 G (IX & IY & IZ) ((VX & VY & VZ) & NF).
  set (zi1 := if (zi0 =? -1)%Z then 0%Z else zi0).
  assert (LZ1 : (1 <= zlen (s_depth f))%Z) by (destruct G as (_ & _ & _ & _ & (L & _) & _); exact L).
  assert (V1 : valid_starts (unmom (s_grid f)) xi0 yi0 zi1).
  { split; [exact VX|]. split; [exact VY|]. cbn. destruct VZ as [VZ|VZ]; [left; exact VZ|]. right. unfold zi1. destruct VZ as [VZ|[_ ->]]; [|cbn; lia].
    replace (zi0 =? -1)%Z with false by lia. exact VZ. }
  destruct (c_search_found (unmom (s_grid f)) x y z xi0 yi0 zi1 (unmom_plain f G) IX IY IZ V1)
    as (xsi & eta & zeta & xi & yi & zi & E & R1 & R2 & R3 & _ & R4 & R5).
  destruct (1 <? zlen (s_depth f))%Z eqn:L.
  - exists xsi, eta, zeta, xi, yi, zi. split; [|repeat split; assumption]. rewrite <- E. unfold c_search. cbn.
    change (outside (unmom (s_grid f)) x y) with (outside (s_grid f) x y). destruct (outside (s_grid f) x y); [reflexivity|].
    rewrite L. destruct G as (_ & _ & _ & _ & (_ & MZ) & _). destruct IZ as [IZ|IZ]; [lia|].
    rewrite (proj2 (within_vertical (is_mom5 (s_indexing f)) (s_depth f) z ltac:(lia) MZ IZ)).
    replace (c_vertical_z false (s_depth f) z zi0) with (c_vertical_z false (s_depth f) z zi1); [reflexivity|].
    unfold zi1. destruct (zi0 =? -1)%Z eqn:Z0; [|reflexivity]. apply Z.eqb_eq in Z0. subst zi0. specialize (NF ltac:(lia) eq_refl). symmetry.
    destruct MZ as [I|D].
    + pose proof (inc_dir (s_depth f) ltac:(lia) I). apply vertical_from_m1; [lia| |assumption].
      destruct IZ; [|lra]. destruct (Qle_lt_or_eq (first_ (s_depth f)) z) as [C1|C1]; [lra|exact C1|exfalso; apply NF; symmetry; exact C1].
    + pose proof (dec_dir (s_depth f) ltac:(lia) D). apply dec_vertical_from_m1; [lia| |assumption].
      destruct IZ; [lra|]. destruct (Qle_lt_or_eq z (first_ (s_depth f))) as [C1|C1]; [lra|exact C1|exfalso; apply NF; exact C1].
  - exists xsi, eta, zeta, xi, yi, zi0. split; [|repeat split; try assumption].
    + unfold c_search in *. cbn in *.
      change (outside (unmom (s_grid f)) x y) with (outside (s_grid f) x y) in E. destruct (outside (s_grid f) x y); [discriminate|].
      rewrite L in *.
      repeat match goal with
             | H : context [match ?a with Some _ => _ | None => _ end] |- _ => destruct a as [|]; try discriminate
             | p : (Z * Q)%type |- _ => destruct p
             | p : option (Z * Q)%type |- _ => destruct p; try discriminate
             end.
      all: try discriminate E. match type of E with (if ?b then _ else _) = _ => destruct b; inversion E; subst; reflexivity end.
    + left. split; [lia|]. destruct R3 as [[_ R3]|[R3 _]]; [exact R3|]. cbn in R3. exfalso. lia.
Qed.

(** The surface layer. *)
Lemma surface_inside_range : forall f z, surface_layer f z -> 0 < first_ (s_depth f).
Proof. intros f z (_ & _ & _ & A & B & _). lra. Qed.
Lemma zeta01 : forall f z, surface_layer f z -> in01 (z / first_ (s_depth f)) = true.
Proof.
  intros f z S. pose proof (surface_inside_range f z S) as P. destruct S as (_ & _ & _ & A & B & _). unfold in01. rewrite andb_true_iff, !qle_spec. split.
  - apply Qle_shift_div_l; lra.
  - apply Qle_shift_div_r; lra.
Qed.
Lemma py_found_surface : forall f x y z, gridded f -> inside (s_lon f) x -> inside (s_lat f) y -> surface_layer f z ->
  exists xsi eta xi yi, py_search (s_grid f) x y z = Found xsi eta (z / first_ (s_depth f)) xi yi (-1) /\
    located (s_lon f) x xi xsi /\ located (s_lat f) y yi eta /\
    (zlen (s_lon f) = 1 -> xi = -1)%Z /\ (zlen (s_lat f) = 1 -> yi = -1)%Z.
Proof.
  intros f x y z G IX IY SL. pose proof SL as (M & L & I & A & B & C). pose proof G as (S & ZP & AX & AY & AZ & AT).
  pose proof (unmom_plain f G) as PL. unfold py_search.
  replace (outside (s_grid f) x y) with false by (symmetry; apply (proj2 (outside_plain _ x y PL)); split; assumption).
  destruct (py_lon_located (s_spherical f) _ x AX IX) as (xi & xsi & EX & LX & NX).
  destruct (py_axis_located _ y AY IY) as (yi & eta & EY & LY & NY). cbn. rewrite EX, EY. replace (1 <? zlen (s_depth f))%Z with true by lia.
  unfold py_vertical_z. rewrite (pyget_in (s_depth f) 0), pyget_last, (pyget_in (s_depth f) 1) by lia. fold (first_ (s_depth f)).
  rewrite M. cbn [is_mom5 andb]. pose proof (inc_dir _ L I) as D.
  replace (qlt (first_ (s_depth f)) (last_ (s_depth f))) with true by (symmetry; apply qlt_spec; exact D).
  replace (qlt z (first_ (s_depth f))) with true by (symmetry; apply qlt_spec; exact B).
  replace (qlt (2 * first_ (s_depth f) - at_ (s_depth f) 1) z) with true by (symmetry; apply qlt_spec; exact C).
  rewrite (in01_cell _ _ _ _ LX), (in01_cell _ _ _ _ LY), (zeta01 f z SL). cbn [andb].
  exists xsi, eta, xi, yi. repeat split; assumption.
Qed.
Lemma c_found_surface : forall f x y z xi0 yi0 zi0, gridded f -> inside (s_lon f) x -> inside (s_lat f) y -> surface_layer f z ->
  carried f xi0 yi0 zi0 ->
  exists xsi eta xi yi, c_search (s_grid f) x y z xi0 yi0 zi0 = Found xsi eta (z / first_ (s_depth f)) xi yi (-1) /\
    located (s_lon f) x xi xsi /\ located (s_lat f) y yi eta /\
    (zlen (s_lon f) = 1 -> xi = 0)%Z /\ (zlen (s_lat f) = 1 -> yi = 0)%Z.
Proof.
  intros f x y z xi0 yi0 zi0 G IX IY SL (VX & VY & VZ). pose proof SL as (M & L & I & A & B & C). pose proof G as (S & ZP & AX & AY & AZ & AT).
  pose proof (unmom_plain f G) as PL. unfold c_search.
  replace (outside (s_grid f) x y) with false by (symmetry; apply (proj2 (outside_plain _ x y PL)); split; assumption).
  destruct (c_lon_located (s_spherical f) _ x xi0 AX IX VX S) as (xi & xsi & EX & LX & NX).
  destruct (c_axis_located _ y yi0 AY IY VY) as (yi & eta & EY & LY & NY). unfold s_grid. cbn [g_lon g_lat g_depth g_spherical g_mom5]. rewrite EX, EY. replace (1 <? zlen (s_depth f))%Z with true by lia.
  unfold c_vertical_z. rewrite (cget_in (s_depth f) 0), (cget_in (s_depth f) (zlen (s_depth f) - 1)), (cget_in (s_depth f) 1) by lia.
  fold (first_ (s_depth f)). fold (last_ (s_depth f)). rewrite M. cbn [is_mom5 andb]. pose proof (inc_dir _ L I) as D.
  replace (qlt (first_ (s_depth f)) (last_ (s_depth f))) with true by (symmetry; apply qlt_spec; exact D).
  replace (qlt z (first_ (s_depth f))) with true by (symmetry; apply qlt_spec; exact B).
  replace (qlt (2 * first_ (s_depth f) - at_ (s_depth f) 1) z) with true by (symmetry; apply qlt_spec; exact C). cbn [andb].
  rewrite (in01_cell _ _ _ _ LX), (in01_cell _ _ _ _ LY), (zeta01 f z SL). cbn [andb].
  exists xsi, eta, xi, yi. repeat split; assumption.
Qed.
