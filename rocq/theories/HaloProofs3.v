(** Proofs about periodic halos: sampled values. *)
From Coq Require Import List ZArith Bool QArith Lia Lqa ZifyBool.
From Verif Require Import IdxModel IdxSpec IdxProofs TimeModel InterpModel InterpSpec TimeProofs InterpProofs HaloModel HaloSpec HaloProofs HaloProofs2.
Import ListNotations.
Open Scope Z_scope.

(** Cell [i] of an axis is cell [i + m] of another. *)
Definition moved (l l' : list Q) (m i : Z) : Prop :=
  1 <= zlen l /\ (zlen l = 1 -> zlen l' = 1 /\ m = 0) /\ (1 < zlen l -> 1 < zlen l').

Lemma lin1_moved : forall l l' m i r f f', moved l l' m i -> (forall a, cell_node l i a -> (f' (a + m)%Z == f a)%Q) ->
  (lin1 l' f' (i + m) r == lin1 l f i r)%Q.
Proof.
  intros l l' m i r f f' (N & A & B) F. unfold lin1. destruct (Z.eqb_spec (zlen l) 1) as [E|E].
  - destruct (A E) as (A1 & A2). rewrite A1, A2 in *. cbn [Z.eqb Pos.eqb]. specialize (F 0 (or_introl (conj E eq_refl))). exact F.
  - assert (L : 1 < zlen l) by lia. specialize (B L). replace (zlen l' =? 1) with false by lia.
    rewrite (F i (or_intror (conj L (or_introl eq_refl)))).
    replace (i + m + 1) with (i + 1 + m) by lia. rewrite (F (i + 1) (or_intror (conj L (or_intror eq_refl)))). reflexivity.
Qed.

Lemma interpolant_moved : forall lon lat depth d lon' lat' d' x y z x' y' mx my xi yi zi xsi eta zeta q,
  moved lon lon' mx xi -> moved lat lat' my yi -> located depth z zi zeta ->
  located lon' x' (xi + mx) xsi -> located lat' y' (yi + my) eta ->
  located lon x xi xsi -> located lat y yi eta ->
  (forall k j i, cell_node lat yi j -> cell_node lon xi i -> (d' k (j + my)%Z (i + mx)%Z == d k j i)%Q) ->
  (q == lin1 depth (fun k => lin1 lat (fun j => lin1 lon (fun i => d k j i) xi xsi) yi eta) zi zeta)%Q ->
  interpolant lon' lat' depth d' x' y' z q.
Proof.
  intros lon lat depth d lon' lat' d' x y z x' y' mx my xi yi zi xsi eta zeta q MX MY LZ LX' LY' LX LY D E.
  exists (xi + mx), (yi + my), zi, xsi, eta, zeta. split; [exact LX'|]. split; [exact LY'|]. split; [exact LZ|].
  rewrite E. symmetry. assert (G : forall k, (lin1 lat' (fun j => lin1 lon' (fun i => d' k j i) (xi + mx) xsi) (yi + my) eta ==
    lin1 lat (fun j => lin1 lon (fun i => d k j i) xi xsi) yi eta)%Q).
  { intros k. apply lin1_moved; [exact MY|]. intros j J. apply lin1_moved; [exact MX|]. intros i I. apply D; assumption. }
  unfold lin1 at 1 4. destruct (zlen depth =? 1); [apply G|]. rewrite !G. reflexivity.
Qed.

(** The axis with or without its halo. *)
Definition axis_with (b : bool) (h : Z) (l l' : list Q) : Prop :=
  axis_ok l /\ 1 <= h /\ (b = true -> 2 <= zlen l /\ h <= zlen l) /\ (if b then extends_axis h l l' /\ increasing l' else l' = l).
Definition width (b : bool) (h : Z) : Z := if b then h else 0.

Lemma with_len : forall b h l l', axis_with b h l l' -> zlen l' = zlen l + 2 * width b h /\ axis_ok l'.
Proof.
  intros b h l l' (A & H & F & E). destruct b; unfold width; cbn in *; [|subst; split; [lia|exact A]].
  destruct E as ((L & _) & I). cbv zeta in L. split; [exact L|]. split; [|exact I]. destruct A. lia.
Qed.
Lemma with_inner : forall b h l l' i, axis_with b h l l' -> 0 <= i < zlen l -> at_ l' (i + width b h) = at_ l i.
Proof.
  intros b h l l' i (A & H & F & E) I. destruct b; unfold width; cbn in *; [|subst; f_equal; lia].
  destruct E as ((_ & V & _) & _). rewrite <- (V i I). f_equal. lia.
Qed.
Lemma with_inside : forall b h l l' x, axis_with b h l l' -> inside l x -> inside l' x.
Proof.
  intros b h l l' x W I. pose proof W as (A & H & F & E). destruct b; [|cbn in E; subst; exact I].
  destruct E as (_ & Inc). destruct (F eq_refl) as (N & HL). destruct (with_len _ _ _ _ W) as (L & _). cbn [width] in L.
  destruct I as [I|(I1 & I2)]; [lia|]. right. split.
  - apply Qle_trans with (first_ l); [|exact I1]. unfold first_. rewrite <- (with_inner _ _ _ _ 0 W) by lia. apply inc_le; [exact Inc|unfold width; lia|unfold width; lia].
  - apply Qle_trans with (last_ l); [exact I2|]. unfold last_. rewrite <- (with_inner _ _ _ _ (zlen l - 1) W) by lia. apply inc_le; [exact Inc|unfold width; lia|unfold width; lia].
Qed.
Lemma with_located : forall b h l l' x i r, axis_with b h l l' -> located l x i r ->
  located l' x (i + width b h) r /\ moved l l' (width b h) i.
Proof.
  intros b h l l' x i r W Lo. pose proof W as ((N & _) & H & F & E). destruct (with_len _ _ _ _ W) as (L & _). split.
  - destruct Lo as [(L1 & R)|(L1 & (I0 & I1 & R0 & R1 & X))].
    + left. split; [|exact R]. destruct b; [destruct (F eq_refl); lia|]. unfold width in L. lia.
    + right. unfold width in *. split; [destruct b; lia|]. split; [destruct b; lia|]. split; [destruct b; lia|]. split; [exact R0|]. split; [exact R1|].
      rewrite X. replace (i + (if b then h else 0) + 1) with (i + 1 + width b h) by (unfold width; lia).
      rewrite (with_inner b h l l' (i + 1) W) by lia. change (if b then h else 0) with (width b h). rewrite (with_inner b h l l' i W) by lia. reflexivity.
  - unfold moved, width in *. split; [exact N|]. split; [intros L1|intros L1]; destruct b; try lia; destruct (F eq_refl); lia.
Qed.

(** ** One period *)
Lemma with_period : forall h l l' k, axis_with true h l l' -> 0 <= k < 2 * h -> (at_ l' (k + zlen l) == at_ l' k + axis_period l)%Q.
Proof.
  intros h l l' k (A & H & F & ((L & _ & V) & _)) K. cbv zeta in V. destruct (F eq_refl) as (N & HL).
  rewrite (V (k + zlen l)) by lia. rewrite (V k) by lia. destruct (origin_next h (zlen l) k ltac:(lia)) as (O & T). rewrite O, T.
  rewrite inject_Z_plus. change (inject_Z 1) with 1%Q. lra.
Qed.
Lemma period_located : forall h l l' x, axis_with true h l l' -> inside l' x -> inside l' (x + axis_period l) ->
  exists i r, located l' x i r /\ located l' (x + axis_period l) (i + zlen l) r /\ moved l' l' (zlen l) i /\ i + 1 < 2 * h.
Proof.
  intros h l l' x W. pose proof W as (A & H & F & ((L & _ & _) & Inc)). cbv zeta in L. destruct (F eq_refl) as (N & HL). intros I J.
  destruct I as [I|(I1 & I2)]; [lia|]. destruct J as [J|(J1 & J2)]; [lia|].
  set (p := firstn (Z.to_nat (2 * h)) l').
  assert (Lp : zlen p = 2 * h) by (apply zlen_firstn; lia).
  assert (Ap : forall k, 0 <= k < 2 * h -> at_ p k = at_ l' k) by (intros k K; apply at_firstn; exact K).
  assert (Op : axis_ok p).
  { split; [lia|]. intros a b K1 K2. rewrite !Ap by lia. apply Inc; lia. }
  destruct (py_axis_located p x Op) as (i & r & _ & Lo & _).
  { right. unfold first_, last_. rewrite Lp, !Ap by lia. split; [exact I1|].
    unfold last_ in J2. replace (zlen l' - 1) with (2 * h - 1 + zlen l) in J2 by lia. rewrite (with_period h l l' (2 * h - 1) W) in J2 by lia. lra. }
  destruct Lo as [(L1 & _)|(_ & (I0 & I3 & R0 & R1 & X))]; [lia|]. rewrite Lp in I3. rewrite !Ap in X by lia.
  exists i, r. split; [|split; [|split]].
  - right. split; [lia|]. split; [lia|]. split; [lia|]. split; [exact R0|]. split; [exact R1|exact X].
  - right. split; [lia|]. split; [lia|]. split; [lia|]. split; [exact R0|]. split; [exact R1|].
    replace (i + zlen l + 1) with (i + 1 + zlen l) by lia. rewrite !(with_period h l l') by (exact W || lia). rewrite X. lra.
  - split; [lia|]. split; [lia|lia].
  - exact I3.
Qed.

Section Fields.
Variables (zonal meridional : bool) (h : Z) (lon lat lon' lat' : list Q) (zp : bool) (a a' : arr) (f : sfield).
Hypothesis WX : axis_with zonal h lon lon'.
Hypothesis WY : axis_with meridional h lat lat'.
Hypothesis AX : a_x a = zlen lon.
Hypothesis AY : a_y a = zlen lat.
Hypothesis EA : extends_array zonal meridional h a a'.
Hypothesis LF : linear_field (field_on lon lat false a f).

Notation F := (field_on lon lat false a f).
Notation F' := (field_on lon' lat' zp a' f).
Notation F0 := (plain_flag F').

Lemma linear_halo : linear_field F0.
Proof.
  destruct LF as (S & _ & M & IX & _ & _ & Dp & T). split; [left; reflexivity|]. split; [reflexivity|]. split; [exact M|]. split; [exact IX|].
  split; [apply (with_len _ _ _ _ WX)|]. split; [apply (with_len _ _ _ _ WY)|]. split; [exact Dp|exact T].
Qed.

(** The data at an inner point, and one period away. *)
Lemma data_inner : forall t k j i, 0 <= j < zlen lat -> 0 <= i < zlen lon ->
  a_at a' [t; k] (j + width meridional h) (i + width zonal h) = a_at a [t; k] j i.
Proof.
  intros t k j i J I. destruct EA as (X & Y & V). cbv zeta in *. pose proof WX as (_ & Hh & _). rewrite V by (unfold width; destruct zonal, meridional; lia).
  rewrite AX, AY. unfold width. f_equal.
  - replace (j + (if meridional then h else 0)) with ((if meridional then h else 0) + j) by lia. apply origin_inner; [destruct meridional; lia|exact J].
  - replace (i + (if zonal then h else 0)) with ((if zonal then h else 0) + i) by lia. apply origin_inner; [destruct zonal; lia|exact I].
Qed.

Lemma frame_inner : forall n x y z q, frame_value F n x y z q -> frame_value F0 n x y z q.
Proof.
  intros n x y z q (xi & yi & zi & xsi & eta & zeta & LX & LY & LZ & E).
  destruct (with_located _ _ _ _ _ _ _ WX LX) as (LX' & MX). destruct (with_located _ _ _ _ _ _ _ WY LY) as (LY' & MY).
  eapply interpolant_moved; [exact MX|exact MY|exact LZ|exact LX'|exact LY'|exact LX|exact LY| |exact E].
  intros k j i J I. cbn [plain_flag field_on s_data s_lon s_lat]. rewrite data_inner; [reflexivity| |].
  - eapply cell_node_range; [apply WY|exact LY|exact J].
  - eapply cell_node_range; [apply WX|exact LX|exact I].
Qed.
Lemma inside_halo : forall x y z, position_inside F x y z -> position_inside F0 x y z.
Proof.
  intros x y z (I & J & K). split; [exact (with_inside _ _ _ _ _ WX I)|]. split; [exact (with_inside _ _ _ _ _ WY J)|exact K].
Qed.

Lemma frame_period_x : forall n x y z q, zonal = true -> position_inside F' x y z -> position_inside F' (x + axis_period lon) y z ->
  frame_value F0 n x y z q -> frame_value F0 n (x + axis_period lon) y z q.
Proof.
  intros n x y z q Zt (I & _) (J & _) V. pose proof WX as W. rewrite Zt in W.
  destruct (period_located h lon lon' x W I J) as (i & r & L1 & L2 & M & B).
  destruct V as (xi & yi & zi & xsi & eta & zeta & LX & LY & LZ & E).
  assert (E' : (q == lin1 (s_depth f) (fun k => lin1 lat' (fun j => lin1 lon' (fun i => a_at a' [n; k] j i) i r) yi eta) zi zeta)%Q).
  { rewrite E. cbn [plain_flag field_on s_data s_lon s_lat s_depth].
    apply (lin1_unique (s_depth f) z); [apply LF|exact LZ|exact LZ|]. intros k.
    apply (lin1_unique lat' y); [left; apply (with_len _ _ _ _ WY)|exact LY|exact LY|]. intros j.
    apply (lin1_unique lon' x); [left; apply (with_len _ _ _ _ WX)|exact LX|exact L1|]. intros i'. reflexivity. }
  eapply (interpolant_moved lon' lat' (s_depth f) (fun k j i => a_at a' [n; k] j i) lon' lat' (fun k j i => a_at a' [n; k] j i) x y z (x + axis_period lon) y (zlen lon) 0 i yi zi r eta zeta).
  - exact M.
  - split; [apply (with_len _ _ _ _ WY)|]. split; [intros L; split; [exact L|reflexivity]|intros L; exact L].
  - exact LZ.
  - exact L2.
  - replace (yi + 0) with yi by lia. exact LY.
  - exact L1.
  - exact LY.
  - intros k j i' Jc Ic. assert (Rj : 0 <= j < zlen lat') by (eapply cell_node_range; [apply (with_len _ _ _ _ WY)|exact LY|exact Jc]).
    assert (Ri : 0 <= i' < 2 * h).
    { destruct Ic as [(Ic & _)|(_ & [-> | ->])]; [|destruct L1 as [(L1 & _)|(_ & (L1 & _))]..]; destruct (with_len _ _ _ _ W) as (Ln & _); cbn [width] in Ln; destruct W as (_ & Hh & Fz & _); destruct (Fz eq_refl); lia. }
    destruct (with_len _ _ _ _ W) as (Ln & _). cbn [width] in Ln. destruct (with_len _ _ _ _ WY) as (Lm & _). unfold width in Lm.
    pose proof (zlen_nonneg _ lon) as PN. pose proof (zlen_nonneg _ lat) as PM. destruct EA as (X & Y & V). cbv zeta in *. rewrite Zt in X. cbv iota in X. replace (j + 0) with j by lia.
    rewrite (V _ j (i' + zlen lon)) by lia. rewrite (V _ j i') by lia. rewrite Zt, AX.
    rewrite (proj1 (origin_next h (zlen lon) i' ltac:(destruct W as (_ & _ & Fz & _); destruct (Fz eq_refl); lia))). reflexivity.
  - exact E'.
Qed.

Lemma frame_period_y : forall n x y z q, meridional = true -> position_inside F' x y z -> position_inside F' x (y + axis_period lat) z ->
  frame_value F0 n x y z q -> frame_value F0 n x (y + axis_period lat) z q.
Proof.
  intros n x y z q Zt (_ & I & _) (_ & J & _) V. pose proof WY as W. rewrite Zt in W.
  destruct (period_located h lat lat' y W I J) as (i & r & L1 & L2 & M & B).
  destruct V as (xi & yi & zi & xsi & eta & zeta & LX & LY & LZ & E).
  assert (E' : (q == lin1 (s_depth f) (fun k => lin1 lat' (fun j => lin1 lon' (fun i => a_at a' [n; k] j i) xi xsi) i r) zi zeta)%Q).
  { rewrite E. cbn [plain_flag field_on s_data s_lon s_lat s_depth].
    apply (lin1_unique (s_depth f) z); [apply LF|exact LZ|exact LZ|]. intros k.
    apply (lin1_unique lat' y); [left; apply (with_len _ _ _ _ WY)|exact LY|exact L1|]. intros j. reflexivity. }
  eapply (interpolant_moved lon' lat' (s_depth f) (fun k j i => a_at a' [n; k] j i) lon' lat' (fun k j i => a_at a' [n; k] j i) x y z x (y + axis_period lat) 0 (zlen lat) xi i zi xsi r zeta).
  - split; [apply (with_len _ _ _ _ WX)|]. split; [intros L; split; [exact L|reflexivity]|intros L; exact L].
  - exact M.
  - exact LZ.
  - replace (xi + 0) with xi by lia. exact LX.
  - exact L2.
  - exact LX.
  - exact L1.
  - intros k i' j Ic Jc. assert (Rj : 0 <= j < zlen lon') by (eapply cell_node_range; [apply (with_len _ _ _ _ WX)|exact LX|exact Jc]).
    assert (Ri : 0 <= i' < 2 * h).
    { destruct Ic as [(Ic & _)|(_ & [-> | ->])]; [|destruct L1 as [(L1 & _)|(_ & (L1 & _))]..]; destruct (with_len _ _ _ _ W) as (Ln & _); cbn [width] in Ln; destruct W as (_ & Hh & Fz & _); destruct (Fz eq_refl); lia. }
    destruct (with_len _ _ _ _ W) as (Ln & _). cbn [width] in Ln. destruct (with_len _ _ _ _ WX) as (Lm & _). unfold width in Lm.
    pose proof (zlen_nonneg _ lon) as PN. pose proof (zlen_nonneg _ lat) as PM. destruct EA as (X & Y & V). cbv zeta in *. rewrite Zt in Y. cbv iota in Y. replace (j + 0) with j by lia.
    rewrite (V _ (i' + zlen lat) j) by lia. rewrite (V _ i' j) by lia. rewrite Zt, AY.
    rewrite (proj1 (origin_next h (zlen lat) i' ltac:(destruct W as (_ & _ & Fz & _); destruct (Fz eq_refl); lia))). reflexivity.
  - exact E'.
Qed.

(** ** Sampled values *)
Hypothesis LEN : 1 < zlen (s_time f) \/ s_periodic f = false.

Lemma time_len : 1 <= zlen (s_time f).
Proof. destruct LF as (_ & _ & _ & _ & _ & _ & _ & (N & _)). exact N. Qed.

Theorem py_inner : forall t x y z, position_inside F x y z -> same_result (py_sample F t x y z) (py_sample F' t x y z).
Proof.
  intros t x y z P. pose proof (inside_halo x y z P) as P'. rewrite (py_flag F') by (apply (with_len _ _ _ _ WX) || apply P').
  apply (samples_same F0 t x y z); [exact linear_halo|exact LEN| |apply py_sample_value; [exact linear_halo|exact P']].
  apply (samples_move F F0 t x y z x y z); [reflexivity..|exact time_len| |apply py_sample_value; assumption].
  intros n q _. apply frame_inner.
Qed.
Theorem py_period_x : forall t x y z, zonal = true -> position_inside F' x y z -> position_inside F' (x + axis_period lon) y z ->
  same_result (py_sample F' t x y z) (py_sample F' t (x + axis_period lon) y z).
Proof.
  intros t x y z Zt P P'. rewrite (py_flag F' t x) by (apply (with_len _ _ _ _ WX) || apply P).
  rewrite (py_flag F' t (x + axis_period lon)) by (apply (with_len _ _ _ _ WX) || apply P').
  apply (samples_same F0 t (x + axis_period lon) y z); [exact linear_halo|exact LEN| |apply py_sample_value; [exact linear_halo|exact P']].
  apply (samples_move F0 F0 t x y z (x + axis_period lon) y z); [reflexivity..|exact time_len| |apply py_sample_value; [exact linear_halo|exact P]].
  intros n q _. apply frame_period_x; assumption.
Qed.
Theorem py_period_y : forall t x y z, meridional = true -> position_inside F' x y z -> position_inside F' x (y + axis_period lat) z ->
  same_result (py_sample F' t x y z) (py_sample F' t x (y + axis_period lat) z).
Proof.
  intros t x y z Zt P P'. rewrite (py_flag F' t x y) by (apply (with_len _ _ _ _ WX) || apply P).
  rewrite (py_flag F' t x (y + axis_period lat)) by (apply (with_len _ _ _ _ WX) || apply P').
  apply (samples_same F0 t x (y + axis_period lat) z); [exact linear_halo|exact LEN| |apply py_sample_value; [exact linear_halo|exact P']].
  apply (samples_move F0 F0 t x y z x (y + axis_period lat) z); [reflexivity..|exact time_len| |apply py_sample_value; [exact linear_halo|exact P]].
  intros n q _. apply frame_period_y; assumption.
Qed.

(** JIT mode, from any indices left by earlier samples. *)
Lemma frame_at : forall n x x' y z q, (x == x')%Q -> frame_value F0 n x y z q -> frame_value F0 n x' y z q.
Proof.
  intros n x x' y z q E (xi & yi & zi & xsi & eta & zeta & LX & LY & LZ & V). exists xi, yi, zi, xsi, eta, zeta.
  split; [|auto]. destruct LX as [LX|(L & C)]; [left; exact LX|right]. split; [exact L|]. revert C. apply in_cell_eq. exact E.
Qed.
Lemma frame_period_back : forall n x y z q, 0 <= n < zlen (s_time f) -> zonal = true -> position_inside F' x y z -> position_inside F' (x + axis_period lon) y z ->
  frame_value F0 n (x + axis_period lon) y z q -> frame_value F0 n x y z q.
Proof.
  intros n x y z q N Zt P P' V. destruct (py_spatial_value F0 x y z n linear_halo P N) as (q' & _ & V').
  apply (frame_value_eq F0 n x y z q' q); [|exact V'].
  exact (frame_value_unique F0 n _ y z q' q linear_halo (frame_period_x n x y z q' Zt P P' V') V).
Qed.

Hypothesis SPH : sphere_halo zonal lon lon' f.
Variable k : nat.
Hypothesis K : (1 < k)%nat.
Lemma c_samples : forall t x y z xi yi zi ti, position_inside F' x y z -> s_periodic f = false \/ ~ (t == last_ (s_time f))%Q ->
  indices_ok F' xi yi zi -> ti < zlen (s_time f) -> samples_as F0 t x y z (c_sample k F' t x y z xi yi zi ti).
Proof.
  intros t x y z xi yi zi ti P T I0 T0. destruct (with_len _ _ _ _ WX) as (_ & OX). destruct (with_len _ _ _ _ WY) as (_ & OY).
  destruct SPH as [SF|(NA & SP & LN & ALT)].
  { rewrite (c_flag k F') by (exact OX || apply P || exact SF). apply c_sample_value; [exact linear_halo|exact P|exact I0|exact T0|exact K|exact T]. }
  destruct (s_spherical f) eqn:SF.
  2: { rewrite (c_flag k F') by (exact OX || apply P || exact SF). apply c_sample_value; [exact linear_halo|exact P|exact I0|exact T0|exact K|exact T]. }
  destruct LF as (_ & _ & M & IX & _ & _ & Dp & AT). change (axis_ok (s_time f)) in AT. change (depth_ok (s_depth f)) in Dp.
  apply (c_sample_frames k F' F0 t x x y z xi yi zi ti eq_refl eq_refl eq_refl AT); [|exact T0|exact K|exact T].
  intros n N. change (0 <= n < zlen (s_time f)) in N. destruct P as (PX & PY & PZ). pose proof I0 as (VX & VY & VZ).
  assert (O : outside (s_grid F') x y = false).
  { rewrite (outside_flag (s_grid F') false x y OX PX). change (outside (s_grid F0) x y = false).
    apply outside_plain; [apply plain_grid; exact linear_halo|split; assumption]. }
  assert (M5 : g_mom5 (s_grid F') = false) by (destruct IX as [IX | IX]; cbn in IX |- *; rewrite IX; reflexivity).
  assert (LON : exists xi' xsi c, (if (zlen (g_lon (s_grid F')) =? 1)%Z then Some (Some (0%Z, 0%Q))
   else if g_spherical (s_grid F') then c_sphere itmax (g_lon (s_grid F')) x xi
   else match c_axis (g_lon (s_grid F')) x xi with Some r => Some (Some r) | None => None end) = Some (Some (xi', xsi)) /\
   located lon' (x - c) xi' xsi /\ (zlen lon' = 1 -> xi' = 0) /\ ((c = 0)%Q \/ inside lon' (x - c) /\ zonal = true /\ axis_period lon == 360 /\ ((c = 360)%Q \/ (c = -360)%Q))%Q).
  { cbn [s_grid field_on g_lon g_spherical s_lon s_spherical]. rewrite SF. destruct (zlen lon' =? 1) eqn:L1.
    - exists 0, 0%Q, 0%Q. split; [reflexivity|]. split; [left; split; [lia|reflexivity]|]. split; [reflexivity|left; reflexivity].
    - change (inside lon' x) in PX. destruct PX as [PX|PX]; [lia|]. change (valid_start lon' xi) in VX. destruct VX as [VX|VX]; [lia|].
      destruct OX as (L & Inc).
      destruct (sphere_finds lon' x Inc ltac:(lia) NA SP 0%Z ltac:(auto)) with (i := xi) (k := itmax) as (j & J & Fd & EQ).
      { change (inject_Z 0) with 0%Q. lra. } { lia. } { rewrite itmax_is. lia. }
      destruct (inc_found_cell lon' x Inc NA j J Fd) as (c & C & IC & _).
      eexists. eexists. exists c. split; [exact EQ|]. split; [right; split; [lia|exact IC]|]. split; [lia|].
      pose proof (in_cell_range _ _ _ _ Inc IC) as RG.
      destruct C as [C|C]; [left; exact C|right]. split; [right; exact RG|].
      destruct ALT as [ALT|(Zt & PE)]; [exfalso; destruct C as [-> | ->]; lra|]. split; [exact Zt|]. split; [exact PE|exact C]. }
  destruct LON as (xi' & xsi & c & EX & LX & NX & CC).
  destruct (c_search_core (s_grid F') x (x - c) y z xi yi zi xi' xsi O M5 OY Dp PY PZ I0 EX LX) as (eta & zeta & yi' & zi' & E & LY & LZ & _ & NY).
  destruct (c_spatial_found F' x (x - c) y z n xi yi zi xsi eta zeta xi' yi' zi' M IX OX OY N E LX LY LZ NX NY) as (q & EQ & FV).
  exists q. split; [exact EQ|]. change (frame_value F0 n (x - c) y z q) in FV. change (frame_value F0 n x y z q).
  destruct CC as [-> | (IC & Zt & PE & [-> | ->])].
  - revert FV. apply frame_at. ring.
  - assert (PI : position_inside F' (x - 360) y z) by (split; [exact IC|split; assumption]).
    assert (PP : position_inside F' (x - 360 + axis_period lon) y z).
    { split; [|split; assumption]. change (inside lon' (x - 360 + axis_period lon)). change (inside lon' x) in PX.
      destruct PX as [PX|PX]; [left; exact PX|right]. rewrite PE. lra. }
    apply (frame_at n (x - 360 + axis_period lon)); [rewrite PE; ring|]. apply frame_period_x; assumption.
  - assert (PP : position_inside F' (x + axis_period lon) y z).
    { split; [|split; assumption]. change (inside lon' (x + axis_period lon)). destruct IC as [IC|IC]; [left; exact IC|right]. rewrite PE. lra. }
    apply frame_period_back; [exact N|exact Zt|split; [exact PX|split; assumption]|exact PP|].
    revert FV. apply frame_at. rewrite PE. ring.
Qed.

Theorem c_inner : forall t x y z xi yi zi ti xi' yi' zi' ti', position_inside F x y z -> s_periodic f = false \/ ~ (t == last_ (s_time f))%Q ->
  indices_ok F xi yi zi -> ti < zlen (s_time f) -> indices_ok F' xi' yi' zi' -> ti' < zlen (s_time f) ->
  same_result (c_sample k F t x y z xi yi zi ti) (c_sample k F' t x y z xi' yi' zi' ti').
Proof.
  intros t x y z xi yi zi ti xi' yi' zi' ti' P T X0 T0 X1 T1. pose proof (inside_halo x y z P) as P'.
  apply (samples_same F0 t x y z); [exact linear_halo|exact LEN| |apply c_samples; assumption].
  apply (samples_move F F0 t x y z x y z); [reflexivity..|exact time_len| |apply c_sample_value; assumption].
  intros n q _. apply frame_inner.
Qed.
Theorem c_period_x : forall t x y z xi yi zi ti xi' yi' zi' ti', zonal = true -> position_inside F' x y z -> position_inside F' (x + axis_period lon) y z ->
  s_periodic f = false \/ ~ (t == last_ (s_time f))%Q ->
  indices_ok F' xi yi zi -> ti < zlen (s_time f) -> indices_ok F' xi' yi' zi' -> ti' < zlen (s_time f) ->
  same_result (c_sample k F' t x y z xi yi zi ti) (c_sample k F' t (x + axis_period lon) y z xi' yi' zi' ti').
Proof.
  intros t x y z xi yi zi ti xi' yi' zi' ti' Zt P P' T X0 T0 X1 T1.
  apply (samples_same F0 t (x + axis_period lon) y z); [exact linear_halo|exact LEN| |apply c_samples; assumption].
  apply (samples_move F0 F0 t x y z (x + axis_period lon) y z); [reflexivity..|exact time_len| |apply c_samples; assumption].
  intros n q _. apply frame_period_x; assumption.
Qed.
Theorem c_period_y : forall t x y z xi yi zi ti xi' yi' zi' ti', meridional = true -> position_inside F' x y z -> position_inside F' x (y + axis_period lat) z ->
  s_periodic f = false \/ ~ (t == last_ (s_time f))%Q ->
  indices_ok F' xi yi zi -> ti < zlen (s_time f) -> indices_ok F' xi' yi' zi' -> ti' < zlen (s_time f) ->
  same_result (c_sample k F' t x y z xi yi zi ti) (c_sample k F' t x (y + axis_period lat) z xi' yi' zi' ti').
Proof.
  intros t x y z xi yi zi ti xi' yi' zi' ti' Zt P P' T X0 T0 X1 T1.
  apply (samples_same F0 t x (y + axis_period lat) z); [exact linear_halo|exact LEN| |apply c_samples; assumption].
  apply (samples_move F0 F0 t x y z x (y + axis_period lat) z); [reflexivity..|exact time_len| |apply c_samples; assumption].
  intros n q _. apply frame_period_y; assumption.
Qed.
End Fields.

Lemma added_parts : forall zonal meridional h g a g' a', halo_added zonal meridional h g a g' a' ->
  axis_with zonal h (grid_lon g) (grid_lon g') /\ axis_with meridional h (grid_lat g) (grid_lat g') /\
  a_x a = zlen (grid_lon g) /\ a_y a = zlen (grid_lat g) /\ extends_array zonal meridional h a a'.
Proof.
  intros zonal meridional h g a g' a' (K & Fi & (lon & lat & C) & ZP & D & AX & AY & G & FH).
  destruct (grid_halo_spec zonal meridional h g K Fi) as (g1 & G1 & S & _). assert (g1 = g') by congruence. subst g1.
  pose proof (dims_pos g K) as P. destruct K as (K & _). rewrite C in K. destruct K as (A1 & A2 & X & Y). destruct Fi as (H & FZ & FM).
  destruct S as (S & _ & X' & Y' & _ & D'). rewrite C in S. unfold grid_lon, grid_lat. rewrite C. destruct (h_coords g') as [lon' lat'|]; [|destruct S]. destruct S as (S1 & S2).
  split; [|split; [|split; [|split]]].
  - split; [exact A1|]. split; [exact H|]. split; [intros Z; destruct (FZ Z); lia|exact S1].
  - split; [exact A2|]. split; [exact H|]. split; [intros Z; destruct (FM Z); lia|exact S2].
  - lia.
  - lia.
  - unfold field_halo in FH. rewrite D', D in FH.
    destruct (array_halo_spec zonal meridional h (h_xdim g') (h_ydim g') a) as (a1 & E1 & S3); [lia|lia|exact H|intros Z; destruct (FZ Z); lia|intros Z; destruct (FM Z); lia|lia|lia|].
    assert (a1 = a') by congruence. subst a1. exact S3.
Qed.

Theorem halo_py_inner : forall zonal meridional h g a g' a' f t x y z, halo_added zonal meridional h g a g' a' ->
  linear_field (field_of g a f) -> 1 < zlen (s_time f) \/ s_periodic f = false -> position_inside (field_of g a f) x y z ->
  same_result (py_sample (field_of g a f) t x y z) (py_sample (field_of g' a' f) t x y z).
Proof.
  intros zonal meridional h g a g' a' f t x y z A LF LEN P. destruct (added_parts _ _ _ _ _ _ _ A) as (WX & WY & AX & AY & EA).
  destruct A as (_ & _ & _ & ZP & _). unfold field_of in *. rewrite ZP in *.
  exact (py_inner zonal meridional h _ _ _ _ _ a a' f WX WY AX AY EA LF LEN t x y z P).
Qed.
Theorem halo_py_period : forall zonal meridional h g a g' a' f t x y z x' y', halo_added zonal meridional h g a g' a' ->
  linear_field (field_of g a f) -> 1 < zlen (s_time f) \/ s_periodic f = false ->
  (zonal = true /\ x' = x + axis_period (grid_lon g) /\ y' = y \/ meridional = true /\ x' = x /\ y' = y + axis_period (grid_lat g))%Q ->
  position_inside (field_of g' a' f) x y z -> position_inside (field_of g' a' f) x' y' z ->
  same_result (py_sample (field_of g' a' f) t x y z) (py_sample (field_of g' a' f) t x' y' z).
Proof.
  intros zonal meridional h g a g' a' f t x y z x' y' A LF LEN Cs P P'. destruct (added_parts _ _ _ _ _ _ _ A) as (WX & WY & AX & AY & EA).
  destruct A as (_ & _ & _ & ZP & _). unfold field_of in *. rewrite ZP in LF.
  destruct Cs as [(Zt & -> & ->)|(Mt & -> & ->)].
  - exact (py_period_x zonal meridional h _ _ _ _ _ a a' f WX WY AX AY EA LF LEN t x y z Zt P P').
  - exact (py_period_y zonal meridional h _ _ _ _ _ a a' f WX WY AX AY EA LF LEN t x y z Mt P P').
Qed.
Theorem halo_c_inner : forall zonal meridional h g a g' a' f k t x y z xi yi zi ti xi' yi' zi' ti', halo_added zonal meridional h g a g' a' ->
  linear_field (field_of g a f) -> 1 < zlen (s_time f) \/ s_periodic f = false -> (1 < k)%nat -> sphere_halo zonal (grid_lon g) (grid_lon g') f ->
  position_inside (field_of g a f) x y z -> s_periodic f = false \/ ~ (t == last_ (s_time f))%Q ->
  indices_ok (field_of g a f) xi yi zi -> ti < zlen (s_time f) -> indices_ok (field_of g' a' f) xi' yi' zi' -> ti' < zlen (s_time f) ->
  same_result (c_sample k (field_of g a f) t x y z xi yi zi ti) (c_sample k (field_of g' a' f) t x y z xi' yi' zi' ti').
Proof.
  intros zonal meridional h g a g' a' f k t x y z xi yi zi ti xi' yi' zi' ti' A LF LEN K SPH P T I0 T0 I1 T1. destruct (added_parts _ _ _ _ _ _ _ A) as (WX & WY & AX & AY & EA).
  destruct A as (_ & _ & _ & ZP & _). unfold field_of in *. rewrite ZP in *.
  exact (c_inner zonal meridional h _ _ _ _ _ a a' f WX WY AX AY EA LF LEN SPH k K t x y z xi yi zi ti xi' yi' zi' ti' P T I0 T0 I1 T1).
Qed.
Theorem halo_c_period : forall zonal meridional h g a g' a' f k t x y z x' y' xi yi zi ti xi' yi' zi' ti', halo_added zonal meridional h g a g' a' ->
  linear_field (field_of g a f) -> 1 < zlen (s_time f) \/ s_periodic f = false -> (1 < k)%nat -> sphere_halo zonal (grid_lon g) (grid_lon g') f ->
  (zonal = true /\ x' = x + axis_period (grid_lon g) /\ y' = y \/ meridional = true /\ x' = x /\ y' = y + axis_period (grid_lat g))%Q ->
  position_inside (field_of g' a' f) x y z -> position_inside (field_of g' a' f) x' y' z ->
  s_periodic f = false \/ ~ (t == last_ (s_time f))%Q ->
  indices_ok (field_of g' a' f) xi yi zi -> ti < zlen (s_time f) -> indices_ok (field_of g' a' f) xi' yi' zi' -> ti' < zlen (s_time f) ->
  same_result (c_sample k (field_of g' a' f) t x y z xi yi zi ti) (c_sample k (field_of g' a' f) t x' y' z xi' yi' zi' ti').
Proof.
  intros zonal meridional h g a g' a' f k t x y z x' y' xi yi zi ti xi' yi' zi' ti' A LF LEN K SPH Cs P P' T I0 T0 I1 T1. destruct (added_parts _ _ _ _ _ _ _ A) as (WX & WY & AX & AY & EA).
  destruct A as (_ & _ & _ & ZP & _). unfold field_of in *. rewrite ZP in LF.
  destruct Cs as [(Zt & -> & ->)|(Mt & -> & ->)].
  - exact (c_period_x zonal meridional h _ _ _ _ _ a a' f WX WY AX AY EA LF LEN SPH k K t x y z xi yi zi ti xi' yi' zi' ti' Zt P P' T I0 T0 I1 T1).
  - exact (c_period_y zonal meridional h _ _ _ _ _ a a' f WX WY AX AY EA LF LEN SPH k K t x y z xi yi zi ti xi' yi' zi' ti' Mt P P' T I0 T0 I1 T1).
Qed.
