From Coq Require Import List ZArith Bool QArith Qabs Qround Lia Lqa ZifyBool Psatz.
From Verif Require Import IdxModel IdxSpec IdxProofs TimeModel InterpModel InterpSpec TimeProofs.
Import ListNotations.
Open Scope Q_scope.

(** ** Reading the corners *)
Lemma py_index_in : forall n i, (0 <= i < n)%Z -> py_index n i = Some i.
Proof. intros n i H. unfold py_index. replace (i <? 0)%Z with false by lia. replace ((0 <=? i)%Z && (i <? n)%Z) with true by lia. reflexivity. Qed.
Lemma py_index_m1 : py_index 1 (-1) = Some 0%Z.
Proof. reflexivity. Qed.

(** The two nodes a Python index reads along an axis. *)
Definition node (l : list Q) (i : Z) : Z := if (zlen l =? 1)%Z then 0%Z else i.
Lemma py_nodes : forall l x i r, axis_ok l -> located l x i r -> (zlen l = 1 -> i = -1)%Z ->
  py_index (zlen l) i = Some (node l i) /\ py_index (zlen l) (i + 1) = Some (node l (i + 1)).
Proof.
  intros l x i r [L _] H E. unfold node. destruct (zlen l =? 1)%Z eqn:E1.
  - assert (E2 : zlen l = 1%Z) by lia. rewrite E2, (E E2). split; reflexivity.
  - destruct H as [[H _]|[_ (A & B & _)]]; [lia|]. split; apply py_index_in; lia.
Qed.
Lemma c_nodes : forall l x i r, axis_ok l -> located l x i r -> (zlen l = 1 -> i = 0)%Z ->
  c_index (zlen l) i false = Some (node l i) /\ c_index (zlen l) i true = Some (node l (i + 1)) /\
  forall b, (if (zlen l =? 1)%Z then i else i + b2z b)%Z = node l (i + b2z b).
Proof.
  intros l x i r [L _] H E. unfold node, c_index. destruct (zlen l =? 1)%Z eqn:E1.
  - assert (E2 : zlen l = 1%Z) by lia. rewrite E2, (E E2). repeat split.
  - destruct H as [[H _]|[_ (A & B & _)]]; [lia|]. cbn [b2z].
    replace ((0 <=? i + 0)%Z && (i + 0 <? zlen l)%Z) with true by lia.
    replace ((0 <=? i + 1)%Z && (i + 1 <? zlen l)%Z) with true by lia.
    repeat split. f_equal. lia.
Qed.

Lemma lin1_nodes : forall l f i r, (zlen l = 1%Z -> r == 0) -> lin1 l f i r == (1 - r) * f (node l i) + r * f (node l (i + 1)).
Proof.
  intros l f i r H. unfold lin1, node. destruct (zlen l =? 1)%Z eqn:E; [|reflexivity]. rewrite (H ltac:(lia)). ring.
Qed.
Lemma located_one : forall l x i r, located l x i r -> zlen l = 1%Z -> r == 0.
Proof. intros l x i r [[_ H]|[H _]] E; [exact H|lia]. Qed.

(** The 2D interpolation of one level. *)
Definition level (lon lat : list Q) (d : Z -> Z -> Q) (xi yi : Z) (xsi eta : Q) : Q :=
  lin1 lat (fun j => lin1 lon (fun i => d j i) xi xsi) yi eta.
Lemma level_eq : forall lon lat d xi yi xsi eta, (zlen lon = 1%Z -> xsi == 0) -> (zlen lat = 1%Z -> eta == 0) ->
  level lon lat d xi yi xsi eta ==
    (1 - xsi) * (1 - eta) * d (node lat yi) (node lon xi) + xsi * (1 - eta) * d (node lat yi) (node lon (xi + 1))
    + xsi * eta * d (node lat (yi + 1)) (node lon (xi + 1)) + (1 - xsi) * eta * d (node lat (yi + 1)) (node lon xi).
Proof. intros. unfold level. rewrite lin1_nodes by assumption. rewrite !lin1_nodes by assumption. ring. Qed.

Lemma py_bilinear_level : forall f lon lat x y xi yi xsi eta k k',
  f_ydim f = zlen lat -> f_xdim f = zlen lon -> axis_ok lon -> axis_ok lat ->
  located lon x xi xsi -> located lat y yi eta -> (zlen lon = 1 -> xi = -1)%Z -> (zlen lat = 1 -> yi = -1)%Z ->
  py_index (f_zdim f) k = Some k' ->
  exists q, py_bilinear f k yi xi xsi eta = Some q /\ q == level lon lat (f_at f k') xi yi xsi eta.
Proof.
  intros f lon lat x y xi yi xsi eta k k' YD XD AX AY LX LY NX NY K.
  destruct (py_nodes _ _ _ _ AX LX NX) as [X1 X2]. destruct (py_nodes _ _ _ _ AY LY NY) as [Y1 Y2].
  unfold py_bilinear, py_read. rewrite K, YD, XD, X1, X2, Y1, Y2. eexists. split; [reflexivity|].
  rewrite level_eq by (eapply located_one; eassumption). ring.
Qed.

Lemma plain_grid : forall f, linear_field f -> plain (s_grid f).
Proof.
  intros f (S & ZP & M & IX & AX & AY & AZ & AT). unfold plain, s_grid. cbn.
  repeat split; try assumption; try (apply AX || apply AY || apply AZ). destruct IX as [-> | ->]; reflexivity.
Qed.

Definition py_interp_in (f : sfield) (n : Z) (xsi eta zeta : Q) (xi yi zi : Z) : ires :=
  if (zlen (s_depth f) =? 1)%Z then py_interp2D (s_method f) (s_frame f n) xsi eta xi yi
  else py_interp3D (s_indexing f) (s_method f) (s_frame f n) xsi eta zeta xi yi zi.
Lemma py_interp_found : forall f x y z n xsi eta zeta xi yi zi, s_method f = Linear -> s_indexing f = Nemo \/ s_indexing f = Mitgcm ->
  axis_ok (s_lon f) -> axis_ok (s_lat f) ->
  located (s_lon f) x xi xsi -> located (s_lat f) y yi eta -> located (s_depth f) z zi zeta ->
  (zlen (s_lon f) = 1 -> xi = -1)%Z -> (zlen (s_lat f) = 1 -> yi = -1)%Z ->
  exists q, py_interp_in f n xsi eta zeta xi yi zi = IVal q /\ frame_value f n x y z q.
Proof.
  intros f x y z n xsi eta zeta xi yi zi M IDX AX AY LX LY LZ NX NY. unfold py_interp_in. rewrite M.
  destruct (zlen (s_depth f) =? 1)%Z eqn:D1.
  - unfold py_interp2D.
    destruct (py_bilinear_level (s_frame f n) (s_lon f) (s_lat f) x y xi yi xsi eta 0 0 eq_refl eq_refl AX AY LX LY NX NY) as (q & -> & Q1).
    { cbn. apply py_index_in. lia. }
    exists q. split; [reflexivity|]. exists xi, yi, zi, xsi, eta, zeta. repeat (split; [assumption|]).
    rewrite Q1. unfold lin1 at 1. rewrite D1. reflexivity.
  - destruct LZ as [[LZ _]|[L1 LZ]]; [lia|]. pose proof LZ as (Z0 & Z1 & _).
    unfold py_interp3D.
    destruct (py_bilinear_level (s_frame f n) (s_lon f) (s_lat f) x y xi yi xsi eta zi zi eq_refl eq_refl AX AY LX LY NX NY) as (q0 & -> & Q0).
    { cbn. apply py_index_in. lia. }
    destruct (py_bilinear_level (s_frame f n) (s_lon f) (s_lat f) x y xi yi xsi eta (zi + 1) (zi + 1) eq_refl eq_refl AX AY LX LY NX NY) as (q1 & -> & Q1).
    { cbn. apply py_index_in. lia. }
    replace (is_pop (s_indexing f)) with false by (destruct IDX as [-> | ->]; reflexivity). cbn [andb].
    eexists. split; [reflexivity|]. exists xi, yi, zi, xsi, eta, zeta. repeat (split; [assumption|]). split; [right; split; assumption|].
    unfold lin1 at 1. rewrite D1, Q0, Q1. reflexivity.
Qed.

Theorem py_spatial_value : forall f x y z n, linear_field f -> position_inside f x y z -> (0 <= n < zlen (s_time f))%Z ->
  exists q, py_spatial f x y z n = IVal q /\ frame_value f n x y z q.
Proof.
  intros f x y z n LF (IX & IY & IZ) N. pose proof LF as (S & ZP & M & IDX & AX & AY & AZ & AT).
  destruct (py_search_found (s_grid f) x y z (plain_grid f LF) IX IY IZ) as (xsi & eta & zeta & xi & yi & zi & E & LX & LY & LZ & NX & NY).
  unfold py_spatial. rewrite E, py_index_in by exact N. apply (py_interp_found f x y z n xsi eta zeta xi yi zi); assumption.
Qed.

Lemma c_cell_ok_located : forall f lon lat x y xi yi xsi eta k, f_ydim f = zlen lat -> f_xdim f = zlen lon -> axis_ok lon -> axis_ok lat ->
  located lon x xi xsi -> located lat y yi eta -> (zlen lon = 1 -> xi = 0)%Z -> (zlen lat = 1 -> yi = 0)%Z ->
  ((f_zdim f = 1 /\ k = 0) \/ (0 <= k /\ k + 1 < f_zdim f))%Z ->
  c_cell_ok f k yi xi = true.
Proof.
  intros f lon lat x y xi yi xsi eta k YD XD AX AY LX LY NX NY K. unfold c_cell_ok.
  destruct (c_nodes _ _ _ _ AX LX NX) as (X1 & X2 & _). destruct (c_nodes _ _ _ _ AY LY NY) as (Y1 & Y2 & _).
  rewrite YD, XD, X1, X2, Y1, Y2. rewrite !andb_true_r. unfold c_index. cbn [b2z].
  destruct (f_zdim f =? 1)%Z eqn:E.
  - destruct K as [[K1 K2]|[K1 K2]]; [|lia]. replace ((0 <=? k)%Z && (k <? f_zdim f)%Z) with true by lia. reflexivity.
  - destruct K as [[K1 K2]|[K1 K2]]; [lia|]. replace ((0 <=? k + 0)%Z && (k + 0 <? f_zdim f)%Z) with true by lia.
    replace ((0 <=? k + 1)%Z && (k + 1 <? f_zdim f)%Z) with true by lia. reflexivity.
Qed.

Lemma c_bilinear_level : forall f lon lat x y xi yi xsi eta k b, f_ydim f = zlen lat -> f_xdim f = zlen lon -> axis_ok lon -> axis_ok lat ->
  located lon x xi xsi -> located lat y yi eta -> (zlen lon = 1 -> xi = 0)%Z -> (zlen lat = 1 -> yi = 0)%Z ->
  c_bilinear xsi eta (c_cell f k yi xi b) ==
    level lon lat (f_at f (if (f_zdim f =? 1)%Z then k else k + b2z b)%Z) xi yi xsi eta.
Proof.
  intros f lon lat x y xi yi xsi eta k b YD XD AX AY LX LY NX NY.
  destruct (c_nodes _ _ _ _ AX LX NX) as (_ & _ & X). destruct (c_nodes _ _ _ _ AY LY NY) as (_ & _ & Y).
  rewrite level_eq by (eapply located_one; eassumption). unfold c_bilinear, c_cell. rewrite YD, XD.
  rewrite !X, !Y. cbn [b2z]. rewrite !Z.add_0_r. reflexivity.
Qed.

Lemma c_interp_found : forall f x y z n xsi eta zeta xi yi zi, s_method f = Linear -> s_indexing f = Nemo \/ s_indexing f = Mitgcm ->
  axis_ok (s_lon f) -> axis_ok (s_lat f) ->
  located (s_lon f) x xi xsi -> located (s_lat f) y yi eta -> located (s_depth f) z zi zeta ->
  (zlen (s_lon f) = 1 -> xi = 0)%Z -> (zlen (s_lat f) = 1 -> yi = 0)%Z ->
  exists q, c_interp (s_indexing f) (s_method f) (s_frame f n) xsi eta zeta xi yi zi = IVal q /\ frame_value f n x y z q.
Proof.
  intros f x y z n xsi eta zeta xi yi zi M IDX AX AY LX LY LZ NX NY. rewrite M. unfold c_interp.
  replace (is_mom5 (s_indexing f)) with false by (destruct IDX as [-> | ->]; reflexivity).
  replace (is_pop (s_indexing f)) with false by (destruct IDX as [-> | ->]; reflexivity). cbn [andb].
  change (f_zdim (s_frame f n)) with (zlen (s_depth f)).
  destruct (zlen (s_depth f) =? 1)%Z eqn:D1.
  - rewrite (c_cell_ok_located (s_frame f n) (s_lon f) (s_lat f) x y xi yi xsi eta 0 eq_refl eq_refl AX AY LX LY NX NY) by (left; cbn; lia).
    cbn [negb]. eexists. split; [reflexivity|]. exists xi, yi, zi, xsi, eta, zeta. repeat (split; [assumption|]).
    rewrite (c_bilinear_level (s_frame f n) (s_lon f) (s_lat f) x y xi yi xsi eta 0 false eq_refl eq_refl AX AY LX LY NX NY).
    change (f_zdim (s_frame f n)) with (zlen (s_depth f)). unfold lin1 at 1. rewrite D1. reflexivity.
  - destruct LZ as [[LZ _]|[L1 LZ]]; [lia|]. pose proof LZ as (Z0 & Z1 & _).
    rewrite (c_cell_ok_located (s_frame f n) (s_lon f) (s_lat f) x y xi yi xsi eta zi eq_refl eq_refl AX AY LX LY NX NY) by (right; cbn; lia).
    cbn [negb]. eexists. split; [reflexivity|]. exists xi, yi, zi, xsi, eta, zeta. repeat (split; [assumption|]). split; [right; split; assumption|].
    unfold c_trilinear. rewrite !(c_bilinear_level (s_frame f n) (s_lon f) (s_lat f) x y xi yi xsi eta zi _ eq_refl eq_refl AX AY LX LY NX NY).
    change (f_zdim (s_frame f n)) with (zlen (s_depth f)). unfold lin1 at 1. rewrite D1. cbn [b2z]. rewrite Z.add_0_r. reflexivity.
Qed.

Lemma c_spatial_found : forall f x x' y z n xi0 yi0 zi0 xsi eta zeta xi yi zi, s_method f = Linear -> s_indexing f = Nemo \/ s_indexing f = Mitgcm ->
  axis_ok (s_lon f) -> axis_ok (s_lat f) -> (0 <= n < zlen (s_time f))%Z ->
  c_search (s_grid f) x y z xi0 yi0 zi0 = Found xsi eta zeta xi yi zi ->
  located (s_lon f) x' xi xsi -> located (s_lat f) y yi eta -> located (s_depth f) z zi zeta ->
  (zlen (s_lon f) = 1 -> xi = 0)%Z -> (zlen (s_lat f) = 1 -> yi = 0)%Z ->
  exists q, c_spatial f x y z xi0 yi0 zi0 n = IVal q /\ frame_value f n x' y z q.
Proof.
  intros f x x' y z n xi0 yi0 zi0 xsi eta zeta xi yi zi M IDX AX AY N E LX LY LZ NX NY.
  unfold c_spatial. rewrite E. replace ((0 <=? n)%Z && (n <? zlen (s_time f))%Z) with true by lia. apply c_interp_found; assumption.
Qed.

Theorem c_spatial_value : forall f x y z n xi0 yi0 zi0, linear_field f -> position_inside f x y z -> (0 <= n < zlen (s_time f))%Z ->
  indices_ok f xi0 yi0 zi0 ->
  exists q, c_spatial f x y z xi0 yi0 zi0 n = IVal q /\ frame_value f n x y z q.
Proof.
  intros f x y z n xi0 yi0 zi0 LF (IX & IY & IZ) N IDX0. pose proof LF as (S & ZP & M & IDX & AX & AY & AZ & AT).
  destruct (c_search_found (s_grid f) x y z xi0 yi0 zi0 (plain_grid f LF) IX IY IZ IDX0)
    as (xsi & eta & zeta & xi & yi & zi & E & LX & LY & LZ & _ & NX & NY).
  apply (c_spatial_found f x x y z n xi0 yi0 zi0 xsi eta zeta xi yi zi); assumption.
Qed.

(** ** The value is unique *)
Lemma interpolant_unique : forall lon lat depth d x y z q q', axis_ok lon -> axis_ok lat -> depth_ok depth ->
  interpolant lon lat depth d x y z q -> interpolant lon lat depth d x y z q' -> q == q'.
Proof.
  intros lon lat depth d x y z q q' [_ AX] [_ AY] [_ AZ] (xi & yi & zi & xsi & eta & zeta & LX & LY & LZ & E)
    (xi' & yi' & zi' & xsi' & eta' & zeta' & LX' & LY' & LZ' & E').
  rewrite E, E'. apply (lin1_unique depth z); [exact AZ|exact LZ|exact LZ'|]. intros k.
  apply (lin1_unique lat y); [left; exact AY|exact LY|exact LY'|]. intros j.
  apply (lin1_unique lon x); [left; exact AX|exact LX|exact LX'|]. intros i. reflexivity.
Qed.
Lemma frame_value_unique : forall f n x y z q q', linear_field f -> frame_value f n x y z q -> frame_value f n x y z q' -> q == q'.
Proof.
  intros f n x y z q q' (S & ZP & M & IDX & AX & AY & AZ & AT) A B. exact (interpolant_unique _ _ _ _ _ _ _ _ _ AX AY AZ A B).
Qed.
Lemma field_value_unique : forall f t t' x y z q q', linear_field f -> field_value f t x y z q -> field_value f t' x y z q' -> t == t' -> q == q'.
Proof.
  intros f t t' x y z q q' LF (w & W & T) (w' & W' & T') TT. pose proof LF as (_ & _ & _ & _ & _ & _ & _ & AT).
  eapply time_value_unique; [exact AT|exact T|exact T'|exact TT|]. intros n N.
  eapply frame_value_unique; [exact LF|apply W, N|apply W', N].
Qed.

(** A choice of value for every frame, as a function. *)
Definition val_of (r : ires) : Q := match r with IVal q => q | _ => 0 end.

Lemma ends_eq : forall f, axis_ok (s_time f) -> s_f0 f = first_ (s_time f) /\ s_fn f = last_ (s_time f).
Proof.
  intros f [L _]. unfold s_f0, s_fn, first_, last_, at_, zlen in *. split; [reflexivity|]. f_equal. lia.
Qed.

Lemma py_frames : forall f x y z, linear_field f -> position_inside f x y z ->
  frames (s_time f) (py_spatial f x y z) (fun n => val_of (py_spatial f x y z n)) /\
  forall n, (0 <= n < zlen (s_time f))%Z -> frame_value f n x y z (val_of (py_spatial f x y z n)).
Proof.
  intros f x y z LF P. split; intros n N; destruct (py_spatial_value f x y z n LF P N) as (q & E & V); rewrite E; [reflexivity|exact V].
Qed.
Lemma c_frames : forall f x y z xi0 yi0 zi0, linear_field f -> position_inside f x y z -> indices_ok f xi0 yi0 zi0 ->
  frames (s_time f) (c_spatial f x y z xi0 yi0 zi0) (fun n => val_of (c_spatial f x y z xi0 yi0 zi0 n)) /\
  forall n, (0 <= n < zlen (s_time f))%Z -> frame_value f n x y z (val_of (c_spatial f x y z xi0 yi0 zi0 n)).
Proof.
  intros f x y z xi0 yi0 zi0 LF P I0. split; intros n N; destruct (c_spatial_value f x y z n xi0 yi0 zi0 LF P N I0) as (q & E & V); rewrite E; [reflexivity|exact V].
Qed.

Lemma frame_value_eq : forall f n x y z q q', q == q' -> frame_value f n x y z q -> frame_value f n x y z q'.
Proof.
  intros f n x y z q q' E (xi & yi & zi & xsi & eta & zeta & LX & LY & LZ & V). exists xi, yi, zi, xsi, eta, zeta.
  repeat (split; [assumption|]). rewrite <- E. exact V.
Qed.

Lemma nonperiodic_samples : forall f t x y z w r, axis_ok (s_time f) -> s_periodic f = false ->
  (forall n, (0 <= n < zlen (s_time f))%Z -> frame_value f n x y z (w n)) ->
  nonperiodic_value (s_time f) w (s_extrapolate f) t r -> samples_as f t x y z r.
Proof.
  intros f t x y z w r [L _] P W (A & B & C & D & E). unfold samples_as. rewrite P. repeat split.
  - intros R. destruct (A R) as (q & Q1 & Q2). exists q. split; [exact Q1|]. exists w. split; assumption.
  - intros [R|R] X; [specialize (B R)|specialize (D R)]; rewrite X in *; assumption.
  - intros R X. destruct (C R X) as (q & Q1 & Q2). exists q. split; [exact Q1|]. apply (frame_value_eq _ _ _ _ _ (w 0%Z)); [lra|]. apply W. lia.
  - intros R X. destruct (E R X) as (q & Q1 & Q2). exists q. split; [exact Q1|]. apply (frame_value_eq _ _ _ _ _ (w (zlen (s_time f) - 1)%Z)); [lra|]. apply W. lia.
Qed.

Lemma py_sample_frames : forall f f' t x x' y z, s_time f' = s_time f -> s_periodic f' = s_periodic f -> s_extrapolate f' = s_extrapolate f -> axis_ok (s_time f) ->
  (forall n, (0 <= n < zlen (s_time f))%Z -> exists q, py_spatial f x y z n = IVal q /\ frame_value f' n x' y z q) ->
  samples_as f' t x' y z (py_sample f t x y z).
Proof.
  intros f f' t x x' y z TE PE EE AT FR.
  assert (F : frames (s_time f) (py_spatial f x y z) (fun n => val_of (py_spatial f x y z n))).
  { intros n N. destruct (FR n N) as (q & E & V). rewrite E. reflexivity. }
  assert (W : forall n, (0 <= n < zlen (s_time f))%Z -> frame_value f' n x' y z (val_of (py_spatial f x y z n))).
  { intros n N. destruct (FR n N) as (q & E & V). rewrite E. exact V. }
  destruct (ends_eq f AT) as [E0 EN]. unfold py_sample. rewrite E0, EN.
  destruct (s_periodic f) eqn:PER.
  - unfold samples_as. rewrite PE, TE. intros L1.
    destruct (py_eval_periodic (s_extrapolate f) (s_time f) _ _ t AT L1 F) as (q & t' & Q1 & Q2 & Q3).
    exists q, t'. split; [exact Q1|]. split; [exact Q2|]. eexists. rewrite TE. split; [exact W|exact Q3].
  - eapply nonperiodic_samples; [rewrite TE; exact AT|exact PE|rewrite TE; exact W|]. rewrite TE, EE. apply py_eval_nonperiodic; [exact AT|exact F].
Qed.
Theorem py_sample_value : forall f t x y z, linear_field f -> position_inside f x y z ->
  samples_as f t x y z (py_sample f t x y z).
Proof.
  intros f t x y z LF P. pose proof LF as (S & ZP & M & IDX & AX & AY & AZ & AT).
  apply py_sample_frames; try reflexivity; [exact AT|]. intros n N. apply py_spatial_value; assumption.
Qed.

(** In C a periodic field is not wrapped at the very end of its axis. *)
Lemma c_sample_frames : forall k f f' t x x' y z xi0 yi0 zi0 ti0, s_time f' = s_time f -> s_periodic f' = s_periodic f -> s_extrapolate f' = s_extrapolate f -> axis_ok (s_time f) ->
  (forall n, (0 <= n < zlen (s_time f))%Z -> exists q, c_spatial f x y z xi0 yi0 zi0 n = IVal q /\ frame_value f' n x' y z q) ->
  (ti0 < zlen (s_time f))%Z -> (1 < k)%nat -> (s_periodic f = false \/ ~ t == last_ (s_time f)) ->
  samples_as f' t x' y z (c_sample k f t x y z xi0 yi0 zi0 ti0).
Proof.
  intros k f f' t x x' y z xi0 yi0 zi0 ti0 TE PE EE AT FR T0 K NL.
  assert (F : frames (s_time f) (c_spatial f x y z xi0 yi0 zi0) (fun n => val_of (c_spatial f x y z xi0 yi0 zi0 n))).
  { intros n N. destruct (FR n N) as (q & E & V). rewrite E. reflexivity. }
  assert (W : forall n, (0 <= n < zlen (s_time f))%Z -> frame_value f' n x' y z (val_of (c_spatial f x y z xi0 yi0 zi0 n))).
  { intros n N. destruct (FR n N) as (q & E & V). rewrite E. exact V. }
  destruct (ends_eq f AT) as [E0 EN]. unfold c_sample. rewrite E0, EN.
  destruct (s_periodic f) eqn:PER.
  - unfold samples_as. rewrite PE, TE. intros L1.
    destruct (c_eval_periodic k (s_extrapolate f) (s_time f) _ _ t ti0 AT L1 F T0 K) as (q & t' & Q1 & Q2 & [Q3|[_ Q3]]).
    + exists q, t'. split; [exact Q1|]. split; [exact Q3|]. eexists. rewrite TE. split; [exact W|exact Q2].
    + destruct NL as [NL|NL]; [discriminate|contradiction].
  - eapply nonperiodic_samples; [rewrite TE; exact AT|exact PE|rewrite TE; exact W|]. rewrite TE, EE. apply c_eval_nonperiodic; [exact AT|exact F|exact T0|lia].
Qed.
Theorem c_sample_value : forall k f t x y z xi0 yi0 zi0 ti0, linear_field f -> position_inside f x y z ->
  indices_ok f xi0 yi0 zi0 -> (ti0 < zlen (s_time f))%Z -> (1 < k)%nat ->
  (s_periodic f = false \/ ~ t == last_ (s_time f)) ->
  samples_as f t x y z (c_sample k f t x y z xi0 yi0 zi0 ti0).
Proof.
  intros k f t x y z xi0 yi0 zi0 ti0 LF P I0 T0 K NL. pose proof LF as (S & ZP & M & IDX & AX & AY & AZ & AT).
  apply c_sample_frames; try reflexivity; try assumption. intros n N. apply c_spatial_value; assumption.
Qed.

Lemma samples_same : forall f t x y z r r', linear_field f -> (1 < zlen (s_time f))%Z \/ s_periodic f = false ->
  samples_as f t x y z r -> samples_as f t x y z r' -> same_result r r'.
Proof.
  intros f t x y z r r' LF LEN A B. pose proof LF as (_ & _ & _ & _ & _ & _ & _ & AT). unfold samples_as in A, B.
  destruct (s_periodic f) eqn:PER.
  - destruct LEN as [LEN|LEN]; [|discriminate].
    destruct (A LEN) as (q & s & -> & S1 & V1). destruct (B LEN) as (q' & s' & -> & S2 & V2). cbn.
    eapply field_value_unique; [exact LF|exact V1|exact V2|]. destruct AT as [L I].
    apply (wraps_unique (s_time f) t t); [apply inc_dir; assumption|assumption..|]. exists 0%Z. unfold inject_Z. ring.
  - destruct A as (A1 & A2 & A3 & A4). destruct B as (B1 & B2 & B3 & B4).
    destruct (Qlt_le_dec t (first_ (s_time f))) as [C|C]; [|destruct (Qlt_le_dec (last_ (s_time f)) t) as [C'|C']].
    + destruct (s_extrapolate f).
      * destruct (A3 C eq_refl) as (q & -> & V1). destruct (B3 C eq_refl) as (q' & -> & V2). cbn. eapply frame_value_unique; eassumption.
      * rewrite (A2 (or_introl C) eq_refl), (B2 (or_introl C) eq_refl). reflexivity.
    + destruct (s_extrapolate f).
      * destruct (A4 C' eq_refl) as (q & -> & V1). destruct (B4 C' eq_refl) as (q' & -> & V2). cbn. eapply frame_value_unique; eassumption.
      * rewrite (A2 (or_intror C') eq_refl), (B2 (or_intror C') eq_refl). reflexivity.
    + destruct (A1 (conj C C')) as (q & -> & V1). destruct (B1 (conj C C')) as (q' & -> & V2). cbn.
      eapply field_value_unique; [exact LF|exact V1|exact V2|reflexivity].
Qed.

(** ** Errors *)
Lemma py_eval_error : forall per ex tm f0 fn t q e, (forall v, e <> IVal v) ->
  py_eval per ex tm f0 fn (fun _ => IVal 0) t = IVal q -> forall v, (forall n, v n = e) -> py_eval per ex tm f0 fn v t = e.
Proof.
  intros per ex tm f0 fn t q e NE H v V. unfold py_eval in *.
  destruct (py_time_index per ex tm f0 fn t) as [ti p| |]; try discriminate.
  destruct (pyget tm ti) as [t0|]; [|discriminate].
  destruct ((ti <? zlen tm - 1)%Z && qlt t0 (t - inject_Z p * (fn - f0))).
  - destruct (pyget tm (ti + 1)); [|discriminate]. rewrite V. destruct e; try reflexivity. exfalso. eapply NE. reflexivity.
  - apply V.
Qed.
Lemma c_eval_error : forall k per ex tm f0 fn t ti q e, (forall v, e <> IVal v) ->
  c_eval k per ex tm f0 fn (fun _ => IVal 0) t ti = IVal q -> forall v, (forall n, v n = e) -> c_eval k per ex tm f0 fn v t ti = e.
Proof.
  intros k per ex tm f0 fn t ti q e NE H v V. unfold c_eval in *.
  destruct (cget tm 0); [|discriminate]. destruct (cget tm (zlen tm - 1)); [|discriminate].
  destruct (negb per && negb ex && (qlt t q0 || qlt q1 t)); [discriminate|].
  destruct (c_time k per tm f0 fn t ti) as [[t' j]|]; [|discriminate].
  destruct (cget tm j) as [a|]; [|discriminate].
  destruct ((j <? zlen tm - 1)%Z && qlt a t').
  - destruct (cget tm (j + 1)); [|discriminate]. rewrite V. destruct e; try reflexivity. exfalso. eapply NE. reflexivity.
  - rewrite V. destruct e; try reflexivity. exfalso. eapply NE. reflexivity.
Qed.

Lemma py_eval_ok : forall f t, axis_ok (s_time f) -> time_ok f t -> exists q,
  py_eval (s_periodic f) (s_extrapolate f) (s_time f) (s_f0 f) (s_fn f) (fun _ => IVal 0) t = IVal q.
Proof.
  intros f t AT OK. destruct (ends_eq f AT) as [-> ->].
  assert (F : frames (s_time f) (fun _ => IVal 0) (fun _ => 0)) by (intros n N; reflexivity).
  destruct OK as [[-> L1]|[-> OK]].
  - destruct (py_eval_periodic (s_extrapolate f) (s_time f) _ _ t AT L1 F) as (q & t' & Q & _). exists q. exact Q.
  - destruct (py_eval_nonperiodic (s_extrapolate f) (s_time f) (first_ (s_time f)) (last_ (s_time f)) _ _ t AT F) as (A & B & C & D & E).
    destruct (Qlt_le_dec t (first_ (s_time f))) as [X|X]; [|destruct (Qlt_le_dec (last_ (s_time f)) t) as [Y|Y]].
    + destruct OK as [OK|OK]; [|lra]. destruct (C X OK) as (q & Q & _). exists q. exact Q.
    + destruct OK as [OK|OK]; [|lra]. destruct (E Y OK) as (q & Q & _). exists q. exact Q.
    + destruct (A (conj X Y)) as (q & Q & _). exists q. exact Q.
Qed.
Lemma c_eval_ok : forall k f t ti, axis_ok (s_time f) -> time_ok f t -> (ti < zlen (s_time f))%Z -> (1 < k)%nat -> exists q,
  c_eval k (s_periodic f) (s_extrapolate f) (s_time f) (s_f0 f) (s_fn f) (fun _ => IVal 0) t ti = IVal q.
Proof.
  intros k f t ti AT OK ST K. destruct (ends_eq f AT) as [-> ->].
  assert (F : frames (s_time f) (fun _ => IVal 0) (fun _ => 0)) by (intros n N; reflexivity).
  destruct OK as [[-> L1]|[-> OK]].
  - destruct (c_eval_periodic k (s_extrapolate f) (s_time f) _ _ t ti AT L1 F ST K) as (q & t' & Q & _). exists q. exact Q.
  - destruct (c_eval_nonperiodic k (s_extrapolate f) (s_time f) (first_ (s_time f)) (last_ (s_time f)) _ _ t ti AT F ST ltac:(lia)) as (A & B & C & D & E).
    destruct (Qlt_le_dec t (first_ (s_time f))) as [X|X]; [|destruct (Qlt_le_dec (last_ (s_time f)) t) as [Y|Y]].
    + destruct OK as [OK|OK]; [|lra]. destruct (C X OK) as (q & Q & _). exists q. exact Q.
    + destruct OK as [OK|OK]; [|lra]. destruct (E Y OK) as (q & Q & _). exists q. exact Q.
    + destruct (A (conj X Y)) as (q & Q & _). exists q. exact Q.
Qed.

Lemma py_search_error : forall f x y z e, linear_field f -> position_error f x y z e ->
  py_search (s_grid f) x y z = e /\ (e = OutOfBounds \/ e = ThroughSurface).
Proof.
  intros f x y z e LF [[N ->]|[(A & B & C & ->)|(A & B & C & ->)]].
  - split; [|auto]. apply py_search_outside; [apply plain_grid, LF|exact N].
  - split; [|auto]. apply (py_search_depth (s_grid f) x y z (plain_grid f LF) A B). exact C.
  - split; [|auto]. apply (py_search_depth (s_grid f) x y z (plain_grid f LF) A B). exact C.
Qed.
Lemma c_search_error : forall f x y z e xi0 yi0 zi0, linear_field f -> indices_ok f xi0 yi0 zi0 -> position_error f x y z e ->
  c_search (s_grid f) x y z xi0 yi0 zi0 = e /\ (e = OutOfBounds \/ e = ThroughSurface).
Proof.
  intros f x y z e xi0 yi0 zi0 LF I0 [[N ->]|[(A & B & C & ->)|(A & B & C & ->)]].
  - split; [|auto]. apply c_search_outside; [apply plain_grid, LF|exact N].
  - split; [|auto]. apply (c_search_depth (s_grid f) x y z xi0 yi0 zi0 (plain_grid f LF) A B I0). exact C.
  - split; [|auto]. apply (c_search_depth (s_grid f) x y z xi0 yi0 zi0 (plain_grid f LF) A B I0). exact C.
Qed.

Theorem py_sample_error : forall f t x y z e, linear_field f -> position_error f x y z e -> time_ok f t ->
  py_sample f t x y z = ISearch e.
Proof.
  intros f t x y z e LF PE TO. pose proof LF as (_ & _ & _ & _ & _ & _ & _ & AT).
  destruct (py_eval_ok f t AT TO) as (q & Q). destruct (py_search_error f x y z e LF PE) as [S E].
  unfold py_sample. apply (py_eval_error _ _ _ _ _ _ q); [discriminate|exact Q|].
  intros n. unfold py_spatial. rewrite S. destruct E as [-> | ->]; reflexivity.
Qed.
Theorem c_sample_error : forall k f t x y z e xi0 yi0 zi0 ti0, linear_field f -> position_error f x y z e -> time_ok f t ->
  indices_ok f xi0 yi0 zi0 -> (ti0 < zlen (s_time f))%Z -> (1 < k)%nat ->
  c_sample k f t x y z xi0 yi0 zi0 ti0 = ISearch e.
Proof.
  intros k f t x y z e xi0 yi0 zi0 ti0 LF PE TO I0 T0 K. pose proof LF as (_ & _ & _ & _ & _ & _ & _ & AT).
  destruct (c_eval_ok k f t ti0 AT TO T0 K) as (q & Q). destruct (c_search_error f x y z e xi0 yi0 zi0 LF I0 PE) as [S E].
  unfold c_sample. apply (c_eval_error _ _ _ _ _ _ _ _ q); [discriminate|exact Q|].
  intros n. unfold c_spatial. rewrite S. destruct E as [-> | ->]; reflexivity.
Qed.

(** Every position is inside or gives one of the errors. *)
Lemma inside_dec : forall l x, inside l x \/ ~ inside l x.
Proof.
  intros l x. unfold inside. destruct (Z.eq_dec (zlen l) 1) as [E|N]; [left; left; exact E|].
  destruct (Qlt_le_dec x (first_ l)) as [A|A]; [right; intros [C|[C _]]; [contradiction|lra]|].
  destruct (Qlt_le_dec (last_ l) x) as [B|B]; [right; intros [C|[_ C]]; [contradiction|lra]|]. left. right. split; assumption.
Qed.
Lemma position_cases : forall f x y z, linear_field f -> position_inside f x y z \/ exists e, position_error f x y z e.
Proof.
  intros f x y z (_ & _ & _ & _ & AX & AY & [LZ AZ] & _). unfold position_inside, position_error.
  destruct (inside_dec (s_lon f) x) as [A|A]; [|right; exists OutOfBounds; left; tauto].
  destruct (inside_dec (s_lat f) y) as [B|B]; [|right; exists OutOfBounds; left; tauto].
  destruct (Z.eq_dec (zlen (s_depth f)) 1) as [E|N]; [left; auto|]. unfold above_first, below_last.
  destruct AZ as [AZ|AZ].
  - destruct (Qlt_le_dec z (first_ (s_depth f))) as [C|C].
    { right. exists ThroughSurface. right. left. repeat split; auto. lia. }
    destruct (Qlt_le_dec (last_ (s_depth f)) z) as [D|D].
    { right. exists OutOfBounds. right. right. repeat split; auto. lia. }
    left. repeat split; auto.
  - destruct (Qlt_le_dec (first_ (s_depth f)) z) as [C|C].
    { right. exists ThroughSurface. right. left. repeat split; auto. lia. }
    destruct (Qlt_le_dec z (last_ (s_depth f))) as [D|D].
    { right. exists OutOfBounds. right. right. repeat split; auto. lia. }
    left. repeat split; auto.
Qed.

(** Outside the time axis the error does not depend on the position. *)
Lemma py_extrap : forall f t v, axis_ok (s_time f) -> s_periodic f = false -> s_extrapolate f = false ->
  (t < first_ (s_time f) \/ last_ (s_time f) < t) ->
  py_eval (s_periodic f) (s_extrapolate f) (s_time f) (s_f0 f) (s_fn f) v t = IExtrap.
Proof.
  intros f t v AT P X H. destruct (tm_ends _ AT) as (E1 & E2 & _). unfold py_eval, py_time_index. rewrite E1, E2, P, X. cbn [negb andb].
  replace (qlt t (first_ (s_time f)) || qlt (last_ (s_time f)) t) with true; [reflexivity|].
  symmetry. apply orb_true_iff. rewrite !qlt_spec. exact H.
Qed.
Lemma c_extrap : forall k f t v ti, axis_ok (s_time f) -> s_periodic f = false -> s_extrapolate f = false ->
  (t < first_ (s_time f) \/ last_ (s_time f) < t) ->
  c_eval k (s_periodic f) (s_extrapolate f) (s_time f) (s_f0 f) (s_fn f) v t ti = IExtrap.
Proof.
  intros k f t v ti AT P X H. destruct (tm_ends _ AT) as (_ & _ & E1 & E2). unfold c_eval. rewrite E1, E2, P, X. cbn [negb andb].
  replace (qlt t (first_ (s_time f)) || qlt (last_ (s_time f)) t) with true; [reflexivity|].
  symmetry. apply orb_true_iff. rewrite !qlt_spec. exact H.
Qed.
Lemma time_cases : forall f t, (1 < zlen (s_time f))%Z \/ s_periodic f = false ->
  time_ok f t \/ (s_periodic f = false /\ s_extrapolate f = false /\ (t < first_ (s_time f) \/ last_ (s_time f) < t)).
Proof.
  intros f t L. unfold time_ok. destruct (s_periodic f); [left; left; split; [reflexivity|destruct L; [assumption|discriminate]]|].
  destruct (s_extrapolate f); [left; right; auto|].
  destruct (Qlt_le_dec t (first_ (s_time f))); [right; auto|]. destruct (Qlt_le_dec (last_ (s_time f)) t); [right; auto|].
  left. right. split; [reflexivity|]. right. split; assumption.
Qed.

(** ** Scipy and JIT mode agree, from any state of the particle *)
Theorem modes_sample_same : forall k f t x y z xi0 yi0 zi0 ti0, linear_field f ->
  (1 < zlen (s_time f))%Z \/ s_periodic f = false ->
  indices_ok f xi0 yi0 zi0 -> (ti0 < zlen (s_time f))%Z -> (1 < k)%nat ->
  (s_periodic f = false \/ ~ t == last_ (s_time f)) ->
  same_result (py_sample f t x y z) (c_sample k f t x y z xi0 yi0 zi0 ti0).
Proof.
  intros k f t x y z xi0 yi0 zi0 ti0 LF L I0 T0 K NL. pose proof LF as (_ & _ & _ & _ & _ & _ & _ & AT).
  destruct (time_cases f t L) as [TO|(P & X & H)].
  - destruct (position_cases f x y z LF) as [PI|[e PE]].
    + apply (samples_same f t x y z); [exact LF|exact L|apply py_sample_value; assumption|apply c_sample_value; assumption].
    + rewrite (py_sample_error f t x y z e LF PE TO), (c_sample_error k f t x y z e xi0 yi0 zi0 ti0 LF PE TO I0 T0 K). reflexivity.
  - unfold py_sample, c_sample. rewrite (py_extrap f t _ AT P X H), (c_extrap k f t _ ti0 AT P X H). reflexivity.
Qed.

(** The indices stay valid. *)
Lemma c_indices_found : forall f x y z xi0 yi0 zi0 xsi eta zeta xi yi zi,
  c_search (s_grid f) x y z xi0 yi0 zi0 = Found xsi eta zeta xi yi zi -> c_indices f x y z xi0 yi0 zi0 = (xi, yi, zi).
Proof.
  intros f x y z xi0 yi0 zi0 xsi eta zeta xi yi zi. unfold c_search, c_indices. cbv zeta.
  destruct (outside (s_grid f) x y); [discriminate|].
  match goal with |- context [match ?a with Some _ => _ | None => _ end] => destruct a as [[[a1 a2]|]|]; try discriminate end.
  match goal with |- context [match ?a with Some _ => _ | None => _ end] => destruct a as [[b1 b2]|]; try discriminate end.
  match goal with |- context [match ?a with VFound _ _ => _ | VOut => _ | VSurface => _ | VBad => _ end] => destruct a; try discriminate end.
  destruct (_ && _); [|discriminate]. intros E; inversion E; reflexivity.
Qed.
Lemma located_start : forall l x i r, located l x i r -> (zlen l = 1%Z -> i = 0%Z) -> valid_start l i.
Proof. intros l x i r [[L _]|[L (A & B & _)]] H; [left; exact L|right; lia]. Qed.
Theorem c_indices_ok : forall f x y z xi0 yi0 zi0 xi yi zi, linear_field f -> indices_ok f xi0 yi0 zi0 ->
  c_indices f x y z xi0 yi0 zi0 = (xi, yi, zi) -> indices_ok f xi yi zi.
Proof.
  intros f x y z xi0 yi0 zi0 xi yi zi LF I0 E.
  destruct (position_cases f x y z LF) as [(IX & IY & IZ)|[e PE]].
  - destruct (c_search_found (s_grid f) x y z xi0 yi0 zi0 (plain_grid f LF) IX IY IZ I0)
      as (xsi & eta & zeta & xi' & yi' & zi' & S & _ & _ & _ & V & _). rewrite (c_indices_found _ _ _ _ _ _ _ _ _ _ _ _ _ S) in E. inversion E; subst. exact V.
  - assert (H : ~ (inside (s_lon f) x /\ inside (s_lat f) y) \/
      (inside (s_lon f) x /\ inside (s_lat f) y /\ (above_first (s_depth f) z \/ below_last (s_depth f) z))).
    { destruct PE as [[N _]|[(A & B & C & _)|(A & B & C & _)]]; auto. }
    pose proof (plain_grid f LF) as P. destruct H as [H|(A & B & C)].
    + unfold c_indices in E. cbv zeta in E. pose proof (outside_plain (s_grid f) x y P) as O.
      destruct (outside (s_grid f) x y) eqn:OE; [inversion E; subst; exact I0|].
      exfalso. apply H. apply O. reflexivity.
    + unfold c_indices in E. cbv zeta in E. pose proof P as (SP & ZP & M5 & AX & AY & (LZ & MZ)).
      replace (outside (s_grid f) x y) with false in E by (symmetry; apply outside_plain; auto). rewrite M5 in E.
      destruct I0 as (VX & VY & VZ).
      destruct (c_lon_located (g_spherical (s_grid f)) _ x xi0 AX A VX SP) as (xi' & xsi & EX & LX & VX').
      destruct (c_axis_located _ y yi0 AY B VY) as (yi' & eta & EY & LY & VY').
      rewrite EX, EY in E.
      assert (L : (1 < zlen (g_depth (s_grid f)))%Z) by (destruct C as [C|C]; apply C).
      replace (1 <? zlen (g_depth (s_grid f)))%Z with true in E by lia.
      assert (VZ' : (0 <= zi0 < zlen (g_depth (s_grid f)))%Z).
      { destruct VZ as [VZ|VZ]; [change (zlen (s_depth f) = 1%Z) in VZ; change (1 < zlen (s_depth f))%Z in L; lia|exact VZ]. }
      destruct (c_vertical_spec (g_depth (s_grid f)) z zi0 L MZ VZ') as (_ & B1 & C1).
      destruct C as [C|C]; [rewrite (B1 C) in E|rewrite (C1 C) in E]; inversion E; subst; (split; [eapply located_start; eassumption|split; [eapply located_start; eassumption|exact VZ]]).
Qed.

(** ** Properties of linear interpolation *)
Lemma lin1_node : forall l f x i r m, increasing l \/ decreasing l -> located l x i r -> (0 <= m < zlen l)%Z -> x == at_ l m ->
  lin1 l f i r == f m.
Proof.
  intros l f x i r m M A R E. unfold lin1. destruct (zlen l =? 1)%Z eqn:E1; [replace m with 0%Z by lia; reflexivity|].
  destruct A as [[A _]|[L A]]; [lia|].
  destruct (Z_lt_le_dec (m + 1) (zlen l)) as [C|C].
  - assert (B : in_cell l x m 0) by (repeat split; try lia; lra).
    destruct (same_cell l x i r m 0 M A B) as [[-> RS]|[(-> & RS & S0)|(-> & S0 & RS)]]; [rewrite RS; ring|rewrite RS; ring|lra].
  - assert (B : in_cell l x (m - 1) 1).
    { repeat split; try lia; try lra. replace (m - 1 + 1)%Z with m by lia. lra. }
    destruct (same_cell l x i r (m - 1) 1 M A B) as [[-> RS]|[(E2 & RS & S0)|(-> & S0 & RS)]].
    + rewrite RS. replace (m - 1 + 1)%Z with m by lia. ring.
    + lra.
    + rewrite RS. replace (m - 1 + 1)%Z with m by lia. ring.
Qed.

Lemma lin1_bounds : forall l f x i r lo hi, located l x i r -> (forall a, cell_node l i a -> lo <= f a <= hi) ->
  lo <= lin1 l f i r <= hi.
Proof.
  intros l f x i r lo hi A B. unfold lin1. destruct (zlen l =? 1)%Z eqn:E; [apply B; left; split; [lia|reflexivity]|].
  destruct A as [[A _]|[L (_ & _ & R0 & R1 & _)]]; [lia|].
  assert (B1 : lo <= f i <= hi) by (apply B; right; auto). assert (B2 : lo <= f (i + 1)%Z <= hi) by (apply B; right; auto).
  split; nra.
Qed.

Lemma lin1_affine : forall l x i r A B, located l x i r -> lin1 l (fun a => A + B * at_ l a) i r == A + B * coord l x.
Proof.
  intros l x i r A B H. unfold lin1, coord. destruct (zlen l =? 1)%Z eqn:E; [reflexivity|].
  destruct H as [[H _]|[_ (_ & _ & _ & _ & H)]]; [lia|]. rewrite H. ring.
Qed.
Lemma lin1_ext : forall l f g i r, (forall a, cell_node l i a -> f a == g a) -> (1 <= zlen l)%Z -> lin1 l f i r == lin1 l g i r.
Proof.
  intros l f g i r H L. unfold lin1. destruct (zlen l =? 1)%Z eqn:E; [apply H; left; split; [lia|reflexivity]|].
  rewrite (H i), (H (i + 1)%Z); [reflexivity|right; split; [lia|auto]|right; split; [lia|auto]].
Qed.
Lemma cell_node_range : forall l x i r a, (1 <= zlen l)%Z -> located l x i r -> cell_node l i a -> (0 <= a < zlen l)%Z.
Proof. intros l x i r a L [[A _]|[A (B & C & _)]] [[D E]|[D [E|E]]]; lia. Qed.

Theorem frame_value_node : forall f n x y z q i j k, linear_field f -> frame_value f n x y z q ->
  (0 <= i < zlen (s_lon f))%Z -> (0 <= j < zlen (s_lat f))%Z -> (0 <= k < zlen (s_depth f))%Z ->
  x == at_ (s_lon f) i -> y == at_ (s_lat f) j -> z == at_ (s_depth f) k -> q == s_data f n k j i.
Proof.
  intros f n x y z q i j k (_ & _ & _ & _ & [_ AX] & [_ AY] & [_ AZ] & _) (xi & yi & zi & xsi & eta & zeta & LX & LY & LZ & E) I J K EX EY EZ.
  rewrite E, (lin1_node _ _ z zi zeta k AZ LZ K EZ), (lin1_node _ _ y yi eta j (or_introl AY) LY J EY),
    (lin1_node _ _ x xi xsi i (or_introl AX) LX I EX). reflexivity.
Qed.

Theorem frame_value_bounds : forall f n x y z q xi yi zi xsi eta zeta lo hi, linear_field f -> frame_value f n x y z q ->
  located (s_lon f) x xi xsi -> located (s_lat f) y yi eta -> located (s_depth f) z zi zeta ->
  (forall i j k, cell_node (s_lon f) xi i -> cell_node (s_lat f) yi j -> cell_node (s_depth f) zi k -> lo <= s_data f n k j i <= hi) ->
  lo <= q <= hi.
Proof.
  intros f n x y z q xi yi zi xsi eta zeta lo hi LF V LX LY LZ H.
  assert (V' : frame_value f n x y z (lin1 (s_depth f) (fun k => lin1 (s_lat f) (fun j => lin1 (s_lon f) (fun i => s_data f n k j i) xi xsi) yi eta) zi zeta)).
  { exists xi, yi, zi, xsi, eta, zeta. repeat (split; [assumption|]). reflexivity. }
  assert (E := frame_value_unique f n x y z _ _ LF V V').
  assert (B : lo <= lin1 (s_depth f) (fun k => lin1 (s_lat f) (fun j => lin1 (s_lon f) (fun i => s_data f n k j i) xi xsi) yi eta) zi zeta <= hi).
  { apply (lin1_bounds _ _ z); [exact LZ|]. intros k K. apply (lin1_bounds _ _ y); [exact LY|]. intros j J.
    apply (lin1_bounds _ _ x); [exact LX|]. intros i I. apply H; assumption. }
  destruct B. split; [rewrite E; assumption|rewrite E; assumption].
Qed.

Theorem frame_value_trilinear : forall f n x y z q c, linear_field f -> frame_value f n x y z q ->
  (forall i j k, (0 <= i < zlen (s_lon f))%Z -> (0 <= j < zlen (s_lat f))%Z -> (0 <= k < zlen (s_depth f))%Z ->
     s_data f n k j i == trilin c (at_ (s_lon f) i) (at_ (s_lat f) j) (at_ (s_depth f) k)) ->
  q == trilin c (coord (s_lon f) x) (coord (s_lat f) y) (coord (s_depth f) z).
Proof.
  intros f n x y z q c (_ & _ & _ & _ & [LX0 _] & [LY0 _] & [LZ0 _] & _) (xi & yi & zi & xsi & eta & zeta & LX & LY & LZ & E) H.
  rewrite E. set (X := coord (s_lon f) x). set (Y := coord (s_lat f) y). set (Z := coord (s_depth f) z).
  rewrite (lin1_ext (s_depth f) _ (fun k =>
      (c false false false + c true false false * X + c false true false * Y + c true true false * X * Y)
      + (c false false true + c true false true * X + c false true true * Y + c true true true * X * Y) * at_ (s_depth f) k)); [| |exact LZ0].
  { rewrite (lin1_affine (s_depth f) z zi zeta _ _ LZ). unfold trilin. fold Z. ring. }
  intros k K. apply (cell_node_range _ z _ zeta _ LZ0 LZ) in K. set (zz := at_ (s_depth f) k).
  rewrite (lin1_ext (s_lat f) _ (fun j =>
      (c false false false + c true false false * X + c false false true * zz + c true false true * X * zz)
      + (c false true false + c true true false * X + c false true true * zz + c true true true * X * zz) * at_ (s_lat f) j)); [| |exact LY0].
  { rewrite (lin1_affine (s_lat f) y yi eta _ _ LY). fold Y. ring. }
  intros j J. apply (cell_node_range _ y _ eta _ LY0 LY) in J. set (yy := at_ (s_lat f) j).
  rewrite (lin1_ext (s_lon f) _ (fun i =>
      (c false false false + c false true false * yy + c false false true * zz + c false true true * yy * zz)
      + (c true false false + c true true false * yy + c true false true * zz + c true true true * yy * zz) * at_ (s_lon f) i)); [| |exact LX0].
  { rewrite (lin1_affine (s_lon f) x xi xsi _ _ LX). fold X. ring. }
  intros i I. apply (cell_node_range _ x _ xsi _ LX0 LX) in I. rewrite (H i j k I J K). unfold trilin. fold yy zz. ring.
Qed.

(** ** Time *)
Theorem time_value_node : forall tm w t q n, axis_ok tm -> time_value tm w t q -> (0 <= n < zlen tm)%Z -> t == at_ tm n -> q == w n.
Proof.
  intros tm w t q n [_ I] (_ & i & r & L & E) N T. rewrite E. eapply lin1_node; [left; exact I|exact L|exact N|exact T].
Qed.
Theorem time_value_between : forall tm w t q n, axis_ok tm -> time_value tm w t q -> (0 <= n)%Z -> (n + 1 < zlen tm)%Z ->
  at_ tm n <= t <= at_ tm (n + 1) ->
  q == w n + (w (n + 1)%Z - w n) * ((t - at_ tm n) / (at_ tm (n + 1) - at_ tm n)).
Proof.
  intros tm w t q n [L I] V N0 N1 B.
  assert (V' : time_value tm w t (w n + (w (n + 1)%Z - w n) * ((t - at_ tm n) / (at_ tm (n + 1) - at_ tm n)))).
  { destruct V as (R & _). split; [exact R|]. exists n, ((t - at_ tm n) / (at_ tm (n + 1) - at_ tm n)). split.
    - right. split; [lia|]. apply in_cell_up; assumption.
    - unfold lin1. replace (zlen tm =? 1)%Z with false by lia. ring. }
  exact (time_value_unique tm w w t t _ _ (conj L I) V V' (Qeq_refl _) (fun m _ => Qeq_refl _)).
Qed.
