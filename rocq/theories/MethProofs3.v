From Coq Require Import List ZArith Bool QArith Qabs Qround Lia Lqa ZifyBool Psatz.
From Verif Require Import IdxModel IdxSpec IdxBase IdxProofs TimeModel InterpModel InterpSpec TimeProofs InterpProofs MethSpec MethProofs MethProofs2.
Import ListNotations.
Open Scope Q_scope.

(** ** Scipy mode: one frame *)
Section Py.
Variable f : sfield.
Variables (x y : Q) (xi yi : Z) (xsi eta : Q).
Hypothesis AX : axis_ok (s_lon f).
Hypothesis AY : axis_ok (s_lat f).
Hypothesis LX : located (s_lon f) x xi xsi.
Hypothesis LY : located (s_lat f) y yi eta.
Hypothesis NX : (zlen (s_lon f) = 1 -> xi = -1)%Z.
Hypothesis NY : (zlen (s_lat f) = 1 -> yi = -1)%Z.

Lemma py_read_node : forall n k k' (a b : bool), py_index (zlen (s_depth f)) k = Some k' ->
  py_read (s_frame f n) k (if b then yi else yi + 1)%Z (if a then xi else xi + 1)%Z =
    Some (s_data f n k' (node (s_lat f) (if b then yi else yi + 1)%Z) (node (s_lon f) (if a then xi else xi + 1)%Z)).
Proof.
  intros n k k' a b K. destruct (py_nodes _ _ _ _ AX LX NX) as [X1 X2]. destruct (py_nodes _ _ _ _ AY LY NY) as [Y1 Y2].
  unfold py_read. cbn. rewrite K. destruct a, b; rewrite ?X1, ?X2, ?Y1, ?Y2; reflexivity.
Qed.

Lemma py_level : forall n k k', py_index (zlen (s_depth f)) k = Some k' ->
  exists q, py_bilinear (s_frame f n) k yi xi xsi eta = Some q /\ at_level f (s_data f n k') x y q.
Proof.
  intros n k k' K. destruct (py_bilinear_level (s_frame f n) (s_lon f) (s_lat f) x y xi yi xsi eta k k' eq_refl eq_refl AX AY LX LY NX NY K) as (q & E & Q1).
  exists q. split; [exact E|]. exists xi, yi, xsi, eta. repeat split; assumption.
Qed.

(** The routine of the general method at the north-east corner. *)
Lemma py_corner : forall n k k', py_index (zlen (s_depth f)) k = Some k' ->
  exists q, py_bilinear (s_frame f n) k yi xi 1 1 = Some q /\ at_corner f (s_data f n k') x y q.
Proof.
  intros n k k' K. pose proof (py_read_node n k k' true true K) as R1. pose proof (py_read_node n k k' false true K) as R2.
  pose proof (py_read_node n k k' false false K) as R3. pose proof (py_read_node n k k' true false K) as R4. cbv iota in *.
  unfold py_bilinear. rewrite R1, R2, R3, R4. eexists. split; [reflexivity|]. exists xi, yi, xsi, eta. repeat (split; [assumption|]).
  change (far_end (s_lat f) yi) with (node (s_lat f) (yi + 1)). change (far_end (s_lon f) xi) with (node (s_lon f) (xi + 1)). ring.
Qed.
Lemma py_corner_read : forall n k k', py_index (zlen (s_depth f)) k = Some k' ->
  exists q, py_read (s_frame f n) k (yi + 1) (xi + 1) = Some q /\ at_corner f (s_data f n k') x y q.
Proof.
  intros n k k' K. rewrite (py_read_node n k k' false false K). eexists. split; [reflexivity|].
  exists xi, yi, xsi, eta. repeat (split; [assumption|]). reflexivity.
Qed.
End Py.

Lemma qle_half_cases : forall (l : list Q) x i r, (1 <= zlen l)%Z -> increasing l \/ decreasing l -> located l x i r ->
  nearest l x (node l (if qle r half then i else i + 1)%Z).
Proof.
  intros l x i r L M LO. destruct (located_nearest l x i r L M LO) as [A B]. destruct (qle r half) eqn:E.
  - apply A. apply qle_spec in E. exact E.
  - apply B. unfold qle in E. destruct (Qlt_le_dec (1 # 2) r) as [H|H]; [lra|]. exfalso. apply Qle_bool_iff in H. unfold half in E. congruence.
Qed.

Theorem py_method_found : forall f x y z n xsi eta zeta xi yi zi, offered f -> axis_ok (s_lon f) -> axis_ok (s_lat f) -> depth_ok (s_depth f) ->
  located (s_lon f) x xi xsi -> located (s_lat f) y yi eta -> located (s_depth f) z zi zeta ->
  (zlen (s_lon f) = 1 -> xi = -1)%Z -> (zlen (s_lat f) = 1 -> yi = -1)%Z ->
  exists q, py_interp_in f n xsi eta zeta xi yi zi = IVal q /\ method_value f n x y z q.
Proof.
  intros f x y z n xsi eta zeta xi yi zi OF AX AY (LD & MD) LX LY LZ NX NY. unfold py_interp_in.
  pose proof (py_read_node f x y xi yi xsi eta AX AY LX LY NX NY) as RD.
  pose proof (py_level f x y xi yi xsi eta AX AY LX LY NX NY) as LV.
  pose proof (py_corner f x y xi yi xsi eta AX AY LX LY NX NY) as CO.
  pose proof (py_corner_read f x y xi yi xsi eta AX AY LX LY NX NY) as CR.
  pose proof (qle_half_cases _ _ _ _ (proj1 AX) (or_introl (proj2 AX)) LX) as HX.
  pose proof (qle_half_cases _ _ _ _ (proj1 AY) (or_introl (proj2 AY)) LY) as HY.
  unfold method_value. unfold offered in OF.
  destruct (zlen (s_depth f) =? 1)%Z eqn:D1.
  - assert (D : zlen (s_depth f) = 1%Z) by lia.
    assert (K : py_index (zlen (s_depth f)) 0 = Some 0%Z) by (rewrite D; reflexivity).
    assert (LO : low_end (s_depth f) zi = 0%Z) by (unfold low_end; rewrite D1; reflexivity).
    assert (FE : far_end (s_depth f) zi = 0%Z) by (unfold far_end; rewrite D1; reflexivity).
    destruct (s_method f); try contradiction; try lia; cbn [py_interp2D].
    + destruct (LV n 0%Z 0%Z K) as (q & -> & Q1). exists q. split; [reflexivity|]. left. split; assumption.
    + specialize (RD n 0%Z 0%Z (qle xsi half) (qle eta half) K). rewrite RD. eexists. split; [reflexivity|].
      eexists _, _, 0%Z. split; [exact HX|]. split; [exact HY|]. split; [split; lia|reflexivity].
    + destruct (CR n 0%Z 0%Z K) as (q & -> & Q1). exists q. split; [reflexivity|]. exists zi, zeta. rewrite LO. split; assumption.
    + destruct (CR n 0%Z 0%Z K) as (q & -> & Q1). exists q. split; [reflexivity|]. exists zi, zeta. rewrite LO. split; assumption.
    + destruct (LV n 0%Z 0%Z K) as (q & -> & Q1). exists q. split; [reflexivity|]. exists zi, zeta. rewrite LO, FE. split; [assumption|].
      destruct (is_mom5 (s_indexing f)); assumption.
  - pose proof LZ as LZ0. destruct LZ as [[LZ _]|[L1 LZ]]; [lia|]. pose proof LZ as (Z0 & Z1 & Z2 & Z3 & _).
    assert (K0 : py_index (zlen (s_depth f)) zi = Some zi) by (apply py_index_in; lia).
    assert (K1 : py_index (zlen (s_depth f)) (zi + 1) = Some (zi + 1)%Z) by (apply py_index_in; lia).
    assert (LO : low_end (s_depth f) zi = zi) by (unfold low_end; rewrite D1; reflexivity).
    assert (FE : far_end (s_depth f) zi = (zi + 1)%Z) by (unfold far_end; rewrite D1; reflexivity).
    assert (PB : (f_zdim (s_frame f n) - 2 <=? zi)%Z = (zi =? zlen (s_depth f) - 2)%Z) by (cbn; lia).
    destruct (s_method f); try contradiction; cbn [py_interp3D].
    + destruct (LV n zi zi K0) as (q0 & E0 & Q0). destruct (LV n (zi + 1)%Z (zi + 1)%Z K1) as (q1 & E1 & Q1).
      rewrite E0, E1, PB. exists (in_layer f zi zeta q0 q1). split.
      * unfold in_layer. destruct (is_pop (s_indexing f) && (zi =? zlen (s_depth f) - 2)%Z)%bool; reflexivity.
      * right. split; [lia|]. exists zi, zeta, q0, q1. repeat (split; [assumption|]). reflexivity.
    + pose proof (qle_half_cases _ _ _ _ LD MD LZ0) as HZ.
      assert (KH : py_index (zlen (s_depth f)) (if qle zeta half then zi else zi + 1)%Z = Some (node (s_depth f) (if qle zeta half then zi else zi + 1)%Z)).
      { unfold node. rewrite D1. apply py_index_in. destruct (qle zeta half); lia. }
      rewrite (RD n _ _ (qle xsi half) (qle eta half) KH). eexists. split; [reflexivity|].
      eexists _, _, _. split; [exact HX|]. split; [exact HY|]. split; [exact HZ|reflexivity].
    + destruct (CR n zi zi K0) as (q & -> & Q1). exists q. split; [reflexivity|]. exists zi, zeta. rewrite LO. split; assumption.
    + destruct (CR n zi zi K0) as (q & -> & Q1). exists q. split; [reflexivity|]. exists zi, zeta. rewrite LO. split; assumption.
    + destruct (LV n zi zi K0) as (q0 & E0 & Q0). destruct (LV n (zi + 1)%Z (zi + 1)%Z K1) as (q1 & E1 & Q1).
      rewrite E0, E1, PB.
      assert (AL : forall a b, a == b -> forall d, at_level f d x y a -> at_level f d x y b).
      { intros a b E d (i1 & i2 & r1 & r2 & A1 & A2 & A3). exists i1, i2, r1, r2. rewrite <- E. repeat split; assumption. }
      destruct (s_indexing f) eqn:IX; cbn [is_pop is_mom5 andb].
      * eexists. split; [reflexivity|]. exists zi, zeta. split; [assumption|]. rewrite LO. rewrite IX. cbn [is_mom5]. eapply AL; [|exact Q0]. ring.
      * eexists. split; [reflexivity|]. exists zi, zeta. split; [assumption|]. rewrite LO. rewrite IX. cbn [is_mom5]. eapply AL; [|exact Q0]. ring.
      * eexists. split; [reflexivity|]. exists zi, zeta. split; [assumption|]. rewrite FE. rewrite IX. cbn [is_mom5]. eapply AL; [|exact Q1]. ring.
      * destruct (zi =? zlen (s_depth f) - 2)%Z; eexists; (split; [reflexivity|]); exists zi, zeta; (split; [assumption|]);
          rewrite LO, IX; cbn [is_mom5]; (eapply AL; [|exact Q0]); ring.
    + destruct (CO n zi zi K0) as (q0 & E0 & Q0). destruct (CO n (zi + 1)%Z (zi + 1)%Z K1) as (q1 & E1 & Q1).
      rewrite E0, E1, PB. exists (in_layer f zi zeta q0 q1). split.
      * unfold in_layer. replace (zi =? -1)%Z with false by lia. rewrite andb_false_r.
        destruct (is_pop (s_indexing f) && (zi =? zlen (s_depth f) - 2)%Z)%bool; reflexivity.
      * exists zi, zeta, q0, q1. repeat (split; [assumption|]). reflexivity.
Qed.

Theorem py_surface_found : forall f x y z n xsi eta xi yi, surface_offered f -> axis_ok (s_lon f) -> axis_ok (s_lat f) -> surface_layer f z ->
  located (s_lon f) x xi xsi -> located (s_lat f) y yi eta ->
  (zlen (s_lon f) = 1 -> xi = -1)%Z -> (zlen (s_lat f) = 1 -> yi = -1)%Z ->
  exists q, py_interp_in f n xsi eta (z / first_ (s_depth f)) xi yi (-1) = IVal q /\ surface_value f n x y z q.
Proof.
  intros f x y z n xsi eta xi yi OF AX AY (IX & L & _) LX LY NX NY. unfold py_interp_in, surface_value.
  replace (zlen (s_depth f) =? 1)%Z with false by lia. rewrite IX.
  assert (K0 : py_index (zlen (s_depth f)) (-1) = Some (zlen (s_depth f) - 1)%Z).
  { unfold py_index. cbv beta zeta. replace (-1 <? 0)%Z with true by reflexivity. replace (-1 + zlen (s_depth f))%Z with (zlen (s_depth f) - 1)%Z by lia.
    replace ((0 <=? zlen (s_depth f) - 1) && (zlen (s_depth f) - 1 <? zlen (s_depth f)))%Z with true by lia. reflexivity. }
  assert (K1 : py_index (zlen (s_depth f)) (-1 + 1) = Some 0%Z) by (apply py_index_in; lia).
  destruct OF as [-> | ->]; cbn [py_interp3D is_pop is_mom5 andb].
  - destruct (py_level f x y xi yi xsi eta AX AY LX LY NX NY n _ _ K0) as (q0 & -> & Q0).
    destruct (py_level f x y xi yi xsi eta AX AY LX LY NX NY n _ _ K1) as (q1 & -> & Q1).
    eexists. split; [reflexivity|]. destruct Q1 as (i1 & i2 & r1 & r2 & A1 & A2 & A3). exists i1, i2, r1, r2. repeat (split; [assumption|]). rewrite <- A3. ring.
  - destruct (py_corner f x y xi yi xsi eta AX AY LX LY NX NY n _ _ K0) as (q0 & -> & Q0).
    destruct (py_corner f x y xi yi xsi eta AX AY LX LY NX NY n _ _ K1) as (q1 & -> & Q1).
    replace (-1 =? -1)%Z with true by reflexivity. eexists. split; [reflexivity|]. exists q1. split; [assumption|reflexivity].
Qed.
