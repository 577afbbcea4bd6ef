From Coq Require Import List ZArith Bool QArith Qabs Qround Lia Lqa ZifyBool Psatz.
From Verif Require Import IdxModel IdxSpec IdxBase IdxProofs TimeModel InterpModel InterpSpec TimeProofs InterpProofs MethSpec MethProofs MethProofs2 MethProofs3.
Import ListNotations.
Open Scope Q_scope.

(** ** JIT mode: one frame *)
Section C.
Variable f : sfield.
Variables (x y : Q) (xi yi : Z) (xsi eta : Q).
Hypothesis AX : axis_ok (s_lon f).
Hypothesis AY : axis_ok (s_lat f).
Hypothesis LX : located (s_lon f) x xi xsi.
Hypothesis LY : located (s_lat f) y yi eta.
Hypothesis NX : (zlen (s_lon f) = 1 -> xi = 0)%Z.
Hypothesis NY : (zlen (s_lat f) = 1 -> yi = 0)%Z.

Definition lev (k : Z) (b : bool) : Z := if (zlen (s_depth f) =? 1)%Z then k else (k + b2z b)%Z.

Lemma c_cell_node : forall n k (c b a : bool),
  c_cell (s_frame f n) k yi xi c b a = s_data f n (lev k c) (node (s_lat f) (yi + b2z b)) (node (s_lon f) (xi + b2z a)).
Proof.
  intros n k c b a. destruct (c_nodes _ _ _ _ AX LX NX) as (_ & _ & X1). destruct (c_nodes _ _ _ _ AY LY NY) as (_ & _ & Y1).
  unfold c_cell. cbn [f_zdim f_ydim f_xdim f_at s_frame]. rewrite X1, Y1. reflexivity.
Qed.
Lemma c_level : forall n k c, at_level f (s_data f n (lev k c)) x y (c_bilinear xsi eta (c_cell (s_frame f n) k yi xi c)).
Proof.
  intros n k c. exists xi, yi, xsi, eta. repeat (split; [assumption|]).
  apply (c_bilinear_level (s_frame f n) (s_lon f) (s_lat f) x y xi yi xsi eta k c eq_refl eq_refl AX AY LX LY NX NY).
Qed.
Lemma c_corner : forall n k c, at_corner f (s_data f n (lev k c)) x y (c_bilinear 1 1 (c_cell (s_frame f n) k yi xi c)).
Proof.
  intros n k c. exists xi, yi, xsi, eta. repeat (split; [assumption|]). unfold c_bilinear. rewrite !c_cell_node. cbn [b2z].
  change (far_end (s_lat f) yi) with (node (s_lat f) (yi + 1)). change (far_end (s_lon f) xi) with (node (s_lon f) (xi + 1)). ring.
Qed.
Lemma c_corner_read : forall n k c, at_corner f (s_data f n (lev k c)) x y (c_cell (s_frame f n) k yi xi c true true).
Proof.
  intros n k c. exists xi, yi, xsi, eta. repeat (split; [assumption|]). rewrite c_cell_node. reflexivity.
Qed.
Lemma c_ok : forall n k, ((zlen (s_depth f) = 1 /\ k = 0) \/ (0 <= k /\ k + 1 < zlen (s_depth f)))%Z -> c_cell_ok (s_frame f n) k yi xi = true.
Proof.
  intros n k K. apply (c_cell_ok_located (s_frame f n) (s_lon f) (s_lat f) x y xi yi xsi eta k eq_refl eq_refl AX AY LX LY NX NY K).
Qed.
End C.

Lemma qlt_half_cases : forall (l : list Q) x i r, (1 <= zlen l)%Z -> increasing l \/ decreasing l -> located l x i r ->
  nearest l x (node l (i + b2z (negb (qlt r half)))%Z).
Proof.
  intros l x i r L M LO. destruct (located_nearest l x i r L M LO) as [A B]. destruct (qlt r half) eqn:E; cbn [negb b2z].
  - rewrite Z.add_0_r. apply A. apply qlt_spec in E. unfold half in E. lra.
  - apply B. apply qlt_false in E. exact E.
Qed.

Lemma at_level_eq : forall f d x y q q', q == q' -> at_level f d x y q -> at_level f d x y q'.
Proof. intros f d x y q q' E (i1 & i2 & r1 & r2 & A1 & A2 & A3). exists i1, i2, r1, r2. rewrite <- E. repeat split; assumption. Qed.
Lemma at_corner_eq : forall f d x y q q', q == q' -> at_corner f d x y q -> at_corner f d x y q'.
Proof. intros f d x y q q' E (i1 & i2 & r1 & r2 & A1 & A2 & A3). exists i1, i2, r1, r2. rewrite <- E. repeat split; assumption. Qed.

Theorem c_method_found : forall f x y z n xsi eta zeta xi yi zi, offered f -> jit_offered f z ->
  axis_ok (s_lon f) -> axis_ok (s_lat f) -> depth_ok (s_depth f) ->
  located (s_lon f) x xi xsi -> located (s_lat f) y yi eta -> located (s_depth f) z zi zeta ->
  (zlen (s_lon f) = 1 -> xi = 0)%Z -> (zlen (s_lat f) = 1 -> yi = 0)%Z ->
  exists q, c_interp (s_indexing f) (s_method f) (s_frame f n) xsi eta zeta xi yi zi = IVal q /\ method_value f n x y z q.
Proof.
  intros f x y z n xsi eta zeta xi yi zi OF (JW & JP) AX AY (LD & MD) LX LY LZ NX NY. unfold c_interp.
  pose proof (c_cell_node f x y xi yi xsi eta AX AY LX LY NX NY) as RD.
  pose proof (c_level f x y xi yi xsi eta AX AY LX LY NX NY) as LV.
  pose proof (c_corner f x y xi yi xsi eta AX AY LX LY NX NY) as CO.
  pose proof (c_corner_read f x y xi yi xsi eta AX AY LX LY NX NY) as CR.
  pose proof (c_ok f x y xi yi xsi eta AX AY LX LY NX NY) as OK.
  pose proof (qlt_half_cases _ _ _ _ (proj1 AX) (or_introl (proj2 AX)) LX) as HX.
  pose proof (qlt_half_cases _ _ _ _ (proj1 AY) (or_introl (proj2 AY)) LY) as HY.
  unfold method_value. unfold offered in OF. change (f_zdim (s_frame f n)) with (zlen (s_depth f)).
  destruct (zlen (s_depth f) =? 1)%Z eqn:D1.
  - assert (D : zlen (s_depth f) = 1%Z) by lia.
    assert (LE : forall b, lev f 0 b = 0%Z) by (intros b; unfold lev; rewrite D1; reflexivity).
    assert (LO : low_end (s_depth f) zi = 0%Z) by (unfold low_end; rewrite D1; reflexivity).
    assert (FE : far_end (s_depth f) zi = 0%Z) by (unfold far_end; rewrite D1; reflexivity).
    rewrite OK by lia. cbn [negb].
    destruct (s_method f); try contradiction; try lia.
    + eexists. split; [reflexivity|]. left. split; [assumption|]. specialize (LV n 0%Z false). rewrite LE in LV. exact LV.
    + eexists. split; [reflexivity|]. eexists _, _, 0%Z. split; [exact HX|]. split; [exact HY|]. split; [split; lia|].
      unfold c_nearest2. rewrite RD, LE. reflexivity.
    + eexists. split; [reflexivity|]. exists zi, zeta. rewrite LO. split; [assumption|]. specialize (CR n 0%Z false). rewrite LE in CR. exact CR.
    + eexists. split; [reflexivity|]. exists zi, zeta. rewrite LO. split; [assumption|]. specialize (CR n 0%Z false). rewrite LE in CR. exact CR.
    + eexists. split; [reflexivity|]. exists zi, zeta. rewrite LO, FE. split; [assumption|]. specialize (LV n 0%Z false). rewrite LE in LV.
      destruct (is_mom5 (s_indexing f)); exact LV.
  - pose proof LZ as LZ0. destruct LZ as [[LZ _]|[L1 LZ]]; [lia|]. pose proof LZ as (Z0 & Z1 & Z2 & Z3 & _).
    assert (LO : low_end (s_depth f) zi = zi) by (unfold low_end; rewrite D1; reflexivity).
    assert (FE : far_end (s_depth f) zi = (zi + 1)%Z) by (unfold far_end; rewrite D1; reflexivity).
    replace (zi =? -1)%Z with false by lia. rewrite andb_false_r.
    destruct (is_pop (s_indexing f) && (zi =? zlen (s_depth f) - 2)%Z) eqn:BT.
    + (* the lowest layer of POP *)
      apply andb_true_iff in BT. destruct BT as [BP BZ]. assert (IX : s_indexing f = Pop) by (destruct (s_indexing f); try discriminate; reflexivity).
      destruct (JP IX) as [J2 JN]. rewrite OK by lia. cbn [negb].
      assert (LE : lev f (zi - 1) true = zi) by (unfold lev; rewrite D1; cbn [b2z]; lia).
      assert (IL : forall q0 q1, in_layer f zi zeta q0 q1 = (1 - zeta) * q0) by (intros; unfold in_layer; rewrite BP, BZ; reflexivity).
      rewrite IX in *. cbn [is_mom5]. destruct (s_method f); try contradiction.
      * eexists. split; [reflexivity|]. right. split; [lia|].
        pose proof (LV n (zi - 1)%Z true) as Q0. rewrite LE in Q0.
        pose proof (LV n zi true) as Q1. replace (lev f zi true) with (zi + 1)%Z in Q1 by (unfold lev; rewrite D1; reflexivity).
        do 4 eexists. split; [exact LZ|]. split; [exact Q0|]. split; [exact Q1|]. rewrite IL. reflexivity.
      * exfalso. apply (JN eq_refl). exists zeta. replace (zlen (s_depth f) - 2)%Z with zi by lia. exact LZ.
      * eexists. split; [reflexivity|]. exists zi, zeta. rewrite LO. split; [assumption|]. specialize (CR n (zi - 1)%Z true). rewrite LE in CR. exact CR.
      * eexists. split; [reflexivity|]. exists zi, zeta. rewrite LO. split; [assumption|]. specialize (CR n (zi - 1)%Z true). rewrite LE in CR. exact CR.
      * eexists. split; [reflexivity|]. exists zi, zeta. rewrite LO, IX. cbn [is_mom5]. split; [assumption|].
        specialize (LV n (zi - 1)%Z true). rewrite LE in LV. eapply at_level_eq; [|exact LV]. unfold c_trilinear_bottom. ring.
      * eexists. split; [reflexivity|].
        pose proof (CO n (zi - 1)%Z true) as Q0. rewrite LE in Q0.
        pose proof (CO n zi true) as Q1. replace (lev f zi true) with (zi + 1)%Z in Q1 by (unfold lev; rewrite D1; reflexivity).
        do 4 eexists. split; [exact LZ|]. split; [exact Q0|]. split; [exact Q1|]. rewrite IL. reflexivity.
    + rewrite OK by lia. cbn [negb].
      assert (LE0 : lev f zi false = zi) by (unfold lev; rewrite D1; cbn [b2z]; lia).
      assert (LE1 : lev f zi true = (zi + 1)%Z) by (unfold lev; rewrite D1; reflexivity).
      assert (IL : forall q0 q1, in_layer f zi zeta q0 q1 = (1 - zeta) * q0 + zeta * q1) by (intros; unfold in_layer; rewrite BT; reflexivity).
      pose proof (LV n zi false) as Q0. rewrite LE0 in Q0. pose proof (LV n zi true) as Q1. rewrite LE1 in Q1.
      pose proof (CR n zi false) as C0. rewrite LE0 in C0.
      destruct (s_method f) eqn:ME; try contradiction.
      * eexists. split; [reflexivity|]. right. split; [lia|]. do 4 eexists. split; [exact LZ|]. split; [exact Q0|]. split; [exact Q1|]. rewrite IL. reflexivity.
      * pose proof (qlt_half_cases _ _ _ _ LD MD LZ0) as HZ. eexists. split; [reflexivity|].
        eexists _, _, _. split; [exact HX|]. split; [exact HY|]. split; [exact HZ|]. unfold c_nearest3. rewrite RD.
        unfold node at 3. unfold lev. rewrite D1. reflexivity.
      * eexists. split; [reflexivity|]. exists zi, zeta. rewrite LO. split; assumption.
      * eexists. split; [reflexivity|]. exists zi, zeta. rewrite LO. split; assumption.
      * eexists. split; [reflexivity|]. exists zi, zeta. rewrite LO, FE. split; [assumption|]. unfold c_trilinear.
        destruct (is_mom5 (s_indexing f)); [eapply at_level_eq; [|exact Q1]|eapply at_level_eq; [|exact Q0]]; ring.
      * pose proof (CO n zi false) as C2. rewrite LE0 in C2. pose proof (CO n zi true) as C1. rewrite LE1 in C1.
        assert (IX : match s_indexing f with Nemo | Mom5 | Pop => Some 1 | Mitgcm => Some 0 end = Some 1).
        { destruct (s_indexing f); try reflexivity. exfalso. apply JW; reflexivity. }
        rewrite IX. eexists. split; [reflexivity|]. do 4 eexists. split; [exact LZ|]. split; [exact C2|]. split; [exact C1|]. rewrite IL. reflexivity.
Qed.

Theorem c_surface_found : forall f x y z n xsi eta xi yi, surface_offered f -> axis_ok (s_lon f) -> axis_ok (s_lat f) -> surface_layer f z ->
  located (s_lon f) x xi xsi -> located (s_lat f) y yi eta ->
  (zlen (s_lon f) = 1 -> xi = 0)%Z -> (zlen (s_lat f) = 1 -> yi = 0)%Z ->
  exists q, c_interp (s_indexing f) (s_method f) (s_frame f n) xsi eta (z / first_ (s_depth f)) xi yi (-1) = IVal q /\ surface_value f n x y z q.
Proof.
  intros f x y z n xsi eta xi yi OF AX AY (IX & L & _) LX LY NX NY. unfold c_interp, surface_value.
  change (f_zdim (s_frame f n)) with (zlen (s_depth f)). assert (D1 : (zlen (s_depth f) =? 1)%Z = false) by lia. rewrite D1, IX.
  replace (-1 =? -1)%Z with true by reflexivity. cbn [is_mom5 is_pop andb].
  rewrite (c_ok f x y xi yi xsi eta AX AY LX LY NX NY) by lia. cbn [negb].
  assert (LE : lev f 0 false = 0%Z) by (unfold lev; rewrite D1; reflexivity).
  destruct OF as [-> | ->].
  - pose proof (c_level f x y xi yi xsi eta AX AY LX LY NX NY n 0%Z false) as Q. rewrite LE in Q.
    eexists. split; [reflexivity|]. eapply at_level_eq; [|exact Q]. unfold c_trilinear_surface. ring.
  - pose proof (c_corner f x y xi yi xsi eta AX AY LX LY NX NY n 0%Z false) as Q. rewrite LE in Q.
    eexists. split; [reflexivity|]. eexists. split; [exact Q|]. reflexivity.
Qed.
