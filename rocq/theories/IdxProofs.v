(** Proofs about the searches on rectilinear grids (C21-C22). *)
From Coq Require Import List ZArith Bool QArith Lia Lqa ZifyBool.
From Verif Require Import IdxModel IdxSpec.
From Verif Require Export IdxBase SphereProofs.
Import ListNotations.
Open Scope Q_scope.

(** ** Along longitude *)
Lemma in_cell_eq l x x' i r : x == x' -> in_cell l x i r -> in_cell l x' i r.
Proof. intros E (A & B & C & D & F). split; [exact A|]. split; [exact B|]. split; [exact C|]. split; [exact D|]. rewrite <- E. exact F. Qed.

Lemma in_cell_range l x i r : increasing l -> in_cell l x i r -> first_ l <= x <= last_ l.
Proof.
  intros I (A & B & C & D & F). pose proof (I i (i + 1)%Z ltac:(lia) ltac:(lia)) as W.
  assert (first_ l <= at_ l i) by (apply inc_le; [exact I|lia..]).
  assert (at_ l (i + 1) <= last_ l) by (apply inc_le; [exact I|lia..]). split; nra.
Qed.

Lemma py_lon_located : forall (s : bool) l x, axis_ok l -> inside l x ->
  exists i r, (if (1 <? zlen l)%Z then py_axis (if s then lon_fixed l x else l) x else Some ((-1)%Z, 0)) = Some (i, r) /\ located l x i r /\
              (zlen l = 1%Z -> i = (-1)%Z).
Proof.
  intros s l x [L I] X. destruct s; [|apply py_axis_located; [split; assumption|exact X]].
  destruct (1 <? zlen l)%Z eqn:E.
  - destruct X as [X|X]; [lia|]. pose proof (unwrap_inc l L I) as U.
    destruct (py_fixed l l x ltac:(lia) I) as [P _]; [rewrite U; reflexivity|intros j _; rewrite U; reflexivity|].
    destruct (P X) as (i & r & P1 & P2). exists i, r. split; [exact P1|]. split; [right; split; [lia|exact P2]|lia].
  - eexists. eexists. split; [reflexivity|]. split; [left; split; [lia|lra]|reflexivity].
Qed.

Lemma itmax_is : Z.of_nat itmax = 10000%Z.
Proof. unfold itmax. apply Z2Nat.id. lia. Qed.

Lemma c_lon_located : forall (s : bool) l x i0, axis_ok l -> inside l x -> valid_start l i0 -> s = false \/ arc l ->
  exists i r, (if (zlen l =? 1)%Z then Some (Some (0%Z, 0))
               else if s then c_sphere itmax l x i0
               else match c_axis l x i0 with Some r => Some (Some r) | None => None end) = Some (Some (i, r)) /\ located l x i r /\
              (zlen l = 1%Z -> i = 0%Z).
Proof.
  intros s l x i0 A X V SA. destruct (c_axis_located l x i0 A) as (i & r & E & LX & NX).
  { exact X. } { exact V. }
  destruct (zlen l =? 1)%Z eqn:Z1; [exists i, r; inversion E; subst; auto|].
  destruct s; [|exists i, r; rewrite E; auto].
  destruct SA as [SA|(SP & NA & LN)]; [discriminate|]. destruct A as [L I]. destruct X as [X|X]; [lia|]. destruct V as [V|[V0 V1]]; [lia|].
  destruct (sphere_finds l x I ltac:(lia) NA ltac:(lra) 0%Z ltac:(auto)) with (i := i0) (k := itmax) as (j & J & F & ->).
  { change (inject_Z 0) with 0. lra. } { lia. } { rewrite itmax_is. lia. }
  destruct (inc_found_cell l x I NA j J F) as (c & C & IC & _). eexists. eexists. split; [reflexivity|]. split; [|lia].
  right. split; [lia|]. pose proof (in_cell_range _ _ _ _ I IC) as RG. revert IC. apply in_cell_eq.
  destruct C as [-> | [-> | ->]]; lra.
Qed.

Theorem py_search_found : forall g x y z, plain g -> inside (g_lon g) x -> inside (g_lat g) y -> depth_inside (g_depth g) z ->
  exists xsi eta zeta xi yi zi, py_search g x y z = Found xsi eta zeta xi yi zi /\
    located (g_lon g) x xi xsi /\ located (g_lat g) y yi eta /\ located (g_depth g) z zi zeta /\
    (zlen (g_lon g) = 1 -> xi = -1)%Z /\ (zlen (g_lat g) = 1 -> yi = -1)%Z.
Proof.
  intros g x y z P X Y Z0. pose proof P as (S & ZP & M5 & AX & AY & (LZ & MZ)).
  unfold py_search. replace (outside g x y) with false by (symmetry; apply outside_plain; auto). rewrite M5.
  destruct (py_lon_located (g_spherical g) _ x AX X) as (xi & xsi & -> & LX & NX).
  destruct (py_axis_located _ y AY Y) as (yi & eta & -> & LY & NY).
  assert (V : exists zi zeta, (if (1 <? zlen (g_depth g))%Z then py_vertical_z false (g_depth g) z else VFound (-1) 0) = VFound zi zeta /\ located (g_depth g) z zi zeta).
  { destruct (1 <? zlen (g_depth g))%Z eqn:E.
    - destruct Z0 as [Z0|Z0]; [lia|]. destruct (py_vertical_spec (g_depth g) z ltac:(lia) MZ) as (A & _).
      destruct (A Z0) as (i & r & Q1 & Q2). exists i, r. split; [exact Q1|]. right. split; [lia|exact Q2].
    - exists (-1)%Z, 0. split; [reflexivity|]. left. split; [lia|lra]. }
  destruct V as (zi & zeta & -> & LZ'). rewrite (in01_cell _ _ _ _ LX), (in01_cell _ _ _ _ LY), (in01_cell _ _ _ _ LZ').
  do 6 eexists. split; [reflexivity|]. repeat (split; [assumption|]). assumption.
Qed.

Theorem py_search_outside : forall g x y z, plain g -> ~ (inside (g_lon g) x /\ inside (g_lat g) y) ->
  py_search g x y z = OutOfBounds.
Proof.
  intros g x y z P N. unfold py_search. destruct (outside g x y) eqn:E; [reflexivity|]. exfalso. apply N. apply outside_plain; assumption.
Qed.

Theorem py_search_depth : forall g x y z, plain g -> inside (g_lon g) x -> inside (g_lat g) y ->
  (above_first (g_depth g) z -> py_search g x y z = ThroughSurface) /\
  (below_last (g_depth g) z -> py_search g x y z = OutOfBounds).
Proof.
  intros g x y z P X Y. pose proof P as (S & ZP & M5 & AX & AY & (LZ & MZ)).
  unfold py_search. replace (outside g x y) with false by (symmetry; apply outside_plain; auto). rewrite M5.
  destruct (py_lon_located (g_spherical g) _ x AX X) as (xi & xsi & -> & LX & _).
  destruct (py_axis_located _ y AY Y) as (yi & eta & -> & LY & _).
  split; intros A; pose proof A as [L _]; replace (1 <? zlen (g_depth g))%Z with true by lia;
    destruct (py_vertical_spec (g_depth g) z L MZ) as (_ & B & C).
  - rewrite (B A). reflexivity.
  - rewrite (C A). reflexivity.
Qed.


(** From the outcome along longitude, for the position [x] or one a turn away, to that of the search. *)
Lemma c_search_core : forall g x x' y z xi0 yi0 zi0 xi xsi, outside g x y = false -> g_mom5 g = false -> axis_ok (g_lat g) -> depth_ok (g_depth g) ->
  inside (g_lat g) y -> depth_inside (g_depth g) z -> valid_starts g xi0 yi0 zi0 ->
  (if (zlen (g_lon g) =? 1)%Z then Some (Some (0%Z, 0))
   else if g_spherical g then c_sphere itmax (g_lon g) x xi0
   else match c_axis (g_lon g) x xi0 with Some r => Some (Some r) | None => None end) = Some (Some (xi, xsi)) ->
  located (g_lon g) x' xi xsi ->
  exists eta zeta yi zi, c_search g x y z xi0 yi0 zi0 = Found xsi eta zeta xi yi zi /\
    located (g_lat g) y yi eta /\ located (g_depth g) z zi zeta /\ valid_starts g xi yi zi /\ (zlen (g_lat g) = 1 -> yi = 0)%Z.
Proof.
  intros g x x' y z xi0 yi0 zi0 xi xsi O M5 AY (LZ & MZ) Y Z0 (_ & VY & VZ) EX LX.
  unfold c_search. rewrite O, M5, EX.
  destruct (c_axis_located _ y yi0 AY Y VY) as (yi & eta & EY & LY & NY). rewrite EY.
  assert (V : exists zi zeta, (if (1 <? zlen (g_depth g))%Z then c_vertical_z false (g_depth g) z zi0 else VFound zi0 0) = VFound zi zeta /\ located (g_depth g) z zi zeta).
  { destruct (1 <? zlen (g_depth g))%Z eqn:E.
    - destruct Z0 as [Z0|Z0]; [lia|]. destruct VZ as [VZ|VZ]; [lia|].
      destruct (c_vertical_spec (g_depth g) z zi0 ltac:(lia) MZ VZ) as (A & _).
      destruct (A Z0) as (i & r & Q1 & Q2). exists i, r. split; [exact Q1|]. right. split; [lia|exact Q2].
    - exists zi0, 0. split; [reflexivity|]. left. split; [lia|lra]. }
  destruct V as (zi & zeta & -> & LZ'). rewrite (in01_cell _ _ _ _ LX), (in01_cell _ _ _ _ LY), (in01_cell _ _ _ _ LZ').
  do 4 eexists. split; [reflexivity|]. repeat (split; [assumption|]).
  assert (VS : forall l v i r, located l v i r -> valid_start l i).
  { intros l v i r [[Q1 _]|[_ (Q1 & Q2 & _)]]; [left; exact Q1|right; split; assumption]. }
  split; [|assumption]. repeat split; [eapply VS; exact LX|eapply VS; exact LY|].
  destruct LZ' as [[Q1 _]|[_ (Q1 & Q2 & _)]]; [left; exact Q1|right; lia].
Qed.

Theorem c_search_found : forall g x y z xi0 yi0 zi0, plain g -> inside (g_lon g) x -> inside (g_lat g) y -> depth_inside (g_depth g) z ->
  valid_starts g xi0 yi0 zi0 ->
  exists xsi eta zeta xi yi zi, c_search g x y z xi0 yi0 zi0 = Found xsi eta zeta xi yi zi /\
    located (g_lon g) x xi xsi /\ located (g_lat g) y yi eta /\ located (g_depth g) z zi zeta /\
    valid_starts g xi yi zi /\ (zlen (g_lon g) = 1 -> xi = 0)%Z /\ (zlen (g_lat g) = 1 -> yi = 0)%Z.
Proof.
  intros g x y z xi0 yi0 zi0 P X Y Z0 V. pose proof P as (S & ZP & M5 & AX & AY & AZ).
  destruct (c_lon_located (g_spherical g) _ x xi0 AX X (proj1 V) S) as (xi & xsi & EX & LX & NX).
  assert (O : outside g x y = false) by (apply outside_plain; auto).
  destruct (c_search_core g x x y z xi0 yi0 zi0 xi xsi O M5 AY AZ Y Z0 V EX LX) as (eta & zeta & yi & zi & E & LY & LZ & VS & NY).
  do 6 eexists. split; [exact E|]. repeat (split; [assumption|]). assumption.
Qed.

Theorem c_search_outside : forall g x y z xi0 yi0 zi0, plain g -> ~ (inside (g_lon g) x /\ inside (g_lat g) y) ->
  c_search g x y z xi0 yi0 zi0 = OutOfBounds.
Proof.
  intros g x y z xi0 yi0 zi0 P N. unfold c_search. destruct (outside g x y) eqn:E; [reflexivity|]. exfalso. apply N. apply outside_plain; assumption.
Qed.

Theorem c_search_depth : forall g x y z xi0 yi0 zi0, plain g -> inside (g_lon g) x -> inside (g_lat g) y ->
  valid_starts g xi0 yi0 zi0 ->
  (above_first (g_depth g) z -> c_search g x y z xi0 yi0 zi0 = ThroughSurface) /\
  (below_last (g_depth g) z -> c_search g x y z xi0 yi0 zi0 = OutOfBounds).
Proof.
  intros g x y z xi0 yi0 zi0 P X Y (VX & VY & VZ). pose proof P as (S & ZP & M5 & AX & AY & (LZ & MZ)).
  unfold c_search. replace (outside g x y) with false by (symmetry; apply outside_plain; auto). rewrite M5.
  destruct (c_lon_located (g_spherical g) _ x xi0 AX X VX S) as (xi & xsi & EX & LX & _).
  destruct (c_axis_located _ y yi0 AY Y VY) as (yi & eta & EY & LY & _).
  rewrite EX, EY.
  split; intros A; pose proof A as [L _]; replace (1 <? zlen (g_depth g))%Z with true by lia;
    destruct VZ as [VZ|VZ]; try lia; destruct (c_vertical_spec (g_depth g) z zi0 L MZ VZ) as (_ & B & C).
  - rewrite (B A). reflexivity.
  - rewrite (C A). reflexivity.
Qed.

(** ** Two cells of one position *)
Lemma same_cell : forall l x i r j s, increasing l \/ decreasing l -> in_cell l x i r -> in_cell l x j s ->
  (i = j /\ r == s) \/ (j = (i + 1)%Z /\ r == 1 /\ s == 0) \/ (i = (j + 1)%Z /\ s == 1 /\ r == 0).
Proof.
  assert (CORE : forall l x i r j s, increasing l \/ decreasing l -> in_cell l x i r -> in_cell l x j s -> (i <= j)%Z ->
    (i = j /\ r == s) \/ (j = (i + 1)%Z /\ r == 1 /\ s == 0)).
  { intros l x i r j s M (I0 & I1 & R0 & R1 & EX) (J0 & J1 & S0 & S1 & EY) IJ.
    destruct (Z.eq_dec i j) as [<-|N].
    - left. split; [reflexivity|]. assert (K : (r - s) * (at_ l (i + 1) - at_ l i) == 0) by lra.
      assert (W : ~ at_ l (i + 1) - at_ l i == 0).
      { destruct M as [M|M]; specialize (M i (i + 1)%Z ltac:(lia) ltac:(lia)); lra. }
      apply Qmult_integral in K. destruct K as [K|K]; [lra|contradiction].
    - right. destruct M as [M|M].
      + assert (A1 : at_ l i < at_ l (i + 1)) by (apply M; lia). assert (A2 : at_ l j < at_ l (j + 1)) by (apply M; lia).
        assert (A3 : at_ l (i + 1) <= at_ l j) by (apply inc_le; [exact M|lia..]).
        assert (A4 : x <= at_ l (i + 1)) by nra. assert (A5 : at_ l j <= x) by nra.
        assert (E : at_ l (i + 1) == at_ l j) by lra.
        assert (j = i + 1)%Z.
        { destruct (Z.eq_dec j (i + 1)) as [|N2]; [assumption|]. assert (at_ l (i + 1) < at_ l j) by (apply M; lia). lra. }
        split; [assumption|]. subst j. split.
        * assert (K : (1 - r) * (at_ l (i + 1) - at_ l i) == 0) by lra. apply Qmult_integral in K. destruct K; lra.
        * assert (K : s * (at_ l (i + 1 + 1) - at_ l (i + 1)) == 0) by lra. apply Qmult_integral in K. destruct K; lra.
      + assert (A1 : at_ l (i + 1) < at_ l i) by (apply M; lia). assert (A2 : at_ l (j + 1) < at_ l j) by (apply M; lia).
        assert (A3 : at_ l j <= at_ l (i + 1)) by (apply dec_le; [exact M|lia..]).
        assert (A4 : at_ l (i + 1) <= x) by nra. assert (A5 : x <= at_ l j) by nra.
        assert (E : at_ l (i + 1) == at_ l j) by lra.
        assert (j = i + 1)%Z.
        { destruct (Z.eq_dec j (i + 1)) as [|N2]; [assumption|]. assert (at_ l j < at_ l (i + 1)) by (apply M; lia). lra. }
        split; [assumption|]. subst j. split.
        * assert (K : (1 - r) * (at_ l (i + 1) - at_ l i) == 0) by lra. apply Qmult_integral in K. destruct K; lra.
        * assert (K : s * (at_ l (i + 1 + 1) - at_ l (i + 1)) == 0) by lra. apply Qmult_integral in K. destruct K; lra. }
  intros l x i r j s M A B. destruct (Z_le_gt_dec i j) as [C|C].
  - destruct (CORE _ _ _ _ _ _ M A B C) as [H|H]; [left; exact H|right; left; exact H].
  - destruct (CORE _ _ _ _ _ _ M B A ltac:(lia)) as [[H1 H2]|(H1 & H2 & H3)]; [left; split; [lia|lra]|].
    right. right. auto.
Qed.

(** ** Checking an axis given by its points *)
Fixpoint inc_b (l : list Q) : bool :=
  match l with a :: t => match t with b :: _ => qlt a b && inc_b t | [] => true end | [] => true end.
Fixpoint dec_b (l : list Q) : bool :=
  match l with a :: t => match t with b :: _ => qlt b a && dec_b t | [] => true end | [] => true end.

Lemma zlen_cons : forall A (a : A) l, zlen (a :: l) = (zlen l + 1)%Z.
Proof. intros. unfold zlen. cbn [length]. lia. Qed.
Lemma inc_b_spec : forall l, inc_b l = true -> increasing l.
Proof.
  induction l as [|a l IH]; intros H; [intros i j A B; unfold zlen in B; cbn in B; lia|].
  assert (T : increasing l). { apply IH. destruct l as [|b l]; [reflexivity|]. cbn in H. apply andb_true_iff in H. apply H. }
  assert (F : forall j, (0 <= j < zlen l)%Z -> a < at_ l j).
  { intros j J. destruct l as [|b l]; [unfold zlen in J; cbn in J; lia|]. cbn in H. apply andb_true_iff in H. destruct H as [H _].
    apply qlt_spec in H. change b with (at_ (b :: l) 0) in H.
    assert (at_ (b :: l) 0 <= at_ (b :: l) j) by (apply inc_le; [exact T|lia..]). lra. }
  intros i j A B. rewrite zlen_cons in B. rewrite (at_cons a l j) by lia. destruct (Z.eq_dec i 0) as [->|N].
  - apply F. lia.
  - rewrite at_cons by lia. apply T; lia.
Qed.
Lemma dec_b_spec : forall l, dec_b l = true -> decreasing l.
Proof.
  induction l as [|a l IH]; intros H; [intros i j A B; unfold zlen in B; cbn in B; lia|].
  assert (T : decreasing l). { apply IH. destruct l as [|b l]; [reflexivity|]. cbn in H. apply andb_true_iff in H. apply H. }
  assert (F : forall j, (0 <= j < zlen l)%Z -> at_ l j < a).
  { intros j J. destruct l as [|b l]; [unfold zlen in J; cbn in J; lia|]. cbn in H. apply andb_true_iff in H. destruct H as [H _].
    apply qlt_spec in H. change b with (at_ (b :: l) 0) in H.
    assert (at_ (b :: l) j <= at_ (b :: l) 0) by (apply dec_le; [exact T|lia..]). lra. }
  intros i j A B. rewrite zlen_cons in B. rewrite (at_cons a l j) by lia. destruct (Z.eq_dec i 0) as [->|N].
  - apply F. lia.
  - rewrite at_cons by lia. apply T; lia.
Qed.
Lemma axis_ok_b : forall l, inc_b l = true -> (1 <=? zlen l)%Z = true -> axis_ok l.
Proof. intros l A B. split; [lia|apply inc_b_spec; exact A]. Qed.
Fixpoint narrow_b (l : list Q) : bool :=
  match l with a :: t => match t with b :: _ => qlt (b - a) 135 && narrow_b t | [] => true end | [] => true end.
Lemma narrow_b_spec : forall l, narrow_b l = true -> narrow_cells l.
Proof.
  induction l as [|a l IH]; intros H i I0 I1; [unfold zlen in I1; cbn in I1; lia|]. rewrite zlen_cons in I1.
  destruct l as [|b l]; [unfold zlen in I1; cbn in I1; lia|]. cbn [narrow_b] in H. apply andb_true_iff in H. destruct H as [H1 H2].
  rewrite (at_cons a (b :: l) (i + 1)) by lia. replace (i + 1 - 1)%Z with i by lia. destruct (Z.eq_dec i 0) as [->|N].
  - apply qlt_spec. exact H1.
  - rewrite (at_cons a (b :: l) i) by lia. specialize (IH H2 (i - 1)%Z ltac:(lia) ltac:(lia)). replace (i - 1 + 1)%Z with i in IH by lia. exact IH.
Qed.
Lemma arc_b : forall l, qlt (last_ l - first_ l) 360 && narrow_b l && (zlen l <=? 10002)%Z = true -> arc l.
Proof.
  intros l H. apply andb_true_iff in H. destruct H as [H H3]. apply andb_true_iff in H. destruct H as [H1 H2].
  split; [apply qlt_spec; exact H1|]. split; [apply narrow_b_spec; exact H2|lia].
Qed.
