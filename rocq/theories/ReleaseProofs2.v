(** Proofs about the density of a particle set (C56). *)
From Coq Require Import List ZArith Bool QArith Lia Lqa ZifyBool Arith.
From Verif Require Import IdxModel IdxBase IdxSpec IdxProofs ReleaseModel ReleaseSpec ReleaseProofs.
Import ListNotations.
Open Scope Q_scope.

(** ** The cell of a particle *)
Lemma index_holds l x i r : located l x i r -> (zlen l = 1 -> i = 0 \/ i = -1)%Z -> exists k, np_index (zlen l) i = Some k /\ holds l x k.
Proof.
  intros [[E R]|[L C]] H; unfold np_index; cbv zeta.
  - exists 0%Z. rewrite E. destruct (H E) as [-> | ->]; (split; [reflexivity|left; split; [exact E|reflexivity]]).
  - destruct C as (I0 & I1 & C). exists i. replace (i <? 0)%Z with false by lia. replace ((0 <=? i) && (i <? zlen l))%Z with true by lia.
    split; [reflexivity|]. right. exists r. split; [exact I0|]. split; [exact I1|exact C].
Qed.
Lemma cell_found g p : plain g -> within_grid g p -> exists yi xi j i, cell_of g p = Some (yi, xi) /\
  np_index (zlen (g_lat g)) yi = Some j /\ np_index (zlen (g_lon g)) xi = Some i /\ cell_holds g (d_lon p) (d_lat p) (j, i).
Proof.
  intros PL (IX & IY & IZ & ST). unfold cell_of. destruct (d_jit p) as [[[xi0 yi0] zi0]|].
  - destruct (c_search_found g _ _ _ xi0 yi0 zi0 PL IX IY IZ ST) as (xsi & eta & zeta & xi & yi & zi & -> & LX & LY & _ & _ & OX & OY).
    destruct (index_holds _ _ _ _ LX ltac:(intros E; left; auto)) as (i & EI & HI). destruct (index_holds _ _ _ _ LY ltac:(intros E; left; auto)) as (j & EJ & HJ).
    exists yi, xi, j, i. split; [reflexivity|]. split; [exact EJ|]. split; [exact EI|]. split; assumption.
  - destruct (py_search_found g _ _ _ PL IX IY IZ) as (xsi & eta & zeta & xi & yi & zi & -> & _).
    set (g' := mkRgrid (g_lon g) (g_lat g) [0] (g_spherical g) (g_zonal_periodic g) (g_mom5 g)).
    assert (PL' : plain g').
    { destruct PL as (A & B & C & D & E & _). unfold plain. cbn. repeat split; try assumption; try (apply D || apply E).
      - vm_compute. discriminate.
      - left. intros a b AB BL. change (zlen [0]) with 1%Z in BL. lia. }
    destruct (py_search_found g' (d_lon p) (d_lat p) (d_depth p) PL' IX IY (or_introl eq_refl)) as (xsi' & eta' & zeta' & xi' & yi' & zi' & -> & LX & LY & _ & OX & OY).
    cbn [g' g_lon g_lat] in *.
    destruct (index_holds _ _ _ _ LX ltac:(intros E; right; auto)) as (i & EI & HI). destruct (index_holds _ _ _ _ LY ltac:(intros E; right; auto)) as (j & EJ & HJ).
    exists yi', xi', j, i. split; [reflexivity|]. split; [exact EJ|]. split; [exact EI|]. split; assumption.
Qed.

(** ** Counting *)
Lemma count_cells g ps : plain g -> forall ws acc, (forall p, In p ps -> within_grid g p) -> length ws = length ps ->
  exists D cs, count g ps ws acc = Some D /\ Forall2 (fun p c => cell_holds g (d_lon p) (d_lat p) c) ps cs /\
    forall j i, D j i == acc j i + weight_in cs ws j i.
Proof.
  intros PL. induction ps as [|p ps IH]; intros ws acc IN L.
  - exists acc, []. split; [reflexivity|]. split; [constructor|]. intros j i. cbn. lra.
  - destruct ws as [|w ws]; [discriminate|]. cbn [count].
    destruct (cell_found g p PL (IN p (or_introl eq_refl))) as (yi & xi & j & i & -> & -> & -> & H).
    destruct (IH ws (fun j' i' => if (j' =? j)%Z && (i' =? i)%Z then acc j' i' + w else acc j' i') (fun q Q => IN q (or_intror Q)) ltac:(cbn in L; lia))
      as (D & cs & E & F & V).
    exists D, ((j, i) :: cs). split; [exact E|]. split; [constructor; assumption|]. intros a b. rewrite V. cbn [weight_in].
    rewrite (Z.eqb_sym j a), (Z.eqb_sym i b). destruct ((a =? j)%Z && (b =? i)%Z); lra.
Qed.

(** ** Sums *)
Lemma sum_flat_map {A} (F : A -> list Q) l : qsum (flat_map F l) == qsum (map (fun a => qsum (F a)) l).
Proof. induction l as [|a l IH]; [reflexivity|]. cbn [flat_map map]. rewrite sum_app, sum_cons, IH. reflexivity. Qed.
Lemma sum_map_plus {A} (f h : A -> Q) l : qsum (map (fun a => f a + h a) l) == qsum (map f l) + qsum (map h l).
Proof. induction l as [|a l IH]; [cbn; lra|]. cbn [map]. rewrite !sum_cons, IH. lra. Qed.
Lemma sum_map_eq {A} (f h : A -> Q) l : (forall a, In a l -> f a == h a) -> qsum (map f l) == qsum (map h l).
Proof.
  induction l as [|a l IH]; intros E; [reflexivity|]. cbn [map]. rewrite !sum_cons, (E a (or_introl eq_refl)), IH; [reflexivity|].
  intros b B. apply E. right. exact B.
Qed.
Lemma sum_map_zero {A} (f : A -> Q) l : (forall a, In a l -> f a == 0) -> qsum (map f l) == 0.
Proof.
  induction l as [|a l IH]; intros E; [reflexivity|]. cbn [map]. rewrite sum_cons, (E a (or_introl eq_refl)), IH; [lra|].
  intros b B. apply E. right. exact B.
Qed.
Lemma sum_map_div {A} (f : A -> Q) c l : qsum (map (fun a => f a / c) l) == qsum (map f l) / c.
Proof. unfold Qdiv. induction l as [|a l IH]; [cbn; ring|]. cbn [map]. rewrite !sum_cons, IH. ring. Qed.
Lemma sum_one n k (w : Q) : forall s, (s <= k < s + n)%nat -> qsum (map (fun m => if (m =? k)%nat then w else 0) (seq s n)) == w.
Proof.
  induction n as [|n IH]; intros s R; [lia|]. cbn [seq map]. rewrite sum_cons. destruct (s =? k)%nat eqn:E.
  - rewrite sum_map_zero; [lra|]. intros a A. apply in_seq in A. replace (a =? k)%nat with false by lia. reflexivity.
  - rewrite IH by lia. lra.
Qed.
Definition rows n m (d : Z -> Z -> Q) : Q := qsum (map (fun j => qsum (map (fun i => d (Z.of_nat j) (Z.of_nat i)) (seq 0 (Z.to_nat m)))) (seq 0 (Z.to_nat n))).
Lemma sum_over_rows n m d : sum_over n m d == rows n m d.
Proof. unfold sum_over, rows. apply sum_flat_map. Qed.
Lemma rows_plus n m d e : rows n m (fun j i => d j i + e j i) == rows n m d + rows n m e.
Proof. unfold rows. rewrite <- sum_map_plus. apply sum_map_eq. intros j _. apply sum_map_plus. Qed.
Lemma rows_eq n m d e : (forall j i, d j i == e j i) -> rows n m d == rows n m e.
Proof. intros H. unfold rows. apply sum_map_eq. intros j _. apply sum_map_eq. intros i _. apply H. Qed.
Lemma rows_one n m j i w : (0 <= j < n)%Z -> (0 <= i < m)%Z -> rows n m (fun j' i' => if (j =? j')%Z && (i =? i')%Z then w else 0) == w.
Proof.
  intros J I. unfold rows.
  rewrite sum_map_eq with (h := fun a => if (a =? Z.to_nat j)%nat then w else 0); [apply sum_one; lia|].
  intros a _. destruct (a =? Z.to_nat j)%nat eqn:E.
  - replace (j =? Z.of_nat a)%Z with true by lia. cbn [andb].
    rewrite sum_map_eq with (h := fun b => if (b =? Z.to_nat i)%nat then w else 0); [apply sum_one; lia|].
    intros b _. replace (i =? Z.of_nat b)%Z with (b =? Z.to_nat i)%nat by lia. reflexivity.
  - replace (j =? Z.of_nat a)%Z with false by lia. cbn [andb]. apply sum_map_zero. reflexivity.
Qed.
Lemma holds_range l x i : (1 <= zlen l)%Z -> holds l x i -> (0 <= i < zlen l)%Z.
Proof. intros L [[E ->]|(r & I0 & I1 & _)]; lia. Qed.
Lemma weight_total g ps cs : (1 <= zlen (g_lat g))%Z -> (1 <= zlen (g_lon g))%Z -> Forall2 (fun p c => cell_holds g (d_lon p) (d_lat p) c) ps cs ->
  forall ws, length ws = length ps -> rows (zlen (g_lat g)) (zlen (g_lon g)) (weight_in cs ws) == qsum ws.
Proof.
  intros LY LX F. induction F as [|p [j i] ps cs [HJ HI] F IH]; intros ws L.
  - destruct ws; [|discriminate]. unfold rows. cbn [weight_in]. apply sum_map_zero. intros a _. apply sum_map_zero. reflexivity.
  - destruct ws as [|w ws]; [discriminate|]. cbn [weight_in]. rewrite rows_plus, IH by (cbn in L; lia). rewrite sum_cons.
    rewrite rows_one; [reflexivity|apply (holds_range _ _ _ LY HJ)|apply (holds_range _ _ _ LX HI)].
Qed.

(** ** Off the edges *)
Lemma strictly_is l x i : axis_ok l -> off_edges l x -> holds l x i -> forall k, strictly l x k = (i =? k)%Z.
Proof.
  intros [L I] OFF H k. unfold strictly. destruct H as [[E ->]|(r & C)].
  - rewrite E. cbn [Z.eqb Pos.eqb]. apply Z.eqb_sym.
  - pose proof C as (I0 & I1 & R0 & R1 & EX). replace (zlen l =? 1)%Z with false by lia. destruct OFF as [O|OFF]; [lia|].
    assert (A : at_ l i < at_ l (i + 1)) by (apply I; lia).
    assert (X1 : at_ l i < x). { assert (at_ l i <= x) by (rewrite EX; nra). specialize (OFF i ltac:(lia)). destruct (Qlt_le_dec (at_ l i) x); [assumption|]. exfalso. apply OFF. lra. }
    assert (X2 : x < at_ l (i + 1)). { assert (x <= at_ l (i + 1)) by (rewrite EX; nra). specialize (OFF (i + 1)%Z ltac:(lia)). destruct (Qlt_le_dec x (at_ l (i + 1))); [assumption|]. exfalso. apply OFF. lra. }
    destruct (i =? k)%Z eqn:EK.
    + assert (k = i) by lia. subst k. replace ((0 <=? i)%Z && (i + 1 <? zlen l)%Z) with true by lia. cbn [andb].
      apply andb_true_iff. split; apply negb_true_iff; apply not_true_is_false; intros Q; apply Qle_bool_iff in Q; lra.
    + destruct ((0 <=? k)%Z && (k + 1 <? zlen l)%Z) eqn:RK; [|reflexivity]. cbn [andb].
      destruct (Z_lt_ge_dec k i) as [C1|C1].
      * assert (at_ l (k + 1) <= at_ l i) by (apply inc_le; [exact I|lia..]). apply andb_false_iff. right. apply negb_false_iff, Qle_bool_iff. lra.
      * assert (at_ l (i + 1) <= at_ l k) by (apply inc_le; [exact I|lia..]). apply andb_false_iff. left. apply negb_false_iff, Qle_bool_iff. lra.
Qed.
Lemma weight_strict g ps cs : axis_ok (g_lat g) -> axis_ok (g_lon g) -> Forall2 (fun p c => cell_holds g (d_lon p) (d_lat p) c) ps cs ->
  (forall p, In p ps -> off_edges (g_lon g) (d_lon p) /\ off_edges (g_lat g) (d_lat p)) ->
  forall ws j i, weight_in cs ws j i == weight_strictly_in g ps ws j i.
Proof.
  intros AY AX F. induction F as [|p [j0 i0] ps cs [HJ HI] F IH]; intros OFF ws j i; [reflexivity|].
  destruct ws as [|w ws]; [reflexivity|]. cbn [weight_in weight_strictly_in]. destruct (OFF p (or_introl eq_refl)) as [OX OY].
  rewrite (strictly_is _ _ _ AY OY HJ), (strictly_is _ _ _ AX OX HI). rewrite IH; [reflexivity|]. intros q Q. apply OFF. right. exact Q.
Qed.

(** ** The whole *)
Lemma weights_asked n w ws : weighs n w ws -> weights_of n w = Some ws.
Proof.
  intros [L H]. destruct w as [|l|l|l]; cbn [weights_of].
  - f_equal. rewrite <- L. clear L. induction ws as [|x ws IH]; [reflexivity|]. cbn. rewrite (H x (or_introl eq_refl)). f_equal. apply IH.
    intros y Y. apply H. right. exact Y.
  - destruct H as [-> _]. reflexivity.
  - destruct H as [-> P]. destruct ws; [cbn in L; lia|reflexivity].
  - contradiction.
Qed.
Lemma density_plain mx my g ps w ws : plain g -> (forall p, In p ps -> within_grid g p) -> weighs (length ps) w ws ->
  exists D cs, density mx my g ps w false false = Some D /\ Forall2 (fun p c => cell_holds g (d_lon p) (d_lat p) c) ps cs /\
    (forall j i, D j i == weight_in cs ws j i) /\ sum_over (zlen (g_lat g)) (zlen (g_lon g)) D == qsum ws /\
    (forall rel, density mx my g ps w rel false = Some (fun j i => if rel then D j i / qsum ws else D j i)) /\
    (forall rel a, cell_areas mx my g = Some a -> density mx my g ps w rel true = Some (fun j i => (if rel then D j i / qsum ws else D j i) / a j i)).
Proof.
  intros PL IN W. pose proof (weights_asked _ _ _ W) as EW. destruct W as [L _].
  destruct (count_cells g ps PL ws (fun _ _ => 0) IN L) as (D & cs & E & F & V). exists D, cs.
  unfold density. rewrite EW, E. destruct PL as (_ & _ & _ & [LX IX] & [LY IY] & _).
  split; [reflexivity|]. split; [exact F|]. split; [intros j i; rewrite V; lra|]. split.
  - rewrite sum_over_rows. rewrite (rows_eq _ _ D (weight_in cs ws)) by (intros j i; rewrite V; lra). exact (weight_total g ps cs LY LX F ws L).
  - split; [intros []; reflexivity|]. intros [] a ->; reflexivity.
Qed.

(** ** Areas *)
Lemma gradient_regular l h i : regular l h -> (0 <= i < zlen l)%Z -> gradient l i == h.
Proof.
  intros (L & H & R) I. unfold gradient. cbv zeta. fold (at_ l 1) (at_ l 0) (at_ l i) (at_ l (i - 1)) (at_ l (i + 1)).
  destruct (i =? 0)%Z eqn:E0; [apply (R 0%Z); lia|]. destruct (i =? zlen l - 1)%Z eqn:E1.
  - rewrite <- (R (i - 1)%Z) by lia. replace (i - 1 + 1)%Z with i by lia. reflexivity.
  - pose proof (R i ltac:(lia) ltac:(lia)) as A. pose proof (R (i - 1)%Z ltac:(lia) ltac:(lia)) as B. replace (i - 1 + 1)%Z with i in B by lia.
    assert (Q1 : at_ l (i + 1) - at_ l (i - 1) == 2 * h) by lra. rewrite Q1. field.
Qed.
