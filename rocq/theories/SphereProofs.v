(** Proofs about the search along longitudes on spherical meshes. *)
From Coq Require Import List ZArith Bool QArith Lia Lqa ZifyBool.
From Verif Require Import IdxModel IdxSpec IdxBase.
Import ListNotations.
Open Scope Q_scope.

Section Walk.
Variables (l : list Q) (x : Q).
Notation n := (zlen l).
Notation A i := (near_x (at_ l i) x).
Notation B i := (near_cell (at_ l (i + 1)) (near_x (at_ l i) x)).
Definition cell_found (i : Z) : Prop := A i <= x /\ x <= B i.
Definition cell_up (i : Z) : Prop := B i < x.
Definition cell_down (i : Z) : Prop := x < A i /\ x <= B i.

Lemma cell_cases i : cell_found i \/ cell_up i \/ cell_down i.
Proof.
  unfold cell_found, cell_up, cell_down. destruct (Qlt_le_dec (B i) x); [auto|]. destruct (Qlt_le_dec x (A i)); auto.
Qed.

Definition next (i : Z) : Z := if (i =? n - 2)%Z then 0%Z else (i + 1)%Z.
Definition prev (i : Z) : Z := if (i =? 0)%Z then (n - 2)%Z else (i - 1)%Z.

Lemma next_range i : (0 <= i <= n - 2)%Z -> (0 <= next i <= n - 2)%Z.
Proof. unfold next. destruct (i =? n - 2)%Z eqn:E; lia. Qed.
Lemma prev_range i : (0 <= i <= n - 2)%Z -> (0 <= prev i <= n - 2)%Z.
Proof. unfold prev. destruct (i =? 0)%Z eqn:E; lia. Qed.

Lemma sphere_step i k : (0 <= i <= n - 2)%Z ->
  (cell_found i -> c_sphere k l x i = Some (Some (i, (x - A i) / (B i - A i)))) /\
  (cell_up i -> c_sphere (S k) l x i = c_sphere k l x (next i)) /\
  (cell_down i -> c_sphere (S k) l x i = c_sphere k l x (prev i)).
Proof.
  intros I. 
  assert (R : reconnect_x n (i + 1) = next i /\ reconnect_x n (i - 1) = prev i).
  { unfold reconnect_x, next, prev. split.
    - replace (i + 1 <? 0)%Z with false by lia. destruct (i =? n - 2)%Z eqn:E.
      + replace (n - 2 <? i + 1)%Z with true by lia. reflexivity.
      + replace (n - 2 <? i + 1)%Z with false by lia. reflexivity.
    - destruct (i =? 0)%Z eqn:E.
      + replace (i - 1 <? 0)%Z with true by lia. replace (n - 2 <? n - 2)%Z with false by lia. reflexivity.
      + replace (i - 1 <? 0)%Z with false by lia. replace (n - 2 <? i - 1)%Z with false by lia. reflexivity. }
  destruct R as [R1 R2]. split; [|split].
  - intros [F1 F2]. destruct k; cbn [c_sphere]; rewrite !cget_in by lia;
      (replace (qlt x (A i) || qlt (B i) x) with false; [reflexivity|]); symmetry; apply orb_false_iff; split; apply qlt_false; assumption.
  - intros U. cbn [c_sphere]. rewrite !cget_in by lia. apply qlt_spec in U. rewrite U, orb_true_r, R1. reflexivity.
  - intros [D1 D2]. cbn [c_sphere]. rewrite !cget_in by lia. apply qlt_spec in D1. apply qlt_false in D2. rewrite D1, D2. cbn [orb].
    rewrite R2. reflexivity.
Qed.

Hypothesis up_on : forall i, (0 <= i <= n - 2)%Z -> cell_up i -> ~ cell_down (next i).
Hypothesis down_on : forall i, (0 <= i <= n - 2)%Z -> cell_down i -> ~ cell_up (prev i).
Variable t : Z.
Hypothesis T : (0 <= t <= n - 2)%Z.
Hypothesis Tf : cell_found t.

Definition found_at (r : option (option (Z * Q))) : Prop :=
  exists j, (0 <= j <= n - 2)%Z /\ cell_found j /\ r = Some (Some (j, (x - A j) / (B j - A j))).

Definition up_dist (i : Z) : Z := if (i <=? t)%Z then (t - i)%Z else (t - i + (n - 1))%Z.
Definition down_dist (i : Z) : Z := if (t <=? i)%Z then (i - t)%Z else (i - t + (n - 1))%Z.

Lemma walk_up d : forall i k, (0 <= i <= n - 2)%Z -> ~ cell_down i -> up_dist i = Z.of_nat d -> (d <= k)%nat ->
  found_at (c_sphere k l x i).
Proof.
  induction d as [|d IH]; intros i k I ND D K.
  - assert (i = t) by (unfold up_dist in D; destruct (i <=? t)%Z eqn:E; lia). subst i.
    exists t. split; [exact T|]. split; [exact Tf|]. apply (sphere_step t k T). exact Tf.
  - destruct (cell_cases i) as [F|[U|Dn]]; [|  |contradiction].
    + exists i. split; [exact I|]. split; [exact F|]. apply (sphere_step i k I). exact F.
    + destruct k as [|k]; [lia|]. destruct (sphere_step i k I) as (_ & SU & _). rewrite (SU U).
      apply IH; [apply next_range; exact I|apply up_on; assumption| |lia].
      assert (i <> t).
      { intros ->. destruct Tf. unfold cell_up in U. lra. }
      unfold up_dist, next in *. destruct (i =? n - 2)%Z eqn:E1, (i <=? t)%Z eqn:E2; try lia.
      * replace (0 <=? t)%Z with true by lia. lia.
      * replace (i + 1 <=? t)%Z with true by lia. lia.
      * replace (i + 1 <=? t)%Z with false by lia. lia.
Qed.

Lemma walk_down d : forall i k, (0 <= i <= n - 2)%Z -> ~ cell_up i -> down_dist i = Z.of_nat d -> (d <= k)%nat ->
  found_at (c_sphere k l x i).
Proof.
  induction d as [|d IH]; intros i k I ND D K.
  - assert (i = t) by (unfold down_dist in D; destruct (t <=? i)%Z eqn:E; lia). subst i.
    exists t. split; [exact T|]. split; [exact Tf|]. apply (sphere_step t k T). exact Tf.
  - destruct (cell_cases i) as [F|[U|Dn]]; [|contradiction|].
    + exists i. split; [exact I|]. split; [exact F|]. apply (sphere_step i k I). exact F.
    + destruct k as [|k]; [lia|]. destruct (sphere_step i k I) as (_ & _ & SU). rewrite (SU Dn).
      apply IH; [apply prev_range; exact I|apply down_on; assumption| |lia].
      assert (i <> t).
      { intros ->. destruct Tf, Dn. lra. }
      unfold down_dist, prev in *. destruct (i =? 0)%Z eqn:E1, (t <=? i)%Z eqn:E2; try lia.
      * replace (t <=? n - 2)%Z with true by lia. lia.
      * replace (t <=? i - 1)%Z with true by lia. lia.
      * replace (t <=? i - 1)%Z with false by lia. lia.
Qed.

Lemma walk_finds i k : (0 <= i <= n - 2)%Z -> (n - 2 <= Z.of_nat k)%Z -> found_at (c_sphere k l x i).
Proof.
  intros I K. destruct (cell_cases i) as [F|[U|Dn]].
  - exists i. split; [exact I|]. split; [exact F|]. apply (sphere_step i k I). exact F.
  - apply (walk_up (Z.to_nat (up_dist i)) i k I).
    + intros [D1 D2]. unfold cell_up in U. lra.
    + unfold up_dist. destruct (i <=? t)%Z eqn:E; lia.
    + unfold up_dist. destruct (i <=? t)%Z eqn:E; lia.
  - apply (walk_down (Z.to_nat (down_dist i)) i k I).
    + unfold cell_up. intros U. destruct Dn. lra.
    + unfold down_dist. destruct (t <=? i)%Z eqn:E; lia.
    + unfold down_dist. destruct (t <=? i)%Z eqn:E; lia.
Qed.
End Walk.

(** Whatever the axis, the search only returns cells of it, and never reads outside it. *)
Lemma sphere_safe l x k : forall i, (0 <= i <= zlen l - 2)%Z ->
  c_sphere k l x i = Some None \/ found_at l x (c_sphere k l x i).
Proof.
  induction k as [|k IH]; intros i I.
  - destruct (cell_cases l x i) as [F|[U|[D1 D2]]].
    + right. exists i. split; [exact I|]. split; [exact F|]. apply (sphere_step l x i 0 I). exact F.
    + left. cbn [c_sphere]. rewrite !cget_in by lia. apply qlt_spec in U. rewrite U, orb_true_r. reflexivity.
    + left. cbn [c_sphere]. rewrite !cget_in by lia. apply qlt_spec in D1. rewrite D1. reflexivity.
  - destruct (sphere_step l x i k I) as (S1 & S2 & S3). destruct (sphere_step l x i (S k) I) as (S1' & _ & _).
    destruct (cell_cases l x i) as [F|[U|D]].
    + right. exists i. split; [exact I|]. split; [exact F|]. apply S1'. exact F.
    + rewrite (S2 U). apply IH. apply next_range. exact I.
    + rewrite (S3 D). apply IH. apply prev_range. exact I.
Qed.

(** ** Increasing axes, also wider than the circle (halos) *)
Lemma near_x_cases v x : (v < x - 225 /\ near_x v x == v + 360 /\ v + 360 <= x + 225) \/ (x + 225 < v /\ near_x v x == v - 360) \/
  (x - 225 <= v <= x + 225 /\ near_x v x == v).
Proof.
  unfold near_x. destruct (qlt v (x - 225)) eqn:E1.
  - apply qlt_spec in E1. destruct (qlt (x + 225) (v + 360)) eqn:E2; [apply qlt_spec in E2; lra|]. left. apply qlt_false in E2. lra.
  - apply qlt_false in E1. destruct (qlt (x + 225) v) eqn:E2; [apply qlt_spec in E2; right; left; lra|apply qlt_false in E2; right; right; lra].
Qed.

Lemma near_cell_is v a w : v == a + w \/ v == a + w - 360 \/ v == a + w + 360 -> 0 < w -> w <= 135 -> near_cell v a == a + w.
Proof.
  intros H P N. unfold near_cell. destruct (qlt v (a - 180)) eqn:E1.
  - apply qlt_spec in E1. destruct (qlt (a + 180) (v + 360)) eqn:E2; [apply qlt_spec in E2|apply qlt_false in E2]; destruct H as [H|[H|H]]; lra.
  - apply qlt_false in E1. destruct (qlt (a + 180) v) eqn:E2; [apply qlt_spec in E2|apply qlt_false in E2]; destruct H as [H|[H|H]]; lra.
Qed.

Section Increasing.
Variables (l : list Q) (x : Q).
Hypothesis I : increasing l.
Hypothesis L : (1 < zlen l)%Z.
Hypothesis N : narrow_cells l.

Lemma inc_cell i : (0 <= i)%Z -> (i + 1 < zlen l)%Z ->
  near_cell (at_ l (i + 1)) (near_x (at_ l i) x) == near_x (at_ l i) x + (at_ l (i + 1) - at_ l i).
Proof.
  intros I0 I1. specialize (N i I0 I1). pose proof (I i (i + 1)%Z ltac:(lia) ltac:(lia)).
  apply near_cell_is; [|lra|lra]. destruct (near_x_cases (at_ l i) x) as [(_ & E & _)|[(_ & E)|(_ & E)]]; rewrite E.
  - right. left. lra.
  - right. right. lra.
  - left. lra.
Qed.

Lemma inc_found_cell j : (0 <= j <= zlen l - 2)%Z -> cell_found l x j ->
  exists c, (c = 0 \/ c = 360 \/ c = -360) /\
  in_cell l (x - c) j ((x - near_x (at_ l j) x) / (near_cell (at_ l (j + 1)) (near_x (at_ l j) x) - near_x (at_ l j) x)) /\
  near_x (at_ l j) x == at_ l j + c.
Proof.
  intros J [F1 F2]. pose proof (inc_cell j ltac:(lia) ltac:(lia)) as E. rewrite E in F2.
  pose proof (I j (j + 1)%Z ltac:(lia) ltac:(lia)) as W.
  assert (C : exists c, (c = 0 \/ c = 360 \/ c = -360) /\ near_x (at_ l j) x == at_ l j + c).
  { destruct (near_x_cases (at_ l j) x) as [(_ & E' & _)|[(_ & E')|(_ & E')]].
    - exists 360. split; [auto|]. lra.
    - exists (-360). split; [auto|]. lra.
    - exists 0. split; [auto|]. lra. }
  destruct C as (c & C1 & C2). exists c. split; [exact C1|]. split; [|exact C2].
  split; [lia|]. split; [lia|].
  assert (R : (x - near_x (at_ l j) x) / (near_cell (at_ l (j + 1)) (near_x (at_ l j) x) - near_x (at_ l j) x) ==
              (x - c - at_ l j) / (at_ l (j + 1) - at_ l j)).
  { rewrite E, C2. apply Qmult_comp; [ring|]. apply Qinv_comp. ring. }
  rewrite R. destruct (rel_up (at_ l j) (at_ l (j + 1)) (x - c) W) as (A1 & A2 & A3); [lra|].
  split; [exact A1|]. split; [exact A2|]. exact A3.
Qed.

Lemma target_inc v : first_ l <= v <= last_ l -> exists t, (0 <= t)%Z /\ (t + 1 < zlen l)%Z /\ at_ l t <= v <= at_ l (t + 1).
Proof.
  intros V. destruct (py_axis_spec l v I L V) as (i & r & _ & (A & B & C & D & E)).
  exists i. split; [exact A|]. split; [exact B|]. pose proof (I i (i + 1)%Z ltac:(lia) ltac:(lia)). split; nra.
Qed.

Hypothesis W : last_ l - first_ l <= 450.
Variable J : Z.
Hypothesis HJ : (J = 0 \/ J = 1 \/ J = -1)%Z.
Hypothesis X : first_ l + 360 * inject_Z J <= x <= last_ l + 360 * inject_Z J.

Lemma sphere_finds i k : (0 <= i <= zlen l - 2)%Z -> (zlen l - 2 <= Z.of_nat k)%Z -> found_at l x (c_sphere k l x i).
Proof.
  assert (FI : forall j, (0 <= j < zlen l)%Z -> first_ l <= at_ l j) by (intros j Hj; apply inc_le; [exact I|lia..]).
  assert (LA : forall j, (0 <= j < zlen l)%Z -> at_ l j <= last_ l) by (intros j Hj; apply inc_le; [exact I|lia..]).
  assert (XJ : J = 0%Z /\ first_ l <= x <= last_ l \/ J = 1%Z /\ first_ l + 360 <= x <= last_ l + 360 \/
               J = (-1)%Z /\ first_ l - 360 <= x <= last_ l - 360).
  { destruct HJ as [E|[E|E]]; rewrite E in X; unfold inject_Z in X; [left|right; left|right; right]; (split; [exact E|lra]). }
  destruct (target_inc (x - 360 * inject_Z J)) as (t & T0 & T1 & T2); [lra|].
  pose proof (I t (t + 1)%Z ltac:(lia) ltac:(lia)) as WT. pose proof (N t T0 T1) as NT.
  intros Hi Hk.
  assert (FT : cell_found l x t).
  { unfold cell_found. rewrite (inc_cell t T0 T1).
    destruct (near_x_cases (at_ l t) x) as [(C & E & _)|[(C & E)|(C & E)]]; rewrite E;
      destruct XJ as [(-> & Y)|[(-> & Y)|(-> & Y)]]; unfold inject_Z in T2; lra. }
  apply (walk_finds l x) with (t := t); [| |lia|exact FT|exact Hi|exact Hk].
  - clear i k Hi Hk. intros i Hi U [D1 D2]. unfold cell_up in U. rewrite (inc_cell i ltac:(lia) ltac:(lia)) in U.
    pose proof (I i (i + 1)%Z ltac:(lia) ltac:(lia)) as Wi. pose proof (N i ltac:(lia) ltac:(lia)) as Ni. clear D2.
    unfold next in D1. destruct (i =? zlen l - 2)%Z eqn:Ei.
    + assert (i + 1 = zlen l - 1)%Z by lia. assert (EL : at_ l (i + 1) = last_ l) by (unfold last_; congruence). rewrite EL in *.
      change (at_ l 0) with (first_ l) in D1. pose proof (FI i ltac:(lia)).
      destruct (near_x_cases (first_ l) x) as [(C & E & C')|[(C & E)|(C & E)]]; rewrite E in D1;
      destruct (near_x_cases (at_ l i) x) as [(C2 & E2 & C2')|[(C2 & E2)|(C2 & E2)]]; rewrite E2 in U;
      destruct XJ as [(_ & Y)|[(_ & Y)|(_ & Y)]]; lra.
    + destruct (near_x_cases (at_ l (i + 1)) x) as [(C & E & C')|[(C & E)|(C & E)]]; rewrite E in D1;
      destruct (near_x_cases (at_ l i) x) as [(C2 & E2 & C2')|[(C2 & E2)|(C2 & E2)]]; rewrite E2 in U;
      destruct XJ as [(_ & Y)|[(_ & Y)|(_ & Y)]]; lra.
  - clear i k Hi Hk. intros i Hi [D1 D2] U. unfold cell_up in U.
    rewrite (inc_cell (prev l i)) in U; [|unfold prev; destruct (i =? 0)%Z eqn:Ei; lia..].
    pose proof (I i (i + 1)%Z ltac:(lia) ltac:(lia)) as Wi. pose proof (N i ltac:(lia) ltac:(lia)) as Ni. clear D2.
    unfold prev in U. destruct (i =? 0)%Z eqn:Ei.
    + assert (i = 0)%Z by lia. subst i. change (at_ l 0) with (first_ l) in *.
      replace (zlen l - 2 + 1)%Z with (zlen l - 1)%Z in U by lia. change (at_ l (zlen l - 1)) with (last_ l) in U.
      pose proof (I (zlen l - 2)%Z (zlen l - 1)%Z ltac:(lia) ltac:(lia)) as WL. pose proof (N (zlen l - 2)%Z ltac:(lia) ltac:(lia)) as NL.
      replace (zlen l - 2 + 1)%Z with (zlen l - 1)%Z in NL by lia. change (at_ l (zlen l - 1)) with (last_ l) in *.
      pose proof (FI (zlen l - 2)%Z ltac:(lia)).
      destruct (near_x_cases (first_ l) x) as [(C & E & C')|[(C & E)|(C & E)]]; rewrite E in D1;
      destruct (near_x_cases (at_ l (zlen l - 2)) x) as [(C2 & E2 & C2')|[(C2 & E2)|(C2 & E2)]]; rewrite E2 in U;
      destruct XJ as [(_ & Y)|[(_ & Y)|(_ & Y)]]; lra.
    + replace (i - 1 + 1)%Z with i in U by lia.
      pose proof (I (i - 1)%Z i ltac:(lia) ltac:(lia)) as WL. pose proof (N (i - 1)%Z ltac:(lia) ltac:(lia)) as NL.
      replace (i - 1 + 1)%Z with i in NL by lia.
      destruct (near_x_cases (at_ l i) x) as [(C & E & C')|[(C & E)|(C & E)]]; rewrite E in D1;
      destruct (near_x_cases (at_ l (i - 1)) x) as [(C2 & E2 & C2')|[(C2 & E2)|(C2 & E2)]]; rewrite E2 in U;
      destruct XJ as [(_ & Y)|[(_ & Y)|(_ & Y)]]; lra.
Qed.
End Increasing.

(** ** Axes that pass from 180 to -180 *)
Section Wrapped.
Variables (l m : list Q) (k : Z) (x : Q).
Hypothesis WR : wraps l m k.
Hypothesis I : increasing m.
Hypothesis N : narrow_cells m.
Hypothesis D : last_ m - first_ m < 360.
Hypothesis X : at_ m k - 360 <= x <= at_ m (k - 1).

Lemma wr_len : zlen m = zlen l. Proof. apply WR. Qed.
Lemma wr_k : (1 <= k < zlen l)%Z. Proof. apply WR. Qed.
Lemma wr_lo i : (0 <= i < k)%Z -> at_ l i == at_ m i.
Proof. intros H. destruct WR as (_ & K & W). rewrite (W i ltac:(lia)). replace (i <? k)%Z with true by lia. ring. Qed.
Lemma wr_hi i : (k <= i < zlen l)%Z -> at_ l i == at_ m i - 360.
Proof. intros H. destruct WR as (_ & K & W). rewrite (W i ltac:(lia)). replace (i <? k)%Z with false by lia. ring. Qed.

(** Where a node is, relative to [x]. *)
Lemma wr_node i : (0 <= i < zlen l)%Z ->
  first_ m <= at_ m i <= last_ m /\
  (((i < k)%Z /\ at_ l i == at_ m i /\ at_ m i <= at_ m (k - 1)) \/ ((k <= i)%Z /\ at_ l i == at_ m i - 360 /\ at_ m k <= at_ m i)).
Proof.
  intros H. pose proof wr_len. pose proof wr_k. split.
  - split; apply inc_le; try exact I; lia.
  - destruct (Z.lt_ge_cases i k) as [C|C].
    + left. split; [exact C|]. split; [apply wr_lo; lia|apply inc_le; [exact I|lia..]].
    + right. split; [exact C|]. split; [apply wr_hi; lia|apply inc_le; [exact I|lia..]].
Qed.

Lemma wr_ends : first_ m <= at_ m (k - 1) /\ at_ m (k - 1) < at_ m k /\ at_ m k <= last_ m.
Proof.
  pose proof wr_len. pose proof wr_k. split; [apply inc_le; [exact I|lia..]|]. split; [apply I; lia|]. apply inc_le; [exact I|lia..].
Qed.

Lemma wr_cell i : (0 <= i)%Z -> (i + 1 < zlen l)%Z ->
  near_cell (at_ l (i + 1)) (near_x (at_ l i) x) == near_x (at_ l i) x + (at_ m (i + 1) - at_ m i).
Proof.
  intros I0 I1. pose proof wr_len. pose proof (N i I0 ltac:(lia)). pose proof (I i (i + 1)%Z ltac:(lia) ltac:(lia)).
  pose proof wr_ends. destruct (wr_node i ltac:(lia)) as (NA & NB). destruct (wr_node (i + 1) ltac:(lia)) as (NC & ND).
  apply near_cell_is; [|lra|lra].
  destruct (near_x_cases (at_ l i) x) as [(C & E & _)|[(C & E)|(C & E)]]; rewrite E;
    destruct NB as [(K1 & B1 & B2)|(K1 & B1 & B2)], ND as [(K2 & C1 & C2)|(K2 & C1 & C2)]; try lia; rewrite B1, C1 in *;
    try (left; lra); try (right; left; lra); try (right; right; lra).
Qed.

Lemma wr_found_cell j : (0 <= j <= zlen l - 2)%Z -> cell_found l x j ->
  exists J : Z, (-2 <= J <= 2)%Z /\
  in_cell m (x - 360 * inject_Z J) j ((x - near_x (at_ l j) x) / (near_cell (at_ l (j + 1)) (near_x (at_ l j) x) - near_x (at_ l j) x)).
Proof.
  intros HJ [F1 F2]. pose proof wr_len. pose proof (wr_cell j ltac:(lia) ltac:(lia)) as E. rewrite E in F2.
  pose proof (I j (j + 1)%Z ltac:(lia) ltac:(lia)) as W.
  assert (C : exists J : Z, (-2 <= J <= 2)%Z /\ near_x (at_ l j) x == at_ m j + 360 * inject_Z J).
  { destruct (wr_node j ltac:(lia)) as (_ & [(_ & B & _)|(_ & B & _)]);
      destruct (near_x_cases (at_ l j) x) as [(_ & E' & _)|[(_ & E')|(_ & E')]].
    - exists 1%Z. split; [lia|]. rewrite E', B. unfold inject_Z. lra.
    - exists (-1)%Z. split; [lia|]. rewrite E', B. unfold inject_Z. lra.
    - exists 0%Z. split; [lia|]. rewrite E', B. unfold inject_Z. lra.
    - exists 0%Z. split; [lia|]. rewrite E', B. unfold inject_Z. lra.
    - exists (-2)%Z. split; [lia|]. rewrite E', B. unfold inject_Z. lra.
    - exists (-1)%Z. split; [lia|]. rewrite E', B. unfold inject_Z. lra. }
  destruct C as (J & C1 & C2). exists J. split; [exact C1|]. split; [lia|]. split; [lia|].
  set (c := 360 * inject_Z J) in *.
  assert (R : (x - near_x (at_ l j) x) / (near_cell (at_ l (j + 1)) (near_x (at_ l j) x) - near_x (at_ l j) x) ==
              (x - c - at_ m j) / (at_ m (j + 1) - at_ m j)).
  { rewrite E, C2. apply Qmult_comp; [ring|]. apply Qinv_comp. ring. }
  rewrite R. destruct (rel_up (at_ m j) (at_ m (j + 1)) (x - c) W) as (A1 & A2 & A3); [lra|].
  split; [exact A1|]. split; [exact A2|]. exact A3.
Qed.

Variable J : Z.
Hypothesis XJ : first_ m <= x - 360 * inject_Z J <= last_ m.

Lemma wr_J : J = 0%Z /\ first_ m <= x \/ J = (-1)%Z /\ x <= last_ m - 360.
Proof.
  pose proof wr_ends. pose proof wr_k. 
  assert (U : inject_Z J < 1). { nra. }
  assert (V : -(2) < inject_Z J). { nra. }
  change 1 with (inject_Z 1) in U. rewrite <- Zlt_Qlt in U. change (-(2)) with (inject_Z (-2)) in V. rewrite <- Zlt_Qlt in V.
  assert (C : (J = 0 \/ J = -1)%Z) by lia. destruct C as [-> | ->]; [left|right]; (split; [reflexivity|]); unfold inject_Z in XJ; lra.
Qed.

Lemma wrapped_finds i f : (0 <= i <= zlen l - 2)%Z -> (zlen l - 2 <= Z.of_nat f)%Z -> found_at l x (c_sphere f l x i).
Proof.
  pose proof wr_len as LEN. pose proof wr_k as K. pose proof wr_ends as EN.
  intros Hi Hf.
  destruct (target_inc m I ltac:(lia) (x - 360 * inject_Z J) XJ) as (t & T0 & T1 & T2).
  pose proof (I t (t + 1)%Z ltac:(lia) ltac:(lia)) as WT. pose proof (N t T0 T1) as NT.
  assert (FT : cell_found l x t).
  { unfold cell_found. rewrite (wr_cell t T0 ltac:(lia)).
    destruct (wr_node t ltac:(lia)) as (NA & NB).
    destruct (near_x_cases (at_ l t) x) as [(C & E & _)|[(C & E)|(C & E)]]; rewrite E;
      destruct NB as [(K1 & B1 & B2)|(K1 & B1 & B2)]; rewrite B1 in *;
      destruct wr_J as [(-> & Y)|(-> & Y)]; unfold inject_Z in T2; lra. }
  apply (walk_finds l x) with (t := t); [| |lia|exact FT|exact Hi|exact Hf].
  - clear i f Hi Hf. intros i Hi U [D1 D2]. unfold cell_up in U. rewrite (wr_cell i ltac:(lia) ltac:(lia)) in U.
    pose proof (I i (i + 1)%Z ltac:(lia) ltac:(lia)) as Wi. pose proof (N i ltac:(lia) ltac:(lia)) as Ni. clear D2.
    destruct (wr_node i ltac:(lia)) as (NA & NB). destruct (wr_node (i + 1) ltac:(lia)) as (NC & ND).
    unfold next in D1. destruct (i =? zlen l - 2)%Z eqn:Ei.
    + assert (i + 1 = zlen m - 1)%Z by lia. assert (EL : at_ m (i + 1) = last_ m) by (unfold last_; congruence). rewrite EL in *.
      pose proof (wr_lo 0 ltac:(lia)) as L0. change (at_ m 0) with (first_ m) in L0.
      destruct (near_x_cases (at_ l 0) x) as [(C & E & C')|[(C & E)|(C & E)]]; rewrite E in D1; rewrite L0 in *;
      destruct (near_x_cases (at_ l i) x) as [(C2 & E2 & C2')|[(C2 & E2)|(C2 & E2)]]; rewrite E2 in U;
      destruct NB as [(K1 & B1 & B2)|(K1 & B1 & B2)]; rewrite B1 in *;
      destruct wr_J as [(_ & Y)|(_ & Y)]; try lra.
    + destruct (near_x_cases (at_ l (i + 1)) x) as [(C & E & C')|[(C & E)|(C & E)]]; rewrite E in D1;
      destruct (near_x_cases (at_ l i) x) as [(C2 & E2 & C2')|[(C2 & E2)|(C2 & E2)]]; rewrite E2 in U;
      destruct NB as [(K1 & B1 & B2)|(K1 & B1 & B2)], ND as [(K2 & G1 & G2)|(K2 & G1 & G2)]; try lia; rewrite B1, G1 in *;
      destruct wr_J as [(_ & Y)|(_ & Y)]; lra.
  - clear i f Hi Hf. intros i Hi [D1 D2] U. unfold cell_up in U.
    rewrite (wr_cell (prev l i)) in U; [|unfold prev; destruct (i =? 0)%Z eqn:Ei; lia..].
    pose proof (I i (i + 1)%Z ltac:(lia) ltac:(lia)) as Wi. pose proof (N i ltac:(lia) ltac:(lia)) as Ni. clear D2.
    destruct (wr_node i ltac:(lia)) as (NA & NB).
    unfold prev in U. destruct (i =? 0)%Z eqn:Ei.
    + assert (i = 0)%Z by lia. subst i. clear NB.
      pose proof (wr_lo 0 ltac:(lia)) as L0. change (at_ m 0) with (first_ m) in *.
      replace (zlen l - 2 + 1)%Z with (zlen m - 1)%Z in U by lia. change (at_ m (zlen m - 1)) with (last_ m) in U.
      pose proof (I (zlen l - 2)%Z (zlen m - 1)%Z ltac:(lia) ltac:(lia)) as WL. pose proof (N (zlen l - 2)%Z ltac:(lia) ltac:(lia)) as NL.
      replace (zlen l - 2 + 1)%Z with (zlen m - 1)%Z in NL by lia. change (at_ m (zlen m - 1)) with (last_ m) in *.
      destruct (wr_node (zlen l - 2) ltac:(lia)) as (NC & ND).
      destruct (near_x_cases (at_ l 0) x) as [(C & E & C')|[(C & E)|(C & E)]]; rewrite E in D1; rewrite L0 in *;
      destruct (near_x_cases (at_ l (zlen l - 2)) x) as [(C2 & E2 & C2')|[(C2 & E2)|(C2 & E2)]]; rewrite E2 in U;
      destruct ND as [(K2 & G1 & G2)|(K2 & G1 & G2)]; rewrite G1 in *;
      destruct wr_J as [(_ & Y)|(_ & Y)]; lra.
    + replace (i - 1 + 1)%Z with i in U by lia.
      pose proof (I (i - 1)%Z i ltac:(lia) ltac:(lia)) as WL. pose proof (N (i - 1)%Z ltac:(lia) ltac:(lia)) as NL.
      replace (i - 1 + 1)%Z with i in NL by lia.
      destruct (wr_node (i - 1) ltac:(lia)) as (NC & ND).
      destruct (near_x_cases (at_ l i) x) as [(C & E & C')|[(C & E)|(C & E)]]; rewrite E in D1;
      destruct (near_x_cases (at_ l (i - 1)) x) as [(C2 & E2 & C2')|[(C2 & E2)|(C2 & E2)]]; rewrite E2 in U;
      destruct NB as [(K1 & B1 & B2)|(K1 & B1 & B2)], ND as [(K2 & G1 & G2)|(K2 & G1 & G2)]; try lia; rewrite B1, G1 in *;
      destruct wr_J as [(_ & Y)|(_ & Y)]; lra.
Qed.
End Wrapped.

(** ** Scipy mode: [lon_fixed] *)
Lemma in_cell_shift l' l c x i r : zlen l' = zlen l -> (forall j, (0 <= j < zlen l)%Z -> at_ l' j == at_ l j + c) ->
  in_cell l' x i r -> in_cell l (x - c) i r.
Proof.
  intros L E (A & B & C & D & F). rewrite L in B. split; [exact A|]. split; [exact B|]. split; [exact C|]. split; [exact D|].
  rewrite F, (E i ltac:(lia)), (E (i + 1)%Z ltac:(lia)). ring.
Qed.

Lemma shift_increasing l' l c : zlen l' = zlen l -> (forall j, (0 <= j < zlen l)%Z -> at_ l' j == at_ l j + c) ->
  increasing l -> increasing l'.
Proof.
  intros L E I i j A B. rewrite L in B. rewrite (E i ltac:(lia)), (E j ltac:(lia)). specialize (I i j A B). lra.
Qed.

Lemma at_map_add l c j : (0 <= j < zlen l)%Z -> at_ (map (fun v => v - c) l) j == at_ l j + - c.
Proof.
  intros J. unfold at_, zlen in *. rewrite (nth_indep _ 0 (0 - c)) by (rewrite map_length; lia).
  rewrite (map_nth (fun v => v - c)). ring.
Qed.

Lemma hd_at l : (1 <= zlen l)%Z -> hd 0 l = at_ l 0.
Proof. destruct l; [unfold zlen; cbn; lia|reflexivity]. Qed.

(** The longitudes after the first repair (360 added after the jump). *)
Definition unwrap (l : list Q) : list Q :=
  let l0 := hd 0 l in
  let ge := map (fun v => qle l0 v) l in
  if np_all ge then l
  else let k := Z.to_nat (np_argmin ge) in firstn k l ++ map (fun v => v + 360) (skipn k l).

Lemma lon_fixed_eq l x : lon_fixed l x = if qlt x (hd 0 (unwrap l)) then map (fun v => v - 360) (unwrap l) else unwrap l.
Proof. reflexivity. Qed.

Lemma unwrap_inc l : (1 <= zlen l)%Z -> increasing l -> unwrap l = l.
Proof.
  intros L I. unfold unwrap. replace (np_all (map (fun v => qle (hd 0 l) v) l)) with true; [reflexivity|].
  symmetry. apply np_all_map. intros i Hi. apply qle_spec. rewrite hd_at by exact L. apply inc_le; [exact I|lia..].
Qed.

Lemma at_app l1 l2 i : (0 <= i)%Z -> at_ (l1 ++ l2) i = if (i <? zlen l1)%Z then at_ l1 i else at_ l2 (i - zlen l1).
Proof.
  intros Hi. unfold at_, zlen. destruct (i <? Z.of_nat (length l1))%Z eqn:E.
  - apply app_nth1. lia.
  - rewrite app_nth2 by lia. f_equal. lia.
Qed.

Lemma nth_skipn_ (l : list Q) : forall k i d, nth i (skipn k l) d = nth (k + i) l d.
Proof. induction l as [|a l IH]; intros [|k] i d; cbn; try reflexivity; [destruct i; reflexivity|apply IH]. Qed.
Lemma nth_firstn_ (l : list Q) : forall k i d, (i < k)%nat -> nth i (firstn k l) d = nth i l d.
Proof. induction l as [|a l IH]; intros [|k] i d H; cbn; try reflexivity; [lia|]. destruct i; [reflexivity|]. apply IH. lia. Qed.

Lemma unwrap_wraps l m k : wraps l m k -> increasing m -> last_ m - first_ m < 360 ->
  zlen (unwrap l) = zlen m /\ forall j, (0 <= j < zlen m)%Z -> at_ (unwrap l) j == at_ m j.
Proof.
  intros WR I D. pose proof WR as (LEN & K & W).
  assert (LO : forall i, (0 <= i < k)%Z -> at_ l i == at_ m i) by (apply (wr_lo l m k WR)).
  assert (HI : forall i, (k <= i < zlen l)%Z -> at_ l i == at_ m i - 360) by (apply (wr_hi l m k WR)).
  pose proof (LO 0%Z ltac:(lia)) as L0. change (at_ m 0) with (first_ m) in L0.
  assert (FI : forall i, (0 <= i < zlen m)%Z -> first_ m <= at_ m i <= last_ m) by (intros i Hi; split; apply inc_le; try exact I; lia).
  assert (GE : forall i, (0 <= i < zlen l)%Z -> qle (hd 0 l) (at_ l i) = (i <? k)%Z).
  { intros i Hi. rewrite hd_at by lia. destruct (i <? k)%Z eqn:E.
    - apply qle_spec. rewrite L0, (LO i ltac:(lia)). apply FI. lia.
    - apply qle_false. rewrite L0, (HI i ltac:(lia)). pose proof (FI i ltac:(lia)). lra. }
  set (f := fun v => qle (hd 0 l) v) in *.
  assert (NA : np_all (map f l) = false).
  { destruct (np_all (map f l)) eqn:E; [|reflexivity]. exfalso. rewrite np_all_map in E. specialize (E k ltac:(lia)).
    rewrite (GE k ltac:(lia)) in E. lia. }
  pose proof (np_argmin_map f l NA) as AM.
  assert (AK : np_argmin (map f l) = k).
  { destruct AM as (A1 & A2 & A3). rewrite (GE _ A1) in A2.
    destruct (Z.lt_trichotomy (np_argmin (map f l)) k) as [C|[C|C]]; [lia|exact C|].
    specialize (A3 k ltac:(lia)). rewrite (GE k ltac:(lia)) in A3. lia. }
  unfold unwrap. fold f. rewrite NA, AK.
  assert (LF : length (firstn (Z.to_nat k) l) = Z.to_nat k) by (apply firstn_length_le; unfold zlen in K; lia).
  split.
  - unfold zlen in *. rewrite app_length, map_length, skipn_length, LF. lia.
  - intros j Hj. rewrite at_app by lia. unfold zlen at 1. rewrite LF. destruct (j <? Z.of_nat (Z.to_nat k))%Z eqn:E.
    + unfold at_ at 1. rewrite nth_firstn_ by lia. apply LO. lia.
    + unfold zlen. rewrite LF. unfold at_ at 1. unfold zlen in K, LEN, Hj.
      rewrite (nth_indep _ 0 (0 + 360)) by (rewrite map_length, skipn_length; lia).
      rewrite (map_nth (fun v => v + 360)), nth_skipn_.
      replace (Z.to_nat k + Z.to_nat (j - Z.of_nat (Z.to_nat k)))%nat with (Z.to_nat j) by lia.
      change (nth (Z.to_nat j) l 0) with (at_ l j). rewrite (HI j); [ring|]. unfold zlen. lia.
Qed.

(** The search after the repair, whatever the axis before it. *)
Lemma py_fixed l m x : (1 < zlen m)%Z -> increasing m -> zlen (unwrap l) = zlen m -> (forall j, (0 <= j < zlen m)%Z -> at_ (unwrap l) j == at_ m j) ->
  (first_ m <= x <= last_ m -> exists i r, py_axis (lon_fixed l x) x = Some (i, r) /\ in_cell m x i r) /\
  (x < first_ m -> x <= last_ m - 360 -> first_ m - 360 <= x -> exists i r, py_axis (lon_fixed l x) x = Some (i, r) /\ in_cell m (x + 360) i r).
Proof.
  intros L I LE E.
  assert (E0 : forall j, (0 <= j < zlen m)%Z -> at_ (unwrap l) j == at_ m j + 0) by (intros j Hj; rewrite (E j Hj); ring).
  assert (IU : increasing (unwrap l)) by (apply (shift_increasing _ m 0 LE E0 I)).
  assert (F : first_ (unwrap l) == first_ m) by (apply E; lia).
  assert (LA : last_ (unwrap l) == last_ m) by (unfold last_; rewrite LE; apply E; lia).
  rewrite lon_fixed_eq, hd_at by lia. change (at_ (unwrap l) 0) with (first_ (unwrap l)). split.
  - intros X. replace (qlt x (first_ (unwrap l))) with false by (symmetry; apply qlt_false; rewrite F; apply X).
    destruct (py_axis_spec (unwrap l) x IU ltac:(lia)) as (i & r & P & C); [rewrite F, LA; exact X|].
    exists i, r. split; [exact P|]. pose proof (in_cell_shift _ m 0 x i r LE E0 C) as (A1 & A2 & A3 & A4 & A5).
    split; [exact A1|]. split; [exact A2|]. split; [exact A3|]. split; [exact A4|]. rewrite <- A5. ring.
  - intros X1 X2 X3. replace (qlt x (first_ (unwrap l))) with true by (symmetry; apply qlt_spec; rewrite F; exact X1).
    set (l2 := map (fun v => v - 360) (unwrap l)).
    assert (L2 : zlen l2 = zlen m) by (unfold l2; rewrite zlen_map; exact LE).
    assert (E2 : forall j, (0 <= j < zlen m)%Z -> at_ l2 j == at_ m j + (-360)).
    { intros j Hj. unfold l2. rewrite at_map_add by lia. rewrite (E j Hj). reflexivity. }
    assert (I2 : increasing l2) by (apply (shift_increasing _ m (-360) L2 E2 I)).
    destruct (py_axis_spec l2 x I2 ltac:(lia)) as (i & r & P & C).
    { unfold first_, last_. rewrite L2, (E2 0%Z ltac:(lia)), (E2 (zlen m - 1)%Z ltac:(lia)). unfold first_, last_ in *. lra. }
    exists i, r. split; [exact P|]. pose proof (in_cell_shift _ m (-360) x i r L2 E2 C) as (A1 & A2 & A3 & A4 & A5).
    split; [exact A1|]. split; [exact A2|]. split; [exact A3|]. split; [exact A4|]. rewrite <- A5. ring.
Qed.
