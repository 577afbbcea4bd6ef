From Coq Require Import List ZArith Bool QArith Qabs Lia Lqa ZifyBool.
From Verif Require Import IdxModel IdxSpec.
Import ListNotations.
Open Scope Q_scope.

(** ** Comparisons *)
Lemma qle_spec : forall a b, qle a b = true <-> a <= b.
Proof. intros. apply Qle_bool_iff. Qed.
Lemma qle_false : forall a b, qle a b = false <-> b < a.
Proof.
  intros a b. unfold qle. split; intros H.
  - apply Qnot_le_lt. intros L. apply Qle_bool_iff in L. congruence.
  - destruct (Qle_bool a b) eqn:E; [|reflexivity]. apply Qle_bool_iff in E. exfalso. apply (Qle_not_lt _ _ E). exact H.
Qed.
Lemma qlt_spec : forall a b, qlt a b = true <-> a < b.
Proof. intros. unfold qlt. rewrite negb_true_iff. apply (qle_false b a). Qed.
Lemma qlt_false : forall a b, qlt a b = false <-> b <= a.
Proof. intros. unfold qlt. rewrite negb_false_iff. apply Qle_bool_iff. Qed.

Ltac qcase a b := let E := fresh "E" in destruct (qlt a b) eqn:E; [apply qlt_spec in E|apply qlt_false in E].
Ltac qlecase a b := let E := fresh "E" in destruct (qle a b) eqn:E; [apply qle_spec in E|apply qle_false in E].

(** ** Reading *)
Lemma zlen_nonneg : forall A (l : list A), (0 <= zlen l)%Z.
Proof. intros. unfold zlen. lia. Qed.

Lemma cget_in : forall l i, (0 <= i < zlen l)%Z -> cget l i = Some (at_ l i).
Proof. intros l i H. unfold cget. replace ((0 <=? i)%Z && (i <? zlen l)%Z) with true by lia. reflexivity. Qed.
Lemma pyget_in : forall l i, (0 <= i < zlen l)%Z -> pyget l i = Some (at_ l i).
Proof. intros l i H. unfold pyget. replace (i <? 0)%Z with false by lia. apply cget_in. exact H. Qed.

Lemma py_rel_in : forall l i x, (0 <= i)%Z -> (i + 1 < zlen l)%Z ->
  py_rel l i x = Some ((x - at_ l i) / (at_ l (i + 1) - at_ l i)).
Proof. intros. unfold py_rel. rewrite !pyget_in by lia. reflexivity. Qed.
Lemma c_rel_in : forall l i x, (0 <= i)%Z -> (i + 1 < zlen l)%Z ->
  c_rel l i x = Some ((x - at_ l i) / (at_ l (i + 1) - at_ l i)).
Proof. intros. unfold c_rel. rewrite !cget_in by lia. reflexivity. Qed.

(** ** Relative coordinates *)
Lemma rel_up : forall a b x, a < b -> a <= x <= b ->
  0 <= (x - a) / (b - a) /\ (x - a) / (b - a) <= 1 /\ x == a + (x - a) / (b - a) * (b - a).
Proof.
  intros a b x AB [XA XB]. assert (P : 0 < b - a) by lra. repeat split.
  - apply Qle_shift_div_l; lra.
  - apply Qle_shift_div_r; lra.
  - field. lra.
Qed.
Lemma rel_down : forall a b x, b < a -> b <= x <= a ->
  0 <= (x - a) / (b - a) /\ (x - a) / (b - a) <= 1 /\ x == a + (x - a) / (b - a) * (b - a).
Proof.
  intros a b x AB [XB XA].
  assert (E : (x - a) / (b - a) == (a - x) / (a - b)) by (field; lra).
  assert (P : 0 < a - b) by lra. rewrite E. repeat split.
  - apply Qle_shift_div_l; lra.
  - apply Qle_shift_div_r; lra.
  - field. lra.
Qed.

Lemma in_cell_up : forall l i x, increasing l -> (0 <= i)%Z -> (i + 1 < zlen l)%Z ->
  at_ l i <= x <= at_ l (i + 1) -> in_cell l x i ((x - at_ l i) / (at_ l (i + 1) - at_ l i)).
Proof.
  intros l i x I I0 I1 B. assert (L : at_ l i < at_ l (i + 1)) by (apply I; lia).
  destruct (rel_up _ _ _ L B) as (A & C & D). repeat split; assumption.
Qed.
Lemma in_cell_down : forall l i x, decreasing l -> (0 <= i)%Z -> (i + 1 < zlen l)%Z ->
  at_ l (i + 1) <= x <= at_ l i -> in_cell l x i ((x - at_ l i) / (at_ l (i + 1) - at_ l i)).
Proof.
  intros l i x I I0 I1 B. assert (L : at_ l (i + 1) < at_ l i) by (apply I; lia).
  destruct (rel_down _ _ _ L B) as (A & C & D). repeat split; assumption.
Qed.

(** ** Boolean vectors *)
Lemma first_false_spec : forall bs k, first_false bs = Some k ->
  (0 <= k < zlen bs)%Z /\ nth (Z.to_nat k) bs true = false /\ forall j, (0 <= j < k)%Z -> nth (Z.to_nat j) bs false = true.
Proof.
  induction bs as [|[|] bs IH]; intros k E; cbn in E; [discriminate| |].
  - destruct (first_false bs) as [m|] eqn:F; [|discriminate]. inversion E; subst k; clear E.
    destruct (IH m eq_refl) as (A & B & C). unfold zlen in *. cbn [length]. split; [lia|]. split.
    + replace (Z.to_nat (m + 1)) with (S (Z.to_nat m)) by lia. exact B.
    + intros j J. destruct (Z.eq_dec j 0) as [->|NJ]; [reflexivity|].
      replace (Z.to_nat j) with (S (Z.to_nat (j - 1))) by lia. cbn. apply C. lia.
  - inversion E; subst k. unfold zlen. cbn [length]. split; [lia|]. split; [reflexivity|]. intros j J. lia.
Qed.
Lemma first_false_none : forall bs, first_false bs = None <-> np_all bs = true.
Proof.
  unfold np_all. induction bs as [|[|] bs IH]; cbn; [tauto| |split; discriminate].
  destruct (first_false bs); [|tauto]. split; [discriminate|]. intros H. apply IH in H. discriminate.
Qed.

Lemma zlen_map : forall A B (f : A -> B) l, zlen (map f l) = zlen l.
Proof. intros. unfold zlen. rewrite map_length. reflexivity. Qed.

Lemma nth_map_at : forall (f : Q -> bool) l i d, (0 <= i < zlen l)%Z -> nth (Z.to_nat i) (map f l) d = f (at_ l i).
Proof.
  intros f l i d H. unfold at_, zlen in *. rewrite (nth_indep _ d (f 0)) by (rewrite map_length; lia). apply map_nth.
Qed.

Lemma np_all_map : forall (f : Q -> bool) l, np_all (map f l) = true <-> forall i, (0 <= i < zlen l)%Z -> f (at_ l i) = true.
Proof.
  intros f l. unfold np_all. rewrite forallb_forall. split.
  - intros H i I. apply H. apply in_map_iff. exists (at_ l i). split; [reflexivity|]. apply nth_In. unfold zlen in I. lia.
  - intros H b B. apply in_map_iff in B. destruct B as (v & <- & V). destruct (In_nth l v 0 V) as (n & N & E).
    rewrite <- E. replace n with (Z.to_nat (Z.of_nat n)) by lia. apply H. unfold zlen. lia.
Qed.
Lemma np_any_map : forall (f : Q -> bool) l, np_any (map f l) = true <-> exists i, (0 <= i < zlen l)%Z /\ f (at_ l i) = true.
Proof.
  intros f l. unfold np_any. rewrite existsb_exists. split.
  - intros (b & B & T). apply in_map_iff in B. destruct B as (v & E & V). destruct (In_nth l v 0 V) as (n & N & EN).
    exists (Z.of_nat n). unfold zlen. split; [lia|]. unfold at_. rewrite Nat2Z.id, EN, E. exact T.
  - intros (i & I & T). exists true. split; [|reflexivity]. apply in_map_iff. exists (at_ l i). split; [exact T|].
    apply nth_In. unfold zlen in I. lia.
Qed.

Lemma np_argmin_map : forall (f : Q -> bool) l, np_all (map f l) = false ->
  let k := np_argmin (map f l) in
  (0 <= k < zlen l)%Z /\ f (at_ l k) = false /\ forall j, (0 <= j < k)%Z -> f (at_ l j) = true.
Proof.
  intros f l A. unfold np_argmin. destruct (first_false (map f l)) as [k|] eqn:E.
  - destruct (first_false_spec _ _ E) as (R & F & T). rewrite zlen_map in R. split; [exact R|]. split.
    + rewrite <- F. symmetry. apply nth_map_at. exact R.
    + intros j J. rewrite <- (T j J). symmetry. apply nth_map_at. lia.
  - apply first_false_none in E. congruence.
Qed.

Lemma inc_le : forall l i j, increasing l -> (0 <= i <= j)%Z -> (j < zlen l)%Z -> at_ l i <= at_ l j.
Proof.
  intros l i j I A B. destruct (Z.eq_dec i j) as [->|N]; [apply Qle_refl|]. apply Qlt_le_weak, I; lia.
Qed.
Lemma dec_le : forall l i j, decreasing l -> (0 <= i <= j)%Z -> (j < zlen l)%Z -> at_ l j <= at_ l i.
Proof.
  intros l i j I A B. destruct (Z.eq_dec i j) as [->|N]; [apply Qle_refl|]. apply Qlt_le_weak, I; lia.
Qed.

(** ** The Python search along one axis *)
Lemma py_axis_spec : forall l x, increasing l -> (1 < zlen l)%Z -> first_ l <= x <= last_ l ->
  exists i r, py_axis l x = Some (i, r) /\ in_cell l x i r.
Proof.
  intros l x I L [X0 XN]. unfold py_axis.
  set (f := fun v => qlt v x).
  assert (NA : np_all (map f l) = false).
  { destruct (np_all (map f l)) eqn:A; [|reflexivity]. rewrite np_all_map in A.
    specialize (A (zlen l - 1)%Z ltac:(lia)). unfold f in A. apply qlt_spec in A. unfold last_ in XN. lra. }
  rewrite NA.
  assert (CELL : forall i, (0 <= i)%Z -> (i + 1 < zlen l)%Z -> at_ l i <= x <= at_ l (i + 1) ->
    exists i' r, match py_rel l i x with
      | None => None
      | Some xsi =>
          if qlt xsi 0 then match py_rel l (i - 1) x with Some r => Some ((i - 1)%Z, r) | None => None end
          else if qlt 1 xsi then match py_rel l (i + 1) x with Some r => Some ((i + 1)%Z, r) | None => None end
          else Some (i, xsi)
      end = Some (i', r) /\ in_cell l x i' r).
  { intros i I0 I1 B. pose proof (in_cell_up l i x I I0 I1 B) as IC. rewrite py_rel_in by assumption.
    set (r := (x - at_ l i) / (at_ l (i + 1) - at_ l i)) in *. destruct IC as (A1 & A2 & A3 & A4 & A5).
    replace (qlt r 0) with false by (symmetry; apply qlt_false; exact A3).
    replace (qlt 1 r) with false by (symmetry; apply qlt_false; exact A4).
    exists i, r. split; [reflexivity|]. repeat split; assumption. }
  destruct (np_any (map f l)) eqn:ANY.
  - destruct (np_argmin_map f l NA) as (R & FK & TK). set (k := np_argmin (map f l)) in *.
    apply np_any_map in ANY. destruct ANY as (j & J & FJ).
    unfold f in FK, FJ. apply qlt_false in FK. apply qlt_spec in FJ.
    assert (KP : (0 < k)%Z).
    { destruct (Z_lt_le_dec 0 k) as [|C]; [assumption|]. exfalso. assert (k = 0)%Z by lia.
      rewrite H in FK. assert (Q1 : at_ l 0 <= at_ l j) by (apply inc_le; [exact I|lia..]). lra. }
    apply CELL; [lia..|]. replace (k - 1 + 1)%Z with k by lia. split; [|exact FK].
    specialize (TK (k - 1)%Z ltac:(lia)). apply qlt_spec in TK. lra.
  - assert (NF : qlt (at_ l 0) x = false).
    { destruct (qlt (at_ l 0) x) eqn:E; [|reflexivity]. exfalso.
      assert (T : np_any (map f l) = true) by (apply np_any_map; exists 0%Z; split; [lia|exact E]). congruence. }
    apply qlt_false in NF. apply CELL; [lia..|]. unfold first_ in X0. split; [lra|].
    assert (at_ l 0 < at_ l (0 + 1)) by (apply I; lia). lra.
Qed.

(** ** The C search along one axis *)
Definition monotone (dec : bool) (l : list Q) : Prop := if dec then decreasing l else increasing l.
Lemma before_spec : forall dec v x, before dec v x = true <-> (if dec then x < v else v < x).
Proof. intros [|] v x; cbn; apply qlt_spec. Qed.
Lemma before_false : forall dec v x, before dec v x = false <-> (if dec then v <= x else x <= v).
Proof. intros [|] v x; cbn; apply qlt_false. Qed.

Lemma c_up_spec : forall dec l x k i, (0 <= i <= zlen l - 1)%Z -> (zlen l - 1 - i <= Z.of_nat k)%Z ->
  exists j, c_up dec k l x i = Some j /\ (i <= j <= zlen l - 1)%Z /\
    (j = i \/ before dec (at_ l j) x = true) /\ (j = zlen l - 1 \/ before dec (at_ l (j + 1)) x = false)%Z.
Proof.
  intros dec l x. induction k as [|k IH]; intros i I K.
  - exists i. cbn [c_up]. split; [reflexivity|]. split; [lia|]. split; left; lia.
  - cbn [c_up]. destruct (i <? zlen l - 1)%Z eqn:E.
    + rewrite cget_in by lia. destruct (before dec (at_ l (i + 1)) x) eqn:B.
      * destruct (IH (i + 1)%Z ltac:(lia) ltac:(lia)) as (j & J1 & J2 & J3 & J4). exists j. split; [exact J1|].
        split; [lia|]. split; [|exact J4]. right. destruct J3 as [->|J3]; assumption.
      * exists i. split; [reflexivity|]. split; [lia|]. split; [left; reflexivity|right; exact B].
    + exists i. split; [reflexivity|]. split; [lia|]. split; left; [reflexivity|lia].
Qed.

Lemma c_down_spec : forall dec l x k i, (0 <= i <= zlen l - 1)%Z -> (i <= Z.of_nat k)%Z ->
  exists j, c_down dec k l x i = Some j /\ (0 <= j <= i)%Z /\
    (j = i \/ before dec x (at_ l (j + 1)) = true) /\ (j = 0%Z \/ before dec x (at_ l j) = false).
Proof.
  intros dec l x. induction k as [|k IH]; intros i I K.
  - exists i. cbn [c_down]. split; [reflexivity|]. split; [lia|]. split; left; lia.
  - cbn [c_down]. destruct (0 <? i)%Z eqn:E.
    + rewrite cget_in by lia. destruct (before dec x (at_ l i)) eqn:B.
      * destruct (IH (i - 1)%Z ltac:(lia) ltac:(lia)) as (j & J1 & J2 & J3 & J4). exists j. split; [exact J1|].
        split; [lia|]. split; [|exact J4]. right. destruct J3 as [->|J3]; [|assumption].
        replace (i - 1 + 1)%Z with i by lia. exact B.
      * exists i. split; [reflexivity|]. split; [lia|]. split; [left; reflexivity|right; exact B].
    + exists i. split; [reflexivity|]. split; [lia|]. split; left; [reflexivity|lia].
Qed.

(** x lies between the two ends of the axis, in the direction of the axis. *)
Definition between (dec : bool) (l : list Q) (x : Q) : Prop :=
  if dec then last_ l <= x <= first_ l else first_ l <= x <= last_ l.
Definition cell_between (dec : bool) (l : list Q) (x : Q) (i : Z) : Prop :=
  if dec then at_ l (i + 1) <= x <= at_ l i else at_ l i <= x <= at_ l (i + 1).

Lemma c_walk_spec : forall dec l x i, monotone dec l -> (1 < zlen l)%Z -> between dec l x ->
  (0 <= i <= zlen l - 1)%Z ->
  exists j, c_walk dec l x i = Some j /\
    (((0 <= j)%Z /\ (j + 1 < zlen l)%Z /\ cell_between dec l x j) \/ (j = (zlen l - 1)%Z /\ i = j /\ x == last_ l)).
Proof.
  intros dec l x i M L B I. unfold c_walk.
  destruct (c_up_spec dec l x (Z.to_nat (zlen l - 1 - i)) i I ltac:(lia)) as (j & -> & J1 & J2 & J3).
  destruct (c_down_spec dec l x (Z.to_nat j) j ltac:(lia) ltac:(lia)) as (m & -> & M1 & M2 & M3).
  exists m. split; [reflexivity|].
  destruct (Z.eq_dec m (zlen l - 1)) as [E|E].
  - destruct (Z.eq_dec i m) as [Eim|Nim].
    + right. split; [lia|]. split; [lia|]. destruct M3 as [M3|M3]; [lia|].
      apply before_false in M3. rewrite E in M3. unfold between, last_ in *. destruct dec; lra.
    + left. assert (j = m) by lia. subst j. destruct J2 as [J2|J2]; [lia|]. exfalso.
      apply before_spec in J2. rewrite E in J2. unfold between, last_ in B. destruct dec; lra.
  - left. split; [lia|]. split; [lia|].
    assert (UP : before dec (at_ l (m + 1)) x = false).
    { destruct (Z.eq_dec m j) as [->|N].
      - destruct J3 as [J3|J3]; [lia|exact J3].
      - destruct M2 as [M2|M2]; [lia|]. apply before_spec in M2. apply before_false. destruct dec; lra. }
    assert (DN : before dec x (at_ l m) = false).
    { destruct M3 as [->|M3]; [|exact M3]. apply before_false. unfold between, first_ in B. destruct dec; lra. }
    apply before_false in UP. apply before_false in DN. unfold cell_between. destruct dec; lra.
Qed.

Lemma c_axis_spec : forall l x i, increasing l -> (1 < zlen l)%Z -> first_ l <= x <= last_ l ->
  (0 <= i)%Z -> (i + 1 < zlen l)%Z -> exists j r, c_axis l x i = Some (j, r) /\ in_cell l x j r.
Proof.
  intros l x i I L B I0 I1. unfold c_axis.
  destruct (c_walk_spec false l x i I L B ltac:(lia)) as (j & -> & [(J0 & J1 & C)|(J & IJ & _)]); [|lia].
  rewrite c_rel_in by assumption. eexists. eexists. split; [reflexivity|]. apply in_cell_up; assumption.
Qed.

(** ** Ends of the axis *)
Lemma at_cons : forall a l i, (0 < i)%Z -> at_ (a :: l) i = at_ l (i - 1).
Proof. intros a l i H. unfold at_. replace (Z.to_nat i) with (S (Z.to_nat (i - 1))) by lia. reflexivity. Qed.

Lemma fold_min_spec : forall l m, fold_left qmin l m <= m /\ (forall v, In v l -> fold_left qmin l m <= v) /\
  (fold_left qmin l m = m \/ In (fold_left qmin l m) l).
Proof.
  induction l as [|a l IH]; intros m; cbn; [repeat split; [lra|contradiction|auto]|].
  destruct (IH (qmin m a)) as (A & B & C). assert (Q1 : qmin m a <= m /\ qmin m a <= a /\ (qmin m a = m \/ qmin m a = a)).
  { unfold qmin. qlecase m a; repeat split; auto; lra. }
  destruct Q1 as (Q1 & Q2 & Q3). split; [lra|]. split.
  - intros v [<-|V]; [lra|]. apply B. exact V.
  - destruct C as [C|C]; [|auto]. rewrite C. destruct Q3 as [->|Q3]; auto.
Qed.
Lemma fold_max_spec : forall l m, m <= fold_left qmax l m /\ (forall v, In v l -> v <= fold_left qmax l m) /\
  (fold_left qmax l m = m \/ In (fold_left qmax l m) l).
Proof.
  induction l as [|a l IH]; intros m; cbn; [repeat split; [lra|contradiction|auto]|].
  destruct (IH (qmax m a)) as (A & B & C). assert (Q1 : m <= qmax m a /\ a <= qmax m a /\ (qmax m a = m \/ qmax m a = a)).
  { unfold qmax. qlecase m a; repeat split; auto; lra. }
  destruct Q1 as (Q1 & Q2 & Q3). split; [lra|]. split.
  - intros v [<-|V]; [lra|]. apply B. exact V.
  - destruct C as [C|C]; [|auto]. rewrite C. destruct Q3 as [->|Q3]; auto.
Qed.
Lemma axis_min_spec : forall l, l <> [] -> In (axis_min l) l /\ forall v, In v l -> axis_min l <= v.
Proof.
  intros [|a l] N; [contradiction|]. unfold axis_min. destruct (fold_min_spec l a) as (A & B & C). split.
  - destruct C as [->|C]; [left; reflexivity|right; exact C].
  - intros v [<-|V]; [exact A|]. apply B. exact V.
Qed.
Lemma axis_max_spec : forall l, l <> [] -> In (axis_max l) l /\ forall v, In v l -> v <= axis_max l.
Proof.
  intros [|a l] N; [contradiction|]. unfold axis_max. destruct (fold_max_spec l a) as (A & B & C). split.
  - destruct C as [->|C]; [left; reflexivity|right; exact C].
  - intros v [<-|V]; [exact A|]. apply B. exact V.
Qed.
Lemma in_at : forall l v, In v l -> exists i, (0 <= i < zlen l)%Z /\ at_ l i = v.
Proof.
  intros l v V. destruct (In_nth l v 0 V) as (n & N & E). exists (Z.of_nat n). unfold zlen, at_. rewrite Nat2Z.id. split; [lia|exact E].
Qed.
Lemma at_in : forall l i, (0 <= i < zlen l)%Z -> In (at_ l i) l.
Proof. intros l i H. unfold at_, zlen in *. apply nth_In. lia. Qed.

Lemma axis_min_first : forall l, increasing l -> (1 <= zlen l)%Z -> axis_min l == first_ l.
Proof.
  intros l I L. assert (N : l <> []) by (intros ->; unfold zlen in L; cbn in L; lia).
  destruct (axis_min_spec l N) as [A B]. destruct (in_at _ _ A) as (i & J & E).
  assert (Q1 : axis_min l <= first_ l) by (apply B, at_in; lia).
  assert (Q2 : at_ l 0 <= at_ l i) by (apply inc_le; [exact I|lia..]). rewrite E in Q2. unfold first_ in *. lra.
Qed.
Lemma axis_max_last : forall l, increasing l -> (1 <= zlen l)%Z -> axis_max l == last_ l.
Proof.
  intros l I L. assert (N : l <> []) by (intros ->; unfold zlen in L; cbn in L; lia).
  destruct (axis_max_spec l N) as [A B]. destruct (in_at _ _ A) as (i & J & E).
  assert (Q1 : last_ l <= axis_max l) by (apply B, at_in; lia).
  assert (Q2 : at_ l i <= at_ l (zlen l - 1)) by (apply inc_le; [exact I|lia..]). rewrite E in Q2. unfold last_ in *. lra.
Qed.

Lemma outside_plain : forall g x y, plain g ->
  (outside g x y = false <-> inside (g_lon g) x /\ inside (g_lat g) y).
Proof.
  intros g x y (S & ZP & _ & [L1 I1] & [L2 I2] & _). unfold outside. rewrite ZP. cbn [negb]. rewrite andb_true_r.
  pose proof (axis_min_first _ I1 L1) as A1. pose proof (axis_max_last _ I1 L1) as A2.
  pose proof (axis_min_first _ I2 L2) as B1. pose proof (axis_max_last _ I2 L2) as B2.
  assert (ONE : forall l v, increasing l -> (1 <= zlen l)%Z -> axis_min l == first_ l -> axis_max l == last_ l ->
     ((1 <? zlen l)%Z && (qlt v (axis_min l) || qlt (axis_max l) v) = false <-> inside l v)).
  { intros l v Il Ll M1 M2. unfold inside. destruct (1 <? zlen l)%Z eqn:E; cbn [andb].
    - rewrite orb_false_iff, !qlt_false. split; [intros []; right; lra|]. intros [C|[]]; [lia|split; lra].
    - split; [left; lia|reflexivity]. }
  rewrite orb_false_iff, (ONE _ _ I1 L1 A1 A2), (ONE _ _ I2 L2 B1 B2). tauto.
Qed.

(** ** Depth *)
Lemma not_both : forall l, (1 < zlen l)%Z -> increasing l -> decreasing l -> False.
Proof. intros l L I D. specialize (I 0%Z 1%Z ltac:(lia) ltac:(lia)). specialize (D 0%Z 1%Z ltac:(lia) ltac:(lia)). lra. Qed.

Lemma inc_dir : forall l, (1 < zlen l)%Z -> increasing l -> first_ l < last_ l.
Proof. intros l L I. unfold first_, last_. apply I; lia. Qed.
Lemma dec_dir : forall l, (1 < zlen l)%Z -> decreasing l -> last_ l < first_ l.
Proof. intros l L I. unfold first_, last_. apply I; lia. Qed.

Lemma pyget_last : forall l, (1 <= zlen l)%Z -> pyget l (-1) = Some (last_ l).
Proof. intros l L. unfold pyget. cbn [Z.ltb Z.compare]. replace (-1 + zlen l)%Z with (zlen l - 1)%Z by lia. apply cget_in. lia. Qed.


Lemma py_vertical_spec : forall d z, (1 < zlen d)%Z -> increasing d \/ decreasing d ->
  (within d z -> exists i r, py_vertical_z false d z = VFound i r /\ in_cell d z i r) /\
  (above_first d z -> py_vertical_z false d z = VSurface) /\
  (below_last d z -> py_vertical_z false d z = VOut).
Proof.
  intros d z L M. unfold py_vertical_z. rewrite (pyget_in d 0), pyget_last by lia. fold (first_ d).
  assert (G1 : pyget d 1 = Some (at_ d 1)) by (apply pyget_in; lia). rewrite G1. cbn [andb].
  destruct M as [I|D].
  - pose proof (inc_dir d L I) as DIR. replace (qlt (first_ d) (last_ d)) with true by (symmetry; apply qlt_spec; exact DIR).
    split; [|split].
    + intros W. assert (B : first_ d <= z <= last_ d) by (destruct W; [assumption|lra]). clear W.
      replace (qlt z (first_ d)) with false by (symmetry; apply qlt_false; lra).
      replace (qlt (last_ d) z) with false by (symmetry; apply qlt_false; lra).
      replace (qle (first_ d) z) with true by (symmetry; apply qle_spec; lra).
      assert (CELL : forall i, (0 <= i)%Z -> (i + 1 < zlen d)%Z -> at_ d i <= z <= at_ d (i + 1) ->
        exists i' r, match py_rel d i z with Some r => VFound i r | None => VBad end = VFound i' r /\ in_cell d z i' r).
      { intros i I0 I1 C. rewrite py_rel_in by assumption. eexists. eexists. split; [reflexivity|]. apply in_cell_up; assumption. }
      qlecase (last_ d) z.
      * apply CELL; [lia..|]. replace (zlen d - 2 + 1)%Z with (zlen d - 1)%Z by lia. fold (last_ d). split; [|lra].
        assert (at_ d (zlen d - 2) < at_ d (zlen d - 1)) by (apply I; lia). unfold last_ in *. lra.
      * assert (NA : np_all (map (fun v => qle v z) d) = false).
        { destruct (np_all _) eqn:A; [|reflexivity]. rewrite np_all_map in A. specialize (A (zlen d - 1)%Z ltac:(lia)).
          apply qle_spec in A. unfold last_ in E. lra. }
        destruct (np_argmin_map _ d NA) as (R & FK & TK). set (k := np_argmin _) in *. apply qle_false in FK.
        assert (KP : (0 < k)%Z).
        { destruct (Z_lt_le_dec 0 k) as [|C]; [assumption|]. assert (K0 : k = 0%Z) by lia. rewrite K0 in FK. unfold first_ in B. lra. }
        apply CELL; [lia..|]. replace (k - 1 + 1)%Z with k by lia. specialize (TK (k - 1)%Z ltac:(lia)). apply qle_spec in TK. lra.
    + intros [_ [[_ A]|[A _]]]; [|exfalso; eapply not_both; eassumption].
      replace (qlt z (first_ d)) with true by (symmetry; apply qlt_spec; exact A). reflexivity.
    + intros [_ [[_ A]|[A _]]]; [|exfalso; eapply not_both; eassumption].
      replace (qlt z (first_ d)) with false by (symmetry; apply qlt_false; lra).
      replace (qlt (last_ d) z) with true by (symmetry; apply qlt_spec; exact A). reflexivity.
  - pose proof (dec_dir d L D) as DIR. replace (qlt (first_ d) (last_ d)) with false by (symmetry; apply qlt_false; lra).
    split; [|split].
    + intros W. assert (B : last_ d <= z <= first_ d) by (destruct W; [lra|assumption]). clear W.
      replace (qlt (first_ d) z) with false by (symmetry; apply qlt_false; lra).
      replace (qlt z (last_ d)) with false by (symmetry; apply qlt_false; lra).
      replace (qle z (first_ d)) with true by (symmetry; apply qle_spec; lra).
      assert (CELL : forall i, (0 <= i)%Z -> (i + 1 < zlen d)%Z -> at_ d (i + 1) <= z <= at_ d i ->
        exists i' r, match py_rel d i z with Some r => VFound i r | None => VBad end = VFound i' r /\ in_cell d z i' r).
      { intros i I0 I1 C. rewrite py_rel_in by assumption. eexists. eexists. split; [reflexivity|]. apply in_cell_down; assumption. }
      qlecase z (last_ d).
      * apply CELL; [lia..|]. replace (zlen d - 2 + 1)%Z with (zlen d - 1)%Z by lia. fold (last_ d). split; [lra|].
        assert (at_ d (zlen d - 1) < at_ d (zlen d - 2)) by (apply D; lia). unfold last_ in *. lra.
      * assert (NA : np_all (map (fun v => qle z v) d) = false).
        { destruct (np_all _) eqn:A; [|reflexivity]. rewrite np_all_map in A. specialize (A (zlen d - 1)%Z ltac:(lia)).
          apply qle_spec in A. unfold last_ in E. lra. }
        destruct (np_argmin_map _ d NA) as (R & FK & TK). set (k := np_argmin _) in *. apply qle_false in FK.
        assert (KP : (0 < k)%Z).
        { destruct (Z_lt_le_dec 0 k) as [|C]; [assumption|]. assert (K0 : k = 0%Z) by lia. rewrite K0 in FK. unfold first_ in B. lra. }
        apply CELL; [lia..|]. replace (k - 1 + 1)%Z with k by lia. specialize (TK (k - 1)%Z ltac:(lia)). apply qle_spec in TK. lra.
    + intros [_ [[A _]|[_ A]]]; [exfalso; eapply not_both; eassumption|].
      replace (qlt (first_ d) z) with true by (symmetry; apply qlt_spec; exact A). reflexivity.
    + intros [_ [[A _]|[_ A]]]; [exfalso; eapply not_both; eassumption|].
      replace (qlt (first_ d) z) with false by (symmetry; apply qlt_false; lra).
      replace (qlt z (last_ d)) with true by (symmetry; apply qlt_spec; exact A). reflexivity.
Qed.

Lemma c_vertical_spec : forall d z zi, (1 < zlen d)%Z -> increasing d \/ decreasing d -> (0 <= zi < zlen d)%Z ->
  (within d z -> exists i r, c_vertical_z false d z zi = VFound i r /\ in_cell d z i r) /\
  (above_first d z -> c_vertical_z false d z zi = VSurface) /\
  (below_last d z -> c_vertical_z false d z zi = VOut).
Proof.
  intros d z zi L M ZI. unfold c_vertical_z. rewrite (cget_in d 0), (cget_in d (zlen d - 1)) by lia.
  fold (first_ d) (last_ d). rewrite andb_false_r. cbn [andb].
  destruct M as [I|D].
  - pose proof (inc_dir d L I) as DIR. replace (qlt (first_ d) (last_ d)) with true by (symmetry; apply qlt_spec; exact DIR).
    split; [|split].
    + intros W. assert (B : first_ d <= z <= last_ d) by (destruct W; [assumption|lra]). clear W.
      replace (qlt z (first_ d)) with false by (symmetry; apply qlt_false; lra).
      replace (qlt (last_ d) z) with false by (symmetry; apply qlt_false; lra).
      destruct (c_walk_spec false d z zi I L B ltac:(lia)) as (j & -> & [(J0 & J1 & C)|(J & _ & E)]).
      * replace (j =? zlen d - 1)%Z with false by lia. rewrite c_rel_in by assumption.
        eexists. eexists. split; [reflexivity|]. apply in_cell_up; assumption.
      * replace (j =? zlen d - 1)%Z with true by lia. rewrite c_rel_in by lia.
        eexists. eexists. split; [reflexivity|]. apply in_cell_up; [assumption|lia..|].
        assert (at_ d (j - 1) < at_ d j) by (apply I; lia). replace (j - 1 + 1)%Z with j by lia. subst j. fold (last_ d) in *. lra.
    + intros [_ [[_ A]|[A _]]]; [|exfalso; eapply not_both; eassumption].
      replace (qlt z (first_ d)) with true by (symmetry; apply qlt_spec; exact A). reflexivity.
    + intros [_ [[_ A]|[A _]]]; [|exfalso; eapply not_both; eassumption].
      replace (qlt z (first_ d)) with false by (symmetry; apply qlt_false; lra).
      replace (qlt (last_ d) z) with true by (symmetry; apply qlt_spec; exact A). reflexivity.
  - pose proof (dec_dir d L D) as DIR. replace (qlt (first_ d) (last_ d)) with false by (symmetry; apply qlt_false; lra).
    split; [|split].
    + intros W. assert (B : last_ d <= z <= first_ d) by (destruct W; [lra|assumption]). clear W.
      replace (qlt (first_ d) z) with false by (symmetry; apply qlt_false; lra).
      replace (qlt z (last_ d)) with false by (symmetry; apply qlt_false; lra).
      destruct (c_walk_spec true d z zi D L B ltac:(lia)) as (j & -> & [(J0 & J1 & C)|(J & _ & E)]).
      * replace (j =? zlen d - 1)%Z with false by lia. rewrite c_rel_in by assumption.
        eexists. eexists. split; [reflexivity|]. apply in_cell_down; assumption.
      * replace (j =? zlen d - 1)%Z with true by lia. rewrite c_rel_in by lia.
        eexists. eexists. split; [reflexivity|]. apply in_cell_down; [assumption|lia..|].
        assert (at_ d j < at_ d (j - 1)) by (apply D; lia). replace (j - 1 + 1)%Z with j by lia. subst j. fold (last_ d) in *. lra.
    + intros [_ [[A _]|[_ A]]]; [exfalso; eapply not_both; eassumption|].
      replace (qlt (first_ d) z) with true by (symmetry; apply qlt_spec; exact A). reflexivity.
    + intros [_ [[A _]|[_ A]]]; [exfalso; eapply not_both; eassumption|].
      replace (qlt (first_ d) z) with false by (symmetry; apply qlt_false; lra).
      replace (qlt z (last_ d)) with true by (symmetry; apply qlt_spec; exact A). reflexivity.
Qed.

(** ** The searches *)
Lemma in01_cell : forall l x i r, located l x i r -> in01 r = true.
Proof.
  intros l x i r [[_ E]|[_ (_ & _ & A & B & _)]]; unfold in01; rewrite andb_true_iff, !qle_spec; [split; lra|auto].
Qed.

Lemma py_axis_located : forall l x, axis_ok l -> inside l x ->
  exists i r, (if (1 <? zlen l)%Z then py_axis l x else Some ((-1)%Z, 0)) = Some (i, r) /\ located l x i r /\
              (zlen l = 1%Z -> i = (-1)%Z).
Proof.
  intros l x [L I] X. destruct (1 <? zlen l)%Z eqn:E.
  - destruct X as [X|X]; [lia|]. destruct (py_axis_spec l x I ltac:(lia) X) as (i & r & P & C).
    exists i, r. split; [exact P|]. split; [right; split; [lia|exact C]|lia].
  - eexists. eexists. split; [reflexivity|]. split; [left; split; [lia|lra]|reflexivity].
Qed.
Lemma c_axis_located : forall l x i0, axis_ok l -> inside l x -> valid_start l i0 ->
  exists i r, (if (zlen l =? 1)%Z then Some (0%Z, 0) else c_axis l x i0) = Some (i, r) /\ located l x i r /\
              (zlen l = 1%Z -> i = 0%Z).
Proof.
  intros l x i0 [L I] X V. destruct (zlen l =? 1)%Z eqn:E.
  - eexists. eexists. split; [reflexivity|]. split; [left; split; [lia|lra]|reflexivity].
  - destruct X as [X|X]; [lia|]. destruct V as [V|[V0 V1]]; [lia|].
    destruct (c_axis_spec l x i0 I ltac:(lia) X V0 V1) as (i & r & P & C).
    exists i, r. split; [exact P|]. split; [right; split; [lia|exact C]|lia].
Qed.


