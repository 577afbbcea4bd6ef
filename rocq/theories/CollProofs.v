(** Proofs about the particle store: the column-wise code refines lists of records. *)
From Coq Require Import String List ZArith Bool Arith Sorting.Sorted Sorting.Permutation Lia.
From Coq Require Import ZifyBool ZifyNat.
From Verif Require Import CollModel CollSpec.
Import ListNotations.
Open Scope Z_scope.

Ltac Zify.zify_post_hook ::= Z.div_mod_to_equations.

(** * Generic list facts *)

Lemma existsb_eqb_In : forall k l, existsb (Nat.eqb k) l = true <-> In k l.
Proof.
  intros; rewrite existsb_exists; split.
  - intros (x & Hx & E); apply Nat.eqb_eq in E; subst; auto.
  - intros H; exists k; split; auto; apply Nat.eqb_refl.
Qed.

Lemma existsb_zeqb_In : forall k l, existsb (Z.eqb k) l = true <-> In k l.
Proof.
  intros; rewrite existsb_exists; split.
  - intros (x & Hx & E); apply Z.eqb_eq in E; subst; auto.
  - intros H; exists k; split; auto; apply Z.eqb_refl.
Qed.

Lemma list_set_length : forall A (l : list A) k v, length (list_set l k v) = length l.
Proof. induction l; destruct k; simpl; auto. Qed.

Lemma list_set_nth : forall A (l : list A) k v m,
  nth_error (list_set l k v) m =
  if Nat.eqb m k then (if (m <? length l)%nat then Some v else None) else nth_error l m.
Proof.
  induction l; intros; simpl.
  - destruct m, k; simpl; auto; destruct (Nat.eqb m k); auto.
  - destruct k; simpl.
    + destruct m; simpl; auto.
    + destruct m; simpl; auto. rewrite IHl.
      change (S m <? S (length l))%nat with (m <? length l)%nat; auto.
Qed.

Lemma list_set_same : forall A (l : list A) k v,
  (k < length l)%nat -> nth_error (list_set l k v) k = Some v.
Proof.
  intros; rewrite list_set_nth, Nat.eqb_refl.
  destruct (k <? length l)%nat eqn:E; auto; lia.
Qed.

Lemma list_set_other : forall A (l : list A) k v m,
  m <> k -> nth_error (list_set l k v) m = nth_error l m.
Proof. intros; rewrite list_set_nth. destruct (Nat.eqb_spec m k); congruence. Qed.

Lemma map_list_set : forall A B (f : A -> B) l k v,
  map f (list_set l k v) = list_set (map f l) k (f v).
Proof. induction l; destruct k; simpl; intros; auto. rewrite IHl; auto. Qed.

Lemma list_set_id : forall A (l : list A) k v, nth_error l k = Some v -> list_set l k v = l.
Proof. induction l; destruct k; simpl; intros; try discriminate; congruence || (rewrite IHl; auto). Qed.

Lemma nth_error_ext : forall A (l l' : list A),
  (forall k, nth_error l k = nth_error l' k) -> l = l'.
Proof.
  induction l; destruct l'; intros H; auto.
  - specialize (H 0%nat); discriminate.
  - specialize (H 0%nat); discriminate.
  - f_equal. { specialize (H 0%nat); simpl in H; congruence. }
    apply IHl; intros k; apply (H (S k)).
Qed.

Lemma nth_error_Some_lt : forall A (l : list A) k v, nth_error l k = Some v -> (k < length l)%nat.
Proof. intros; apply nth_error_Some; congruence. Qed.

Lemma Forall2_impl_in : forall A B (P Q : A -> B -> Prop) l l',
  (forall a b, In a l -> In b l' -> P a b -> Q a b) -> Forall2 P l l' -> Forall2 Q l l'.
Proof.
  intros A B P Q l l' H F; induction F; constructor.
  - apply H; simpl; auto.
  - apply IHF; intros; apply H; simpl; auto.
Qed.

Lemma SS_app : forall A (R : A -> A -> Prop) l1 l2,
  StronglySorted R l1 -> StronglySorted R l2 ->
  (forall x y, In x l1 -> In y l2 -> R x y) -> StronglySorted R (l1 ++ l2).
Proof.
  induction l1; simpl; intros; auto.
  inversion_clear H. constructor; auto.
  apply Forall_app; split; auto. apply Forall_forall; auto.
Qed.

Lemma SS_map_some_last : forall x l d, StronglySorted Z.le (x :: l) ->
  forall y, In y (x :: l) -> y <= last (x :: l) d.
Proof.
  intros x l d; revert x; induction l; intros x H y Hy.
  - simpl in *; destruct Hy; [lia|contradiction].
  - inversion_clear H. destruct Hy as [<-|Hy].
    + transitivity a. { inversion_clear H1; auto. }
      change (last (x :: a :: l) d) with (last (a :: l) d). apply IHl; auto; left; auto.
    + change (last (x :: a :: l) d) with (last (a :: l) d); auto.
Qed.

Lemma SS_hd : forall x l, StronglySorted Z.le (x :: l) -> forall y, In y (x :: l) -> x <= y.
Proof.
  intros; inversion_clear H. destruct H0; [lia|]. rewrite Forall_forall in H2; auto.
Qed.

(** * np.delete *)

Section Delete.
Context {A : Type}.

Lemma np_delete_from_map : forall B (f : A -> B) idx l pos,
  np_delete_from pos idx (map f l) = map f (np_delete_from pos idx l).
Proof.
  induction l; simpl; intros; auto.
  rewrite IHl. destruct (existsb (Nat.eqb pos) idx); auto.
Qed.

Fixpoint kept_from (pos : nat) (idx : list nat) (n : nat) : list nat :=
  match n with
  | O => []
  | S n' => if existsb (Nat.eqb pos) idx then kept_from (S pos) idx n'
            else pos :: kept_from (S pos) idx n'
  end.

Lemma kept_from_in : forall idx n pos p,
  In p (kept_from pos idx n) <-> (pos <= p < pos + n)%nat /\ ~ In p idx.
Proof.
  induction n; simpl; intros.
  - split; [contradiction|lia].
  - destruct (existsb (Nat.eqb pos) idx) eqn:E.
    + rewrite IHn. apply existsb_eqb_In in E. split; intros (?&?); split; auto; try lia.
      destruct (Nat.eq_dec p pos); [subst; contradiction|lia].
    + assert (~ In pos idx) by (intro C; apply existsb_eqb_In in C; congruence).
      simpl; rewrite IHn. split.
      * intros [<-|(?&?)]; split; auto; lia.
      * intros (?&?). destruct (Nat.eq_dec p pos); [left; auto|right; split; auto; lia].
Qed.

Lemma kept_from_sorted : forall idx n pos, StronglySorted lt (kept_from pos idx n).
Proof.
  induction n; simpl; intros; [constructor|].
  destruct (existsb (Nat.eqb pos) idx); auto.
  constructor; auto. apply Forall_forall; intros p Hp. apply kept_from_in in Hp; lia.
Qed.

Lemma np_delete_from_kept : forall idx (l pre : list A),
  map Some (np_delete_from (length pre) idx l) =
  map (nth_error (pre ++ l)) (kept_from (length pre) idx (length l)).
Proof.
  induction l; simpl; intros; auto.
  specialize (IHl (pre ++ [a])). rewrite app_length, <- app_assoc in IHl; simpl in IHl.
  replace (length pre + 1)%nat with (S (length pre)) in IHl by lia.
  destruct (existsb (Nat.eqb (length pre)) idx); auto.
  simpl. rewrite IHl. f_equal.
  rewrite nth_error_app2, Nat.sub_diag by lia; auto.
Qed.

Lemma np_delete_nodup_length : forall idx (l : list A) pos,
  NoDup idx -> (forall k, In k idx -> (pos <= k < pos + length l)%nat) ->
  (length (np_delete_from pos idx l) + length idx = length l)%nat.
Proof.
  intros idx l; revert idx; induction l; simpl; intros idx pos ND H.
  - destruct idx; auto. specialize (H n (or_introl eq_refl)); lia.
  - destruct (existsb (Nat.eqb pos) idx) eqn:E.
    + apply existsb_eqb_In in E. apply in_split in E. destruct E as (i1 & i2 & ->).
      assert (ND' := NoDup_remove_1 _ _ _ ND). assert (NI := NoDup_remove_2 _ _ _ ND).
      assert (X : np_delete_from (S pos) (i1 ++ pos :: i2) l = np_delete_from (S pos) (i1 ++ i2) l).
      { assert (G : forall (l : list A) q, (pos < q)%nat ->
            np_delete_from q (i1 ++ pos :: i2) l = np_delete_from q (i1 ++ i2) l).
        { clear. induction l; simpl; intros; auto.
          rewrite !IHl by lia. rewrite !existsb_app; simpl.
          replace (Nat.eqb q pos) with false; auto. symmetry; apply Nat.eqb_neq; lia. }
        apply G; lia. }
      rewrite X. specialize (IHl (i1 ++ i2) (S pos) ND').
      rewrite app_length in *; simpl. rewrite <- IHl.
      * lia.
      * intros k Hk. assert (k <> pos) by (intros ->; contradiction).
        assert (Hin : In k (i1 ++ pos :: i2)) by (apply in_app_iff in Hk; apply in_app_iff; simpl; tauto).
        specialize (H k Hin); lia.
    + simpl. rewrite IHl; auto. intros k Hk. specialize (H k Hk).
      assert (k <> pos). { intros ->. apply existsb_eqb_In in Hk. congruence. } lia.
Qed.

Lemma np_delete_from_none : forall (l : list A) pos, np_delete_from pos [] l = l.
Proof. induction l; simpl; intros; auto. rewrite IHl; auto. Qed.

Lemma np_delete_from_incl : forall idx (l : list A) pos x, In x (np_delete_from pos idx l) -> In x l.
Proof.
  induction l; simpl; intros; auto.
  destruct (existsb (Nat.eqb pos) idx); [right; eauto|].
  destruct H; [left; auto|right; eauto].
Qed.

Lemma np_delete_from_SS : forall (R : A -> A -> Prop) idx (l : list A) pos,
  StronglySorted R l -> StronglySorted R (np_delete_from pos idx l).
Proof.
  induction l; simpl; intros; auto. inversion_clear H.
  destruct (existsb (Nat.eqb pos) idx); auto.
  constructor; auto. rewrite Forall_forall in *. intros; apply H1; eapply np_delete_from_incl; eauto.
Qed.
End Delete.

Lemma np_delete_map : forall A B (f : A -> B) idx l, np_delete idx (map f l) = map f (np_delete idx l).
Proof. intros; apply np_delete_from_map. Qed.

(** * Lookup by id *)

Lemma where_first_spec : forall x l pos,
  match where_first_from pos x l with
  | Some k => (pos <= k)%nat /\ nth_error l (k - pos) = Some x /\
              forall m, (m < k - pos)%nat -> nth_error l m <> Some x
  | None => ~ In x l
  end.
Proof.
  induction l; simpl; intros; auto.
  destruct (a =? x) eqn:E.
  - rewrite Nat.sub_diag; simpl. assert (a = x) by lia. subst. repeat split; auto; lia.
  - specialize (IHl (S pos)). destruct (where_first_from (S pos) x l).
    + destruct IHl as (? & ? & ?). split; [lia|].
      replace (n - pos)%nat with (S (n - S pos)) by lia. simpl. split; auto.
      intros [|m] Hm; simpl; [intros C; injection C; lia|]. apply H1; lia.
    + intros [C|C]; [lia|auto].
Qed.

Lemma SS_nth_le : forall l, StronglySorted Z.le l ->
  forall i j a b, (i <= j)%nat -> nth_error l i = Some a -> nth_error l j = Some b -> a <= b.
Proof.
  induction 1; intros i j x y Hij Hi Hj.
  - destruct i; discriminate.
  - destruct i, j; simpl in *; try lia.
    + injection Hi; injection Hj; lia.
    + injection Hi as <-. rewrite Forall_forall in H0. apply H0. eapply nth_error_In; eauto.
    + eapply IHStronglySorted; [|eauto|eauto]; lia.
Qed.

Lemma bisect_loop_spec : forall fuel a x lo hi,
  StronglySorted Z.le a -> (lo <= hi <= length a)%nat -> (hi - lo < fuel)%nat ->
  (forall m v, (m < lo)%nat -> nth_error a m = Some v -> v < x) ->
  (forall m v, (hi <= m)%nat -> nth_error a m = Some v -> x <= v) ->
  let r := bisect_loop fuel a x lo hi in
  (r <= length a)%nat /\
  (forall m v, (m < r)%nat -> nth_error a m = Some v -> v < x) /\
  (forall m v, (r <= m)%nat -> nth_error a m = Some v -> x <= v).
Proof.
  induction fuel; simpl; intros a x lo hi SS B F L H; [lia|].
  destruct (lo <? hi)%nat eqn:E.
  - rewrite Nat.div2_div.
    assert (M : (lo <= (lo + hi) / 2 < hi)%nat) by lia.
    set (mid := ((lo + hi) / 2)%nat) in *.
    destruct (nth_error a mid) eqn:N.
    + destruct (z <? x) eqn:Z1.
      * apply IHfuel; auto; try lia.
        intros m v Hm Hv. assert (v <= z) by (eapply (SS_nth_le a SS m mid); eauto; lia). lia.
      * apply IHfuel; auto; try lia.
        intros m v Hm Hv. assert (z <= v) by (eapply (SS_nth_le a SS mid m); eauto; lia). lia.
    + apply nth_error_None in N; lia.
  - repeat split; auto; try lia. intros m v Hm; apply H; lia.
Qed.

Lemma bisect_left_spec : forall a x, StronglySorted Z.le a ->
  (bisect_left a x <= length a)%nat /\
  (forall m v, (m < bisect_left a x)%nat -> nth_error a m = Some v -> v < x) /\
  (forall m v, (bisect_left a x <= m)%nat -> nth_error a m = Some v -> x <= v).
Proof.
  intros. unfold bisect_left. apply bisect_loop_spec; auto; try lia.
  intros m v Hm Hv. apply nth_error_Some_lt in Hv; lia.
Qed.

Lemma index_of_id_spec : forall sorted ids x,
  (sorted = true -> StronglySorted Z.le ids) ->
  match index_of_id sorted ids x with
  | inl k => nth_error ids k = Some x /\ forall m, (m < k)%nat -> nth_error ids m <> Some x
  | inr _ => ~ In x ids
  end.
Proof.
  intros [] ids x S; unfold index_of_id.
  - destruct (bisect_left_spec ids x (S eq_refl)) as (B1 & B2 & B3).
    destruct (nth_error ids (bisect_left ids x)) eqn:N.
    + destruct (z =? x) eqn:E.
      * assert (z = x) by lia; subst. split; auto.
        intros m Hm C. specialize (B2 m x Hm C); lia.
      * intros C. apply In_nth_error in C. destruct C as (m & Hm).
        destruct (Nat.lt_ge_cases m (bisect_left ids x)) as [L|L].
        -- specialize (B2 m x L Hm); lia.
        -- assert (z <= x) by (eapply (SS_nth_le ids (S eq_refl)); [exact L|exact N|exact Hm]).
           assert (x <= z) by (eapply B3; [|exact N]; lia). lia.
    + intros C. apply In_nth_error in C. destruct C as (m & Hm).
      assert (m < length ids)%nat by (eapply nth_error_Some_lt; eauto).
      apply nth_error_None in N.
      assert (m < bisect_left ids x)%nat by lia. specialize (B2 m x H0 Hm); lia.
  - assert (W := where_first_spec x ids 0). destruct (where_first_from 0 x ids); auto.
    destruct W as (? & ? & ?). rewrite Nat.sub_0_r in *; auto.
Qed.

Lemma where_in_spec : forall xs l pos,
  StronglySorted lt (where_in_from pos xs l) /\
  forall k, In k (where_in_from pos xs l) <->
            (pos <= k)%nat /\ exists y, nth_error l (k - pos) = Some y /\ In y xs.
Proof.
  induction l; simpl; intros.
  - split; [constructor|]. intros k; split; [contradiction|].
    intros (_ & y & H & _). destruct (k - pos)%nat; discriminate.
  - destruct (IHl (S pos)) as (S1 & S2).
    assert (T : forall k, (S pos <= k)%nat /\ (exists y, nth_error l (k - S pos) = Some y /\ In y xs)
       <-> (pos <= k)%nat /\ (k <> pos)%nat /\ (exists y, nth_error (a :: l) (k - pos) = Some y /\ In y xs)).
    { intros k; split.
      - intros (? & y & ? & ?). repeat split; try lia. exists y; split; auto.
        replace (k - pos)%nat with (S (k - S pos)) by lia; auto.
      - intros (? & ? & y & H2 & ?). split; [lia|]. exists y; split; auto.
        replace (k - pos)%nat with (S (k - S pos)) in H2 by lia; auto. }
    destruct (existsb (Z.eqb a) xs) eqn:E.
    + apply existsb_zeqb_In in E. split.
      * constructor; auto. apply Forall_forall; intros k Hk. apply S2 in Hk; lia.
      * intros k; simpl; rewrite S2, T. split.
        -- intros [<-|(? & ? & ?)]; split; auto. exists a. rewrite Nat.sub_diag; auto.
        -- intros (? & ?). destruct (Nat.eq_dec k pos); [left; auto|right; auto].
    + assert (~ In a xs) by (intro C; apply existsb_zeqb_In in C; congruence).
      split; auto. intros k; rewrite S2, T. split; [tauto|].
      intros (? & y & H1 & ?). split; auto. split; [|eauto].
      intros ->. rewrite Nat.sub_diag in H1; simpl in H1. congruence.
Qed.

Lemma where_true_spec : forall bs pos,
  StronglySorted lt (where_true_from pos bs) /\
  forall k, In k (where_true_from pos bs) <-> (pos <= k)%nat /\ nth_error bs (k - pos) = Some true.
Proof.
  induction bs; simpl; intros.
  - split; [constructor|]. intros k; split; [contradiction|]. intros (_ & H). destruct (k - pos)%nat; discriminate.
  - destruct (IHbs (S pos)) as (S1 & S2).
    assert (T : forall k, (S pos <= k)%nat /\ nth_error bs (k - S pos) = Some true
       <-> (pos <= k)%nat /\ (k <> pos)%nat /\ nth_error (a :: bs) (k - pos) = Some true).
    { intros k; split; intros.
      - replace (k - pos)%nat with (S (k - S pos)) by lia. simpl. intuition lia.
      - destruct H as (? & ? & H1). replace (k - pos)%nat with (S (k - S pos)) in H1 by lia. split; auto; lia. }
    destruct a; split; auto.
    + constructor; auto. apply Forall_forall; intros k Hk. apply S2 in Hk; lia.
    + intros k; simpl; rewrite S2, T. split.
      * intros [<-|(? & ? & ?)]; split; auto; rewrite ?Nat.sub_diag; auto.
      * intros (? & ?). destruct (Nat.eq_dec k pos); [left; auto|right; auto].
    + intros k; rewrite S2, T. split; [tauto|]. intros (? & H). repeat split; auto.
      intros ->. rewrite Nat.sub_diag in H; discriminate.
Qed.

Lemma SS_lt_NoDup : forall l, StronglySorted lt l -> NoDup l.
Proof.
  induction 1; constructor; auto. intros C. rewrite Forall_forall in H0. apply H0 in C; lia.
Qed.

(** * Index normalisation *)

Lemma norm_index_spec : forall n k,
  match norm_index n k with
  | Some p => means_position n k p
  | None => forall p, ~ means_position n k p
  end.
Proof.
  intros. unfold norm_index, means_position.
  destruct ((0 <=? k) && (k <? Z.of_nat n)) eqn:A; [lia|].
  destruct ((- Z.of_nat n <=? k) && (k <? 0)) eqn:B; lia.
Qed.

Lemma means_position_fun : forall n k p q, means_position n k p -> means_position n k q -> p = q.
Proof. unfold means_position; lia. Qed.

Lemma norm_indices_spec : forall n ks,
  match norm_indices n ks with
  | Some ps => Forall2 (means_position n) ks ps
  | None => forall ps, ~ Forall2 (means_position n) ks ps
  end.
Proof.
  induction ks; simpl; auto.
  assert (N := norm_index_spec n a). destruct (norm_index n a).
  - destruct (norm_indices n ks).
    + constructor; auto.
    + intros ps C; inversion C; subst. eapply IHks; eauto.
  - intros ps C; inversion C; subst. eapply N; eauto.
Qed.

(** * Columns and records *)

Section Rep.
Context {V : Type}.
Notation rec := (prec V).

Definition col_is (rows : list rec) (nm : string) (nc : string * list V) : Prop :=
  fst nc = nm /\ map Some (snd nc) = map (fun r => assoc nm (p_vals r)) rows.

Definition rep (names : list string) (d : dict V) (rows : list rec) : Prop :=
  d_id d = map (@p_id V) rows /\ d_state d = map (@p_state V) rows /\
  Forall (fun r => map fst (p_vals r) = names) rows /\
  Forall2 (col_is rows) names (d_vars d).

Lemma row_vals_rep : forall names k vs (l : list (string * V)),
  NoDup names -> map fst l = names ->
  Forall2 (fun nm nc => fst nc = nm /\ nth_error (map Some (snd nc)) k = Some (assoc nm l)) names vs ->
  row_vals k vs = Some l.
Proof.
  intros names k vs l; revert names vs; induction l as [|[n v] l]; simpl; intros names vs ND E F; subst.
  - inversion F; auto.
  - simpl in ND, F. inversion F; subst. inversion ND; subst. destruct y as [n' c]; simpl in *.
    destruct H1 as (-> & HN). rewrite String.eqb_refl in HN.
    rewrite nth_error_map in HN. destruct (nth_error c k) eqn:C; [|discriminate].
    simpl in HN. injection HN as ->.
    rewrite (IHl (map fst l) l'); auto.
    eapply Forall2_impl_in; [|exact H3].
    intros a b I _ (? & X); split; auto. destruct (String.eqb_spec n a); auto. subst; contradiction.
Qed.

Lemma rep_row : forall names d rows k, NoDup names -> rep names d rows ->
  row d k = nth_error rows k.
Proof.
  intros names d rows k ND (I & S & N & C). unfold row.
  rewrite I, S, !nth_error_map.
  destruct (nth_error rows k) as [r|] eqn:R; simpl; auto.
  rewrite (row_vals_rep names k (d_vars d) (p_vals r)); auto.
  - destruct r; auto.
  - rewrite Forall_forall in N. apply N. eapply nth_error_In; eauto.
  - eapply Forall2_impl_in; [|exact C]. intros a b _ _ (? & E). split; auto.
    rewrite E, nth_error_map, R. auto.
Qed.

Lemma rows_upto_nth : forall (d : dict V) ks rs,
  rows_upto d ks = Some rs <-> map (row d) ks = map Some rs.
Proof.
  induction ks; simpl; intros.
  - destruct rs; simpl; split; intros; try discriminate; auto.
  - destruct (row d a) eqn:R; [destruct (rows_upto d ks) eqn:U|]; split; intros H.
    + injection H as <-. simpl. f_equal. apply IHks; auto.
    + destruct rs; simpl in H; [discriminate|]. injection H as -> H. f_equal. f_equal.
      apply IHks in H. congruence.
    + discriminate.
    + destruct rs; simpl in H; [discriminate|]. injection H as -> H. apply IHks in H. discriminate.
    + discriminate.
    + destruct rs; simpl in H; discriminate.
Qed.

Lemma map_nth_error_seq : forall A (l : list A), map (nth_error l) (seq 0 (length l)) = map Some l.
Proof.
  intros A l. assert (G : forall pre l : list A,
    map (nth_error (pre ++ l)) (seq (length pre) (length l)) = map Some l).
  { intros pre l0; revert pre; induction l0; simpl; intros; auto.
    rewrite nth_error_app2, Nat.sub_diag by lia. simpl. f_equal.
    specialize (IHl0 (pre ++ [a])). rewrite app_length, <- app_assoc in IHl0. simpl in IHl0.
    replace (length pre + 1)%nat with (S (length pre)) in IHl0 by lia. auto. }
  apply (G []).
Qed.

Lemma rep_iterate : forall names d rows, NoDup names -> rep names d rows ->
  rows_upto d (seq 0 (length rows)) = Some rows.
Proof.
  intros. apply rows_upto_nth. rewrite <- map_nth_error_seq.
  apply map_ext. intros; eapply rep_row; eauto.
Qed.

Lemma rep_delete : forall names d rows ks,
  rep names d rows -> rep names (dict_delete ks d) (np_delete ks rows).
Proof.
  intros names d rows ks (I & S & N & C). unfold rep, dict_delete; simpl.
  rewrite I, S, !np_delete_map. repeat split; auto.
  - rewrite Forall_forall in *. intros; apply N. eapply np_delete_from_incl; eauto.
  - clear N. induction C; constructor; auto. destruct H as (? & E). split; auto. simpl.
    rewrite <- !np_delete_map, E; auto.
Qed.

Lemma rep_set_state : forall names d rows k st r,
  rep names d rows -> nth_error rows k = Some r ->
  rep names (dict_set_state k st d) (list_set rows k (with_state st r)).
Proof.
  intros names d rows k st r (I & S & N & C) R. unfold rep, dict_set_state; simpl.
  rewrite I, S, !map_list_set; simpl. repeat split; auto.
  - symmetry; apply list_set_id. rewrite nth_error_map, R; auto.
  - apply Forall_forall. intros x Hx. apply In_nth_error in Hx. destruct Hx as (m & Hm).
    rewrite list_set_nth in Hm. rewrite Forall_forall in N.
    destruct (Nat.eqb_spec m k).
    + destruct (m <? length rows)%nat; [|discriminate]. injection Hm as <-. simpl.
      apply N; eapply nth_error_In; eauto.
    + apply N; eapply nth_error_In; eauto.
  - eapply Forall2_impl_in; [|exact C]. intros a b _ _ (? & E). split; auto.
    rewrite E, map_list_set. simpl. symmetry; apply list_set_id. rewrite nth_error_map, R; auto.
Qed.

Lemma assoc_with_val : forall nm name v (l : list (string * V)),
  assoc nm (map (fun nv => if String.eqb (fst nv) name then (fst nv, v) else nv) l) =
  if String.eqb nm name then option_map (fun _ => v) (assoc nm l) else assoc nm l.
Proof.
  induction l as [|[n x] l]; simpl.
  - destruct (String.eqb nm name); auto.
  - destruct (String.eqb_spec n name); simpl; destruct (String.eqb_spec n nm); simpl; auto; subst.
    + rewrite String.eqb_refl; auto.
    + destruct (String.eqb_spec nm name); auto. congruence.
Qed.

Lemma rep_set_var : forall names d rows k name v r,
  NoDup names -> In name names ->
  rep names d rows -> nth_error rows k = Some r ->
  rep names (dict_set_var name k v d) (list_set rows k (with_val name v r)).
Proof.
  intros names d rows k name v r ND IN (I & S & N & C) R. unfold rep, dict_set_var; simpl.
  rewrite I, S, !map_list_set; simpl. repeat split; auto.
  - symmetry; apply list_set_id. rewrite nth_error_map, R; auto.
  - symmetry; apply list_set_id. rewrite nth_error_map, R; auto.
  - apply Forall_forall. intros x Hx. apply In_nth_error in Hx. destruct Hx as (m & Hm).
    rewrite list_set_nth in Hm. rewrite Forall_forall in N.
    destruct (Nat.eqb_spec m k).
    + destruct (m <? length rows)%nat; [|discriminate]. injection Hm as <-. simpl.
      rewrite map_map. rewrite <- (N r) by (eapply nth_error_In; eauto).
      apply map_ext. intros [a b]; simpl. destruct (String.eqb a name); auto.
    + apply N; eapply nth_error_In; eauto.
  - assert (NR : map fst (p_vals r) = names) by (rewrite Forall_forall in N; apply N; eapply nth_error_In; eauto).
    assert (G : forall nm nc, In nm names -> col_is rows nm nc ->
        col_is (list_set rows k (with_val name v r)) nm
           (if String.eqb (fst nc) name then (fst nc, list_set (snd nc) k v) else nc)).
    { intros nm [n c] INm (E1 & E2); simpl in *. subst n. unfold col_is.
      rewrite map_list_set. simpl. rewrite assoc_with_val.
      destruct (String.eqb_spec nm name) as [->|NE]; simpl.
      - rewrite map_list_set, E2. split; auto. f_equal.
        assert (X : exists y, assoc name (p_vals r) = Some y).
        { rewrite <- NR in IN. clear -IN. induction (p_vals r) as [|[a b] l]; simpl in *; [contradiction|].
          destruct (String.eqb_spec a name); eauto. destruct IN; [congruence|auto]. }
        destruct X as (y & ->); auto.
      - rewrite E2. split; auto. symmetry; apply list_set_id. rewrite nth_error_map, R; auto. }
    clear - C G. revert G. induction C; simpl; constructor; auto.
Qed.

Lemma rep_assoc : forall names d rows nm, NoDup names -> rep names d rows -> In nm names ->
  exists c, assoc nm (d_vars d) = Some c /\ map Some c = map (fun r => assoc nm (p_vals r)) rows.
Proof.
  intros names d rows nm ND (_ & _ & _ & C) IN. induction C; simpl in *; [contradiction|].
  destruct y as [n c]. destruct H as (E1 & E2); simpl in *; subst.
  inversion_clear ND. destruct IN as [->|IN].
  - rewrite String.eqb_refl. eauto.
  - destruct (String.eqb_spec x nm); [subst; contradiction|]. auto.
Qed.

Lemma rep_assoc_none : forall names d rows nm, rep names d rows -> ~ In nm names -> assoc nm (d_vars d) = None.
Proof.
  intros names d rows nm (_ & _ & _ & C) NI. induction C; simpl in *; auto.
  destruct y as [n c]. destruct H as (E1 & E2); simpl in *; subst.
  destruct (String.eqb_spec x nm); [subst; tauto|]. auto.
Qed.

Lemma rep_concat : forall names ds dx dy rs rx ry,
  NoDup names -> rep names ds rs -> rep names dx rx -> rep names dy ry ->
  exists d, dict_concat ds dx dy = Some d /\ rep names d (rx ++ ry).
Proof.
  intros names ds dx dy rs rx ry ND RS RX RY.
  assert (G : forall keys ns, Forall2 (col_is rs) ns keys -> (forall n, In n ns -> In n names) ->
     exists vs, concat_vars keys (d_vars dx) (d_vars dy) = Some vs /\ Forall2 (col_is (rx ++ ry)) ns vs).
  { intros keys ns F; induction F; intros INC; simpl.
    - exists []; split; auto.
    - destruct y as [n c]. destruct H as (E1 & E2); simpl in E1; subst n.
      destruct (rep_assoc names dx rx x ND RX) as (cx & AX & CX); [apply INC; left; auto|].
      destruct (rep_assoc names dy ry x ND RY) as (cy & AY & CY); [apply INC; left; auto|].
      destruct IHF as (vs & E & F'); [intros; apply INC; right; auto|].
      rewrite AX, AY, E. eexists; split; eauto. constructor; auto. split; auto. simpl.
      rewrite !map_app; congruence. }
  destruct RS as (IS & SS & NS & CS). destruct (G _ _ CS) as (vs & E & F); auto.
  unfold dict_concat. rewrite E. eexists; split; eauto.
  destruct RX as (IX & SX & NX & CX). destruct RY as (IY & SY & NY & CY).
  unfold rep; simpl. rewrite IX, IY, SX, SY, !map_app. repeat split; auto.
  apply Forall_app; auto.
Qed.

(** * The invariant *)

Definition coll_ok (names : list string) (w : world V) (i : nat) (rows : list rec) : Prop :=
  exists c d, nth_error (w_colls w) i = Some c /\ nth_error (w_heap w) (c_ref c) = Some d /\ rep names d rows /\ c_ncount c = Z.of_nat (length rows) /\ (c_sorted c = true -> StronglySorted Z.le (d_id d)).

Record inv (names : list string) (w : world V) (s : spec V) : Prop := {
  inv_len  : length (w_colls w) = length (s_sets s);
  inv_last : w_last w = s_last s;
  inv_ok   : forall i rows, live s i rows -> coll_ok names w i rows;
  inv_ref  : forall i j ri rj ci cj, live s i ri -> live s j rj -> i <> j ->
             nth_error (w_colls w) i = Some ci -> nth_error (w_colls w) j = Some cj ->
             c_ref ci <> c_ref cj;
  inv_heap : forall i c, nth_error (w_colls w) i = Some c -> (c_ref c < length (w_heap w))%nat
}.

Lemma inv0 : forall names, inv names world0 spec0.
Proof.
  intros; constructor; simpl; auto; intros.
  - destruct i; discriminate.
  - destruct i; discriminate.
  - destruct i; discriminate.
Qed.

Lemma live_set_to : forall (s : spec V) i x k rows,
  live (set_to s i x) k rows ->
  (k = i /\ x = Some rows) \/ (k <> i /\ live s k rows).
Proof.
  unfold live, set_to; simpl; intros. rewrite list_set_nth in H.
  destruct (Nat.eqb_spec k i); [|right; auto].
  destruct (k <? length (s_sets s))%nat; [|discriminate]. left; split; auto; congruence.
Qed.

Lemma inv_put : forall names w s i rows c c' d' rows',
  inv names w s -> live s i rows -> nth_error (w_colls w) i = Some c ->
  c_ref c' = c_ref c -> rep names d' rows' -> c_ncount c' = Z.of_nat (length rows') ->
  (c_sorted c' = true -> StronglySorted Z.le (d_id d')) ->
  inv names (put w i c' d') (set_to s i (Some rows')).
Proof.
  intros names w s i rows c c' d' rows' [L LA OK RF HP] LV NC RE RP NN SO.
  assert (IL : (i < length (w_colls w))%nat) by (eapply nth_error_Some_lt; eauto).
  assert (CL : (c_ref c < length (w_heap w))%nat) by eauto.
  constructor; unfold put; simpl.
  - rewrite !list_set_length; auto.
  - auto.
  - intros k r H. apply live_set_to in H. destruct H as [(-> & E)|(NE & H)].
    + injection E as <-. exists c', d'. simpl. rewrite list_set_same by auto.
      rewrite RE, list_set_same by auto. auto.
    + destruct (OK _ _ H) as (ck & dk & K1 & K2 & K3). exists ck, dk. simpl.
      rewrite list_set_other by auto. rewrite list_set_other; auto.
      rewrite RE. eapply (RF k i); eauto.
  - intros k j rk rj ck cj H1 H2 NE E1 E2.
    rewrite list_set_nth in E1, E2.
    apply live_set_to in H1. apply live_set_to in H2.
    destruct (Nat.eqb_spec k i); destruct (Nat.eqb_spec j i); subst; try congruence.
    + destruct (i <? length (w_colls w))%nat; [|discriminate]. injection E1 as <-. rewrite RE.
      destruct H2 as [(? & _)|(? & H2)]; [congruence|]. eapply (RF i j); eauto.
    + destruct (i <? length (w_colls w))%nat; [|discriminate]. injection E2 as <-. rewrite RE.
      destruct H1 as [(? & _)|(? & H1)]; [congruence|]. eapply (RF k i); eauto.
    + destruct H1 as [(? & _)|(? & H1)]; [congruence|].
      destruct H2 as [(? & _)|(? & H2)]; [congruence|]. eapply (RF k j); eauto.
  - intros k ck E. rewrite list_set_length. rewrite list_set_nth in E.
    destruct (Nat.eqb_spec k i); [|eauto].
    destruct (k <? length (w_colls w))%nat; [|discriminate]. injection E as <-. rewrite RE; auto.
Qed.

Lemma get_coll_ok : forall names w i rows, coll_ok names w i rows ->
  exists c d, get_coll w i = Some (c, d) /\ nth_error (w_colls w) i = Some c /\ nth_error (w_heap w) (c_ref c) = Some d /\ rep names d rows /\ c_ncount c = Z.of_nat (length rows) /\ (c_sorted c = true -> StronglySorted Z.le (d_id d)).
Proof.
  intros names w i rows (c & d & A & B & C). exists c, d. split; auto.
  unfold get_coll. rewrite A, B. auto.
Qed.

Lemma get_coll_none : forall names w s i, inv names w s -> no_such s i -> get_coll w i = None.
Proof.
  intros. unfold no_such in *. apply nth_error_None in H0. unfold get_coll.
  replace (nth_error (w_colls w) i) with (@None coll); auto. symmetry; apply nth_error_None.
  rewrite (inv_len _ _ _ H); auto.
Qed.

Lemma usable_cases : forall (s : spec V) i, usable s i -> no_such s i \/ exists rows, live s i rows.
Proof.
  unfold usable, no_such, live; intros. destruct (nth_error (s_sets s) i) as [[l|]|]; eauto; congruence.
Qed.

Lemma removed_np_delete : forall (rows : list rec) ks, removed_exactly rows ks (np_delete ks rows).
Proof.
  intros. exists (kept_from 0 ks (length rows)). split; [apply kept_from_sorted|]. split.
  - intros; rewrite kept_from_in. intuition lia.
  - apply (np_delete_from_kept ks rows []).
Qed.

Lemma updated_list_set : forall (rows : list rec) k f r, nth_error rows k = Some r ->
  updated_at rows k f (list_set rows k (f r)).
Proof.
  intros. split; [eapply nth_error_Some_lt; eauto|]. intros. rewrite list_set_nth.
  destruct (Nat.eqb_spec m k); auto. subst. rewrite H. simpl.
  apply nth_error_Some_lt in H. destruct (k <? length rows)%nat eqn:E; auto; lia.
Qed.

Lemma rep_len : forall names d rows, rep names d rows -> length (d_id d) = length rows.
Proof. intros names d rows (-> & _). apply map_length. Qed.

Lemma lookup_rows : forall names c d rows x, rep names d rows ->
  (c_sorted c = true -> StronglySorted Z.le (d_id d)) ->
  match index_of_id (c_sorted c) (d_id d) x with
  | inl k => first_with_id rows x k
  | inr _ => ~ has_id rows x
  end.
Proof.
  intros names c d rows x R S. assert (H := index_of_id_spec (c_sorted c) (d_id d) x S).
  destruct R as (I & _). rewrite I in *.
  destruct (index_of_id (c_sorted c) (map (p_id (V:=V)) rows) x).
  - destruct H as (H1 & H2). rewrite nth_error_map in H1. split.
    + destruct (nth_error rows n); [|discriminate]. exists p; split; auto. simpl in H1; congruence.
    + intros m r Hm Hr C. apply (H2 m Hm). rewrite nth_error_map, Hr. simpl; congruence.
  - intros (r & Hr & E). apply H. rewrite <- E. apply in_map; auto.
Qed.

Lemma all_diff_sorted : forall l, all_diff_nonneg l = true -> StronglySorted Z.le l.
Proof.
  intros. apply Sorted_StronglySorted; [intros a b c; lia|].
  induction l; constructor.
  - apply IHl. simpl in H. destruct l; auto. apply andb_prop in H; tauto.
  - simpl in H. destruct l; constructor. lia.
Qed.

Lemma list_max_from_spec : forall l m,
  (In (list_max_from m l) (m :: l)) /\ forall x, In x (m :: l) -> x <= list_max_from m l.
Proof.
  induction l; simpl; intros.
  - split; auto. intros ? [<-|[]]; lia.
  - destruct (IHl (Z.max m a)) as (A & B). split.
    + destruct A as [A|A]; [|auto]. destruct (Z.max_spec m a) as [(?&E)|(?&E)]; rewrite E in A at 1; auto.
    + intros x Hx. assert (Z.max m a <= list_max_from (Z.max m a) l) by (apply B; left; auto).
      destruct Hx as [<-|[<-|Hx]]; try lia. apply B; right; auto.
Qed.

Lemma id_offset_next : forall ids, next_last ids (id_offset ids + 1).
Proof.
  intros. unfold next_last. destruct ids; [left; auto|right]. unfold id_offset.
  destruct (list_max_from_spec ids z) as (A & B). split.
  - replace (list_max_from z ids + 1 - 1) with (list_max_from z ids) by lia; auto.
  - intros x Hx; apply B in Hx; lia.
Qed.

(** * One operation *)

Lemma set_to_same : forall (s : spec V) i rows, live s i rows -> set_to s i (Some rows) = s.
Proof. intros s i rows H. unfold set_to. rewrite list_set_id; auto. destruct s; auto. Qed.

Lemma put_same : forall (w : world V) i c d, nth_error (w_colls w) i = Some c ->
  nth_error (w_heap w) (c_ref c) = Some d -> put w i c d = w.
Proof. intros. unfold put. rewrite !list_set_id; auto. destruct w; auto. Qed.

Lemma inv_remove : forall names w s i rows c d ks,
  inv names w s -> live s i rows -> nth_error (w_colls w) i = Some c -> rep names d rows ->
  c_ncount c = Z.of_nat (length rows) -> (c_sorted c = true -> StronglySorted Z.le (d_id d)) ->
  NoDup ks -> (forall k, In k ks -> (k < length rows)%nat) ->
  inv names (put w i (mkColl (c_ref c) (c_ncount c - Z.of_nat (length ks)) (c_sorted c)) (dict_delete ks d))
      (set_to s i (Some (np_delete ks rows))).
Proof.
  intros names w s i rows c d ks I L NC R NN SO ND RG.
  eapply inv_put; eauto; simpl.
  - apply rep_delete; auto.
  - assert (H := np_delete_nodup_length ks rows 0 ND).
    assert (forall k, In k ks -> (0 <= k < 0 + length rows)%nat) by (intros k Hk; apply RG in Hk; lia).
    specialize (H H0). unfold np_delete. lia.
  - intros E. apply np_delete_from_SS; auto.
Qed.

Lemma rec_lookup_single : forall ids x,
  (StronglySorted Z.le ids) ->
  rec_lookup 2 ids 0 (length ids) [x] =
  Some (inl (match index_of_id true ids x with inl k => [k] | inr _ => [] end)).
Proof.
  intros ids x SO. unfold index_of_id.
  change (rec_lookup 2 ids 0 (length ids) [x]) with
   (let index := bisect_left (slice ids 0 (length ids)) x in
    match nth_error ids index with
    | None => Some (inl [])
    | Some v => if v =? x then Some (inl [index]) else Some (@inl (list nat) pyerr [])
    end).
  unfold slice; simpl skipn. rewrite Nat.sub_0_r, firstn_all. cbv zeta.
  destruct (nth_error ids (bisect_left ids x)); auto. destruct (z =? x); auto.
Qed.

Lemma positions_single : forall (rows : list rec) x k,
  NoDup (map (@p_id V) rows) -> first_with_id rows x k -> positions_of rows [x] [k].
Proof.
  intros rows x k ND ((r & Hr & E) & _). split; [repeat constructor|].
  intros m; split.
  - intros [<-|[]]. exists r; split; auto. left; auto.
  - intros (r' & Hr' & [E'|[]]). left.
    assert (A : nth_error (map (@p_id V) rows) k = Some x) by (rewrite nth_error_map, Hr; simpl; congruence).
    assert (B : nth_error (map (@p_id V) rows) m = Some x) by (rewrite nth_error_map, Hr'; simpl; congruence).
    eapply NoDup_nth_error; eauto.
    + eapply nth_error_Some_lt; eauto.
    + congruence.
Qed.

Lemma indices_rows : forall names c d rows xs, rep names d rows ->
  (c_sorted c = true -> StronglySorted Z.le (d_id d)) ->
  ((length xs <= 1)%nat \/ ~ increasing_ids rows) -> NoDup (map (@p_id V) rows) ->
  exists ks, indices_of_ids (c_sorted c) (d_id d) xs = Some (inl ks) /\ positions_of rows xs ks.
Proof.
  intros names c d rows xs R SO HX ND. assert (R' := R). destruct R' as (I & _).
  destruct xs as [|x xs].
  { exists []. split; auto. split; [constructor|]. intros k; split; [contradiction|].
    intros (r & _ & []). }
  unfold indices_of_ids. destruct (c_sorted c) eqn:S.
  - destruct HX as [HX|HX].
    + destruct xs; [|simpl in HX; lia]. simpl length. simpl np_sort.
      rewrite rec_lookup_single by auto.
      assert (L := lookup_rows names c d rows x R ltac:(rewrite S; auto)). rewrite S in L.
      destruct (index_of_id true (d_id d) x).
      * exists [n]; split; auto. apply positions_single; auto.
      * exists []; split; auto. split; [constructor|]. intros k; split; [contradiction|].
        intros (r & Hr & [E|[]]). apply L. exists r; split; auto. eapply nth_error_In; eauto.
    + exfalso; apply HX. unfold increasing_ids. rewrite <- I; auto.
  - destruct (where_in_spec (x :: xs) (d_id d) 0) as (W1 & W2).
    eexists; split; eauto. split; auto. intros k. rewrite W2, Nat.sub_0_r, I, nth_error_map.
    split.
    + intros (_ & y & E & IN). destruct (nth_error rows k); [|discriminate].
      exists p; split; auto. simpl in E. congruence.
    + intros (r & -> & IN). split; [lia|]. exists (p_id r); split; auto.
Qed.

Lemma nth_error_repeat_lt : forall A (x : A) n k, (k < n)%nat -> nth_error (repeat x n) k = Some x.
Proof. induction n; simpl; intros; [lia|]. destruct k; simpl; auto. apply IHn; lia. Qed.

(** Records built from columns. *)
Lemma built_exists : forall ids (cols : list (string * list V)),
  (forall nc, In nc cols -> length (snd nc) = length ids) ->
  NoDup (map fst cols) ->
  exists rows, built_from ids cols rows /\ 
    rep (map fst cols) (mkDict ids (repeat st_Evaluate (length ids)) cols) rows.
Proof.
  intros ids cols HL ND.
  assert (RV : forall k, (k < length ids)%nat -> exists vs, 
      Forall2 (fun nc nv => fst nc = fst nv /\ nth_error (snd nc) k = Some (snd nv)) cols vs).
  { intros k Hk. clear ND. induction cols as [|[n c] cols].
    - exists []; constructor.
    - destruct IHcols as (vs & F); [intros; apply HL; right; auto|].
      assert (length c = length ids) by (apply (HL (n, c)); left; auto).
      destruct (nth_error c k) as [v|] eqn:E; [|apply nth_error_None in E; lia].
      exists ((n, v) :: vs). constructor; auto. }
  assert (ROWS : forall m, (m <= length ids)%nat -> exists rows : list rec, length rows = m /\
     forall k r, nth_error rows k = Some r -> nth_error ids k = Some (p_id r) /\ p_state r = st_Evaluate /\
      Forall2 (fun nc nv => fst nc = fst nv /\ nth_error (snd nc) k = Some (snd nv)) cols (p_vals r)).
  { induction m; intros Hm.
    - exists []; split; auto. intros [|]; discriminate.
    - destruct IHm as (rows & L & H); [lia|]. destruct (RV m) as (vs & F); [lia|].
      destruct (nth_error ids m) as [x|] eqn:E; [|apply nth_error_None in E; lia].
      exists (rows ++ [mkPrec x st_Evaluate vs]). split; [rewrite app_length; simpl; lia|].
      intros k r Hr. destruct (Nat.lt_ge_cases k m).
      + rewrite nth_error_app1 in Hr by lia. auto.
      + rewrite nth_error_app2 in Hr by lia. rewrite L in Hr.
        destruct (k - m)%nat eqn:KM; [|destruct n; discriminate].
        assert (k = m) by lia. subst k. simpl in Hr. injection Hr as <-. simpl. auto. }
  destruct (ROWS (length ids)) as (rows & L & H); auto.
  exists rows. split; [split; auto|]. unfold rep; simpl. repeat split.
  - apply nth_error_ext. intros k. rewrite nth_error_map.
    destruct (nth_error rows k) eqn:E; simpl.
    + apply H in E; tauto.
    + apply nth_error_None. apply nth_error_None in E. lia.
  - apply nth_error_ext. intros k. rewrite nth_error_map.
    destruct (nth_error rows k) eqn:E; simpl.
    + assert (k < length rows)%nat by (eapply nth_error_Some_lt; eauto).
      rewrite nth_error_repeat_lt by lia. apply H in E. destruct E as (_ & -> & _); auto.
    + apply nth_error_None. apply nth_error_None in E. rewrite repeat_length. lia.
  - apply Forall_forall. intros r Hr. apply In_nth_error in Hr. destruct Hr as (k & Hr).
    apply H in Hr. destruct Hr as (_ & _ & F). clear -F. induction F; simpl; auto.
    destruct H. congruence.
  - assert (ALL : forall nc, In nc cols -> col_is rows (fst nc) nc).
    { intros nc IN. split; auto. apply nth_error_ext. intros k. rewrite !nth_error_map.
      destruct (nth_error rows k) as [r|] eqn:E; simpl.
      - destruct (H k r E) as (_ & _ & F). clear -F IN ND. induction F; simpl in *; [contradiction|].
        inversion_clear ND. destruct H as (E1 & E2). destruct y as [n v]; simpl in *.
        destruct IN as [->|IN].
        + rewrite E2, E1, String.eqb_refl. auto.
        + rewrite IHF; auto. destruct (String.eqb_spec n (fst nc)); auto.
          exfalso; apply H0. rewrite E1, e. apply in_map; auto.
      - apply nth_error_None in E. replace (nth_error (snd nc) k) with (@None V); auto.
        symmetry; apply nth_error_None. rewrite HL by auto. lia. }
    clear -ALL. induction cols; simpl; constructor.
    + apply ALL; left; auto.
    + apply IHcols. intros; apply ALL; right; auto.
Qed.

Lemma step_new : forall names w s pid n cols w' r, NoDup names -> inv names w s ->
  map fst cols = names -> step w (New pid n cols) = (w', r) ->
  exists s', spec_step s (New pid n cols) s' r /\ inv names w' s'.
Proof.
  intros names w s pid n cols w' r ND I EN ST. simpl in ST. unfold do_new in ST.
  set (pid0 := match pid with None => arange n | Some l => l end) in *.
  assert (IDS : map (fun k => k + w_last w) pid0 = new_ids s pid n).
  { unfold pid0, new_ids. rewrite (inv_last _ _ _ I). destruct pid; auto.
    unfold arange. rewrite map_map; auto. }
  rewrite IDS in ST. set (ids := new_ids s pid n) in *.
  destruct (forallb (fun nc : string * list V => (length (snd nc) =? n)%nat) cols) eqn:FB; simpl in ST.
  - rewrite forallb_forall in FB.
    assert (HL : forall nc, In nc cols -> length (snd nc) = n) by
        (intros nc H; apply FB in H; apply Nat.eqb_eq; auto).
    destruct (length ids =? n)%nat eqn:LI; simpl in ST; injection ST as <- <-.
    + apply Nat.eqb_eq in LI.
      destruct (built_exists ids cols) as (rows & BF & RP).
      { intros; rewrite LI; auto. } { rewrite EN; auto. }
      rewrite EN in RP. rewrite LI in RP.
      exists (mkSpec (s_sets s ++ [Some rows]) (id_offset ids + 1)). split.
      * left. split; [|split; auto].
        { split; auto. unfold ids, new_ids in LI. destruct pid; auto. rewrite map_length in LI; auto. }
        exists rows. split; auto. split; auto. apply id_offset_next.
      * assert (LR : length rows = n) by (destruct BF; congruence).
        destruct I as [L LA OK RF HP]. 
        assert (NEWL : forall i rws, live (mkSpec (s_sets s ++ [Some rows]) (id_offset ids + 1)) i rws ->
            (i = length (s_sets s) /\ rws = rows) \/ ((i < length (s_sets s))%nat /\ live s i rws)).
        { unfold live; simpl; intros i rws H. destruct (Nat.lt_ge_cases i (length (s_sets s))).
          - rewrite nth_error_app1 in H by auto. auto.
          - rewrite nth_error_app2 in H by auto. destruct (i - length (s_sets s))%nat eqn:E.
            + simpl in H. left; split; [lia|congruence].
            + simpl in H. destruct n0; discriminate. }
        constructor; simpl; auto.
        -- rewrite !app_length; simpl; lia.
        -- intros i rws H. destruct (NEWL _ _ H) as [(-> & ->)|(IL & H')].
           ++ exists (mkColl (length (w_heap w)) (Z.of_nat n) (all_diff_nonneg ids)),
                (mkDict ids (repeat st_Evaluate n) cols). simpl.
              rewrite <- L. rewrite !nth_error_app2, !Nat.sub_diag by lia. simpl.
              split; [reflexivity|]. split; [reflexivity|]. split; auto. split; [lia|].
              intros E. apply all_diff_sorted; auto.
           ++ destruct (OK _ _ H') as (c & d & A & B & C). exists c, d. simpl.
              rewrite !nth_error_app1; auto; try lia.
              ** eapply nth_error_Some_lt; eauto.
        -- intros i j ri rj ci cj H1 H2 NE E1 E2.
           destruct (NEWL _ _ H1) as [(-> & ->)|(IL & H1')]; destruct (NEWL _ _ H2) as [(-> & ->)|(JL & H2')].
           ++ congruence.
           ++ rewrite <- L in E1. rewrite nth_error_app2, Nat.sub_diag in E1 by lia. simpl in E1. injection E1 as <-.
              rewrite nth_error_app1 in E2 by lia. simpl. apply HP in E2. lia.
           ++ rewrite <- L in E2. rewrite nth_error_app2, Nat.sub_diag in E2 by lia. simpl in E2. injection E2 as <-.
              rewrite nth_error_app1 in E1 by lia. simpl. apply HP in E1. lia.
           ++ rewrite nth_error_app1 in E1, E2 by lia. eapply (RF i j); eauto.
        -- intros i c E. rewrite app_length; simpl. destruct (Nat.lt_ge_cases i (length (w_colls w))).
           ++ rewrite nth_error_app1 in E by auto. apply HP in E; lia.
           ++ rewrite nth_error_app2 in E by auto. destruct (i - length (w_colls w))%nat.
              ** simpl in E. injection E as <-. simpl. lia.
              ** destruct n0; discriminate.
    + exists (mkSpec (s_sets s) (id_offset ids + 1)). split.
      * right. split; [|split; eauto]. intros (_ & G). unfold ids, new_ids in LI.
        destruct pid; rewrite map_length in LI; [|rewrite seq_length in LI].
        { rewrite G, Nat.eqb_refl in LI; discriminate. }
        { rewrite Nat.eqb_refl in LI; discriminate. }
      * destruct I as [L LA OK RF HP]. constructor; simpl; auto.
  - injection ST as <- <-. exists s; split; auto. right. split; [|split; eauto].
    intros (G & _). apply Bool.not_true_iff_false in FB. apply FB. apply forallb_forall.
    intros x Hx. apply Nat.eqb_eq; auto.
Qed.

Lemma last_in : forall A (l : list A) d, l <> [] -> In (last l d) l.
Proof.
  induction l; intros; [congruence|]. destruct l; [left; auto|].
  right. change (last (a :: a0 :: l) d) with (last (a0 :: l) d). apply IHl; congruence.
Qed.

Lemma step_add : forall names w s i j w' r, NoDup names -> inv names w s ->
  allowed names s (Add i j) -> step w (Add i j) = (w', r) ->
  exists s', spec_step s (Add i j) s' r /\ inv names w' s'.
Proof.
  intros names w s i j w' r ND I (UI & UJ & AE) ST. simpl in ST. unfold do_add in ST.
  destruct (usable_cases s i UI) as [NI|(li & LI)].
  { rewrite (get_coll_none _ _ _ _ I NI) in ST. injection ST as <- <-. exists s; split; auto.
    right. split; auto. split; eauto. }
  destruct (get_coll_ok _ _ _ _ (inv_ok _ _ _ I _ _ LI)) as (ci & di & GI & CI & HI & RI & NCI & SI).
  rewrite GI in ST.
  destruct (usable_cases s j UJ) as [NJ|(lj & LJ)].
  { rewrite (get_coll_none _ _ _ _ I NJ) in ST. injection ST as <- <-. exists s; split; auto.
    right. split; auto. split; eauto. }
  destruct (get_coll_ok _ _ _ _ (inv_ok _ _ _ I _ _ LJ)) as (cj & dj & GJ & CJ & HJ & RJ & NCJ & SJ).
  rewrite GJ in ST. clear UI UJ.
  destruct (c_ncount cj =? 0) eqn:E0.
  { injection ST as <- <-. exists s; split; auto. left. exists li, lj. repeat split; auto.
    left; split; auto. destruct lj; auto. simpl in NCJ; lia. }
  assert (NEJ : lj <> []) by (intros ->; simpl in NCJ; lia).
  destruct (c_ncount ci =? 0) eqn:E1.
  { assert (li = []) by (destruct li; auto; simpl in NCI; lia). subst li.
    assert (NE : i <> j) by (intros ->; unfold live in *; congruence).
    injection ST as <- <-. exists (set_to (set_to s i (Some lj)) j None). split.
    { left. exists [], lj. repeat split; auto. }
    assert (SLJ := AE lj LI LJ). destruct I as [L LA OK RF HP].
    assert (IL : (i < length (w_colls w))%nat) by (eapply nth_error_Some_lt; eauto).
    assert (LV : forall k rows, live (set_to (set_to s i (Some lj)) j None) k rows ->
       (k = i /\ rows = lj) \/ (k <> i /\ k <> j /\ live s k rows)).
    { intros k rows H. apply live_set_to in H. destruct H as [(_ & H)|(K1 & H)]; [discriminate|].
      apply live_set_to in H. destruct H as [(-> & H)|(K2 & H)]; [left; split; congruence|right; auto]. }
    constructor; simpl.
    - rewrite !list_set_length; auto.
    - auto.
    - intros k rows H. destruct (LV _ _ H) as [(-> & ->)|(K1 & K2 & H')].
      + exists (mkColl (c_ref cj) (c_ncount cj) (c_sorted ci)), dj. simpl.
        rewrite list_set_same by auto. split; auto. split; auto. split; auto. split; auto.
        intros _. destruct RJ as (-> & _). auto.
      + destruct (OK _ _ H') as (c & d & A & B & C). exists c, d. simpl. rewrite list_set_other by auto. auto.
    - intros a b ra rb ca cb HA HB NAB EA EB.
      rewrite list_set_nth in EA, EB.
      destruct (LV _ _ HA) as [(-> & ->)|(A1 & A2 & HA')]; destruct (LV _ _ HB) as [(-> & ->)|(B1 & B2 & HB')].
      + congruence.
      + rewrite Nat.eqb_refl in EA. destruct (i <? length (w_colls w))%nat; [|discriminate]. injection EA as <-.
        destruct (Nat.eqb_spec b i); [congruence|]. simpl. eapply (RF j b); eauto.
      + rewrite Nat.eqb_refl in EB. destruct (i <? length (w_colls w))%nat; [|discriminate]. injection EB as <-.
        destruct (Nat.eqb_spec a i); [congruence|]. simpl. eapply (RF a j); eauto.
      + destruct (Nat.eqb_spec a i); [congruence|]. destruct (Nat.eqb_spec b i); [congruence|].
        eapply (RF a b); eauto.
    - intros k c E. rewrite list_set_nth in E. destruct (Nat.eqb_spec k i); [|eauto].
      destruct (k <? length (w_colls w))%nat; [|discriminate]. injection E as <-. simpl. eauto. }
  assert (NEI : li <> []) by (intros ->; simpl in NCI; lia).
  assert (DI : d_id di <> []) by (destruct RI as (-> & _); intros C; apply NEI; destruct li; auto; discriminate).
  assert (DJ : d_id dj <> []) by (destruct RJ as (-> & _); intros C; apply NEJ; destruct lj; auto; discriminate).
  destruct (d_id di) as [|xi ti] eqn:EI; [congruence|]. destruct (d_id dj) as [|xj tj] eqn:EJ; [congruence|].
  cbv zeta in ST. rewrite <- EI, <- EJ in ST. rewrite <- EI in *. rewrite <- EJ in *.
  assert (HI0 : hd 0 (d_id di) = xi) by (rewrite EI; auto).
  assert (HJ0 : hd 0 (d_id dj) = xj) by (rewrite EJ; auto).
  destruct (c_sorted ci && c_sorted cj && (last (d_id dj) 0 <? hd 0 (d_id di))) eqn:CND.
  - apply andb_prop in CND. destruct CND as (CND & LT). apply andb_prop in CND. destruct CND as (SCI & SCJ).
    destruct (rep_concat names di dj di li lj li ND RI RJ RI) as (d' & E' & RD).
    rewrite E' in ST. injection ST as <- <-.
    exists (set_to s i (Some (lj ++ li))). split.
    { left. exists li, lj. repeat split; auto. right; right; right; auto. }
    eapply inv_put; eauto; simpl.
    + rewrite app_length; lia.
    + intros _. assert (ED : d_id d' = d_id dj ++ d_id di) by
        (unfold dict_concat in E'; destruct (concat_vars _ _ _); [|discriminate]; injection E' as <-; auto).
      rewrite ED. apply SS_app; auto. intros x y Hx Hy.
      specialize (SI SCI). specialize (SJ SCJ). rewrite EI in SI, Hy. rewrite EJ in SJ, Hx.
      assert (x <= last (xj :: tj) 0) by (apply SS_map_some_last; auto).
      assert (xi <= y) by (eapply SS_hd; eauto). rewrite EJ in LT. lia.
  - destruct (rep_concat names di di dj li li lj ND RI RI RJ) as (d' & E' & RD).
    rewrite E' in ST. injection ST as <- <-.
    exists (set_to s i (Some (li ++ lj))). split.
    { left. exists li, lj. repeat split; auto. right; right; left; auto. }
    eapply inv_put; eauto; simpl.
    + rewrite app_length; lia.
    + destruct (c_sorted cj && (last (d_id di) 0 <? hd 0 (d_id dj))) eqn:C2; simpl; [|discriminate].
      intros SCI. apply andb_prop in C2. destruct C2 as (SCJ & LT).
      assert (ED : d_id d' = d_id di ++ d_id dj) by
        (unfold dict_concat in E'; destruct (concat_vars _ _ _); [|discriminate]; injection E' as <-; auto).
      rewrite ED. apply SS_app; auto. intros x y Hx Hy.
      specialize (SI SCI). specialize (SJ SCJ). rewrite EI in SI, Hx. rewrite EJ in SJ, Hy.
      assert (x <= last (xi :: ti) 0) by (apply SS_map_some_last; auto).
      assert (xj <= y) by (eapply SS_hd; eauto). rewrite EI in LT. lia.
Qed.

Lemma step_refines : forall names w s o w' r, NoDup names -> inv names w s ->
  allowed names s o -> step w o = (w', r) ->
  exists s', spec_step s o s' r /\ inv names w' s'.
Proof.
  intros names w s o w' r ND I AL ST.
  assert (FAIL : forall i e, no_such s i -> w' = w -> r = ORaise e ->
     no_such s i /\ fails s s r /\ inv names w' s).
  { intros; subst. split; auto. split; auto. split; eauto. }
  destruct o.
  - eapply step_new; eauto.
  - eapply step_add; eauto.
  - (* RemoveIndex *)
    simpl in AL, ST. destruct (usable_cases s i AL) as [NI|(l & L)].
    { rewrite (get_coll_none _ _ _ _ I NI) in ST. injection ST as <- <-. exists s; split; auto.
      right; right. split; auto. split; eauto. }
    destruct (get_coll_ok _ _ _ _ (inv_ok _ _ _ I _ _ L)) as (c & d & G & C & H & R & NC & SO).
    rewrite G in ST. rewrite (rep_len _ _ _ R) in ST.
    assert (NS := norm_index_spec (length l) k). destruct (norm_index (length l) k) as [p|].
    + injection ST as <- <-. exists (set_to s i (Some (np_delete [p] l))). split.
      * left. exists l, (np_delete [p] l), p. repeat split; auto; try apply NS. apply removed_np_delete.
      * unfold remove_at. replace 1 with (Z.of_nat (length [p])) by auto.
        apply (inv_remove names w s i l c d [p]); auto. { repeat constructor; auto. }
        intros q [<-|[]]. apply NS.
    + injection ST as <- <-. exists s; split; auto. right; left. exists l. repeat split; eauto.
  - (* RemoveIndices *)
    simpl in AL, ST. destruct AL as (AL & NDP). destruct (usable_cases s i AL) as [NI|(l & L)].
    { rewrite (get_coll_none _ _ _ _ I NI) in ST. injection ST as <- <-. exists s; split; auto.
      right; right. split; auto. split; eauto. }
    destruct (get_coll_ok _ _ _ _ (inv_ok _ _ _ I _ _ L)) as (c & d & G & C & H & R & NC & SO).
    rewrite G in ST. rewrite (rep_len _ _ _ R) in ST.
    assert (NS := norm_indices_spec (length l) ks). destruct (norm_indices (length l) ks) as [ps|].
    + injection ST as <- <-. exists (set_to s i (Some (np_delete ps l))). split.
      * left. exists l, (np_delete ps l), ps. repeat split; auto; try apply NS. apply removed_np_delete.
      * unfold remove_many. apply (inv_remove names w s i l c d ps); auto. { eapply NDP; eauto. }
        clear - NS. intros q Hq. induction NS; simpl in Hq; [contradiction|].
        destruct Hq as [<-|Hq]; auto. apply H.
    + injection ST as <- <-. exists s; split; auto. right; left. exists l. repeat split; eauto.
  - (* RemoveBool *)
    simpl in AL, ST. destruct (usable_cases s i AL) as [NI|(l & L)].
    { rewrite (get_coll_none _ _ _ _ I NI) in ST. injection ST as <- <-. exists s; split; auto.
      right; right. split; auto. split; eauto. }
    destruct (get_coll_ok _ _ _ _ (inv_ok _ _ _ I _ _ L)) as (c & d & G & C & H & R & NC & SO).
    rewrite G in ST. rewrite (rep_len _ _ _ R) in ST.
    destruct (where_true_spec bs 0) as (W1 & W2). set (ps := where_true_from 0 bs) in *.
    destruct (forallb (fun k => (k <? length l)%nat) ps) eqn:FB.
    + rewrite forallb_forall in FB.
      injection ST as <- <-. exists (set_to s i (Some (np_delete ps l))). split.
      * left. exists l, (np_delete ps l), ps. split; auto. split; auto. split.
        { intros p; rewrite W2, Nat.sub_0_r. intuition lia. }
        split. { intros p Hp; apply FB in Hp; lia. }
        split; auto. apply removed_np_delete.
      * unfold remove_many. apply (inv_remove names w s i l c d ps); auto.
        { apply SS_lt_NoDup; auto. } { intros p Hp; apply FB in Hp; lia. }
    + injection ST as <- <-. exists s; split; auto. right; left.
      apply Bool.not_true_iff_false in FB.
      assert (X : exists p, In p ps /\ (length l <= p)%nat).
      { clear - FB. induction ps; simpl in FB; [congruence|].
        destruct (a <? length l)%nat eqn:E.
        - destruct IHps as (p & ? & ?); auto. exists p; split; auto; right; auto.
        - exists a; split; [left; auto|lia]. }
      destruct X as (p & Hp & PL). apply W2 in Hp. rewrite Nat.sub_0_r in Hp.
      exists l, p. repeat split; eauto. tauto.
  - (* RemoveID *)
    simpl in AL, ST. destruct (usable_cases s i AL) as [NI|(l & L)].
    { rewrite (get_coll_none _ _ _ _ I NI) in ST. injection ST as <- <-. exists s; split; auto.
      right; right. split; auto. split; eauto. }
    destruct (get_coll_ok _ _ _ _ (inv_ok _ _ _ I _ _ L)) as (c & d & G & C & H & R & NC & SO).
    rewrite G in ST. assert (LK := lookup_rows names c d l x R SO).
    destruct (index_of_id (c_sorted c) (d_id d) x) as [p|e]; injection ST as <- <-.
    + exists (set_to s i (Some (np_delete [p] l))). split.
      * left. exists l, (np_delete [p] l), p. repeat split; auto; try apply LK. apply removed_np_delete.
      * unfold remove_at. replace 1 with (Z.of_nat (length [p])) by auto.
        apply (inv_remove names w s i l c d [p]); auto. { repeat constructor; auto. }
        intros q [<-|[]]. destruct LK as ((r & Hr & _) & _). eapply nth_error_Some_lt; eauto.
    + exists s; split; auto. right; left. exists l. repeat split; eauto.
  - (* RemoveIDs *)
    simpl in AL, ST. destruct AL as (AL & A2 & A3). destruct (usable_cases s i AL) as [NI|(l & L)].
    { rewrite (get_coll_none _ _ _ _ I NI) in ST. injection ST as <- <-. exists s; split; auto.
      right. split; auto. split; eauto. }
    destruct (get_coll_ok _ _ _ _ (inv_ok _ _ _ I _ _ L)) as (c & d & G & C & H & R & NC & SO).
    rewrite G in ST.
    destruct (indices_rows names c d l xs R SO) as (ps & E & PO).
    { destruct A2; auto. } { auto. }
    rewrite E in ST. injection ST as <- <-.
    exists (set_to s i (Some (np_delete ps l))). split.
    * left. exists l, (np_delete ps l), ps. repeat split; auto; try apply PO. apply removed_np_delete.
    * unfold remove_many. destruct PO as (P1 & P2). apply (inv_remove names w s i l c d ps); auto.
      { apply SS_lt_NoDup; auto. } { intros p Hp; apply P2 in Hp. destruct Hp as (r & Hr & _). eapply nth_error_Some_lt; eauto. }
  - (* DeleteIndex *)
    simpl in AL, ST. destruct (usable_cases s i AL) as [NI|(l & L)].
    { rewrite (get_coll_none _ _ _ _ I NI) in ST. injection ST as <- <-. exists s; split; auto.
      right; right. split; auto. split; eauto. }
    destruct (get_coll_ok _ _ _ _ (inv_ok _ _ _ I _ _ L)) as (c & d & G & C & H & R & NC & SO).
    rewrite G in ST. rewrite (rep_len _ _ _ R) in ST.
    assert (NS := norm_index_spec (length l) k). destruct (norm_index (length l) k) as [p|]; injection ST as <- <-.
    + assert (PL : (p < length l)%nat) by apply NS.
      destruct (nth_error l p) as [r0|] eqn:NR; [|apply nth_error_None in NR; lia].
      exists (set_to s i (Some (list_set l p (with_state op_Delete r0)))). split.
      * left. exists l, (list_set l p (with_state op_Delete r0)), p. split; auto. split; auto. split; auto.
        apply (updated_list_set l p (with_state op_Delete)); auto.
      * eapply inv_put; eauto.
        -- apply rep_set_state; auto.
        -- rewrite list_set_length; auto.
    + exists s; split; auto. right; left. exists l. repeat split; eauto.
  - (* DeleteID *)
    simpl in AL, ST. destruct (usable_cases s i AL) as [NI|(l & L)].
    { rewrite (get_coll_none _ _ _ _ I NI) in ST. injection ST as <- <-. exists s; split; auto.
      right; right. split; auto. split; eauto. }
    destruct (get_coll_ok _ _ _ _ (inv_ok _ _ _ I _ _ L)) as (c & d & G & C & H & R & NC & SO).
    rewrite G in ST. assert (LK := lookup_rows names c d l x R SO).
    destruct (index_of_id (c_sorted c) (d_id d) x) as [p|e]; injection ST as <- <-.
    + destruct LK as ((r0 & NR & E) & F).
      exists (set_to s i (Some (list_set l p (with_state op_Delete r0)))). split.
      * left. exists l, (list_set l p (with_state op_Delete r0)), p. split; auto.
        split; [split; eauto|]. split; auto.
        apply (updated_list_set l p (with_state op_Delete)); auto.
      * eapply inv_put; eauto.
        -- apply rep_set_state; auto.
        -- rewrite list_set_length; auto.
    + exists s; split; auto. right; left. exists l. repeat split; eauto.
  - (* SetVar *)
    simpl in AL, ST. destruct (usable_cases s i AL) as [NI|(l & L)].
    { rewrite (get_coll_none _ _ _ _ I NI) in ST. injection ST as <- <-. exists s; split; auto.
      right; right. split; auto. split; eauto. }
    destruct (get_coll_ok _ _ _ _ (inv_ok _ _ _ I _ _ L)) as (c & d & G & C & H & R & NC & SO).
    rewrite G in ST. rewrite (rep_len _ _ _ R) in ST.
    assert (NS := norm_index_spec (length l) k). destruct (norm_index (length l) k) as [p|].
    + assert (PL : (p < length l)%nat) by apply NS.
      destruct (nth_error l p) as [r0|] eqn:NR; [|apply nth_error_None in NR; lia].
      destruct (in_dec String.string_dec name names) as [IN|NIN].
      * destruct (rep_assoc names d l name ND R IN) as (cc & AC & _). rewrite AC in ST.
        injection ST as <- <-.
        exists (set_to s i (Some (list_set l p (with_val name v r0)))). split.
        -- left. exists l, (list_set l p (with_val name v r0)), p. split; auto. split; auto. split; auto.
           apply (updated_list_set l p (with_val name v)); auto.
        -- eapply inv_put; eauto.
           ++ apply rep_set_var; auto.
           ++ rewrite list_set_length; auto.
      * rewrite (rep_assoc_none names d l name R NIN) in ST. injection ST as <- <-.
        exists s; split; auto. right; left. exists l. split; auto. split; [split; eauto|].
        right. exists p, r0. split; auto. destruct R as (_ & _ & FN & _). rewrite Forall_forall in FN.
        rewrite FN; auto. eapply nth_error_In; eauto.
    + injection ST as <- <-. exists s; split; auto. right; left. exists l. split; auto. split; [split; eauto|auto].
  - (* GetID *)
    simpl in AL, ST. destruct (usable_cases s i AL) as [NI|(l & L)].
    { rewrite (get_coll_none _ _ _ _ I NI) in ST. injection ST as <- <-. exists s; split; auto.
      right; right. split; auto. split; eauto. }
    destruct (get_coll_ok _ _ _ _ (inv_ok _ _ _ I _ _ L)) as (c & d & G & C & H & R & NC & SO).
    rewrite G in ST. assert (LK := lookup_rows names c d l x R SO).
    destruct (index_of_id (c_sorted c) (d_id d) x) as [p|e]; injection ST as <- <-; exists s; split; auto.
    + left. exists l, p. auto.
    + right; left. exists l. repeat split; eauto.
  - (* GetIDs *)
    simpl in AL, ST. destruct AL as (AL & A2 & A3). destruct (usable_cases s i AL) as [NI|(l & L)].
    { rewrite (get_coll_none _ _ _ _ I NI) in ST. injection ST as <- <-. exists s; split; auto.
      right. split; auto. split; eauto. }
    destruct (get_coll_ok _ _ _ _ (inv_ok _ _ _ I _ _ L)) as (c & d & G & C & H & R & NC & SO).
    rewrite G in ST.
    destruct (indices_rows names c d l xs R SO) as (ps & E & PO).
    { destruct A2; auto. } { auto. }
    rewrite E in ST. injection ST as <- <-. exists s; split; auto. left. exists l, ps. auto.
Qed.

Lemma inv_observed : forall names w s, NoDup names -> inv names w s -> observed w s.
Proof.
  intros names w s ND I. split; [apply I|].
  intros i rows L. destruct (get_coll_ok _ _ _ _ (inv_ok _ _ _ I _ _ L)) as (c & d & G & C & H & R & NC & SO).
  unfold iterate, set_len. rewrite G, NC, Nat2Z.id. split; auto. eapply rep_iterate; eauto.
Qed.

Lemma run_refines : forall names ops w s, NoDup names -> inv names w s -> guarded names s ops ->
  exists s', spec_run s ops s' (snd (run w ops)) /\ inv names (fst (run w ops)) s'.
Proof.
  induction ops as [|o ops]; simpl; intros w s ND I G.
  - exists s; split; auto. constructor.
  - destruct G as (AL & G). destruct (step w o) as (w1, r) eqn:ST.
    destruct (step_refines names w s o w1 r ND I AL ST) as (s1 & SS & I1).
    destruct (IHops w1 s1 ND I1 (G _ _ SS)) as (s2 & SR & I2).
    destruct (run w1 ops) as (w2, rs). simpl in *. exists s2; split; auto. econstructor; eauto.
Qed.
End Rep.

Section More.
Context {V : Type}.
Notation rec := (prec V).

Lemma step_frame : forall names (w : world V) s o w' r k rows, NoDup names -> inv names w s ->
  allowed names s o -> step w o = (w', r) -> k <> target w o -> live s k rows ->
  iterate w' k = Some rows /\ set_len w' k = Some (Z.of_nat (length rows)).
Proof.
  intros names w s o w' r k rows ND I AL ST NE L.
  destruct (step_refines names w s o w' r ND I AL ST) as (s' & SS & I').
  assert (CONS : live s' k rows \/ (nth_error (w_colls w') k = nth_error (w_colls w) k /\ w_heap w' = w_heap w)).
  { assert (KEEP : forall i x, k <> i -> s' = set_to s i x -> live s' k rows).
    { intros i x N ->. unfold live, set_to; simpl. rewrite list_set_other; auto. }
    assert (SAME : s' = s -> live s' k rows) by (intros ->; auto).
    destruct o; simpl in NE, SS; unfold fails in SS.
    - destruct SS as [(_ & _ & rs & _ & E & _)|(_ & E & _)].
      + left. unfold live. rewrite E, nth_error_app1; auto. eapply nth_error_Some_lt; eauto.
      + left. unfold live; rewrite E; auto.
    - destruct SS as [(li & lj & LI & LJ & _ & D)|(_ & -> & _)]; auto.
      destruct D as [(_ & ->)|[(NJ & -> & E)|[(_ & _ & E)|(_ & _ & E)]]]; auto; [|left; eapply KEEP; eauto|left; eapply KEEP; eauto].
      simpl in ST. unfold do_add in ST.
      destruct (get_coll_ok _ _ _ _ (inv_ok _ _ _ I _ _ LI)) as (ci & di & GI & CI & HI & RI & NCI & SI).
      destruct (get_coll_ok _ _ _ _ (inv_ok _ _ _ I _ _ LJ)) as (cj & dj & GJ & CJ & HJ & RJ & NCJ & SJ).
      rewrite GI, GJ in ST. destruct (c_ncount cj =? 0) eqn:E0.
      + injection ST as <- <-. auto.
      + assert (E1 : c_ncount ci =? 0 = true) by (rewrite NCI; auto). rewrite E1 in ST.
        injection ST as <- <-. right. simpl. rewrite list_set_other; auto.
    - destruct SS as [(?&?&?&?&?&?&E&?)|[(?&?&?&->&?)|(?&->&?)]]; auto; left; eapply KEEP; eauto.
    - destruct SS as [(?&?&?&?&?&?&E&?)|[(?&?&?&->&?)|(?&->&?)]]; auto; left; eapply KEEP; eauto.
    - destruct SS as [(?&?&?&?&?&?&?&?&E&?)|[(?&?&?&?&?&->&?)|(?&->&?)]]; auto; left; eapply KEEP; eauto.
    - destruct SS as [(?&?&?&?&?&?&E&?)|[(?&?&?&->&?)|(?&->&?)]]; auto; left; eapply KEEP; eauto.
    - destruct SS as [(?&?&?&?&?&?&E&?)|(?&->&?)]; auto; left; eapply KEEP; eauto.
    - destruct SS as [(?&?&?&?&?&?&E&?)|[(?&?&?&->&?)|(?&->&?)]]; auto; left; eapply KEEP; eauto.
    - destruct SS as [(?&?&?&?&?&?&E&?)|[(?&?&?&->&?)|(?&->&?)]]; auto; left; eapply KEEP; eauto.
    - destruct SS as [(?&?&?&?&?&?&E&?)|[(?&?&(->&?)&?)|(?&->&?)]]; auto; left; eapply KEEP; eauto.
    - destruct SS as [(?&?&?&?&->&?)|[(?&?&?&->&?)|(?&->&?)]]; auto.
    - destruct SS as [(?&?&?&?&->&?)|(?&->&?)]; auto. }
  destruct CONS as [L'|(E1 & E2)].
  - apply (inv_observed names w' s' ND I'); auto.
  - destruct (inv_observed names w s ND I) as (_ & OB). specialize (OB k rows L).
    unfold iterate, set_len, get_coll in *. rewrite E1, E2. auto.
Qed.

Lemma rows_ids : forall (d : dict V) ks rs, rows_upto d ks = Some rs ->
  map Some (map (@p_id V) rs) = map (nth_error (d_id d)) ks.
Proof.
  induction ks; simpl; intros rs H.
  - injection H as <-; auto.
  - destruct (row d a) eqn:R; [|discriminate]. destruct (rows_upto d ks); [|discriminate].
    injection H as <-. simpl. f_equal; auto. unfold row in R.
    destruct (nth_error (d_id d) a); [|discriminate]. destruct (nth_error (d_state d) a); [|discriminate].
    destruct (row_vals a (d_vars d)); [|discriminate]. injection R as <-; auto.
Qed.

Lemma rows_ids_all : forall (d : dict V) rs, rows_upto d (seq 0 (length (d_id d))) = Some rs ->
  map (@p_id V) rs = d_id d.
Proof.
  intros. apply rows_ids in H. rewrite map_nth_error_seq in H.
  assert (INJ : forall (a b : list Z), map Some a = map Some b -> a = b).
  { induction a; destruct b; simpl; intros; try discriminate; auto. f_equal; [congruence|apply IHa; congruence]. }
  auto.
Qed.

Lemma step_last_other : forall (w : world V) o, (forall pid n cols, o <> New pid n cols) ->
  w_last (fst (step w o)) = w_last w.
Proof.
  intros w o H. destruct o; simpl; try (exfalso; eapply H; reflexivity).
  - unfold do_add. destruct (get_coll w i) as [[]|], (get_coll w j) as [[]|]; auto.
    destruct (c_ncount c0 =? 0), (c_ncount c =? 0); auto.
    destruct (d_id d), (d_id d0); auto.
    destruct (c_sorted c && c_sorted c0 && _); [destruct (dict_concat d d0 d)|destruct (dict_concat d d d0)]; auto.
  - destruct (get_coll w i) as [[]|]; auto. destruct (norm_index _ _); auto.
  - destruct (get_coll w i) as [[]|]; auto. destruct (norm_indices _ _); auto.
  - destruct (get_coll w i) as [[]|]; auto. destruct (forallb _ _); auto.
  - destruct (get_coll w i) as [[]|]; auto. destruct (index_of_id _ _ _); auto.
  - destruct (get_coll w i) as [[]|]; auto. destruct (indices_of_ids _ _ _) as [[]|]; auto.
  - destruct (get_coll w i) as [[]|]; auto. destruct (norm_index _ _); auto.
  - destruct (get_coll w i) as [[]|]; auto. destruct (index_of_id _ _ _); auto.
  - destruct (get_coll w i) as [[]|]; auto. destruct (norm_index _ _); auto. destruct (assoc _ _); auto.
  - destruct (get_coll w i) as [[]|]; auto. destruct (index_of_id _ _ _); auto.
  - destruct (get_coll w i) as [[]|]; auto. destruct (indices_of_ids _ _ _) as [[]|]; auto.
Qed.

Lemma arange_spec : forall n, NoDup (arange n) /\ forall x, In x (arange n) -> 0 <= x.
Proof.
  intros; unfold arange; split.
  - apply FinFun.Injective_map_NoDup; [intros a b; lia|apply seq_NoDup].
  - intros x Hx. apply in_map_iff in Hx. destruct Hx as (k & <- & _); lia.
Qed.

Lemma handed_out_fresh : forall ops (w : world V), Forall fresh_request ops ->
  NoDup (handed_out w ops) /\ forall x, In x (handed_out w ops) -> w_last w <= x.
Proof.
  induction ops as [|o ops]; simpl; intros w F; [split; [constructor|contradiction]|].
  inversion F; subst. clear F. destruct (IHops (fst (step w o)) H2) as (ND & GE).
  destruct o as [pid n cols| | | | | | | | | | | ];
    try (simpl app; split; auto; intros ? Hx; apply GE in Hx; rewrite step_last_other in Hx by (intros; discriminate); auto; fail).
  simpl in H1. set (pid0 := match pid with None => arange n | Some l => l end).
  assert (P : NoDup pid0 /\ (forall x, In x pid0 -> 0 <= x) /\ pid0 <> []).
  { unfold pid0; destruct pid; [tauto|]. destruct (arange_spec n). repeat split; auto.
    intros C. apply (f_equal (@length Z)) in C. unfold arange in C. rewrite map_length, seq_length in C. simpl in C; lia. }
  destruct P as (P1 & P2 & P3).
  set (ids := map (fun k => k + w_last w) pid0).
  assert (Q1 : NoDup ids) by (apply FinFun.Injective_map_NoDup; auto; intros a b; lia).
  assert (Q2 : forall x, In x ids -> w_last w <= x < id_offset ids + 1).
  { intros x Hx. split.
    - apply in_map_iff in Hx. destruct Hx as (k & <- & Hk). apply P2 in Hk; lia.
    - destruct (id_offset_next ids) as [(E & _)|(_ & H)]; auto. rewrite E in Hx; contradiction. }
  assert (Q3 : ids <> []) by (unfold ids; destruct pid0; [congruence|discriminate]).
  assert (Q4 : w_last w <= id_offset ids + 1).
  { destruct ids as [|y]; [congruence|]. assert (w_last w <= y < id_offset (y :: ids) + 1) by (apply Q2; left; auto). lia. }
  simpl step in *. unfold do_new in *. fold pid0 in ND, GE |- *. fold ids in ND, GE |- *.
  destruct (negb (forallb (fun nc : string * list V => (length (snd nc) =? n)%nat) cols)).
  { simpl fst in *. unfold iterate, get_coll.
    replace (nth_error (w_colls w) (length (w_colls w))) with (@None coll) by
        (symmetry; apply nth_error_None; auto). simpl app. auto. }
  destruct (negb (length ids =? n)%nat) eqn:LN.
  { simpl fst in *. unfold iterate, get_coll. simpl w_colls.
    replace (nth_error (w_colls w) (length (w_colls w))) with (@None coll) by
        (symmetry; apply nth_error_None; auto). simpl app. split; auto.
    intros x Hx. apply GE in Hx. simpl in Hx. lia. }
  simpl fst in *. unfold iterate, get_coll. simpl w_colls. simpl w_heap.
  rewrite nth_error_app2, Nat.sub_diag by lia. simpl. rewrite nth_error_app2, Nat.sub_diag by lia. simpl.
  rewrite Nat2Z.id. simpl in GE.
  match goal with |- context [rows_upto ?d ?l] => destruct (rows_upto d l) as [rs|] eqn:R end.
  - assert (LE : length ids = n) by (apply Nat.eqb_eq; destruct (length ids =? n)%nat; auto; discriminate).
    replace n with (length (d_id {| d_id := ids; d_state := repeat st_Evaluate n; d_vars := cols |})) in R at 2 by auto.
    apply rows_ids_all in R. simpl in R. rewrite R. split.
    + assert (forall l l' : list Z, NoDup l -> NoDup l' -> (forall x, In x l -> ~ In x l') -> NoDup (l ++ l')).
      { clear. induction l; simpl; intros; auto. inversion_clear H. constructor; auto.
        intros C. apply in_app_iff in C. destruct C; [auto|]. eapply H1; eauto. }
      apply H; auto. intros x Hx C. apply GE in C. apply Q2 in Hx. lia.
    + intros x Hx. apply in_app_iff in Hx. destruct Hx as [Hx|Hx]; [apply Q2 in Hx; lia|apply GE in Hx; lia].
  - simpl app. split; auto. intros x Hx. apply GE in Hx; lia.
Qed.

(** * Lookup of several ids on a set flagged as sorted never succeeds *)
Lemma np_delete_shorter : forall A (l : list A) k, (k < length l)%nat ->
  length (np_delete [k] l) = (length l - 1)%nat.
Proof.
  intros. assert (E := np_delete_nodup_length [k] l 0). unfold np_delete. simpl in E.
  rewrite <- E; [lia|repeat constructor; auto|]. intros q [<-|[]]; lia.
Qed.

Lemma rec_lookup_fuel : forall f ids low high sub, (length sub < f)%nat ->
  rec_lookup f ids low high sub <> None.
Proof.
  induction f; intros ids low high sub L; [lia|]. simpl. rewrite Nat.div2_div.
  destruct (nth_error sub (length sub / 2)) eqn:N; [|discriminate].
  assert (B := nth_error_Some_lt _ _ _ _ N). set (md := (length sub / 2)%nat) in *.
  assert (LL : (length (firstn md sub) < f)%nat) by (rewrite firstn_length; lia).
  assert (LR : (length (skipn (S md) sub) < f)%nat) by (rewrite skipn_length; lia).
  destruct (length sub =? 1)%nat.
  { destruct (nth_error ids _); [|discriminate]. destruct (_ =? _); discriminate. }
  destruct (nth_error ids _).
  - destruct (negb _).
    + assert (A := IHf ids low (bisect_left (slice ids low high) z) (firstn md sub) LL).
      assert (A' := IHf ids (bisect_left (slice ids low high) z) high _ LR).
      destruct (rec_lookup f ids low _ _) as [[]|]; try discriminate; [|congruence].
      destruct (rec_lookup f ids _ high _) as [[]|]; congruence.
    + assert (A := IHf ids low (bisect_left (slice ids low high) z) (firstn md sub) LL).
      assert (A' := IHf ids (S (bisect_left (slice ids low high) z)) high _ LR).
      destruct (rec_lookup f ids low _ _) as [[]|]; try discriminate; [|congruence].
      destruct (rec_lookup f ids _ high _) as [[]|]; congruence.
  - apply IHf. rewrite np_delete_shorter by auto. lia.
Qed.

Lemma np_sort_perm : forall l, Permutation (np_sort l) l.
Proof.
  assert (I : forall x l, Permutation (insert_sorted x l) (x :: l)).
  { induction l; simpl; auto. destruct (x <=? a); auto. rewrite IHl. constructor. }
  induction l; simpl; auto. rewrite I, IHl; auto.
Qed.

Lemma multi_lookup_raises : forall ids xs, StronglySorted Z.le ids -> (2 <= length xs)%nat ->
  (forall x, In x xs -> In x ids) -> exists e, indices_of_ids true ids xs = Some (inr e).
Proof.
  intros ids xs SO L IN. unfold indices_of_ids. destruct xs as [|x0 xs']; [simpl in L; lia|].
  set (xs := x0 :: xs') in *.
  assert (LS : length (np_sort xs) = length xs) by apply (Permutation_length (np_sort_perm xs)).
  assert (F := rec_lookup_fuel (S (length xs)) ids 0 (length ids) (np_sort xs) ltac:(lia)).
  destruct (rec_lookup (S (length xs)) ids 0 (length ids) (np_sort xs)) as [[ks|e]|] eqn:E; [exfalso|eauto|congruence].
  clear F. cbn [rec_lookup] in E. rewrite Nat.div2_div in E.
  destruct (nth_error (np_sort xs) (length (np_sort xs) / 2)) eqn:N; [|discriminate].
  assert (IZ : In z ids).
  { apply IN. apply (Permutation_in _ (np_sort_perm xs)). eapply nth_error_In; eauto. }
  unfold slice in E. simpl skipn in E. rewrite Nat.sub_0_r, firstn_all in E.
  replace (length (np_sort xs) =? 1)%nat with false in E by (symmetry; apply Nat.eqb_neq; lia).
  assert (IX := index_of_id_spec true ids z (fun _ => SO)). unfold index_of_id in IX.
  destruct (nth_error ids (bisect_left ids z)) eqn:NI; [|contradiction].
  destruct (z0 =? z) eqn:EZ; [|contradiction]. simpl negb in E. cbv iota in E.
  destruct (rec_lookup (length xs) ids 0 _ _) as [[]|]; try discriminate.
  destruct (rec_lookup (length xs) ids _ _ _) as [[]|]; discriminate.
Qed.

Lemma indices_of_ids_total : forall b ids xs, indices_of_ids b ids xs <> None.
Proof.
  intros. unfold indices_of_ids. destruct xs; [discriminate|]. destruct b; [|discriminate].
  apply rec_lookup_fuel. rewrite (Permutation_length (np_sort_perm _)). lia.
Qed.

(** * Sessions *)
Lemma guarded_app : forall names ops1 ops2 (s : spec V), guarded names s (ops1 ++ ops2) ->
  guarded names s ops1 /\ forall s' outs, spec_run s ops1 s' outs -> guarded names s' ops2.
Proof.
  induction ops1; simpl; intros ops2 s G.
  - split; auto. intros s' outs R; inversion R; subst; auto.
  - destruct G as (AL & G). split; [split; auto|].
    + intros s' r SS. apply (IHops1 ops2 s' (G _ _ SS)).
    + intros s' outs R. inversion R; subst. eapply (IHops1 ops2); eauto.
Qed.

Lemma session_inv : forall names ops o (w : world V), session names ops o w ->
  exists s, spec_run spec0 ops s (snd (run world0 ops)) /\ inv names w s /\ allowed names s o.
Proof.
  intros names ops o w (ND & G & ->). apply guarded_app in G. destruct G as (G1 & G2).
  destruct (run_refines names ops world0 spec0 ND (inv0 names) G1) as (s & R & I).
  exists s. split; auto. split; auto. apply G2 in R. apply R.
Qed.

Lemma history_refines : forall names (ops : list (op V)), NoDup names -> guarded names spec0 ops ->
  exists s, spec_run spec0 ops s (snd (run world0 ops)) /\ observed (fst (run world0 ops)) s.
Proof.
  intros names ops ND G. destruct (run_refines names ops world0 spec0 ND (inv0 names) G) as (s & R & I).
  exists s; split; auto. eapply inv_observed; eauto.
Qed.

Lemma iterate_live : forall names (w : world V) s i l, NoDup names -> inv names w s -> usable s i ->
  iterate w i = Some l -> live s i l.
Proof.
  intros names w s i l ND I U IT. destruct (usable_cases s i U) as [N|(rows & L)].
  - unfold iterate in IT. rewrite (get_coll_none _ _ _ _ I N) in IT. discriminate.
  - destruct (inv_observed names w s ND I) as (_ & OB). destruct (OB _ _ L) as (E & _). congruence.
Qed.

Lemma live_fun : forall (s : spec V) i a b, live s i a -> live s i b -> a = b.
Proof. unfold live; intros; congruence. Qed.

Lemma session_add : forall names ops i j (w : world V) li lj,
  session names ops (Add i j) w -> iterate w i = Some li -> iterate w j = Some lj ->
  exists l, step w (Add i j) = (fst (step w (Add i j)), ODone) /\
    iterate (fst (step w (Add i j))) i = Some l /\
    (l = li ++ lj \/ l = lj ++ li) /\
    set_len (fst (step w (Add i j))) i = Some (Z.of_nat (length li + length lj)) /\
    (i <> j -> iterate (fst (step w (Add i j))) j = Some lj).
Proof.
  intros names ops i j w li lj SE ITI ITJ. destruct (session_inv _ _ _ _ SE) as (s & R & I & AL).
  destruct SE as (ND & _). assert (AL' := AL). destruct AL' as (UI & UJ & INC).
  assert (LI := iterate_live _ _ _ _ _ ND I UI ITI). assert (LJ := iterate_live _ _ _ _ _ ND I UJ ITJ).
  destruct (step w (Add i j)) as (w', r) eqn:ST.
  destruct (step_refines _ _ _ _ _ _ ND I AL ST) as (s' & SS & I').
  destruct SS as [(li' & lj' & A & B & -> & D)|([N|N] & _)]; [|unfold no_such, live in *; congruence|unfold no_such, live in *; congruence].
  rewrite <- (live_fun _ _ _ _ LI A) in *. rewrite <- (live_fun _ _ _ _ LJ B) in *. clear A B li' lj'.
  assert (IL : (i < length (s_sets s))%nat) by (eapply nth_error_Some_lt; eauto).
  assert (FR : i <> j -> iterate w' j = Some lj).
  { intros NE. apply (step_frame names w s (Add i j) w' ODone j lj); auto. }
  destruct (inv_observed names w' s' ND I') as (_ & OB). simpl fst.
  destruct D as [(-> & ->)|[(NJ & -> & ->)|[(_ & _ & ->)|(_ & _ & ->)]]].
  - exists li. destruct (OB _ _ LI). split; auto. split; auto. split. { left; rewrite app_nil_r; auto. }
    simpl; rewrite Nat.add_0_r; auto.
  - assert (NE : i <> j) by (intros ->; rewrite (live_fun _ _ _ _ LI LJ) in NJ; congruence).
    assert (LV : live (set_to (set_to s i (Some lj)) j None) i lj).
    { unfold live, set_to; simpl. rewrite list_set_other by auto. apply list_set_same; auto. }
    exists lj. destruct (OB _ _ LV). auto.
  - assert (LV : live (set_to s i (Some (li ++ lj))) i (li ++ lj)).
    { unfold live, set_to; simpl. apply list_set_same; auto. }
    exists (li ++ lj). destruct (OB _ _ LV). rewrite <- app_length; auto.
  - assert (LV : live (set_to s i (Some (lj ++ li))) i (lj ++ li)).
    { unfold live, set_to; simpl. apply list_set_same; auto. }
    exists (lj ++ li). destruct (OB _ _ LV).
    rewrite Nat.add_comm, <- app_length; auto.
Qed.

(** The positions an operation asks to remove. *)
Lemma session_remove : forall names ops i ks ps (w : world V) l,
  session names ops (RemoveIndices i ks) w -> iterate w i = Some l ->
  Forall2 (means_position (length l)) ks ps ->
  exists l', step w (RemoveIndices i ks) = (fst (step w (RemoveIndices i ks)), ODone) /\
    iterate (fst (step w (RemoveIndices i ks))) i = Some l' /\ removed_exactly l ps l' /\
    set_len (fst (step w (RemoveIndices i ks))) i = Some (Z.of_nat (length l')).
Proof.
  intros names ops i ks ps w l SE IT F. destruct (session_inv _ _ _ _ SE) as (s & R & I & AL).
  destruct SE as (ND & _). assert (LI := iterate_live _ _ _ _ _ ND I (proj1 AL) IT).
  destruct (step w (RemoveIndices i ks)) as (w', r) eqn:ST.
  destruct (step_refines _ _ _ _ _ _ ND I AL ST) as (s' & SS & I').
  assert (IL : (i < length (s_sets s))%nat) by (eapply nth_error_Some_lt; eauto).
  simpl in SS. destruct SS as [(l0 & l' & ps' & L0 & F' & RM & -> & ->)|[(l0 & L0 & N & _)|(N & _)]].
  - rewrite <- (live_fun _ _ _ _ LI L0) in *.
    assert (ps' = ps).
    { clear - F F'. revert ps' F'. induction F; intros ps' F'; inversion F'; subst; auto.
      f_equal; auto. eapply means_position_fun; eauto. }
    subst ps'. exists l'.
    destruct (inv_observed names _ _ ND I') as (_ & OB).
    assert (LV : live (set_to s i (Some l')) i l') by (unfold live, set_to; simpl; apply list_set_same; auto).
    destruct (OB _ _ LV). auto.
  - rewrite <- (live_fun _ _ _ _ LI L0) in *. exfalso; eapply N; eauto.
  - unfold no_such, live in *; congruence.
Qed.

Lemma session_remove_bool : forall names ops i bs (w : world V) l,
  session names ops (RemoveBool i bs) w -> iterate w i = Some l -> length bs = length l ->
  exists l' ps, step w (RemoveBool i bs) = (fst (step w (RemoveBool i bs)), ODone) /\
    (forall p, In p ps <-> nth_error bs p = Some true) /\
    iterate (fst (step w (RemoveBool i bs))) i = Some l' /\ removed_exactly l ps l' /\
    set_len (fst (step w (RemoveBool i bs))) i = Some (Z.of_nat (length l')).
Proof.
  intros names ops i bs w l SE IT LB. destruct (session_inv _ _ _ _ SE) as (s & R & I & AL).
  destruct SE as (ND & _). assert (LI := iterate_live _ _ _ _ _ ND I AL IT).
  destruct (step w (RemoveBool i bs)) as (w', r) eqn:ST.
  destruct (step_refines _ _ _ _ _ _ ND I AL ST) as (s' & SS & I').
  assert (IL : (i < length (s_sets s))%nat) by (eapply nth_error_Some_lt; eauto).
  simpl in SS. destruct SS as [(l0 & l' & ps & L0 & _ & F & _ & RM & -> & ->)|[(l0 & p & L0 & N & LE & _)|(N & _)]].
  - rewrite <- (live_fun _ _ _ _ LI L0) in *. exists l', ps.
    destruct (inv_observed names _ _ ND I') as (_ & OB).
    assert (LV : live (set_to s i (Some l')) i l') by (unfold live, set_to; simpl; apply list_set_same; auto).
    destruct (OB _ _ LV). repeat split; auto; apply F.
  - rewrite <- (live_fun _ _ _ _ LI L0) in *. apply nth_error_Some_lt in N. lia.
  - unfold no_such, live in *; congruence.
Qed.

Lemma session_lookup : forall names ops i x (w : world V) l,
  session names ops (GetID i x) w -> iterate w i = Some l ->
  fst (step w (GetID i x)) = w /\
  ((exists p, first_with_id l x p /\ snd (step w (GetID i x)) = OIndex p) \/
   (~ has_id l x /\ exists e, snd (step w (GetID i x)) = ORaise e)).
Proof.
  intros names ops i x w l SE IT. destruct (session_inv _ _ _ _ SE) as (s & R & I & AL).
  destruct SE as (ND & _). assert (LI := iterate_live _ _ _ _ _ ND I AL IT).
  split.
  { simpl. destruct (get_coll w i) as [[]|]; auto. destruct (index_of_id _ _ _); auto. }
  destruct (step w (GetID i x)) as (w', r) eqn:ST.
  destruct (step_refines _ _ _ _ _ _ ND I AL ST) as (s' & SS & I'). simpl snd.
  simpl in SS. destruct SS as [(l0 & p & L0 & F & _ & ->)|[(l0 & L0 & N & _ & E)|(N & _)]].
  - left. exists p. rewrite (live_fun _ _ _ _ LI L0); auto.
  - right. rewrite (live_fun _ _ _ _ LI L0); auto.
  - unfold no_such, live in *; congruence.
Qed.

Lemma session_remove_id : forall names ops i x (w : world V) l,
  session names ops (RemoveID i x) w -> iterate w i = Some l ->
  let w' := fst (step w (RemoveID i x)) in
  (exists p l', first_with_id l x p /\ snd (step w (RemoveID i x)) = ODone /\
     iterate w' i = Some l' /\ removed_exactly l [p] l' /\ set_len w' i = Some (Z.of_nat (length l'))) \/
  (~ has_id l x /\ w' = w /\ exists e, snd (step w (RemoveID i x)) = ORaise e).
Proof.
  intros names ops i x w l SE IT w'. destruct (session_inv _ _ _ _ SE) as (s & R & I & AL).
  destruct SE as (ND & _). assert (LI := iterate_live _ _ _ _ _ ND I AL IT).
  assert (SAME : (exists e, snd (step w (RemoveID i x)) = ORaise e) -> w' = w).
  { unfold w'; simpl. destruct (get_coll w i) as [[]|]; auto. destruct (index_of_id _ _ _); auto.
    intros (e & C); discriminate. }
  destruct (step w (RemoveID i x)) as (w1, r) eqn:ST.
  destruct (step_refines _ _ _ _ _ _ ND I AL ST) as (s' & SS & I'). simpl in w', SAME |- *.
  assert (IL : (i < length (s_sets s))%nat) by (eapply nth_error_Some_lt; eauto).
  destruct SS as [(l0 & l' & p & L0 & F & RM & -> & ->)|[(l0 & L0 & N & _ & E)|(N & _)]].
  - left. rewrite <- (live_fun _ _ _ _ LI L0) in *. exists p, l'.
    destruct (inv_observed names _ _ ND I') as (_ & OB).
    assert (LV : live (set_to s i (Some l')) i l') by (unfold live, set_to; simpl; apply list_set_same; auto).
    destruct (OB _ _ LV). auto.
  - right. rewrite <- (live_fun _ _ _ _ LI L0) in *. auto.
  - unfold no_such, live in *; congruence.
Qed.

Lemma session_lookup_many : forall names ops i xs (w : world V) l,
  session names ops (GetIDs i xs) w -> iterate w i = Some l ->
  exists ps, snd (step w (GetIDs i xs)) = OIndices ps /\ positions_of l xs ps.
Proof.
  intros names ops i xs w l SE IT. destruct (session_inv _ _ _ _ SE) as (s & R & I & AL).
  destruct SE as (ND & _). assert (LI := iterate_live _ _ _ _ _ ND I (proj1 AL) IT).
  destruct (step w (GetIDs i xs)) as (w', r) eqn:ST.
  destruct (step_refines _ _ _ _ _ _ ND I AL ST) as (s' & SS & I'). simpl snd.
  simpl in SS. destruct SS as [(l0 & p & L0 & F & _ & ->)|(N & _)].
  - exists p. rewrite (live_fun _ _ _ _ LI L0); auto.
  - unfold no_such, live in *; congruence.
Qed.

Lemma session_frame : forall names ops o (w : world V), session names ops o w ->
  exists s, spec_run spec0 ops s (snd (run world0 ops)) /\ observed w s /\
    forall k rows, live s k rows -> k <> target w o ->
      iterate (fst (step w o)) k = Some rows /\
      set_len (fst (step w o)) k = Some (Z.of_nat (length rows)).
Proof.
  intros names ops o w SE. destruct (session_inv _ _ _ _ SE) as (s & R & I & AL).
  destruct SE as (ND & _). exists s. split; auto. split; [eapply inv_observed; eauto|].
  intros k rows L NE. destruct (step w o) as (w', r) eqn:ST. simpl.
  eapply step_frame; eauto.
Qed.

(** A set whose sorted flag is up: several ids, all present, are never found. *)
Lemma step_multi_lookup_raises : forall (w : world V) i c d xs,
  get_coll w i = Some (c, d) -> c_sorted c = true -> StronglySorted Z.le (d_id d) ->
  (2 <= length xs)%nat -> (forall x, In x xs -> In x (d_id d)) ->
  exists e, step w (GetIDs i xs) = (w, ORaise e) /\ step w (RemoveIDs i xs) = (w, ORaise e).
Proof.
  intros w i c d xs G S SO L IN. destruct (multi_lookup_raises (d_id d) xs SO L IN) as (e & E).
  exists e. simpl. rewrite G, S, E. auto.
Qed.
Lemma run_cons : forall (w : world V) o t, run w (o :: t) =
  let '(w1, r) := step w o in let '(w2, rs) := run w1 t in (w2, r :: rs).
Proof. reflexivity. Qed.

Lemma new_then_multi_raises : forall n cols xs, NoDup (map fst cols) ->
  (forall nc : string * list V, In nc cols -> length (snd nc) = n) -> (2 <= length xs)%nat ->
  (forall x, In x xs -> 0 <= x < Z.of_nat n) ->
  exists e, snd (run world0 [New None n cols; GetIDs 0 xs]) = [ODone; ORaise e].
Proof.
  intros n cols xs ND HL L IN. 
  set (w1 := fst (step (@world0 V) (New None n cols))).
  assert (ST : step (@world0 V) (New None n cols) = (w1, ODone) /\
     get_coll w1 0 = Some (mkColl 0 (Z.of_nat n) (all_diff_nonneg (map (fun k => k + 0) (arange n))),
        mkDict (map (fun k => k + 0) (arange n)) (repeat st_Evaluate n) cols)).
  { unfold w1. simpl. unfold do_new.
    replace (forallb (fun nc : string * list V => (length (snd nc) =? n)%nat) cols) with true
      by (symmetry; apply forallb_forall; intros; apply Nat.eqb_eq; auto).
    simpl negb. cbv iota. change (w_last (@world0 V)) with 0.
    assert (LA : length (map (fun k => k + 0) (arange n)) = n)
      by (unfold arange; rewrite !map_length, seq_length; auto).
    rewrite LA, Nat.eqb_refl. simpl. auto. }
  destruct ST as (ST & G).
  assert (AE : map (fun k => k + 0) (arange n) = arange n).
  { rewrite <- map_id. apply map_ext. intros; lia. }
  rewrite AE in G.
  assert (SO : forall m k, all_diff_nonneg (map Z.of_nat (seq k m)) = true).
  { induction m; simpl; intros; auto. destruct m; auto. specialize (IHm (S k)).
    change (map Z.of_nat (seq (S k) (S m))) with (Z.of_nat (S k) :: map Z.of_nat (seq (S (S k)) m)) in *.
    cbv iota. rewrite IHm. apply andb_true_intro; split; auto. lia. }
  assert (SO' : all_diff_nonneg (arange n) = true) by apply SO.
  destruct (step_multi_lookup_raises w1 0 _ _ xs G) as (e & E & _); auto.
  { apply all_diff_sorted; auto. }
  { intros x Hx. apply IN in Hx. unfold arange. apply in_map_iff. exists (Z.to_nat x). split; [lia|].
    apply in_seq; lia. }
  exists e. rewrite run_cons, ST, run_cons, E. auto.
Qed.
End More.
