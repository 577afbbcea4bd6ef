(** Proofs for C44: sums of kernels. *)
From Coq Require Import String List ZArith QArith Bool Arith Lia.
From Verif Require Import GenModel GenSpec GenProofs GenProofs4 MergeModel MergeSpec.
Import ListNotations.
Open Scope Z_scope.
Local Open Scope string_scope.
Local Open Scope list_scope.

Section Python.
Variable libm : string -> list Q -> option Q.
Variable fsample : string -> Q -> Q -> Q -> Q -> sample.
Variable vfsample : string -> Q -> Q -> Q -> Q -> vsample.
Variable aint : string -> bool.
Variable consts : leaf -> Q.

Notation pev := (peval libm fsample).
Notation pe := (penv consts).
Notation pex := (pexec libm fsample vfsample aint consts).
Notation pwh := (pwhile libm fsample vfsample aint consts).
Notation pex1' := (pex1 aint libm fsample vfsample consts).
Notation ends' := (ends libm fsample vfsample aint consts).

(** ** Fuel *)
Lemma pgive_mono : forall {A} (r : pres A) s k k' o, (forall v o, k v = o -> o <> OFuel -> k' v = o) ->
  pgive r s k = o -> o <> OFuel -> pgive r s k' = o.
Proof. intros A r s k k' o H E N. destruct r; cbn in *; auto. Qed.

Lemma pex_mono : forall n,
  (forall ss s o, pex n ss s = o -> o <> OFuel -> pex (S n) ss s = o) /\
  (forall f c b s o, pwh n f c b s = o -> o <> OFuel -> pwh (S n) f c b s = o).
Proof.
  induction n as [|n [IH IHw]]; [split; intros; cbn in *; congruence|]. split.
  - intros ss s o E N. destruct ss as [|i r]; [exact E|]. rewrite pex_cons in *.
    assert (X : forall o, pex1' n i s = o -> o <> OFuel -> pex1' (S n) i s = o).
    { intros o' E' N'. destruct i; try exact E'.
      - cbn [pex1] in *. eapply pgive_mono; [|exact E'|exact N']. intros v o2. apply IH.
      - cbn [pex1] in *. apply IHw; assumption. }
    destruct (pex1' n i s) eqn:E1; try (subst o; rewrite (X _ eq_refl N); reflexivity).
    rewrite (X _ eq_refl); [|discriminate]. apply IH; assumption.
  - intros f c b s o E N. rewrite pwh_step in *. eapply pgive_mono; [|exact E|exact N].
    intros v o2 E2 N2. cbv beta in *. destruct (ptruth v); [|exact E2].
    destruct (pex n b s) eqn:E1; try (subst o2; rewrite (IH _ _ _ E1 N2); reflexivity).
    + rewrite (IH _ _ _ E1) by discriminate. apply IHw; assumption.
    + rewrite (IH _ _ _ E1) by discriminate. exact E2.
Qed.
Lemma pex_more : forall n m ss s o, (n <= m)%nat -> pex n ss s = o -> o <> OFuel -> pex m ss s = o.
Proof. intros n m ss s o L E N. induction L; [exact E|]. apply pex_mono; assumption. Qed.

Lemma ends_fun : forall ss s o o', ends' ss s o -> ends' ss s o' -> o = o'.
Proof.
  intros ss s o o' [N [n E]] [N' [n' E']].
  pose proof (pex_more n (Nat.max n n') _ _ _ ltac:(lia) E N). pose proof (pex_more n' (Nat.max n n') _ _ _ ltac:(lia) E' N'). congruence.
Qed.

Lemma ends_nil : forall s o, ends' [] s o <-> o = ONext s.
Proof.
  intros s o. split.
  - intros [N [[|n] E]]; cbn in E; congruence.
  - intros ->. split; [discriminate|]. exists 1%nat. reflexivity.
Qed.

(** *** Sequences *)
Lemma ends_app_next : forall a b s s1 o, ends' a s (ONext s1) -> ends' b s1 o -> ends' (a ++ b) s o.
Proof.
  induction a as [|i a IH]; intros b s s1 o A B.
  - apply ends_nil in A. injection A as ->. exact B.
  - destruct A as [_ [n A]]. destruct n; [discriminate|]. rewrite pex_cons in A.
    destruct (pex1' n i s) as [s2| | | | |] eqn:E1; try discriminate.
    assert (A2 : ends' a s2 (ONext s1)) by (split; [discriminate|exists n; exact A]).
    destruct (IH b s2 s1 o A2 B) as [N [m M]]. split; [exact N|].
    exists (S (Nat.max n m)). cbn [app]. rewrite pex_cons.
    assert (F1 : pex1' (Nat.max n m) i s = ONext s2).
    { destruct i; try exact E1.
      - cbn [pex1] in *. eapply pgive_mono; [|exact E1|discriminate]. intros v o2 Q1 Q2. eapply pex_more; [|exact Q1|exact Q2]. lia.
      - cbn [pex1] in *. clear - E1. set (k := Nat.max n m). assert (L : (n <= k)%nat) by (unfold k; lia). clearbody k.
        induction L; [exact E1|]. apply pex_mono; [exact IHL|discriminate]. }
    rewrite F1. eapply pex_more; [|exact M|exact N]. lia.
Qed.

Lemma ends_app_stop : forall a b s o, ends' a s o -> (forall s1, o <> ONext s1) -> ends' (a ++ b) s o.
Proof.
  intros a b s o [N [n A]] NN. split; [exact N|]. exists n. revert a s o A N NN.
  induction n as [|n IH]; intros a s o A N NN; [cbn in A; congruence|].
  destruct a as [|i a]; [cbn in A; subst o; exfalso; eapply NN; reflexivity|].
  cbn [app]. rewrite pex_cons in *. destruct (pex1' n i s) eqn:E1; try exact A. apply IH; assumption.
Qed.

Lemma ends_split : forall a b s o, ends' (a ++ b) s o ->
  (exists s1, ends' a s (ONext s1) /\ ends' b s1 o) \/ (ends' a s o /\ forall s1, o <> ONext s1).
Proof.
  intros a b s o [N [n A]]. revert a s o A N. induction n as [|n IH]; intros a s o A N; [cbn in A; congruence|].
  destruct a as [|i a].
  - left. exists s. split; [apply ends_nil; reflexivity|]. split; [exact N|]. exists (S n). exact A.
  - cbn [app] in A. rewrite pex_cons in A. destruct (pex1' n i s) as [s2| | | | |] eqn:E1.
    + destruct (IH a s2 o A N) as [(s1 & A1 & B1)|[A1 NN]].
      * left. exists s1. split; [|exact B1]. destruct A1 as [_ [m M]]. split; [discriminate|].
        exists (S (Nat.max n m)). rewrite pex_cons.
        assert (F1 : pex1' (Nat.max n m) i s = ONext s2).
        { destruct i; try exact E1.
          - cbn [pex1] in *. eapply pgive_mono; [|exact E1|discriminate]. intros v o2 Q1 Q2. eapply pex_more; [|exact Q1|exact Q2]. lia.
          - cbn [pex1] in *. clear - E1. set (k := Nat.max n m). assert (L : (n <= k)%nat) by (unfold k; lia). clearbody k.
            induction L; [exact E1|]. apply pex_mono; [exact IHL|discriminate]. }
        rewrite F1. eapply pex_more; [|exact M|discriminate]. lia.
      * right. split; [|exact NN]. destruct A1 as [_ [m M]]. split; [exact N|].
        exists (S (Nat.max n m)). rewrite pex_cons.
        assert (F1 : pex1' (Nat.max n m) i s = ONext s2).
        { destruct i; try exact E1.
          - cbn [pex1] in *. eapply pgive_mono; [|exact E1|discriminate]. intros v o2 Q1 Q2. eapply pex_more; [|exact Q1|exact Q2]. lia.
          - cbn [pex1] in *. clear - E1. set (k := Nat.max n m). assert (L : (n <= k)%nat) by (unfold k; lia). clearbody k.
            induction L; [exact E1|]. apply pex_mono; [exact IHL|discriminate]. }
        rewrite F1. eapply pex_more; [|exact M|exact N]. lia.
    + subst o. right. split; [|discriminate]. split; [exact N|]. exists (S n). rewrite pex_cons, E1. reflexivity.
    + subst o. right. split; [|discriminate]. split; [exact N|]. exists (S n). rewrite pex_cons, E1. reflexivity.
    + subst o. right. split; [|discriminate]. split; [exact N|]. exists (S n). rewrite pex_cons, E1. reflexivity.
    + subst o. right. split; [|discriminate]. split; [exact N|]. exists (S n). rewrite pex_cons, E1. reflexivity.
    + congruence.
Qed.

(** ** Locals *)
Definition agrees (D : list string) (s s' : pst) : Prop :=
  p_att s = p_att s' /\ forall x, inb x D = true -> p_loc s x = p_loc s' x.

Definition alike (D : list string) (D' : option (list string)) (o o' : pout) : Prop :=
  match o, o' with
  | ONext s, ONext s' => match D' with Some k => agrees k s s' | None => False end
  | OBreak s, OBreak s' => agrees D s s'
  | OReturn c s, OReturn c' s' | OErr c s, OErr c' s' => c = c' /\ p_att s = p_att s'
  | ORaise, ORaise | OFuel, OFuel => True
  | _, _ => False
  end.

Lemma inb_In : forall x l, inb x l = true <-> In x l.
Proof.
  intros x l. unfold inb. rewrite existsb_exists. split.
  - intros (y & I & E). apply String.eqb_eq in E. subst. exact I.
  - intros I. exists x. split; [exact I|apply String.eqb_refl].
Qed.

Lemma reads_eq : forall D s s' e, agrees D s s' -> reads D e = true -> pev (pe s) e = pev (pe s') e.
Proof.
  intros D s s' e [EA EL]. induction e; cbn [reads]; intros R; try reflexivity.
  - destruct l; cbn [peval penv]; try reflexivity.
    + rewrite (EL _ R). reflexivity.
    + rewrite EA. reflexivity.
  - apply andb_true_iff in R as [R R4]. apply andb_true_iff in R as [R R3]. apply andb_true_iff in R as [R1 R2].
    cbn [peval]. rewrite IHe1, IHe2, IHe3, IHe4 by assumption. reflexivity.
  - cbn [peval]. rewrite IHe by exact R. reflexivity.
  - apply andb_true_iff in R as [R1 R2]. cbn [peval]. rewrite IHe1, IHe2 by assumption. reflexivity.
  - apply andb_true_iff in R as [R1 R2]. cbn [peval]. rewrite IHe1, IHe2 by assumption. reflexivity.
  - apply andb_true_iff in R as [R1 R2]. cbn [peval]. rewrite IHe1, IHe2 by assumption. reflexivity.
  - cbn [peval]. rewrite IHe by exact R. reflexivity.
  - apply andb_true_iff in R as [R1 R2]. cbn [peval]. rewrite IHe1, IHe2 by assumption. reflexivity.
Qed.

Lemma agrees_assign : forall D s s' t v, agrees D s s' -> agrees (add_targets [t] D) (passign aint s t v) (passign aint s' t v).
Proof.
  intros D s s' t v [EA EL]. destruct t as [x|a]; cbn; split; cbn; try congruence; try exact EL.
  intros y I. change (inb y (x :: D) = true) in I. apply inb_In in I. unfold upd. destruct (String.eqb y x) eqn:Q; [reflexivity|].
  destruct I as [->|I]; [rewrite String.eqb_refl in Q; discriminate|]. apply EL, inb_In, I.
Qed.
Lemma add_targets_in : forall ts D x, In x (add_targets ts D) <-> In x D \/ In (TVar x) ts.
Proof.
  induction ts as [|t ts IH]; intros D x; cbn [add_targets fold_left]; [cbn; tauto|].
  fold (add_targets ts (match t with TVar y => y :: D | TAttr _ => D end)). rewrite IH. destruct t as [y|a]; cbn [In].
  - assert (Q : y = x <-> TVar y = TVar x) by (split; congruence). tauto.
  - assert (Q : TAttr a <> TVar x) by discriminate. tauto.
Qed.
Lemma agrees_assigns : forall ts vs D s s', agrees D s s' -> length ts = length vs ->
  agrees (add_targets ts D) (passigns aint s ts vs) (passigns aint s' ts vs).
Proof.
  induction ts as [|t ts IH]; intros [|v vs] D s s' A L; cbn in L; try discriminate; [exact A|].
  unfold passigns. cbn [combine fold_left fst snd].
  apply (IH vs (add_targets [t] D)); [apply agrees_assign; exact A|lia].
Qed.

Lemma agrees_sub : forall D D' s s', (forall x, In x D' -> In x D) -> agrees D s s' -> agrees D' s s'.
Proof. intros D D' s s' I [A L]. split; [exact A|]. intros x X. apply L. apply inb_In, I, inb_In, X. Qed.
Lemma agrees_odd : forall D s s' b b', agrees D s s' -> agrees D (podd s b) (podd s' b').
Proof. intros D s s' b b' [A L]. split; [exact A|exact L]. Qed.
Lemma agrees_trans : forall D s1 s2 s3, agrees D s1 s2 -> agrees D s2 s3 -> agrees D s1 s3.
Proof. intros D s1 s2 s3 [A L] [A2 L2]. split; [congruence|]. intros x X. rewrite L, L2 by exact X. reflexivity. Qed.

Lemma settle_step : forall D s,
  settle D s =
  match s with
  | SAssign t e => if reads D e then Some (add_targets [t] D) else None
  | SAug t _ e => if reads D e && reads D (ELeaf (target_leaf t)) then Some (add_targets [t] D) else None
  | STuple ts es => if forallb (reads D) es then Some (add_targets ts D) else None
  | SVec ts _ t z y x => if reads D t && reads D z && reads D y && reads D x then Some (add_targets ts D) else None
  | SIf c b o => if reads D c then match settle_all D b, settle_all D o with
                                   | Some kb, Some ko => Some (filter (fun x => inb x ko) kb) | _, _ => None end else None
  | SWhile c b => if reads D c then match settle_all D b with Some _ => Some D | None => None end else None
  | SBreak | SPass | SReturn _ | SDelete => Some D
  end.
Proof.
  intros D s. destruct s; reflexivity.
Qed.

Lemma some_is : forall {A} (a b : A), Some a = Some b -> b = a.
Proof. congruence. Qed.

(** What is known stays known. *)
Fixpoint ssize (s : stmt) : nat :=
  match s with
  | SIf _ b o => S (list_sum (map ssize b) + list_sum (map ssize o))
  | SWhile _ b => S (list_sum (map ssize b))
  | _ => 1
  end.
Lemma settle_grows : forall n,
  (forall s D k, (ssize s <= n)%nat -> settle D s = Some k -> forall x, In x D -> In x k) /\
  (forall ss D k, (list_sum (map ssize ss) <= n)%nat -> settle_all D ss = Some k -> forall x, In x D -> In x k).
Proof.
  induction n as [|n [IH1 IH2]].
  - split.
    + intros s D k L. destruct s; cbn in L; lia.
    + intros ss D k L. destruct ss as [|s ss]; [cbn; congruence|]. cbn in L. destruct s; cbn in L; lia.
  - assert (A : forall s D k, (ssize s <= S n)%nat -> settle D s = Some k -> forall x, In x D -> In x k).
    { intros s D k L E x I. rewrite settle_step in E. destruct s; cbn [ssize] in L.
      - destruct (reads D e); [|discriminate]. rewrite (some_is _ _ E). apply add_targets_in. left. exact I.
      - destruct (_ && _); [|discriminate]. rewrite (some_is _ _ E). apply add_targets_in. left. exact I.
      - destruct (forallb _ _); [|discriminate]. rewrite (some_is _ _ E). apply add_targets_in. left. exact I.
      - destruct (_ && _); [|discriminate]. rewrite (some_is _ _ E). apply add_targets_in. left. exact I.
      - destruct (reads D c); [|discriminate]. destruct (settle_all D b) as [kb|] eqn:Eb; [|discriminate].
        destruct (settle_all D o) as [ko|] eqn:Eo; [|discriminate]. injection E as <-. apply filter_In.
        split; [eapply IH2; [|exact Eb|exact I]; lia|]. apply inb_In. eapply IH2; [|exact Eo|exact I]. lia.
      - destruct (reads D c); [|discriminate]. destruct (settle_all D b); [|discriminate]. injection E as <-. exact I.
      - injection E as <-. exact I.
      - injection E as <-. exact I.
      - injection E as <-. exact I.
      - injection E as <-. exact I. }
    split; [exact A|]. induction ss as [|s ss IH]; intros D k L E x I; cbn [settle_all] in E; [congruence|].
    change (list_sum (map ssize (s :: ss))) with (ssize s + list_sum (map ssize ss))%nat in L. destruct (settle D s) as [k1|] eqn:E1; [|discriminate]. eapply IH; [lia|exact E|]. eapply A; [|exact E1|exact I]. lia.
Qed.
Lemma all_grows : forall ss D k, settle_all D ss = Some k -> forall x, In x D -> In x k.
Proof. intros ss D k. apply (proj2 (settle_grows (list_sum (map ssize ss)))). lia. Qed.
Lemma one_grows : forall s D k, settle D s = Some k -> forall x, In x D -> In x k.
Proof. intros s D k. apply (proj1 (settle_grows (ssize s))). lia. Qed.

Lemma alike_give : forall {A} (r : pres A) D D' s s' k k', agrees D s s' -> (forall v, alike D D' (k v) (k' v)) ->
  alike D D' (pgive r s k) (pgive r s' k').
Proof.
  intros A r D D' s s' k k' [EA EL] H. destruct r; cbn [pgive]; [apply H|split; [reflexivity|exact EA]|exact I].
Qed.

(** Runs from states that agree on what is known do the same. *)
Lemma not_seen : forall n,
  (forall ss D k s s', settle_all D ss = Some k -> agrees D s s' -> alike D (Some k) (pex n ss s) (pex n ss s')) /\
  (forall f f' c b D k s s', reads D c = true -> settle_all D b = Some k -> agrees D s s' ->
     alike D (Some D) (pwh n f c b s) (pwh n f' c b s')).
Proof.
  induction n as [|n [IH IHw]]; [split; intros; exact I|]. split.
  - intros ss D k s s' E A. destruct ss as [|i r]; [cbn in *; injection E as <-; exact A|].
    cbn [settle_all] in E. destruct (settle D i) as [k1|] eqn:E1; [|discriminate]. rewrite !pex_cons.
    assert (X : alike D (Some k1) (pex1' n i s) (pex1' n i s')).
    { rewrite settle_step in E1. destruct i; cbn [pex1].
      - destruct (reads D e) eqn:R; [|discriminate]. apply some_is in E1; subst k1. rewrite (reads_eq _ _ _ _ A R).
        apply alike_give; [exact A|]. intros v. apply agrees_assign. exact A.
      - destruct (reads D e) eqn:R; [|discriminate]. destruct (reads D (ELeaf (target_leaf t))) eqn:R2; [|discriminate].
        apply some_is in E1; subst k1. unfold aug_value. rewrite (reads_eq _ _ _ _ A R), (reads_eq _ _ _ _ A R2).
        apply alike_give; [exact A|]. intros v. apply agrees_assign. exact A.
      - destruct (forallb (reads D) es) eqn:R; [|discriminate]. apply some_is in E1; subst k1.
        assert (Q : peval_list libm fsample (pe s) es = peval_list libm fsample (pe s') es).
        { clear - A R. induction es as [|e es IH]; [reflexivity|]. cbn [forallb] in R. apply andb_true_iff in R as [R1 R2].
          cbn [peval_list]. rewrite (reads_eq _ _ _ _ A R1), IH by exact R2. reflexivity. }
        rewrite Q. apply alike_give; [exact A|]. intros v. destruct (length ts =? length v)%nat eqn:L; [|exact I].
        apply agrees_assigns; [exact A|]. apply Nat.eqb_eq. exact L.
      - destruct (reads D t && reads D z && reads D y && reads D x) eqn:R; [|discriminate]. apply some_is in E1; subst k1.
        apply andb_true_iff in R as [R R4]. apply andb_true_iff in R as [R R3]. apply andb_true_iff in R as [R1 R2].
        unfold vec_value. rewrite (reads_eq _ _ _ _ A R1), (reads_eq _ _ _ _ A R2), (reads_eq _ _ _ _ A R3), (reads_eq _ _ _ _ A R4).
        apply alike_give; [exact A|]. intros v. destruct (length ts =? length v)%nat eqn:L; [|exact I].
        apply agrees_assigns; [exact A|]. apply Nat.eqb_eq. exact L.
      - destruct (reads D c) eqn:R; [|discriminate]. destruct (settle_all D b) as [kb|] eqn:Eb; [|discriminate].
        destruct (settle_all D o) as [ko|] eqn:Eo; [|discriminate]. apply some_is in E1; subst k1. rewrite (reads_eq _ _ _ _ A R).
        apply alike_give; [exact A|]. intros v. destruct (ptruth v).
        + pose proof (IH b D kb s s' Eb A) as Y. destruct (pex n b s), (pex n b s'); try exact Y. cbn in *.
          eapply agrees_sub; [|exact Y]. intros x' I. apply filter_In in I. apply I.
        + pose proof (IH o D ko s s' Eo A) as Y. destruct (pex n o s), (pex n o s'); try exact Y. cbn in *.
          eapply agrees_sub; [|exact Y]. intros x' I. apply filter_In in I as [_ I]. apply inb_In. exact I.
      - destruct (reads D c) eqn:R; [|discriminate]. destruct (settle_all D b) as [kb|] eqn:Eb; [|discriminate]. apply some_is in E1; subst k1.
        eapply IHw; eassumption.
      - apply some_is in E1; subst k1. exact A.
      - apply some_is in E1; subst k1. exact A.
      - apply some_is in E1; subst k1. split; [reflexivity|apply A].
      - apply some_is in E1; subst k1. destruct A as [EA EL]. split; cbn; [rewrite EA; reflexivity|exact EL]. }
    destruct (pex1' n i s) as [s1| | | | |], (pex1' n i s') as [s1'| | | | |]; try exact X; try contradiction.
    cbn [alike] in X. pose proof (IH r k1 k s1 s1' E X) as Y.
    destruct (pex n r s1), (pex n r s1'); try exact Y. cbn [alike] in *. eapply agrees_sub; [|exact Y]. exact (one_grows _ _ _ E1).
  - intros f f' c b D k s s' R E A. rewrite !pwh_step, (reads_eq _ _ _ _ A R). apply alike_give; [exact A|]. intros v.
    destruct (ptruth v); [|cbn; apply agrees_odd; exact A].
    pose proof (IH b D k s s' E A) as Y. destruct (pex n b s), (pex n b s'); try exact Y; try contradiction.
    cbn [alike] in Y. eapply IHw; [exact R|exact E|]. eapply agrees_sub; [|exact Y]. exact (all_grows _ _ _ E).
Qed.

(** What is not assigned stays. *)
Lemma passigns_loc : forall x ts vs s, existsb (target_is x) ts = false -> p_loc (passigns aint s ts vs) x = p_loc s x.
Proof.
  intros x. induction ts as [|t ts IH]; intros vs s F; [reflexivity|]. cbn [existsb] in F. apply orb_false_iff in F as [F1 F2].
  unfold passigns. destruct vs as [|v vs]; [reflexivity|]. cbn [combine fold_left fst snd].
  etransitivity; [apply (IH vs); exact F2|]. destruct t as [y|a]; [|reflexivity]. cbn in *. unfold upd. rewrite F1. reflexivity.
Qed.
Definition keeps (x : string) (s : pst) (o : pout) : Prop :=
  match o with ONext s' | OBreak s' => p_loc s' x = p_loc s x | _ => True end.
Lemma keeps_trans : forall x s s1 o, p_loc s1 x = p_loc s x -> keeps x s1 o -> keeps x s o.
Proof. intros x s s1 o E K. destruct o; cbn in *; congruence. Qed.
Lemma not_set : forall x n,
  (forall ss s, existsb (sets x) ss = false -> keeps x s (pex n ss s)) /\
  (forall f c b s, existsb (sets x) b = false -> keeps x s (pwh n f c b s)).
Proof.
  intros x. induction n as [|n [IH IHw]]; [split; intros; exact I|]. split.
  - intros ss s F. destruct ss as [|i r]; [reflexivity|]. cbn [existsb] in F. apply orb_false_iff in F as [F1 F2]. rewrite pex_cons.
    assert (X : keeps x s (pex1' n i s)).
    { destruct i; cbn [pex1 sets] in *.
      - destruct (pev _ _); try exact I. cbn. destruct t as [y|a]; cbn in *; [unfold upd; rewrite F1; reflexivity|reflexivity].
      - destruct (aug_value _ _ _ _ _ _ _); try exact I. cbn. destruct t as [y|a]; cbn in *; [unfold upd; rewrite F1; reflexivity|reflexivity].
      - destruct (peval_list _ _ _ _); try exact I. cbn [pgive]. destruct (_ =? _)%nat; [|exact I]. apply passigns_loc. exact F1.
      - destruct (vec_value _ _ _ _ _ _ _ _ _ _); try exact I. cbn [pgive]. destruct (_ =? _)%nat; [|exact I]. apply passigns_loc. exact F1.
      - destruct (pev _ _); try exact I. cbn [pgive]. apply orb_false_iff in F1 as [F3 F4]. apply IH. destruct (ptruth v); assumption.
      - apply IHw. exact F1.
      - reflexivity.
      - reflexivity.
      - exact I.
      - reflexivity. }
    destruct (pex1' n i s) eqn:E1; try exact X. eapply keeps_trans; [exact X|]. apply IH. exact F2.
  - intros f c b s F. rewrite pwh_step. destruct (pev _ _); try exact I. cbn [pgive]. destruct (ptruth v); [|reflexivity].
    pose proof (IH b s F) as X. destruct (pex n b s) eqn:E1; try exact X. eapply keeps_trans; [exact X|]. apply IHw. exact F.
Qed.

Lemma no_break : forall n ss s, existsb loose_break ss = false -> forall s1, pex n ss s <> OBreak s1.
Proof.
  induction n as [|n IH]; intros ss s F s1; [discriminate|]. destruct ss as [|i r]; [discriminate|].
  cbn [existsb] in F. apply orb_false_iff in F as [F1 F2]. rewrite pex_cons.
  assert (X : forall s1, pex1' n i s <> OBreak s1).
  { intros s2. destruct i; cbn [pex1 loose_break] in *; try discriminate.
    - destruct (pev _ _); cbn; discriminate.
    - destruct (aug_value _ _ _ _ _ _ _); cbn; discriminate.
    - destruct (peval_list _ _ _ _); cbn; try discriminate. destruct (_ =? _)%nat; discriminate.
    - destruct (vec_value _ _ _ _ _ _ _ _ _ _); cbn; try discriminate. destruct (_ =? _)%nat; discriminate.
    - destruct (pev _ _); cbn [pgive]; try discriminate. apply orb_false_iff in F1 as [F3 F4]. apply IH. destruct (ptruth v); assumption.
    - assert (W : forall m f s, pwh m f c b s <> OBreak s2).
      { clear. induction m as [|m IHm]; intros f s; [discriminate|]. rewrite pwh_step. destruct (pev _ _); cbn [pgive]; try discriminate.
        destruct (ptruth v); [|discriminate]. destruct (pex m b s); try discriminate. apply IHm. }
      apply W. }
  destruct (pex1' n i s) as [s2|s2| | | |] eqn:E1; try discriminate; [apply IH; exact F2|exfalso; eapply X; reflexivity].
Qed.

(** ** The sum *)
Lemma alone : forall b time att s, own_locals b -> p_att s = att -> p_loc s "time" = Some time ->
  forall o, ends' b s o -> exists o', ends' b (called time att) o' /\ see o' = see o /\ see o <> None.
Proof.
  intros b time att s (SE & _ & LB) EA ET o [N [n E]]. destruct (settle_all ["time"] b) as [k|] eqn:SQ; [|congruence].
  assert (A : agrees ["time"] s (called time att)).
  { split; [exact EA|]. intros x I. apply inb_In in I as [<-|[]]. rewrite ET. reflexivity. }
  pose proof (proj1 (not_seen n) b _ _ _ _ SQ A) as X. rewrite E in X.
  exists (pex n b (called time att)).
  assert (NB : forall s1, o <> OBreak s1) by (intros s1 Q; subst o; apply (no_break n b s LB s1 Q)).
  destruct o as [s1|s1|c s1|c s1| |], (pex n b (called time att)) as [s2|s2|c2 s2|c2 s2| |] eqn:E2; try contradiction X;
    try (exfalso; eapply NB; reflexivity); try congruence.
  - split; [split; [discriminate|exists n; exact E2]|]. cbn in *. destruct X as [-> _]. split; [reflexivity|discriminate].
  - split; [split; [discriminate|exists n; exact E2]|]. cbn in *. destruct X as [-> ->]. split; [reflexivity|discriminate].
  - split; [split; [discriminate|exists n; exact E2]|]. cbn in *. destruct X as [-> ->]. split; [reflexivity|discriminate].
  - split; [split; [discriminate|exists n; exact E2]|]. split; [reflexivity|discriminate].
Qed.

Lemma alone_back : forall b time att s, own_locals b -> p_att s = att -> p_loc s "time" = Some time ->
  forall o, ends' b (called time att) o ->
  exists o', ends' b s o' /\ see o' = see o /\ see o <> None /\ forall s1, o' = ONext s1 -> p_loc s1 "time" = Some time.
Proof.
  intros b time att s (SE & ST & LB) EA ET o [N [n E]]. destruct (settle_all ["time"] b) as [k|] eqn:SQ; [|congruence].
  assert (A : agrees ["time"] s (called time att)).
  { split; [exact EA|]. intros x I. apply inb_In in I as [<-|[]]. rewrite ET. reflexivity. }
  pose proof (proj1 (not_seen n) b _ _ _ _ SQ A) as X. rewrite E in X.
  pose proof (proj1 (not_set "time" n) b s ST) as KT.
  exists (pex n b s).
  assert (NB : forall s1, o <> OBreak s1) by (intros s1 Q; subst o; apply (no_break n b _ LB s1 Q)).
  destruct o as [s1|s1|c s1|c s1| |], (pex n b s) as [s2|s2|c2 s2|c2 s2| |] eqn:E2; try contradiction X;
    try (exfalso; eapply NB; reflexivity); try congruence.
  - split; [split; [discriminate|exists n; exact E2]|]. cbn in *. destruct X as [-> _]. split; [reflexivity|]. split; [discriminate|].
    intros s3 Q. injection Q as <-. congruence.
  - split; [split; [discriminate|exists n; exact E2]|]. cbn in *. destruct X as [-> ->]. split; [reflexivity|]. split; [discriminate|discriminate].
  - split; [split; [discriminate|exists n; exact E2]|]. cbn in *. destruct X as [-> ->]. split; [reflexivity|]. split; [discriminate|discriminate].
  - split; [split; [discriminate|exists n; exact E2]|]. split; [reflexivity|]. split; [discriminate|discriminate].
Qed.

Lemma sum_order : forall time bs, Forall own_locals bs -> forall att s, p_att s = att -> p_loc s "time" = Some time ->
  forall r, in_order libm fsample vfsample aint consts time bs att r <-> exists o, ends' (concat bs) s o /\ see o = Some r.
Proof.
  intros time. induction bs as [|b bs IH]; intros F att s EA ET r.
  - cbn [concat]. split.
    + intros O. inversion O; subst. exists (ONext s). split; [apply ends_nil; reflexivity|reflexivity].
    + intros (o & O & S). apply ends_nil in O. subst o. cbn in S. injection S as <-. rewrite EA. constructor.
  - inversion F as [|? ? OL F2]; subst. cbn [concat]. split.
    + intros O. inversion O as [|b0 bs0 att0 s1 r0 E1 O1|b0 bs0 att0 o r0 E1 S1 NF]; subst.
      * destruct (alone_back b time _ s OL eq_refl ET _ E1) as (o' & E' & SE & _ & KT).
        destruct o' as [s2|s2|c2 s2|c2 s2| |]; try discriminate SE. cbn in SE. injection SE as SE.
        destruct (proj1 (IH F2 _ s2 SE (KT _ eq_refl) r)) as (o2 & E2 & S2); [exact O1|].
        exists o2. split; [|exact S2]. eapply ends_app_next; eassumption.
      * destruct (alone_back b time _ s OL eq_refl ET _ E1) as (o' & E' & SE & _ & _).
        exists o'. split; [|congruence]. apply ends_app_stop; [exact E'|]. intros s1 Q. subst o'. cbn in SE. eapply NF.
        rewrite <- SE in S1. injection S1 as <-. reflexivity.
    + intros (o & E & S). apply ends_split in E as [(s1 & E1 & E2)|[E1 NN]].
      * assert (T1 : p_loc s1 "time" = Some time).
        { destruct E1 as [_ [n E1]]. destruct OL as (_ & ST & _). pose proof (proj1 (not_set "time" n) b s ST) as K. rewrite E1 in K.
          cbn in K. congruence. }
        destruct (alone b time _ s OL eq_refl ET _ E1) as (o' & E' & SE & _).
        destruct o' as [s2|s2|c2 s2|c2 s2| |]; try discriminate SE. cbn in SE. injection SE as SE.
        eapply in_order_next; [exact E'|]. apply (IH F2 _ s1 (eq_sym SE) T1 r). exists o. auto.
      * destruct (alone b time _ s OL eq_refl ET _ E1) as (o' & E' & SE & _). eapply in_order_stop; [exact E'|congruence|].
        intros a Q. subst r. destruct o; try discriminate S. eapply NN. reflexivity.
Qed.

End Python.
