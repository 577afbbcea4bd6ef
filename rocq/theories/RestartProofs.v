From Coq Require Import String List ZArith Bool Arith Lia ZifyBool Sorted.
From Verif Require Import CollModel OutModel OutSpec OutProofs RestartModel RestartSpec.
Import ListNotations.
Local Open Scope string_scope.
Local Open Scope list_scope.
Local Open Scope Z_scope.

Lemma sequence_app : forall A (a b : list (option A)) x y, sequence a = Some x -> sequence b = Some y -> sequence (a ++ b) = Some (x ++ y).
Proof.
  induction a as [|[c|] a IH]; cbn; intros b x y H1 H2; [injection H1 as <-; exact H2| |discriminate].
  destruct (sequence a) as [r|] eqn:E; [|discriminate]. injection H1 as <-. rewrite (IH b r y eq_refl H2). reflexivity.
Qed.
Lemma sequence_map : forall A B (f : A -> option B) (g : A -> B) l, (forall a, In a l -> f a = Some (g a)) -> sequence (map f l) = Some (map g l).
Proof.
  induction l as [|a l IH]; cbn; intros H; [reflexivity|]. rewrite (H a (or_introl eq_refl)), IH by (intros; apply H; right; assumption). reflexivity.
Qed.
Lemma nth_error_mid : forall A (a b : list A) x, nth_error (a ++ x :: b) (length a) = Some x.
Proof. intros. rewrite nth_error_app2 by lia. rewrite Nat.sub_diag. reflexivity. Qed.
Lemma assoc_in : forall A (l : list (string * A)) v x, NoDup (map fst l) -> In (v, x) l -> assoc v l = Some x.
Proof.
  induction l as [|[n a] l IH]; cbn; intros v x ND H; [contradiction|]. inversion ND as [|? ? N1 N2]; subst.
  destruct H as [H|H]; [injection H as -> ->; rewrite String.eqb_refl; reflexivity|].
  destruct (String.eqb_spec n v) as [->|]; [exfalso; apply N1; apply (in_map fst) in H; exact H|]. apply IH; assumption.
Qed.
Lemma assoc_none : forall A (l : list (string * A)) v, ~ In v (map fst l) -> assoc v l = None.
Proof.
  induction l as [|[n a] l IH]; cbn; intros v H; [reflexivity|]. destruct (String.eqb_spec n v) as [->|]; [exfalso; apply H; left; reflexivity|].
  apply IH. intros C. apply H. right. exact C.
Qed.
Lemma assoc_app_l : forall A (l l' : list (string * A)) v x, assoc v l = Some x -> assoc v (l ++ l') = Some x.
Proof. induction l as [|[n a] l IH]; cbn; intros l' v x H; [discriminate|]. destruct (String.eqb n v); [exact H|apply IH, H]. Qed.
Lemma assoc_app_r : forall A (l l' : list (string * A)) v, assoc v l = None -> assoc v (l ++ l') = assoc v l'.
Proof. induction l as [|[n a] l IH]; cbn; intros l' v H; [reflexivity|]. destruct (String.eqb n v); [discriminate|apply IH, H]. Qed.

(** ** Matrices of rows padded with missing values *)
Section Mat.
  Context {V A : Type}.
  Variable num : V -> Z.
  Variable width : nat.
  Definition padded (g : A -> V) (l : list A) : list (option V) := map (fun a => Some (g a)) l ++ repeat None (width - length l)%nat.

  Lemma where_row_none : forall n c t, where_row num c t (repeat None n) = [].
  Proof. induction n; cbn; intros; [reflexivity|apply IHn]. Qed.

  Lemma where_row_pick : forall (f g : A -> V) t l n m pre,
    sequence (map (nth_error (pre ++ map (fun a => Some (g a)) l ++ repeat None m)) (where_row num (length pre) t (map (fun a => Some (f a)) l ++ repeat None n)))
    = Some (map (fun a => Some (g a)) (filter (fun a => num (f a) =? t) l)).
  Proof.
    induction l as [|a l IH]; cbn [map app filter where_row]; intros n m pre; [rewrite where_row_none; reflexivity|].
    assert (E : pre ++ Some (g a) :: map (fun a => Some (g a)) l ++ repeat None m = (pre ++ [Some (g a)]) ++ map (fun a => Some (g a)) l ++ repeat None m)
      by (rewrite <- app_assoc; reflexivity).
    assert (L : S (length pre) = length (pre ++ [Some (g a)])) by (rewrite app_length; cbn; lia).
    destruct (num (f a) =? t).
    - cbn [map sequence]. rewrite nth_error_mid, L, E, IH. reflexivity.
    - rewrite L, E. apply IH.
  Qed.

  Lemma where_rows_pick : forall (f g : A -> V) t L pre,
    sequence (map (fun rc => match nth_error (pre ++ map (padded g) L) (fst rc) with Some r => nth_error r (snd rc) | None => None end)
                  (where_rows num (length pre) t (map (padded f) L)))
    = Some (flat_map (fun l => map (fun a => Some (g a)) (filter (fun a => num (f a) =? t) l)) L).
  Proof.
    induction L as [|l L IH]; cbn [map flat_map where_rows]; intros pre; [reflexivity|]. rewrite map_app. apply sequence_app.
    - rewrite map_map. cbn [fst snd]. rewrite nth_error_mid. apply (where_row_pick f g t l _ _ []).
    - replace (S (length pre)) with (length (pre ++ [padded g l])) by (rewrite app_length; cbn; lia).
      replace (pre ++ padded g l :: map (padded g) L) with ((pre ++ [padded g l]) ++ map (padded g) L) by (rewrite <- app_assoc; reflexivity).
      apply IH.
  Qed.

  Lemma where_rows_pick1 : forall (f : A -> V) (h : list A -> option V) t L pre,
    sequence (map (fun rc => nth_error (pre ++ map h L) (fst rc)) (where_rows num (length pre) t (map (padded f) L)))
    = Some (flat_map (fun l => map (fun _ => h l) (filter (fun a => num (f a) =? t) l)) L).
  Proof.
    induction L as [|l L IH]; cbn [map flat_map where_rows]; intros pre; [reflexivity|]. rewrite map_app. apply sequence_app.
    - rewrite map_map. cbn [fst snd]. rewrite nth_error_mid.
      pose proof (where_row_pick f f t l (width - length l) (width - length l) []) as P.
      assert (LE : forall (w : list nat) (y : list (option V)) (F : nat -> option (option V)), sequence (map F w) = Some y -> length w = length y).
      { clear. induction w as [|x w IH]; cbn; intros y F H; [injection H as <-; reflexivity|]. destruct (F x); [|discriminate].
        destruct (sequence (map F w)) eqn:E; [|discriminate]. injection H as <-. cbn. f_equal. apply (IH _ F E). }
      cbn [length app] in P. apply LE in P. rewrite map_length in P.
      rewrite (sequence_map _ _ (fun _ => Some (h l)) (fun _ => h l)) by reflexivity. f_equal.
      change (padded f l) with (map (fun a => Some (f a)) l ++ repeat None (width - length l)).
      revert P. generalize (where_row num 0 t (map (fun a => Some (f a)) l ++ repeat None (width - length l))) as u.
      generalize (filter (fun a => num (f a) =? t) l) as v. induction v as [|b v IHv]; intros [|k u] P; cbn in *; try discriminate; [reflexivity|].
      f_equal. apply IHv. lia.
    - replace (S (length pre)) with (length (pre ++ [h l])) by (rewrite app_length; cbn; lia).
      replace (pre ++ h l :: map h L) with ((pre ++ [h l]) ++ map h L) by (rewrite <- app_assoc; reflexivity).
      apply IH.
  Qed.

  Lemma finite_padded : forall (f : A -> V) L, finite num (map (padded f) L) = flat_map (fun l => map (fun a => num (f a)) l) L.
  Proof.
    intros f L. unfold finite. rewrite flat_map_concat_map, map_map, <- flat_map_concat_map. apply flat_map_ext. intros l. unfold padded.
    rewrite flat_map_app.
    assert (E : flat_map (fun o : option V => match o with Some v => [num v] | None => [] end) (repeat None (width - length l)) = [])
      by (generalize (width - length l)%nat as n; induction n; cbn; auto).
    rewrite E, app_nil_r. clear E. induction l as [|a l IH]; cbn; [reflexivity|]. f_equal. apply IH.
  Qed.
End Mat.

Lemma nanmax_spec : forall l x, nanmax l = Some x -> In x l /\ forall y, In y l -> y <= x.
Proof.
  intros [|a l] x H; [discriminate|]. injection H as <-. revert a. induction l as [|b l IH]; cbn; intros a.
  - split; [left; reflexivity|]. intros y [->|[]]. lia.
  - destruct (IH (Z.max a b)) as [[I|I] M]; split.
    + rewrite <- I. destruct (Z.max_spec a b) as [[_ ->]|[_ ->]]; auto.
    + intros y [->|[->|H]]; [specialize (M (Z.max y b) (or_introl eq_refl))|specialize (M (Z.max a y) (or_introl eq_refl))|specialize (M y (or_intror H))]; lia.
    + auto.
    + intros y [->|[->|H]]; [specialize (M (Z.max y b) (or_introl eq_refl))|specialize (M (Z.max a y) (or_introl eq_refl))|specialize (M y (or_intror H))]; lia.
Qed.
Lemma nanmax_some : forall l, l <> [] -> exists x, nanmax l = Some x.
Proof. intros [|a l] H; [contradiction|]. eexists. reflexivity. Qed.

(** ** A new set from columns *)
Section New.
  Context {A X : Type}.
  Lemma iterate_new : forall (ids : list Z) (R : list A) (names : list (string * (A -> X))) heap colls last sorted,
    length ids = length R ->
    iterate (mkWorld (heap ++ [mkDict ids (repeat st_Evaluate (length R)) (map (fun nc => (fst nc, map (snd nc) R)) names)])
                     (colls ++ [mkColl (length heap) (Z.of_nat (length R)) sorted]) last) (length colls)
    = Some (map (fun ip => mkPrec (fst ip) st_Evaluate (map (fun nc => (fst nc, snd nc (snd ip))) names)) (combine ids R)).
  Proof.
    intros ids R names heap colls last sorted E. unfold iterate, get_coll. cbn [w_colls w_heap]. rewrite nth_error_mid. cbn [c_ref c_ncount].
    rewrite nth_error_mid. cbn [c_ncount]. rewrite Nat2Z.id.
    set (d := mkDict ids _ _).
    assert (ROW : forall k i p, nth_error ids k = Some i -> nth_error R k = Some p ->
      row d k = Some (mkPrec i st_Evaluate (map (fun nc => (fst nc, snd nc p)) names))).
    { intros k i p HI HP. unfold row, d. cbn [d_id d_state d_vars]. rewrite HI.
      assert (K : (k < length R)%nat) by (apply nth_error_Some; congruence).
      rewrite (nth_error_repeat st_Evaluate K).
      assert (RV : row_vals k (map (fun nc => (fst nc, map (snd nc) R)) names) = Some (map (fun nc => (fst nc, snd nc p)) names)).
      { clear - HP. induction names as [|[n c] names IH]; cbn; [reflexivity|]. rewrite (map_nth_error c _ _ HP), IH. reflexivity. }
      rewrite RV. reflexivity. }
    assert (G : forall R' ids' k, length ids' = length R' -> (forall j, nth_error ids' j = nth_error ids (k + j)) -> (forall j, nth_error R' j = nth_error R (k + j)) ->
      rows_upto d (seq k (length R')) = Some (map (fun ip => mkPrec (fst ip) st_Evaluate (map (fun nc => (fst nc, snd nc (snd ip))) names)) (combine ids' R'))).
    { induction R' as [|p R' IH]; intros [|i ids'] k L H1 H2; cbn in L; try discriminate; [reflexivity|].
      cbn [length seq rows_upto combine map fst snd].
      rewrite (ROW k i p); [|rewrite <- (Nat.add_0_r k), <- H1; reflexivity|rewrite <- (Nat.add_0_r k), <- H2; reflexivity].
      rewrite (IH ids' (S k)); [reflexivity|lia| |].
      - intros j. replace (S k + j)%nat with (k + S j)%nat by lia. rewrite <- (H1 (S j)). reflexivity.
      - intros j. replace (S k + j)%nat with (k + S j)%nat by lia. rewrite <- (H2 (S j)). reflexivity. }
    apply G; auto.
  Qed.

  Lemma iterate_old : forall heap (d : dict X) colls c last last' i r,
    (i < length colls)%nat -> iterate (mkWorld heap colls last) i = Some r -> iterate (mkWorld (heap ++ [d]) (colls ++ [c]) last') i = Some r.
  Proof.
    intros heap d colls c last last' i r I H. unfold iterate, get_coll in *. cbn [w_colls w_heap] in *. rewrite nth_error_app1 by exact I.
    destruct (nth_error colls i) as [c0|]; [|discriminate]. destruct (nth_error heap (c_ref c0)) as [d0|] eqn:E; [|discriminate].
    rewrite nth_error_app1 by (apply nth_error_Some; congruence). rewrite E. exact H.
  Qed.
End New.
