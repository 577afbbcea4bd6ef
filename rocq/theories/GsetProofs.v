(** Proofs for C38. *)
From Coq Require Import String List ZArith QArith Qabs Qminmax Bool Arith Lia Lqa.
From Verif Require Import HaloModel GsetModel GsetSpec.
Import ListNotations.
Open Scope Z_scope.

Lemma shape_eq_iff a : forall b, shape_eq a b = true <-> a = b.
Proof.
  induction a as [|x a IH]; intros [|y b]; cbn; split; intros H; try reflexivity; try discriminate.
  - apply andb_true_iff in H as [H1 H2]. apply Nat.eqb_eq in H1. apply IH in H2. congruence.
  - injection H as <- <-. apply andb_true_iff. split; [apply Nat.eqb_refl|]. apply IH. reflexivity.
Qed.

Lemma isclose_iff a b : isclose a b = true <-> close a b.
Proof. apply Qle_bool_iff. Qed.

Lemma allclose_iff l : forall l', length l = length l' -> (allclose l l' = true <-> Forall2 close l l').
Proof.
  induction l as [|a l IH]; intros [|b l'] L; try discriminate L; cbn.
  - split; [constructor|reflexivity].
  - injection L as L. specialize (IH l' L). rewrite andb_true_iff, isclose_iff, IH. split.
    + intros [H1 H2]. constructor; assumption.
    + intros H. inversion H; auto.
Qed.

Lemma same_attr_iff a b : wf_arr a -> wf_arr b -> (same_attr a b = true <-> axis_close a b).
Proof.
  intros W W'. unfold same_attr, axis_close. destruct (shape_eq (n_shape a) (n_shape b)) eqn:E; cbn.
  - apply shape_eq_iff in E. unfold wf_arr in *. rewrite allclose_iff by congruence. tauto.
  - split; [discriminate|]. intros [H _]. apply shape_eq_iff in H. congruence.
Qed.

Lemma same_attrs_iff g n : wf_grid g -> wf_grid n -> g_origin g = g_origin n ->
  (same_attrs g n = true <-> grid_close g n).
Proof.
  intros (A1 & A2 & A3 & A4) (B1 & B2 & B3 & B4) O. unfold same_attrs, grid_close.
  rewrite !andb_true_iff, !same_attr_iff by assumption. tauto.
Qed.

(** ** Searching *)

Lemma find_some auto n gs g : find_grid auto n gs = Some (Some g) -> (forall x, In x gs -> wf_grid x) -> wf_grid n ->
  auto = false /\ ((g = n /\ exists x, In x gs /\ g_id x = g_id n) \/ (In g gs /\ grid_close g n /\ same_chunks g n = Some true)).
Proof.
  induction gs as [|x gs IH]; cbn; intros H W Wn; [discriminate|].
  destruct auto; [discriminate|]. split; [reflexivity|].
  destruct (Nat.eqb (g_id x) (g_id n)) eqn:E.
  - injection H as <-. left. split; [reflexivity|]. exists x. apply Nat.eqb_eq in E. auto.
  - assert (R : find_grid false n gs = Some (Some g) ->
      (g = n /\ (exists x0, (x = x0 \/ In x0 gs) /\ g_id x0 = g_id n)) \/
      ((x = g \/ In g gs) /\ grid_close g n /\ same_chunks g n = Some true)).
    { intros H'. destruct (IH H' (fun y Hy => W y (or_intror Hy)) Wn) as [_ [(A & y & B & C)|(A & B)]].
      - left. split; [exact A|]. exists y. auto.
      - right. auto. }
    destruct (g_origin n =? g_origin x) eqn:O; cbn in H; [|apply R; exact H].
    apply Z.eqb_eq in O. destruct (same_chunks x n) as [sc|] eqn:SC; [|discriminate].
    destruct (same_attrs x n && sc) eqn:S; [|apply R; exact H].
    injection H as <-. apply andb_true_iff in S as [S ->]. right. split; [auto|]. split; [|exact SC].
    apply same_attrs_iff; auto.
Qed.

Lemma find_none auto n gs : find_grid auto n gs = Some None -> (forall x, In x gs -> wf_grid x) -> wf_grid n ->
  auto = false -> forall x, In x gs -> g_id x <> g_id n /\ ~ (grid_close x n /\ same_chunks x n = Some true).
Proof.
  intros H W Wn ->. induction gs as [|y gs IH]; cbn in *; [contradiction|].
  destruct (Nat.eqb (g_id y) (g_id n)) eqn:E; [discriminate|]. apply Nat.eqb_neq in E.
  assert (R : find_grid false n gs = Some None -> ~ (grid_close y n /\ same_chunks y n = Some true) ->
     forall x, y = x \/ In x gs -> g_id x <> g_id n /\ ~ (grid_close x n /\ same_chunks x n = Some true)).
  { intros H' N x [<-|I]; [auto|]. apply IH; auto. }
  destruct (g_origin n =? g_origin y) eqn:O; cbn in H.
  - apply Z.eqb_eq in O. destruct (same_chunks y n) as [sc|] eqn:SC; [|discriminate].
    destruct (same_attrs y n && sc) eqn:S; [discriminate|]. apply R; [exact H|].
    intros [C D]. injection D as ->. rewrite andb_true_r in S.
    assert (same_attrs y n = true) by (apply same_attrs_iff; auto). congruence.
  - apply Z.eqb_neq in O. apply R; [exact H|]. intros [[C _] _]. congruence.
Qed.

Lemma index_of_spec id gs i : index_of id gs = Some i ->
  (exists g, nth_error gs i = Some g /\ g_id g = id) /\
  forall j g, (j < i)%nat -> nth_error gs j = Some g -> g_id g <> id.
Proof.
  revert i. induction gs as [|x gs IH]; intros i H; cbn in H; [discriminate|].
  destruct (Nat.eqb (g_id x) id) eqn:E.
  - injection H as <-. apply Nat.eqb_eq in E. split; [exists x; auto|]. intros j g L. lia.
  - apply Nat.eqb_neq in E. destruct (index_of id gs) as [k|]; [|discriminate]. injection H as <-.
    destruct (IH k eq_refl) as [A B]. split; [exact A|]. intros [|j] g L H; [injection H as <-; exact E|].
    apply (B j); [lia|exact H].
Qed.

Lemma index_of_in g gs : In g gs -> exists i, index_of (g_id g) gs = Some i.
Proof.
  induction gs as [|x gs IH]; intros H; [contradiction|]. cbn.
  destruct (Nat.eqb (g_id x) (g_id g)) eqn:E; [eauto|].
  destruct H as [->|H]; [rewrite Nat.eqb_refl in E; discriminate|].
  destruct (IH H) as (i & ->). cbn. eauto.
Qed.

Definition on_grid (f : field) (g : grid) : Prop :=
  g = f_grid f \/ (grid_close g (f_grid f) /\ same_chunks g (f_grid f) = Some true /\ f_chunk f <> ChunkAuto).

Lemma add_grid_spec gs f gs' g i : add_grid gs f = Some (gs', g, i) ->
  (forall x, In x gs -> wf_grid x) -> wf_grid (f_grid f) -> objects (f_grid f :: gs) ->
  nth_error gs' i = Some g /\ (forall j x, (j < i)%nat -> nth_error gs' j = Some x -> x <> g) /\ on_grid f g /\
  ((gs' = gs /\ In g gs) \/
   (gs' = gs ++ [f_grid f] /\ g = f_grid f /\
    (f_chunk f <> ChunkAuto -> forall x, In x gs -> g_id x <> g_id g /\ ~ (grid_close x g /\ same_chunks x g = Some true)))).
Proof.
  unfold add_grid. intros H W Wf O.
  destruct (find_grid (is_auto (f_chunk f)) (f_grid f) gs) as [[x|]|] eqn:F; [| |discriminate].
  - destruct (index_of (g_id x) gs) as [k|] eqn:I; [|discriminate]. injection H as <- <- <-.
    destruct (find_some _ _ _ _ F W Wf) as [A S]. apply index_of_spec in I as [(y & Y1 & Y2) Y3].
    assert (IY : In y gs) by (eapply nth_error_In; exact Y1).
    assert (NA : f_chunk f <> ChunkAuto) by (intros E; rewrite E in A; discriminate).
    destruct S as [(-> & z & Z1 & Z2)|(I & GC & SC)].
    + assert (y = f_grid f) by (apply O; [right; exact IY|left; reflexivity|exact Y2]). subst y.
      split; [exact Y1|]. split; [intros j x L E; intros ->; apply (Y3 j _ L E); reflexivity|]. split; [left; reflexivity|].
      left. auto.
    + assert (y = x) by (apply O; [right; exact IY|right; exact I|exact Y2]). subst y.
      split; [exact Y1|]. split; [intros j z L E; intros ->; apply (Y3 j _ L E); reflexivity|].
      split; [right; auto|]. left. auto.
  - destruct (index_of (g_id (f_grid f)) (gs ++ [f_grid f])) as [k|] eqn:I; [|discriminate]. injection H as <- <- <-.
    apply index_of_spec in I as [(y & Y1 & Y2) Y3].
    assert (IY : In y (gs ++ [f_grid f])) by (eapply nth_error_In; exact Y1).
    assert (y = f_grid f).
    { apply in_app_iff in IY as [IY|[IY|[]]]; [|congruence]. apply O; [right; exact IY|left; reflexivity|exact Y2]. }
    subst y. split; [exact Y1|]. split; [intros j x L E; intros ->; apply (Y3 j _ L E); reflexivity|].
    split; [left; reflexivity|]. right. split; [reflexivity|]. split; [reflexivity|].
    intros NA. apply (find_none _ _ _ F W Wf). destruct (f_chunk f); [reflexivity|contradiction|reflexivity].
Qed.

Lemma add_grid_grows gs f gs' g i : add_grid gs f = Some (gs', g, i) -> exists t, gs' = gs ++ t /\ incl t [f_grid f].
Proof.
  unfold add_grid. destruct (find_grid _ _ _) as [[x|]|]; try discriminate;
    (destruct (index_of _ _); [|discriminate]); intros H; injection H as <- <- <-.
  - exists []. rewrite app_nil_r. split; [reflexivity|]. intros y [].
  - exists [f_grid f]. split; [reflexivity|]. apply incl_refl.
Qed.

Lemma add_fields_grows fs : forall gs gs' r, add_fields gs fs = Some (gs', r) ->
  exists t, gs' = gs ++ t /\ incl t (map f_grid fs).
Proof.
  induction fs as [|f fs IH]; cbn; intros gs gs' r H.
  - injection H as <- <-. exists []. rewrite app_nil_r. split; [reflexivity|]. intros y [].
  - destruct (add_grid gs f) as [[[g1 g] i]|] eqn:A; [|discriminate].
    destruct (add_fields g1 fs) as [[g2 r']|] eqn:B; [|discriminate]. injection H as <- <-.
    destruct (add_grid_grows _ _ _ _ _ A) as (t & -> & It). destruct (IH _ _ _ B) as (t' & -> & It').
    exists (t ++ t'). rewrite app_assoc. split; [reflexivity|]. intros y Hy. apply in_app_iff in Hy as [Hy|Hy].
    + left. specialize (It y Hy). destruct It as [->|[]]. reflexivity.
    + right. apply It'. exact Hy.
Qed.

Lemma incl_objects l l' : incl l l' -> objects l' -> objects l.
Proof. intros I O g g' H H'. apply O; apply I; assumption. Qed.

Definition assigned (fs : list field) (gs : list grid) (r : list (grid * nat)) : Prop :=
  length r = length fs /\
  forall k f g i, nth_error fs k = Some f -> nth_error r k = Some (g, i) ->
    nth_error gs i = Some g /\ (forall j x, (j < i)%nat -> nth_error gs j = Some x -> x <> g) /\ on_grid f g.

Lemma add_fields_assigned fs : forall gs gs' r, add_fields gs fs = Some (gs', r) ->
  (forall g, In g (gs ++ map f_grid fs) -> wf_grid g) -> objects (gs ++ map f_grid fs) -> assigned fs gs' r.
Proof.
  induction fs as [|f fs IH]; cbn; intros gs gs' r H W O.
  - injection H as <- <-. split; [reflexivity|]. intros [|k]; discriminate.
  - destruct (add_grid gs f) as [[[g1 g] i]|] eqn:A; [|discriminate].
    destruct (add_fields g1 fs) as [[g2 r']|] eqn:B; [|discriminate]. injection H as <- <-.
    destruct (add_grid_grows _ _ _ _ _ A) as (t & -> & It).
    assert (INC : incl ((gs ++ t) ++ map f_grid fs) (gs ++ f_grid f :: map f_grid fs)).
    { intros y Hy. rewrite <- app_assoc in Hy. apply in_app_iff in Hy as [Hy|Hy]; [apply in_app_iff; auto|].
      apply in_app_iff in Hy as [Hy|Hy]; apply in_app_iff; right; [|right; exact Hy].
      specialize (It y Hy). destruct It as [->|[]]. left. reflexivity. }
    destruct (IH _ _ _ B) as [L S]; [intros y Hy; apply W, INC; exact Hy|apply (incl_objects _ _ INC O)|].
    destruct (add_fields_grows _ _ _ _ B) as (t' & -> & It').
    assert (INC2 : incl (f_grid f :: gs) (gs ++ f_grid f :: map f_grid fs)).
    { intros y [<-|Hy]; apply in_app_iff; [right; left; reflexivity|left; exact Hy]. }
    destruct (add_grid_spec _ _ _ _ _ A) as (N & MIN & ON & _);
      [intros x Hx; apply W; apply in_app_iff; auto|apply W; apply in_app_iff; right; left; reflexivity|apply (incl_objects _ _ INC2 O)|].
    assert (LT : (i < length (gs ++ t))%nat) by (apply nth_error_Some; congruence).
    split; [cbn; congruence|]. intros [|k] f' g' i' H1 H2; cbn in H1, H2.
    + injection H1 as <-. injection H2 as <- <-.
      split; [rewrite nth_error_app1; assumption|]. split; [|exact ON].
      intros j x Lj Ej. rewrite nth_error_app1 in Ej by lia. apply (MIN j); assumption.
    + apply (S k); assumption.
Qed.

(** Every grid of the set is the grid of a field, which was given it. *)
Lemma add_fields_used fs : forall gs gs' r, add_fields gs fs = Some (gs', r) ->
  (forall g, In g (gs ++ map f_grid fs) -> wf_grid g) -> objects (gs ++ map f_grid fs) ->
  forall g, In g gs' -> In g gs \/ exists k f i, nth_error fs k = Some f /\ nth_error r k = Some (g, i) /\ g = f_grid f.
Proof.
  induction fs as [|f fs IH]; cbn; intros gs gs' r H W O x Hx.
  - injection H as <- <-. left. exact Hx.
  - destruct (add_grid gs f) as [[[g1 g] i]|] eqn:A; [|discriminate].
    destruct (add_fields g1 fs) as [[g2 r']|] eqn:B; [|discriminate]. injection H as <- <-.
    destruct (add_grid_grows _ _ _ _ _ A) as (t & E & It). subst g1.
    assert (INC : incl ((gs ++ t) ++ map f_grid fs) (gs ++ f_grid f :: map f_grid fs)).
    { intros y Hy. rewrite <- app_assoc in Hy. apply in_app_iff in Hy as [Hy|Hy]; [apply in_app_iff; auto|].
      apply in_app_iff in Hy as [Hy|Hy]; apply in_app_iff; right; [|right; exact Hy].
      specialize (It y Hy). destruct It as [->|[]]. left. reflexivity. }
    assert (INC2 : incl (f_grid f :: gs) (gs ++ f_grid f :: map f_grid fs)).
    { intros y [<-|Hy]; apply in_app_iff; [right; left; reflexivity|left; exact Hy]. }
    destruct (IH _ _ _ B) with (g := x) as [I|(k & f' & i' & H1 & H2 & H3)];
      [intros y Hy; apply W, INC; exact Hy|apply (incl_objects _ _ INC O)|exact Hx| |].
    + destruct (add_grid_spec _ _ _ _ _ A) as (_ & _ & _ & [(E & _)|(E & E2 & _)]);
        [intros y Hy; apply W; apply in_app_iff; auto|apply W; apply in_app_iff; right; left; reflexivity|apply (incl_objects _ _ INC2 O)| |].
      * left. rewrite <- E. exact I.
      * rewrite E in I. apply in_app_iff in I as [I|[I|[]]]; [left; exact I|]. right. exists 0%nat, f, i. subst. auto.
    + right. exists (S k), f', i'. auto.
Qed.

(** ** Sharing *)

Lemma close_refl a b : (a == b)%Q -> close a b.
Proof.
  intros E. unfold close. assert (Z : (a - b == 0)%Q) by (rewrite E; ring). rewrite Z. change (Qabs 0) with 0%Q.
  pose proof (Qabs_nonneg b). lra.
Qed.
Lemma axis_close_refl a b : axis_equal a b -> axis_close a b.
Proof.
  intros [S F]. split; [exact S|]. induction F; constructor; [apply close_refl; assumption|assumption].
Qed.
Lemma grid_close_refl a b : grid_equal a b -> grid_close a b.
Proof.
  intros (O & _ & A & B & C & D). split; [exact O|]. repeat split; try (apply axis_close_refl; assumption); apply A || apply B || apply C || apply D.
Qed.

Lemma lookup_dup (l : list (string * Z)) : NoDup (map fst l) -> dict_eq l l = true.
Proof.
  intros N. unfold dict_eq. rewrite andb_diag. apply forallb_forall. intros [k v] H.
  assert (L : lookup k l = Some v).
  { induction l as [|[k' v'] l IH]; [contradiction|]. cbn. inversion N as [|? ? N1 N2]; subst.
    destruct (String.eqb k k') eqn:E.
    - apply String.eqb_eq in E. subst k'. destruct H as [H|H]; [congruence|].
      exfalso. apply N1. apply (in_map fst) in H. exact H.
    - destruct H as [H|H]; [injection H as -> ->; rewrite String.eqb_refl in E; discriminate|]. apply IH; assumption. }
  cbn [fst snd]. rewrite L. apply Z.eqb_refl.
Qed.

Lemma same_chunks_refl g n : g_chunk g = g_chunk n -> dict_ok (g_chunk n) -> same_chunks g n = Some true.
Proof.
  intros E D. unfold same_chunks. rewrite E. replace (chunk_eq (g_chunk n) (g_chunk n)) with true; [reflexivity|].
  destruct (g_chunk n); cbn in *; [reflexivity|reflexivity|]. symmetry. apply lookup_dup. exact D.
Qed.

Lemma shared_step g0 f : wf_grid g0 -> wf_grid (f_grid f) -> (g0 = f_grid f \/ g_id g0 <> g_id (f_grid f)) ->
  grid_equal g0 (f_grid f) -> dict_ok (g_chunk g0) -> f_chunk f <> ChunkAuto -> add_grid [g0] f = Some ([g0], g0, 0%nat).
Proof.
  intros W Wf O E D A. unfold add_grid. cbn [find_grid].
  replace (is_auto (f_chunk f)) with false by (destruct (f_chunk f); [reflexivity|contradiction|reflexivity]).
  destruct (Nat.eqb (g_id g0) (g_id (f_grid f))) eqn:I.
  - apply Nat.eqb_eq in I. destruct O as [O|O]; [|contradiction]. rewrite <- O. cbn. rewrite Nat.eqb_refl. reflexivity.
  - pose proof (grid_close_refl _ _ E) as C. destruct E as (EO & EC & _). rewrite EO, Z.eqb_refl. cbn [negb].
    rewrite same_chunks_refl; [|exact EC|rewrite <- EC; exact D]. rewrite andb_true_r.
    replace (same_attrs g0 (f_grid f)) with true by (symmetry; apply same_attrs_iff; auto).
    cbn. rewrite Nat.eqb_refl. reflexivity.
Qed.

Lemma shared_from g0 fs : wf_grid g0 -> dict_ok (g_chunk g0) ->
  (forall f, In f fs -> wf_grid (f_grid f) /\ grid_equal g0 (f_grid f) /\ f_chunk f <> ChunkAuto) ->
  objects (g0 :: map f_grid fs) ->
  add_fields [g0] fs = Some ([g0], repeat (g0, 0%nat) (length fs)).
Proof.
  intros W D. induction fs as [|f fs IH]; intros H O; [reflexivity|]. cbn [add_fields].
  destruct (H f (or_introl eq_refl)) as (Wf & E & A).
  rewrite shared_step; try assumption.
  - rewrite IH; [reflexivity|intros f' I; apply H; right; exact I|].
    apply (incl_objects _ (g0 :: map f_grid (f :: fs))); [|exact O]. intros y [<-|I]; [left; reflexivity|right; right; exact I].
  - destruct (Nat.eq_dec (g_id g0) (g_id (f_grid f))) as [I|I]; [left|right; exact I].
    apply O; [left; reflexivity|right; left; reflexivity|exact I].
Qed.

Lemma shared f fs : wf_grid (f_grid f) -> dict_ok (g_chunk (f_grid f)) ->
  (forall f', In f' fs -> wf_grid (f_grid f') /\ grid_equal (f_grid f) (f_grid f') /\ f_chunk f' <> ChunkAuto) ->
  objects (map f_grid (f :: fs)) ->
  add_fields [] (f :: fs) = Some ([f_grid f], repeat (f_grid f, 0%nat) (S (length fs))).
Proof.
  intros W D H O. cbn [add_fields]. unfold add_grid at 1. cbn. rewrite Nat.eqb_refl.
  rewrite (shared_from (f_grid f) fs); try assumption. reflexivity.
Qed.

(** ** Ranges *)

Lemma qmin_list_spec l : forall a, (In (qmin_list a l) (a :: l)) /\ forall b, In b (a :: l) -> (qmin_list a l <= b)%Q.
Proof.
  induction l as [|x l IH]; intros a; cbn.
  - split; [auto|]. intros b [<-|[]]. apply Qle_refl.
  - destruct (IH (Qmin a x)) as [A B]. unfold qmin_list in *. cbn [fold_left]. split.
    + destruct A as [A|A]; [|auto].
      unfold Qmin, GenericMinMax.gmin in A |- *. destruct (a ?= x)%Q; auto.
    + intros b [<-|[<-|H]].
      * eapply Qle_trans; [apply B; left; reflexivity|]. apply Q.le_min_l.
      * eapply Qle_trans; [apply B; left; reflexivity|]. apply Q.le_min_r.
      * apply B. right. exact H.
Qed.
Lemma qmax_list_spec l : forall a, (In (qmax_list a l) (a :: l)) /\ forall b, In b (a :: l) -> (b <= qmax_list a l)%Q.
Proof.
  induction l as [|x l IH]; intros a; cbn.
  - split; [auto|]. intros b [<-|[]]. apply Qle_refl.
  - destruct (IH (Qmax a x)) as [A B]. unfold qmax_list in *. cbn [fold_left]. split.
    + destruct A as [A|A]; [|auto].
      unfold Qmax, GenericMinMax.gmax in A |- *. destruct (a ?= x)%Q; auto.
    + intros b [<-|[<-|H]].
      * eapply Qle_trans; [|apply B; left; reflexivity]. apply Q.le_max_l.
      * eapply Qle_trans; [|apply B; left; reflexivity]. apply Q.le_max_r.
      * apply B. right. exact H.
Qed.

Lemma attr_is d g : attr d g = coordinates d g.
Proof. destruct d; reflexivity. Qed.

Lemma ends_covers d g a b x : ends d (attr d g) = Some (a, b) -> ((a <= x <= b)%Q <-> covers d g x).
Proof.
  unfold ends. rewrite attr_is. destruct (n_data (coordinates d g)) as [|y l] eqn:E; [discriminate|].
  destruct d; cbn [covers].
  3:{ cbn [coordinates] in E. intros H. injection H as <- <-. rewrite E.
      destruct (qmin_list_spec l y) as [A1 A2]. destruct (qmax_list_spec l y) as [B1 B2]. split.
      - intros [L U]. exists (qmin_list y l), (qmax_list y l). auto.
      - intros (p & q & P & Q & L & U). split; [eapply Qle_trans; [apply A2; exact P|exact L]|
          eapply Qle_trans; [exact U|apply B2; exact Q]]. }
  all: destruct (n_shape _) as [|? [|? ?]]; try discriminate; intros H; injection H as <- <-; split;
    [intros R; exists y, l; split; [exact E|exact R]|intros (p & q & P & R); rewrite E in P; injection P as <- <-; exact R].
Qed.

Definition below (o : option Q) (x : Q) : Prop := match o with None => True | Some a => (a <= x)%Q end.
Definition above (o : option Q) (x : Q) : Prop := match o with None => True | Some a => (x <= a)%Q end.

Lemma below_wider o a x : below (wider Qmax o a) x <-> below o x /\ (a <= x)%Q.
Proof.
  destruct o as [b|]; cbn; [|tauto]. split.
  - intros H. split; eapply Qle_trans; [apply Q.le_max_l|exact H|apply Q.le_max_r|exact H].
  - intros [H1 H2]. apply Q.max_lub; assumption.
Qed.
Lemma above_wider o a x : above (wider Qmin o a) x <-> above o x /\ (x <= a)%Q.
Proof.
  destruct o as [b|]; cbn; [|tauto]. split.
  - intros H. split; eapply Qle_trans; [exact H|apply Q.le_min_l|exact H|apply Q.le_min_r].
  - intros [H1 H2]. apply Q.min_glb; assumption.
Qed.

Lemma range_loop_spec d gs : forall lo hi lo' hi', range_loop d gs lo hi = Some (lo', hi') ->
  (forall x, (below lo' x /\ above hi' x) <->
    (below lo x /\ above hi x /\ forall g, In g gs -> limits d g -> covers d g x)) /\
  ((exists g, In g gs /\ limits d g) \/ (lo <> None /\ hi <> None) -> lo' <> None /\ hi' <> None) /\
  ((forall g, In g gs -> ~ limits d g) -> lo' = lo /\ hi' = hi).
Proof.
  induction gs as [|g gs IH]; cbn; intros lo hi lo' hi' H.
  - injection H as <- <-. split; [|split].
    + intros x. split; [intros [H1 H2]; split; [exact H1|split; [exact H2|intros g []]]|tauto].
    + intros [(g & [] & _)|H]. exact H.
    + auto.
  - rewrite attr_is in H. destruct (Nat.eqb (length (n_data (coordinates d g))) 1) eqn:E.
    + apply Nat.eqb_eq in E. destruct (IH _ _ _ _ H) as (A & B & C). split; [|split].
      * intros x. rewrite A. split.
        -- intros (L & U & R). split; [exact L|]. split; [exact U|]. intros g' [<-|I] Lm; [unfold limits in Lm; contradiction|auto].
        -- intros (L & U & R). split; [exact L|]. split; [exact U|]. auto.
      * intros [(g' & [<-|I] & Lm)|N]; [unfold limits in Lm; contradiction| |]; apply B; [left; eauto|right; exact N].
      * intros N. apply C. auto.
    + apply Nat.eqb_neq in E. destruct (ends d (coordinates d g)) as [[a b]|] eqn:EE; [|discriminate].
      pose proof (ends_covers d g a b) as CV. rewrite attr_is in CV. destruct (IH _ _ _ _ H) as (A & B & C). split; [|split].
      * intros x. rewrite A, below_wider, above_wider. specialize (CV x EE). split.
        -- intros ((L1 & L2) & (U1 & U2) & R). split; [exact L1|]. split; [exact U1|].
           intros g' [<-|I] Lm; [apply CV; split; assumption|auto].
        -- intros (L & U & R). pose proof (proj2 CV (R g (or_introl eq_refl) E)) as [X1 X2]. auto.
      * intros _. apply B. right. split; [destruct lo|destruct hi]; discriminate.
      * intros N. exfalso. apply (N g (or_introl eq_refl)). exact E.
Qed.

Lemma dimrange_meets d gs lo hi : dimrange d gs = Some (lo, hi) -> (exists g, In g gs /\ limits d g) ->
  forall x, (lo <= x <= hi)%Q <-> forall g, In g gs -> limits d g -> covers d g x.
Proof.
  unfold dimrange. destruct (range_loop d gs None None) as [[lo' hi']|] eqn:R; [|discriminate].
  intros H N x. destruct (range_loop_spec _ _ _ _ _ _ R) as (A & B & _). destruct (B (or_introl N)) as [B1 B2].
  destruct lo' as [a|]; [|contradiction]. destruct hi' as [b|]; [|contradiction]. injection H as <- <-.
  specialize (A x). cbn in A. tauto.
Qed.

Lemma dimrange_free d gs : (forall g, In g gs -> ~ limits d g) -> dimrange d gs = Some (0%Q, 0%Q).
Proof.
  intros N. unfold dimrange. replace (range_loop d gs None None) with (Some (@None Q, @None Q)); [reflexivity|].
  symmetry. induction gs as [|g gs IH]; [reflexivity|]. cbn. rewrite attr_is.
  destruct (Nat.eqb (length (n_data (coordinates d g))) 1) eqn:E; [apply IH; intros; apply N; right; assumption|].
  apply Nat.eqb_neq in E. exfalso. exact (N g (or_introl eq_refl) E).
Qed.

Lemma dimrange_total d gs : (forall g, In g gs -> ranged d g) -> exists r, dimrange d gs = Some r.
Proof.
  intros N. unfold dimrange.
  assert (X : forall lo hi, exists r, range_loop d gs lo hi = Some r).
  { induction gs as [|g gs IH]; cbn; [eauto|]. intros lo hi.
    assert (IH' := IH (fun g I => N g (or_intror I))).
    destruct (Nat.eqb _ _); [apply IH'|].
    destruct (N g (or_introl eq_refl)) as [NE S]. unfold ends. rewrite attr_is.
    destruct (n_data (coordinates d g)) as [|x l]; [contradiction|].
    destruct S as [->|[n Sn]]; [apply IH'|]. rewrite Sn. destruct d; apply IH'. }
  destruct (X None None) as ([lo hi] & ->). eauto.
Qed.

Lemma on_its_grid : forall fs gs r, add_fields [] fs = Some (gs, r) ->
  (forall f, In f fs -> wf_grid (f_grid f)) -> objects (map f_grid fs) ->
  length r = length fs /\
  forall k f g i, nth_error fs k = Some f -> nth_error r k = Some (g, i) ->
    nth_error gs i = Some g /\ (forall j x, (j < i)%nat -> nth_error gs j = Some x -> x <> g) /\
    (g = f_grid f \/ (grid_close g (f_grid f) /\ f_chunk f <> ChunkAuto)).
Proof.
  intros fs gs r H W O. destruct (add_fields_assigned fs [] gs r H) as [L S].
  - intros g I. apply in_map_iff in I as (f & <- & I). auto.
  - exact O.
  - split; [exact L|]. intros k f g i H1 H2. destruct (S k f g i H1 H2) as (A & B & [C|(C & _ & D)]); auto.
Qed.

Lemma same_index : forall fs gs r, add_fields [] fs = Some (gs, r) ->
  (forall f, In f fs -> wf_grid (f_grid f)) -> objects (map f_grid fs) ->
  forall k k' f f' g g' i, nth_error fs k = Some f -> nth_error fs k' = Some f' ->
  nth_error r k = Some (g, i) -> nth_error r k' = Some (g', i) ->
  g = g' /\ (g = f_grid f \/ grid_close g (f_grid f)) /\ (g = f_grid f' \/ grid_close g (f_grid f')).
Proof.
  intros fs gs r H W O k k' f f' g g' i H1 H2 H3 H4.
  destruct (on_its_grid fs gs r H W O) as [_ S].
  destruct (S k f g i H1 H3) as (A & _ & B). destruct (S k' f' g' i H2 H4) as (A' & _ & B').
  assert (g = g') by congruence. subst g'. tauto.
Qed.

Lemma no_others : forall fs gs r, add_fields [] fs = Some (gs, r) ->
  (forall f, In f fs -> wf_grid (f_grid f)) -> objects (map f_grid fs) ->
  forall g, In g gs -> exists k f i, nth_error fs k = Some f /\ nth_error r k = Some (g, i) /\ g = f_grid f.
Proof.
  intros fs gs r H W O g I. destruct (add_fields_used fs [] gs r H) with (g := g) as [[]|X]; auto.
  intros x J. apply in_map_iff in J as (f & <- & J). auto.
Qed.

Lemma stay_valid : forall fs fs' gs r, add_fields [] (fs ++ fs') = Some (gs, r) ->
  exists gs1 r1 more r2, add_fields [] fs = Some (gs1, r1) /\ gs = gs1 ++ more /\ r = r1 ++ r2.
Proof.
  intros fs fs' gs r. generalize (@nil grid) as g0. revert gs r. induction fs as [|f fs IH]; intros gs r g0 H; cbn in *.
  - destruct (add_fields_grows _ _ _ _ H) as (t & -> & _). exists g0, [], t, r. auto.
  - destruct (add_grid g0 f) as [[[g1 g] i]|]; [|discriminate].
    destruct (add_fields g1 (fs ++ fs')) as [[g2 r']|] eqn:B; [|discriminate]. injection H as <- <-.
    destruct (IH _ _ _ B) as (a & b & c & d & X & -> & ->). rewrite X. exists a, ((g, i) :: b), c, d. auto.
Qed.

Lemma only_if_new : forall gs f gs' g i, add_grid gs f = Some (gs', g, i) ->
  (forall x, In x gs -> wf_grid x) -> wf_grid (f_grid f) -> objects (f_grid f :: gs) -> f_chunk f <> ChunkAuto ->
  gs' = gs \/
  (gs' = gs ++ [f_grid f] /\
   forall x, In x gs -> x <> f_grid f /\ (grid_close x (f_grid f) -> g_chunk x <> g_chunk (f_grid f) \/ ~ dict_ok (g_chunk x))).
Proof.
  intros gs f gs' g i H W Wf O A. destruct (add_grid_spec _ _ _ _ _ H W Wf O) as (_ & _ & _ & [(E & _)|(E & E2 & N)]); [auto|].
  right. split; [exact E|]. intros x I. subst g. destruct (N A x I) as [N1 N2]. split; [intros ->; apply N1; reflexivity|].
  intros C. assert (D : g_chunk x = g_chunk (f_grid f) \/ g_chunk x <> g_chunk (f_grid f)).
  { assert (SD : forall a b : string * Z, {a = b} + {a <> b}) by (decide equality; [apply Z.eq_dec|apply String.string_dec]).
    destruct (g_chunk x) as [| |l], (g_chunk (f_grid f)) as [| |l']; try (right; discriminate); try (left; reflexivity).
    destruct (list_eq_dec SD l l') as [->|Hl]; [left; reflexivity|right; intros X; injection X; exact Hl]. }
  destruct D as [D|D]; [|left; exact D]. right. intros K. apply N2. split; [exact C|].
  apply same_chunks_refl; [exact D|rewrite <- D; exact K].
Qed.
