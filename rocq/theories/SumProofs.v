From Coq Require Import List ZArith Bool Arith QArith Lia Lqa Permutation.
From Verif Require Import SumModel SumSpec.
Import ListNotations.
Open Scope Q_scope.

(** ** Sums *)
Lemma vadd_length : forall a b n, length a = n -> length b = n -> length (vadd a b) = n.
Proof.
  induction a as [|x a IH]; intros [|y b] n A B; cbn in *; subst; try reflexivity; try discriminate.
  f_equal. apply IH; [reflexivity|]. congruence.
Qed.
Lemma vadd_comp : forall a b i, length a = length b -> comp i (vadd a b) == comp i a + comp i b.
Proof.
  unfold comp. induction a as [|x a IH]; intros [|y b] i E; cbn in *; try discriminate.
  - destruct i; ring.
  - destruct i; [reflexivity|]. apply IH. congruence.
Qed.
Lemma fold_vadd : forall vs v n i, length v = n -> (forall u, In u vs -> length u = n) ->
  length (fold_left vadd vs v) = n /\ comp i (fold_left vadd vs v) == comp i v + total (map (comp i) vs).
Proof.
  induction vs as [|u vs IH]; intros v n i L H; cbn [fold_left map total fold_right].
  - split; [exact L|]. ring.
  - assert (LU : length u = n) by (apply H; left; reflexivity).
    destruct (IH (vadd v u) n i (vadd_length _ _ _ L LU) (fun w W => H w (or_intror W))) as [A B]. split; [exact A|].
    rewrite B, vadd_comp by congruence. unfold total. ring.
Qed.
Lemma np_sum_spec : forall n vs, vs <> [] -> same_shape n vs -> sum_of n vs (np_sum vs).
Proof.
  intros n [|v vs] N [P H]; [contradiction|]. cbn [np_sum]. split.
  - apply (fold_vadd vs v n 0); [apply H; left; reflexivity|intros u U; apply H; right; exact U].
  - intros i _. destruct (fold_vadd vs v n i) as [_ B]; [apply H; left; reflexivity|intros u U; apply H; right; exact U|exact B].
Qed.
Lemma py_values_all : forall vs, py_values (map Val vs) = Val vs.
Proof. induction vs as [|v vs IH]; cbn; [reflexivity|]. rewrite IH. reflexivity. Qed.
Lemma c_values_py : forall outs, c_values outs = py_values outs.
Proof. induction outs as [|[v|e] outs IH]; cbn; [reflexivity|rewrite IH; reflexivity|reflexivity]. Qed.
Lemma py_values_error : forall outs e, first_error outs e -> py_values outs = Err e.
Proof.
  intros outs e (vs & rest & ->). induction vs as [|v vs IH]; cbn; [reflexivity|]. rewrite IH. reflexivity.
Qed.

Lemma c_summed_py : forall outs, c_summed outs = py_summed outs.
Proof. intros outs. unfold c_summed, py_summed. pose proof (c_values_py outs) as H. destruct (c_values outs), (py_values outs); congruence. Qed.
Theorem summed_ok : forall n vs, vs <> [] -> same_shape n vs ->
  exists r, py_summed (map Val vs) = Val r /\ c_summed (map Val vs) = Val r /\ sum_of n vs r.
Proof.
  intros n vs N S. exists (np_sum vs).
  assert (H : py_summed (map Val vs) = Val (np_sum vs)) by (unfold py_summed; rewrite py_values_all; reflexivity).
  split; [exact H|]. split; [etransitivity; [apply c_summed_py|exact H]|]. apply np_sum_spec; assumption.
Qed.
Theorem summed_err : forall outs e, first_error outs e -> py_summed outs = Err e /\ c_summed outs = Err e.
Proof.
  intros outs e H. assert (P : py_summed outs = Err e) by (unfold py_summed; rewrite (py_values_error outs e H); reflexivity).
  split; [exact P|]. etransitivity; [apply c_summed_py|exact P].
Qed.

Lemma c_vector_all : forall vs old, length old = length vs -> c_vector_values (map Val vs) old None = (vs, None).
Proof.
  induction vs as [|v vs IH]; intros [|o old] L; cbn in *; try reflexivity; try discriminate. rewrite IH by congruence. reflexivity.
Qed.
Theorem summed_vector_ok : forall n vs old, vs <> [] -> same_shape n vs -> length old = length vs ->
  exists r, c_summed_vector old (map Val vs) = Val r /\ sum_of n vs r.
Proof.
  intros n vs old N S L. exists (np_sum vs). unfold c_summed_vector. rewrite c_vector_all by exact L. split; [reflexivity|]. apply np_sum_spec; assumption.
Qed.
Theorem summed_vector_last : forall outs e old, length old = length (outs ++ [Err e]) -> c_summed_vector old (outs ++ [Err e]) = Err e.
Proof.
  intros outs e old L. unfold c_summed_vector.
  assert (H : forall outs old err, length old = length (outs ++ [Err e]) -> snd (c_vector_values (outs ++ [Err e]) old err) = Some e).
  { clear. induction outs as [|o outs IH]; intros [|x old] err L; cbn in L; try discriminate.
    - reflexivity.
    - cbn [app c_vector_values]. destruct o as [v|e']; cbn.
      + specialize (IH old None ltac:(congruence)). destruct (c_vector_values (outs ++ [Err e]) old None). exact IH.
      + specialize (IH old (Some e') ltac:(congruence)). destruct (c_vector_values (outs ++ [Err e]) old (Some e')). exact IH. }
  specialize (H outs old None L). destruct (c_vector_values (outs ++ [Err e]) old None) as [vs er]. cbn in H. subst er. reflexivity.
Qed.

Lemma total_perm : forall l l', Permutation l l' -> total l == total l'.
Proof.
  intros l l' P. unfold total. induction P; cbn [fold_right].
  - reflexivity.
  - rewrite IHP. reflexivity.
  - ring.
  - rewrite IHP1. exact IHP2.
Qed.
Theorem sum_perm : forall n vs vs' r r', Permutation vs vs' -> sum_of n vs r -> sum_of n vs' r' ->
  length r = length r' /\ forall i, comp i r == comp i r'.
Proof.
  intros n vs vs' r r' P [L A] [L' B]. split; [congruence|]. intros i. destruct (lt_dec i n) as [I|I].
  - rewrite (A i I), (B i I). apply total_perm, Permutation_map, P.
  - unfold comp. rewrite !nth_overflow by lia. reflexivity.
Qed.

(** ** Nested *)
Theorem nested_first : forall outs o, first_not bounds_or_sampling outs o -> py_nested outs = o.
Proof.
  intros outs o (es & rest & -> & S & N). induction es as [|e es IH]; cbn [map app].
  - destruct o as [v|e]; cbn [py_nested]; [reflexivity|]. specialize (N e eq_refl).
    destruct e; try reflexivity; exfalso; apply N; [left|right]; reflexivity.
  - cbn [py_nested]. assert (R : map Err es ++ o :: rest <> []) by (destruct es; discriminate).
    assert (IH' : py_nested (map Err es ++ o :: rest) = o) by (apply IH; intros x X; apply S; right; exact X).
    destruct (map Err es ++ o :: rest) as [|p q] eqn:E; [contradiction|].
    destruct (S e (or_introl eq_refl)) as [-> | ->]; exact IH'.
Qed.
Theorem nested_none : forall outs e, all_skipped bounds_or_sampling outs e -> py_nested outs = Err e.
Proof.
  intros outs e (es & -> & S). induction es as [|x es IH]; cbn [app map].
  - cbn [py_nested]. destruct (S e (or_introl eq_refl)) as [-> | ->]; reflexivity.
  - cbn [py_nested]. assert (IH' : py_nested (map Err (es ++ [e])) = Err e) by (apply IH; intros y Y; apply S; right; exact Y).
    destruct (map Err (es ++ [e])) as [|p q] eqn:E; [destruct es; discriminate|].
    destruct (S x (or_introl eq_refl)) as [-> | ->]; exact IH'.
Qed.
Theorem nested_first_jit : forall outs o err, first_not out_of_bounds outs o -> c_nested outs err = o.
Proof.
  intros outs o err (es & rest & -> & S & N). revert err. induction es as [|e es IH]; intros err; cbn [map app].
  - destruct o as [v|e]; cbn [c_nested]; [reflexivity|]. specialize (N e eq_refl). destruct e; try reflexivity. exfalso. apply N. reflexivity.
  - cbn [c_nested]. rewrite (S e (or_introl eq_refl)). apply IH. intros x X. apply S. right. exact X.
Qed.
Theorem nested_none_jit : forall outs e err, all_skipped out_of_bounds outs e -> c_nested outs err = Err EBounds.
Proof.
  intros outs e err (es & -> & S).
  assert (H : forall l err, (forall x, In x l -> x = EBounds) -> l <> [] -> c_nested (map Err l) err = Err EBounds).
  { clear. induction l as [|x l IH]; intros err H N; [contradiction|]. cbn [map c_nested]. rewrite (H x (or_introl eq_refl)).
    destruct l as [|y l]; [reflexivity|]. apply IH; [intros z Z; apply H; right; exact Z|discriminate]. }
  apply H; [exact S|]. destruct es; discriminate.
Qed.
(** Every non-empty list of outcomes is in one of the two cases. *)
Lemma first_or_all : forall (skip : serr -> Prop) outs, (forall e, skip e \/ ~ skip e) -> outs <> [] ->
  (exists o, first_not skip outs o) \/ (exists e, all_skipped skip outs e).
Proof.
  intros skip outs DEC. induction outs as [|o outs IH]; intros N; [contradiction|].
  destruct o as [v|e].
  - left. exists (Val v), [], outs. split; [reflexivity|]. split; [intros e []|]. discriminate.
  - destruct (DEC e) as [S|S].
    + destruct outs as [|p outs].
      * right. exists e, []. split; [reflexivity|]. intros x [<-|[]]. exact S.
      * destruct (IH ltac:(discriminate)) as [(q & es & rest & E & A & B)|(l & es & E & A)].
        -- left. exists q, (e :: es), rest. rewrite E. split; [reflexivity|]. split; [|exact B]. intros x [<-|X]; [exact S|apply A, X].
        -- right. exists l, (e :: es). rewrite E. split; [reflexivity|]. intros x [<-|X]; [exact S|apply A, X].
    + left. exists (Err e), [], outs. split; [reflexivity|]. split; [intros x []|]. intros x [= <-]. exact S.
Qed.

(** Scipy mode ends with the out-of-bounds error iff the last is out of bounds and all before are skipped. *)
Theorem nested_bounds_iff : forall outs, (forall e, In (Err e) outs -> e <> EInterp) -> outs <> [] ->
  (py_nested outs = Err EBounds <-> forall o, In o outs -> o = Err EBounds).
Proof.
  intros outs NI N. split.
  - intros E o O. destruct (first_or_all bounds_or_sampling outs) as [(p & F)|(l & A)]; [|exact N|..].
    + intros e. unfold bounds_or_sampling. destruct e; auto; right; intros [H|H]; discriminate.
    + rewrite (nested_first outs p F) in E. subst p. destruct F as (es & rest & _ & _ & B). exfalso. apply (B EBounds eq_refl). left. reflexivity.
    + destruct A as (es & -> & S). apply in_map_iff in O. destruct O as (x & <- & X). f_equal.
      destruct (S x X) as [H|H]; [exact H|]. exfalso. apply (NI x); [apply in_map, X|exact H].
  - intros H. assert (A : all_skipped bounds_or_sampling outs EBounds).
    { destruct (exists_last N) as (l & a & ->). exists (map (fun _ => EBounds) l). split.
      - rewrite map_app. cbn [map]. rewrite (H a) by (apply in_or_app; right; left; reflexivity). f_equal.
        assert (G : forall o, In o l -> o = Err EBounds) by (intros o O; apply H, in_or_app; left; exact O). clear - G.
        induction l as [|o l IH]; [reflexivity|]. cbn [map]. rewrite (G o (or_introl eq_refl)). f_equal. apply IH. intros x X. apply G. right. exact X.
      - intros e I. left. apply in_app_or in I. destruct I as [I|[<-|[]]]; [|reflexivity]. apply in_map_iff in I. destruct I as (x & <- & _). reflexivity. }
    apply nested_none, A.
Qed.
Theorem nested_bounds_iff_jit : forall outs err, outs <> [] ->
  (c_nested outs err = Err EBounds <-> forall o, In o outs -> o = Err EBounds).
Proof.
  intros outs err N. split.
  - intros E o O. destruct (first_or_all out_of_bounds outs) as [(p & F)|(l & A)]; [|exact N|..].
    + intros e. unfold out_of_bounds. destruct e; auto; right; discriminate.
    + rewrite (nested_first_jit outs p err F) in E. subst p. destruct F as (es & rest & _ & _ & B). exfalso. apply (B EBounds eq_refl). reflexivity.
    + destruct A as (es & -> & S). apply in_map_iff in O. destruct O as (x & <- & X). f_equal. apply S, X.
  - revert err. induction outs as [|o outs IH]; intros err H; [contradiction|]. cbn [c_nested]. rewrite (H o (or_introl eq_refl)).
    destruct outs as [|p outs]; [reflexivity|]. apply IH; [discriminate|]. intros x X. apply H. right. exact X.
Qed.
Theorem nested_modes : forall outs err, outs <> [] -> (forall e, In (Err e) outs -> e <> EInterp) -> py_nested outs = c_nested outs err.
Proof.
  intros outs err. revert err. induction outs as [|o outs IH]; intros err N NI; [contradiction|].
  destruct o as [v|e]; [reflexivity|]. cbn [py_nested c_nested].
  assert (NE : e <> EInterp) by (apply NI; left; reflexivity).
  destruct e; try reflexivity; [|contradiction]. destruct outs as [|p outs]; [reflexivity|]. apply IH; [discriminate|].
  intros x X. apply NI. right. exact X.
Qed.

(** ** Addition *)
Lemma hset_length : forall h l v, (l < length h)%nat -> length (hset h l v) = length h.
Proof. intros h l v L. unfold hset. rewrite app_length. cbn [length]. rewrite firstn_length, skipn_length. lia. Qed.
Lemma hget_hset_same : forall h l v, (l < length h)%nat -> hget (hset h l v) l = v.
Proof.
  intros h l v L. unfold hget, hset. rewrite app_nth2; rewrite firstn_length; [|lia]. replace (l - Nat.min l (length h))%nat with 0%nat by lia. reflexivity.
Qed.
Lemma hget_hset_other : forall h l m v, (l < length h)%nat -> m <> l -> hget (hset h l v) m = hget h m.
Proof.
  intros h l m v L N. unfold hget, hset. destruct (lt_dec m l) as [H|H].
  - rewrite app_nth1 by (rewrite firstn_length; lia). rewrite <- (firstn_skipn l h) at 2. rewrite app_nth1 by (rewrite firstn_length; lia). reflexivity.
  - rewrite app_nth2 by (rewrite firstn_length; lia). rewrite firstn_length. replace (m - Nat.min l (length h))%nat with (S (m - S l)) by lia.
    cbn [nth]. rewrite <- (firstn_skipn (S l) h) at 2. rewrite app_nth2 by (rewrite firstn_length; lia). rewrite firstn_length. f_equal. lia.
Qed.

Lemma append_loop_spec : forall k h dst src i, dst <> src -> (dst < length h)%nat -> (length (hget h src) - i < k)%nat ->
  exists h', append_loop k h dst src i = Some h' /\ length h' = length h /\
    hget h' dst = hget h dst ++ skipn i (hget h src) /\ forall m, m <> dst -> hget h' m = hget h m.
Proof.
  induction k as [|k IH]; intros h dst src i N L K; [lia|]. cbn [append_loop].
  destruct (nth_error (hget h src) i) as [x|] eqn:E.
  - assert (I : (i < length (hget h src))%nat) by (apply nth_error_Some; congruence).
    set (h1 := hset h dst (hget h dst ++ [x])).
    assert (S1 : hget h1 src = hget h src) by (apply hget_hset_other; [exact L|congruence]).
    destruct (IH h1 dst src (S i) N) as (h' & A & B & C & D).
    + unfold h1. rewrite hset_length; exact L.
    + rewrite S1. lia.
    + exists h'. split; [exact A|]. split; [rewrite B; apply hset_length, L|]. split.
      * rewrite C, S1. unfold h1. rewrite hget_hset_same by exact L. rewrite <- app_assoc. f_equal. cbn [app].
        clear - E. revert E. generalize (hget h src). intros l. revert i. induction l as [|y l IH]; intros [|i] E; try discriminate; cbn in *; [congruence|]. apply IH, E.
      * intros m M. rewrite (D m M). apply hget_hset_other; assumption.
  - exists h. split; [reflexivity|]. split; [reflexivity|]. split; [|reflexivity].
    apply nth_error_None in E. rewrite skipn_all2 by exact E. rewrite app_nil_r. reflexivity.
Qed.
Lemma append_self : forall k h l i, (l < length h)%nat -> (i < length (hget h l))%nat -> append_loop k h l l i = None.
Proof.
  induction k as [|k IH]; intros h l i L I; [reflexivity|]. cbn [append_loop].
  destruct (nth_error (hget h l) i) as [x|] eqn:E; [|apply nth_error_None in E; lia].
  apply IH; [rewrite hset_length; exact L|]. rewrite hget_hset_same by exact L. rewrite app_length. cbn [length]. lia.
Qed.

Lemma fleaves_pos : forall e, (0 < length (fleaves e))%nat.
Proof. induction e as [n|a IHa b IHb]; cbn; [lia|]. rewrite app_length. lia. Qed.
Lemma first_leaf : forall e, exists n l, fleaves e = n :: l.
Proof. intros e. pose proof (fleaves_pos e). destruct (fleaves e) as [|n l]; [cbn in *; lia|]. exists n, l. reflexivity. Qed.

Theorem tree_sum : forall e k h, (length (fleaves e) < k)%nat ->
  exists h' o, feval k h e = Some (h', o) /\ components h' o = map IField (fleaves e) /\
    (length h <= length h')%nat /\ (forall l, (l < length h)%nat -> hget h' l = hget h l) /\
    match o with OField n => e = FLeaf n | OSum l => (length h <= l < length h')%nat | OVector _ => False end.
Proof.
  induction e as [n|a IHa b IHb]; intros k h K.
  - exists h, (OField n). cbn. repeat split; try lia; auto.
  - cbn [fleaves] in K. rewrite app_length in K. pose proof (fleaves_pos a). pose proof (fleaves_pos b).
    destruct (IHa k h ltac:(lia)) as (h1 & oa & EA & CA & LA & FA & OA).
    destruct (IHb k h1 ltac:(lia)) as (h2 & ob & EB & CB & LB & FB & OB).
    cbn [feval]. rewrite EA, EB.
    destruct (first_leaf a) as (na & la & Ea). destruct (first_leaf b) as (nb & lb & Eb).
    destruct oa as [m|m|l].
    + rewrite OA in *. cbn [fleaves] in *. destruct ob as [n|n|l'].
      * rewrite OB in *. cbn [fleaves py_add]. exists (h2 ++ [[IField m; IField n]]), (OSum (length h2)). split; [reflexivity|].
        cbn [components]. unfold hget. rewrite app_nth2, Nat.sub_diag by lia. split; [reflexivity|]. rewrite app_length. cbn [length].
        split; [lia|]. split; [|lia]. intros l L. rewrite app_nth1 by lia. unfold hget in *. rewrite FB by lia. apply FA, L.
      * contradiction.
      * cbn [py_add]. cbn [components] in CB. rewrite CB, Eb. cbn [map is_field].
        exists (hset h2 l' (IField m :: IField nb :: map IField lb)), (OSum l'). split; [reflexivity|].
        cbn [components]. rewrite hget_hset_same by lia. split; [reflexivity|].
        rewrite hset_length by lia. split; [lia|]. split; [|lia]. intros l L. rewrite hget_hset_other by lia. rewrite FB by lia. apply FA, L.
    + contradiction.
    + assert (CA2 : hget h2 l = map IField (fleaves a)) by (rewrite FB by lia; exact CA).
      destruct ob as [n|n|l'].
      * rewrite OB in *. cbn [fleaves py_add]. rewrite CA2, Ea. cbn [map is_field].
        exists (hset h2 l ((IField na :: map IField la) ++ [IField n])), (OSum l). split; [reflexivity|]. cbn [components].
        rewrite hget_hset_same by lia. split; [rewrite map_app; reflexivity|]. rewrite hset_length by lia. split; [lia|]. split; [|lia].
        intros x X. rewrite hget_hset_other by lia. rewrite FB by lia. apply FA, X.
      * contradiction.
      * cbn [components] in CB.
        destruct (append_loop_spec k h2 l l' 0 ltac:(lia) ltac:(lia)) as (h3 & A & B & C & D).
        { rewrite CB, map_length. lia. }
        assert (PA : py_add k h2 (OSum l) (OSum l') = Added h3 (OSum l)).
        { cbn [py_add]. rewrite CA2, CB, Ea, Eb. cbn [map is_field eqb]. rewrite A. reflexivity. }
        rewrite PA. exists h3, (OSum l). split; [reflexivity|]. cbn [components]. split.
        -- rewrite C, CA2, CB. cbn [skipn]. cbn [fleaves]. rewrite map_app. reflexivity.
        -- split; [lia|]. split; [|lia]. intros x X. rewrite D by lia. rewrite FB by lia. apply FA, X.
Qed.

Theorem self_sum_loops : forall k h l, (l < length h)%nat -> hget h l <> [] -> py_add k h (OSum l) (OSum l) = AddLoops.
Proof.
  intros k h l L N. cbn [py_add]. destruct (hget h l) as [|x r] eqn:E; [contradiction|]. rewrite eqb_reflx.
  rewrite append_self; [reflexivity|exact L|]. rewrite E. cbn. lia.
Qed.

(** Two expressions over the same fields, in any grouping and order. *)
Definition outcome_of (val : nat -> sample) (i : item) : outcome sample := match i with IField n => Val (val n) | IVector n => Val (val n) end.
Lemma map_outcome : forall val l, map (outcome_of val) (map IField l) = map Val (map val l).
Proof. intros val l. rewrite !map_map. reflexivity. Qed.
Theorem grouping : forall n val e1 e2 k h1 h2, (0 < n)%nat -> (forall m, length (val m) = n) -> Permutation (fleaves e1) (fleaves e2) ->
  (length (fleaves e1) < k)%nat ->
  exists g1 o1 g2 o2 r1 r2, feval k h1 e1 = Some (g1, o1) /\ feval k h2 e2 = Some (g2, o2) /\
    py_summed (map (outcome_of val) (components g1 o1)) = Val r1 /\ py_summed (map (outcome_of val) (components g2 o2)) = Val r2 /\
    sum_of n (map val (fleaves e1)) r1 /\ forall i, comp i r1 == comp i r2.
Proof.
  intros n val e1 e2 k h1 h2 P L PM K.
  destruct (tree_sum e1 k h1 K) as (g1 & o1 & E1 & C1 & _).
  destruct (tree_sum e2 k h2) as (g2 & o2 & E2 & C2 & _); [rewrite <- (Permutation_length PM); exact K|].
  assert (NE : forall e, map val (fleaves e) <> []) by (intros e; destruct (first_leaf e) as (x & l & ->); discriminate).
  assert (SS : forall e, same_shape n (map val (fleaves e))) by (intros e; split; [exact P|]; intros v V; apply in_map_iff in V; destruct V as (x & <- & _); apply L).
  destruct (summed_ok n _ (NE e1) (SS e1)) as (r1 & R1 & _ & S1). destruct (summed_ok n _ (NE e2) (SS e2)) as (r2 & R2 & _ & S2).
  exists g1, o1, g2, o2, r1, r2. split; [exact E1|]. split; [exact E2|]. rewrite C1, C2, !map_outcome. split; [exact R1|]. split; [exact R2|].
  split; [exact S1|]. apply (sum_perm n _ _ _ _ (Permutation_map val PM) S1 S2).
Qed.
