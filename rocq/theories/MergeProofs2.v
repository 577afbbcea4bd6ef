(** Proofs for C44, continued: the sum as a kernel, its C function and its declarations. *)
From Coq Require Import String List ZArith QArith Bool Arith Lia.
From Verif Require Import GenModel GenSpec GenProofs GenProofs4 GenProofs8 MergeModel MergeSpec MergeProofs.
Import ListNotations.
Open Scope Z_scope.
Local Open Scope string_scope.
Local Open Scope list_scope.

Lemma plus_body : forall ks k, k_body (plus k ks) = concat (map k_body (k :: ks)).
Proof.
  unfold plus. induction ks as [|k1 ks IH]; intros k; cbn [fold_left map concat].
  - rewrite app_nil_r. reflexivity.
  - rewrite IH. cbn. rewrite app_assoc. reflexivity.
Qed.
Lemma plus_vars : forall ks k, k_vars (plus k ks) = concat (map k_vars (k :: ks)).
Proof.
  unfold plus. induction ks as [|k1 ks IH]; intros k; cbn [fold_left map concat].
  - rewrite app_nil_r. reflexivity.
  - rewrite IH. cbn. rewrite app_assoc. reflexivity.
Qed.
Lemma plus_arrays : forall ks k, k_arrays (plus k ks) = concat (map k_arrays (k :: ks)).
Proof.
  unfold plus. induction ks as [|k1 ks IH]; intros k; cbn [fold_left map concat].
  - rewrite app_nil_r. reflexivity.
  - rewrite IH. cbn. rewrite app_assoc. reflexivity.
Qed.

Lemma sum_closed : forall libm fsample vfsample aint consts k ks,
  Forall (fun k => own_locals (k_body k)) (k :: ks) -> forall time att r,
  in_order libm fsample vfsample aint consts time (map k_body (k :: ks)) att r <->
  exists o, ends libm fsample vfsample aint consts (k_body (plus k ks)) (called time att) o /\ see o = Some r.
Proof.
  intros libm fsample vfsample aint consts k ks F time att r. rewrite plus_body. apply sum_order; try reflexivity.
  apply Forall_forall. intros b I. apply in_map_iff in I as (k1 & <- & I). rewrite Forall_forall in F. apply F, I.
Qed.

Lemma in_order_fun : forall libm fsample vfsample aint consts time bs att r r',
  in_order libm fsample vfsample aint consts time bs att r -> in_order libm fsample vfsample aint consts time bs att r' -> r = r'.
Proof.
  intros libm fsample vfsample aint consts time bs att r r' O. revert r'. induction O as [att|b bs att s r E O IH|b bs att o r E S NF]; intros r' O'.
  - inversion O'; reflexivity.
  - inversion O' as [|? ? ? s' ? E' O1|? ? ? o' ? E' S' NF']; subst.
    + pose proof (ends_fun _ _ _ _ _ _ _ _ _ E E') as Q. injection Q as <-. apply IH. exact O1.
    + pose proof (ends_fun _ _ _ _ _ _ _ _ _ E E') as Q. subst o'. cbn in S'. injection S' as <-. exfalso. eapply NF'. reflexivity.
  - inversion O' as [|? ? ? s' ? E' O1|? ? ? o' ? E' S' NF']; subst.
    + pose proof (ends_fun _ _ _ _ _ _ _ _ _ E E') as Q. subst o. cbn in S. injection S as <-. exfalso. eapply NF. reflexivity.
    + pose proof (ends_fun _ _ _ _ _ _ _ _ _ E E') as Q. subst o'. congruence.
Qed.

(** In C. *)
Lemma compiled_closed : forall ncomp vdim aint libm fsample vfsample consts k ks,
  samples_ok ncomp vdim fsample vfsample ->
  Forall (fun k => own_locals (k_body k) /\ forallb (sfits ncomp vdim aint) (k_body k) = true /\ forallb straight (k_body k) = true) (k :: ks) ->
  forall time att c r res att',
  agree aint (called time att) c -> ~ (pnum (att "state") == inject_Z (py_code KDelete))%Q ->
  in_order libm fsample vfsample aint consts time (map k_body (k :: ks)) att r -> code_of (att "state") r = Some (res, att') ->
  exists zs m0 c', compile ncomp vdim (k_body (plus k ks)) = Some zs /\
    (forall m, (m0 <= m)%nat -> cresult (c_att c "state") (cexec libm fsample vfsample aint consts m zs c) = Some (res, c')) /\
    forall a, same (att' a) (c_att c' a).
Proof.
  intros ncomp vdim aint libm fsample vfsample consts k ks SO F time att c r res att' AG ND O CO.
  assert (F1 : Forall (fun k => own_locals (k_body k)) (k :: ks)).
  { eapply Forall_impl; [|exact F]. intros a H. apply H. }
  apply (proj1 (sum_closed _ _ _ _ _ k ks F1 time att r)) in O as (o & [N [n E]] & S).
  assert (B1 : forallb (sfits ncomp vdim aint) (k_body (plus k ks)) = true /\ forallb straight (k_body (plus k ks)) = true).
  { rewrite plus_body. clear - F. induction F as [|k1 l H F IH]; [split; reflexivity|]. cbn [map concat].
    rewrite !forallb_app. destruct H as (_ & H1 & H2), IH as [I1 I2]. rewrite H1, H2, I1, I2. split; reflexivity. }
  destruct B1 as [B1 B2].
  assert (P : exists p', presult (p_att (called time att) "state") (pexec libm fsample vfsample aint consts n (k_body (plus k ks)) (called time att)) = Some (res, p') /\ p_att p' = att').
  { rewrite E. cbn [called p_att]. destruct o as [s|s|c1 s|c1 s| |]; cbn [see] in S; try discriminate S; injection S as <-; cbn [code_of] in CO; try discriminate CO;
      injection CO as CO1 CO2; cbn [presult]; subst att' res; exists s; (split; [|reflexivity]); try reflexivity;
      destruct (Qeq_bool (pnum (p_att s "state")) (pnum (att "state"))); try (change (py_code KSuccess) with 0; destruct (c1 =? 0)%Z); reflexivity. }
  destruct P as (p' & P & PA).
  destruct (straight_closed ncomp vdim aint libm fsample vfsample consts _ n _ c res p' SO B1 B2 AG eq_refl eq_refl ND P) as (zs & m0 & c' & C1 & C2 & C3).
  exists zs, m0, c'. split; [exact C1|]. split; [exact C2|]. intros a. rewrite <- PA. apply C3.
Qed.

(** ** Declarations *)
Lemma mem_In : forall x l, mem x l = true <-> In x l.
Proof.
  intros x l. unfold mem. rewrite existsb_exists. split.
  - intros (y & I & E). apply String.eqb_eq in E. subst. exact I.
  - intros I. exists x. split; [exact I|apply String.eqb_refl].
Qed.
Lemma mem_false : forall x l, mem x l = false <-> ~ In x l.
Proof. intros x l. rewrite <- mem_In. destruct (mem x l); split; congruence. Qed.

Fixpoint count (x : string) (l : list string) : nat :=
  match l with [] => 0 | y :: r => if String.eqb x y then S (count x r) else count x r end.
Lemma count_In : forall x l, In x l <-> (0 < count x l)%nat.
Proof.
  intros x. induction l as [|y l IH]; cbn [In count]; [lia|]. destruct (String.eqb x y) eqn:E.
  - apply String.eqb_eq in E. subst. split; [lia|]. intros _. left. reflexivity.
  - apply String.eqb_neq in E. rewrite <- IH. split; [intros [->|I]; [congruence|exact I]|]. intros I. right. exact I.
Qed.
Lemma count_NoDup : forall l, (forall x, (count x l <= 1)%nat) -> NoDup l.
Proof.
  induction l as [|y l IH]; intros H; constructor.
  - rewrite count_In. specialize (H y). cbn [count] in H. rewrite String.eqb_refl in H. lia.
  - apply IH. intros x. specialize (H x). cbn [count] in H. destruct (String.eqb x y); lia.
Qed.
Lemma count_remove1 : forall x y l, count x (remove1 y l) = if String.eqb x y then pred (count x l) else count x l.
Proof.
  intros x y. induction l as [|z l IH]; cbn [remove1 count]; [destruct (String.eqb x y); reflexivity|].
  destruct (String.eqb y z) eqn:E.
  - apply String.eqb_eq in E. subst z. destruct (String.eqb x y); reflexivity.
  - cbn [count]. rewrite IH. destruct (String.eqb x z) eqn:E2; [|reflexivity]. destruct (String.eqb x y) eqn:E3; [|reflexivity].
    apply String.eqb_eq in E2, E3. subst. rewrite String.eqb_refl in E. discriminate.
Qed.
Lemma count_drop_repeated : forall x fv used copy,
  count x (drop_repeated fv used copy) = (count x copy - (if mem x used then count x fv else pred (count x fv)))%nat.
Proof.
  intros x. induction fv as [|v fv IH]; intros used copy; cbn [drop_repeated]; [destruct (mem x used); cbn; lia|].
  destruct (mem v used) eqn:M.
  - rewrite IH, count_remove1. cbn [count]. destruct (String.eqb x v) eqn:E.
    + apply String.eqb_eq in E. subst v. rewrite M. lia.
    + destruct (mem x used); lia.
  - rewrite IH. cbn [count]. unfold mem. rewrite existsb_app. fold (mem x used). cbn [existsb]. rewrite orb_false_r.
    destruct (String.eqb x v) eqn:E.
    + apply String.eqb_eq in E. subst v. rewrite M. cbn. lia.
    + rewrite orb_false_r. destruct (mem x used); lia.
Qed.
Lemma count_drop_names : forall x names l, (count x l <= 1)%nat ->
  count x (drop_names names l) = if mem x names then O else count x l.
Proof.
  intros x. unfold drop_names. induction names as [|v names IH]; intros l L; cbn [fold_left]; [reflexivity|].
  assert (Q : count x (if mem v l then remove1 v l else l) = if String.eqb x v then O else count x l).
  { destruct (mem v l) eqn:M.
    - rewrite count_remove1. destruct (String.eqb x v); lia.
    - destruct (String.eqb x v) eqn:E; [|reflexivity]. apply String.eqb_eq in E. subst v. apply mem_false in M. rewrite count_In in M. lia. }
  rewrite IH by (rewrite Q; destruct (String.eqb x v); lia). rewrite Q. unfold mem. cbn [existsb].
  destruct (String.eqb x v); cbn [orb]; destruct (existsb _ names); reflexivity.
Qed.
Lemma count_declared : forall x av fv, count x (declared av fv) = if mem x (kernel_vars ++ av) then O else Nat.min 1 (count x fv).
Proof.
  intros x av fv. unfold declared.
  assert (Q : count x (drop_repeated fv [] fv) = Nat.min 1 (count x fv)) by (rewrite count_drop_repeated; cbn [mem existsb]; lia).
  rewrite count_drop_names by lia. rewrite Q. reflexivity.
Qed.

Lemma declared_closed : forall av fv,
  NoDup (declared av fv) /\ forall x, In x (declared av fv) <-> In x fv /\ ~ In x kernel_vars /\ ~ In x av.
Proof.
  intros av fv. split.
  - apply count_NoDup. intros x. rewrite count_declared. destruct (mem _ _); lia.
  - intros x. rewrite !count_In, count_declared, <- !count_In. destruct (mem x (kernel_vars ++ av)) eqn:M.
    + apply mem_In in M. rewrite in_app_iff in M. split; [lia|tauto].
    + apply mem_false in M. rewrite in_app_iff in M. rewrite count_In. split; [|lia]. intros H. split; [lia|tauto].
Qed.

(** The declarations of the C function of a sum. *)
Lemma sum_declared : forall av k ks, 
  let '(_, (arrays, plain)) := generate av (plus k ks) in
  NoDup plain /\
  forall x, In x plain <->
    (exists k', In k' (k :: ks) /\ In x (k_vars k')) /\ ~ In x kernel_vars /\ ~ In x av /\ ~ (exists k', In k' (k :: ks) /\ In x (k_arrays k')).
Proof.
  intros av k ks. unfold generate. rewrite plus_vars, plus_arrays. destruct (declared_closed (av ++ concat (map k_arrays (k :: ks))) (concat (map k_vars (k :: ks)))) as [ND IN].
  split; [exact ND|]. intros x. rewrite IN, in_app_iff.
  assert (Q : forall (f : kernel -> list string) l, In x (concat (map f l)) <-> exists k', In k' l /\ In x (f k')).
  { intros f l. rewrite <- flat_map_concat_map, in_flat_map. reflexivity. }
  rewrite !Q. tauto.
Qed.

(** co_varnames are the arguments and the names assigned, once. *)
Lemma once_spec : forall l seen, NoDup (once seen l) /\ forall x, In x (once seen l) <-> In x l /\ ~ In x seen.
Proof.
  induction l as [|y l IH]; intros sn; cbn [once]; [split; [constructor|cbn; tauto]|]. destruct (mem y sn) eqn:M.
  - destruct (IH sn) as [ND IN]. split; [exact ND|]. intros x. rewrite IN. apply mem_In in M. cbn [In]. split; [tauto|].
    intros [[->|I] N]; [contradiction|tauto].
  - destruct (IH (y :: sn)) as [ND IN]. apply mem_false in M. split.
    + constructor; [|exact ND]. rewrite IN. cbn. tauto.
    + intros x. cbn [In]. rewrite IN. cbn [In]. split.
      * intros [->|[I N]]; tauto.
      * intros [[->|I] N]; [tauto|]. destruct (String.eqb y x) eqn:E; [apply String.eqb_eq in E; tauto|].
        apply String.eqb_neq in E. tauto.
Qed.
Lemma names_ok : forall n s, (ssize s <= n)%nat -> forall x, In x (assigned s) <-> sets x s = true.
Proof.
  assert (T : forall x t, In x (target_names [t]) <-> target_is x t = true).
  { intros x [y|a]; cbn; [|split; [tauto|discriminate]]. rewrite String.eqb_eq. intuition congruence. }
  assert (TS : forall x ts, In x (target_names ts) <-> existsb (target_is x) ts = true).
  { intros x ts. unfold target_names. rewrite in_flat_map, existsb_exists. split; intros (t & I & H); exists t; split; try exact I;
      specialize (T x t); cbn in T; rewrite app_nil_r in T; apply T; exact H. }
  induction n as [|n IH]; intros s L; [destruct s; cbn in L; lia|].
  assert (A : forall l x, (list_sum (map ssize l) <= n)%nat -> In x (flat_map assigned l) <-> existsb (sets x) l = true).
  { intros l x L2. rewrite in_flat_map, existsb_exists.
    assert (P : forall i, In i l -> (ssize i <= n)%nat).
    { intros i I. induction l as [|j l IHl]; [contradiction|]. change (ssize j + list_sum (map ssize l) <= n)%nat in L2.
      destruct I as [->|I]; [lia|]. apply IHl; [lia|exact I]. }
    split; intros (i & I & H); exists i; split; try exact I; apply (IH i (P i I)); exact H. }
  intros x. destruct s; cbn [ssize] in L; cbn [assigned sets]; try (apply T); try (apply TS); try (split; [contradiction|discriminate]).
  - rewrite in_app_iff, orb_true_iff, !A by lia. reflexivity.
  - apply A. lia.
Qed.
Lemma vars_closed : forall body, NoDup (k_vars (of_body body)) /\
  forall x, In x (k_vars (of_body body)) <-> In x arguments \/ existsb (sets x) body = true.
Proof.
  intros body. cbn [of_body k_vars]. destruct (once_spec (arguments ++ flat_map assigned body) []) as [ND IN]. split; [exact ND|].
  intros x. rewrite IN, in_app_iff, in_flat_map, existsb_exists.
  assert (Q : (exists s, In s body /\ In x (assigned s)) <-> exists s, In s body /\ sets x s = true).
  { split; intros (s & I & H); exists s; split; try exact I; apply (names_ok (ssize s) s (le_n _)); exact H. }
  cbn [In] in *. tauto.
Qed.
