(** Proofs for C32 and C33: running C statements, and the samples taken before a statement. *)
From Coq Require Import String List ZArith QArith Bool Arith Lia Lqa.
From Verif Require Import GenModel GenSpec GenProofs GenProofs2.
Import ListNotations.
Open Scope Z_scope.

Lemma trunc_morph a b : (a == b)%Q -> trunc a = trunc b.
Proof.
  unfold trunc, Qeq. destruct a as [n1 d1], b as [n2 d2]. cbn [Qnum Qden]. intros H.
  rewrite <- (Z.quot_mul_cancel_r n1 (Z.pos d1) (Z.pos d2)) by discriminate.
  rewrite <- (Z.quot_mul_cancel_r n2 (Z.pos d2) (Z.pos d1)) by discriminate.
  rewrite H. f_equal. lia.
Qed.

Section Run.
Variable ncomp : string -> nat.
Variable vdim : string -> nat.
Variable aint : string -> bool.
Variable libm : string -> list Q -> option Q.
Variable fsample : string -> Q -> Q -> Q -> Q -> sample.
Variable vfsample : string -> Q -> Q -> Q -> Q -> vsample.
Variable consts : leaf -> Q.

Notation pev := (peval libm fsample).
Notation cev := (ceval libm).
Notation fit := (fits ncomp aint).
Notation lvl := (level ncomp).
Notation agr := (agree aint).
Notation exec := (cexec libm fsample vfsample aint consts).
Notation cval_of := (cvalue libm consts).
Notation ce := (cenv consts).
Notation pe := (penv consts).

(** * Running C *)

Definition exec1 (n : nat) (i : cstmt) (s : cst) : cout :=
  match i with
  | ZEval f t z y x tmps => ceval_field libm fsample consts s f t z y x tmps
  | ZVecEval f t z y x tmps => ceval_vec libm vfsample consts s f t z y x tmps
  | ZAssign t e => cgive (cval_of s e) (fun v => CNext (cassign aint s t v))
  | ZAug t o e =>
      cgive (match ce s (NLeaf (target_leaf t)), cval_of s e with
             | Some a, Some b => carith (bop_tok o) a b
             | _, _ => None
             end) (fun v => CNext (cassign aint s t v))
  | ZIf c b o => cgive (cval_of s c) (fun v => exec n (if ctruth v then b else o) s)
  | ZDo b c =>
      match exec n b s with
      | CNext s' =>
          cgive (cval_of s' c) (fun v => if ctruth v then exec n [ZDo b c] s' else CNext s')
      | CBreak s' => CNext s'
      | o => o
      end
  | ZBreak => CBreak s
  | ZEmpty => CNext s
  | ZReturn k => CReturn (c_sym k) s
  | ZBlock b => exec n b s
  end.

Lemma exec_cons n i r s :
  exec (S n) (i :: r) s = match exec1 n i s with CNext s' => exec n r s' | _ => exec1 n i s end.
Proof. destruct i; reflexivity. Qed.

Lemma exec_mono n : forall ss s o, exec n ss s = o -> o <> CFuel ->
  forall m, (n <= m)%nat -> exec m ss s = o.
Proof.
  induction n as [|n IH]; intros ss s o H Ho m Hm; [cbn in H; congruence|].
  destruct m as [|m]; [lia|]. assert (Hm' : (n <= m)%nat) by lia.
  destruct ss as [|i r]; [exact H|]. rewrite exec_cons in *.
  assert (E1 : exec1 n i s <> CFuel -> exec1 m i s = exec1 n i s).
  { intros Hn. destruct i; try reflexivity; cbn [exec1] in *.
    - destruct (cval_of s c) as [v|]; [|reflexivity]. cbn [cgive] in *.
      apply (IH _ _ _ eq_refl Hn m Hm').
    - destruct (exec n b s) as [s'|s'|k s'| |] eqn:E;
        try (rewrite (IH _ _ _ E ltac:(discriminate) m Hm'); reflexivity); [|congruence].
      rewrite (IH _ _ _ E ltac:(discriminate) m Hm').
      destruct (cval_of s' c) as [v|]; [|reflexivity]. cbn [cgive] in *.
      destruct (ctruth v); [|reflexivity]. apply (IH _ _ _ eq_refl Hn m Hm').
    - apply (IH _ _ _ eq_refl Hn m Hm'). }
  destruct (exec1 n i s) as [s'|s'|k s'| |] eqn:E; try (rewrite E1 by discriminate; exact H); [|congruence].
  rewrite E1 by discriminate. apply (IH _ _ _ H Ho m Hm').
Qed.

(** [zs] run from [c] ends with [o]. *)
Definition runs (zs : list cstmt) (c : cst) (o : cout) : Prop :=
  o <> CFuel /\ exists n, exec n zs c = o.

Definition ends (o : cout) : Prop := match o with CNext _ => False | _ => True end.

Lemma runs_nil c : runs [] c (CNext c).
Proof. split; [discriminate|]. exists 1%nat. reflexivity. Qed.

Lemma runs_step i r c c' o n : exec1 n i c = CNext c' -> runs r c' o -> runs (i :: r) c o.
Proof.
  intros H1 [Ho [m H2]]. split; [exact Ho|]. exists (S (Nat.max n m)). rewrite exec_cons.
  assert (E : exec (S (Nat.max n 1)) [i] c = CNext c').
  { assert (E0 : exec (S (S n)) [i] c = CNext c').
    { rewrite exec_cons. assert (E1 : exec1 (S n) i c = CNext c').
      { assert (Hm : (n <= S n)%nat) by lia.
        destruct i; try exact H1; cbn [exec1] in *.
        - destruct (cval_of c c0) as [v|]; [|discriminate]. cbn [cgive] in *.
          apply (exec_mono _ _ _ _ H1 ltac:(discriminate) _ Hm).
        - destruct (exec n b c) as [s'|s'|k s'| |] eqn:E; try discriminate H1;
            rewrite (exec_mono _ _ _ _ E ltac:(discriminate) _ Hm); [|exact H1].
          destruct (cval_of s' c0) as [v|]; [|discriminate]. cbn [cgive] in *.
          destruct (ctruth v); [|exact H1]. apply (exec_mono _ _ _ _ H1 ltac:(discriminate) _ Hm).
        - apply (exec_mono _ _ _ _ H1 ltac:(discriminate) _ Hm). }
      rewrite E1. reflexivity. }
    destruct n as [|n].
    - rewrite exec_cons. cbn [Nat.max].
      assert (Hm : (0 <= 1)%nat) by lia.
      rewrite exec_cons in E0. exact E0.
    - rewrite exec_cons. replace (Nat.max (S n) 1) with (S n) by lia. rewrite H1. reflexivity. }
  assert (E1 : exec1 (Nat.max n m) i c = CNext c').
  { clear - H1. assert (Hm : (n <= Nat.max n m)%nat) by lia.
    destruct i; try exact H1; cbn [exec1] in *.
    - destruct (cval_of c c0) as [v|]; [|discriminate]. cbn [cgive] in *.
      apply (exec_mono _ _ _ _ H1 ltac:(discriminate) _ Hm).
    - destruct (exec n b c) as [s'|s'|k s'| |] eqn:E; try discriminate H1;
        rewrite (exec_mono _ _ _ _ E ltac:(discriminate) _ Hm); [|exact H1].
      destruct (cval_of s' c0) as [v|]; [|discriminate]. cbn [cgive] in *.
      destruct (ctruth v); [|exact H1]. apply (exec_mono _ _ _ _ H1 ltac:(discriminate) _ Hm).
    - apply (exec_mono _ _ _ _ H1 ltac:(discriminate) _ Hm). }
  rewrite E1. apply (exec_mono _ _ _ _ H2 Ho). lia.
Qed.

Lemma runs_stop i r c o n : exec1 n i c = o -> o <> CFuel -> ends o -> runs (i :: r) c o.
Proof.
  intros H Hf He. split; [exact Hf|]. exists (S n). rewrite exec_cons, H.
  destruct o; [destruct He|reflexivity|reflexivity|reflexivity|reflexivity].
Qed.

Lemma runs_app l1 : forall l2 c c' o, runs l1 c (CNext c') -> runs l2 c' o -> runs (l1 ++ l2) c o.
Proof.
  induction l1 as [|i l1 IH]; intros l2 c c' o [_ [n H1]] H2.
  - destruct n as [|n]; [discriminate|]. cbn in H1. injection H1 as ->. exact H2.
  - destruct n as [|n]; [discriminate|]. rewrite exec_cons in H1.
    destruct (exec1 n i c) as [s'|s'|k s'| |] eqn:E; try discriminate H1.
    apply (runs_step i (l1 ++ l2) c s' o n E). apply (IH l2 s' c' o); [|exact H2].
    split; [discriminate|]. exists n. exact H1.
Qed.

Lemma runs_app_stop l1 : forall l2 c o, runs l1 c o -> ends o -> runs (l1 ++ l2) c o.
Proof.
  induction l1 as [|i l1 IH]; intros l2 c o [Ho [n H1]] He.
  - destruct n as [|n]; cbn in H1; subst o; [congruence|destruct He].
  - destruct n as [|n]; [cbn in H1; congruence|]. rewrite exec_cons in H1. cbn [app].
    destruct (exec1 n i c) as [s'|s'|k s'| |] eqn:E.
    + apply (runs_step i (l1 ++ l2) c s' o n E). apply IH; [|exact He]. split; [exact Ho|]. exists n. exact H1.
    + apply runs_stop with (n := n); [congruence|exact Ho|exact He].
    + apply runs_stop with (n := n); [congruence|exact Ho|exact He].
    + apply runs_stop with (n := n); [congruence|exact Ho|exact He].
    + congruence.
Qed.

Lemma runs_block b c o : runs b c o -> runs [ZBlock b] c o.
Proof.
  intros [Ho [n H]]. destruct o.
  - apply runs_step with (c' := s) (n := n); [exact H|apply runs_nil].
  - apply runs_stop with (n := n); [exact H|exact Ho|exact I].
  - apply runs_stop with (n := n); [exact H|exact Ho|exact I].
  - apply runs_stop with (n := n); [exact H|exact Ho|exact I].
  - congruence.
Qed.

Lemma runs_det zs c o1 o2 : runs zs c o1 -> runs zs c o2 -> o1 = o2.
Proof.
  intros [H1 [n E1]] [H2 [m E2]].
  rewrite <- (exec_mono _ _ _ _ E1 H1 (Nat.max n m) ltac:(lia)).
  apply (exec_mono _ _ _ _ E2 H2). lia.
Qed.

(** * States *)

Lemma agree_leaf p c : agr p c -> leaf_agree aint (pe p) (ce c).
Proof.
  intros [HL HA]. split; [|reflexivity]. intros l v H. destruct l as [x|a|k|m]; cbn in *.
  - destruct (HL x v H) as (q & -> & Hq). exists (CR q). split; [reflexivity|]. split; [exact Hq|reflexivity].
  - injection H as <-. destruct (HA a) as [S C]. exists (c_att c a). split; [reflexivity|]. split; assumption.
  - injection H as <-. eexists. split; [reflexivity|]. split; [cbn; reflexivity|reflexivity].
  - injection H as <-. eexists. split; [reflexivity|]. split; [cbn; reflexivity|reflexivity].
Qed.

(** Same locals and particle variables; temporaries outside [n, n') unchanged. *)
Definition keeps (n n' : nat) (c c' : cst) : Prop :=
  c_loc c' = c_loc c /\ c_att c' = c_att c /\
  forall m, (m < n \/ n' <= m)%nat -> c_tmp c' m = c_tmp c m.

Lemma keeps_refl n n' c : keeps n n' c c. Proof. repeat split. Qed.

Lemma keeps_agree n n' c c' p : keeps n n' c c' -> agr p c -> agr p c'.
Proof. intros (H1 & H2 & _) [A1 A2]. unfold agree. rewrite H1, H2. split; assumption. Qed.

Lemma keeps_trans n1 n2 n3 c1 c2 c3 :
  (n1 <= n2)%nat -> (n2 <= n3)%nat -> keeps n1 n2 c1 c2 -> keeps n2 n3 c2 c3 -> keeps n1 n3 c1 c3.
Proof.
  intros L1 L2 (A1 & B1 & C1) (A2 & B2 & C2). split; [congruence|]. split; [congruence|].
  intros m Hm. rewrite C2 by lia. apply C1. lia.
Qed.

Lemma tmps_ok_keep e : forall pe0 ce1 ce2 n,
  tmps_ok ncomp libm fsample pe0 ce1 n e ->
  (forall m, (n <= m < n + used ncomp e)%nat -> ce2 (NTmp m) = ce1 (NTmp m)) ->
  tmps_ok ncomp libm fsample pe0 ce2 n e.
Proof.
  induction e as [k|b|l|k|f t IHt z IHz y IHy x IHx|o a IH|o a IHa b IHb|o a IHa b IHb|o a IHa b IHb
                 |f a IH|f a IHa b IHb]; intros pe0 ce1 ce2 n H Hk; cbn [tmps_ok used] in *; auto.
  - destruct H as (H1 & H2 & H3 & H4 & H5).
    split; [apply (IHt _ ce1); [exact H1|intros m Hm; apply Hk; lia]|].
    split; [apply (IHz _ ce1); [exact H2|intros m Hm; apply Hk; lia]|].
    split; [apply (IHy _ ce1); [exact H3|intros m Hm; apply Hk; lia]|].
    split; [apply (IHx _ ce1); [exact H4|intros m Hm; apply Hk; lia]|].
    intros vt vz vy vx vs Et Ez Ey Ex Es. specialize (H5 _ _ _ _ _ Et Ez Ey Ex Es).
    unfold tmps_are in *.
    assert (G : forall k l q, Forall2 (fun n q => ce1 (NTmp n) = Some (CR q)) (seq k l) q ->
      (forall m, (k <= m < k + l)%nat -> ce2 (NTmp m) = ce1 (NTmp m)) ->
      Forall2 (fun n q => ce2 (NTmp n) = Some (CR q)) (seq k l) q).
    { clear. intros k l. revert k. induction l as [|l IH]; intros k q F Hk; inversion F; subst; constructor.
      - rewrite Hk by lia. assumption.
      - apply IH; [assumption|]. intros m Hm. apply Hk. lia. }
    apply G; [exact H5|]. intros m Hm. apply Hk. lia.
  - apply (IH _ ce1); assumption.
  - destruct H as [H1 H2]. split; [apply (IHa _ ce1)|apply (IHb _ ce1)]; try assumption; intros m Hm; apply Hk; lia.
  - destruct H as [H1 H2]. split; [apply (IHa _ ce1)|apply (IHb _ ce1)]; try assumption; intros m Hm; apply Hk; lia.
  - destruct H as [H1 H2]. split; [apply (IHa _ ce1)|apply (IHb _ ce1)]; try assumption; intros m Hm; apply Hk; lia.
  - apply (IH _ ce1); assumption.
  - destruct H as [H1 H2]. split; [apply (IHa _ ce1)|apply (IHb _ ce1)]; try assumption; intros m Hm; apply Hk; lia.
Qed.

Lemma tmps_keeps e p n n1 n2 c c' :
  tmps_ok ncomp libm fsample (pe p) (ce c) n e -> keeps n1 n2 c c' ->
  (n + used ncomp e <= n1)%nat -> tmps_ok ncomp libm fsample (pe p) (ce c') n e.
Proof.
  intros H (_ & _ & K) Hle. apply tmps_ok_keep with (ce1 := ce c); [exact H|].
  intros m Hm. cbn. rewrite K by lia. reflexivity.
Qed.

(** ** Writing temporaries *)

Lemma set_tmps_keeps ns : forall qs c n n', (forall m, In m ns -> (n <= m < n')%nat) ->
  keeps n n' c (set_tmps c ns qs).
Proof.
  unfold set_tmps. induction ns as [|m ns IH]; intros qs c n n' H.
  - destruct qs; apply keeps_refl.
  - destruct qs as [|q qs]; [apply keeps_refl|]. cbn [combine fold_left fst snd].
    destruct (IH qs (set_tmp c m q) n n') as (A & B & C).
    { intros k Hk. apply H. right. exact Hk. }
    split; [rewrite A; reflexivity|]. split; [rewrite B; reflexivity|].
    intros k Hk. rewrite C by exact Hk. cbn.
    assert (n <= m < n')%nat by (apply H; left; reflexivity).
    destruct (k =? m)%nat eqn:E; [apply Nat.eqb_eq in E; lia|reflexivity].
Qed.

Lemma set_tmps_are ns : forall qs c, NoDup ns -> length qs = length ns ->
  Forall2 (fun n q => c_tmp (set_tmps c ns qs) n = CR q) ns qs.
Proof.
  unfold set_tmps. induction ns as [|m ns IH]; intros qs c N L; destruct qs as [|q qs]; try discriminate L.
  - constructor.
  - inversion N as [|? ? Hn N']; subst. cbn [combine fold_left fst snd]. constructor.
    + assert (G : forall ns' qs' c', ~ In m ns' ->
        c_tmp (fold_left (fun s nq => set_tmp s (fst nq) (snd nq)) (combine ns' qs') c') m = c_tmp c' m).
      { clear. induction ns' as [|k ns' IH]; intros qs' c' H; [reflexivity|].
        destruct qs' as [|q' qs']; [reflexivity|]. cbn [combine fold_left fst snd].
        rewrite IH by (intros Hi; apply H; right; exact Hi). cbn.
        destruct (m =? k)%nat eqn:E; [|reflexivity]. apply Nat.eqb_eq in E. exfalso. apply H. left. auto. }
      rewrite G by exact Hn. cbn. rewrite Nat.eqb_refl. reflexivity.
    + apply IH; [exact N'|]. cbn in L. lia.
Qed.

(** * Samples *)

Definition calls_code (cs : list call) : option (list cstmt) := gen_list (map YCall cs).

Lemma gen_list_app l1 : forall l2 z1 z2, gen_list l1 = Some z1 -> gen_list l2 = Some z2 ->
  gen_list (l1 ++ l2) = Some (z1 ++ z2).
Proof.
  induction l1 as [|s l1 IH]; intros l2 z1 z2 H1 H2.
  - injection H1 as <-. exact H2.
  - cbn [gen_list app] in *. destruct (gen1 s); [|discriminate].
    destruct (gen_list l1) as [z|] eqn:E; [|discriminate]. injection H1 as <-.
    rewrite (IH l2 z z2 eq_refl H2). reflexivity.
Qed.

Lemma calls_app c1 c2 z1 z2 : calls_code c1 = Some z1 -> calls_code c2 = Some z2 ->
  calls_code (c1 ++ c2) = Some (z1 ++ z2).
Proof. unfold calls_code. rewrite map_app. apply gen_list_app. Qed.

Lemma nofield_nil e : forall n te cs n', hasfield e = false -> hoist ncomp n e = (te, cs, n') ->
  cs = [] /\ n' = n.
Proof.
  induction e as [k|b|l|k|f t IHt z IHz y IHy x IHx|o a IH|o a IHa b IHb|o a IHa b IHb|o a IHa b IHb
                 |f a IH|f a IHa b IHb]; intros n te cs n' H Hh; cbn [hoist hasfield] in *;
    try discriminate H;
    try (injection Hh as <- <- <-; split; reflexivity);
    try (apply orb_false_iff in H as [Ha Hb]);
    repeat match type of Hh with
    | context [let '(_, _) := hoist ?nc ?k ?a in _] =>
        let E := fresh "E" in destruct (hoist nc k a) as [[? ?] ?] eqn:E
    end.
  all: try (injection Hh as <- <- <-; eapply IH; eassumption).
  all: injection Hh as <- <- <-;
    destruct (IHa _ _ _ _ Ha E) as [-> ->]; destruct (IHb _ _ _ _ Hb E0) as [-> ->]; split; reflexivity.
Qed.

Lemma nofield_noerr e pe0 : forall k, hasfield e = false -> pev pe0 e <> PErr k.
Proof.
  induction e as [k|b|l|k|f t IHt z IHz y IHy x IHx|o a IH|o a IHa b IHb|o a IHa b IHb|o a IHa b IHb
                 |f a IH|f a IHa b IHb]; intros j H; cbn [peval hasfield] in *;
    try discriminate H; try discriminate; try (destruct k; discriminate);
    try (apply orb_false_iff in H as [Ha Hb]).
  - destruct (pe0 l); discriminate.
  - specialize (IH j H). destruct (pev pe0 a); cbn; congruence || discriminate.
  - specialize (IHa j Ha). specialize (IHb j Hb).
    destruct (pev pe0 a) as [va| |]; cbn; try congruence.
    destruct (pev pe0 b) as [vb| |]; cbn; try congruence.
    destruct o; cbn; try discriminate.
    + destruct (Qeq_bool _ _); discriminate.
    + destruct (Qeq_bool _ _); discriminate.
    + destruct va, vb; repeat match goal with |- context [match ?x with _ => _ end] => destruct x end; discriminate.
    + destruct va, vb; discriminate.
  - specialize (IHa j Ha). specialize (IHb j Hb).
    destruct (pev pe0 a) as [va| |]; cbn; try congruence.
    destruct (pev pe0 b) as [vb| |]; cbn; congruence.
  - specialize (IHa j Ha). specialize (IHb j Hb).
    destruct o; destruct (pev pe0 a) as [va| |]; cbn; try congruence;
      destruct (ptruth va); try assumption; discriminate.
  - specialize (IH j H). destruct (pev pe0 a) as [va| |]; cbn; try congruence.
    destruct (fun1 _ _ _); discriminate.
  - specialize (IHa j Ha). specialize (IHb j Hb).
    destruct (pev pe0 a) as [va| |]; cbn; try congruence.
    destruct (pev pe0 b) as [vb| |]; cbn; try congruence.
    destruct (fun2 _ _ _ _); discriminate.
Qed.

Hypothesis HS : samples_ok ncomp vdim fsample vfsample.

(** The value of the text of an expression in a state where the temporaries hold the samples. *)
Lemma text_value e n te cs n' ts p c v :
  fit e = true -> hoist ncomp n e = (te, cs, n') -> gen te = Some ts ->
  agr p c -> tmps_ok ncomp libm fsample (pe p) (ce c) n e -> mods_ok libm fsample (pe p) e ->
  pev (pe p) e = PV v -> exists w, cval_of c ts = Some w /\ value_ok aint e v w.
Proof.
  intros F Hh Hg A T M Hv.
  destruct (gen_ok ncomp aint libm fsample e n te cs n' F Hh) as (ts' & t & Hg' & P & Sem).
  rewrite Hg in Hg'. injection Hg' as <-.
  destruct (Sem (pe p) (ce c) v (agree_leaf p c A) T M Hv) as (w & Ew & V).
  exists w. split; [|exact V]. unfold cvalue.
  rewrite (cparse_complete ts t); [exact Ew|]. apply phrase_lower with (l := lvl e); [exact P|lia].
Qed.

(** What running the samples of [e] does. *)
Definition samples_run (e : expr) (n n' : nat) (zs : list cstmt) : Prop :=
  forall p c, agr p c -> mods_ok libm fsample (pe p) e ->
    match pev (pe p) e with
    | PV v => exists c', runs zs c (CNext c') /\ keeps n n' c c' /\
                         tmps_ok ncomp libm fsample (pe p) (ce c') n e
    | PErr k => exists c', runs zs c (CReturn k c') /\ keeps n n' c c' /\ k <> 0
    | PRaise => True
    end.

Ltac bools := repeat match goal with
  | H : (_ && _)%bool = true |- _ => apply andb_true_iff in H as [? ?]
  | H : (_ <=? _)%nat = true |- _ => apply Nat.leb_le in H
  | H : negb _ = true |- _ => apply negb_true_iff in H
  end.

Ltac hoists H := repeat match type of H with
  | context [let '(_, _) := hoist ?nc ?k ?a in _] =>
      let E := fresh "E" in destruct (hoist nc k a) as [[? ?] ?] eqn:E
  end.

Lemma keeps_widen n1 n2 m1 m2 c c' : (m1 <= n1)%nat -> (n2 <= m2)%nat -> keeps n1 n2 c c' -> keeps m1 m2 c c'.
Proof. intros L1 L2 (A & B & C). split; [exact A|]. split; [exact B|]. intros m Hm. apply C. lia. Qed.

(** Two operands, both always evaluated. *)
Lemma samples_two a b n n1 n2 za zb :
  n1 = (n + used ncomp a)%nat -> n2 = (n1 + used ncomp b)%nat ->
  samples_run a n n1 za -> samples_run b n1 n2 zb ->
  forall p c, agr p c -> mods_ok libm fsample (pe p) a -> mods_ok libm fsample (pe p) b ->
    match pev (pe p) a, pev (pe p) b with
    | PV va, PV vb =>
        exists c', runs (za ++ zb) c (CNext c') /\ keeps n n2 c c' /\
          tmps_ok ncomp libm fsample (pe p) (ce c') n a /\ tmps_ok ncomp libm fsample (pe p) (ce c') n1 b
    | PV va, PErr k => exists c', runs (za ++ zb) c (CReturn k c') /\ keeps n n2 c c' /\ k <> 0
    | PErr k, _ => exists c', runs (za ++ zb) c (CReturn k c') /\ keeps n n2 c c' /\ k <> 0
    | _, _ => True
    end.
Proof.
  intros U1 U2 Sa Sb p c A Ma Mb. specialize (Sa p c A Ma).
  destruct (pev (pe p) a) as [va|k|]; [| |exact I].
  - destruct Sa as (c1 & R1 & K1 & T1).
    specialize (Sb p c1 (keeps_agree _ _ _ _ _ K1 A) Mb).
    destruct (pev (pe p) b) as [vb|k|]; [| |exact I].
    + destruct Sb as (c2 & R2 & K2 & T2). exists c2.
      split; [apply (runs_app za zb c c1 _ R1 R2)|].
      split; [apply (keeps_trans n n1 n2 c c1 c2); [lia|lia|exact K1|exact K2]|].
      split; [|exact T2]. apply (tmps_keeps a p n n1 n2 c1 c2 T1 K2). lia.
    + destruct Sb as (c2 & R2 & K2 & Hk). exists c2.
      split; [apply (runs_app za zb c c1 _ R1 R2)|].
      split; [apply (keeps_trans n n1 n2 c c1 c2); [lia|lia|exact K1|exact K2]|exact Hk].
  - destruct Sa as (c1 & R1 & K1 & Hk). exists c1.
    split; [apply (runs_app_stop za zb c _ R1 I)|]. split; [|exact Hk].
    apply (keeps_widen n n1); [lia|lia|exact K1].
Qed.

Lemma seq_in_range n k m : In m (seq n k) -> (n <= m < n + k)%nat.
Proof. intros H. apply in_seq in H. exact H. Qed.

Lemma set_tmps_state c ns qs :
  NoDup ns -> length qs = length ns -> tmps_are (ce (set_tmps c ns qs)) ns qs.
Proof.
  intros N L. unfold tmps_are. pose proof (set_tmps_are ns qs c N L) as F.
  cbn [cenv]. remember (set_tmps c ns qs) as c'. clear -F.
  induction F; constructor; [rewrite H; reflexivity|assumption].
Qed.

Lemma num_red v w : same v w -> Qred (cnum w) = Qred (pnum v).
Proof. intros H. apply Qred_complete. apply same_num. exact H. Qed.

(** Four coordinates. *)
Lemma coords_run t z y x n n1 n2 n3 n4 zt zz zy zx :
  n1 = (n + used ncomp t)%nat -> n2 = (n1 + used ncomp z)%nat -> n3 = (n2 + used ncomp y)%nat ->
  n4 = (n3 + used ncomp x)%nat ->
  samples_run t n n1 zt -> samples_run z n1 n2 zz -> samples_run y n2 n3 zy -> samples_run x n3 n4 zx ->
  forall p c, agr p c -> mods_ok libm fsample (pe p) t -> mods_ok libm fsample (pe p) z ->
    mods_ok libm fsample (pe p) y -> mods_ok libm fsample (pe p) x ->
    match pbind (pev (pe p) t) (fun vt => pbind (pev (pe p) z) (fun vz =>
          pbind (pev (pe p) y) (fun vy => pbind (pev (pe p) x) (fun vx => PV (vt, vz, vy, vx))))) with
    | PV (vt, vz, vy, vx) =>
        pev (pe p) t = PV vt /\ pev (pe p) z = PV vz /\ pev (pe p) y = PV vy /\ pev (pe p) x = PV vx /\
        exists c', runs (zt ++ zz ++ zy ++ zx) c (CNext c') /\ keeps n n4 c c' /\
          tmps_ok ncomp libm fsample (pe p) (ce c') n t /\
          tmps_ok ncomp libm fsample (pe p) (ce c') n1 z /\
          tmps_ok ncomp libm fsample (pe p) (ce c') n2 y /\
          tmps_ok ncomp libm fsample (pe p) (ce c') n3 x
    | PErr k => exists c', runs (zt ++ zz ++ zy ++ zx) c (CReturn k c') /\ keeps n n4 c c' /\ k <> 0
    | PRaise => True
    end.
Proof.
  intros U1 U2 U3 U4 St Sz Sy Sx p c A Mt Mz My Mx.
  specialize (St p c A Mt). destruct (pev (pe p) t) as [vt|k|] eqn:Et; cbn [pbind]; [| |exact I].
  2:{ destruct St as (c1 & R1 & K1 & Hk). exists c1. split; [apply (runs_app_stop zt _ c _ R1 I)|].
      split; [|exact Hk]. apply (keeps_widen n n1); [lia|lia|exact K1]. }
  destruct St as (c1 & R1 & K1 & T1). pose proof (keeps_agree _ _ _ _ _ K1 A) as A1.
  specialize (Sz p c1 A1 Mz). destruct (pev (pe p) z) as [vz|k|] eqn:Ez; cbn [pbind]; [| |exact I].
  2:{ destruct Sz as (c2 & R2 & K2 & Hk). exists c2.
      split; [apply (runs_app zt _ c c1 _ R1); apply (runs_app_stop zz _ c1 _ R2 I)|].
      split; [|exact Hk]. apply (keeps_widen n n2); [lia|lia|]. apply (keeps_trans n n1 n2 c c1 c2); (lia || assumption). }
  destruct Sz as (c2 & R2 & K2 & T2). pose proof (keeps_agree _ _ _ _ _ K2 A1) as A2.
  assert (K12 : keeps n n2 c c2) by (apply (keeps_trans n n1 n2 c c1 c2); (lia || assumption)).
  specialize (Sy p c2 A2 My). destruct (pev (pe p) y) as [vy|k|] eqn:Ey; cbn [pbind]; [| |exact I].
  2:{ destruct Sy as (c3 & R3 & K3 & Hk). exists c3.
      split; [apply (runs_app zt _ c c1 _ R1); apply (runs_app zz _ c1 c2 _ R2);
              apply (runs_app_stop zy _ c2 _ R3 I)|].
      split; [|exact Hk]. apply (keeps_widen n n3); [lia|lia|]. apply (keeps_trans n n2 n3 c c2 c3); (lia || assumption). }
  destruct Sy as (c3 & R3 & K3 & T3). pose proof (keeps_agree _ _ _ _ _ K3 A2) as A3.
  assert (K13 : keeps n n3 c c3) by (apply (keeps_trans n n2 n3 c c2 c3); (lia || assumption)).
  specialize (Sx p c3 A3 Mx). destruct (pev (pe p) x) as [vx|k|] eqn:Ex; cbn [pbind]; [| |exact I].
  2:{ destruct Sx as (c4 & R4 & K4 & Hk). exists c4.
      split; [apply (runs_app zt _ c c1 _ R1); apply (runs_app zz _ c1 c2 _ R2);
              apply (runs_app zy _ c2 c3 _ R3 R4)|].
      split; [|exact Hk]. apply (keeps_trans n n3 n4 c c3 c4); (lia || assumption). }
  destruct Sx as (c4 & R4 & K4 & T4).
  split; [reflexivity|]. split; [reflexivity|]. split; [reflexivity|]. split; [reflexivity|].
  exists c4.
  split; [apply (runs_app zt _ c c1 _ R1); apply (runs_app zz _ c1 c2 _ R2);
          apply (runs_app zy _ c2 c3 _ R3 R4)|].
  split; [apply (keeps_trans n n3 n4 c c3 c4); (lia || assumption)|].
  assert (K23 : keeps n1 n3 c1 c3) by (apply (keeps_trans n1 n2 n3 c1 c2 c3); (lia || assumption)).
  assert (K24 : keeps n1 n4 c1 c4) by (apply (keeps_trans n1 n3 n4 c1 c3 c4); (lia || assumption)).
  assert (K34 : keeps n2 n4 c2 c4) by (apply (keeps_trans n2 n3 n4 c2 c3 c4); (lia || assumption)).
  split; [apply (tmps_keeps t p n n1 n4 c1 c4 T1 K24); lia|].
  split; [apply (tmps_keeps z p n1 n2 n4 c2 c4 T2 K34); lia|].
  split; [apply (tmps_keeps y p n2 n3 n4 c3 c4 T3 K4); lia|exact T4].
Qed.

Lemma run_calls e : forall n te cs n', fit e = true -> hoist ncomp n e = (te, cs, n') ->
  exists zs, calls_code cs = Some zs /\ samples_run e n n' zs.
Proof.
  induction e as [k|b|l|k|f t IHt z IHz y IHy x IHx|o a IH|o a IHa b IHb|o a IHa b IHb|o a IHa b IHb
                 |f a IH|f a IHa b IHb]; intros n te cs n' F H; pose proof H as H0; cbn [hoist] in H; hoists H.
  - injection H as <- <- <-. exists []. split; [reflexivity|]. intros p c A M.
    destruct (pev _ _) eqn:Ev; [|destruct k; discriminate Ev|exact I].
    exists c. split; [apply runs_nil|]. split; [apply keeps_refl|exact I].
  - injection H as <- <- <-. exists []. split; [reflexivity|]. intros p c A M. cbn.
    exists c. split; [apply runs_nil|]. split; [apply keeps_refl|exact I].
  - injection H as <- <- <-. exists []. split; [reflexivity|]. intros p c A M. cbn.
    destruct (pe p l); cbn; [|exact I].
    exists c. split; [apply runs_nil|]. split; [apply keeps_refl|exact I].
  - injection H as <- <- <-. exists []. split; [reflexivity|]. intros p c A M. cbn.
    exists c. split; [apply runs_nil|]. split; [apply keeps_refl|exact I].
  - injection H as <- <- <-. cbn [fits] in F. bools.
    pose proof (hoist_used _ _ _ _ _ _ E) as U1. pose proof (hoist_used _ _ _ _ _ _ E0) as U2.
    pose proof (hoist_used _ _ _ _ _ _ E1) as U3. pose proof (hoist_used _ _ _ _ _ _ E2) as U4.
    destruct (IHt _ _ _ _ ltac:(assumption) E) as (zt & Gt & St).
    destruct (IHz _ _ _ _ ltac:(assumption) E0) as (zz & Gz & Sz).
    destruct (IHy _ _ _ _ ltac:(assumption) E1) as (zy & Gy & Sy).
    destruct (IHx _ _ _ _ ltac:(assumption) E2) as (zx & Gx & Sx).
    destruct (gen_ok ncomp aint libm fsample t _ _ _ _ ltac:(assumption) E) as (tt & ? & Ht & _).
    destruct (gen_ok ncomp aint libm fsample z _ _ _ _ ltac:(assumption) E0) as (tz & ? & Hz & _).
    destruct (gen_ok ncomp aint libm fsample y _ _ _ _ ltac:(assumption) E1) as (ty & ? & Hy & _).
    destruct (gen_ok ncomp aint libm fsample x _ _ _ _ ltac:(assumption) E2) as (tx & ? & Hx & _).
    set (ev := ZEval f tt tz ty tx (seq n3 (ncomp f))).
    exists ((zt ++ zz ++ zy ++ zx) ++ [ev]). split.
    { rewrite <- !app_assoc. repeat (apply calls_app; [assumption|]).
      unfold calls_code. cbn [map gen_list gen1 gen_call]. rewrite Ht, Hz, Hy, Hx. reflexivity. }
    intros p c A (Mt & Mz & My & Mx).
    pose proof (coords_run t z y x n n0 n1 n2 n3 zt zz zy zx U1 U2 U3 U4 St Sz Sy Sx p c A Mt Mz My Mx) as C.
    cbn [peval].
    destruct (pev (pe p) t) as [vt|k|] eqn:Et; cbn [pbind] in C |- *; [| |exact I].
    2:{ destruct C as (c' & R & K & Hk). exists c'. split; [apply runs_app_stop; [exact R|exact I]|].
        split; [|exact Hk]. apply (keeps_widen n n3); [lia|lia|exact K]. }
    destruct (pev (pe p) z) as [vz|k|] eqn:Ez; cbn [pbind] in C |- *; [| |exact I].
    2:{ destruct C as (c' & R & K & Hk). exists c'. split; [apply runs_app_stop; [exact R|exact I]|].
        split; [|exact Hk]. apply (keeps_widen n n3); [lia|lia|exact K]. }
    destruct (pev (pe p) y) as [vy|k|] eqn:Ey; cbn [pbind] in C |- *; [| |exact I].
    2:{ destruct C as (c' & R & K & Hk). exists c'. split; [apply runs_app_stop; [exact R|exact I]|].
        split; [|exact Hk]. apply (keeps_widen n n3); [lia|lia|exact K]. }
    destruct (pev (pe p) x) as [vx|k|] eqn:Ex; cbn [pbind] in C |- *; [| |exact I].
    2:{ destruct C as (c' & R & K & Hk). exists c'. split; [apply runs_app_stop; [exact R|exact I]|].
        split; [|exact Hk]. apply (keeps_widen n n3); [lia|lia|exact K]. }
    destruct C as (_ & _ & _ & _ & c' & R & K & T1 & T2 & T3 & T4).
    pose proof (keeps_agree _ _ _ _ _ K A) as A'.
    destruct (text_value t _ _ _ _ tt p c' vt ltac:(assumption) E Ht A' T1 Mt Et) as (wt & Wt & _ & Vt).
    destruct (text_value z _ _ _ _ tz p c' vz ltac:(assumption) E0 Hz A' T2 Mz Ez) as (wz & Wz & _ & Vz).
    destruct (text_value y _ _ _ _ ty p c' vy ltac:(assumption) E1 Hy A' T3 My Ey) as (wy & Wy & _ & Vy).
    destruct (text_value x _ _ _ _ tx p c' vx ltac:(assumption) E2 Hx A' T4 Mx Ex) as (wx & Wx & _ & Vx).
    destruct (Vt ltac:(assumption)) as [S1 _]. destruct (Vz ltac:(assumption)) as [S2 _].
    destruct (Vy ltac:(assumption)) as [S3 _]. destruct (Vx ltac:(assumption)) as [S4 _].
    assert (Ev1 : forall m, exec1 m ev c' =
      match fsample f (Qred (pnum vt)) (Qred (pnum vz)) (Qred (pnum vy)) (Qred (pnum vx)) with
      | Sampled vs => CNext (set_tmps c' (seq n3 (ncomp f)) vs)
      | SampleErr k => CReturn k c'
      end).
    { intros m. cbn [exec1 ev]. unfold ceval_field. rewrite Wt, Wz, Wy, Wx.
      rewrite (num_red _ _ S1), (num_red _ _ S2), (num_red _ _ S3), (num_red _ _ S4). reflexivity. }
    destruct (fsample f _ _ _ _) as [vs|k] eqn:Es.
    + exists (set_tmps c' (seq n3 (ncomp f)) vs).
      assert (Ks : keeps n3 (n3 + ncomp f) c' (set_tmps c' (seq n3 (ncomp f)) vs)).
      { apply set_tmps_keeps. intros m Hm. apply seq_in_range. exact Hm. }
      split; [apply (runs_app _ _ c c' _ R); apply (runs_step ev [] c' _ _ 0 (Ev1 O)); apply runs_nil|].
      split; [apply (keeps_trans n n3 _ c c' _); (lia || assumption)|].
      cbn [tmps_ok]. subst n3 n2 n1 n0.
      split; [apply (tmps_keeps t p _ _ _ c' _ T1 Ks); lia|].
      split; [apply (tmps_keeps z p _ _ _ c' _ T2 Ks); lia|].
      split; [apply (tmps_keeps y p _ _ _ c' _ T3 Ks); lia|].
      split; [apply (tmps_keeps x p _ _ _ c' _ T4 Ks); lia|].
      intros vt' vz' vy' vx' vs' Et' Ez' Ey' Ex' Es'.
      assert (vs' = vs) by congruence. subst vs'. apply set_tmps_state; [apply seq_NoDup|].
      rewrite seq_length. destruct HS as (HS1 & _). exact (HS1 _ _ _ _ _ _ Es).
    + exists c'. split.
      * apply (runs_app _ _ c c' _ R). apply (runs_stop ev [] c' _ 0 (Ev1 O)); [discriminate|exact I].
      * split; [apply (keeps_widen n n3); (lia || assumption)|].
        destruct HS as (_ & HS2 & _). exact (HS2 _ _ _ _ _ _ Es).
  - injection H as <- <- <-.
    assert (Fa : fit a = true) by (destruct o; cbn [fits] in F; bools; assumption).
    destruct (IH _ _ _ _ Fa E) as (zs & G & S). exists zs. split; [exact G|].
    intros p c A M. specialize (S p c A M). cbn [peval]. destruct (pev (pe p) a); cbn [pbind]; exact S.
  - injection H as <- <- <-. cbn [fits] in F. bools.
    destruct (IHa _ _ _ _ ltac:(assumption) E) as (za & Ga & Sa).
    destruct (IHb _ _ _ _ ltac:(assumption) E0) as (zb & Gb & Sb).
    pose proof (hoist_used _ _ _ _ _ _ E) as U1. pose proof (hoist_used _ _ _ _ _ _ E0) as U2.
    exists (za ++ zb). split; [apply calls_app; assumption|]. intros p c A (Ma & Mb & _).
    pose proof (samples_two a b n n0 n1 za zb U1 U2 Sa Sb p c A Ma Mb) as C. cbn [peval].
    destruct (pev (pe p) a) as [va|k|]; cbn [pbind]; [|exact C|exact I].
    destruct (pev (pe p) b) as [vb|k|]; cbn [pbind]; [|exact C|exact I].
    destruct (parith libm o va vb) eqn:Ep.
    + subst n0 n1. cbn [tmps_ok]. exact C.
    + exfalso. destruct o; cbn in Ep; try discriminate Ep.
      * destruct (Qeq_bool _ _); discriminate.
      * destruct (Qeq_bool _ _); discriminate.
      * destruct va, vb; repeat match type of Ep with context [match ?x with _ => _ end] => destruct x end; discriminate.
      * destruct va, vb; discriminate.
    + exact I.
  - injection H as <- <- <-. cbn [fits] in F. bools.
    destruct (IHa _ _ _ _ ltac:(assumption) E) as (za & Ga & Sa).
    destruct (IHb _ _ _ _ ltac:(assumption) E0) as (zb & Gb & Sb).
    pose proof (hoist_used _ _ _ _ _ _ E) as U1. pose proof (hoist_used _ _ _ _ _ _ E0) as U2.
    exists (za ++ zb). split; [apply calls_app; assumption|]. intros p c A (Ma & Mb).
    pose proof (samples_two a b n n0 n1 za zb U1 U2 Sa Sb p c A Ma Mb) as C. cbn [peval].
    destruct (pev (pe p) a) as [va|k|]; cbn [pbind]; [|exact C|exact I].
    destruct (pev (pe p) b) as [vb|k|]; cbn [pbind]; [|exact C|exact I].
    subst n0 n1. cbn [tmps_ok]. exact C.
  - injection H as <- <- <-.
    assert (Fab : fit a = true /\ fit b = true /\ hasfield b = false).
    { destruct o; cbn [fits] in F; bools; repeat split; assumption. }
    destruct Fab as (Fa & Fb & Nb).
    destruct (IHa _ _ _ _ Fa E) as (za & Ga & Sa).
    destruct (IHb _ _ _ _ Fb E0) as (zb & Gb & Sb).
    pose proof (hoist_used _ _ _ _ _ _ E) as U1. pose proof (hoist_used _ _ _ _ _ _ E0) as U2.
    destruct (nofield_nil b _ _ _ _ Nb E0) as [-> ->].
    injection Gb as <-.
    exists (za ++ []). split; [apply calls_app; [exact Ga|reflexivity]|]. rewrite app_nil_r.
    intros p c A (Ma & Mb). specialize (Sa p c A Ma).
    assert (Tb : forall c', tmps_ok ncomp libm fsample (pe p) (ce c') n0 b).
    { clear - Nb. intros c'. revert n0. induction b; intros n0; cbn [hasfield tmps_ok] in *;
        try discriminate; auto; apply orb_false_iff in Nb as [N1 N2]; auto. }
    cbn [peval]. destruct o; destruct (pev (pe p) a) as [va|k|] eqn:Ea; cbn [pbind]; try exact Sa; try exact I;
      destruct Sa as (c' & R & K & T); destruct (ptruth va).
    + destruct (pev (pe p) b) as [vb|k|] eqn:Eb.
      * exists c'. split; [exact R|]. split; [exact K|]. cbn [tmps_ok]. subst n0. split; [exact T|apply Tb].
      * exfalso. exact (nofield_noerr b (pe p) k Nb Eb).
      * exact I.
    + exists c'. split; [exact R|]. split; [exact K|]. cbn [tmps_ok]. subst n0. split; [exact T|apply Tb].
    + exists c'. split; [exact R|]. split; [exact K|]. cbn [tmps_ok]. subst n0. split; [exact T|apply Tb].
    + destruct (pev (pe p) b) as [vb|k|] eqn:Eb.
      * exists c'. split; [exact R|]. split; [exact K|]. cbn [tmps_ok]. subst n0. split; [exact T|apply Tb].
      * exfalso. exact (nofield_noerr b (pe p) k Nb Eb).
      * exact I.
  - injection H as <- <- <-. cbn [fits] in F. bools.
    destruct (IH _ _ _ _ ltac:(assumption) E) as (zs & G & S). exists zs. split; [exact G|].
    intros p c A M. specialize (S p c A M). cbn [peval]. destruct (pev (pe p) a); cbn [pbind]; try exact S.
    destruct (fun1 _ _ _); [exact S|exact I].
  - injection H as <- <- <-. cbn [fits] in F. bools.
    destruct (IHa _ _ _ _ ltac:(assumption) E) as (za & Ga & Sa).
    destruct (IHb _ _ _ _ ltac:(assumption) E0) as (zb & Gb & Sb).
    pose proof (hoist_used _ _ _ _ _ _ E) as U1. pose proof (hoist_used _ _ _ _ _ _ E0) as U2.
    exists (za ++ zb). split; [apply calls_app; assumption|]. intros p c A (Ma & Mb).
    pose proof (samples_two a b n n0 n1 za zb U1 U2 Sa Sb p c A Ma Mb) as C. cbn [peval].
    destruct (pev (pe p) a) as [va|k|]; cbn [pbind]; [|exact C|exact I].
    destruct (pev (pe p) b) as [vb|k|]; cbn [pbind]; [|exact C|exact I].
    destruct (fun2 _ _ _ _); [|exact I]. subst n0 n1. cbn [tmps_ok]. exact C.
Qed.

(** C32 in full: sample, then evaluate. *)
Lemma expression_case e n te cs n' p c :
  fit e = true -> hoist ncomp n e = (te, cs, n') -> agr p c -> mods_ok libm fsample (pe p) e ->
  exists zs ts, calls_code cs = Some zs /\ gen te = Some ts /\
    match pev (pe p) e with
    | PV v => exists c' w, runs zs c (CNext c') /\ keeps n n' c c' /\
                cval_of c' ts = Some w /\ ctruth w = ptruth v /\
                (valued e = true -> (cnum w == pnum v)%Q)
    | PErr k => exists c', runs zs c (CReturn k c') /\ keeps n n' c c'
    | PRaise => True
    end.
Proof.
  intros F H A M. destruct (run_calls e n te cs n' F H) as (zs & G & S).
  destruct (gen_ok ncomp aint libm fsample e n te cs n' F H) as (ts & t & Hg & _).
  exists zs, ts. split; [exact G|]. split; [exact Hg|]. specialize (S p c A M).
  destruct (pev (pe p) e) as [v|k|] eqn:Ev; [| |exact I].
  - destruct S as (c' & R & K & T).
    destruct (text_value e n te cs n' ts p c' v F H Hg (keeps_agree _ _ _ _ _ K A) T M Ev)
      as (w & Ew & Tw & Vw).
    exists c', w. split; [exact R|]. split; [exact K|]. split; [exact Ew|]. split; [exact Tw|].
    intros V. destruct (Vw V) as [S _]. apply same_num. exact S.
  - destruct S as (c' & R & K & _). exists c'. split; assumption.
Qed.

End Run.
