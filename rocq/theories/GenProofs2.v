(** Proofs for C32: the text generated for an expression has the value of the expression. *)
From Coq Require Import String List ZArith QArith Qround Qcanon Qpower Bool Arith Lia Lqa.
From Verif Require Import GenModel GenSpec GenProofs.
Import ListNotations.
Open Scope Z_scope.

Lemma Qeq_bool_morph a b c d : (a == b)%Q -> (c == d)%Q -> Qeq_bool a c = Qeq_bool b d.
Proof.
  intros H1 H2. destruct (Qeq_bool a c) eqn:E.
  - symmetry. apply Qeq_bool_iff. apply Qeq_bool_iff in E. rewrite <- H1, <- H2. exact E.
  - symmetry. apply not_true_is_false. intros T. apply Qeq_bool_iff in T.
    apply Qeq_bool_neq in E. apply E. rewrite H1, H2. exact T.
Qed.

Lemma Qle_bool_morph a b c d : (a == b)%Q -> (c == d)%Q -> Qle_bool a c = Qle_bool b d.
Proof.
  intros H1 H2. destruct (Qle_bool a c) eqn:E.
  - symmetry. apply Qle_bool_iff. apply Qle_bool_iff in E. rewrite <- H1, <- H2. exact E.
  - symmetry. apply not_true_is_false. intros T. apply Qle_bool_iff in T.
    assert (Qle_bool a c = true) by (apply Qle_bool_iff; rewrite H1, H2; exact T). congruence.
Qed.

Lemma cmp_eval_morph o a b c d : (a == b)%Q -> (c == d)%Q -> cmp_eval o a c = cmp_eval o b d.
Proof.
  intros H1 H2. destruct o; cbn;
    rewrite ?(Qeq_bool_morph a b c d H1 H2), ?(Qle_bool_morph a b c d H1 H2),
            ?(Qle_bool_morph c d a b H2 H1); reflexivity.
Qed.

Lemma same_num v w : same v w -> (cnum w == pnum v)%Q.
Proof. destruct w; cbn; [intros ->; reflexivity|auto]. Qed.

Lemma same_truth v w : same v w -> ctruth w = ptruth v.
Proof.
  intros H. unfold ctruth, ptruth. f_equal. apply Qeq_bool_morph; [apply same_num; exact H|reflexivity].
Qed.

Lemma inject_eq_iff x y : (inject_Z x == inject_Z y)%Q <-> x = y.
Proof. split; [apply inject_Z_injective|intros ->; reflexivity]. Qed.

Lemma b2z_truth b : negb (Qeq_bool (inject_Z (b2z b)) 0) = b.
Proof. destruct b; reflexivity. Qed.

Lemma zero_bool x : Qeq_bool (inject_Z x) 0 = (x =? 0).
Proof.
  destruct (x =? 0) eqn:E.
  - apply Z.eqb_eq in E. subst x. reflexivity.
  - apply not_true_is_false. intros T. apply Qeq_bool_iff in T.
    apply (inject_eq_iff x 0) in T. apply Z.eqb_neq in E. contradiction.
Qed.

Section Expr.
Variable ncomp : string -> nat.
Variable aint : string -> bool.
Variable libm : string -> list Q -> option Q.
Variable fsample : string -> Q -> Q -> Q -> Q -> sample.

Notation pev := (peval libm fsample).
Notation cev := (ceval libm).
Notation fit := (fits ncomp aint).
Notation lvl := (level ncomp).

(** * Powers *)

Definition oeq (a b : option Q) : Prop :=
  match a, b with Some x, Some y => (x == y)%Q | None, None => True | _, _ => False end.

Lemma mpow_morph a b c d : (a == b)%Q -> (c == d)%Q -> oeq (mpow libm a c) (mpow libm b d).
Proof.
  intros H1 H2. unfold mpow. rewrite (Qred_complete c d H2), (Qred_complete a b H1),
    (Qeq_bool_morph a b 0%Q 0%Q H1 (Qeq_refl 0)).
  destruct (Pos.eqb (Qden (Qred d)) 1).
  - destruct (_ && _); cbn; [exact I|]. rewrite H1. reflexivity.
  - destruct (libm _ _); cbn; [reflexivity|exact I].
Qed.

Lemma fun1_morph f a b : (a == b)%Q -> fun1 libm f a = fun1 libm f b.
Proof. intros H. unfold fun1. rewrite (Qred_complete a b H). reflexivity. Qed.

Lemma fun2_morph f a b c d : (a == b)%Q -> (c == d)%Q -> oeq (fun2 libm f a c) (fun2 libm f b d).
Proof.
  intros H1 H2. unfold fun2. destruct (String.eqb f "pow"); [apply mpow_morph; assumption|].
  rewrite (Qred_complete a b H1), (Qred_complete c d H2). destruct (libm _ _); cbn; [reflexivity|exact I].
Qed.

Lemma Qred_inject y : Qred (inject_Z y) = inject_Z y.
Proof. apply Qred_identity. cbn. apply Z.gcd_1_r. Qed.

Lemma mpow_int x y : 0 <= y -> oeq (mpow libm (inject_Z x) (inject_Z y)) (Some (inject_Z (x ^ y))).
Proof.
  intros Hy. unfold mpow. rewrite Qred_inject. cbn [inject_Z Qden Qnum Pos.eqb].
  replace (y <? 0) with false by (symmetry; apply Z.ltb_ge; exact Hy). rewrite andb_false_r. cbn.
  rewrite Zpower_Qpower by exact Hy. reflexivity.
Qed.

(** * Arithmetic *)

Definition plain_op (o : bop) : bool :=
  match o with BAdd | BSub | BMul | BDiv | BMod => true | _ => false end.

Ltac arith :=
  match goal with Sa : same ?va ?wa, Sb : same ?vb ?wb |- _ =>
    destruct wa as [xa|qa], wb as [xb|qb]; cbn in Sa, Sb; try subst va; try subst vb;
    cbn [is_ci andb same cnum pnum] in *; (split; [|reflexivity]); try reflexivity;
    repeat match goal with v : pval |- _ => destruct v end; cbn [pnum cnum] in *;
    unfold Zminus, Qminus; rewrite ?inject_Z_plus, ?inject_Z_mult, ?inject_Z_opp, ?Sa, ?Sb; reflexivity
  end.

Lemma arith_ok o va vb v wa wb :
  plain_op o = true -> same va wa -> same vb wb ->
  (o = BDiv -> is_ci wa && is_ci wb = false) ->
  (o = BMod -> is_ci wa && is_ci wb = true /\
               forall x y, va = PI x -> vb = PI y -> 0 <= x /\ 0 < y) ->
  parith libm o va vb = PV v ->
  exists w, carith (bop_tok o) wa wb = Some w /\ same v w /\ is_ci w = is_ci wa && is_ci wb.
Proof.
  intros Hp Sa Sb Hd Hm H.
  pose proof (same_num _ _ Sa) as Na. pose proof (same_num _ _ Sb) as Nb.
  destruct o; try discriminate Hp; cbn [parith bop_tok carith] in *.
  - injection H as <-. eexists. split; [reflexivity|]. arith.
  - injection H as <-. eexists. split; [reflexivity|]. arith.
  - injection H as <-. eexists. split; [reflexivity|]. arith.
  - specialize (Hd eq_refl). rewrite (Qeq_bool_morph _ _ 0%Q 0%Q Nb (Qeq_refl 0)).
    destruct (Qeq_bool (pnum vb) 0); [discriminate|]. injection H as <-.
    eexists. split; [reflexivity|]. rewrite Hd.
    destruct wa, wb; try discriminate Hd; (split; [|reflexivity]); cbn [same pnum cnum] in *;
      rewrite ?Na, ?Nb; reflexivity.
  - destruct (Hm eq_refl) as [Hci Hs]. destruct wa as [xa|], wb as [xb|]; try discriminate Hci.
    cbn in Sa, Sb. subst va vb. destruct (Hs xa xb eq_refl eq_refl) as [Hx Hy].
    cbn [pnum] in H. rewrite zero_bool in H. destruct (xb =? 0); [discriminate|].
    injection H as <-. eexists. split; [reflexivity|]. split; [|reflexivity]. cbn.
    rewrite Z.rem_mod_nonneg by lia. reflexivity.
Qed.

Lemma neg_ok o v w : o <> UNot -> same v w ->
  exists w', (match o with
              | USub => match w with CI x => CI (- x) | CR q => CR (- q)%Q end | _ => w end) = w' /\
             same (pneg o v) w' /\ is_ci w' = is_ci w.
Proof.
  intros Ho S. eexists. split; [reflexivity|]. destruct o; [| |contradiction].
  - cbn. split; [exact S|reflexivity].
  - destruct w; cbn in *.
    + subst v. split; reflexivity.
    + split; [|reflexivity]. destruct v; cbn in *; rewrite S; [rewrite inject_Z_opp|]; reflexivity.
Qed.

(** * Temporaries *)

Fixpoint used (e : expr) : nat :=
  match e with
  | EField f t z y x => (used t + used z + used y + used x + ncomp f)%nat
  | EUn _ a | ECall1 _ a => used a
  | EBin _ a b | ECmp _ a b | ELog _ a b | ECall2 _ a b => (used a + used b)%nat
  | _ => O
  end.

Lemma hoist_used e : forall n te cs n', hoist ncomp n e = (te, cs, n') -> n' = (n + used e)%nat.
Proof.
  induction e; intros m te cs n' H; cbn [hoist used] in *;
    repeat match goal with
    | H : context [let '(_, _) := hoist ?nc ?k ?a in _] |- _ =>
        let E := fresh "E" in destruct (hoist nc k a) as [[? ?] ?] eqn:E
    end;
    repeat match goal with
    | IH : forall n te cs n', hoist ncomp n ?a = (te, cs, n') -> _, E : hoist ncomp _ ?a = _ |- _ =>
        apply IH in E
    end; injection H as <- <- <-; lia.
Qed.

Section Env.
Variable pe : leaf -> option pval.
Variable ce : cname -> option cval.

Definition lint (l : leaf) : bool := match l with LAttr a => aint a | _ => false end.

Definition leaf_agree : Prop :=
  (forall l v, pe l = Some v -> exists w, ce (NLeaf l) = Some w /\ same v w /\ is_ci w = lint l) /\
  (forall s, ce (NSym s) = Some (CI (c_sym s))).

Definition tmps_are (ns : list nat) (qs : list Q) : Prop :=
  Forall2 (fun n q => ce (NTmp n) = Some (CR q)) ns qs.

(** The temporaries hold the values of the samples Python would take. *)
Fixpoint tmps_ok (n : nat) (e : expr) : Prop :=
  match e with
  | EField f t z y x =>
      tmps_ok n t /\ tmps_ok (n + used t) z /\ tmps_ok (n + used t + used z) y /\
      tmps_ok (n + used t + used z + used y) x /\
      forall vt vz vy vx vs,
        pev pe t = PV vt -> pev pe z = PV vz -> pev pe y = PV vy -> pev pe x = PV vx ->
        fsample f (Qred (pnum vt)) (Qred (pnum vz)) (Qred (pnum vy)) (Qred (pnum vx)) = Sampled vs ->
        tmps_are (seq (n + used t + used z + used y + used x) (ncomp f)) vs
  | EUn _ a | ECall1 _ a => tmps_ok n a
  | EBin _ a b | ECmp _ a b | ELog _ a b | ECall2 _ a b => tmps_ok n a /\ tmps_ok (n + used a) b
  | _ => True
  end.
End Env.

Lemma join_acc ns : forall n ts0 t0, phrase 4 ts0 t0 ->
  exists t, phrase 4 (ts0 ++ KOp O_add :: join_tmps (n :: ns)) t /\
    forall ce q0 qs, cev ce t0 = Some (CR q0) -> tmps_are ce (n :: ns) qs ->
      exists q, cev ce t = Some (CR q) /\ (q == q0 + qsum qs)%Q.
Proof.
  induction ns as [|m ns IH]; intros n ts0 t0 P0.
  - exists (XBin O_add t0 (XId (NTmp n))). split.
    + apply ph_add; [cbn; auto|exact P0|]. apply ph_up; [lia|]. apply ph_id.
    + intros ce q0 qs E0 F. inversion F as [|? q ? qs' En F']; subst. inversion F'; subst.
      cbn [ceval]. rewrite E0, En. cbn. eexists. split; [reflexivity|]. unfold qsum; cbn [fold_right cnum]; ring.
  - destruct (IH m (ts0 ++ [KOp O_add; KId (NTmp n)]) (XBin O_add t0 (XId (NTmp n)))) as (t & Pt & Ev).
    + apply ph_add; [cbn; auto|exact P0|]. apply ph_up; [lia|]. apply ph_id.
    + exists t. split.
      * rewrite <- app_assoc in Pt. exact Pt.
      * intros ce q0 qs E0 F. inversion F as [|? q ? qs' En F']; subst.
        destruct (Ev ce (q0 + q)%Q qs') as (q' & Eq & Hq).
        -- cbn [ceval]. rewrite E0, En. reflexivity.
        -- exact F'.
        -- exists q'. split; [exact Eq|]. rewrite Hq. unfold qsum; cbn [fold_right cnum]; ring.
Qed.

Lemma join_ok k n : (1 <= k)%nat ->
  exists t, phrase (if (k =? 1)%nat then 6%nat else 4%nat) (join_tmps (seq n k)) t /\
    forall ce qs, tmps_are ce (seq n k) qs -> exists q, cev ce t = Some (CR q) /\ (q == qsum qs)%Q.
Proof.
  intros Hk. destruct k as [|[|k]]; [lia| |].
  - exists (XId (NTmp n)). cbn. split; [apply ph_id|]. intros ce qs F.
    inversion F as [|? q ? qs' En F']; subst. inversion F'; subst. exists q. split; [exact En|]. unfold qsum; cbn [fold_right cnum]; ring.
  - cbn [Nat.eqb]. cbn [seq].
    destruct (join_acc (seq (S (S n)) k) (S n) [KId (NTmp n)] (XId (NTmp n))) as (t & Pt & Ev).
    + apply ph_up; [lia|]. apply ph_up; [lia|]. apply ph_id.
    + exists t. split; [exact Pt|]. intros ce qs F.
      inversion F as [|? q ? qs' En F']; subst.
      destruct (Ev ce q qs' En F') as (q' & Eq & Hq). exists q'. split; [exact Eq|]. rewrite Hq. reflexivity.
Qed.

Lemma boolean_val pe e : forall v, boolean e = true -> pev pe e = PV v ->
  v = PI (b2z (ptruth v)).
Proof.
  induction e; intros v H Hv; cbn [boolean] in H; try discriminate H.
  - injection Hv as <-. destruct b; reflexivity.
  - destruct o; try discriminate H. cbn [peval pbind] in Hv.
    destruct (pev pe e); try discriminate Hv. injection Hv as <-. cbn. unfold ptruth at 2. cbn [pnum].
    rewrite b2z_truth. reflexivity.
  - cbn [peval pbind] in Hv.
    destruct (pev pe e1); try discriminate Hv. destruct (pev pe e2); try discriminate Hv.
    injection Hv as <-. unfold ptruth. cbn [pnum]. rewrite b2z_truth. reflexivity.
  - apply andb_true_iff in H as [H1 H2]. destruct o; cbn [peval pbind] in Hv;
      (destruct (pev pe e1) as [v1| |] eqn:E1; try discriminate Hv); cbn in Hv; destruct (ptruth v1) eqn:T.
    + apply IHe2; assumption.
    + injection Hv as <-. apply IHe1; auto.
    + injection Hv as <-. apply IHe1; auto.
    + apply IHe2; assumption.
Qed.

Definition value_ok (e : expr) (v : pval) (w : cval) : Prop :=
  ctruth w = ptruth v /\ (valued e = true -> same v w /\ is_ci w = cint aint e).

(** Every expression but [and] and [or] has its value. *)
Lemma value_same e v w : same v w -> is_ci w = cint aint e -> value_ok e v w.
Proof. intros S C. split; [apply same_truth; exact S|auto]. Qed.

Definition expr_ok (e : expr) (ts : list tok) (t : cexpr) (n : nat) : Prop :=
  phrase (lvl e) ts t /\
  forall pe ce v, leaf_agree pe ce -> tmps_ok pe ce n e -> mods_ok libm fsample pe e ->
    pev pe e = PV v -> exists w, cev ce t = Some w /\ value_ok e v w.

Lemma bin_tok_prec o : plain_op o = true ->
  prec (bop_tok o) = match o with BAdd | BSub => 4%nat | _ => 5%nat end.
Proof. destruct o; try discriminate; reflexivity. Qed.

Ltac bools := repeat match goal with
  | H : (_ && _)%bool = true |- _ => apply andb_true_iff in H as [? ?]
  | H : (_ <=? _)%nat = true |- _ => apply Nat.leb_le in H
  | H : negb _ = true |- _ => apply negb_true_iff in H
  end.

Ltac hoists H := repeat match type of H with
  | context [let '(_, _) := hoist ?nc ?k ?a in _] =>
      let E := fresh "E" in destruct (hoist nc k a) as [[? ?] ?] eqn:E
  end.

Lemma gen_ok e : forall n te cs n', fit e = true -> hoist ncomp n e = (te, cs, n') ->
  exists ts t, gen te = Some ts /\ expr_ok e ts t n.
Proof.
  induction e as [k|b|l|k|f t IHt z IHz y IHy x IHx|o a IH|o a IHa b IHb|o a IHa b IHb|o a IHa b IHb
                 |f a IH|f a IHa b IHb]; intros n te cs n' F H; cbn [hoist] in H; hoists H.
  - injection H as <- <- <-. exists [KNum k], (XNum k). split; [reflexivity|]. split; [apply ph_num|].
    intros pe ce v _ _ _ E. destruct k; cbn in E; injection E as <-; cbn [ceval];
      eexists; (split; [reflexivity|]); apply value_same; reflexivity.
  - injection H as <- <- <-. eexists _, _. split; [reflexivity|]. split; [apply ph_num|].
    intros pe ce v _ _ _ E. injection E as <-. eexists. split; [reflexivity|].
    apply value_same; destruct b; reflexivity.
  - injection H as <- <- <-. eexists _, _. split; [reflexivity|]. split; [apply ph_id|].
    intros pe ce v A _ _ E. cbn in E. destruct (pe l) as [v'|] eqn:El; [|discriminate].
    injection E as ->. destruct (proj1 A l v El) as (w & Ew & S & C). exists w. split; [exact Ew|].
    apply value_same; [exact S|]. rewrite C. destruct l; reflexivity.
  - injection H as <- <- <-. eexists _, _. split; [reflexivity|]. split; [apply ph_id|].
    intros pe ce v A _ _ E. injection E as <-. eexists. split; [apply (proj2 A)|].
    apply value_same; [|reflexivity]. destruct k; reflexivity.
  - injection H as <- <- <-. cbn [fits] in F. bools. eexists. cbn [gen].
    pose proof (hoist_used _ _ _ _ _ E) as U1. pose proof (hoist_used _ _ _ _ _ E0) as U2.
    pose proof (hoist_used _ _ _ _ _ E1) as U3. pose proof (hoist_used _ _ _ _ _ E2) as U4.
    destruct (join_ok (ncomp f) n3 ltac:(assumption)) as (tt & Pt & Ev).
    exists tt. split; [reflexivity|]. split; [exact Pt|].
    intros pe ce v A T _ Hv. cbn [peval] in Hv.
    destruct (pev pe t) as [vt| |] eqn:Et; try discriminate Hv. cbn [pbind] in Hv.
    destruct (pev pe z) as [vz| |] eqn:Ez; try discriminate Hv. cbn [pbind] in Hv.
    destruct (pev pe y) as [vy| |] eqn:Ey; try discriminate Hv. cbn [pbind] in Hv.
    destruct (pev pe x) as [vx| |] eqn:Ex; try discriminate Hv. cbn [pbind] in Hv.
    destruct (fsample f _ _ _ _) as [vs|] eqn:Es; try discriminate Hv. injection Hv as <-.
    destruct T as (_ & _ & _ & _ & T). specialize (T _ _ _ _ _ Et Ez Ey Ex Es).
    subst n3 n2 n1 n0.
    destruct (Ev ce vs T) as (q & Eq & Hq). exists (CR q). split; [exact Eq|].
    apply value_same; [exact Hq|reflexivity].
  - injection H as <- <- <-. cbn [gen].
    assert (Fa : fit a = true) by (destruct o; cbn [fits] in F; bools; assumption).
    destruct (IH _ _ _ _ Fa E) as (ts & ta & Hg & Pa & Sa). rewrite Hg.
    eexists _, (match o with UAdd => XPos ta | USub => XNeg ta | UNot => XNot ta end).
    split; [reflexivity|]. split.
    { assert (P6 : phrase 6 (KLP :: ts ++ [KRP]) ta).
      { apply ph_par. apply phrase_lower with (l := lvl a); [exact Pa|lia]. }
      destruct o; [apply ph_pos|apply ph_neg|apply ph_not]; exact P6. }
    intros pe ce v A T M Hv. cbn [peval] in Hv.
    destruct (pev pe a) as [va| |] eqn:Ea; try discriminate Hv. injection Hv as <-.
    destruct (Sa pe ce va A T M Ea) as (w & Ew & Tw & Vw).
    destruct o; cbn [ceval]; rewrite Ew.
    + cbn [fits] in F. bools. destruct (Vw ltac:(assumption)) as [S C]. exists w. split; [reflexivity|].
      apply value_same; [exact S|exact C].
    + cbn [fits] in F. bools. destruct (Vw ltac:(assumption)) as [S C].
      destruct (neg_ok USub va w ltac:(discriminate) S) as (w' & Ew' & S' & C').
      exists w'. split; [destruct w; rewrite <- Ew'; reflexivity|].
      apply value_same; [exact S'|]. rewrite C', C. reflexivity.
    + eexists. split; [reflexivity|]. apply value_same; [|reflexivity]. cbn. rewrite Tw. reflexivity.
  - injection H as <- <- <-. cbn [gen].
    cbn [fits] in F. apply andb_true_iff in F as [F Fo].
    apply andb_true_iff in F as [Fa Fb]. apply andb_true_iff in Fa as [Fa Va].
    apply andb_true_iff in Fb as [Fb Vb].
    destruct (IHa _ _ _ _ Fa E) as (tsa & ta & Hga & Pa & Sa). rewrite Hga.
    destruct (IHb _ _ _ _ Fb E0) as (tsb & tb & Hgb & Pb & Sb). rewrite Hgb.
    pose proof (hoist_used _ _ _ _ _ E) as U1. subst n0.
    assert (Sub : forall pe ce v, leaf_agree pe ce -> tmps_ok pe ce n (EBin o a b) ->
      mods_ok libm fsample pe (EBin o a b) -> pev pe (EBin o a b) = PV v ->
      exists va vb wa wb, pev pe a = PV va /\ pev pe b = PV vb /\ parith libm o va vb = PV v /\
        cev ce ta = Some wa /\ cev ce tb = Some wb /\ same va wa /\ same vb wb /\
        is_ci wa = cint aint a /\ is_ci wb = cint aint b).
    { intros pe ce v A [Ta Tb] (Ma & Mb & _) Hv. cbn [peval] in Hv.
      destruct (pev pe a) as [va| |] eqn:Ea; try discriminate Hv. cbn [pbind] in Hv.
      destruct (pev pe b) as [vb| |] eqn:Eb; try discriminate Hv. cbn [pbind] in Hv.
      destruct (Sa pe ce va A Ta Ma Ea) as (wa & Ewa & _ & Vwa).
      destruct (Sb pe ce vb A Tb Mb Eb) as (wb & Ewb & _ & Vwb).
      destruct (Vwa Va) as [Sa' Ca]. destruct (Vwb Vb) as [Sb' Cb].
      exists va, vb, wa, wb. repeat (split; [assumption || reflexivity|]). assumption. }
    destruct (plain_op o) eqn:Po.
    + assert (Eg : (match o with
             | BXor => None
             | BPow => Some (KId (NFun "pow") :: KLP :: tsa ++ KComma :: tsb ++ [KRP])
             | _ => Some (KLP :: tsa ++ KOp (bop_tok o) :: tsb ++ [KRP])
             end) = Some (KLP :: (tsa ++ KOp (bop_tok o) :: tsb) ++ [KRP])).
      { rewrite <- app_assoc. destruct o; try discriminate Po; reflexivity. }
      rewrite Eg. eexists _, (XBin (bop_tok o) ta tb). split; [reflexivity|]. split.
      { cbn [level]. apply ph_par. apply phrase_lower with (l := prec (bop_tok o)); [|lia]. apply ph_bin.
        - apply phrase_lower with (l := lvl a); [exact Pa|]. rewrite (bin_tok_prec o Po).
          destruct o; try discriminate Po; bools; assumption.
        - apply phrase_lower with (l := lvl b); [exact Pb|]. rewrite (bin_tok_prec o Po).
          destruct o; try discriminate Po; bools; assumption. }
      intros pe ce v A T M Hv.
      destruct (Sub pe ce v A T M Hv) as (va & vb & wa & wb & Ea & Eb & Ep & Ewa & Ewb & S1 & S2 & C1 & C2).
      destruct (arith_ok o va vb v wa wb Po S1 S2) as (w & Ew & Sw & Cw).
      * intros ->. rewrite C1, C2. bools. assumption.
      * intros ->. rewrite C1, C2. split.
        -- apply andb_true_iff in Fo as [_ Fo]. exact Fo.
        -- intros x y -> ->. destruct M as (_ & _ & M). exact (M eq_refl x y Ea Eb).
      * exact Ep.
      * exists w. split.
        -- destruct o; try discriminate Po; cbn [bop_tok ceval] in *; rewrite Ewa, Ewb; exact Ew.
        -- apply value_same; [exact Sw|]. rewrite Cw, C1, C2.
           destruct o; try discriminate Po; reflexivity.
    + destruct o; try discriminate Po; try discriminate Fo.
      eexists _, (XCall2 (NFun "pow") ta tb). split; [reflexivity|]. split.
      { cbn [level]. apply ph_call2; eapply phrase_lower; [exact Pa|lia|exact Pb|lia]. }
      intros pe ce v A T M Hv.
      destruct (Sub pe ce v A T M Hv) as (va & vb & wa & wb & Ea & Eb & Ep & Ewa & Ewb & S1 & S2 & C1 & C2).
      cbn [ceval]. rewrite Ewa, Ewb.
      change (fun2 libm "pow" (cnum wa) (cnum wb)) with (mpow libm (cnum wa) (cnum wb)).
      pose proof (mpow_morph _ _ _ _ (same_num _ _ S1) (same_num _ _ S2)) as Mo.
      assert (R : oeq (mpow libm (pnum va) (pnum vb)) (Some (pnum v))).
      { cbn [parith] in Ep. destruct va as [xa|qa], vb as [xb|qb]; cbn [pnum] in *.
        - destruct (0 <=? xb) eqn:Ez.
          + injection Ep as <-. apply mpow_int. apply Z.leb_le. exact Ez.
          + destruct (mpow libm (inject_Z xa) (inject_Z xb)); [|discriminate].
            injection Ep as <-. cbn. reflexivity.
        - destruct (mpow libm _ _); [|discriminate]. injection Ep as <-. cbn. reflexivity.
        - destruct (mpow libm _ _); [|discriminate]. injection Ep as <-. cbn. reflexivity.
        - destruct (mpow libm _ _); [|discriminate]. injection Ep as <-. cbn. reflexivity. }
      destruct (mpow libm (cnum wa) (cnum wb)) as [q|]; destruct (mpow libm (pnum va) (pnum vb)) as [q'|];
        cbn in Mo, R; try contradiction.
      exists (CR q). split; [reflexivity|]. apply value_same; [|reflexivity]. cbn. rewrite Mo. exact R.
  - injection H as <- <- <-. cbn [gen].
    cbn [fits] in F. apply andb_true_iff in F as [F Fo].
    apply andb_true_iff in F as [Fa Fb]. apply andb_true_iff in Fa as [Fa Va].
    apply andb_true_iff in Fb as [Fb Vb].
    destruct (IHa _ _ _ _ Fa E) as (tsa & ta & Hga & Pa & Sa). rewrite Hga.
    destruct (IHb _ _ _ _ Fb E0) as (tsb & tb & Hgb & Pb & Sb). rewrite Hgb.
    pose proof (hoist_used _ _ _ _ _ E) as U1. subst n0.
    eexists _, (XBin (cmp_tok o) ta tb). split; [reflexivity|]. split.
    { replace (lvl (ECmp o a b)) with (prec (cmp_tok o)) by (destruct o; reflexivity).
      apply ph_bin.
      - apply phrase_lower with (l := lvl a); [exact Pa|]. destruct o; cbn; bools; assumption.
      - apply phrase_lower with (l := lvl b); [exact Pb|]. destruct o; cbn; bools; assumption. }
    intros pe ce v A [Ta Tb] (Ma & Mb) Hv. cbn [peval] in Hv.
    destruct (pev pe a) as [va| |] eqn:Ea; try discriminate Hv. cbn [pbind] in Hv.
    destruct (pev pe b) as [vb| |] eqn:Eb; try discriminate Hv. injection Hv as <-.
    destruct (Sa pe ce va A Ta Ma Ea) as (wa & Ewa & _ & Vwa).
    destruct (Sb pe ce vb A Tb Mb Eb) as (wb & Ewb & _ & Vwb).
    destruct (Vwa Va) as [Sa' Ca]. destruct (Vwb Vb) as [Sb' Cb].
    exists (CI (b2z (cmp_eval o (pnum va) (pnum vb)))). split.
    + rewrite <- (cmp_eval_morph o _ _ _ _ (same_num _ _ Sa') (same_num _ _ Sb')).
      destruct o; cbn [cmp_tok ceval]; rewrite Ewa, Ewb; reflexivity.
    + apply value_same; reflexivity.
  - injection H as <- <- <-. cbn [gen].
    assert (Fab : fit a = true /\ fit b = true).
    { destruct o; cbn [fits] in F; bools; split; assumption. }
    destruct Fab as [Fa Fb].
    destruct (IHa _ _ _ _ Fa E) as (tsa & ta & Hga & Pa & Sa). rewrite Hga.
    destruct (IHb _ _ _ _ Fb E0) as (tsb & tb & Hgb & Pb & Sb). rewrite Hgb.
    pose proof (hoist_used _ _ _ _ _ E) as U1. subst n0.
    assert (Pj : exists t, phrase (prec (lop_tok o)) (tsa ++ KOp (lop_tok o) :: tsb) t /\
                           forall env, cev env t = cev env (XBin (lop_tok o) ta tb)).
    { apply chain_join with (l := prec (lop_tok o)).
      - destruct o; [left|right]; reflexivity.
      - apply phrase_lower with (l := lvl b); [exact Pb|]. destruct o; cbn [fits] in F; bools; cbn; lia.
      - reflexivity.
      - apply phrase_lower with (l := lvl a); [exact Pa|]. destruct o; cbn [fits] in F; bools; cbn; lia. }
    destruct Pj as (tj & Pt & Et). eexists _, tj. split; [reflexivity|]. split.
    { replace (lvl (ELog o a b)) with (prec (lop_tok o)) by (destruct o; reflexivity). exact Pt. }
    intros pe ce v A [Ta Tb] (Ma & Mb) Hv. rewrite Et.
    assert (W : cev ce (XBin (lop_tok o) ta tb) = Some (CI (b2z (ptruth v)))).
    { destruct o; cbn [lop_tok ceval]; cbn [peval] in Hv;
        (destruct (pev pe a) as [va| |] eqn:Ea; try discriminate Hv); cbn [pbind] in Hv;
        destruct (Sa pe ce va A Ta Ma Ea) as (wa & Ewa & Twa & _); rewrite Ewa, Twa.
      - destruct (ptruth va) eqn:Tr.
        + destruct (Sb pe ce v A Tb Mb Hv) as (wb & Ewb & Twb & _). rewrite Ewb, Twb. reflexivity.
        + injection Hv as <-. rewrite Tr. reflexivity.
      - destruct (ptruth va) eqn:Tr.
        + injection Hv as <-. rewrite Tr. reflexivity.
        + destruct (Sb pe ce v A Tb Mb Hv) as (wb & Ewb & Twb & _). rewrite Ewb, Twb. reflexivity. }
    eexists. split; [exact W|]. split.
    + unfold ctruth. cbn [cnum]. apply b2z_truth.
    + intros Vd. split; [|reflexivity]. cbn [valued] in Vd. cbn [same].
      exact (boolean_val pe _ v Vd Hv).
  - injection H as <- <- <-. cbn [gen]. cbn [fits] in F. bools.
    destruct (IH _ _ _ _ ltac:(assumption) E) as (ts & ta & Hg & Pa & Sa). rewrite Hg.
    eexists _, (XCall1 (NFun f) ta). split; [reflexivity|]. split.
    { apply ph_call1. eapply phrase_lower; [exact Pa|lia]. }
    intros pe ce v A T M Hv. cbn [peval] in Hv.
    destruct (pev pe a) as [va| |] eqn:Ea; try discriminate Hv. cbn [pbind] in Hv.
    destruct (Sa pe ce va A T M Ea) as (w & Ew & _ & Vw). destruct (Vw ltac:(assumption)) as [S C].
    cbn [ceval]. rewrite Ew, (fun1_morph f _ _ (same_num _ _ S)).
    destruct (fun1 libm f (pnum va)) as [q|]; [|discriminate]. injection Hv as <-.
    exists (CR q). split; [reflexivity|]. apply value_same; [cbn; reflexivity|reflexivity].
  - injection H as <- <- <-. cbn [gen]. cbn [fits] in F.
    apply andb_true_iff in F as [Fa Fb]. apply andb_true_iff in Fa as [Fa Va].
    apply andb_true_iff in Fb as [Fb Vb].
    destruct (IHa _ _ _ _ Fa E) as (tsa & ta & Hga & Pa & Sa). rewrite Hga.
    destruct (IHb _ _ _ _ Fb E0) as (tsb & tb & Hgb & Pb & Sb). rewrite Hgb.
    pose proof (hoist_used _ _ _ _ _ E) as U1. subst n0.
    eexists _, (XCall2 (NFun f) ta tb). split; [reflexivity|]. split.
    { apply ph_call2; eapply phrase_lower; [exact Pa|lia|exact Pb|lia]. }
    intros pe ce v A [Ta Tb] (Ma & Mb) Hv. cbn [peval] in Hv.
    destruct (pev pe a) as [va| |] eqn:Ea; try discriminate Hv. cbn [pbind] in Hv.
    destruct (pev pe b) as [vb| |] eqn:Eb; try discriminate Hv. cbn [pbind] in Hv.
    destruct (Sa pe ce va A Ta Ma Ea) as (wa & Ewa & _ & Vwa).
    destruct (Sb pe ce vb A Tb Mb Eb) as (wb & Ewb & _ & Vwb).
    destruct (Vwa Va) as [Sa' Ca]. destruct (Vwb Vb) as [Sb' Cb].
    cbn [ceval]. rewrite Ewa, Ewb.
    pose proof (fun2_morph f _ _ _ _ (same_num _ _ Sa') (same_num _ _ Sb')) as Mo.
    destruct (fun2 libm f (cnum wa) (cnum wb)) as [q|], (fun2 libm f (pnum va) (pnum vb)) as [q'|];
      cbn in Mo; try contradiction; try discriminate Hv.
    injection Hv as <-. exists (CR q). split; [reflexivity|]. apply value_same; [exact Mo|reflexivity].
Qed.

End Expr.
