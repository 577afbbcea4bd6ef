(** Proofs for C33: C statements do what the Python statements do. *)
From Coq Require Import String List ZArith QArith Bool Arith Lia.
From Verif Require Import GenModel GenSpec GenProofs GenProofs2 GenProofs3 GenProofs4 GenProofs5.
Import ListNotations.
Open Scope Z_scope.

(** * Names in a text *)

Lemma phrase_names libm ce1 ce2 l ts t : phrase l ts t ->
  (forall x, In (KId x) ts -> ce1 x = ce2 x) -> ceval libm ce1 t = ceval libm ce2 t.
Proof.
  induction 1; intros Hn; auto;
    repeat match goal with
    | IH : (forall x, In (KId x) ?ts -> ce1 x = ce2 x) -> _ |- _ =>
        let E := fresh "E" in
        assert (E := IH ltac:(intros x' Hx'; apply Hn; repeat (rewrite in_app_iff || cbn [In]); tauto)); clear IH
    end; cbn [ceval]; try congruence.
  - rewrite E, E0. reflexivity.
  - rewrite E, E0. reflexivity.
  - destruct o; rewrite E, E0; reflexivity.
  - destruct o; rewrite E, E0; reflexivity.
  - destruct o; rewrite E, E0; reflexivity.
  - destruct o; rewrite E, E0; reflexivity.
  - rewrite E. reflexivity.
  - rewrite E. reflexivity.
  - apply Hn. left. reflexivity.
  - destruct f; rewrite ?E; reflexivity.
  - destruct f; rewrite ?E, ?E0; reflexivity.
Qed.

Lemma cvalue_names libm consts c1 c2 ts :
  (forall x, In (KId x) ts -> cenv consts c1 x = cenv consts c2 x) ->
  cvalue libm consts c1 ts = cvalue libm consts c2 ts.
Proof.
  intros H. unfold cvalue. destruct (cparse ts) as [t|] eqn:E; [|reflexivity].
  apply cparse_spec in E. apply (phrase_names libm _ _ 0 ts t E H).
Qed.

Lemma join_names ns : forall x, In (KId x) (join_tmps ns) -> exists n, x = NTmp n.
Proof.
  induction ns as [|n ns IH]; intros x H; [destruct H|]. destruct ns as [|m ns].
  - destruct H as [H|[]]. injection H as <-. exists n. reflexivity.
  - cbn [join_tmps In] in H. destruct H as [H|[H|H]].
    + injection H as <-. exists n. reflexivity.
    + discriminate H.
    + apply IH. exact H.
Qed.

Lemma gen_mentions ncomp t e : forall n te cs n' ts, hoist ncomp n e = (te, cs, n') -> gen te = Some ts ->
  In (KId (NLeaf (target_leaf t))) ts -> mentions t e = true.
Proof.
  induction e as [k|b|l|k|f e1 IHt e2 IHz e3 IHy e4 IHx|o a IH|o a IHa b IHb|o a IHa b IHb|o a IHa b IHb
                 |f a IH|f a IHa b IHb]; intros n te cs n' ts H G I; cbn [hoist mentions] in *;
    repeat match type of H with
    | context [let '(_, _) := hoist ?nc ?k ?a in _] =>
        let E := fresh "E" in destruct (hoist nc k a) as [[? ?] ?] eqn:E
    end; injection H as <- <- <-; cbn [gen] in G.
  - injection G as <-. destruct I as [I|[]]. discriminate I.
  - injection G as <-. destruct I as [I|[]]. discriminate I.
  - injection G as <-. destruct I as [I|[]]. injection I as I. subst l. destruct t; cbn; apply String.eqb_refl.
  - injection G as <-. destruct I as [I|[]]. discriminate I.
  - injection G as <-. apply join_names in I as [m Hm]. discriminate.
  - destruct (gen t0) as [ta|] eqn:Ga; [|discriminate]. injection G as <-.
    cbn [In] in I. rewrite in_app_iff in I. cbn [In] in I.
    destruct I as [I|[I|[I|[I|[]]]]]; try discriminate; [destruct o; discriminate|].
    apply (IH _ _ _ _ _ E Ga I).
  - destruct (gen t0) as [ta|] eqn:Ga; [|discriminate]. destruct (gen t1) as [tb|] eqn:Gb; [|discriminate].
    apply orb_true_iff.
    destruct o; try discriminate G; injection G as <-; cbn [In] in I; repeat (rewrite in_app_iff in I; cbn [In] in I);
      (assert (I' : In (KId (NLeaf (target_leaf t))) ta \/ In (KId (NLeaf (target_leaf t))) tb);
       [intuition discriminate|]); destruct I' as [I'|I'];
      [left; apply (IHa _ _ _ _ _ E Ga I')|right; apply (IHb _ _ _ _ _ E0 Gb I')
      |left; apply (IHa _ _ _ _ _ E Ga I')|right; apply (IHb _ _ _ _ _ E0 Gb I')
      |left; apply (IHa _ _ _ _ _ E Ga I')|right; apply (IHb _ _ _ _ _ E0 Gb I')
      |left; apply (IHa _ _ _ _ _ E Ga I')|right; apply (IHb _ _ _ _ _ E0 Gb I')
      |left; apply (IHa _ _ _ _ _ E Ga I')|right; apply (IHb _ _ _ _ _ E0 Gb I')
      |left; apply (IHa _ _ _ _ _ E Ga I')|right; apply (IHb _ _ _ _ _ E0 Gb I')].
  - destruct (gen t0) as [ta|] eqn:Ga; [|discriminate]. destruct (gen t1) as [tb|] eqn:Gb; [|discriminate].
    injection G as <-. apply orb_true_iff. rewrite in_app_iff in I. cbn [In] in I.
    destruct I as [I|[I|I]]; [left; apply (IHa _ _ _ _ _ E Ga I)|discriminate|right; apply (IHb _ _ _ _ _ E0 Gb I)].
  - destruct (gen t0) as [ta|] eqn:Ga; [|discriminate]. destruct (gen t1) as [tb|] eqn:Gb; [|discriminate].
    injection G as <-. apply orb_true_iff. rewrite in_app_iff in I. cbn [In] in I.
    destruct I as [I|[I|I]]; [left; apply (IHa _ _ _ _ _ E Ga I)|discriminate|right; apply (IHb _ _ _ _ _ E0 Gb I)].
  - destruct (gen t0) as [ta|] eqn:Ga; [|discriminate]. injection G as <-.
    cbn [In] in I. rewrite in_app_iff in I. cbn [In] in I.
    destruct I as [I|[I|[I|[I|[]]]]]; try discriminate. apply (IH _ _ _ _ _ E Ga I).
  - destruct (gen t0) as [ta|] eqn:Ga; [|discriminate]. destruct (gen t1) as [tb|] eqn:Gb; [|discriminate].
    injection G as <-. apply orb_true_iff. cbn [In] in I. rewrite in_app_iff in I. cbn [In] in I.
    rewrite in_app_iff in I. cbn [In] in I.
    assert (I' : In (KId (NLeaf (target_leaf t))) ta \/ In (KId (NLeaf (target_leaf t))) tb)
      by (intuition discriminate).
    destruct I' as [I'|I']; [left; apply (IHa _ _ _ _ _ E Ga I')|right; apply (IHb _ _ _ _ _ E0 Gb I')].
Qed.

Section Sim.
Variable ncomp : string -> nat.
Variable vdim : string -> nat.
Variable aint : string -> bool.
Variable libm : string -> list Q -> option Q.
Variable fsample : string -> Q -> Q -> Q -> Q -> sample.
Variable vfsample : string -> Q -> Q -> Q -> Q -> vsample.
Variable consts : leaf -> Q.
Hypothesis HS : samples_ok ncomp vdim fsample vfsample.

Notation pev := (peval libm fsample).
Notation pe := (penv consts).
Notation ce := (cenv consts).
Notation agr := (agree aint).
Notation cval_of := (cvalue libm consts).
Notation run := (runs aint libm fsample vfsample consts).
Notation pex := (pexec libm fsample vfsample aint consts).
Notation pex1' := (pex1 aint libm fsample vfsample consts).
Notation pwh := (pwhile libm fsample vfsample aint consts).
Notation tok_ok := (tmps_ok ncomp libm fsample).
Notation vfit := (vfits ncomp aint).
Notation efit := (efits ncomp aint).

Lemma nomod_mods env e : nomod e = true -> mods_ok libm fsample env e.
Proof.
  induction e; intros H; cbn [nomod mods_ok] in *; auto.
  - apply andb_true_iff in H as [H H4]. apply andb_true_iff in H as [H H3]. apply andb_true_iff in H as [H1 H2]. auto.
  - destruct o; try discriminate H; apply andb_true_iff in H as [H1 H2];
      (split; [auto|]; split; [auto|]; intros K; discriminate K).
  - apply andb_true_iff in H as [H1 H2]. auto.
  - apply andb_true_iff in H as [H1 H2]. auto.
  - apply andb_true_iff in H as [H1 H2]. auto.
Qed.

Lemma efit_split e : efit e = true -> fits ncomp aint e = true /\ forall env, mods_ok libm fsample env e.
Proof. intros H. apply andb_true_iff in H as [H1 H2]. split; [exact H1|]. intros env. apply nomod_mods. exact H2. Qed.

(** * Assignment *)

Lemma agree_assign p c t v w : agr p c -> (cnum w == pnum v)%Q -> agr (passign aint p t v) (cassign aint c t w).
Proof.
  intros [AL AA] E. destruct t as [x|a]; (split; [|]); cbn; unfold upd.
  - intros y v' H. destruct (String.eqb y x).
    + injection H as <-. exists (cnum w). auto.
    + apply AL. exact H.
  - exact AA.
  - exact AL.
  - intros b. destruct (String.eqb b a) eqn:Eb; [|apply AA]. apply String.eqb_eq in Eb. subst b.
    unfold cstore, pstore. destruct (aint a) eqn:Ea; cbn; [|auto].
    split; [|reflexivity]. f_equal. symmetry. apply trunc_morph. exact E.
Qed.

Lemma assign_frame c t w ts : ~ In (KId (NLeaf (target_leaf t))) ts ->
  cval_of (cassign aint c t w) ts = cval_of c ts.
Proof.
  intros H. apply cvalue_names. intros x Hx. destruct t as [y|a]; cbn in *.
  - destruct x as [[z|b|k|m]| | |]; cbn; try reflexivity. unfold upd. destruct (String.eqb z y) eqn:E; [|reflexivity].
    apply String.eqb_eq in E. subst z. contradiction.
  - destruct x as [[z|b|k|m]| | |]; cbn; try reflexivity. unfold upd. destruct (String.eqb b a) eqn:E; [|reflexivity].
    apply String.eqb_eq in E. subst b. contradiction.
Qed.

Fixpoint apart (ts : list target) (tss : list (list tok)) : Prop :=
  match ts, tss with
  | t :: ts', _ :: tss' => Forall (fun l => ~ In (KId (NLeaf (target_leaf t))) l) tss' /\ apart ts' tss'
  | _, _ => True
  end.

Lemma assigns_run ts : forall tss vs p c, agr p c -> length tss = length ts ->
  Forall2 (fun toks v => exists w, cval_of c toks = Some w /\ (cnum w == pnum v)%Q) tss vs ->
  apart ts tss ->
  exists c', run (assigns ts tss) c (CNext c') /\ agr (passigns aint p ts vs) c'.
Proof.
  unfold assigns, passigns. induction ts as [|t ts IH]; intros tss vs p c A L F Ap.
  - exists c. split; [apply runs_nil|exact A].
  - destruct tss as [|toks tss]; [discriminate L|]. inversion F as [|? v ? vs' (w & Ew & En) F']; subst.
    cbn [apart] in Ap. destruct Ap as [Ap1 Ap2]. cbn [combine map fold_left fst snd].
    assert (F2 : Forall2 (fun toks v => exists w0, cval_of (cassign aint c t w) toks = Some w0 /\ (cnum w0 == pnum v)%Q) tss vs').
    { clear - F' Ap1. induction F' as [|tk v' tss vs' (w0 & E0 & N0) F' IH]; constructor.
      - inversion Ap1; subst. exists w0. rewrite assign_frame by assumption. auto.
      - inversion Ap1; subst. auto. }
    destruct (IH tss vs' (passign aint p t v) (cassign aint c t w)) as (c' & R & A').
    + apply agree_assign; assumption.
    + cbn in L. lia.
    + exact F2.
    + exact Ap2.
    + exists c'. split; [|exact A']. apply (runs_step _ _ _ _ _ _ _ _ (cassign aint c t w) _ 0); [|exact R].
      cbn [exec1]. rewrite Ew. reflexivity.
Qed.

(** * What a C run has to do *)

Definition gone (q : pst) (o : cout) : Prop :=
  p_att q "state" = PI 3 /\ exists c', o = CReturn 3 c' /\ agree_but "state" q c'.

Definition related (o : pout) (co : cout) : Prop :=
  match o with
  | ONext q => if p_del q then gone q co else exists c', co = CNext c' /\ agr q c'
  | OBreak q => if p_del q then gone q co else exists c', co = CBreak c' /\ agr q c'
  | OReturn k q => p_del q = false /\ exists c', co = CReturn k c' /\ agr q c'
  | OErr k q => p_del q = false /\ k <> 0 /\ exists c', co = CReturn k c' /\ agr q c'
  | ORaise | OFuel => True
  end.

(** ** Expressions *)

Definition expr_run (e : expr) (zs : list cstmt) (ts : list tok) : Prop := forall p c, agr p c ->
  match pev (pe p) e with
  | PV v => exists c' w, run zs c (CNext c') /\ agr p c' /\ cval_of c' ts = Some w /\ value_ok aint e v w
  | PErr k => exists c', run zs c (CReturn k c') /\ agr p c' /\ k <> 0
  | PRaise => True
  end.

Lemma code_run e k te cs k' ts zs : efit e = true ->
  hoist ncomp k e = (te, cs, k') -> gen te = Some ts -> calls_code cs = Some zs -> expr_run e zs ts.
Proof.
  intros F H G C p c A. destruct (efit_split e F) as [F' M].
  destruct (run_calls ncomp vdim aint libm fsample vfsample consts HS e k te cs k' F' H) as (zs' & C' & S).
  rewrite C in C'. injection C' as <-. specialize (S p c A (M _)).
  destruct (pev (pe p) e) as [v|j|] eqn:E; [| |exact I].
  - destruct S as (c' & R & K & T). pose proof (keeps_agree aint _ _ _ _ _ K A) as A'.
    destruct (text_value ncomp aint libm fsample consts e k te cs k' ts p c' v F' H G A' T (M _) E) as (w & Ew & V).
    exists c', w. auto.
  - destruct S as (c' & R & K & Hj). exists c'. split; [exact R|]. split; [|exact Hj].
    apply (keeps_agree aint _ _ _ _ _ K A).
Qed.

(** A list of expressions: all samples first, then the texts. *)
Lemma list_run es : forall k tes cs k' tss zs, forallb vfit es = true ->
  hoist_list ncomp k es = (tes, cs, k') -> Forall2 (fun te t => gen te = Some t) tes tss ->
  calls_code cs = Some zs -> (k <= k')%nat /\
  forall p c, agr p c ->
  match peval_list libm fsample (pe p) es with
  | PV vs => exists c', run zs c (CNext c') /\ keeps k k' c c' /\
      forall c2 k2, (k' <= k2)%nat ->
        keeps k' k2 c' c2 ->
        Forall2 (fun toks v => exists w, cval_of c2 toks = Some w /\ (cnum w == pnum v)%Q) tss vs
  | PErr j => exists c', run zs c (CReturn j c') /\ keeps k k' c c' /\ j <> 0
  | PRaise => True
  end.
Proof.
  induction es as [|e es IH]; intros k tes cs k' tss zs F H G C.
  - cbn in H. injection H as <- <- <-. inversion G; subst. injection C as <-. split; [lia|].
    intros p c A. cbn. exists c. split; [apply runs_nil|]. split; [apply keeps_refl|]. intros. constructor.
  - cbn [forallb] in F. apply andb_true_iff in F as [F1 F2]. cbn [hoist_list] in H.
    destruct (hoist ncomp k e) as [[te c1] k1] eqn:E1. destruct (hoist_list ncomp k1 es) as [[tes2 c2] k2] eqn:E2.
    injection H as <- <- <-. inversion G as [|? toks ? tss' Gt G']; subst.
    apply andb_true_iff in F1 as [Fe V1]. destruct (efit_split e Fe) as [Fe' M].
    destruct (run_calls ncomp vdim aint libm fsample vfsample consts HS e k te c1 k1 Fe' E1) as (z1 & C1 & S1).
    pose proof (hoist_used _ _ _ _ _ _ E1) as U1.
    destruct (calls_code c2) as [z2|] eqn:C2.
    2:{ exfalso. clear - C C2 C1. unfold calls_code in *. rewrite map_app in C.
        assert (X : forall l m, gen_list (l ++ m) <> None -> gen_list m <> None).
        { induction l as [|s l IHl]; intros m Hm; [exact Hm|]. cbn [app gen_list] in Hm. apply IHl.
          destruct (gen1 s); [|congruence]. destruct (gen_list (l ++ m)); congruence. }
        apply (X (map YCall c1) (map YCall c2)); [rewrite C; discriminate|exact C2]. }
    rewrite (calls_app _ _ _ _ C1 C2) in C. injection C as <-.
    destruct (IH k1 tes2 c2 k2 tss' z2 F2 E2 G' C2) as (L2 & S2).
    split; [lia|]. intros p c A. specialize (S1 p c A (M _)). cbn [peval_list].
    destruct (pev (pe p) e) as [v|j|] eqn:Ev; cbn [pbind]; [| |exact I].
    + destruct S1 as (c' & R1 & K1 & T1). pose proof (keeps_agree aint _ _ _ _ _ K1 A) as A1.
      specialize (S2 p c' A1). destruct (peval_list libm fsample (pe p) es) as [vs|j|]; cbn [pbind]; [| |exact I].
      * destruct S2 as (c'' & R2 & K2 & Hv). exists c''.
        split; [apply (runs_app _ _ _ _ _ z1 z2 c c' _ R1 R2)|].
        split; [apply (keeps_trans k k1 k2 c c' c''); (lia || assumption)|].
        intros c3 k3 L3 K3. constructor; [|apply (Hv c3 k3 L3 K3)].
        assert (K13 : keeps k1 k3 c' c3) by (apply (keeps_trans k1 k2 k3 c' c'' c3); (lia || assumption)).
        destruct (text_value ncomp aint libm fsample consts e k te c1 k1 toks p c3 v Fe' E1 Gt
                    (keeps_agree aint _ _ _ _ _ K13 A1)
                    (tmps_keeps ncomp libm fsample consts e p k k1 k3 c' c3 T1 K13 ltac:(lia)) (M _) Ev) as (w & Ew & _ & V).
        exists w. split; [exact Ew|]. apply same_num. apply V. exact V1.
      * destruct S2 as (c'' & R2 & K2 & Hj). exists c''.
        split; [apply (runs_app _ _ _ _ _ z1 z2 c c' _ R1 R2)|].
        split; [apply (keeps_trans k k1 k2 c c' c''); (lia || assumption)|exact Hj].
    + destruct S1 as (c' & R1 & K1 & Hj). exists c'.
      split; [apply (runs_app_stop _ _ _ _ _ z1 z2 c _ R1 I)|]. split; [|exact Hj].
      apply (keeps_widen k k1); (lia || assumption).
Qed.

Lemma untangled_apart ts : forall es k tes cs k' tss, untangled ts es = true ->
  hoist_list ncomp k es = (tes, cs, k') -> Forall2 (fun te t => gen te = Some t) tes tss -> apart ts tss.
Proof.
  induction ts as [|t ts IH]; intros es k tes cs k' tss U H G; [exact I|].
  destruct es as [|e es]; cbn [hoist_list] in H.
  - injection H as <- <- <-. inversion G; subst. exact I.
  - destruct (hoist ncomp k e) as [[te c1] k1] eqn:E1. destruct (hoist_list ncomp k1 es) as [[tes2 c2] k2] eqn:E2.
    injection H as <- <- <-. inversion G as [|? toks ? tss' Gt G']; subst.
    cbn [untangled] in U. apply andb_true_iff in U as [U1 U2]. split; [|apply (IH es k1 tes2 c2 k2 tss' U2 E2 G')].
    clear - U1 E2 G'. revert k1 tes2 c2 k2 tss' E2 G'.
    induction es as [|e es IH]; intros k1 tes2 c2 k2 tss' E2 G'; cbn [hoist_list] in E2.
    + injection E2 as <- <- <-. inversion G'; subst. constructor.
    + destruct (hoist ncomp k1 e) as [[te c1] k3] eqn:E1. destruct (hoist_list ncomp k3 es) as [[tes c3] k4] eqn:E3.
      injection E2 as <- <- <-. inversion G' as [|? toks ? tss2 Gt G2]; subst.
      cbn [forallb] in U1. apply andb_true_iff in U1 as [U1 U2]. constructor; [|apply (IH U2 _ _ _ _ _ E3 G2)].
      intros Hi. rewrite (gen_mentions ncomp t e _ _ _ _ _ E1 Gt Hi) in U1. discriminate U1.
Qed.

Lemma apart_tmps ts : forall nss, apart ts (map join_tmps nss).
Proof.
  induction ts as [|t ts IH]; intros nss; [exact I|]. destruct nss as [|ns nss]; [exact I|].
  cbn [map apart]. split; [|apply IH]. induction nss as [|m nss IHn]; constructor; [|exact IHn].
  intros Hi. apply join_names in Hi as [j Hj]. discriminate.
Qed.
End Sim.
