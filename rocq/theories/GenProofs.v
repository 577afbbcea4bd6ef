(** Proofs for C32: the parser reads exactly the phrases of the grammar. *)
From Coq Require Import String List ZArith QArith Bool Arith Lia.
From Verif Require Import GenModel GenSpec.
Import ListNotations.
Open Scope nat_scope.

Lemma ph_bin o ts1 ts2 a b :
  phrase (prec o) ts1 a -> phrase (S (prec o)) ts2 b ->
  phrase (prec o) (ts1 ++ KOp o :: ts2) (XBin o a b).
Proof.
  destruct o; cbn [prec]; intros H1 H2;
    first [ apply ph_or | apply ph_and | apply ph_eq | apply ph_rel | apply ph_add | apply ph_mul ];
    cbn; auto 6.
Qed.

Lemma phrase_ind' (P : nat -> list tok -> cexpr -> Prop) :
  (forall l ts a, l < 6 -> phrase (S l) ts a -> P (S l) ts a -> P l ts a) ->
  (forall o ts1 ts2 a b, phrase (prec o) ts1 a -> P (prec o) ts1 a ->
     phrase (S (prec o)) ts2 b -> P (S (prec o)) ts2 b ->
     P (prec o) (ts1 ++ KOp o :: ts2) (XBin o a b)) ->
  (forall ts a, phrase 6 ts a -> P 6 ts a -> P 6 (KOp O_add :: ts) (XPos a)) ->
  (forall ts a, phrase 6 ts a -> P 6 ts a -> P 6 (KOp O_sub :: ts) (XNeg a)) ->
  (forall ts a, phrase 6 ts a -> P 6 ts a -> P 6 (KNot :: ts) (XNot a)) ->
  (forall k, P 6 [KNum k] (XNum k)) ->
  (forall x, P 6 [KId x] (XId x)) ->
  (forall f ts a, phrase 0 ts a -> P 0 ts a -> P 6 (KId f :: KLP :: ts ++ [KRP]) (XCall1 f a)) ->
  (forall f ts1 ts2 a b, phrase 0 ts1 a -> P 0 ts1 a -> phrase 0 ts2 b -> P 0 ts2 b ->
     P 6 (KId f :: KLP :: ts1 ++ KComma :: ts2 ++ [KRP]) (XCall2 f a b)) ->
  (forall ts a, phrase 0 ts a -> P 0 ts a -> P 6 (KLP :: ts ++ [KRP]) a) ->
  forall l ts a, phrase l ts a -> P l ts a.
Proof.
  intros Hup Hbin Hp Hn Hnot Hnum Hid Hc1 Hc2 Hpar l ts a H.
  induction H; auto.
  - apply (Hbin O_or); assumption.
  - apply (Hbin O_and); assumption.
  - destruct H as [<- | [<- | []]]; match goal with |- P _ (_ ++ KOp ?o :: _) _ => apply (Hbin o) end; assumption.
  - destruct H as [<- | [<- | [<- | [<- | []]]]]; match goal with |- P _ (_ ++ KOp ?o :: _) _ => apply (Hbin o) end; assumption.
  - destruct H as [<- | [<- | []]]; match goal with |- P _ (_ ++ KOp ?o :: _) _ => apply (Hbin o) end; assumption.
  - destruct H as [<- | [<- | [<- | []]]]; match goal with |- P _ (_ ++ KOp ?o :: _) _ => apply (Hbin o) end; assumption.
Qed.

Lemma phrase_level l ts a : phrase l ts a -> l <= 6.
Proof. revert l ts a; apply phrase_ind'; intros; try (destruct o; cbn); lia. Qed.

Lemma prec_le o : prec o <= 5. Proof. destruct o; cbn; lia. Qed.

(** More fuel does not change the result. *)
Lemma p_mono n :
  (forall l ts r, pexp n l ts = Some r -> forall m, n <= m -> pexp m l ts = Some r) /\
  (forall l a ts r, ploop n l a ts = Some r -> forall m, n <= m -> ploop m l a ts = Some r).
Proof.
  induction n as [|n [IH1 IH2]]; [split; discriminate|].
  split.
  - intros l ts r H m Hm. destruct m as [|m]; [lia|]. assert (Hm' : n <= m) by lia.
    cbn [pexp] in *. destruct (l <=? 5).
    + destruct (pexp n (S l) ts) as [[a r']|] eqn:E; [|discriminate].
      rewrite (IH1 _ _ _ E _ Hm'). apply (IH2 _ _ _ _ H _ Hm').
    + destruct ts as [|k ts]; [discriminate|]. destruct k; try discriminate; try exact H.
      * destruct ts as [|k ts]; [exact H|]. destruct k; try exact H.
        destruct (pexp n 0 ts) as [[a r']|] eqn:E; [|discriminate].
        rewrite (IH1 _ _ _ E _ Hm'). destruct r' as [|k r']; [exact H|]. destruct k; try exact H.
        destruct (pexp n 0 r') as [[b r'']|] eqn:E2; [|discriminate].
        rewrite (IH1 _ _ _ E2 _ Hm'). exact H.
      * destruct o; try discriminate;
          (destruct (pexp n 6 ts) as [[a r']|] eqn:E; [|discriminate]);
          rewrite (IH1 _ _ _ E _ Hm'); exact H.
      * destruct (pexp n 6 ts) as [[a r']|] eqn:E; [|discriminate].
        rewrite (IH1 _ _ _ E _ Hm'); exact H.
      * destruct (pexp n 0 ts) as [[a r']|] eqn:E; [|discriminate].
        rewrite (IH1 _ _ _ E _ Hm'); exact H.
  - intros l a ts r H m Hm. destruct m as [|m]; [lia|]. assert (Hm' : n <= m) by lia.
    cbn [ploop] in *. destruct ts as [|k ts]; [exact H|]. destruct k; try exact H.
    destruct (prec o =? l); [|exact H].
    destruct (pexp n (S l) ts) as [[b r']|] eqn:E; [|discriminate].
    rewrite (IH1 _ _ _ E _ Hm'). apply (IH2 _ _ _ _ H _ Hm').
Qed.

Lemma pexp_mono n m l ts r : pexp n l ts = Some r -> n <= m -> pexp m l ts = Some r.
Proof. intros H Hm. exact (proj1 (p_mono n) l ts r H m Hm). Qed.
Lemma ploop_mono n m l a ts r : ploop n l a ts = Some r -> n <= m -> ploop m l a ts = Some r.
Proof. intros H Hm. exact (proj2 (p_mono n) l a ts r H m Hm). Qed.

(** ** Soundness *)

Lemma p_sound n :
  (forall l ts a r, l <= 6 -> pexp n l ts = Some (a, r) ->
     exists ts1, ts = ts1 ++ r /\ phrase l ts1 a) /\
  (forall l a ts b r ts0, l <= 5 -> phrase l ts0 a -> ploop n l a ts = Some (b, r) ->
     exists ts1, ts = ts1 ++ r /\ phrase l (ts0 ++ ts1) b).
Proof.
  induction n as [|n [IH1 IH2]]; [split; discriminate|].
  split.
  - intros l ts a r Hl H. cbn [pexp] in H. destruct (l <=? 5) eqn:El.
    + apply Nat.leb_le in El. destruct (pexp n (S l) ts) as [[b r']|] eqn:E; [|discriminate].
      destruct (IH1 (S l) _ _ _ ltac:(lia) E) as (ts1 & -> & P1).
      destruct (IH2 l b r' a r ts1 El (ph_up l ts1 b ltac:(lia) P1) H) as (ts2 & -> & P2).
      exists (ts1 ++ ts2). rewrite app_assoc. split; [reflexivity|exact P2].
    + apply Nat.leb_gt in El. assert (l = 6) by lia. subst l. clear El Hl.
      destruct ts as [|k ts]; [discriminate|]. destruct k; try discriminate.
      * injection H as <- <-. exists [KNum n0]. split; [reflexivity|apply ph_num].
      * assert (HV : Some (XId n0, ts) = Some (a, r) ->
                     exists ts1, KId n0 :: ts = ts1 ++ r /\ phrase 6 ts1 a).
        { intros [= <- <-]. exists [KId n0]. split; [reflexivity|apply ph_id]. }
        destruct ts as [|k ts]; [auto|]. destruct k; auto. clear HV.
        destruct (pexp n 0 ts) as [[b r']|] eqn:E; [|discriminate].
        destruct (IH1 0 _ _ _ ltac:(lia) E) as (ts1 & -> & P1).
        destruct r' as [|k r']; [discriminate|]. destruct k; try discriminate.
        -- injection H as <- <-. exists (KId n0 :: KLP :: ts1 ++ [KRP]).
           split; [cbn; rewrite <- app_assoc; reflexivity|]. apply ph_call1; exact P1.
        -- destruct (pexp n 0 r') as [[d r'']|] eqn:E2; [|discriminate].
           destruct (IH1 0 _ _ _ ltac:(lia) E2) as (ts2 & -> & P2).
           destruct r'' as [|k r'']; [discriminate|]. destruct k; try discriminate.
           injection H as <- <-. exists (KId n0 :: KLP :: ts1 ++ KComma :: ts2 ++ [KRP]).
           split; [|apply ph_call2; assumption].
           cbn. do 2 f_equal. rewrite <- app_assoc. cbn. do 2 f_equal. rewrite <- app_assoc. reflexivity.
      * destruct o; try discriminate;
          (destruct (pexp n 6 ts) as [[b r']|] eqn:E; [|discriminate]); injection H as <- <-;
          destruct (IH1 6 _ _ _ ltac:(lia) E) as (ts1 & -> & P1).
        -- exists (KOp O_add :: ts1). split; [reflexivity|apply ph_pos; exact P1].
        -- exists (KOp O_sub :: ts1). split; [reflexivity|apply ph_neg; exact P1].
      * destruct (pexp n 6 ts) as [[b r']|] eqn:E; [|discriminate]. injection H as <- <-.
        destruct (IH1 6 _ _ _ ltac:(lia) E) as (ts1 & -> & P1).
        exists (KNot :: ts1). split; [reflexivity|apply ph_not; exact P1].
      * destruct (pexp n 0 ts) as [[b r']|] eqn:E; [|discriminate].
        destruct (IH1 0 _ _ _ ltac:(lia) E) as (ts1 & -> & P1).
        destruct r' as [|k r']; [discriminate|]. destruct k; try discriminate.
        injection H as <- <-. exists (KLP :: ts1 ++ [KRP]).
        split; [cbn; rewrite <- app_assoc; reflexivity|]. apply ph_par; exact P1.
  - intros l a ts b r ts0 Hl P0 H. cbn [ploop] in H.
    assert (HS : Some (a, ts) = Some (b, r) -> exists ts1, ts = ts1 ++ r /\ phrase l (ts0 ++ ts1) b).
    { intros [= <- <-]. exists []. rewrite app_nil_r. split; [reflexivity|exact P0]. }
    destruct ts as [|k ts]; [auto|]. destruct k; auto.
    destruct (prec o =? l) eqn:Eo; [|auto]. clear HS. apply Nat.eqb_eq in Eo.
    destruct (pexp n (S l) ts) as [[d r']|] eqn:E; [|discriminate].
    destruct (IH1 (S l) _ _ _ ltac:(lia) E) as (ts1 & -> & P1).
    subst l.
    destruct (IH2 (prec o) (XBin o a d) r' b r (ts0 ++ KOp o :: ts1) Hl (ph_bin o ts0 ts1 a d P0 P1) H)
      as (ts2 & -> & P2).
    exists (KOp o :: ts1 ++ ts2). split; [cbn; rewrite app_assoc; reflexivity|].
    rewrite <- app_assoc in P2. exact P2.
Qed.

(** ** Completeness *)

Definition okhead (l : nat) (ts : list tok) : Prop :=
  match ts with
  | [] | KRP :: _ | KComma :: _ => True
  | KOp o :: _ => prec o <= l
  | _ => False
  end.

Lemma ploop_stop n l a ts : okhead l ts -> ploop (S n) (S l) a ts = Some (a, ts).
Proof.
  intros H. cbn [ploop]. destruct ts as [|k ts]; [reflexivity|]. destruct k; try reflexivity.
  cbn in H. destruct (prec o =? S l) eqn:E; [|reflexivity]. apply Nat.eqb_eq in E. lia.
Qed.

Lemma p_complete :
  forall l ts a, phrase l ts a ->
    (l <= 5 -> forall rest n res, okhead l rest -> ploop n l a rest = Some res ->
       pexp (9 * length ts + (6 - l) + n) l (ts ++ rest) = Some res) /\
    (l = 6 -> forall rest m, okhead 6 rest -> 9 * length ts <= m ->
       pexp m 6 (ts ++ rest) = Some (a, rest)).
Proof.
  apply phrase_ind'.
  - intros l ts a Hl _ [IH1 IH2]. split; [|lia]. intros Hl5 rest n res Hh Hp.
    destruct n as [|n]; [discriminate|].
    replace (9 * length ts + (6 - l) + S n) with (S (9 * length ts + (6 - l) + n)) by lia.
    cbn [pexp]. apply Nat.leb_le in Hl5 as El. rewrite El.
    assert (E : pexp (9 * length ts + (6 - l) + n) (S l) (ts ++ rest) = Some (a, rest)).
    { destruct (Nat.eq_dec l 5) as [-> | N].
      - apply IH2; [reflexivity| |lia]. destruct rest as [|k r]; [exact I|]. destruct k; try exact Hh.
        cbn. pose proof (prec_le o). lia.
      - apply pexp_mono with (n := 9 * length ts + (6 - S l) + 1); [|lia].
        apply IH1; [lia| |apply ploop_stop; exact Hh].
        destruct rest as [|k r]; [exact I|]. destruct k; try exact Hh. cbn in *. lia. }
    rewrite E. apply ploop_mono with (n := S n); [exact Hp|]. lia.
  - intros o ts1 ts2 a b _ [IH1 _] P2 [IH2 IH2']. split; [|pose proof (prec_le o); lia].
    intros Hl rest n res Hh Hp. destruct n as [|n]; [discriminate|].
    rewrite <- app_assoc. cbn [app].
    set (l := prec o) in *.
    assert (E2 : pexp (9 * length ts2 + 6 + S n) (S l) (ts2 ++ rest) = Some (b, rest)).
    { destruct (Nat.eq_dec l 5) as [El | N].
      - rewrite El in *. apply IH2'; [reflexivity| |lia].
        destruct rest as [|k r]; [exact I|]. destruct k; try exact Hh.
        cbn. pose proof (prec_le o0). lia.
      - apply pexp_mono with (n := 9 * length ts2 + (6 - S l) + 1); [|lia].
        apply IH2; [lia| |apply ploop_stop; exact Hh].
        destruct rest as [|k r]; [exact I|]. destruct k; try exact Hh. cbn in *. lia. }
    assert (E1 : ploop (S (9 * length ts2 + 6 + S n)) l a (KOp o :: ts2 ++ rest) = Some res).
    { cbn [ploop]. fold l. rewrite Nat.eqb_refl, E2.
      apply ploop_mono with (n := S n); [exact Hp|lia]. }
    apply pexp_mono with (n := 9 * length ts1 + (6 - l) + S (9 * length ts2 + 6 + S n)).
    + apply IH1; [exact Hl| |exact E1]. cbn. lia.
    + rewrite app_length. cbn [length]. lia.
  - intros ts a _ [_ IH]. split; [lia|]. intros _ rest m Hh Hm. cbn [length] in Hm.
    destruct m as [|m]; [lia|]. cbn [pexp app Nat.leb]. rewrite (IH eq_refl rest m Hh ltac:(lia)). reflexivity.
  - intros ts a _ [_ IH]. split; [lia|]. intros _ rest m Hh Hm. cbn [length] in Hm.
    destruct m as [|m]; [lia|]. cbn [pexp app Nat.leb]. rewrite (IH eq_refl rest m Hh ltac:(lia)). reflexivity.
  - intros ts a _ [_ IH]. split; [lia|]. intros _ rest m Hh Hm. cbn [length] in Hm.
    destruct m as [|m]; [lia|]. cbn [pexp app Nat.leb]. rewrite (IH eq_refl rest m Hh ltac:(lia)). reflexivity.
  - intros k. split; [lia|]. intros _ rest m _ Hm. cbn [length] in Hm. destruct m; [lia|]. reflexivity.
  - intros x. split; [lia|]. intros _ rest m Hh Hm. cbn [length] in Hm. destruct m; [lia|].
    cbn. destruct rest as [|k r]; [reflexivity|]. destruct k; try reflexivity. destruct Hh.
  - intros f ts a _ [IH _]. split; [lia|]. intros _ rest m Hh Hm.
    cbn [length] in Hm. rewrite app_length in Hm. cbn [length] in Hm.
    destruct m as [|m]; [lia|]. cbn [pexp app Nat.leb]. rewrite <- app_assoc. cbn [app].
    assert (E : pexp m 0 (ts ++ KRP :: rest) = Some (a, KRP :: rest)).
    { apply pexp_mono with (n := 9 * length ts + (6 - 0) + 1); [|lia].
      apply IH; [lia|exact I|reflexivity]. }
    rewrite E. reflexivity.
  - intros f ts1 ts2 a b _ [IH1 _] _ [IH2 _]. split; [lia|]. intros _ rest m Hh Hm.
    cbn [length] in Hm. rewrite app_length in Hm. cbn [length] in Hm.
    rewrite app_length in Hm. cbn [length] in Hm.
    destruct m as [|m]; [lia|]. cbn [pexp app Nat.leb]. rewrite <- app_assoc. cbn [app].
    assert (E1 : pexp m 0 (ts1 ++ KComma :: (ts2 ++ [KRP]) ++ rest)
                 = Some (a, KComma :: (ts2 ++ [KRP]) ++ rest)).
    { apply pexp_mono with (n := 9 * length ts1 + (6 - 0) + 1); [|lia].
      apply IH1; [lia|exact I|reflexivity]. }
    rewrite E1. rewrite <- app_assoc. cbn [app].
    assert (E2 : pexp m 0 (ts2 ++ KRP :: rest) = Some (b, KRP :: rest)).
    { apply pexp_mono with (n := 9 * length ts2 + (6 - 0) + 1); [|lia].
      apply IH2; [lia|exact I|reflexivity]. }
    rewrite E2. reflexivity.
  - intros ts a _ [IH _]. split; [lia|]. intros _ rest m Hh Hm.
    cbn [length] in Hm. rewrite app_length in Hm. cbn [length] in Hm.
    destruct m as [|m]; [lia|]. cbn [pexp app Nat.leb]. rewrite <- app_assoc. cbn [app].
    assert (E : pexp m 0 (ts ++ KRP :: rest) = Some (a, KRP :: rest)).
    { apply pexp_mono with (n := 9 * length ts + (6 - 0) + 1); [|lia].
      apply IH; [lia|exact I|reflexivity]. }
    rewrite E. reflexivity.
Qed.

Lemma cparse_complete ts t : phrase 0 ts t -> cparse ts = Some t.
Proof.
  intros H. unfold cparse.
  assert (E : pexp (9 * length ts + 8) 0 (ts ++ []) = Some (t, [])).
  { apply pexp_mono with (n := 9 * length ts + (6 - 0) + 1); [|lia].
    apply (p_complete 0 ts t H); [lia|exact I|reflexivity]. }
  rewrite app_nil_r in E. rewrite E. reflexivity.
Qed.

Lemma cparse_sound ts t : cparse ts = Some t -> phrase 0 ts t.
Proof.
  unfold cparse. destruct (pexp _ 0 ts) as [[a r]|] eqn:E; [|discriminate].
  destruct r as [|k r]; [|discriminate]. intros [= <-].
  destruct (proj1 (p_sound _) 0 _ _ _ ltac:(lia) E) as (ts1 & -> & P). rewrite app_nil_r. exact P.
Qed.

Lemma cparse_spec ts t : cparse ts = Some t <-> phrase 0 ts t.
Proof. split; [apply cparse_sound|apply cparse_complete]. Qed.

Lemma phrase_unique ts t1 t2 : phrase 0 ts t1 -> phrase 0 ts t2 -> t1 = t2.
Proof.
  intros H1 H2. apply cparse_complete in H1, H2. rewrite H1 in H2. injection H2 as E. exact E.
Qed.

Lemma phrase_lower l l' ts a : phrase l ts a -> l' <= l -> phrase l' ts a.
Proof.
  intros H Hle. pose proof (phrase_level _ _ _ H) as H6.
  remember (l - l') as d eqn:E. revert l' Hle E. induction d as [|d IH]; intros l' Hle E.
  - replace l' with l by lia. exact H.
  - apply ph_up; [lia|]. apply IH; lia.
Qed.

(** Joining to the right of an already chained operator. *)
Section Chain.
Variable libm : string -> list Q -> option Q.
Notation ev := (ceval libm).

Lemma and_assoc env a b c :
  ev env (XBin O_and (XBin O_and a b) c) = ev env (XBin O_and a (XBin O_and b c)).
Proof.
  cbn [ceval]. destruct (ev env a) as [va|]; [|reflexivity].
  destruct (ctruth va); [|reflexivity].
  destruct (ev env b) as [vb|]; [|reflexivity].
  destruct (ctruth vb) eqn:Eb; cbn.
  - destruct (ev env c) as [vc|]; [|reflexivity]. destruct (ctruth vc); reflexivity.
  - reflexivity.
Qed.

Lemma or_assoc env a b c :
  ev env (XBin O_or (XBin O_or a b) c) = ev env (XBin O_or a (XBin O_or b c)).
Proof.
  cbn [ceval]. destruct (ev env a) as [va|]; [|reflexivity].
  destruct (ctruth va); [reflexivity|].
  destruct (ev env b) as [vb|]; [|reflexivity].
  destruct (ctruth vb) eqn:Eb; cbn.
  - reflexivity.
  - destruct (ev env c) as [vc|]; [|reflexivity]. destruct (ctruth vc); reflexivity.
Qed.

Lemma chain_join o l ts2 b :
  (o = O_and \/ o = O_or) -> phrase l ts2 b -> l = prec o -> forall ts1 a, phrase l ts1 a ->
  exists t, phrase l (ts1 ++ KOp o :: ts2) t /\ forall env, ev env t = ev env (XBin o a b).
Proof.
  intros Ho H. revert l ts2 b H. apply (phrase_ind' (fun l ts2 b => l = prec o -> forall ts1 a,
    phrase l ts1 a -> exists t, phrase l (ts1 ++ KOp o :: ts2) t /\
                                forall env, ev env t = ev env (XBin o a b))).
  - intros l ts a Hl P _ -> ts1 a1 P1. exists (XBin o a1 a). split; [|reflexivity].
    apply ph_bin; assumption.
  - intros o' ts1 ts2 a b Pa IHa Pb _ El ts0 a0 P0.
    assert (o' = o) by (destruct Ho as [-> | ->]; destruct o'; cbn in El; try discriminate El; reflexivity).
    subst o'. destruct (IHa eq_refl ts0 a0 P0) as (t & Pt & Ev).
    exists (XBin o t b). split.
    + change (KOp o :: ts1 ++ KOp o :: ts2) with ((KOp o :: ts1) ++ KOp o :: ts2).
      rewrite app_assoc. apply ph_bin; assumption.
    + intros env. transitivity (ev env (XBin o (XBin o a0 a) b)).
      * specialize (Ev env). destruct Ho as [-> | ->]; cbn [ceval] in *; rewrite Ev; reflexivity.
      * destruct Ho as [-> | ->]; [apply and_assoc|apply or_assoc].
  - intros; destruct Ho as [-> | ->]; discriminate.
  - intros; destruct Ho as [-> | ->]; discriminate.
  - intros; destruct Ho as [-> | ->]; discriminate.
  - intros; destruct Ho as [-> | ->]; discriminate.
  - intros; destruct Ho as [-> | ->]; discriminate.
  - intros; destruct Ho as [-> | ->]; discriminate.
  - intros; destruct Ho as [-> | ->]; discriminate.
  - intros; destruct Ho as [-> | ->]; discriminate.
Qed.
End Chain.
