(** Proofs for C33: the code of statements. *)
From Coq Require Import String List ZArith QArith Bool Arith Lia.
From Verif Require Import GenModel GenSpec GenProofs GenProofs2 GenProofs3.
Import ListNotations.
Open Scope Z_scope.
Local Open Scope string_scope.

(** * Python runs *)

Section Python.
Variable aint : string -> bool.
Variable libm : string -> list Q -> option Q.
Variable fsample : string -> Q -> Q -> Q -> Q -> sample.
Variable vfsample : string -> Q -> Q -> Q -> Q -> vsample.
Variable consts : leaf -> Q.

Notation pev := (peval libm fsample).
Notation pe := (penv consts).
Notation pex := (pexec libm fsample vfsample aint consts).
Notation pwh := (pwhile libm fsample vfsample aint consts).

Definition vec_value (p : pst) (f : string) (t z y x : expr) : pres (list pval) :=
  pbind (pev (pe p) t) (fun vt => pbind (pev (pe p) z) (fun vz =>
  pbind (pev (pe p) y) (fun vy => pbind (pev (pe p) x) (fun vx =>
  match vfsample f (Qred (pnum vt)) (Qred (pnum vz)) (Qred (pnum vy)) (Qred (pnum vx)) with
  | VSampled vs => PV (map (fun l => PF (qsum l)) vs)
  | VSampleErr c => PErr c
  end)))).

Definition aug_value (p : pst) (t : target) (o : bop) (e : expr) : pres pval :=
  pbind (pev (pe p) (ELeaf (target_leaf t))) (fun a =>
  pbind (pev (pe p) e) (fun b => parith libm o a b)).

Definition pex1 (n : nat) (i : stmt) (s : pst) : pout :=
  match i with
  | SAssign t e => pgive (pev (pe s) e) s (fun v => ONext (passign aint s t v))
  | SAug t o e => pgive (aug_value s t o e) s (fun v => ONext (passign aint s t v))
  | STuple ts es =>
      pgive (peval_list libm fsample (pe s) es) s (fun vs =>
        if (length ts =? length vs)%nat then ONext (passigns aint s ts vs) else ORaise)
  | SVec ts f t z y x =>
      pgive (vec_value s f t z y x) s (fun vs =>
        if (length ts =? length vs)%nat then ONext (passigns aint s ts vs) else ORaise)
  | SIf c b o => pgive (pev (pe s) c) s (fun v => pex n (if ptruth v then b else o) s)
  | SWhile c b => pwh n true c b s
  | SBreak => OBreak s
  | SPass => ONext s
  | SReturn k => OReturn (py_code k) (podd s (p_del s))
  | SDelete => ONext (pdelete s)
  end.

Lemma pex_cons n i r s :
  pex (S n) (i :: r) s = match pex1 n i s with ONext s' => pex n r s' | _ => pex1 n i s end.
Proof. destruct i; reflexivity. Qed.

Lemma pwh_step n first c b s :
  pwh (S n) first c b s =
  pgive (pev (pe s) c) s (fun v =>
    if ptruth v then
      match pex n b s with
      | ONext s' => pwh n false c b s'
      | OBreak s' => ONext s'
      | o => o
      end
    else ONext (podd s first)).
Proof. reflexivity. Qed.

(** Not odd at the end. *)
Definition clean (o : pout) : Prop :=
  match o with
  | ONext q | OBreak q | OReturn _ q | OErr _ q => p_odd q = false
  | ORaise | OFuel => False
  end.

Lemma passigns_flags ts : forall vs p,
  p_del (passigns aint p ts vs) = p_del p /\
  (p_odd (passigns aint p ts vs) = false -> p_odd p = false) /\
  (p_del p = true -> p_odd (passigns aint p ts vs) = false -> passigns aint p ts vs = p).
Proof.
  unfold passigns. induction ts as [|t ts IH]; intros vs p; [repeat split; auto|].
  destruct vs as [|v vs]; [repeat split; auto|]. cbn [combine fold_left fst snd].
  destruct (IH vs (passign aint p t v)) as (H1 & H2 & H3).
  assert (Hd : p_del (passign aint p t v) = p_del p) by (destruct t; reflexivity).
  assert (Ho : p_odd (passign aint p t v) = p_odd p || p_del p) by (destruct t; reflexivity).
  split; [congruence|]. split.
  - intros H. apply H2 in H. rewrite Ho in H. apply orb_false_iff in H as [H _]. exact H.
  - intros D H. apply H2 in H. rewrite Ho, D, orb_true_r in H. discriminate.
Qed.

Lemma podd_clean s b : p_odd (podd s b) = false -> p_odd s = false.
Proof. cbn. intros H. apply orb_false_iff in H as [H _]. exact H. Qed.

Lemma passign_clean s t v : p_odd (passign aint s t v) = false -> p_odd s = false /\ p_del s = false.
Proof. destruct t; cbn; intros H; apply orb_false_iff in H; exact H. Qed.

Lemma odd_mono n :
  (forall ss p, clean (pex n ss p) -> p_odd p = false) /\
  (forall first c b p, clean (pwh n first c b p) -> p_odd p = false).
Proof.
  induction n as [|n [IH IHw]]; [split; intros; cbn in *; contradiction|].
  split.
  - intros ss p H. destruct ss as [|i r]; [exact H|]. rewrite pex_cons in H.
    assert (H1 : clean (pex1 n i p)).
    { destruct (pex1 n i p) eqn:E; try exact H. cbn. apply (IH r s H). }
    clear H. destruct i; cbn [pex1] in H1.
    + destruct (pev (pe p) e); cbn [pgive] in H1; [|apply podd_clean in H1; exact H1|destruct H1].
      apply passign_clean in H1. apply H1.
    + destruct (aug_value p t o e); cbn [pgive] in H1; [|apply podd_clean in H1; exact H1|destruct H1].
      apply passign_clean in H1. apply H1.
    + destruct (peval_list _ _ _ _); cbn [pgive] in H1; [|apply podd_clean in H1; exact H1|destruct H1].
      destruct (_ =? _)%nat; [|destruct H1]. destruct (passigns_flags ts v p) as (_ & H2 & _). exact (H2 H1).
    + destruct (vec_value _ _ _ _ _ _); cbn [pgive] in H1; [|apply podd_clean in H1; exact H1|destruct H1].
      destruct (_ =? _)%nat; [|destruct H1]. destruct (passigns_flags ts v p) as (_ & H2 & _). exact (H2 H1).
    + destruct (pev (pe p) c); cbn [pgive] in H1; [|apply podd_clean in H1; exact H1|destruct H1].
      apply IH in H1. exact H1.
    + apply IHw in H1. exact H1.
    + exact H1.
    + exact H1.
    + apply podd_clean in H1. exact H1.
    + exact H1.
  - intros first c b p H. rewrite pwh_step in H.
    destruct (pev (pe p) c); cbn [pgive] in H; [|apply podd_clean in H; exact H|destruct H].
    destruct (ptruth v); [|apply podd_clean in H; exact H].
    destruct (pex n b p) eqn:E; try (apply (IH b p); rewrite E; exact H); try destruct H.
    apply (IH b p). rewrite E. cbn. apply IHw in H. exact H.
Qed.

(** After [particle.delete()] a clean run does nothing any more. *)
Definition still (p : pst) (o : pout) : Prop :=
  match o with
  | ONext q | OBreak q => p_del q = true /\ forall a, p_att q a = p_att p a
  | _ => False
  end.

Lemma del_keep n :
  (forall ss p, p_del p = true -> p_att p "state" = PI 3 -> clean (pex n ss p) -> still p (pex n ss p)) /\
  (forall first c b p, p_del p = true -> p_att p "state" = PI 3 -> clean (pwh n first c b p) ->
     still p (pwh n first c b p)).
Proof.
  induction n as [|n [IH IHw]]; [split; intros; cbn in *; contradiction|].
  split.
  - intros ss p D St H. destruct ss as [|i r]; [cbn; auto|]. rewrite pex_cons in *.
    assert (H1 : clean (pex1 n i p) /\ still p (pex1 n i p)).
    { assert (C1 : clean (pex1 n i p)).
      { destruct (pex1 n i p) eqn:E; try exact H. cbn. apply (proj1 (odd_mono n) r s H). }
      split; [exact C1|]. clear H. destruct i; cbn [pex1] in *.
      + destruct (pev (pe p) e); cbn [pgive clean] in C1; try contradiction.
        * apply passign_clean in C1. destruct C1; congruence.
        * cbn in C1. rewrite D, orb_true_r in C1. discriminate.
      + destruct (aug_value p t o e); cbn [pgive clean] in C1; try contradiction.
        * apply passign_clean in C1. destruct C1; congruence.
        * cbn in C1. rewrite D, orb_true_r in C1. discriminate.
      + destruct (peval_list _ _ _ _); cbn [pgive clean] in *; try contradiction.
        * destruct (_ =? _)%nat; [|contradiction]. cbn in *. destruct (passigns_flags ts v p) as (_ & _ & H3).
          rewrite (H3 D C1). auto.
        * cbn in C1. rewrite D, orb_true_r in C1. discriminate.
      + destruct (vec_value _ _ _ _ _ _); cbn [pgive clean] in *; try contradiction.
        * destruct (_ =? _)%nat; [|contradiction]. cbn in *. destruct (passigns_flags ts v p) as (_ & _ & H3).
          rewrite (H3 D C1). auto.
        * cbn in C1. rewrite D, orb_true_r in C1. discriminate.
      + destruct (pev (pe p) c); cbn [pgive clean] in *; try contradiction.
        * apply IH; assumption.
        * cbn in C1. rewrite D, orb_true_r in C1. discriminate.
      + apply IHw; assumption.
      + cbn. auto.
      + cbn. auto.
      + cbn in C1. rewrite D, orb_true_r in C1. discriminate.
      + cbn. split; [reflexivity|]. intros a. unfold upd. destruct (a =? "state") eqn:E; [|reflexivity].
        apply String.eqb_eq in E. subst a. rewrite St. reflexivity. }
    destruct H1 as [C1 S1]. destruct (pex1 n i p) eqn:E; try exact S1.
    cbn in S1. destruct S1 as [D1 A1].
    assert (S2 : still s (pex n r s)) by (apply IH; [exact D1|rewrite A1; exact St|exact H]).
    destruct (pex n r s); cbn in *; try contradiction; destruct S2 as [D2 A2]; (split; [exact D2|]);
      intros a; rewrite A2; apply A1.
  - intros first c b p D St H. rewrite pwh_step in *.
    destruct (pev (pe p) c); cbn [pgive] in *; [|cbn in H; rewrite D, orb_true_r in H; discriminate|destruct H].
    destruct (ptruth v); [|cbn; auto].
    destruct (pex n b p) eqn:E; try contradiction.
    + assert (S1 : still p (pex n b p)).
      { apply IH; [exact D|exact St|]. rewrite E. cbn. apply (proj2 (odd_mono n)) in H. exact H. }
      rewrite E in S1. cbn in S1. destruct S1 as [D1 A1].
      assert (S2 : still s (pwh n false c b s)) by (apply IHw; [exact D1|rewrite A1; exact St|exact H]).
      destruct (pwh n false c b s); cbn in *; try contradiction; destruct S2 as [D2 A2]; (split; [exact D2|]);
        intros a; rewrite A2; apply A1.
    + assert (S1 : still p (pex n b p)) by (apply IH; [exact D|exact St|rewrite E; exact H]).
      rewrite E in S1. exact S1.
    + assert (S1 : still p (pex n b p)) by (apply IH; [exact D|exact St|rewrite E; exact H]).
      rewrite E in S1. exact S1.
    + assert (S1 : still p (pex n b p)) by (apply IH; [exact D|exact St|rewrite E; exact H]).
      rewrite E in S1. exact S1.
Qed.
End Python.
