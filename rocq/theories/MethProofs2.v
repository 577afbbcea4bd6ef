From Coq Require Import List ZArith Bool QArith Qabs Qround Lia Lqa ZifyBool Psatz.
From Verif Require Import IdxModel IdxSpec IdxBase IdxProofs TimeModel InterpModel InterpSpec TimeProofs InterpProofs MethSpec MethProofs.
Import ListNotations.
Open Scope Q_scope.

(** ** The nearest node *)
Lemma abs_pos : forall a, 0 <= a -> Qabs a == a.
Proof. intros. apply Qabs_pos. assumption. Qed.
Lemma abs_ge : forall a, a <= Qabs a /\ - a <= Qabs a.
Proof. intros a. split; [apply Qle_Qabs|]. rewrite <- Qabs_opp. apply Qle_Qabs. Qed.
Lemma inc_le : forall l i j, increasing l -> (0 <= i <= j)%Z -> (j < zlen l)%Z -> at_ l i <= at_ l j.
Proof. intros l i j I H L. destruct (Z.eq_dec i j) as [->|]; [lra|]. apply Qlt_le_weak, I; lia. Qed.
Lemma dec_le : forall l i j, decreasing l -> (0 <= i <= j)%Z -> (j < zlen l)%Z -> at_ l j <= at_ l i.
Proof. intros l i j I H L. destruct (Z.eq_dec i j) as [->|]; [lra|]. apply Qlt_le_weak, I; lia. Qed.

Lemma cell_nearest : forall l x i r, increasing l \/ decreasing l -> in_cell l x i r ->
  (r <= 1 # 2 -> nearest l x i) /\ (1 # 2 <= r -> nearest l x (i + 1)).
Proof.
  intros l x i r M (A & B & C & D & E). set (a := at_ l i) in *. set (b := at_ l (i + 1)) in *.
  destruct M as [I|I].
  - assert (AB : a < b) by (apply I; lia).
    assert (P : 0 <= r * (b - a)) by (apply Qmult_le_0_compat; lra).
    assert (P' : 0 <= (1 - r) * (b - a)) by (apply Qmult_le_0_compat; lra).
    assert (XA : Qabs (x - a) == r * (b - a)) by (rewrite abs_pos; lra).
    assert (XB : Qabs (x - b) == (1 - r) * (b - a)).
    { setoid_replace (x - b) with (- ((1 - r) * (b - a))) by lra. rewrite Qabs_opp. apply abs_pos. exact P'. }
    assert (O : forall c, (0 <= c < zlen l)%Z -> r * (b - a) <= Qabs (x - at_ l c) \/ (1 - r) * (b - a) <= Qabs (x - at_ l c)).
    { intros c H. destruct (abs_ge (x - at_ l c)) as [G1 G2]. destruct (Z_le_gt_dec c i).
      - left. pose proof (inc_le l c i I ltac:(lia) ltac:(lia)). fold a in H0. lra.
      - right. pose proof (inc_le l (i + 1) c I ltac:(lia) ltac:(lia)). fold b in H0. lra. }
    split; intros R; (split; [lia|]); intros _ c H; destruct (O c H) as [O1|O1].
    + fold a. lra.
    + fold a. apply Qle_trans with ((1 - r) * (b - a)); [|exact O1]. rewrite XA. apply Qmult_le_compat_r; lra.
    + fold b. apply Qle_trans with (r * (b - a)); [|exact O1]. rewrite XB. apply Qmult_le_compat_r; lra.
    + fold b. lra.
  - assert (AB : b < a) by (apply I; lia).
    assert (P : 0 <= r * (a - b)) by (apply Qmult_le_0_compat; lra).
    assert (P' : 0 <= (1 - r) * (a - b)) by (apply Qmult_le_0_compat; lra).
    assert (XA : Qabs (x - a) == r * (a - b)).
    { setoid_replace (x - a) with (- (r * (a - b))) by lra. rewrite Qabs_opp. apply abs_pos. exact P. }
    assert (XB : Qabs (x - b) == (1 - r) * (a - b)) by (rewrite abs_pos; lra).
    assert (O : forall c, (0 <= c < zlen l)%Z -> r * (a - b) <= Qabs (x - at_ l c) \/ (1 - r) * (a - b) <= Qabs (x - at_ l c)).
    { intros c H. destruct (abs_ge (x - at_ l c)) as [G1 G2]. destruct (Z_le_gt_dec c i).
      - left. pose proof (dec_le l c i I ltac:(lia) ltac:(lia)). fold a in H0. lra.
      - right. pose proof (dec_le l (i + 1) c I ltac:(lia) ltac:(lia)). fold b in H0. lra. }
    split; intros R; (split; [lia|]); intros _ c H; destruct (O c H) as [O1|O1].
    + fold a. lra.
    + fold a. apply Qle_trans with ((1 - r) * (a - b)); [|exact O1]. rewrite XA. apply Qmult_le_compat_r; lra.
    + fold b. apply Qle_trans with (r * (a - b)); [|exact O1]. rewrite XB. apply Qmult_le_compat_r; lra.
    + fold b. lra.
Qed.

Lemma located_nearest : forall l x i r, (1 <= zlen l)%Z -> increasing l \/ decreasing l -> located l x i r ->
  (r <= 1 # 2 -> nearest l x (node l i)) /\ (1 # 2 <= r -> nearest l x (node l (i + 1))).
Proof.
  intros l x i r L M [[O _]|[O C]]; unfold node.
  - replace (zlen l =? 1)%Z with true by lia. split; intros _; split; lia.
  - replace (zlen l =? 1)%Z with false by lia. apply cell_nearest; assumption.
Qed.

(** Nearest nodes are those of the cell, and one only unless in the middle. *)
Lemma nearest_unique : forall l x a b, (1 <= zlen l)%Z -> increasing l \/ decreasing l -> off_middles l x ->
  nearest l x a -> nearest l x b -> a = b.
Proof.
  intros l x a b L M OM (RA & NA) (RB & NB). destruct (Z.eq_dec (zlen l) 1) as [O|O]; [lia|].
  assert (O1 : (1 < zlen l)%Z) by lia. specialize (NA O1). specialize (NB O1).
  assert (W : forall u v, (0 <= u < v)%Z -> (v < zlen l)%Z -> Qabs (x - at_ l u) == Qabs (x - at_ l v) ->
    (forall c, (0 <= c < zlen l)%Z -> Qabs (x - at_ l u) <= Qabs (x - at_ l c)) -> False).
  { intros u v H1 H2 E N.
    assert (NE : ~ at_ l u == at_ l v) by (destruct M as [I|I]; pose proof (I u v H1 H2); lra).
    assert (MID : at_ l u + at_ l v == 2 * x).
    { destruct (Qlt_le_dec (x - at_ l u) 0) as [U|U]; destruct (Qlt_le_dec (x - at_ l v) 0) as [V|V];
        rewrite ?(Qabs_neg (x - at_ l u)), ?(Qabs_neg (x - at_ l v)), ?(Qabs_pos (x - at_ l u)), ?(Qabs_pos (x - at_ l v)) in E by lra; try lra;
        exfalso; apply NE; lra. }
    destruct (Z.eq_dec v (u + 1)) as [->|NV].
    - apply (OM O1 u); [lia..|]. lra.
    - specialize (N (u + 1)%Z ltac:(lia)). destruct (abs_ge (x - at_ l (u + 1))) as [G1 G2].
      assert (A : Qabs (x - at_ l (u + 1)) < Qabs (x - at_ l u)); [|lra].
      destruct M as [I|I]; pose proof (I u (u + 1)%Z ltac:(lia) ltac:(lia)); pose proof (I (u + 1)%Z v ltac:(lia) ltac:(lia)).
      + rewrite (Qabs_pos (x - at_ l u)) by lra. destruct (Qlt_le_dec (x - at_ l (u + 1)) 0); rewrite ?Qabs_neg, ?Qabs_pos by lra; lra.
      + rewrite (Qabs_neg (x - at_ l u)) by lra. destruct (Qlt_le_dec (x - at_ l (u + 1)) 0); rewrite ?Qabs_neg, ?Qabs_pos by lra; lra. }
  assert (E : Qabs (x - at_ l a) == Qabs (x - at_ l b)) by (apply Qle_antisym; [apply NA; lia|apply NB; lia]).
  destruct (Z_lt_dec a b) as [H|H]; [exfalso; apply (W a b); try lia; [exact E|exact NA]|].
  destruct (Z_lt_dec b a) as [H'|H']; [exfalso; apply (W b a); try lia; [symmetry; exact E|exact NB]|lia].
Qed.
