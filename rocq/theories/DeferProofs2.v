(** Proofs about deferred loading: the frames in memory are on both sides of the times needed. *)
From Coq Require Import List ZArith Bool QArith Qround Lia Lqa.
From Verif Require Import IdxModel IdxSpec IdxProofs TimeModel TimeProofs DeferModel DeferSpec DeferProofs.
Import ListNotations.
Open Scope Z_scope.

Lemma first_le : forall full i, axis_ok full -> 0 <= i < zlen full -> (first_ full <= at_ full i)%Q.
Proof. intros full i (_ & I) R. apply inc_le; [exact I|lia|lia]. Qed.
Lemma le_last : forall full i, axis_ok full -> 0 <= i < zlen full -> (at_ full i <= last_ full)%Q.
Proof. intros full i (_ & I) R. apply inc_le; [exact I|lia|lia]. Qed.
Lemma at_step : forall full i, axis_ok full -> 0 <= i -> i + 1 < zlen full -> (at_ full i < at_ full (i + 1))%Q.
Proof. intros full i (_ & I) A B. apply I; lia. Qed.

Ltac qb := repeat match goal with
  | H : (_ || _) = false |- _ => apply orb_false_iff in H; destruct H
  | H : (_ && _) = true |- _ => apply andb_true_iff in H; destruct H
  | H : qlt _ _ = true |- _ => apply qlt_spec in H
  | H : qlt _ _ = false |- _ => apply qlt_false in H
  | H : qle _ _ = true |- _ => apply qle_spec in H
  | H : qle _ _ = false |- _ => apply qle_false in H
  end.

(** ** Forward *)
(** When the window is kept or moved by one frame. *)
Lemma move_forward : forall full st t sgn ti tm u, axis_ok full -> 3 <= zlen full -> 0 <= sgn ->
  0 <= s_ti st -> s_ti st + 1 < zlen full -> s_time st = win full (s_ti st) ->
  chunk_move full (first_ full) (last_ full) (at_ full (s_ti st)) (at_ full (s_ti st + 1)) st t sgn = Some (ti, tm, u) ->
  ti = -1 \/
  (0 <= ti /\ ti + 1 < zlen full /\ tm = win full ti /\
   (at_ full ti <= t - inject_Z (s_periods st) * (last_ full - first_ full) < at_ full (ti + 1))%Q).
Proof.
  intros full st t sgn ti tm u OK L S A B C H. unfold chunk_move in H.
  set (t' := (t - inject_Z (s_periods st) * (last_ full - first_ full))%Q) in *.
  destruct (qlt t' (at_ full (s_ti st)) || qlt (at_ full (s_ti st + 1)) t') eqn:X1 in H; [injection H as <- <- <-; left; reflexivity|].
  rewrite (proj2 (Z.leb_le 0 sgn) S) in H. cbn [andb] in H.
  destruct (qlt t' (first_ full) || qle (last_ full) t') eqn:X2 in H; [injection H as <- <- <-; left; reflexivity|].
  replace (sgn <? 0) with false in H by (symmetry; apply Z.ltb_ge; exact S). cbn [andb] in H.
  qb. destruct (qle (at_ full (s_ti st + 1)) t' && (s_ti st <? zlen full - 2)) eqn:X3.
  - apply andb_true_iff in X3. destruct X3 as [X3 X4]. apply Z.ltb_lt in X4. qb.
    rewrite (slice2_in full (s_ti st + 1)) in H by lia. injection H as <- <- <-. right. split; [lia|]. split; [lia|]. split; [reflexivity|].
    pose proof (at_step full (s_ti st + 1) OK ltac:(lia) ltac:(lia)). lra.
  - injection H as <- <- <-. right. split; [lia|]. split; [lia|]. split; [exact C|]. split; [assumption|].
    apply andb_false_iff in X3. destruct X3 as [X3|X3]; qb; [assumption|]. apply Z.ltb_ge in X3.
    replace (s_ti st + 1) with (zlen full - 1) by lia. assumption.
Qed.

(** The conditions on the stored number of periods under which a forward request is answered. *)
Definition fwd_ok (per e : bool) (full : list Q) (p : Z) (t : Q) : Prop :=
  if per then e = false /\ (first_ full <= t)%Q /\ ((t < last_ full)%Q -> p = 0) else p = 0.

Definition fwd_next (per e : bool) (full : list Q) (i m : Z) (t : Q) (next : ext) : Prop :=
  match next with
  | PosInf => e = true /\ i + 2 = zlen full
  | Fin q => (q == at_ full (i + 1) + inject_Z m * (last_ full - first_ full))%Q /\ (t <= q)%Q /\
             (per = true \/ e = true \/ (t < last_ full)%Q -> (t < q)%Q)
  | NegInf => False
  end.

Lemma next_forward : forall per e full i m sgn, 0 <= sgn -> 0 <= i -> i + 1 < zlen full ->
  forall t, (t <= at_ full (i + 1) + inject_Z m * (last_ full - first_ full))%Q \/ e = true /\ i + 2 = zlen full ->
  (per = true \/ e = true \/ (t < last_ full)%Q -> (t < at_ full (i + 1) + inject_Z m * (last_ full - first_ full))%Q \/ e = true /\ i + 2 = zlen full) ->
  exists next, chunk_next e full (first_ full) (last_ full) i (win full i) m sgn = Some next /\ fwd_next per e full i m t next.
Proof.
  intros per e full i m sgn S A B t C C2. unfold chunk_next, win.
  change (pyget [at_ full i; at_ full (i + 1)] 0) with (Some (at_ full i)).
  change (pyget [at_ full i; at_ full (i + 1)] 1) with (Some (at_ full (i + 1))). cbv iota.
  rewrite (proj2 (Z.leb_le 0 sgn) S). replace (sgn <? 0) with false by (symmetry; apply Z.ltb_ge; exact S). cbn [andb].
  destruct (Z.ltb_spec i (zlen full - 2)) as [G|G]; cbn [orb].
  - eexists. split; [reflexivity|]. cbn. split; [reflexivity|]. split; [destruct C as [C|(_ & C)]; [exact C|lia]|]. intro X. destruct (C2 X) as [Y|(_ & Y)]; [exact Y|lia].
  - destruct e; cbn [negb].
    + eexists. split; [reflexivity|]. cbn. split; [reflexivity|lia].
    + eexists. split; [reflexivity|]. cbn. split; [reflexivity|]. split; [destruct C as [C|(C & _)]; [exact C|discriminate]|]. intro X. destruct (C2 X) as [Y|(Y & _)]; [exact Y|discriminate].
Qed.

Lemma z0 : forall a T, (a - inject_Z 0 * T == a)%Q.
Proof. intros. change (inject_Z 0) with 0%Q. ring. Qed.

Lemma chunk_forward : forall per e full st t sgn st' u next, axis_ok full -> 3 <= zlen full -> wok full st -> 0 <= sgn ->
  fwd_ok per e full (s_periods st) t -> grid_chunk per e full st t sgn = Chunk st' u next ->
  exists m, (per = false -> m = 0) /\ brackets full e (s_ti st') (t - inject_Z m * (last_ full - first_ full)) /\
    fwd_next per e full (s_ti st') m t next /\
    (if per then (t < last_ full)%Q -> m = 0 /\ s_periods st' = 0 else s_periods st' = 0).
Proof.
  intros per e full st t sgn st' u next OK L W S F H. unfold grid_chunk in H.
  destruct (tm_ends full OK) as (E0 & E1 & _). rewrite E0, E1 in H. clear E0 E1.
  assert (RESET : match chunk_reset per e full (first_ full) (last_ full) st t sgn with
      | inl (st', _, local) =>
          match chunk_next e full (first_ full) (last_ full) (s_ti st') (s_time st') local sgn with
          | Some next => Chunk st' u next
          | None => ChunkBad
          end
      | inr true => ChunkExtrap
      | inr false => ChunkBad
      end = Chunk st' u next ->
    exists m, (per = false -> m = 0) /\ brackets full e (s_ti st') (t - inject_Z m * (last_ full - first_ full)) /\
    fwd_next per e full (s_ti st') m t next /\
    (if per then (t < last_ full)%Q -> m = 0 /\ s_periods st' = 0 else s_periods st' = 0)).
  { clear H. intro H. unfold chunk_reset in H. replace (sgn =? -1) with false in H by (symmetry; apply Z.eqb_neq; lia).
    cbn [andb] in H. destruct per.
    - destruct F as (-> & F1 & F2). destruct (ti_per full false t OK L) as (i & p & EQ & I1 & I2 & I3 & I4). rewrite EQ in H.
      assert (ST : (if stores true full t then p else s_periods st) = p).
      { destruct I4 as [(-> & _)|(-> & -> & A)]; [reflexivity|]. apply F2. tauto. }
      rewrite ST in H. destruct (Z.leb_spec (zlen full - 1) i); [lia|].
      rewrite (slice2_in full i I1 I2) in H. cbn [s_ti s_time] in H.
      destruct (next_forward true false full i p sgn S I1 I2 t) as (n & N & FN); [left; lra|intros _; left; lra|]. rewrite N in H. injection H as <- <-.
      cbn [s_ti s_periods]. exists p. split; [discriminate|]. split; [unfold brackets; lra|]. split; [exact FN|].
      intro LT. destruct I4 as [(_ & [A|A])|(_ & -> & _)]; [exfalso; lra|exfalso; lra|]. split; reflexivity.
    - cbn in F. destruct (ti_nonper full e t OK L) as [(EQ & _)|(i & EQ & C)]; rewrite EQ in H; [discriminate|].
      unfold stores in H. cbn [andb] in H. rewrite F in H.
      set (i3 := if zlen full - 1 <=? i then zlen full - 2 else i) in *.
      assert (R : 0 <= i3 /\ i3 + 1 < zlen full).
      { unfold i3. destruct C as [(-> & _)|[(-> & _)|(A & B & _)]]; match goal with |- context [?a <=? ?b] => destruct (Z.leb_spec a b) end; lia. }
      rewrite (slice2_in full i3) in H by tauto. cbn [s_ti s_time] in H.
      assert (BR : ((at_ full i3 <= t)%Q \/ e = true /\ i3 = 0) /\ ((t <= at_ full (i3 + 1))%Q \/ e = true /\ i3 + 2 = zlen full)).
      { unfold i3. destruct C as [(-> & A & B)|[(-> & A & B)|(A & B & C)]].
        - rewrite (proj2 (Z.leb_le _ _) (Z.le_refl _)). replace (zlen full - 2 + 1) with (zlen full - 1) by lia.
          pose proof (le_last full (zlen full - 2) OK ltac:(lia)).
          split; [left; lra|]. destruct B as [B|B]; [right; split; [exact B|lia]|left; unfold last_ in B; lra].
        - destruct (Z.leb_spec (zlen full - 1) 0); [lia|]. split; [right; tauto|]. left.
          pose proof (first_le full 1 OK ltac:(lia)) as G. change (0 + 1) with 1. lra.
        - destruct (Z.leb_spec (zlen full - 1) i); [lia|]. split; left; lra. }
      destruct (next_forward false e full i3 0 sgn S (proj1 R) (proj2 R) t) as (n & N & FN).
      { destruct (proj2 BR) as [G|G]; [left; change (inject_Z 0) with 0%Q; lra|right; exact G]. }
      { intro X. unfold i3. change (inject_Z 0) with 0%Q. destruct C as [(-> & A & B)|[(-> & A & B)|(A & B & C)]].
        - rewrite (proj2 (Z.leb_le _ _) (Z.le_refl _)). destruct X as [X|[X|X]]; [discriminate| |exfalso; lra]. right. split; [exact X|lia].
        - destruct (Z.leb_spec (zlen full - 1) 0); [lia|]. left. pose proof (first_le full 1 OK ltac:(lia)) as G. change (0 + 1) with 1. lra.
        - destruct (Z.leb_spec (zlen full - 1) i); [lia|]. left. lra. }
      rewrite N in H. injection H as <- <-. cbn [s_ti s_periods]. exists 0. split; [reflexivity|].
      split; [|split; [exact FN|reflexivity]]. unfold brackets. rewrite z0. exact BR. }
  destruct W as [(W1 & W2)|(W1 & W2 & W3)].
  - rewrite W1 in H. change (0 <=? -1) with false in H. cbv iota in H. change (-1 =? -1) with true in H. cbv iota zeta in H.
    apply RESET. destruct (chunk_reset per e full (first_ full) (last_ full) st t sgn) as [[[st1 u1] local]|b]; [|exact H].
    destruct (chunk_next _ _ _ _ _ _ _ _) as [n|] in H |- *; [|discriminate]. injection H as <- <- <-. reflexivity.
  - destruct (Z.leb_spec 0 (s_ti st)); [|lia]. rewrite W3 in H. unfold win at 1 2 in H.
    change (pyget [at_ full (s_ti st); at_ full (s_ti st + 1)] 0) with (Some (at_ full (s_ti st))) in H.
    change (pyget [at_ full (s_ti st); at_ full (s_ti st + 1)] 1) with (Some (at_ full (s_ti st + 1))) in H.
    destruct (chunk_move full (first_ full) (last_ full) (at_ full (s_ti st)) (at_ full (s_ti st + 1)) st t sgn) as [[[ti tm] u1]|] eqn:M;
      cbv iota zeta in H; [|discriminate].
    destruct (move_forward _ _ _ _ _ _ _ OK L S W1 W2 W3 M) as [->|(P1 & P2 & -> & P3)].
    + change (-1 =? -1) with true in H. cbv iota in H. apply RESET.
      destruct (chunk_reset per e full (first_ full) (last_ full) st t sgn) as [[[st1 u2] local]|b]; [|exact H].
      destruct (chunk_next _ _ _ _ _ _ _ _) as [n|] in H |- *; [|discriminate]. injection H as <- <- <-. reflexivity.
    + destruct (Z.eqb_spec ti (-1)); [lia|]. cbn [s_ti s_time] in H.
      destruct (next_forward per e full ti (s_periods st) sgn S P1 P2 t) as (n' & N & FN); [left; lra|intros _; left; lra|]. rewrite N in H.
      injection H as <- <- <-. cbn [s_ti s_periods]. exists (s_periods st).
      split; [intros ->; exact F|]. split; [unfold brackets; lra|]. split; [exact FN|].
      destruct per; [|exact F]. intro LT. destruct F as (_ & _ & F). split; apply F; exact LT.
Qed.

(** ** Backward *)
Lemma move_backward : forall full st t ti tm u, axis_ok full -> 3 <= zlen full ->
  0 <= s_ti st -> s_ti st + 1 < zlen full -> s_time st = win full (s_ti st) ->
  let t' := (t - inject_Z (s_periods st) * (last_ full - first_ full))%Q in
  chunk_move full (first_ full) (last_ full) (at_ full (s_ti st)) (at_ full (s_ti st + 1)) st t (-1) = Some (ti, tm, u) ->
  (ti = -1 /\ ((t' < at_ full (s_ti st))%Q \/ (at_ full (s_ti st + 1) < t')%Q \/ (t' <= first_ full)%Q)) \/
  (0 <= ti /\ ti + 1 < zlen full /\ tm = win full ti /\ (ti = s_ti st \/ (t' == at_ full (ti + 1))%Q) /\ (at_ full ti < t' <= at_ full (ti + 1))%Q).
Proof.
  intros full st t ti tm u OK L A B C t' H. unfold chunk_move in H. fold t' in H.
  destruct (qlt t' (at_ full (s_ti st)) || qlt (at_ full (s_ti st + 1)) t') eqn:X1 in H.
  { injection H as <- <- <-. left. split; [reflexivity|]. apply orb_true_iff in X1. destruct X1 as [X|X]; apply qlt_spec in X; tauto. }
  change (0 <=? -1) with false in H. change (-1 <? 0) with true in H. cbn [andb] in H.
  pose proof (le_last full (s_ti st + 1) OK ltac:(lia)) as LL. qb.
  destruct (qle t' (first_ full) || qlt (last_ full) t') eqn:X2 in H.
  { injection H as <- <- <-. left. split; [reflexivity|]. apply orb_true_iff in X2. destruct X2 as [X|X]; qb; [tauto|]. exfalso. lra. }
  qb. destruct (qle t' (at_ full (s_ti st)) && (0 <? s_ti st)) eqn:X3.
  - apply andb_true_iff in X3. destruct X3 as [X3 X4]. apply Z.ltb_lt in X4. qb.
    rewrite (slice2_in full (s_ti st - 1)) in H by lia. injection H as <- <- <-. right. split; [lia|]. split; [lia|]. split; [reflexivity|].
    replace (s_ti st - 1 + 1) with (s_ti st) by lia.
    pose proof (at_step full (s_ti st - 1) OK ltac:(lia) ltac:(lia)) as G. replace (s_ti st - 1 + 1) with (s_ti st) in G by lia.
    split; [right; lra|lra].
  - injection H as <- <- <-. right. split; [lia|]. split; [lia|]. split; [exact C|]. split; [left; reflexivity|]. split; [|assumption].
    apply andb_false_iff in X3. destruct X3 as [X3|X3]; qb; [assumption|]. apply Z.ltb_ge in X3.
    replace (s_ti st) with 0 by lia. assumption.
Qed.

Definition at_frame (per : bool) (full : list Q) (t : Q) : Prop :=
  exists j m, 0 <= j < zlen full /\ (per = false -> m = 0) /\ (t == at_ full j + inject_Z m * (last_ full - first_ full))%Q.

(** The conditions under which a backward request is answered. *)
Definition bwd_ok (per e : bool) (full : list Q) (ti p : Z) (t : Q) : Prop :=
  if per then
    e = false /\ at_frame true full t /\ (t < last_ full)%Q /\ ((first_ full < t)%Q -> p = 0) /\
    ((t == first_ full)%Q -> p = 0 \/ p = -1 /\ ti = zlen full - 2)
  else
    p = 0 /\ (at_frame false full t \/ (t <= at_ full 1)%Q \/ (last_ full <= t)%Q \/
              0 <= ti /\ (at_ full ti <= t <= at_ full (ti + 1))%Q).

Definition bwd_next (per e : bool) (full : list Q) (i m : Z) (t : Q) (next : ext) : Prop :=
  match next with
  | NegInf => e = true /\ i = 0
  | Fin q => (q == at_ full i + inject_Z m * (last_ full - first_ full))%Q /\ (q <= t)%Q /\
             (per = true \/ e = true \/ (first_ full < t)%Q -> (q < t)%Q)
  | PosInf => False
  end.

Lemma next_backward : forall per e full i m, 0 <= i -> i + 1 < zlen full ->
  forall t, (at_ full i + inject_Z m * (last_ full - first_ full) <= t)%Q \/ e = true /\ i = 0 ->
  (per = true \/ e = true \/ (first_ full < t)%Q -> (at_ full i + inject_Z m * (last_ full - first_ full) < t)%Q \/ e = true /\ i = 0) ->
  exists next, chunk_next e full (first_ full) (last_ full) i (win full i) m (-1) = Some next /\ bwd_next per e full i m t next.
Proof.
  intros per e full i m A B t C C2. unfold chunk_next, win.
  change (pyget [at_ full i; at_ full (i + 1)] 0) with (Some (at_ full i)).
  change (pyget [at_ full i; at_ full (i + 1)] 1) with (Some (at_ full (i + 1))). cbv iota.
  change (0 <=? -1) with false. change (-1 <? 0) with true. cbn [andb].
  destruct (Z.ltb_spec 0 i) as [G|G]; cbn [orb].
  - eexists. split; [reflexivity|]. cbn. split; [reflexivity|]. split; [destruct C as [C|(_ & C)]; [exact C|lia]|]. intro X. destruct (C2 X) as [Y|(_ & Y)]; [exact Y|lia].
  - destruct e; cbn [negb].
    + eexists. split; [reflexivity|]. cbn. split; [reflexivity|lia].
    + eexists. split; [reflexivity|]. cbn. split; [reflexivity|]. split; [destruct C as [C|(C & _)]; [exact C|discriminate]|]. intro X. destruct (C2 X) as [Y|(Y & _)]; [exact Y|discriminate].
Qed.

Lemma cell_frame : forall full i j t, axis_ok full -> 0 <= i -> i + 1 < zlen full -> 0 <= j < zlen full ->
  (at_ full i <= t < at_ full (i + 1))%Q -> (t == at_ full j)%Q -> i = j.
Proof.
  intros full i j t OK A B C D E. destruct (Z.lt_trichotomy i j) as [G|[G|G]]; [|exact G|].
  - pose proof (inc_le full (i + 1) j (proj2 OK) ltac:(lia) ltac:(lia)). exfalso. lra.
  - pose proof (proj2 OK j i ltac:(lia) ltac:(lia)). exfalso. lra.
Qed.

Lemma mult_small : forall k T, (0 < T)%Q -> (- T < inject_Z k * T < T)%Q -> k = 0.
Proof.
  intros k T P (A & B). destruct (Z.lt_trichotomy k 0) as [G|[G|G]]; [|exact G|].
  - assert (inject_Z k <= -1)%Q by (change (-1)%Q with (inject_Z (-1)); rewrite <- Zle_Qle; lia).
    assert (inject_Z k * T <= -1 * T)%Q by (apply Qmult_le_compat_r; lra). exfalso. lra.
  - assert (1 <= inject_Z k)%Q by (change 1%Q with (inject_Z 1); rewrite <- Zle_Qle; lia).
    assert (1 * T <= inject_Z k * T)%Q by (apply Qmult_le_compat_r; lra). exfalso. lra.
Qed.
Lemma mult_minus : forall k T, (0 < T)%Q -> (- (2) * T < inject_Z k * T < 0)%Q -> k = -1.
Proof.
  intros k T P (A & B). enough (k + 1 = 0) by lia. apply (mult_small (k + 1) T P). rewrite inject_Z_plus. change (inject_Z 1) with 1%Q. lra.
Qed.

(** The position of a frame time within its period. *)
Lemma frame_reduced : forall full t i p, axis_ok full -> 3 <= zlen full -> at_frame true full t -> 0 <= i -> i + 1 < zlen full ->
  (at_ full i <= t - inject_Z p * (last_ full - first_ full) < at_ full (i + 1))%Q ->
  (t - inject_Z p * (last_ full - first_ full) == at_ full i)%Q.
Proof.
  intros full t i p OK L (j & m & J & _ & E) A B R. pose proof (inc_dir full ltac:(lia) (proj2 OK)) as D.
  pose proof (first_le full j OK J) as F. pose proof (le_last full j OK J) as G.
  pose proof (first_le full i OK ltac:(lia)) as F'. pose proof (le_last full (i + 1) OK ltac:(lia)) as G'.
  assert (X : (t - inject_Z p * (last_ full - first_ full) == at_ full j + inject_Z (m - p) * (last_ full - first_ full))%Q).
  { rewrite E. unfold Z.sub. rewrite inject_Z_plus, inject_Z_opp. ring. }
  set (T := (last_ full - first_ full)%Q) in *. assert (PT : (0 < T)%Q) by (unfold T; lra).
  destruct (Z.eq_dec (m - p) 0) as [Z|NZ].
  - rewrite Z in X. change (inject_Z 0) with 0%Q in X. assert (i = j) by (apply (cell_frame full i j _ OK A B J R); rewrite X; ring).
    subst j. rewrite X. ring.
  - assert (M1 : m - p = -1).
    { apply (mult_minus _ T PT). assert (K : (inject_Z (m - p) * T < T)%Q) by (unfold T in *; lra).
      assert (K' : (- (2) * T < inject_Z (m - p) * T)%Q) by (unfold T in *; lra).
      split; [exact K'|]. destruct (Qlt_le_dec (inject_Z (m - p) * T) 0) as [N|N]; [exact N|]. exfalso. apply NZ.
      apply (mult_small _ T PT). lra. }
    rewrite M1 in X. change (inject_Z (-1)) with (-1)%Q in X.
    assert (Z1 : (t - inject_Z p * T == first_ full)%Q) by (unfold T in *; lra).
    assert (i = 0) by (apply (cell_frame full i 0 _ OK A B ltac:(lia) R); exact Z1). subst i. exact Z1.
Qed.

Lemma frame_plain : forall full t, at_frame false full t -> exists j, 0 <= j < zlen full /\ (t == at_ full j)%Q.
Proof.
  intros full t (j & m & J & M & E). exists j. split; [exact J|]. rewrite (M eq_refl) in E. rewrite E. change (inject_Z 0) with 0%Q. ring.
Qed.

Lemma chunk_backward : forall per e full st t st' u next, axis_ok full -> 3 <= zlen full -> wok full st ->
  bwd_ok per e full (s_ti st) (s_periods st) t -> grid_chunk per e full st t (-1) = Chunk st' u next ->
  exists m, (per = false -> m = 0) /\ brackets full e (s_ti st') (t - inject_Z m * (last_ full - first_ full)) /\
    bwd_next per e full (s_ti st') m t next /\
    (if per then ((first_ full < t)%Q -> m = 0 /\ s_periods st' = 0) /\
                 ((t == first_ full)%Q -> s_ti st' = zlen full - 2 /\ m = -1 /\ (s_periods st' = 0 \/ s_periods st' = -1)) /\
                 (at_ full (s_ti st') < t - inject_Z m * (last_ full - first_ full))%Q
     else s_periods st' = 0).
Proof.
  intros per e full st t st' u next OK L W F H. unfold grid_chunk in H.
  destruct (tm_ends full OK) as (E0 & E1 & _). rewrite E0, E1 in H. clear E0 E1.
  pose proof (inc_dir full ltac:(lia) (proj2 OK)) as D.
  assert (RESET : (per = false -> (0 <= s_ti st)%Z -> (t < at_ full (s_ti st) \/ at_ full (s_ti st + 1) < t \/ t <= first_ full)%Q) ->
      (per = true -> (t == first_ full)%Q -> s_periods st = 0) ->
      match chunk_reset per e full (first_ full) (last_ full) st t (-1) with
      | inl (st', _, local) =>
          match chunk_next e full (first_ full) (last_ full) (s_ti st') (s_time st') local (-1) with
          | Some next => Chunk st' u next
          | None => ChunkBad
          end
      | inr true => ChunkExtrap
      | inr false => ChunkBad
      end = Chunk st' u next ->
    exists m, (per = false -> m = 0) /\ brackets full e (s_ti st') (t - inject_Z m * (last_ full - first_ full)) /\
    bwd_next per e full (s_ti st') m t next /\
    (if per then ((first_ full < t)%Q -> m = 0 /\ s_periods st' = 0) /\
                 ((t == first_ full)%Q -> s_ti st' = zlen full - 2 /\ m = -1 /\ (s_periods st' = 0 \/ s_periods st' = -1)) /\
                 (at_ full (s_ti st') < t - inject_Z m * (last_ full - first_ full))%Q
     else s_periods st' = 0)).
  { clear H. intros WHY WHY0 H. unfold chunk_reset in H. change (-1 =? -1) with true in H. cbn [andb] in H. destruct per.
    - destruct F as (-> & FR & F1 & F2 & F3). destruct (ti_per full false t OK L) as (i & p & EQ & I1 & I2 & I3 & I4). rewrite EQ in H.
      assert (ST : (if stores true full t then p else s_periods st) = p).
      { destruct I4 as [(-> & _)|(-> & -> & A)]; [reflexivity|].
        destruct (Qlt_le_dec (first_ full) t) as [G|G]; [apply F2; exact G|]. apply WHY0; [reflexivity|lra]. }
      rewrite ST in H. pose proof (frame_reduced full t i p OK L FR I1 I2 I3) as RED.
      assert (P0 : (first_ full <= t)%Q -> p = 0).
      { intro G. destruct I4 as [(_ & [A|A])|(_ & -> & _)]; [exfalso; lra|exfalso; lra|reflexivity]. }
      destruct (Z.eqb_spec i 0) as [->|NZ]; cbn [andb] in H.
      + unfold qeqb in H. assert (QB : Qeq_bool (t - inject_Z p * (last_ full - first_ full)) (first_ full) = true) by (apply Qeq_bool_iff; exact RED).
        rewrite QB in H. cbn [andb] in H. destruct (Z.ltb_spec 0 (zlen full - 1)); [|lia].
        destruct (Z.leb_spec (zlen full - 1) (zlen full - 1 - 1)); [lia|].
        rewrite (slice2_in full (zlen full - 1 - 1)) in H by lia. cbn [s_ti s_time] in H.
        pose proof (at_step full (zlen full - 1 - 1) OK ltac:(lia) ltac:(lia)) as ST2.
        replace (zlen full - 1 - 1 + 1) with (zlen full - 1) in ST2 by lia. fold (last_ full) in ST2.
        change (at_ full 0) with (first_ full) in RED.
        assert (R1 : (t - inject_Z (p - 1) * (last_ full - first_ full) == last_ full)%Q).
        { unfold Z.sub. rewrite inject_Z_plus. change (inject_Z (- (1))) with (-1)%Q.
          generalize dependent (inject_Z p). intros ip. lra. }
        destruct (next_backward true false full (zlen full - 1 - 1) (p - 1) ltac:(lia) ltac:(lia) t) as (n & N & FN).
        { left. generalize dependent (inject_Z (p - 1)). intros ip. lra. }
        { intros _. left. generalize dependent (inject_Z (p - 1)). intros ip. lra. }
        rewrite N in H. injection H as <- <-. cbn [s_ti s_periods]. exists (p - 1). split; [discriminate|].
        split; [|split; [exact FN|]].
        * unfold brackets. replace (zlen full - 1 - 1 + 1) with (zlen full - 1) by lia. fold (last_ full). split; left; lra.
        * split; [|split].
          -- intro G. exfalso. rewrite (P0 ltac:(lra)) in RED. rewrite z0 in RED. lra.
          -- intro G. rewrite (P0 ltac:(lra)). split; [lia|]. split; [reflexivity|]. left. reflexivity.
          -- lra.
      + destruct (Z.ltb_spec 0 i); [|lia]. destruct (Z.leb_spec (zlen full - 1) (i - 1)); [lia|].
        rewrite (slice2_in full (i - 1)) in H by lia. cbn [s_ti s_time] in H.
        pose proof (at_step full (i - 1) OK ltac:(lia) ltac:(lia)) as ST2. replace (i - 1 + 1) with i in ST2 by lia.
        destruct (next_backward true false full (i - 1) p ltac:(lia) ltac:(lia) t) as (n & N & FN); [left; lra|intros _; left; lra|].
        rewrite N in H. injection H as <- <-. cbn [s_ti s_periods]. exists p. split; [discriminate|].
        split; [|split; [exact FN|]].
        * unfold brackets. replace (i - 1 + 1) with i by lia. split; left; lra.
        * split; [|split].
          -- intro G. split; apply P0; lra.
          -- intro G. exfalso. pose proof (P0 ltac:(lra)) as PZ. subst p. rewrite z0 in RED.
             pose proof (first_le full (i - 1) OK ltac:(lia)). lra.
          -- lra.
    - destruct F as (F & GD). destruct (ti_nonper full e t OK L) as [(EQ & _)|(i & EQ & C)]; rewrite EQ in H; [discriminate|].
      unfold stores in H. rewrite F in H. rewrite !andb_false_r in H. cbn [andb] in H.
      set (i2 := if 0 <? i then i - 1 else i) in *.
      set (i3 := if zlen full - 1 <=? i2 then zlen full - 2 else i2) in *.
      assert (I3 : 0 <= i3 /\ i3 + 1 < zlen full /\ i3 = if 0 <? i then i - 1 else i).
      { unfold i3, i2. destruct C as [(-> & _)|[(-> & _)|(A & B & _)]];
          match goal with |- context [0 <? ?b] => destruct (Z.ltb_spec 0 b) end;
          match goal with |- context [?a <=? ?b] => destruct (Z.leb_spec a b) end; lia. }
      destruct I3 as (R1 & R2 & R3).
      rewrite (slice2_in full i3) in H by assumption. cbn [s_ti s_time] in H.
      assert (BR : ((at_ full i3 <= t)%Q \/ e = true /\ i3 = 0) /\ ((t <= at_ full (i3 + 1))%Q \/ e = true /\ i3 + 2 = zlen full)).
      { rewrite R3. destruct C as [(-> & A & B)|[(-> & A & B)|(A & B & C)]].
        - destruct (Z.ltb_spec 0 (zlen full - 1)); [|lia]. replace (zlen full - 1 - 1 + 1) with (zlen full - 1) by lia.
          pose proof (le_last full (zlen full - 1 - 1) OK ltac:(lia)).
          split; [left; lra|]. destruct B as [B|B]; [right; split; [exact B|lia]|left; unfold last_ in B; lra].
        - change (0 <? 0) with false. cbv iota. split; [right; tauto|]. left.
          pose proof (first_le full 1 OK ltac:(lia)) as G. change (0 + 1) with 1. lra.
        - destruct (Z.ltb_spec 0 i) as [P|P].
          + replace (i - 1 + 1) with i by lia. pose proof (at_step full (i - 1) OK ltac:(lia) ltac:(lia)) as ST2.
            replace (i - 1 + 1) with i in ST2 by lia. enough (EQT : (t == at_ full i)%Q) by (split; left; lra).
            assert (FI : (first_ full < at_ full i)%Q) by (apply (proj2 OK); lia).
            destruct GD as [GD|[GD|[GD|(GD1 & GD2)]]].
            * destruct (frame_plain _ _ GD) as (j & J & EJ). rewrite (cell_frame full i j t OK A B J C EJ). exact EJ.
            * pose proof (inc_le full 1 i (proj2 OK) ltac:(lia) ltac:(lia)) as G1. pose proof (proj1 C). lra.
            * exfalso. pose proof (le_last full (i + 1) OK ltac:(lia)). lra.
            * exfalso. destruct (WHY eq_refl GD1) as [G|[G|G]]; lra.
          + replace i with 0 in * by lia. split; left; lra. }
      destruct (next_backward false e full i3 0 R1 R2 t) as (n & N & FN).
      { destruct (proj1 BR) as [G|G]; [left; change (inject_Z 0) with 0%Q; lra|right; exact G]. }
      { intro X. change (inject_Z 0) with 0%Q. rewrite R3. destruct C as [(-> & A & B)|[(-> & A & B)|(A & B & C)]].
        - destruct (Z.ltb_spec 0 (zlen full - 1)); [|lia]. left.
          pose proof (at_step full (zlen full - 1 - 1) OK ltac:(lia) ltac:(lia)) as G. replace (zlen full - 1 - 1 + 1) with (zlen full - 1) in G by lia.
          fold (last_ full) in G. lra.
        - right. split; [exact B|reflexivity].
        - destruct (Z.ltb_spec 0 i) as [P|P].
          + left. pose proof (at_step full (i - 1) OK ltac:(lia) ltac:(lia)) as G. replace (i - 1 + 1) with i in G by lia. lra.
          + replace i with 0 in * by lia. destruct X as [X|[X|X]]; [discriminate|right; split; [exact X|reflexivity]|left].
            change (at_ full 0) with (first_ full). lra. }
      rewrite N in H. injection H as <- <-. cbn [s_ti s_periods]. exists 0. split; [reflexivity|].
      split; [|split; [exact FN|reflexivity]]. unfold brackets. rewrite z0. exact BR. }
  destruct W as [(W1 & W2)|(W1 & W2 & W3)].
  - rewrite W1 in H. change (0 <=? -1) with false in H. cbv iota in H. change (-1 =? -1) with true in H. cbv iota zeta in H.
    apply RESET.
    + intros _ G. rewrite W1 in G. lia.
    + intros -> G. destruct F as (_ & _ & _ & _ & F). destruct (F G) as [F'|(_ & F')]; [exact F'|rewrite W1 in F'; lia].
    + destruct (chunk_reset per e full (first_ full) (last_ full) st t (-1)) as [[[st1 u1] local]|b]; [|exact H].
      destruct (chunk_next _ _ _ _ _ _ _ _) as [n|] in H |- *; [|discriminate]. injection H as <- <- <-. reflexivity.
  - destruct (Z.leb_spec 0 (s_ti st)); [|lia]. rewrite W3 in H. unfold win at 1 2 in H.
    change (pyget [at_ full (s_ti st); at_ full (s_ti st + 1)] 0) with (Some (at_ full (s_ti st))) in H.
    change (pyget [at_ full (s_ti st); at_ full (s_ti st + 1)] 1) with (Some (at_ full (s_ti st + 1))) in H.
    destruct (chunk_move full (first_ full) (last_ full) (at_ full (s_ti st)) (at_ full (s_ti st + 1)) st t (-1)) as [[[ti tm] u1]|] eqn:M;
      cbv iota zeta in H; [|discriminate].
    destruct (move_backward _ _ _ _ _ _ OK L W1 W2 W3 M) as [(-> & WHY)|(P1 & P2 & -> & P4 & P3)].
    + change (-1 =? -1) with true in H. cbv iota in H. apply RESET.
      * intros -> _. destruct F as (F & _). rewrite F in WHY. rewrite !z0 in WHY. exact WHY.
      * intros -> G. destruct F as (_ & _ & _ & _ & F). destruct (F G) as [F'|(F1 & F2)]; [exact F'|]. exfalso.
        rewrite F1 in WHY. change (inject_Z (-1)) with (-1)%Q in WHY. rewrite F2 in WHY.
        replace (zlen full - 2 + 1) with (zlen full - 1) in WHY by lia. fold (last_ full) in WHY.
        pose proof (at_step full (zlen full - 2) OK ltac:(lia) ltac:(lia)) as ST2.
        replace (zlen full - 2 + 1) with (zlen full - 1) in ST2 by lia. fold (last_ full) in ST2. lra.
      * destruct (chunk_reset per e full (first_ full) (last_ full) st t (-1)) as [[[st1 u2] local]|b]; [|exact H].
        destruct (chunk_next _ _ _ _ _ _ _ _) as [n|] in H |- *; [|discriminate]. injection H as <- <- <-. reflexivity.
    + destruct (Z.eqb_spec ti (-1)); [lia|]. cbn [s_ti s_time] in H.
      destruct (next_backward per e full ti (s_periods st) P1 P2 t) as (n' & N & FN); [left; lra|intros _; left; lra|]. rewrite N in H.
      injection H as <- <- <-. cbn [s_ti s_periods]. exists (s_periods st).
      split; [intros ->; exact (proj1 F)|]. split; [unfold brackets; lra|]. split; [exact FN|].
      destruct per; [|exact (proj1 F)]. destruct F as (_ & _ & F1 & F2 & F3).
      split; [intro G; split; apply F2; exact G|]. split; [|lra]. intro G.
      destruct (F3 G) as [Z|(Z & TI)].
      * exfalso. rewrite Z in P3. rewrite z0 in P3. pose proof (first_le full ti OK ltac:(lia)). lra.
      * rewrite Z in *. change (inject_Z (-1)) with (-1)%Q in *. assert (EL : (t - -1 * (last_ full - first_ full) == last_ full)%Q) by lra.
        split; [|split; [reflexivity|right; reflexivity]].
        assert (NL : (last_ full <= at_ full (ti + 1))%Q) by lra.
        destruct (Z.eq_dec (ti + 1) (zlen full - 1)) as [X|X]; [lia|].
        pose proof (proj2 OK (ti + 1) (zlen full - 1) ltac:(lia) ltac:(lia)) as Y. fold (last_ full) in Y. exfalso. lra.
Qed.
