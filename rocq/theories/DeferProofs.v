(** Proofs about deferred loading: the values held are those of the frames of the window. *)
From Coq Require Import List ZArith Bool QArith Qround Lia Lqa.
From Verif Require Import IdxModel IdxSpec IdxProofs TimeModel TimeProofs DeferModel DeferSpec.
Import ListNotations.
Open Scope Z_scope.

(** ** Reading a frame of the files *)
Lemma zlen_app : forall A (l l' : list A), zlen (l ++ l') = zlen l + zlen l'.
Proof. intros. unfold zlen. rewrite app_length. lia. Qed.

Lemma at_app_l : forall l l' i, 0 <= i < zlen l -> at_ (l ++ l') i = at_ l i.
Proof. intros l l' i R. unfold at_, zlen in *. apply app_nth1. lia. Qed.
Lemma at_app_r : forall l l' i, zlen l <= i -> at_ (l ++ l') i = at_ l' (i - zlen l).
Proof. intros l l' i R. unfold at_, zlen in *. rewrite app_nth2 by lia. f_equal. lia. Qed.

Lemma names_length : forall files n, length (names_from n files) = length (concat files).
Proof. induction files as [|ts r IH]; intro n; cbn; [reflexivity|]. rewrite !app_length, repeat_length, IH. reflexivity. Qed.

Lemma increasing_app_l : forall l l', increasing (l ++ l') -> increasing l.
Proof.
  intros l l' I i j A B. assert (zlen l <= zlen (l ++ l')) by (rewrite zlen_app; pose proof (zlen_nonneg _ l'); lia).
  rewrite <- (at_app_l l l' i), <- (at_app_l l l' j) by lia. apply I; lia.
Qed.
Lemma increasing_app_r : forall l l', increasing (l ++ l') -> increasing l'.
Proof.
  intros l l' I i j A B. pose proof (zlen_nonneg _ l).
  replace (at_ l' i) with (at_ (l ++ l') (i + zlen l)) by (rewrite at_app_r by lia; f_equal; lia).
  replace (at_ l' j) with (at_ (l ++ l') (j + zlen l)) by (rewrite at_app_r by lia; f_equal; lia).
  apply I; rewrite ?zlen_app; lia.
Qed.

(** The position found in a file for one of its own times. *)
Lemma own_position : forall ts k, increasing ts -> 0 <= k < zlen ts ->
  let j := np_argmin (map (fun v => qle v (at_ ts k)) ts) - 1 in
  (if j <? 0 then j + zlen ts else j) = k.
Proof.
  intros ts k I R j. destruct (np_all (map (fun v => qle v (at_ ts k)) ts)) eqn:E.
  - assert (k = zlen ts - 1).
    { destruct (Z.eq_dec k (zlen ts - 1)) as [|NE]; [assumption|]. pose proof E as E'.
      rewrite np_all_map in E'. specialize (E' (k + 1) ltac:(lia)). apply qle_spec in E'.
      specialize (I k (k + 1) ltac:(lia) ltac:(lia)). exfalso. apply (Qlt_not_le _ _ I). exact E'. }
    assert (Z0 : np_argmin (map (fun v => qle v (at_ ts k)) ts) = 0).
    { unfold np_argmin. apply first_false_none in E. rewrite E. reflexivity. }
    unfold j. rewrite Z0. change (0 - 1 <? 0) with true. cbv iota. lia.
  - destruct (np_argmin_map _ _ E) as (A & B & C).
    assert (G : np_argmin (map (fun v => qle v (at_ ts k)) ts) = k + 1).
    { set (a := np_argmin (map (fun v : Q => qle v (at_ ts k)) ts)) in *.
      apply qle_false in B. destruct (Z.lt_trichotomy a (k + 1)) as [L|[G|G]]; [|exact G|].
      - pose proof (inc_le ts a k I ltac:(lia) ltac:(lia)) as M. exfalso. apply (Qlt_not_le _ _ B). exact M.
      - specialize (C (k + 1) ltac:(lia)). apply qle_spec in C. specialize (I k (k + 1) ltac:(lia) ltac:(lia)).
        exfalso. apply (Qlt_not_le _ _ I). exact C. }
    unfold j. rewrite G. replace (k + 1 - 1) with k by lia. destruct (Z.ltb_spec k 0); lia.
Qed.

Lemma read_from : forall V (content : nat -> Z -> V) files n k, increasing (concat files) -> 0 <= k < zlen (concat files) ->
  exists fi, nth_error (names_from n files) (Z.to_nat k) = Some (n + fi)%nat /\
    (let ts := nth fi files [] in
     let j := np_argmin (map (fun v => qle v (at_ (concat files) k)) ts) - 1 in
     let j' := if j <? 0 then j + zlen ts else j in
     0 <= j' < zlen ts /\ frame_from n files content k = Some (content (n + fi)%nat j')).
Proof.
  induction files as [|ts r IH]; intros n k I R; [cbn in R; lia|]. cbn [concat names_from frame_from] in *. rewrite zlen_app in R.
  destruct (Z.ltb_spec k (zlen ts)) as [L|L].
  - exists O. rewrite Nat.add_0_r. cbn [nth]. split.
    + rewrite nth_error_app1 by (rewrite repeat_length; unfold zlen in L; lia).
      rewrite (nth_error_nth' _ n) by (rewrite repeat_length; unfold zlen in L; lia). f_equal. apply nth_repeat.
    + cbv zeta. rewrite at_app_l by lia. rewrite (own_position ts k (increasing_app_l _ _ I) ltac:(lia)). split; [lia|reflexivity].
  - destruct (IH (S n) (k - zlen ts) (increasing_app_r _ _ I) ltac:(lia)) as (fi & A & B).
    exists (S fi). split.
    + rewrite nth_error_app2 by (rewrite repeat_length; unfold zlen in *; lia). rewrite repeat_length.
      replace (Z.to_nat k - length ts)%nat with (Z.to_nat (k - zlen ts)) by (unfold zlen; lia).
      rewrite A. f_equal. lia.
    + cbn [nth]. rewrite (at_app_r ts (concat r) k) by lia. cbv zeta in *. replace (n + S fi)%nat with (S n + fi)%nat by lia. exact B.
Qed.

Lemma full_nth : forall se k, 0 <= k < frames_in_files se -> at_ (time_full se) k = at_ (concat (se_files se)) k.
Proof.
  intros se k R. unfold time_full, frames_in_files in *. destruct (se_added se); [|reflexivity].
  destruct (concat (se_files se)); [reflexivity|]. apply at_app_l. exact R.
Qed.
Lemma full_len : forall se, series_ok se ->
  zlen (time_full se) = frames_in_files se + match se_added se with Some _ => 1 | None => 0 end.
Proof.
  intros se (_ & L & _). unfold time_full, frames_in_files in *. destruct (se_added se); [|lia].
  destruct (concat (se_files se)); [cbn in L; lia|]. rewrite zlen_app. reflexivity.
Qed.
Lemma concat_increasing : forall se, series_ok se -> increasing (concat (se_files se)).
Proof.
  intros se ((_ & I) & _). unfold time_full in I. destruct (se_added se); [|exact I].
  destruct (concat (se_files se)) eqn:E; [exact I|]. exact (increasing_app_l _ _ I).
Qed.

Lemma nth_error_names : forall se k, 0 <= k < frames_in_files se ->
  nth_error (data_files se) (Z.to_nat k) = nth_error (names_from 0 (se_files se)) (Z.to_nat k).
Proof.
  intros se k R. unfold data_files, frames_in_files, zlen in *. destruct (se_added se); [|reflexivity].
  apply nth_error_app1. rewrite names_length. lia.
Qed.

(** The frame read for a position of the series and its time is the frame of the series. *)
Lemma read_right : forall V se (content : nat -> Z -> V) k, series_ok se -> added_ok se -> 0 <= k < zlen (time_full se) ->
  exists v, read_frame V se content k (at_ (time_full se) k) = Some v /\ frame se content k = Some v.
Proof.
  intros V se content k OK AD R. pose proof (concat_increasing _ OK) as I. rewrite (full_len _ OK) in R.
  destruct (Z.eq_dec k (frames_in_files se)) as [E|NE].
  - destruct (se_added se) as [p|] eqn:A; [|lia]. destruct AD as [AD|AD]; [congruence|].
    destruct OK as ((_ & IF) & L & NF). generalize (at_ (time_full se) k) as w. intro w. unfold read_frame, frame, data_files, time_full, frames_in_files in *. rewrite A in *.
    destruct (Z.ltb_spec k 0); [lia|]. destruct (se_files se) as [|ts r]; [exfalso; apply NF; reflexivity|]. cbn [nth] in AD, NF.
    destruct ts as [|a ts]; [exfalso; apply NF; reflexivity|]. destruct ts as [|]; [|unfold zlen in AD; cbn in AD; lia].
    rewrite nth_error_app2 by (rewrite names_length; unfold zlen in E; lia). rewrite names_length.
    replace (Z.to_nat k - length (concat ([a] :: r)))%nat with O by (unfold zlen in E; lia).
    cbn -[np_argmin]. rewrite E, Z.eqb_refl.
    unfold np_argmin. cbn [map first_false].
    destruct (qle a w); cbn; eexists; split; reflexivity.
  - destruct (read_from V content (se_files se) 0 k I) as (fi & A & B & C).
    { unfold frames_in_files in *. destruct (se_added se); lia. }
    assert (R' : 0 <= k < frames_in_files se) by (destruct (se_added se); lia).
    cbv zeta in *. eexists. split.
    + unfold read_frame. destruct (Z.ltb_spec k 0); [lia|]. rewrite (nth_error_names _ _ R'), A. rewrite (full_nth _ _ R').
      rewrite Nat.add_0_l in *. match goal with |- (if ?b then _ else _) = _ => replace b with true end; [reflexivity|].
      symmetry. apply andb_true_intro. split; [apply Z.leb_le|apply Z.ltb_lt]; tauto.
    + unfold frame. destruct (se_added se); [destruct (Z.eqb_spec k (frames_in_files se)); [lia|]|]; exact C.
Qed.

(** ** The window *)
Definition win (full : list Q) (i : Z) : list Q := [at_ full i; at_ full (i + 1)].
Definition wok (full : list Q) (st : gstate) : Prop :=
  (s_ti st = -1 /\ s_time st = full) \/ (0 <= s_ti st /\ s_ti st + 1 < zlen full /\ s_time st = win full (s_ti st)).

Lemma slice2_in : forall l i, 0 <= i -> i + 1 < zlen l -> slice2 l i = Some (win l i).
Proof.
  intros l i A B. unfold slice2. destruct (Z.ltb_spec i 0); [lia|]. f_equal. unfold win, at_, zlen in *.
  replace (Z.to_nat (i + 1)) with (S (Z.to_nat i)) by lia. assert (S (Z.to_nat i) < length l)%nat by lia.
  generalize dependent (Z.to_nat i). clear. intro n. revert l. induction n as [|n IH]; intros l H.
  - destruct l as [|a [|b l]]; cbn in H; try lia. reflexivity.
  - destruct l as [|a l]; cbn in H; [lia|]. cbn [skipn nth]. apply IH. lia.
Qed.

Lemma ti_nonper : forall full e t, axis_ok full -> 3 <= zlen full ->
  (py_time_index false e full (first_ full) (last_ full) t = TExtrap /\ e = false /\ (t < first_ full \/ last_ full < t)%Q) \/
  exists i, py_time_index false e full (first_ full) (last_ full) t = TAt i 0 /\
    ((i = zlen full - 1 /\ (last_ full <= t)%Q /\ (e = true \/ last_ full == t)%Q) \/
     (i = 0 /\ (t < first_ full)%Q /\ e = true) \/
     (0 <= i /\ i + 1 < zlen full /\ (at_ full i <= t < at_ full (i + 1))%Q)).
Proof.
  intros full e t OK L. destruct (tm_ends full OK) as (E0 & E1 & _). unfold py_time_index. rewrite E0, E1. cbn [negb andb].
  destruct (negb e && (qlt t (first_ full) || qlt (last_ full) t)) eqn:X.
  - left. apply andb_true_iff in X. destruct X as [X Y]. split; [reflexivity|]. split; [destruct e; [discriminate|reflexivity]|].
    apply orb_true_iff in Y. destruct Y as [Y|Y]; apply qlt_spec in Y; tauto.
  - right. destruct (np_all (map (fun v : Q => qle v t) full)) eqn:A.
    + exists (zlen full - 1). split; [reflexivity|]. left. split; [reflexivity|]. pose proof A as A'. rewrite np_all_map in A'.
      specialize (A' (zlen full - 1) ltac:(lia)). apply qle_spec in A'. split; [exact A'|].
      destruct e; [left; reflexivity|]. right. cbn in X. apply orb_false_iff in X. destruct X as [_ X]. apply qlt_false in X.
      apply Qle_antisym; assumption.
    + destruct (np_all (map negb (map (fun v : Q => qle v t) full))) eqn:B.
      * exists 0. split; [reflexivity|]. right. left. split; [reflexivity|]. rewrite np_all_negb in B. specialize (B 0 ltac:(lia)).
        apply qle_false in B. split; [exact B|]. destruct e; [reflexivity|]. cbn in X. apply orb_false_iff in X. destruct X as [X _].
        apply qlt_false in X. exfalso. apply (Qlt_not_le _ _ B). exact X.
      * assert (F : (first_ full <= t)%Q).
        { destruct (Qlt_le_dec t (first_ full)) as [G|G]; [|exact G]. exfalso.
          enough (np_all (map negb (map (fun v : Q => qle v t) full)) = true) by congruence.
          apply np_all_negb. intros i R. apply qle_false. eapply Qlt_le_trans; [exact G|].
          apply inc_le; [apply OK|lia|lia]. }
        assert (S : (t < last_ full)%Q).
        { destruct (Qlt_le_dec t (last_ full)) as [G|G]; [exact G|]. exfalso.
          enough (np_all (map (fun v : Q => qle v t) full) = true) by congruence.
          apply np_all_map. intros i R. apply qle_spec. eapply Qle_trans; [|exact G]. apply inc_le; [apply OK|lia|lia]. }
        destruct (inner_spec full t OK F S) as (i & EI & I1 & I2 & I3). exists i. rewrite EI. split; [reflexivity|].
        right. right. tauto.
Qed.

Lemma ti_per : forall full e t, axis_ok full -> 3 <= zlen full ->
  let T := (last_ full - first_ full)%Q in
  exists i p, py_time_index true e full (first_ full) (last_ full) t = TAt i p /\
    0 <= i /\ i + 1 < zlen full /\ (at_ full i <= t - inject_Z p * T < at_ full (i + 1))%Q /\
    ((stores true full t = true) /\ (t < first_ full \/ last_ full <= t)%Q \/
     (stores true full t = false) /\ p = 0 /\ (first_ full <= t < last_ full)%Q).
Proof.
  intros full e t OK L T. destruct (tm_ends full OK) as (E0 & E1 & _). unfold py_time_index. rewrite E0, E1. cbn [negb andb].
  pose proof (inc_dir full ltac:(lia) (proj2 OK)) as D.
  unfold stores. cbn [andb].
  destruct (np_all (map (fun v : Q => qle v t) full) || np_all (map negb (map (fun v : Q => qle v t) full))) eqn:X.
  - destruct (Qeq_bool (last_ full) (first_ full)) eqn:Z. { apply Qeq_bool_iff in Z. rewrite Z in D. exfalso. apply (Qlt_irrefl _ D). }
    destruct (floor_wrap t (first_ full) (last_ full) D) as (W1 & W2).
    destruct (inner_spec full _ OK W1 W2) as (i & EI & I1 & I2 & I3).
    exists i, (Qfloor ((t - first_ full) / (last_ full - first_ full))). rewrite EI. split; [reflexivity|].
    split; [exact I1|]. split; [exact I2|]. split; [exact I3|]. left. split; [reflexivity|].
    apply orb_true_iff in X. destruct X as [X|X].
    + right. rewrite np_all_map in X. specialize (X (zlen full - 1) ltac:(lia)). apply qle_spec in X. exact X.
    + left. rewrite np_all_negb in X. specialize (X 0 ltac:(lia)). apply qle_false in X. exact X.
  - apply orb_false_iff in X. destruct X as [A B].
    assert (F : (first_ full <= t)%Q).
    { destruct (Qlt_le_dec t (first_ full)) as [G|G]; [|exact G]. exfalso.
      enough (np_all (map negb (map (fun v : Q => qle v t) full)) = true) by congruence.
      apply np_all_negb. intros i R. apply qle_false. eapply Qlt_le_trans; [exact G|].
      apply inc_le; [apply OK|lia|lia]. }
    assert (S : (t < last_ full)%Q).
    { destruct (Qlt_le_dec t (last_ full)) as [G|G]; [exact G|]. exfalso.
      enough (np_all (map (fun v : Q => qle v t) full) = true) by congruence.
      apply np_all_map. intros i R. apply qle_spec. eapply Qle_trans; [|exact G]. apply inc_le; [apply OK|lia|lia]. }
    destruct (inner_spec full t OK F S) as (i & EI & I1 & I2 & I3). exists i, 0. rewrite EI. split; [reflexivity|].
    split; [exact I1|]. split; [exact I2|]. split.
    + setoid_replace (t - inject_Z 0 * T)%Q with t by (change (inject_Z 0) with 0%Q; ring). exact I3.
    + right. tauto.
Qed.

Lemma ti_range : forall per e full t i p, axis_ok full -> 3 <= zlen full ->
  py_time_index per e full (first_ full) (last_ full) t = TAt i p -> 0 <= i < zlen full.
Proof.
  intros per e full t i p OK L H. destruct per.
  - destruct (ti_per full e t OK L) as (i' & p' & E & A & B & _). rewrite E in H. injection H as <- <-. lia.
  - destruct (ti_nonper full e t OK L) as [(E & _)|(i' & E & C)]; rewrite E in H; [discriminate|]. injection H as <- <-.
    destruct C as [(-> & _)|[(-> & _)|(A & B & _)]]; lia.
Qed.

Lemma at_inj : forall l i j, increasing l -> 0 <= i < zlen l -> 0 <= j < zlen l -> (at_ l i == at_ l j)%Q -> i = j.
Proof.
  intros l i j I A B E. destruct (Z.lt_trichotomy i j) as [G|[G|G]]; [|exact G|].
  - specialize (I i j ltac:(lia) ltac:(lia)). rewrite E in I. exfalso. apply (Qlt_irrefl _ I).
  - specialize (I j i ltac:(lia) ltac:(lia)). rewrite E in I. exfalso. apply (Qlt_irrefl _ I).
Qed.

Definition moved (full : list Q) (st st' : gstate) (u : status) (sgn : Z) : Prop :=
  0 <= s_ti st' /\ s_ti st' + 1 < zlen full /\ s_time st' = win full (s_ti st') /\
  match u with
  | NotUpdated => s_ti st = s_ti st' /\ s_time st = s_time st'
  | Updated => 0 <= s_ti st /\ s_ti st' = s_ti st + (if 0 <=? sgn then 1 else -1)
  | FirstUpdated => True
  end.

Lemma move_ok : forall full st t sgn ti tm u, 3 <= zlen full ->
  0 <= s_ti st -> s_ti st + 1 < zlen full -> s_time st = win full (s_ti st) ->
  chunk_move full (first_ full) (last_ full) (at_ full (s_ti st)) (at_ full (s_ti st + 1)) st t sgn = Some (ti, tm, u) ->
  ti = -1 \/ 0 <= ti /\ moved full st {| s_ti := ti; s_time := tm; s_periods := s_periods st |} u sgn.
Proof.
  intros full st t sgn ti tm u L A B C H. unfold chunk_move in H.
  destruct (_ || _) in H; [injection H as <- <- <-; left; reflexivity|].
  destruct (_ && (_ || _)) in H; [injection H as <- <- <-; left; reflexivity|].
  destruct (_ && (_ || _)) in H; [injection H as <- <- <-; left; reflexivity|].
  destruct ((0 <=? sgn) && _ && (s_ti st <? zlen full - 2)) eqn:F in H.
  - apply andb_true_iff in F. destruct F as [F G]. apply andb_true_iff in F. destruct F as [F _]. apply Z.ltb_lt in G.
    rewrite (slice2_in full (s_ti st + 1)) in H by lia. injection H as <- <- <-. right. split; [lia|].
    unfold moved. cbn [s_ti s_time]. rewrite F. split; [lia|]. split; [lia|]. split; [reflexivity|]. lia.
  - destruct ((sgn <? 0) && _ && (0 <? s_ti st)) eqn:G in H.
    + apply andb_true_iff in G. destruct G as [G K]. apply andb_true_iff in G. destruct G as [G _]. apply Z.ltb_lt in K, G.
      rewrite (slice2_in full (s_ti st - 1)) in H by lia. injection H as <- <- <-. right. split; [lia|].
      unfold moved. cbn [s_ti s_time]. destruct (Z.leb_spec 0 sgn); [lia|]. split; [lia|]. split; [lia|]. split; [reflexivity|]. lia.
    + injection H as <- <- <-. right. split; [lia|]. unfold moved. cbn [s_ti s_time]. tauto.
Qed.

Lemma reset_ok : forall per e full st t sgn st' u local, axis_ok full -> 3 <= zlen full -> wok full st ->
  chunk_reset per e full (first_ full) (last_ full) st t sgn = inl (st', u, local) -> moved full st st' u sgn.
Proof.
  intros per e full st t sgn st' u local OK L W H. unfold chunk_reset in H.
  destruct (py_time_index per e full (first_ full) (last_ full) t) as [i p| |] eqn:E; [|discriminate|discriminate].
  pose proof (ti_range _ _ _ _ _ _ OK L E) as R.
  set (stored := if stores per full t then p else s_periods st) in *.
  set (wrap := (sgn =? -1) && (i =? 0) && qeqb (t - inject_Z stored * (last_ full - first_ full)) (first_ full) && per) in *.
  set (i1 := if wrap then zlen full - 1 else i) in *.
  set (i2 := if (sgn =? -1) && (0 <? i1) then i1 - 1 else i1) in *.
  set (i3 := if zlen full - 1 <=? i2 then zlen full - 2 else i2) in *.
  assert (R1 : 0 <= i1 < zlen full) by (unfold i1; destruct wrap; lia).
  assert (R2 : 0 <= i2 < zlen full) by (unfold i2; destruct (Z.ltb_spec 0 i1); destruct (sgn =? -1); cbn; lia).
  assert (R3 : 0 <= i3 /\ i3 + 1 < zlen full) by (unfold i3; destruct (Z.leb_spec (zlen full - 1) i2); lia).
  rewrite (slice2_in full i3) in H by lia. injection H as <- <- <-. unfold moved. cbn [s_ti s_time].
  split; [lia|]. split; [lia|]. split; [reflexivity|].
  destruct W as [(W1 & W2)|(W1 & W2 & W3)].
  - rewrite W2. destruct (Z.eqb_spec (zlen full) 2); [lia|]. exact I.
  - rewrite W3. change (zlen (win full (s_ti st)) =? 2) with true. change (zlen (win full i3)) with (zlen (win full (s_ti st))).
    rewrite Z.eqb_refl. cbn [negb orb]. unfold win at 1 2 4. cbn [eq_times firstn].
    unfold qeqb. destruct (Qeq_bool (at_ full i3) (at_ full (s_ti st))) eqn:Q; cbn [andb].
    + apply Qeq_bool_iff in Q. apply at_inj in Q; [|apply OK|lia|lia]. rewrite Q.
      rewrite (proj2 (Qeq_bool_iff _ _) (Qeq_refl _)). cbn [andb]. split; reflexivity.
    + exact I.
Qed.

Lemma chunk_status : forall per e full st t sgn st' u next, axis_ok full -> 3 <= zlen full -> wok full st ->
  grid_chunk per e full st t sgn = Chunk st' u next -> moved full st st' u sgn.
Proof.
  intros per e full st t sgn st' u next OK L W H. unfold grid_chunk in H.
  destruct (tm_ends full OK) as (E0 & E1 & _). rewrite E0, E1 in H. pose proof W as W'.
  destruct W as [(W1 & W2)|(W1 & W2 & W3)].
  - rewrite W1 in H. change (0 <=? -1) with false in H. cbv iota in H. change (-1 =? -1) with true in H. cbv iota zeta in H.
    destruct (chunk_reset per e full (first_ full) (last_ full) st t sgn) as [[[st1 u1] local]|b] eqn:R; [|destruct b; discriminate].
    destruct (chunk_next _ _ _ _ _ _ _ _) as [n|] in H; [|discriminate]. injection H as <- <- <-.
    exact (reset_ok _ _ _ _ _ _ _ _ _ OK L W' R).
  - destruct (Z.leb_spec 0 (s_ti st)); [|lia]. rewrite W3 in H. unfold win at 1 2 in H.
    change (pyget [at_ full (s_ti st); at_ full (s_ti st + 1)] 0) with (Some (at_ full (s_ti st))) in H.
    change (pyget [at_ full (s_ti st); at_ full (s_ti st + 1)] 1) with (Some (at_ full (s_ti st + 1))) in H.
    destruct (chunk_move full (first_ full) (last_ full) (at_ full (s_ti st)) (at_ full (s_ti st + 1)) st t sgn) as [[[ti tm] u1]|] eqn:M;
      cbv iota zeta in H; [|discriminate].
    destruct (move_ok _ _ _ _ _ _ _ L W1 W2 W3 M) as [->|(P & M')].
    + change (-1 =? -1) with true in H. cbv iota in H.
      destruct (chunk_reset per e full (first_ full) (last_ full) st t sgn) as [[[st1 u2] local]|b] eqn:R; [|destruct b; discriminate].
      destruct (chunk_next _ _ _ _ _ _ _ _) as [n|] in H; [|discriminate]. injection H as <- <- <-.
      exact (reset_ok _ _ _ _ _ _ _ _ _ OK L W' R).
    + destruct (Z.eqb_spec ti (-1)); [lia|]. destruct (chunk_next _ _ _ _ _ _ _ _) as [n'|] in H; [|discriminate].
      injection H as <- <- <-. exact M'.
Qed.

(** ** The values in memory *)
Section Values.
Variable V : Type.
Notation dgrid := (dgrid V).

Definition full (g : dgrid) : list Q := time_full (d_series _ g).
Definition same (g g' : dgrid) : Prop := same_source g g'.
Definition held (g : dgrid) : Prop :=
  wok (full g) (d_state _ g) /\ (0 <= s_ti (d_state _ g) -> frames_are g (s_ti (d_state _ g))).

Lemma same_refl : forall g, same g g.
Proof. intro g. repeat split. Qed.
Lemma same_trans : forall g g' g'', same g g' -> same g' g'' -> same g g''.
Proof. intros g g' g'' (A & B & C & D) (A' & B' & C' & D'). repeat split; congruence. Qed.
Lemma same_ok : forall g g', same g g' -> grid_ok g -> grid_ok g'.
Proof. intros g g' (A & B & C & D) (E & F & G). unfold grid_ok. rewrite A, B, C. tauto. Qed.

Lemma series_len : forall se, series_ok se -> 3 <= zlen (time_full se).
Proof. intros se OK. rewrite (full_len _ OK). destruct OK as (_ & L & _). destruct (se_added se); lia. Qed.

Lemma load_one : forall se st st' u sgn f f', series_ok se -> added_ok se ->
  moved (time_full se) st st' u sgn ->
  (0 <= s_ti st -> exists a b, snd f = Some (a, b) /\ frame se (fst f) (s_ti st) = Some a /\ frame se (fst f) (s_ti st + 1) = Some b) ->
  load_field V se st' u sgn f = Some f' ->
  fst f' = fst f /\ exists a b, snd f' = Some (a, b) /\ frame se (fst f) (s_ti st') = Some a /\ frame se (fst f) (s_ti st' + 1) = Some b.
Proof.
  intros se st st' u sgn f f' OK AD (M1 & M2 & M3 & M4) P H. unfold load_field in H. rewrite M3 in H. unfold win in H.
  change (pyget [at_ (time_full se) (s_ti st'); at_ (time_full se) (s_ti st' + 1)] 0) with (Some (at_ (time_full se) (s_ti st'))) in H.
  change (pyget [at_ (time_full se) (s_ti st'); at_ (time_full se) (s_ti st' + 1)] 1) with (Some (at_ (time_full se) (s_ti st' + 1))) in H.
  cbv iota zeta in H.
  destruct (read_right V se (fst f) (s_ti st') OK AD ltac:(lia)) as (a & RA & FA).
  destruct (read_right V se (fst f) (s_ti st' + 1) OK AD ltac:(lia)) as (b & RB & FB).
  rewrite RA, RB in H. destruct u.
  - injection H as <-. destruct M4 as [M4 _]. rewrite <- M4 in *. split; [reflexivity|]. apply P. lia.
  - destruct M4 as [M4 M5]. destruct (P M4) as (x & y & E & Fx & Fy). rewrite E in H. destruct (0 <=? sgn).
    + injection H as <-. split; [reflexivity|]. cbn [fst snd]. exists y, b. split; [reflexivity|]. split; [rewrite M5; exact Fy|exact FB].
    + injection H as <-. split; [reflexivity|]. cbn [fst snd]. exists a, x. split; [reflexivity|]. split; [exact FA|].
      replace (s_ti st' + 1) with (s_ti st) by lia. exact Fx.
  - injection H as <-. split; [reflexivity|]. cbn [fst snd]. exists a, b. repeat split; assumption.
Qed.

Lemma load_list : forall se st st' u sgn fs fs', series_ok se -> added_ok se -> moved (time_full se) st st' u sgn ->
  (0 <= s_ti st -> Forall (fun f => exists a b, snd f = Some (a, b) /\ frame se (fst f) (s_ti st) = Some a /\ frame se (fst f) (s_ti st + 1) = Some b) fs) ->
  map_opt (load_field V se st' u sgn) fs = Some fs' ->
  map fst fs' = map fst fs /\
  Forall (fun f => exists a b, snd f = Some (a, b) /\ frame se (fst f) (s_ti st') = Some a /\ frame se (fst f) (s_ti st' + 1) = Some b) fs'.
Proof.
  intros se st st' u sgn fs. induction fs as [|f r IH]; intros fs' OK AD M P H; cbn [map_opt] in H.
  - injection H as <-. split; [reflexivity|constructor].
  - destruct (load_field V se st' u sgn f) as [f1|] eqn:E; [|discriminate].
    destruct (map_opt (load_field V se st' u sgn) r) as [r1|] eqn:E1; [|discriminate]. injection H as <-.
    destruct (load_one _ _ _ _ _ _ _ OK AD M (fun G => Forall_inv (P G)) E) as (A & B).
    destruct (IH r1 OK AD M (fun G => Forall_inv_tail (P G)) eq_refl) as (C & D).
    cbn [map]. rewrite A, C. split; [reflexivity|]. constructor; [rewrite A; exact B|exact D].
Qed.

(** What one request does to each grid. *)
Definition stepped (t : Q) (sgn : Z) (g g' : dgrid) : Prop :=
  same g g' /\ held g' /\ 0 <= s_ti (d_state _ g') /\
  exists u n, grid_chunk (d_periodic _ g) (d_extrapolate _ g) (full g) (d_state _ g) t sgn = Chunk (d_state _ g') u n /\
              (sgn <> 0 -> match n with Fin q => ~ (t == q)%Q | _ => True end).

Definition limit (sgn : Z) (a b : ext) : ext := if 0 <=? sgn then ext_min a b else ext_max a b.

Lemma all_steps : forall gs t sgn n0 us n gs', Forall grid_ok gs -> Forall held gs ->
  chunk_all V gs t sgn n0 = Ok (us, n) -> load_all V gs us sgn = Some gs' -> Forall2 (stepped t sgn) gs gs'.
Proof.
  induction gs as [|g r IH]; intros t sgn n0 us n gs' OK HE C H; cbn [chunk_all] in C.
  - injection C as <- <-. injection H as <-. constructor.
  - destruct (grid_chunk _ _ _ _ _ _) as [st u m| |] eqn:E in C; [|discriminate|discriminate].
    destruct (negb (sgn =? 0) && match m with Fin q => qeqb t q | _ => false end) eqn:X; [discriminate|].
    destruct (chunk_all V r t sgn _) as [[l n']| |] eqn:E1 in C; [|discriminate|discriminate]. injection C as <- <-.
    cbn [load_all] in H.
    destruct (map_opt (load_field V (d_series V g) st u sgn) (d_fields V g)) as [fs|] eqn:E2; [|discriminate].
    destruct (load_all V r l sgn) as [r1|] eqn:E3; [|discriminate]. injection H as <-.
    pose proof (Forall_inv OK) as (G1 & G2 & G3). pose proof (Forall_inv HE) as (H1 & H2).
    pose proof (chunk_status _ _ _ _ _ _ _ _ _ (proj1 G1) (series_len _ G1) H1 E) as M.
    destruct (load_list _ _ _ _ _ _ _ G1 G2 M H2 E2) as (A & B).
    constructor; [|exact (IH _ _ _ _ _ _ (Forall_inv_tail OK) (Forall_inv_tail HE) E1 E3)].
    split; [repeat split; exact A|]. cbn [d_state]. split.
    + split; [|intro; exact B]. right. destruct M as (M1 & M2 & M3 & _). unfold full. cbn [d_series d_state]. tauto.
    + split; [apply M|]. exists u, m. split; [exact E|]. intro NZ. destruct m as [|q|]; try exact I.
      apply andb_false_iff in X. destruct X as [X|X].
      * apply negb_false_iff, Z.eqb_eq in X. contradiction.
      * intro Q. unfold qeqb in X. apply Qeq_bool_iff in Q. congruence.
Qed.

Lemma request_steps : forall gs t dt gs' n, Forall grid_ok gs -> Forall held gs -> request V gs t dt = Ok (gs', n) ->
  Forall2 (stepped t (qsign dt)) gs gs'.
Proof.
  intros gs t dt gs' n OK HE H. unfold request in H. destruct (chunk_all V gs t (qsign dt) _) as [[us m]| |] eqn:E; [|discriminate|discriminate].
  destruct (load_all V gs us (qsign dt)) as [g1|] eqn:E1; [|discriminate]. injection H as <- <-. eapply all_steps; eassumption.
Qed.

Lemma sample_same : forall jit k g s g', sample_periods V jit k g s = Some g' ->
  same g g' /\ (held g -> held g') /\ s_ti (d_state _ g') = s_ti (d_state _ g) /\ s_time (d_state _ g') = s_time (d_state _ g) /\ d_fields _ g' = d_fields _ g.
Proof.
  intros jit k g s g' H. unfold sample_periods in H.
  destruct (pyget _ 0) as [f0|]; [|discriminate]. destruct (pyget _ (-1)) as [fn|]; [|discriminate].
  destruct (if negb _ then _ else _) as [p|] in H; [|discriminate]. injection H as <-. cbn.
  split; [repeat split|]. split; [|repeat split]. intros (W & F). split; [|exact F].
  destruct W as [(W1 & W2)|W]; [left; split; [exact W1|exact W2]|right; exact W].
Qed.

Lemma update_forall2 : forall A (R : A -> A -> Prop) l n a b, (forall x, R x x) -> nth_error l n = Some a -> R a b -> Forall2 R l (update l n b).
Proof.
  intros A R l. induction l as [|x r IH]; intros n a b RR N H; [destruct n; discriminate|].
  destruct n as [|n]; cbn in *.
  - injection N as ->. constructor; [exact H|]. clear -RR. induction r; constructor; auto.
  - constructor; [apply RR|]. eapply IH; eassumption.
Qed.

Lemma forall2_trans : forall A (R : A -> A -> Prop), (forall x y z, R x y -> R y z -> R x z) ->
  forall l l' l'', Forall2 R l l' -> Forall2 R l' l'' -> Forall2 R l l''.
Proof.
  intros A R T l l' l'' H. revert l''. induction H as [|x y l l' XY H IH]; intros l'' H'; inversion H'; subst; constructor; eauto.
Qed.
Lemma forall2_refl : forall A (R : A -> A -> Prop), (forall x, R x x) -> forall l, Forall2 R l l.
Proof. intros A R RR l. induction l; constructor; auto. Qed.
Lemma forall2_forall : forall A B (R : A -> B -> Prop) (P : A -> Prop) (Q : B -> Prop) l l',
  (forall a b, R a b -> P a -> Q b) -> Forall2 R l l' -> Forall P l -> Forall Q l'.
Proof. intros A B R P Q l l' I H. induction H; intro F; inversion F; subst; constructor; eauto. Qed.
Lemma forall2_weaken : forall A B (R S : A -> B -> Prop) l l', (forall a b, R a b -> S a b) -> Forall2 R l l' -> Forall2 S l l'.
Proof. intros A B R S l l' I H. induction H; constructor; auto. Qed.

Definition loaded (g : dgrid) : Prop := 0 <= s_ti (d_state _ g).

Lemma event_keeps : forall gs e gs', Forall grid_ok gs -> Forall held gs -> event_step V gs e = Some gs' ->
  Forall2 same gs gs' /\ Forall held gs' /\ (Forall loaded gs \/ (exists t dt, e = Request t dt) -> Forall loaded gs').
Proof.
  intros gs e gs' OK HE H. destruct e as [t dt|jit k n s]; cbn [event_step] in H.
  - destruct (request V gs t dt) as [[g1 m]| |] eqn:E; [|discriminate|discriminate]. injection H as <-.
    pose proof (request_steps _ _ _ _ _ OK HE E) as S. split; [|split].
    + eapply forall2_weaken; [|exact S]. intros a b (A & _). exact A.
    + eapply forall2_forall; [|exact S|exact HE]. intros a b (_ & B & _) _. exact B.
    + intros _. eapply forall2_forall; [|exact S|exact HE]. intros a b (_ & _ & B & _) _. exact B.
  - destruct (nth_error gs n) as [g|] eqn:N; [|discriminate]. destruct (sample_periods V jit k g s) as [g1|] eqn:E; [|discriminate].
    injection H as <-. destruct (sample_same _ _ _ _ _ E) as (A & B & C & _).
    assert (U : Forall2 (fun x y => same x y /\ (held x -> held y) /\ s_ti (d_state _ y) = s_ti (d_state _ x)) gs (update gs n g1)).
    { eapply update_forall2; [|exact N|exact (conj A (conj B C))]. intro x. split; [apply same_refl|]. split; [trivial|reflexivity]. }
    split; [|split].
    + eapply forall2_weaken; [|exact U]. intros a b (X & _). exact X.
    + eapply forall2_forall; [|exact U|exact HE]. intros a b (_ & X & _). exact X.
    + intros [L|(t & dt & X)]; [|discriminate]. eapply forall2_forall; [|exact U|exact L]. unfold loaded. intros a b (_ & _ & X) Y. lia.
Qed.

Lemma history_keeps : forall es gs gs', Forall grid_ok gs -> Forall held gs -> history V gs es = Some gs' ->
  Forall2 same gs gs' /\ Forall held gs' /\ (Forall loaded gs \/ (exists t dt, In (Request t dt) es) -> Forall loaded gs').
Proof.
  induction es as [|e r IH]; intros gs gs' OK HE H; cbn [history] in H.
  - injection H as <-. split; [apply forall2_refl, same_refl|]. split; [exact HE|]. intros [L|(t & dt & [])]. exact L.
  - destruct (event_step V gs e) as [g1|] eqn:E; [|discriminate]. destruct (event_keeps _ _ _ OK HE E) as (A & B & C).
    assert (OK1 : Forall grid_ok g1) by (eapply forall2_forall; [|exact A|exact OK]; intros x y; apply same_ok).
    destruct (IH _ _ OK1 B H) as (A' & B' & C'). split; [eapply forall2_trans; [apply same_trans|exact A|exact A']|].
    split; [exact B'|]. intros [L|(t & dt & [X|X])]; apply C'.
    + left. apply C. left. exact L.
    + left. apply C. right. exists t, dt. symmetry in X. congruence.
    + right. exists t, dt. exact X.
Qed.

Lemma fresh_held : forall g, is_fresh g -> held g.
Proof.
  intros g (se & p & e & cs & ->). split; [left; split; reflexivity|]. cbn. lia.
Qed.
Lemma fresh_held_all : forall gs, Forall is_fresh gs -> Forall held gs.
Proof. intros gs F. eapply Forall_impl; [|exact F]. apply fresh_held. Qed.

Lemma held_frames : forall g, held g -> loaded g -> exists i, window_is g i /\ frames_are g i.
Proof.
  intros g ([(W1 & _)|(W & W2 & W3)] & F) L; unfold loaded in L; [lia|]. exists (s_ti (d_state _ g)).
  split; [split; [lia|]; split; [exact W2|exact W3]|]. apply F. exact L.
Qed.

Lemma history_frames : forall es gs gs', Forall is_fresh gs -> Forall grid_ok gs -> history V gs es = Some gs' ->
  Forall2 same gs gs' /\ ((exists t dt, In (Request t dt) es) -> Forall (fun g => exists i, window_is g i /\ frames_are g i) gs').
Proof.
  intros es gs gs' FR OK H. destruct (history_keeps es gs gs' OK (fresh_held_all _ FR) H) as (A & B & C). split; [exact A|].
  intro X. specialize (C (or_intror X)). rewrite Forall_forall in *. intros g G. apply held_frames; auto.
Qed.
End Values.
