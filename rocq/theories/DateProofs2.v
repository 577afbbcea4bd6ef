(** C52: converters, time axes, sampling by date. *)
From Coq Require Import String List ZArith QArith Qround Qfield Bool Lia Lqa.
From Verif Require Import IdxModel IdxSpec TimeModel InterpSpec TimeProofs GsetModel GsetSpec GsetProofs DateModel DateSpec.
Import ListNotations.
Open Scope Z_scope.

(** ** reltime and fulltime *)
Lemma reltime_gap : forall o t, comparable o t -> exists q, reltime o t = DOk (PNum q) /\ (q == instant t - instant o)%Q.
Proof.
  intros o t [a b|a b|a b|c a b]; cbn [reltime instant].
  - eexists. split; [reflexivity|]. reflexivity.
  - eexists. split; [reflexivity|]. unfold Z.sub. rewrite inject_Z_plus, inject_Z_opp. unfold per_s. field.
  - eexists. split; [reflexivity|]. unfold Z.sub. rewrite inject_Z_plus, inject_Z_opp. unfold per_s. field.
  - rewrite String.eqb_refl. eexists. split; [reflexivity|]. unfold Z.sub. rewrite inject_Z_plus, inject_Z_opp. unfold per_s'. field.
Qed.

Lemma reltime_only : forall o t q, reltime o t = DOk (PNum q) -> comparable o t.
Proof.
  intros [a|a|a|c a|a|a] [b|b|b|c' b|b|b] q; cbn; try discriminate; try (intros _; constructor).
  - destruct (Qeq_bool a 0); discriminate.
  - destruct (Qeq_bool a 0); discriminate.
  - destruct (String.eqb c c') eqn:Q; [|discriminate]. apply String.eqb_eq in Q as <-. intros _. constructor.
Qed.

Lemma comparable_class : forall a b, comparable a b -> same_class a b = true.
Proof. intros a b [x y|x y|x y|c x y]; cbn; try reflexivity. apply String.eqb_refl. Qed.
Lemma comparable_sym : forall a b, comparable a b -> comparable b a.
Proof. intros a b [x y|x y|x y|c x y]; constructor. Qed.
Lemma comparable_trans : forall a b c, comparable a b -> comparable b c -> comparable a c.
Proof. intros a b c [x y|x y|x y|k x y] Q; inversion Q; subst; constructor. Qed.

Lemma int_whole : forall q n, (q == inject_Z n)%Q -> py_int q = n.
Proof.
  intros [a b] n Q. unfold Qeq, inject_Z in Q. cbn in Q. unfold py_int. cbn [Qnum Qden]. rewrite Z.mul_1_r in Q. rewrite Q. apply Z.quot_mul. lia.
Qed.
Lemma us_whole : forall q n, (q == inject_Z n)%Q -> to_us q = n * 1000000.
Proof.
  intros q n Q. unfold to_us. set (r := (q * per_s' + (1 # 2))%Q).
  assert (R : (r == inject_Z (n * 1000000) + (1 # 2))%Q). { unfold r. rewrite Q, inject_Z_mult. reflexivity. }
  destruct r as [a b]. unfold Qeq, inject_Z, Qplus in R. cbn [Qnum Qden] in R |- *.
  symmetry. apply (Z.div_unique a (Zpos b) (n * 1000000) (a - Zpos b * (n * 1000000))); lia.
Qed.

Lemma fulltime_whole : forall o q n, comparable o o -> (q == inject_Z n)%Q ->
  exists d, fulltime o q = DOk d /\ comparable o d /\ (instant d == dated o q)%Q.
Proof.
  intros o q n C Q. unfold dated. inversion C; subst; cbn [fulltime].
  - eexists. split; [reflexivity|]. split; [constructor|]. reflexivity.
  - eexists. split; [reflexivity|]. split; [constructor|]. cbn [instant]. rewrite (int_whole _ _ Q), inject_Z_plus, inject_Z_mult, Q. field.
  - eexists. split; [reflexivity|]. split; [constructor|]. cbn [instant]. rewrite (int_whole _ _ Q), inject_Z_plus, inject_Z_mult, Q. field.
  - eexists. split; [reflexivity|]. split; [constructor|]. cbn [instant]. rewrite (us_whole _ _ Q), inject_Z_plus, inject_Z_mult, Q. field.
Qed.

(** ** Lists of times *)
Lemma each_ok : forall {A B} (f : A -> dres B) l, (exists r, each f l = DOk r) <-> Forall (fun x => exists y, f x = DOk y) l.
Proof.
  intros A B f. induction l as [|x l IH]; cbn; [split; [constructor|eexists; reflexivity]|]. split.
  - intros [r Q]. destruct (f x) as [y| | | | |] eqn:FX; try discriminate. destruct (each f l) as [ys| | | | |]; try discriminate.
    constructor; [eauto|]. apply IH. eauto.
  - intros Q. inversion Q as [|? ? [y Y] L]; subst. rewrite Y. apply IH in L as [r ->]. eexists. reflexivity.
Qed.
Lemma each_rel : forall {A B} (f : A -> dres B) l r, each f l = DOk r -> Forall2 (fun x y => f x = DOk y) l r.
Proof.
  intros A B f. induction l as [|x l IH]; intros r; cbn; [intros Q; injection Q as <-; constructor|].
  destruct (f x) as [y| | | | |] eqn:FX; try discriminate. destruct (each f l) as [ys| | | | |]; try discriminate.
  intros Q. injection Q as <-. constructor; [exact FX|apply IH; reflexivity].
Qed.

Lemma number_ok : forall r q, number r = DOk q -> r = DOk (PNum q).
Proof. intros [[x|x|x|x y|x|x]| | | | |] q; cbn; intros Q; try discriminate. injection Q as <-. reflexivity. Qed.

(** Two axes that differ by a constant. *)
Definition off (k : Q) (l l' : list Q) : Prop := Forall2 (fun a b => b == a + k)%Q l l'.
Lemma off_len : forall k l l', off k l l' -> zlen l' = zlen l.
Proof. induction 1 as [|a b l l' _ _ IH]; [reflexivity|]. unfold zlen in *. cbn [length]. lia. Qed.
Lemma off_nth : forall k l l', off k l l' -> forall n, (n < length l)%nat -> (nth n l' 0 == nth n l 0 + k)%Q.
Proof. induction 1 as [|a b l l' Q _ IH]; intros n L; cbn in L; [lia|]. destruct n; cbn; [exact Q|]. apply IH. lia. Qed.
Lemma off_at : forall k l l' i, off k l l' -> (0 <= i < zlen l)%Z -> (at_ l' i == at_ l i + k)%Q.
Proof. intros k l l' i F R. unfold at_. apply (off_nth k l l' F). unfold zlen in R. lia. Qed.
Lemma off_first : forall k l l', off k l l' -> (1 <= zlen l)%Z -> (first_ l' == first_ l + k)%Q.
Proof. intros k l l' F R. unfold first_. apply (off_at k); [exact F|lia]. Qed.
Lemma off_last : forall k l l', off k l l' -> (1 <= zlen l)%Z -> (last_ l' == last_ l + k)%Q.
Proof. intros k l l' F R. unfold last_. rewrite (off_len _ _ _ F). apply (off_at k); [exact F|lia]. Qed.
Lemma off_axis : forall k l l', off k l l' -> axis_ok l -> axis_ok l'.
Proof.
  intros k l l' F [L I]. split; [rewrite (off_len _ _ _ F); exact L|]. intros i j R1 R2. rewrite (off_len _ _ _ F) in R2.
  pose proof (I i j R1 R2). pose proof (off_at _ _ _ i F ltac:(lia)). pose proof (off_at _ _ _ j F ltac:(lia)). lra.
Qed.
Lemma off_time_value : forall k l l' w t t' q, off k l l' -> (t' == t + k)%Q -> (1 <= zlen l)%Z -> time_value l' w t' q -> time_value l w t q.
Proof.
  intros k l l' w t t' q F T L ([A B] & i & r & LO & V).
  pose proof (off_first _ _ _ F L). pose proof (off_last _ _ _ F L). split; [split; lra|]. exists i, r.
  unfold located, in_cell, lin1 in *. rewrite (off_len _ _ _ F) in *. split; [|exact V].
  destruct LO as [LO|(L1 & I0 & I1 & R0 & R1 & E)]; [left; exact LO|right]. split; [exact L1|]. repeat split; try assumption.
  pose proof (off_at _ _ _ i F ltac:(lia)) as X. pose proof (off_at _ _ _ (i + 1)%Z F ltac:(lia)) as Y.
  rewrite X, Y, T in E. lra.
Qed.
Lemma off_wraps : forall k l l' t t' s', off k l l' -> (t' == t + k)%Q -> (1 <= zlen l)%Z -> wraps_to l' t' s' -> wraps_to l t (s' - k).
Proof.
  intros k l l' t t' s' F T L (A & B & n & E). pose proof (off_first _ _ _ F L) as X. pose proof (off_last _ _ _ F L) as Y.
  split; [lra|]. split; [lra|]. exists n. assert (D : (last_ l' - first_ l' == last_ l - first_ l)%Q) by lra. rewrite D in E. lra.
Qed.

(** ** Sampling by date *)
Lemma by_date_off : forall k l l' w ex D t r, off k l l' -> (t == D + k)%Q -> (1 <= zlen l)%Z ->
  nonperiodic_value l' w ex t r -> by_date l w false ex D r.
Proof.
  intros k l l' w ex D t r F T L (N1 & N2 & N3 & N4 & N5). pose proof (off_first _ _ _ F L) as X. pose proof (off_last _ _ _ F L) as Y.
  rewrite (off_len _ _ _ F) in N5. split; [|split].
  - intros [A B]. destruct N1 as (q & -> & TV); [split; lra|]. exists q. split; [reflexivity|]. exact (off_time_value k l l' w D t q F T L TV).
  - intros A. assert (A' : (t < first_ l')%Q) by lra. destruct ex; [exact (N3 A' eq_refl)|]. exact (N2 A').
  - intros A. assert (A' : (last_ l' < t)%Q) by lra. destruct ex; [exact (N5 A' eq_refl)|]. exact (N4 A').
Qed.

(** What aligning does to a time axis. *)
Lemma align_off : forall fs g g', align fs g = DOk g' -> length (d_time g) <> 1%nat ->
  comparable fs (d_origin g) /\ d_origin g' = fs /\ d_defer g' = d_defer g /\
  off (- instant fs) (dates (d_origin g) (d_time g)) (d_time g') /\
  (d_defer g = true -> off (- instant fs) (dates (d_origin g) (d_full g)) (d_full g')) /\
  (d_defer g = false -> d_full g' = d_full g).
Proof.
  intros fs g g' A N. unfold align in A. apply Nat.eqb_neq in N. rewrite N in A. destruct (same_class (d_origin g) fs) eqn:S; [|discriminate]. cbn [negb] in A.
  destruct (number (reltime fs (d_origin g))) as [s| | | | |] eqn:R; try discriminate. apply number_ok in R. pose proof (reltime_only _ _ _ R) as C.
  destruct (reltime_gap _ _ C) as (s' & R' & Q). rewrite R in R'. injection R' as <-. injection A as <-. cbn [d_origin d_defer d_time d_full].
  assert (O : forall l, off (- instant fs) (dates (d_origin g) l) (map (fun t => (t + s)%Q) l)).
  { induction l as [|t l IH]; cbn; constructor; [|exact IH]. unfold dated. lra. }
  repeat split; auto; intros D; rewrite D; auto.
Qed.

Lemma align_one : forall fs g, length (d_time g) = 1%nat -> align fs g = DOk g.
Proof. intros fs g L. unfold align. apply Nat.eqb_eq in L. rewrite L. reflexivity. Qed.

(** A single frame: with extrapolation the time does not matter. *)
Lemma single_py : forall ex t0 f0 fn v w t, v 0%Z = IVal w -> ex = true -> py_eval false ex [t0] f0 fn v t = IVal w.
Proof.
  intros ex t0 f0 fn v w t V ->. unfold py_eval, py_time_index. cbn.
  destruct (qle t0 t); cbn; rewrite V; reflexivity.
Qed.

Definition all_frames (ts : list Q) (v : Z -> ires) (w : Z -> Q) : Prop := forall n, (0 <= n < zlen ts)%Z -> v n = IVal (w n).

Lemma dates_len : forall o l, zlen (dates o l) = zlen l.
Proof. intros. unfold zlen, dates. rewrite map_length. reflexivity. Qed.
Lemma dates_off : forall o l, off (- instant o) (dates o l) l.
Proof. intros o l. induction l as [|t l IH]; cbn; constructor; [|exact IH]. unfold dated. lra. Qed.
Lemma off_flip : forall k l l', off k l l' -> off (- k) l' l.
Proof. induction 1; constructor; [lra|assumption]. Qed.
Lemma dates_axis : forall o l, axis_ok l -> axis_ok (dates o l).
Proof. intros o l A. exact (off_axis _ _ _ (off_flip _ _ _ (dates_off o l)) A). Qed.

Section Sample.
Variables (fs : pyt) (g g' : dgrid) (v : Z -> ires) (w : Z -> Q) (ex : bool).
Hypothesis A : align fs g = DOk g'.
Hypothesis AX : axis_ok (d_time g).
Hypothesis F : all_frames (d_time g) v w.
Notation ds := (dates (d_origin g) (d_time g)).

Lemma len_ds : (1 <= zlen ds)%Z. Proof. rewrite dates_len. apply AX. Qed.

Lemma sample_date : forall D f0 fn, length (d_time g) <> 1%nat \/ ex = true ->
  by_date ds w false ex D (py_eval false ex (d_time g') f0 fn v (D - instant fs)).
Proof.
  intros D f0 fn N. destruct (Nat.eq_dec (length (d_time g)) 1) as [L|L].
  - destruct N as [N|N]; [contradiction|]. pose proof A as A'. rewrite (align_one _ _ L) in A'. injection A' as <-. destruct (d_time g) as [|t0 [|]] eqn:T; try discriminate.
    rewrite (single_py ex t0 f0 fn v (w 0%Z)); [|apply F; rewrite ?T; cbn; lia|exact N].
    unfold by_date. rewrite N. unfold dates. cbn [map]. split; [|split]; intros Q; eexists; (split; [reflexivity|]); try reflexivity.
    split; [exact Q|]. exists 0%Z, 0%Q. split; [left; split; reflexivity|]. reflexivity.
  - destruct (align_off _ _ _ A L) as (_ & _ & _ & O & _). apply (by_date_off (- instant fs) ds (d_time g') w ex D (D - instant fs)); [exact O|lra|exact len_ds|].
    apply py_eval_nonperiodic; [exact (off_axis _ _ _ O (dates_axis _ _ AX))|].
    intros n R. rewrite (off_len _ _ _ O), dates_len in R. apply F, R.
Qed.

Lemma sample_date_jit : forall k D f0 fn ti, length (d_time g) <> 1%nat \/ ex = true -> (0 < k)%nat -> (ti < zlen (d_time g))%Z ->
  by_date ds w false ex D (c_eval k false ex (d_time g') f0 fn v (D - instant fs) ti).
Proof.
  intros k D f0 fn ti N K TI. destruct (Nat.eq_dec (length (d_time g)) 1) as [L|L].
  - destruct N as [N|N]; [contradiction|]. pose proof A as A'. rewrite (align_one _ _ L) in A'. injection A' as <-.
    pose proof (c_eval_nonperiodic k ex (d_time g) f0 fn v w (D - instant fs) ti AX F TI K) as (C1 & _ & C3 & _ & C5).
    assert (W : exists q, c_eval k false ex (d_time g) f0 fn v (D - instant fs) ti = IVal q /\ (q == w 0%Z)%Q).
    { destruct (d_time g) as [|t0 [|]] eqn:T; try discriminate. change (first_ [t0]) with t0 in *. change (last_ [t0]) with t0 in *.
      destruct (Qlt_le_dec (D - instant fs) t0) as [X|X]; [exact (C3 X N)|].
      destruct (Qlt_le_dec t0 (D - instant fs)) as [Y|Y]; [exact (C5 Y N)|].
      destruct C1 as (q & E & (_ & i & r & LO & Q)); [split; assumption|]. exists q. split; [exact E|].
      exact Q. }
    destruct W as (q & -> & Q). unfold by_date. rewrite N. destruct (d_time g) as [|t0 [|]]; try discriminate. unfold dates. cbn [map].
    split; [|split]; intros R; exists q; (split; [reflexivity|]); try exact Q.
    split; [exact R|]. exists 0%Z, 0%Q. split; [left; split; reflexivity|]. exact Q.
  - destruct (align_off _ _ _ A L) as (_ & _ & _ & O & _).
    apply (by_date_off (- instant fs) ds (d_time g') w ex D (D - instant fs)); [exact O|lra|exact len_ds|].
    apply c_eval_nonperiodic; [exact (off_axis _ _ _ O (dates_axis _ _ AX))| |unfold start_ok; rewrite (off_len _ _ _ O), dates_len; exact TI|exact K].
    intros n R. rewrite (off_len _ _ _ O), dates_len in R. apply F, R.
Qed.

(** Periodic series, loaded later: time_full moves with time. *)
Hypothesis FULL : d_full g = d_time g.
Hypothesis DE : d_defer g = true.
Hypothesis L1 : (1 < zlen (d_time g))%Z.

Lemma many : length (d_time g) <> 1%nat. Proof. unfold zlen in L1. lia. Qed.
Lemma full_same : d_full g' = d_time g'.
Proof.
  pose proof A as A'. unfold align in A'. rewrite (proj2 (Nat.eqb_neq _ _) many) in A'. destruct (same_class (d_origin g) fs); [|discriminate]. cbn [negb] in A'.
  destruct (number (reltime fs (d_origin g))); try discriminate. injection A' as <-. cbn. rewrite DE, FULL. reflexivity.
Qed.

Lemma sample_date_periodic : forall D,
  by_date ds w true ex D (py_eval true ex (d_time g') (first_ (d_full g')) (last_ (d_full g')) v (D - instant fs)).
Proof.
  intros D. rewrite full_same. destruct (align_off _ _ _ A many) as (_ & _ & _ & O & _).
  assert (LD : (1 < zlen (d_time g'))%Z) by (rewrite (off_len _ _ _ O), dates_len; exact L1).
  assert (FR : frames (d_time g') v w). { intros n R. rewrite (off_len _ _ _ O), dates_len in R. apply F, R. }
  destruct (py_eval_periodic ex (d_time g') v w (D - instant fs) (off_axis _ _ _ O (dates_axis _ _ AX)) LD FR) as (q & t' & E & W & T).
  rewrite E. exists q, (t' - - instant fs)%Q. split; [reflexivity|]. split.
  - apply (off_wraps (- instant fs) ds (d_time g') D (D - instant fs)); [exact O|lra|exact len_ds|exact W].
  - apply (off_time_value (- instant fs) ds (d_time g') w _ t'); [exact O|lra|exact len_ds|exact T].
Qed.

Lemma sample_date_periodic_jit : forall k D ti, (1 < k)%nat -> (ti < zlen (d_time g))%Z -> ~ (D == last_ ds)%Q ->
  by_date ds w true ex D (c_eval k true ex (d_time g') (first_ (d_full g')) (last_ (d_full g')) v (D - instant fs) ti).
Proof.
  intros k D ti K TI NL. rewrite full_same. destruct (align_off _ _ _ A many) as (_ & _ & _ & O & _).
  assert (LD : (1 < zlen (d_time g'))%Z) by (rewrite (off_len _ _ _ O), dates_len; exact L1).
  assert (FR : frames (d_time g') v w). { intros n R. rewrite (off_len _ _ _ O), dates_len in R. apply F, R. }
  assert (TI' : start_ok (d_time g') ti) by (unfold start_ok; rewrite (off_len _ _ _ O), dates_len; exact TI).
  destruct (c_eval_periodic k ex (d_time g') v w (D - instant fs) ti (off_axis _ _ _ O (dates_axis _ _ AX)) LD FR TI' K) as (q & t' & E & T & W).
  destruct W as [W|[_ W]].
  2:{ exfalso. apply NL. pose proof (off_last _ _ _ O len_ds). lra. }
  rewrite E. exists q, (t' - - instant fs)%Q. split; [reflexivity|]. split.
  - apply (off_wraps (- instant fs) ds (d_time g') D (D - instant fs)); [exact O|lra|exact len_ds|exact W].
  - apply (off_time_value (- instant fs) ds (d_time g') w _ t'); [exact O|lra|exact len_ds|exact T].
Qed.
End Sample.

(** ** check_complete *)
Lemma off_same : forall fs o l l', off (- instant fs) (dates o l) l' -> same_dates (dates fs l') (dates o l).
Proof.
  intros fs o l l' O. unfold same_dates. remember (dates o l) as d eqn:X. clear X. induction O as [|a b d l' Q _ IH]; cbn; constructor; [|exact IH].
  unfold dated. lra.
Qed.
Lemma same_refl : forall l, same_dates l l.
Proof. induction l; constructor; [reflexivity|assumption]. Qed.

Lemma keep_dates : forall fs gs gs', check_complete fs gs = DOk gs' ->
  Forall2 (fun g g' => same_dates (dates (d_origin g') (d_time g')) (dates (d_origin g) (d_time g)) /\
                       (length (d_time g) <> 1%nat -> d_origin g' = fs) /\
                       (d_defer g = true -> same_dates (dates (d_origin g') (d_full g')) (dates (d_origin g) (d_full g)))) gs gs'.
Proof.
  intros fs gs gs' Q. apply each_rel in Q. induction Q as [|g g' gs gs' A _ IH]; constructor; [|exact IH].
  destruct (Nat.eq_dec (length (d_time g)) 1) as [L|L].
  - rewrite (align_one _ _ L) in A. injection A as <-. split; [apply same_refl|]. split; [contradiction|intros; apply same_refl].
  - destruct (align_off _ _ _ A L) as (_ & O1 & _ & O & O2 & _). rewrite O1. split; [apply off_same, O|]. split; [reflexivity|]. intros D. apply off_same, O2, D.
Qed.

Lemma complete_iff : forall fs gs, comparable fs fs ->
  ((exists gs', check_complete fs gs = DOk gs') <-> Forall (fun g => length (d_time g) <> 1%nat -> comparable fs (d_origin g)) gs).
Proof.
  intros fs gs CF. unfold check_complete. rewrite each_ok. rewrite !Forall_forall. split; intros Q g I; specialize (Q g I).
  - intros N. destruct Q as [g' Q]. apply (align_off _ _ _ Q N).
  - destruct (Nat.eq_dec (length (d_time g)) 1) as [L|L]; [rewrite (align_one _ _ L); eauto|].
    specialize (Q L). destruct (reltime_gap _ _ Q) as (s & R & _). unfold align. rewrite (proj2 (Nat.eqb_neq _ _) L), (comparable_class _ _ (comparable_sym _ _ Q)).
    cbn [negb]. rewrite R. cbn. eauto.
Qed.

(** Completing again moves nothing. *)
Definition same_grid (g g' : dgrid) : Prop :=
  d_origin g' = d_origin g /\ Forall2 Qeq (d_time g') (d_time g) /\ Forall2 Qeq (d_full g') (d_full g) /\ d_defer g' = d_defer g.
Lemma again : forall fs gs gs', check_complete fs gs = DOk gs' -> exists gs'', check_complete fs gs' = DOk gs'' /\ Forall2 same_grid gs' gs''.
Proof.
  intros fs gs gs' Q. apply each_rel in Q. unfold check_complete. induction Q as [|g g' gs gs' A _ IH]; [exists []; split; [reflexivity|constructor]|].
  destruct IH as (gs'' & E & R). cbn [each].
  assert (X : exists g'', align fs g' = DOk g'' /\ same_grid g' g'').
  { destruct (Nat.eq_dec (length (d_time g)) 1) as [L|L].
    - rewrite (align_one _ _ L) in A. injection A as <-. exists g. split; [apply align_one, L|]. repeat split; apply same_refl.
    - destruct (align_off _ _ _ A L) as (C & O1 & _ & O & _). assert (L' : length (d_time g') <> 1%nat).
      { pose proof (off_len _ _ _ O) as Z. rewrite dates_len in Z. unfold zlen in Z. lia. }
      unfold align. rewrite (proj2 (Nat.eqb_neq _ _) L'), O1. assert (CF : comparable fs fs) by (exact (comparable_trans _ _ _ C (comparable_sym _ _ C))).
      rewrite (comparable_class _ _ CF). cbn [negb]. destruct (reltime_gap _ _ CF) as (s & RR & Z). rewrite RR. cbn [number].
      eexists. split; [reflexivity|]. assert (ZZ : forall l, Forall2 Qeq (map (fun t => (t + s)%Q) l) l).
      { induction l as [|t l IHl]; cbn; constructor; [lra|exact IHl]. }
      repeat split; cbn; auto. destruct (d_defer g'); [apply ZZ|apply same_refl]. }
  destruct X as (g'' & -> & S). rewrite E. exists (g'' :: gs''). split; [reflexivity|constructor; assumption].
Qed.

(** ** The default times *)
Lemma last_nth : forall (l : list Q) a, last (a :: l) a = nth (length l) (a :: l) 0%Q.
Proof.
  intros l a. assert (G : forall (l : list Q) a d, last (a :: l) d = nth (length l) (a :: l) 0%Q).
  { clear. induction l as [|b l IH]; intros a d; [reflexivity|]. change (last (a :: b :: l) d) with (last (b :: l) d). rewrite IH. reflexivity. }
  apply G.
Qed.
Lemma covers_full : forall g x, d_full g <> [] -> (covers DTimeFull (as_grid g) x <-> (first_ (d_full g) <= x <= last_ (d_full g))%Q).
Proof.
  intros g x N. unfold covers. cbn [coordinates as_grid g_time_full n_data]. destruct (d_full g) as [|a l]; [contradiction|].
  assert (LA : last_ (a :: l) = last (a :: l) a).
  { rewrite last_nth. unfold last_, at_. f_equal. unfold zlen. cbn [length]. lia. }
  rewrite LA. change (first_ (a :: l)) with a. split; [intros (a' & l' & Q & R); injection Q as <- <-; exact R|intros R; exists a, l; auto].
Qed.

Lemma range_dates : forall fs gs gs' lo hi, check_complete fs gs = DOk gs' ->
  Forall (fun g => d_defer g = true /\ d_full g = d_time g /\ d_time g <> []) gs -> (exists g, In g gs /\ length (d_time g) <> 1%nat) ->
  time_range gs' = Some (lo, hi) ->
  forall D, (dated fs lo <= D <= dated fs hi)%Q <->
    forall g, In g gs -> length (d_time g) <> 1%nat -> (first_ (dates (d_origin g) (d_time g)) <= D <= last_ (dates (d_origin g) (d_time g)))%Q.
Proof.
  intros fs gs gs' lo hi Q D0 (gm & IM & NM) T D. apply each_rel in Q. rewrite Forall_forall in D0.
  assert (FULLS : forall g g', In g gs -> align fs g = DOk g' -> d_full g' = d_time g').
  { intros g g' I A. destruct (D0 g I) as (DE & FU & NE). destruct (Nat.eq_dec (length (d_time g)) 1) as [L|L].
    - rewrite (align_one _ _ L) in A. injection A as <-. exact FU.
    - unfold align in A. rewrite (proj2 (Nat.eqb_neq _ _) L) in A. destruct (same_class _ _); [|discriminate]. cbn [negb] in A.
      destruct (number _); try discriminate. injection A as <-. cbn. rewrite DE, FU. reflexivity. }
  assert (LEFT : forall g, In g gs -> exists g', In g' gs' /\ align fs g = DOk g').
  { clear - Q. induction Q as [|a b gs gs' A _ IH]; intros g []; [subst; exists b; split; [left; reflexivity|exact A]|].
    destruct (IH g H) as (g' & I & X). exists g'. split; [right; exact I|exact X]. }
  assert (RIGHT : forall g', In g' gs' -> exists g, In g gs /\ align fs g = DOk g').
  { clear - Q. induction Q as [|a b gs gs' A _ IH]; intros g' []; [subst; exists a; split; [left; reflexivity|exact A]|].
    destruct (IH g' H) as (g & I & X). exists g. split; [right; exact I|exact X]. }
  assert (ONE : forall g g', In g gs -> align fs g = DOk g' -> (limits DTimeFull (as_grid g') <-> length (d_time g) <> 1%nat)).
  { intros g g' I A. unfold limits. cbn [coordinates as_grid g_time_full n_data]. rewrite (FULLS g g' I A).
    destruct (Nat.eq_dec (length (d_time g)) 1) as [L|L].
    - rewrite (align_one _ _ L) in A. injection A as <-. reflexivity.
    - destruct (align_off _ _ _ A L) as (_ & _ & _ & O & _). pose proof (off_len _ _ _ O) as Z. rewrite dates_len in Z. unfold zlen in Z. lia. }
  assert (COV : forall g g', In g gs -> align fs g = DOk g' -> length (d_time g) <> 1%nat ->
     (covers DTimeFull (as_grid g') (D - instant fs) <-> (first_ (dates (d_origin g) (d_time g)) <= D <= last_ (dates (d_origin g) (d_time g)))%Q)).
  { intros g g' I A L. destruct (D0 g I) as (DE & FU & NE). destruct (align_off _ _ _ A L) as (_ & _ & _ & O & _).
    assert (LN : (1 <= zlen (dates (d_origin g) (d_time g)))%Z). { rewrite dates_len. unfold zlen. destruct (d_time g); [contradiction|]. cbn [length]. lia. }
    pose proof (off_first _ _ _ O LN) as X. pose proof (off_last _ _ _ O LN) as Y.
    rewrite covers_full; rewrite (FULLS g g' I A).
    - split; intros [P1 P2]; split; lra.
    - intros E0. pose proof (off_len _ _ _ O) as Z. rewrite E0 in Z. unfold zlen in *. cbn in Z. lia. }
  assert (EX : exists g, In g (map as_grid gs') /\ limits DTimeFull g).
  { destruct (LEFT gm IM) as (g' & I' & A'). exists (as_grid g'). split; [apply in_map, I'|]. apply (ONE gm g' IM A'), NM. }
  pose proof (dimrange_meets DTimeFull (map as_grid gs') lo hi T EX (D - instant fs)) as M. unfold dated. split.
  - intros [P1 P2] g I L. destruct (LEFT g I) as (g' & I' & A'). apply (COV g g' I A' L). apply M; [split; lra|apply in_map, I'|]. apply (ONE g g' I A'), L.
  - intros P. assert (X : (lo <= D - instant fs <= hi)%Q).
    { apply M. intros x Ix LI. apply in_map_iff in Ix as (g' & <- & I'). destruct (RIGHT g' I') as (g & I & A').
      assert (L : length (d_time g) <> 1%nat) by (apply (ONE g g' I A'), LI). apply (COV g g' I A' L). apply P; assumption. }
    lra.
Qed.

(** ** The time axis of a series of files *)
Lemma qlt_true : forall a b, qlt a b = true <-> (a < b)%Q.
Proof. intros a b. unfold qlt. rewrite negb_true_iff. split; intros H; [apply Qnot_le_lt; intros C; apply Qle_bool_iff in C; congruence|]. destruct (Qle_bool b a) eqn:E; [|reflexivity]. apply Qle_bool_iff in E. lra. Qed.
Lemma pairs_nth : forall (l : list Q) (P : Q -> Q -> Prop), (forall a b, In (a, b) (pairs l) -> P a b) <-> (forall n, (S n < length l)%nat -> P (nth n l 0%Q) (nth (S n) l 0%Q)).
Proof.
  intros l P. induction l as [|x l IH]; [cbn; split; [intros; lia|intros _ a b []]|]. destruct l as [|y l]; [cbn; split; [intros; lia|intros _ a b []]|].
  cbn [pairs]. split.
  - intros Q [|n] L; [apply Q; left; reflexivity|]. refine (proj1 IH _ n _); [intros a b I; apply Q; right; exact I|]. cbn [length] in L |- *. lia.
  - intros Q a b [I|I]; [injection I as <- <-; apply (Q 0%nat); cbn; lia|]. revert a b I. apply IH. intros n L. apply (Q (S n)). cbn [length] in L |- *. lia.
Qed.
Lemma pairs_increasing : forall l, forallb (fun '(a, b) => qlt a b) (pairs l) = true <-> increasing l.
Proof.
  intros l. rewrite forallb_forall. transitivity (forall n, (S n < length l)%nat -> (nth n l 0 < nth (S n) l 0)%Q).
  - rewrite <- (pairs_nth l Qlt). split; intros Q; [intros a b I|intros [a b] I]; [apply (qlt_true a b), (Q (a, b) I)|apply qlt_true, Q, I].
  - split.
    + intros Q i j [A B] C. unfold at_. unfold zlen in C.
      assert (G : forall d i, (i + S d < length l)%nat -> (nth i l 0 < nth (i + S d) l 0)%Q).
      { induction d as [|d IHd]; intros m M; [rewrite Nat.add_1_r; apply Q; lia|]. replace (m + S (S d))%nat with (S (m + S d)) by lia.
        eapply Qlt_trans; [apply IHd; lia|apply Q; lia]. }
      replace (Z.to_nat j) with (Z.to_nat i + S (Z.to_nat (j - i - 1)))%nat by lia. apply G. lia.
    + intros Q n L. specialize (Q (Z.of_nat n) (Z.of_nat (S n)) ltac:(lia) ltac:(unfold zlen; lia)). unfold at_ in Q. rewrite !Nat2Z.id in Q. exact Q.
Qed.

Lemma each_reltime : forall s l, Forall (comparable s) l -> exists ts, each (fun t => number (reltime s t)) l = DOk ts /\ off (- instant s) (map instant l) ts.
Proof.
  intros s l. induction 1 as [|t l C _ (ts & E & O)]; cbn; [exists []; split; [reflexivity|constructor]|].
  destruct (reltime_gap _ _ C) as (q & R & Q). rewrite R. cbn [number]. rewrite E. exists (q :: ts). split; [reflexivity|]. constructor; [lra|exact O].
Qed.
Lemma off_increasing : forall k l l', off k l l' -> (increasing l <-> increasing l').
Proof.
  assert (G : forall k l l', off k l l' -> increasing l -> increasing l').
  { intros k l l' O I i j A B. pose proof (off_len _ _ _ O) as L. rewrite L in B. pose proof (I i j A B).
    pose proof (off_at _ _ _ i O ltac:(lia)). pose proof (off_at _ _ _ j O ltac:(lia)). lra. }
  intros k l l' O. split; [apply (G k), O|]. apply (G (- k)%Q), off_flip, O.
Qed.
Lemma off_pairs : forall k l l', off k l l' -> (existsb (fun '(a, b) => qlt b a) (pairs l') = true <-> exists a b, In (a, b) (pairs l) /\ (b < a)%Q).
Proof.
  intros k l l' O. induction O as [|a b l l' Q O IH]; [cbn; split; [discriminate|intros (? & ? & [] & _)]|].
  destruct O as [|c d l l' Q' O]; [cbn; split; [discriminate|intros (? & ? & [] & _)]|]. cbn [pairs existsb] in *. rewrite orb_true_iff, IH. split.
  - intros [X|(x & y & I & L)]; [exists a, c; split; [left; reflexivity|apply qlt_true in X; lra]|exists x, y; split; [right; exact I|exact L]].
  - intros (x & y & [I|I] & L); [injection I as <- <-; left; apply qlt_true; lra|right; exists x, y; auto].
Qed.

Lemma collect_dates : forall stamps o ts, collect stamps = DOk (o, ts) ->
  hd_error stamps = Some o /\ Forall (comparable o) stamps /\ increasing (map instant stamps) /\ same_dates (dates o ts) (map instant stamps).
Proof.
  intros [|s l] o ts Q; [discriminate|]. unfold collect in Q. destruct (each (fun t => number (reltime s t)) (s :: l)) as [ts'| | | | |] eqn:E; try discriminate.
  destruct (forallb _ (pairs ts')) eqn:P; [|destruct (existsb _ _); discriminate]. injection Q as <- <-.
  assert (C : Forall (comparable s) (s :: l)).
  { apply each_rel in E. clear P. induction E as [|x y l' r R _ IH]; constructor; [|exact IH]. apply number_ok in R. exact (reltime_only _ _ _ R). }
  destruct (each_reltime s (s :: l) C) as (ts2 & E2 & O). rewrite E2 in E. injection E as ->.
  split; [reflexivity|]. split; [exact C|]. split; [apply (off_increasing _ _ _ O), pairs_increasing, P|].
  clear - O. unfold same_dates. induction O as [|a b l' r Q _ IH]; cbn; constructor; [unfold dated; lra|exact IH].
Qed.
Lemma collect_total : forall s l, Forall (comparable s) (s :: l) ->
  (increasing (map instant (s :: l)) -> exists ts, collect (s :: l) = DOk (s, ts)) /\
  ((exists a b, In (a, b) (pairs (map instant (s :: l))) /\ b < a)%Q -> collect (s :: l) = DAssert) /\
  (~ increasing (map instant (s :: l)) -> ~ (exists a b, In (a, b) (pairs (map instant (s :: l))) /\ b < a)%Q -> collect (s :: l) = DIndex).
Proof.
  intros s l C. destruct (each_reltime s (s :: l) C) as (ts & E & O). unfold collect. rewrite E.
  pose proof (off_increasing _ _ _ O) as I. pose proof (pairs_increasing ts) as P. pose proof (off_pairs _ _ _ O) as X. split; [|split].
  - intros Q. apply I, P in Q. rewrite Q. eauto.
  - intros Q. destruct (forallb _ (pairs ts)) eqn:B.
    + exfalso. destruct Q as (a & b & IN & L). pose proof (proj2 I (proj1 P eq_refl)) as B'. apply (pairs_increasing (map instant (s :: l))) in B'. rewrite forallb_forall in B'.
      specialize (B' _ IN). apply qlt_true in B'. lra.
    + apply X in Q. rewrite Q. reflexivity.
  - intros N1 N2. destruct (forallb _ (pairs ts)) eqn:B; [exfalso; apply N1, I, P; reflexivity|].
    destruct (existsb _ (pairs ts)) eqn:D; [exfalso; apply N2, X; reflexivity|reflexivity].
Qed.
Lemma collect_mixed : forall s l, ~ Forall (comparable s) (s :: l) -> forall x, collect (s :: l) <> DOk x.
Proof. intros s l N [o ts] Q. apply N. pose proof (collect_dates _ _ _ Q) as (H & C & _). cbn in H. injection H as ->. exact C. Qed.

(** ** Dates as arguments *)
Lemma release_date : forall fs t d, (forall us, t = PDatetime us -> d = PDate (us * 1000)) -> (t = d \/ exists us, t = PDatetime us) ->
  (exists ns, d = PDate ns) \/ (exists c us, d = PCf c us) -> comparable fs d ->
  exists q, release_time fs t = DOk (PNum q) /\ (dated fs q == instant d)%Q.
Proof.
  intros fs t d T1 T2 K C. destruct (reltime_gap _ _ C) as (q & R & Q). exists q. split; [|unfold dated; lra].
  destruct T2 as [->|[us ->]]; [|rewrite (T1 us eq_refl) in R; exact R].
  destruct K as [[ns ->]|(c & us & ->)]; exact R.
Qed.
Lemma datetime_instant : forall us, (instant (PDate (us * 1000)) == instant (PDatetime us))%Q.
Proof. intros us. cbn [instant]. rewrite inject_Z_mult. field. Qed.
Lemma end_date : forall fs t d, (forall us, t = PDatetime us -> d = PDate (us * 1000)) -> (t = d \/ exists us, t = PDatetime us) ->
  (exists ns, d = PDate ns) \/ (exists c us, d = PCf c us) -> comparable fs d ->
  exists q, end_time fs t = DOk (PNum q) /\ (dated fs q == instant d)%Q.
Proof.
  intros fs t d T1 T2 K C. destruct (reltime_gap _ _ C) as (q & R & Q). exists q. split; [|unfold dated; lra].
  assert (X : end_time fs d = DOk (PNum q)).
  { destruct K as [[ns ->]|(c & us & ->)]; inversion C; subst; unfold end_time; cbn [calendar_of]; rewrite R; reflexivity. }
  destruct T2 as [->|[us ->]]; [exact X|]. rewrite (T1 us eq_refl) in X. exact X.
Qed.
Lemma end_undated : forall q t, (exists ns, t = PDate ns) \/ (exists us, t = PDatetime us) -> end_time (PNum q) t = DNotImplemented.
Proof. intros q t [[x ->]|[x ->]]; reflexivity. Qed.

Lemma dates_taken : forall fs t d, (t = d \/ exists us, t = PDatetime us /\ d = PDate (us * 1000)) ->
  (exists ns, d = PDate ns) \/ (exists c us, d = PCf c us) -> comparable fs d ->
  (instant d == instant t)%Q /\
  exists q, release_time fs t = DOk (PNum q) /\ end_time fs t = DOk (PNum q) /\ (dated fs q == instant t)%Q.
Proof.
  intros fs t d T K C. assert (E : (instant d == instant t)%Q). { destruct T as [->|(us & -> & ->)]; [reflexivity|apply datetime_instant]. }
  split; [exact E|]. assert (T1 : forall us, t = PDatetime us -> d = PDate (us * 1000)).
  { intros us ->. destruct T as [<-|(us' & Q & ->)]; [|injection Q as ->; reflexivity]. destruct K as [[? Q]|(? & ? & Q)]; discriminate. }
  assert (T2 : t = d \/ exists us, t = PDatetime us) by (destruct T as [T|(us & T & _)]; eauto).
  destruct (release_date fs t d T1 T2 K C) as (q & R & Q). destruct (end_date fs t d T1 T2 K C) as (q' & R' & Q').
  exists q. split; [exact R|]. split; [|rewrite <- E; exact Q].
  clear Q Q'. assert (X : q' = q); [|rewrite <- X; exact R'].
  destruct T2 as [->|[us ->]].
  - destruct K as [[ns ->]|(c & us & ->)]; inversion C; subst; cbn in R; unfold end_time in R'; cbn in R'; rewrite ?String.eqb_refl in *; congruence.
  - rewrite (T1 us eq_refl) in C. inversion C; subst. cbn in R, R'. congruence.
Qed.

(** Values in frames and a series in memory, 100, 105 and 110 seconds after the start of the calendar. *)
Definition dx_wave (n : Z) : ires := IVal (inject_Z (10 * n)).
Definition dx_memory := new_grid (PDate 100000000000) [0; 5; 10]%Q false.
Definition dx_moved : list Q := [100000000000 # 1000000000; 105000000000 # 1000000000; 110000000000 # 1000000000]%Q.
Lemma no_end : forall k t ti, (t == 7 \/ t == 17 \/ t == 127)%Q -> c_time k true dx_moved 0 10 t ti = None.
Proof.
  induction k as [|k IH]; intros t ti T; [reflexivity|]. cbn [c_time]. change (cget dx_moved 0) with (Some (100000000000 # 1000000000)%Q).
  change (cget dx_moved (zlen dx_moved - 1)) with (Some (110000000000 # 1000000000)%Q). cbv iota beta zeta.
  assert (LT : forall a b a' b', (a == a')%Q -> (b == b')%Q -> qlt a b = qlt a' b').
  { intros a b a' b' X Y. unfold qlt. rewrite X, Y. reflexivity. }
  assert (FL : forall a z, (a == z)%Q -> Qfloor a = Qfloor z). { intros a z X. apply Qfloor_comp, X. }
  destruct T as [T|[T|T]].
  - rewrite (LT t _ 7%Q _ T (Qeq_refl _)). change (qlt 7 _) with true. cbv iota.
    rewrite (FL _ (7 # 10)%Q) by (rewrite T; reflexivity). change (Qfloor (7 # 10)) with 0%Z.
    rewrite (LT (t - inject_Z 0 * (10 - 0))%Q _ 7%Q _ ltac:(rewrite T; reflexivity) (Qeq_refl _)). change (qlt 7 _) with true. cbv iota.
    rewrite IH; [reflexivity|]. right. left. rewrite T. reflexivity.
  - rewrite (LT t _ 17%Q _ T (Qeq_refl _)). change (qlt 17 _) with true. cbv iota.
    rewrite (FL _ (17 # 10)%Q) by (rewrite T; reflexivity). change (Qfloor (17 # 10)) with 1%Z.
    rewrite (LT (t - inject_Z 1 * (10 - 0))%Q _ 7%Q _ ltac:(rewrite T; reflexivity) (Qeq_refl _)). change (qlt 7 _) with true. cbv iota.
    rewrite IH; [reflexivity|]. left. rewrite T. reflexivity.
  - rewrite (LT t _ 127%Q _ T (Qeq_refl _)). change (qlt 127 _) with false. cbv iota.
    rewrite (LT _ t _ 127%Q (Qeq_refl _) T). change (qlt _ 127) with true. cbv iota.
    rewrite (FL _ (127 # 10)%Q) by (rewrite T; reflexivity). change (Qfloor (127 # 10)) with 12%Z.
    rewrite IH; [reflexivity|]. left. rewrite T. reflexivity.
Qed.
Lemma dx_axis : axis_ok [0; 5; 10]%Q.
Proof. split; [cbn; lia|]. apply pairs_increasing. reflexivity. Qed.
Lemma memory_refuted : exists fs g g' D, align fs g = DOk g' /\ axis_ok (d_time g) /\ d_full g = d_time g /\ d_defer g = false /\
  ~ by_date (dates (d_origin g) (d_time g)) (fun n => inject_Z (10 * n)) true false D
      (py_eval true false (d_time g') (first_ (d_full g')) (last_ (d_full g')) dx_wave (D - instant fs)) /\
  forall k ti, c_time k true (d_time g') (first_ (d_full g')) (last_ (d_full g')) (D - instant fs) ti = None.
Proof.
  exists (PDate 0), dx_memory, (mkDg (PDate 0) dx_moved [0; 5; 10]%Q false), 127%Q. split; [vm_compute; reflexivity|]. split; [exact dx_axis|].
  split; [reflexivity|]. split; [reflexivity|]. split.
  - set (r := py_eval _ _ _ _ _ _ _). vm_compute in r. subst r. intros (q & D' & E & (W1 & W2 & n & W3) & (_ & i & r & LO & V)). injection E as <-.
    set (ds := dates _ _) in *. vm_compute in ds. subst ds.
    destruct LO as [[LO _]|(_ & I0 & I1 & R0 & R1 & C)]; [discriminate|]. cbn in I1.
    unfold first_, last_, at_ in *. cbn in W1, W2, W3. change (Pos.to_nat 2) with 2%nat in *. cbv iota in W2, W3. unfold lin1 in V. cbn [zlen length Z.of_nat Pos.of_succ_nat] in V. change (_ =? 1)%Z with false in V. cbv iota in V.
    assert (D7 : (D' == 107)%Q).
    { assert (N : n = 2%Z). { assert (A1 : (inject_Z n < 3)%Q) by lra. assert (A2 : (1 < inject_Z n)%Q) by lra. change 3%Q with (inject_Z 3) in A1. change 1%Q with (inject_Z 1) in A2. rewrite <- Zlt_Qlt in *. lia. }
      subst n. change (inject_Z 2) with 2%Q in W3. lra. }
    assert (Ii : i = 0 \/ i = 1) by lia. destruct Ii as [-> | ->]; rewrite D7 in C.
    + change (Z.to_nat 0) with 0%nat in C. change (Z.to_nat (0 + 1)) with 1%nat in C. cbn [nth] in C.
      change (inject_Z (10 * 0)) with 0%Q in V. change (inject_Z (10 * (0 + 1))) with 10%Q in V. lra.
    + change (Z.to_nat 1) with 1%nat in C. change (Z.to_nat (1 + 1)) with 2%nat in C. cbn [nth] in C.
      change (inject_Z (10 * 1)) with 10%Q in V. change (inject_Z (10 * (1 + 1))) with 20%Q in V. lra.
  - intros k ti. apply no_end. right. right. reflexivity.
Qed.
Lemma single_refuted : exists fs g g' D, align fs g = DOk g' /\ axis_ok (d_time g) /\ comparable fs (d_origin g) /\
  ~ by_date (dates (d_origin g) (d_time g)) (fun n => inject_Z (10 * n)) false false D (py_eval false false (d_time g') 0 0 dx_wave (D - instant fs)) /\
  exists q, py_eval false false (d_time g') 0 0 dx_wave 0 = IVal q.
Proof.
  exists (PDate 0), (new_grid (PDate 100000000000) [0%Q] false). eexists. exists 100%Q. split; [reflexivity|]. split; [split; [cbn; lia|apply pairs_increasing; reflexivity]|].
  split; [constructor|]. split; [|eexists; vm_compute; reflexivity]. intros (B & _). destruct B as (q & E & _); [split; vm_compute; discriminate|]. vm_compute in E. discriminate.
Qed.
