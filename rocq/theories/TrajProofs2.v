(** Proofs for C51: what the file has after each step of a run. *)
From Coq Require Import String List ZArith Bool Lia ZifyBool Permutation.
From Verif Require Import CollModel KLoopModel KLoopSpec SchedModel SchedSpec SchedProofs SplitSpec SplitProofs3 OutModel OutSpec OutProofs TrajModel TrajSpec TrajProofs.
Import ListNotations.
Open Scope Z_scope.

Section K.
Context {X V : Type}.
Notation pcl := (pcl X).
Notation ids := (map (@q_id X)).
Variable val : string -> pcl -> V.
Variable dt : Z.

(** The regular writes and the deleted particles among the requests. *)
Definition regular (log : list (wcall X)) : list (Z * list pcl) :=
  flat_map (fun '(t, m, qs) => match m with DFalse => [(t, qs)] | _ => [] end) log.
Definition gone_of (log : list (wcall X)) : list pcl :=
  flat_map (fun '(t, m, qs) => match m with DMask _ => filter is_deleted qs | _ => [] end) log.
Definition last_reg (last : option Z) (log : list (wcall X)) : option Z :=
  fold_left (fun l '(t, m, qs) => match m with DFalse => Some t | _ => l end) log last.

Notation logged log := (expected false None (map (as_write val) log)).

Lemma regular_app : forall a b, regular (a ++ b) = regular a ++ regular b.
Proof. intros. apply flat_map_app. Qed.
Lemma gone_app : forall a b, gone_of (a ++ b) = gone_of a ++ gone_of b.
Proof. intros. apply flat_map_app. Qed.

Lemma expected_app : forall log1 last log2,
  expected false last (map (as_write val) (log1 ++ log2)) =
  expected false last (map (as_write val) log1) ++ expected false (last_reg last log1) (map (as_write val) log2).
Proof.
  induction log1 as [|[[t m] qs] l IH]; intros last log2; [reflexivity|]. cbn [app map as_write expected last_reg fold_left].
  rewrite andb_false_l, orb_false_r. destruct (match last with Some l0 => l0 =? t | None => false end) eqn:B.
  - rewrite IH. f_equal. destruct last as [l0|]; [|discriminate]. apply Z.eqb_eq in B. subst. destruct m; reflexivity.
  - cbn [app]. f_equal. destruct m; rewrite IH; reflexivity.
Qed.

Lemma values_app : forall i var (a b : list (Z * list (wp V))), values i var (a ++ b) = values i var a ++ values i var b.
Proof. intros. apply flat_map_app. Qed.
Lemma recorded_app : forall i (a b : list (Z * list (wp V))), recorded_at i (a ++ b) = recorded_at i a ++ recorded_at i b.
Proof. intros. apply flat_map_app. Qed.

Lemma last_reg_app : forall a l b, last_reg l (a ++ b) = last_reg (last_reg l a) b.
Proof. intros. unfold last_reg. apply fold_left_app. Qed.

Lemma pointed_deleted : forall qs : list pcl, pointed (map is_deleted qs) (map (as_wp val) qs) = map (as_wp val) (filter is_deleted qs).
Proof.
  induction qs as [|q qs IH]; [reflexivity|]. unfold pointed in *. cbn [map combine filter fst]. destruct (is_deleted q); cbn [map snd]; rewrite IH; reflexivity.
Qed.

Lemma filter_as : forall (f : wp V -> bool) qs, filter f (map (as_wp val) qs) = map (as_wp val) (filter (fun p => f (as_wp val p)) qs).
Proof. induction qs as [|q qs IH]; [reflexivity|]. cbn [map filter]. destruct (f (as_wp val q)); cbn [map]; rewrite IH; reflexivity. Qed.

Lemma filter_filter : forall {A} (f g : A -> bool) l, filter f (filter g l) = filter (fun x => f x && g x) l.
Proof. induction l as [|a l IH]; [reflexivity|]. cbn [filter]. destruct (g a); cbn [filter]; destruct (f a); cbn [andb]; rewrite ?IH; reflexivity. Qed.

Lemma filter_none : forall {A} (f : A -> bool) l, (forall x, In x l -> f x = false) -> filter f l = [].
Proof. induction l as [|a l IH]; intros N; [reflexivity|]. cbn [filter]. rewrite N by (left; reflexivity). apply IH. intros x I. apply N. right; exact I. Qed.

Lemma filter_id_one : forall i (qs : list pcl), NoDup (ids qs) -> (length (filter (fun p => (q_id p =? i)%Z) qs) <= 1)%nat.
Proof using.
  clear val. induction qs as [|q qs IH]; intros N; [cbn; lia|]. cbn [map] in N. inversion N; subst. cbn [filter]. destruct (q_id q =? i) eqn:B; [|apply IH; assumption].
  rewrite filter_none; [cbn; lia|]. intros x I. destruct (q_id x =? i) eqn:B2; [|reflexivity]. exfalso. apply H1. apply in_map_iff. exists x. split; [lia|exact I].
Qed.

(** One entry of the log of the file. *)
Lemma values_one : forall i var t (qs : list pcl), values i var [(t, map (as_wp val) qs)] = map (val var) (filter (fun p => q_id p =? i) qs).
Proof. intros. unfold values. cbn [flat_map snd]. rewrite app_nil_r, filter_as, map_map. reflexivity. Qed.
Lemma recorded_one : forall i t (qs : list pcl), recorded_at i [(t, map (as_wp val) qs)] = map (fun _ => t) (filter (fun p => q_id p =? i) qs).
Proof. intros. unfold recorded_at. cbn [flat_map fst snd]. rewrite app_nil_r, filter_as, map_map. reflexivity. Qed.

Lemma in_filter_id : forall (i t s : Z) (qs : list pcl), In s (map (fun _ => t) (filter (fun p => q_id p =? i) qs)) -> s = t /\ In i (ids qs).
Proof using.
  clear val. intros i t s qs I. apply in_map_iff in I. destruct I as (p & <- & I). apply filter_In in I. destruct I as [I B]. split; [reflexivity|].
  apply in_map_iff. exists p. split; [lia|exact I].
Qed.

Lemma nodup_const : forall {A} (t : Z) (l : list A), (length l <= 1)%nat -> NoDup (map (fun _ => t) l).
Proof. intros A t [|a [|b l]] L; cbn in *; try lia; repeat constructor; auto. Qed.

Lemma nodup_app : forall {A} (a b : list A), NoDup a -> NoDup b -> (forall x, In x a -> In x b -> False) -> NoDup (a ++ b).
Proof.
  induction a as [|x a IH]; intros b N M D; [exact M|]. inversion N; subst. cbn [app]. constructor.
  - rewrite in_app_iff. intros [I|I]; [contradiction|]. apply (D x); [left; reflexivity|exact I].
  - apply IH; try assumption. intros y I J. apply (D y); [right; exact I|exact J].
Qed.

Lemma nodup_app_inv : forall {A} (a b : list A), NoDup (a ++ b) -> NoDup a /\ NoDup b /\ forall x, In x a -> In x b -> False.
Proof.
  induction a as [|x a IH]; intros b N; [repeat split; [constructor|exact N|contradiction]|]. cbn [app] in N. inversion N; subst.
  destruct (IH _ H2) as (P & Q & R). rewrite in_app_iff in H1. repeat split; [constructor; tauto|exact Q|].
  intros y [<-|I] J; [tauto|exact (R y I J)].
Qed.

(** What is known of the log before the next write at [t] while the particles [js] are in the set. *)
Definition kept (t : Z) (js : list Z) (log : list (wcall X)) : Prop :=
  NoDup (js ++ ids (gone_of log)) /\ Forall (fun i => 0 <= i) js /\
  (exists lt, last_reg None log = Some lt /\ 0 < Z.sgn dt * (t - lt)) /\
  Forall good_write (map (as_write val) log) /\
  (forall i, NoDup (recorded_at i (logged log)) /\
             forall s, In s (recorded_at i (logged log)) -> 0 <= Z.sgn dt * (t - s) /\ (In i js -> 0 < Z.sgn dt * (t - s)) /\
                                                            In i (js ++ ids (gone_of log))) /\
  (forall i var, values i var (logged log) = history (val var) (regular log) (gone_of log) i).

Lemma gone_perm : forall qs : list pcl,
  Permutation (ids (filter (fun p => negb (is_deleted p)) qs) ++ ids (filter is_deleted qs)) (ids qs).
Proof.
  intros qs. rewrite <- map_app. apply Permutation_map. induction qs as [|q qs IH]; [constructor|]. cbn [filter].
  destruct (is_deleted q); cbn [negb app].
  - apply Permutation_sym. apply Permutation_cons_app. apply Permutation_sym. exact IH.
  - constructor. exact IH.
Qed.

Lemma kept_delete : forall t (qs : list pcl) log, kept t (ids qs) log ->
  kept t (ids (filter (fun p => negb (is_deleted p)) qs)) (log ++ [(t, DMask (map is_deleted qs), qs)]).
Proof.
  intros t qs log (ND & PO & (lt & LR & LT) & GW & RC & VS).
  assert (G1 : gone_of (log ++ [(t, DMask (map is_deleted qs), qs)]) = gone_of log ++ filter is_deleted qs)
    by (rewrite gone_app; cbn [gone_of flat_map]; rewrite app_nil_r; reflexivity).
  assert (L1 : logged (log ++ [(t, DMask (map is_deleted qs), qs)]) = logged log ++ [(t, map (as_wp val) (filter is_deleted qs))]).
  { rewrite expected_app. f_equal. cbn [map as_write expected]. rewrite LR. replace (lt =? t) with false by lia.
    cbn [andb orb to_record]. rewrite pointed_deleted. reflexivity. }
  assert (PM : Permutation (ids (filter (fun p => negb (is_deleted p)) qs) ++ ids (gone_of log ++ filter is_deleted qs)) (ids qs ++ ids (gone_of log))).
  { rewrite map_app. rewrite (Permutation_app_comm (ids (gone_of log))). rewrite app_assoc. apply Permutation_app_tail. apply gone_perm. }
  assert (SUB : forall i, In i (ids (filter (fun p => negb (is_deleted p)) qs)) -> In i (ids qs)).
  { intros i I. apply (Permutation_in _ (gone_perm qs)). apply in_or_app. left. exact I. }
  destruct (nodup_app_inv _ _ ND) as (NQ & _ & DISJ).
  unfold kept. rewrite G1, L1. split; [|split; [|split; [|split; [|split]]]].
  - apply (Permutation_NoDup (Permutation_sym PM)). exact ND.
  - apply Forall_forall. intros i I. rewrite Forall_forall in PO. apply PO, SUB, I.
  - exists lt. split; [|exact LT]. rewrite last_reg_app, LR. reflexivity.
  - rewrite map_app. apply Forall_app. split; [exact GW|]. repeat constructor; cbn.
    + rewrite map_map. exact NQ.
    + apply Forall_forall. intros w I. apply in_map_iff in I. destruct I as (p & <- & I). cbn. rewrite Forall_forall in PO. apply PO, in_map, I.
    + rewrite !map_length. reflexivity.
  - intros i. rewrite recorded_app, recorded_one. destruct (RC i) as [N R]. split.
    + apply nodup_app; [exact N|apply nodup_const, filter_id_one|].
      * rewrite map_app in PM. apply (Permutation_NoDup (Permutation_sym (gone_perm qs))) in NQ. apply (nodup_app_inv _ _ NQ).
      * intros s I J. apply in_filter_id in J. destruct J as [-> J]. destruct (R t I) as (_ & A & _).
        assert (In i (ids qs)) by (apply (Permutation_in _ (gone_perm qs)), in_or_app; right; exact J). specialize (A H). lia.
    + intros s I. rewrite in_app_iff in I. destruct I as [I|I].
      * destruct (R s I) as (A & B & C). split; [exact A|]. split; [intros J; apply B, SUB, J|]. apply (Permutation_in _ (Permutation_sym PM)). exact C.
      * apply in_filter_id in I. destruct I as [-> I]. split; [lia|]. split.
        -- intros J. exfalso. apply (Permutation_NoDup (Permutation_sym (gone_perm qs))) in NQ. destruct (nodup_app_inv _ _ NQ) as (_ & _ & D). exact (D i J I).
        -- apply in_or_app. right. rewrite map_app. apply in_or_app. right. exact I.
  - intros i var. rewrite values_app, values_one, VS. unfold history. rewrite regular_app. cbn [regular flat_map]. rewrite app_nil_r.
    rewrite filter_app, map_app, app_assoc. reflexivity.
Qed.

Lemma kept_deletions : forall t js dl js', deletions t js dl js' -> forall log, kept t js log -> kept t js' (log ++ dl) /\
  Permutation (js' ++ ids (gone_of (log ++ dl))) (js ++ ids (gone_of log)).
Proof.
  induction 1 as [js|qs dl js D IH]; intros log K.
  - rewrite app_nil_r. split; [exact K|reflexivity].
  - apply kept_delete in K. apply IH in K. rewrite <- app_assoc in K. cbn [app] in K. destruct K as [K P]. split; [exact K|].
    rewrite P. rewrite gone_app. cbn [gone_of flat_map]. rewrite app_nil_r, map_app, (Permutation_app_comm (ids (gone_of log))), app_assoc.
    apply Permutation_app_tail. apply gone_perm.
Qed.

Lemma kept_release : forall t js log new, kept t js log -> NoDup (js ++ ids (gone_of log) ++ new) -> Forall (fun i => 0 <= i) new -> kept t (js ++ new) log.
Proof.
  intros t js log new (ND & PO & LT & GW & RC & VS) N2 P2.
  assert (PM : Permutation ((js ++ new) ++ ids (gone_of log)) (js ++ ids (gone_of log) ++ new)) by (rewrite <- app_assoc; apply Permutation_app_head, Permutation_app_comm).
  split; [|split; [|split; [exact LT|split; [exact GW|split; [|exact VS]]]]].
  - apply (Permutation_NoDup (Permutation_sym PM)). exact N2.
  - apply Forall_app. split; assumption.
  - intros i. destruct (RC i) as [N R]. split; [exact N|]. intros s I. destruct (R s I) as (A & B & C). split; [exact A|]. split.
    + intros J. apply in_app_iff in J. destruct J as [J|J]; [exact (B J)|]. exfalso.
      rewrite app_assoc in N2. destruct (nodup_app_inv _ _ N2) as (_ & _ & D). exact (D i C J).
    + rewrite in_app_iff in C |- *. rewrite in_app_iff. tauto.
Qed.

Lemma kept_later : forall t t2 js log, dt <> 0 -> 0 <= Z.sgn dt * (t2 - t) -> kept t js log -> kept t2 js log.
Proof.
  intros t t2 js log D L (ND & PO & (lt & LR & LT) & GW & RC & VS). split; [exact ND|]. split; [exact PO|]. split; [exists lt; split; [exact LR|lia]|].
  split; [exact GW|]. split; [|exact VS]. intros i. destruct (RC i) as [N R]. split; [exact N|]. intros s I. destruct (R s I) as (A & B & C).
  split; [lia|]. split; [|exact C]. intros J. specialize (B J). lia.
Qed.

Lemma history_snoc : forall f regs gone i t (qs : list pcl),
  (In i (ids gone) -> ~ In i (ids qs)) ->
  history (V:=V) f (regs ++ [(t, qs)]) gone i = history f regs gone i ++ map f (filter (fun p => (q_id p =? i) && there t p) qs).
Proof.
  intros f regs gone i t qs N. unfold history. rewrite flat_map_app. cbn [flat_map]. rewrite app_nil_r, <- !app_assoc. f_equal.
  destruct (filter (fun p => q_id p =? i) gone) as [|g l] eqn:G; [cbn [map]; rewrite app_nil_r; reflexivity|].
  assert (I : In i (ids gone)).
  { assert (I : In g (filter (fun p => q_id p =? i) gone)) by (rewrite G; left; reflexivity). apply filter_In in I. destruct I as [I B].
    apply in_map_iff. exists g. split; [lia|exact I]. }
  apply N in I. rewrite filter_none; [cbn [map app]; rewrite app_nil_r; reflexivity|].
  intros p J. destruct (q_id p =? i) eqn:B; [|reflexivity]. exfalso. apply I. apply in_map_iff. exists p. split; [lia|exact J].
Qed.

Lemma kept_write : forall t t2 (ps : list pcl) log, dt <> 0 -> 0 < Z.sgn dt * (t2 - t) -> kept t (ids ps) log ->
  kept t2 (ids ps) (log ++ [(t, DFalse, ps)]).
Proof.
  intros t t2 ps log D L (ND & PO & (lt & LR & LT) & GW & RC & VS).
  assert (G1 : gone_of (log ++ [(t, DFalse, ps)]) = gone_of log) by (rewrite gone_app; cbn [gone_of flat_map]; rewrite app_nil_r; reflexivity).
  assert (L1 : logged (log ++ [(t, DFalse, ps)]) = logged log ++ [(t, map (as_wp val) (filter (there t) ps))]).
  { rewrite expected_app. f_equal. cbn [map as_write expected]. rewrite LR. replace (lt =? t) with false by lia.
    cbn [andb orb to_record]. rewrite filter_as. reflexivity. }
  destruct (nodup_app_inv _ _ ND) as (NQ & _ & DISJ).
  assert (SUB : forall i, In i (ids (filter (there t) ps)) -> In i (ids ps)).
  { intros i I. apply in_map_iff in I. destruct I as (p & <- & I). apply filter_In in I. apply in_map. apply I. }
  unfold kept. rewrite G1, L1. split; [exact ND|split; [exact PO|split; [|split; [|split]]]].
  - exists t. split; [|exact L]. rewrite last_reg_app, LR. reflexivity.
  - rewrite map_app. apply Forall_app. split; [exact GW|]. repeat constructor; cbn.
    + rewrite map_map. exact NQ.
    + apply Forall_forall. intros w I. apply in_map_iff in I. destruct I as (p & <- & I). cbn. rewrite Forall_forall in PO. apply PO, in_map, I.
  - intros i. rewrite recorded_app, recorded_one. destruct (RC i) as [N R]. split.
    + apply nodup_app; [exact N|apply nodup_const|].
      * rewrite filter_filter. etransitivity; [|apply (filter_id_one i ps NQ)].
        clear. induction ps as [|p ps IH]; [cbn; lia|]. cbn [filter]. destruct (q_id p =? i), (there t p); cbn [andb length]; lia.
      * intros s I J. apply in_filter_id in J. destruct J as [-> J]. destruct (R t I) as (_ & A & _). specialize (A (SUB _ J)). lia.
    + intros s I. rewrite in_app_iff in I. destruct I as [I|I].
      * destruct (R s I) as (A & B & C). split; [lia|]. split; [|exact C]. intros J. specialize (B J). lia.
      * apply in_filter_id in I. destruct I as [-> I]. split; [lia|]. split; [intros _; exact L|]. apply in_or_app. left. apply SUB, I.
  - intros i var. rewrite values_app, values_one, VS, regular_app. cbn [regular flat_map app]. rewrite history_snoc.
    + rewrite filter_filter. reflexivity.
    + intros I J. exact (DISJ i J I).
Qed.
End K.
