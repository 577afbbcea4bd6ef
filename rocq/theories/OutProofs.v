From Coq Require Import String List ZArith Bool Arith Lia ZifyBool Sorted.
From Verif Require Import CollModel CollProofs OutModel OutSpec.
Import ListNotations.
Open Scope nat_scope.

(** ** Reading back *)

Section Read.
Context {V : Type}.
Variable n steps : nat.

Definition vals_of (p : nat) (obs : list (nat * V)) : list V :=
  map snd (filter (fun pv => fst pv =? p) obs).
Definition pad (w : nat) (l : list V) : list (option V) := map Some l ++ repeat None (w - length l).

Definition put1 (st : @rstate V) (pv : nat * V) : rstate :=
  let t := nth (fst pv) (r_ti st) O in
  mkRst (set2 (r_data st) (fst pv) t (snd pv)) (list_set (r_ti st) (fst pv) (S t)) (list_set (r_used st) t true).

Lemma nth_list_set : forall A (l : list A) k v m d, k < length l ->
  nth m (list_set l k v) d = if m =? k then v else nth m l d.
Proof.
  intros A l. induction l as [|x l IH]; intros [|k] v [|m] d L; cbn in *; try lia; try reflexivity.
  apply IH. lia.
Qed.

Lemma vals_snoc : forall p obs q v, vals_of p (obs ++ [(q, v)]) = vals_of p obs ++ if q =? p then [v] else [].
Proof.
  intros. unfold vals_of. rewrite filter_app, map_app. cbn. destruct (q =? p); reflexivity.
Qed.

Lemma pad_set : forall l v, length l < steps -> list_set (pad steps l) (length l) (Some v) = pad steps (l ++ [v]).
Proof.
  intros l v L. unfold pad. rewrite map_app, app_length. cbn [length map].
  replace (steps - length l) with (S (steps - (length l + 1))) by lia. cbn [repeat].
  rewrite <- (map_length Some l) at 2. generalize (repeat (@None V) (steps - (length l + 1))). intros tl.
  induction (map Some l) as [|x m IH]; cbn; [reflexivity|]. f_equal. exact IH.
Qed.

Definition rinv (st : @rstate V) (obs : list (nat * V)) : Prop :=
  length (r_data st) = n /\ length (r_ti st) = n /\ length (r_used st) = steps /\
  (forall p, p < n -> nth p (r_data st) [] = pad steps (vals_of p obs)) /\
  (forall p, p < n -> nth p (r_ti st) O = length (vals_of p obs)) /\
  exists w, w <= steps /\ r_used st = repeat true w ++ repeat false (steps - w) /\
            (forall p, length (vals_of p obs) <= w) /\
            (w = O \/ exists p, p < n /\ length (vals_of p obs) = w).

Lemma used_set : forall w t, w <= steps -> t <= w -> t < steps ->
  list_set (repeat true w ++ repeat false (steps - w)) t true =
  repeat true (max w (S t)) ++ repeat false (steps - max w (S t)).
Proof.
  intros w t W T TS. destruct (Nat.eq_dec t w) as [E|E].
  - subst t. replace (max w (S w)) with (S w) by lia. replace (steps - w) with (S (steps - S w)) by lia.
    generalize (steps - S w). intros k. clear. induction w; cbn; [reflexivity|]. f_equal. cbn in IHw. exact IHw.
  - replace (max w (S t)) with w by lia. generalize (repeat false (steps - w)). intros tl. clear W TS.
    assert (T' : t < w) by lia. clear T E. revert w T'. induction t; intros [|w] T'; try lia; cbn; [reflexivity|].
    f_equal. apply IHt. lia.
Qed.

Lemma rinv_step : forall st obs p v, rinv st obs -> p < n -> length (vals_of p obs) < steps ->
  rinv (put1 st (p, v)) (obs ++ [(p, v)]).
Proof.
  intros st obs p v (LD & LT & LU & D & T & w & W & U & B & AT) P L. unfold put1, set2. cbn [fst snd].
  rewrite (T p P). unfold rinv. cbn [r_data r_ti r_used]. rewrite !list_set_length.
  split; [exact LD|]. split; [exact LT|]. split; [exact LU|]. split; [|split].
  - intros q Q. rewrite nth_list_set by lia. rewrite vals_snoc. destruct (q =? p) eqn:E.
    + apply Nat.eqb_eq in E. subst q. rewrite Nat.eqb_refl, (D p P). apply pad_set. exact L.
    + rewrite Nat.eqb_sym in E. rewrite E, app_nil_r. apply D. exact Q.
  - intros q Q. rewrite nth_list_set by lia. rewrite vals_snoc, app_length. destruct (q =? p) eqn:E.
    + apply Nat.eqb_eq in E. subst q. rewrite Nat.eqb_refl. cbn. lia.
    + rewrite Nat.eqb_sym in E. rewrite E. cbn. rewrite (T q Q). lia.
  - exists (max w (S (length (vals_of p obs)))). split; [lia|]. split.
    + rewrite U. apply used_set; [exact W|apply B|exact L].
    + split.
      * intros q. rewrite vals_snoc, app_length. specialize (B q). destruct (p =? q) eqn:E; cbn; [|lia].
        apply Nat.eqb_eq in E. subst q. lia.
      * destruct (Nat.max_spec w (S (length (vals_of p obs)))) as [[M E]|[M E]]; rewrite E.
        -- right. exists p. split; [exact P|]. rewrite vals_snoc, app_length, Nat.eqb_refl. cbn. lia.
        -- destruct AT as [AT|(q & Q & AT)]; [left; exact AT|]. right.
           destruct (Nat.eq_dec p q) as [->|NE].
           ++ exfalso. lia.
           ++ exists q. split; [exact Q|]. rewrite vals_snoc. replace (p =? q) with false by lia.
              rewrite app_nil_r. exact AT.
Qed.

Lemma rinv_run : forall obs1 st obs0, rinv st obs0 ->
  (forall p v, In (p, v) obs1 -> p < n) ->
  (forall p, length (vals_of p (obs0 ++ obs1)) <= steps) ->
  rinv (fold_left put1 obs1 st) (obs0 ++ obs1).
Proof.
  induction obs1 as [|[p v] obs1 IH]; intros st obs0 I R L; cbn [fold_left].
  - rewrite app_nil_r. exact I.
  - replace (obs0 ++ (p, v) :: obs1) with ((obs0 ++ [(p, v)]) ++ obs1) by (rewrite <- app_assoc; reflexivity).
    apply IH.
    + apply rinv_step; [exact I|apply (R p v); left; reflexivity|].
      specialize (L p). unfold vals_of in *. rewrite filter_app, map_app, app_length in L. cbn in L.
      rewrite Nat.eqb_refl in L. cbn in L. lia.
    + intros q u IN. apply (R q u). right. exact IN.
    + intros q. rewrite <- app_assoc. apply L.
Qed.

(** The vectorised assignments of one file, with distinct positions, are the sequential ones. *)
Lemma vec_seq : forall ps vals d ti u ti0, NoDup ps -> length vals = length ps ->
  (forall p, In p ps -> nth p ti O = nth p ti0 O) ->
  (forall p, In p ps -> p < length ti) ->
  fold_left put1 (combine ps vals) (mkRst d ti u) =
  mkRst (fold_left (fun d ptv => set2 d (fst (fst ptv)) (snd (fst ptv)) (snd ptv))
                     (combine (combine ps (map (fun p => nth p ti0 O) ps)) vals) d)
        (fold_left (fun ti p => list_set ti p (S (nth p ti0 O))) ps ti)
        (fold_left (fun u t => list_set u t true) (map (fun p => nth p ti0 O) ps) u).
Proof.
  induction ps as [|p ps IH]; intros [|v vals] d ti u ti0 ND LN A R; cbn in LN; try lia; [reflexivity|].
  cbn [combine map fold_left fst snd]. unfold put1 at 2. cbn [fst snd r_data r_ti r_used].
  rewrite (A p (or_introl eq_refl)). inversion ND as [|? ? NI ND']; subst. apply IH; [exact ND'|lia| |].
  - intros q Q. rewrite nth_list_set by (apply R; left; reflexivity). destruct (q =? p) eqn:E.
    + apply Nat.eqb_eq in E. subst q. contradiction.
    + apply A. right. exact Q.
  - intros q Q. rewrite list_set_length. apply R. right. exact Q.
Qed.

Definition zobs (f : npy V) (var : string) : list (Z * V) :=
  match assoc var (n_cols f) with Some vals => combine (n_ids f) vals | None => [] end.
Definition to_pos (iv : Z * V) : nat * V := (Z.to_nat (fst iv), snd iv).

Definition good_npy (var : string) (f : npy V) : Prop :=
  NoDup (n_ids f) /\ Forall (fun i => (0 <= i < Z.of_nat n)%Z) (n_ids f) /\
  exists vals, assoc var (n_cols f) = Some vals /\ length vals = length (n_ids f).

Lemma norm_indices_nat : forall ids, Forall (fun i => (0 <= i < Z.of_nat n)%Z) ids ->
  norm_indices n ids = Some (map Z.to_nat ids).
Proof.
  induction ids as [|i ids IH]; intros F; [reflexivity|]. apply Forall_cons_iff in F. destruct F as [F1 F2].
  cbn [norm_indices map]. rewrite (IH F2). unfold norm_index.
  replace ((0 <=? i)%Z && (i <? Z.of_nat n)%Z) with true by lia. reflexivity.
Qed.

Lemma nodup_to_nat : forall ids, NoDup ids -> Forall (fun i => (0 <= i < Z.of_nat n)%Z) ids -> NoDup (map Z.to_nat ids).
Proof.
  induction ids as [|i ids IH]; intros ND F; cbn; [constructor|]. inversion ND; subst.
  apply Forall_cons_iff in F. destruct F as [F1 F2]. constructor; [|apply IH; assumption].
  intros I. apply in_map_iff in I. destruct I as (j & E & J). rewrite Forall_forall in F2. specialize (F2 j J).
  assert (i = j) by lia. subst j. contradiction.
Qed.

Lemma combine_map_l : forall A B C (f : A -> B) (l : list A) (m : list C),
  combine (map f l) m = map (fun xy => (f (fst xy), snd xy)) (combine l m).
Proof. intros A B C f l. induction l; intros [|y m]; cbn; [reflexivity..|]. f_equal. apply IHl. Qed.

Lemma in_combine_pos : forall ids (vals : list V) p, In p (map Z.to_nat ids) -> length vals = length ids ->
  exists v, In (p, v) (map to_pos (combine ids vals)).
Proof.
  induction ids as [|i ids IH]; intros [|v vals] p I L; cbn in *; try lia; try contradiction.
  destruct I as [<-|I]; [exists v; left; reflexivity|]. destruct (IH vals p I) as [u U]; [lia|]. exists u. right. exact U.
Qed.

Lemma vals_in_pos : forall (obs : list (nat * V)) p v, In (p, v) obs -> 1 <= length (vals_of p obs).
Proof.
  intros obs p v I. unfold vals_of. rewrite map_length. induction obs as [|[q u] obs IH]; [contradiction|].
  cbn. destruct I as [E|I]; [inversion E; subst; rewrite Nat.eqb_refl; cbn; lia|].
  specialize (IH I). destruct (q =? p); cbn; lia.
Qed.

Lemma read_file_spec : forall var st obs f, rinv st obs -> good_npy var f ->
  (forall p, length (vals_of p (obs ++ map to_pos (zobs f var))) <= steps) ->
  exists st', read_file false var st f = Some st' /\ rinv st' (obs ++ map to_pos (zobs f var)).
Proof.
  intros var st obs f I (ND & R & vals & A & LV) L.
  assert (Z0 : zobs f var = combine (n_ids f) vals) by (unfold zobs; rewrite A; reflexivity). rewrite Z0 in *.
  pose proof I as (LD & LT & LU & D & T & _).
  set (ps := map Z.to_nat (n_ids f)).
  assert (PN : forall p, In p ps -> p < n).
  { intros p Q. apply in_map_iff in Q. destruct Q as (i & <- & Q). rewrite Forall_forall in R. specialize (R i Q). lia. }
  assert (CB : map to_pos (combine (n_ids f) vals) = combine ps vals).
  { unfold ps. rewrite combine_map_l. reflexivity. }
  exists (fold_left put1 (combine ps vals) st). split.
  - unfold read_file. rewrite LT, (norm_indices_nat _ R), A. fold ps.
    replace (length vals =? length ps) with true by (unfold ps; rewrite map_length; lia).
    assert (FB : forallb (fun t => t <? length (r_used st)) (map (fun p => if false then 0 else nth p (r_ti st) 0) ps) = true).
    { apply forallb_forall. intros t Q. apply in_map_iff in Q. destruct Q as (p & <- & Q). rewrite LU, (T p (PN p Q)).
      destruct (in_combine_pos (n_ids f) vals p Q LV) as [v IV].
      specialize (L p). unfold vals_of in L. rewrite filter_app, map_app, app_length in L.
      pose proof (vals_in_pos _ _ _ IV) as G. unfold vals_of in G. unfold vals_of. lia. }
    cbn [andb]. cbv beta iota in FB |- *. rewrite FB. f_equal. symmetry. destruct st as [d ti u]. cbn [r_data r_ti r_used] in *.
    apply vec_seq.
    + apply nodup_to_nat; assumption.
    + unfold ps. rewrite map_length. exact LV.
    + intros; reflexivity.
    + intros p Q. rewrite LT. apply PN. exact Q.
  - rewrite CB. apply rinv_run; [exact I| |].
    + intros p v IN. apply PN. apply in_combine_l in IN. exact IN.
    + intros p. rewrite <- CB. apply L.
Qed.

Definition fobs (var : string) (fs : list (npy V)) : list (Z * V) := flat_map (fun f => zobs f var) fs.

Lemma read_files_spec : forall var fs st obs, rinv st obs -> Forall (good_npy var) fs ->
  (forall p, length (vals_of p (obs ++ map to_pos (fobs var fs))) <= steps) ->
  exists st', read_files false var st fs = Some st' /\ rinv st' (obs ++ map to_pos (fobs var fs)).
Proof.
  intros var fs. induction fs as [|f fs IH]; intros st obs I G L; cbn [read_files fobs flat_map].
  - exists st. split; [reflexivity|]. cbn. rewrite app_nil_r. exact I.
  - apply Forall_cons_iff in G. destruct G as [G1 G2].
    cbn [fobs flat_map] in L. rewrite map_app, app_assoc in L.
    destruct (read_file_spec var st obs f I G1) as (st1 & E1 & I1).
    { intros p. specialize (L p). unfold vals_of in *. rewrite filter_app, map_app, app_length in L. lia. }
    rewrite E1. rewrite map_app, app_assoc. apply IH; assumption.
Qed.

Lemma rinv_init : rinv (mkRst (repeat (repeat None steps) n) (repeat O n) (repeat false steps)) [].
Proof.
  unfold rinv. cbn [r_data r_ti r_used]. rewrite !repeat_length. repeat (split; [reflexivity|]).
  split; [|split].
  - intros p P. unfold pad. cbn. rewrite Nat.sub_0_r. rewrite nth_indep with (d' := repeat None steps) by (rewrite repeat_length; exact P).
    apply nth_repeat.
  - intros p P. apply nth_repeat.
  - exists 0. rewrite Nat.sub_0_r. cbn. repeat split; try lia; auto.
Qed.

(** With the flag for 'once' files, and every id in at most one observation, the result is the same. *)
Lemma fold_list_set_ext : forall ps (ti ti0 : list nat), (forall p, In p ps -> nth p ti0 O = O) ->
  map (fun p => nth p ti0 O) ps = map (fun _ => O) ps.
Proof. intros. apply map_ext_in. auto. Qed.

Lemma read_file_once : forall var st obs f, rinv st obs -> good_npy var f ->
  (forall p, length (vals_of p (obs ++ map to_pos (zobs f var))) <= 1) ->
  read_file true var st f = read_file false var st f.
Proof.
  intros var st obs f I (ND & R & vals & A & LV) L. unfold read_file.
  pose proof I as (LD & LT & LU & D & T & _). rewrite LT, (norm_indices_nat _ R), A.
  assert (E : map (fun _ : nat => 0) (map Z.to_nat (n_ids f)) = map (fun p => nth p (r_ti st) 0) (map Z.to_nat (n_ids f))).
  { apply map_ext_in. intros p Q.
    assert (P : p < n).
    { apply in_map_iff in Q. destruct Q as (i & <- & Q). rewrite Forall_forall in R. specialize (R i Q). lia. }
    rewrite (T p P).
    assert (Z0 : zobs f var = combine (n_ids f) vals) by (unfold zobs; rewrite A; reflexivity).
    destruct (in_combine_pos (n_ids f) vals p Q LV) as [v IV]. specialize (L p). rewrite Z0 in L. unfold vals_of in L.
    rewrite filter_app, map_app, app_length in L. pose proof (vals_in_pos _ _ _ IV) as G. unfold vals_of in *. lia. }
  cbv beta iota. rewrite E. reflexivity.
Qed.

Lemma read_files_once : forall var fs st obs, steps = 1 -> rinv st obs -> Forall (good_npy var) fs ->
  (forall p, length (vals_of p (obs ++ map to_pos (fobs var fs))) <= 1) ->
  read_files true var st fs = read_files false var st fs.
Proof.
  intros var fs. induction fs as [|f fs IH]; intros st obs S1 I G L; cbn [read_files]; [reflexivity|].
  apply Forall_cons_iff in G. destruct G as [G1 G2].
  cbn [fobs flat_map] in L. rewrite map_app, app_assoc in L.
  assert (L1 : forall p, length (vals_of p (obs ++ map to_pos (zobs f var))) <= 1).
  { intros p. specialize (L p). unfold vals_of in *. rewrite filter_app, map_app, app_length in L. lia. }
  rewrite (read_file_once _ _ _ _ I G1 L1).
  destruct (read_file_spec var st obs f I G1) as (st1 & E1 & I1); [rewrite S1; exact L1|].
  rewrite E1. apply (IH st1 (obs ++ map to_pos (zobs f var))); assumption.
Qed.

(** The rows that are kept, and their columns. *)
Lemma select_used : forall w (l : list V), length l <= w -> w <= steps ->
  select (repeat true w ++ repeat false (steps - w)) (pad steps l) = pad w l.
Proof.
  intros w l L W.
  assert (PS : pad steps l = pad w l ++ repeat None (steps - w)).
  { unfold pad. rewrite <- app_assoc. f_equal. rewrite <- repeat_app. f_equal. lia. }
  rewrite PS. assert (LP : length (pad w l) = w) by (unfold pad; rewrite app_length, map_length, repeat_length; lia).
  revert LP. generalize (pad w l). intros m LP. clear PS L W. subst w.
  induction m as [|x m IH]; cbn.
  - induction (steps - 0) as [|k IHk]; cbn; [reflexivity|exact IHk].
  - f_equal. replace (steps - S (length m)) with (steps - S (length m)) by reflexivity.
    clear IH. generalize (steps - S (length m)). intros k. induction m as [|y m IHm]; cbn.
    + induction k as [|k IHk]; cbn; [reflexivity|exact IHk].
    + f_equal. exact IHm.
Qed.

Lemma filter_map_S : forall (f : nat -> bool) l, filter f (map S l) = map S (filter (fun p => f (S p)) l).
Proof. intros f l. induction l as [|a l IH]; [reflexivity|]. cbn. destruct (f (S a)); cbn; rewrite IH; reflexivity. Qed.

Lemma select_rows : forall (rows : list (list (option V))) (ti : list nat), length rows = length ti ->
  select (map (fun k => 0 <? k) ti) rows =
  map (fun p => nth p rows []) (filter (fun p => 0 <? nth p ti O) (seq 0 (length ti))).
Proof.
  induction rows as [|r rows IH]; intros [|k ti] L; cbn in L; try lia; [reflexivity|].
  cbn [map select length seq filter]. rewrite <- seq_shift. change (nth 0 (k :: ti) 0) with k.
  assert (F : filter (fun p => 0 <? nth p (k :: ti) 0) (map S (seq 0 (length ti))) =
              map S (filter (fun p => 0 <? nth p ti 0) (seq 0 (length ti)))).
  { generalize (seq 0 (length ti)). intros l. rewrite filter_map_S. reflexivity. }
  rewrite F. destruct (0 <? k); cbn [map].
  - rewrite map_map. f_equal. apply IH. lia.
  - rewrite map_map. apply IH. lia.
Qed.

Lemma read_from_npy_spec : forall once var fs maxid, n = Z.to_nat (maxid + 1) ->
  (once = true -> steps = 1) ->
  Forall (good_npy var) fs ->
  (forall p, length (vals_of p (map to_pos (fobs var fs))) <= steps) ->
  exists w,
    read_from_npy once maxid steps fs var =
      Some (map (fun p => pad w (vals_of p (map to_pos (fobs var fs))))
                (filter (fun p => 0 <? length (vals_of p (map to_pos (fobs var fs)))) (seq 0 n))) /\
    (forall p, length (vals_of p (map to_pos (fobs var fs))) <= w) /\
    (w = O \/ exists p, p < n /\ length (vals_of p (map to_pos (fobs var fs))) = w).
Proof.
  intros once var fs maxid N ON G L. unfold read_from_npy. rewrite <- N.
  destruct (read_files_spec var fs _ [] rinv_init G L) as (st & E & I).
  assert (E' : read_files once var (mkRst (repeat (repeat None steps) n) (repeat O n) (repeat false steps)) fs = Some st).
  { destruct once; [|exact E]. rewrite (read_files_once var fs _ [] (ON eq_refl) rinv_init G); [exact E|].
    intros p. specialize (L p). rewrite (ON eq_refl) in L. exact L. }
  rewrite E'. cbn [app] in I. destruct I as (LD & LT & LU & D & T & w & W & U & B & AT).
  exists w. split; [|split; [exact B|exact AT]]. f_equal.
  rewrite select_rows by congruence. rewrite map_map, LT.
  assert (F : filter (fun p => 0 <? nth p (r_ti st) 0) (seq 0 n) =
              filter (fun p => 0 <? length (vals_of p (map to_pos (fobs var fs)))) (seq 0 n)).
  { apply filter_ext_in. intros p Q. apply in_seq in Q. rewrite (T p) by lia. reflexivity. }
  rewrite F. apply map_ext_in. intros p Q. apply filter_In in Q. destruct Q as [Q _]. apply in_seq in Q.
  rewrite (D p) by lia. rewrite U. apply select_used; [apply B|exact W].
Qed.

End Read.

(** ** Sessions of writes *)
Section Session.
Context {V : Type}.
Variable close : Z -> Z -> bool.
Variable warn_tol : Z.
Notation write := (@write V close warn_tol).
Notation writes := (@writes V close warn_tol).

Lemma select_filter : forall A (g : A -> bool) ps, select (map g ps) ps = filter g ps.
Proof. intros A g ps. induction ps as [|p ps IH]; cbn; [reflexivity|]. destruct (g p); rewrite IH; reflexivity. Qed.

Lemma select_pointed : forall b (ps : list (wp V)), select b ps = pointed b ps.
Proof.
  unfold pointed. intros b. induction b as [|x b IH]; intros [|p ps]; cbn; try reflexivity; [destruct x; reflexivity|].
  destruct x; cbn; rewrite IH; reflexivity.
Qed.

Lemma to_write_active : forall t (p : wp V), to_write t p = active t p.
Proof. intros. unfold to_write, active. destruct (Z.abs_spec (t - w_time p)) as [[? ->]|[? ->]]; lia. Qed.

Lemma select_chosen : forall t m (ps : list (wp V)), select (chosen t m ps) ps = to_record t m ps.
Proof.
  intros t m ps. destruct m; cbn [chosen to_record].
  - rewrite select_filter. apply filter_ext. intros p. apply to_write_active.
  - apply select_filter.
  - apply select_pointed.
Qed.

Lemma existsb_map_filter : forall A (g : A -> bool) l, existsb (fun b => b) (map g l) = nonempty (filter g l).
Proof. intros A g l. induction l as [|x l IH]; cbn; [reflexivity|]. destruct (g x); cbn; [reflexivity|exact IH]. Qed.

Lemma any_chosen_spec : forall t m (ps : list (wp V)), good_write (t, m, ps) ->
  any_chosen m (chosen t m ps) = nonempty (to_record t m ps).
Proof.
  intros t m ps (ND & NN & M). destruct m; cbn [any_chosen chosen to_record].
  - rewrite existsb_map_filter. f_equal. apply filter_ext. intros p. apply to_write_active.
  - rewrite <- existsb_map_filter. destruct ps as [|p ps]; [reflexivity|]. cbn [map tl existsb] in *.
    destruct M as [(q & Q & D)|M].
    + assert (E : existsb (fun b => b) (map is_del ps) = true).
      { apply existsb_exists. exists true. split; [|reflexivity]. apply in_map_iff. exists q. split; [|exact Q].
        unfold is_del. rewrite D. reflexivity. }
      assert (E2 : existsb (fun b => b) (map (fun p0 => (w_st p0 =? op_Delete)%Z) ps) = true) by exact E.
      rewrite E, E2, orb_true_r. reflexivity.
    + specialize (M p (or_introl eq_refl)) as MP. replace (w_st p =? op_Delete)%Z with false by lia. reflexivity.
  - revert ps M ND NN. unfold pointed. induction m as [|b m IH]; intros [|p ps] M ND NN; cbn in *; try reflexivity; try lia.
    destruct b; cbn; [reflexivity|]. apply IH; [lia|inversion ND; assumption|apply Forall_cons_iff in NN; apply NN].
Qed.

Lemma pointed_in : forall b (ps : list (wp V)) p, In p (pointed b ps) -> In p ps.
Proof.
  intros b ps p I. unfold pointed in I. apply in_map_iff in I. destruct I as ([x q] & <- & I).
  apply filter_In in I. destruct I as [I _]. apply in_combine_r in I. exact I.
Qed.
Lemma to_record_in : forall t m (ps : list (wp V)) p, In p (to_record t m ps) -> In p ps.
Proof.
  intros t m ps p I. destruct m; cbn in I; [apply filter_In in I; apply I|apply filter_In in I; apply I|]. eapply pointed_in; exact I.
Qed.

Lemma nodup_map_filter : forall A B (f : A -> B) g l, NoDup (map f l) -> NoDup (map f (filter g l)).
Proof.
  intros A B f g l. induction l as [|x l IH]; intros ND; cbn; [constructor|]. inversion ND; subst.
  destruct (g x); cbn; [|apply IH; assumption]. constructor; [|apply IH; assumption].
  intros I. apply H1. apply in_map_iff in I. destruct I as (y & E & Y). apply filter_In in Y. apply in_map_iff. exists y. tauto.
Qed.

Lemma pointed_nodup : forall b (ps : list (wp V)), NoDup (map w_id ps) -> NoDup (map w_id (pointed b ps)).
Proof.
  intros b ps ND. rewrite <- select_pointed. revert b. induction ps as [|p ps IH]; intros [|[|] b]; cbn in *; try constructor.
  - intros I. inversion ND; subst. apply H1. apply in_map_iff in I. destruct I as (q & E & Q). apply in_map_iff. exists q.
    split; [exact E|]. rewrite select_pointed in Q. eapply pointed_in. exact Q.
  - apply IH. inversion ND; assumption.
  - apply IH. inversion ND; assumption.
Qed.

Lemma to_record_nodup : forall t m (ps : list (wp V)), NoDup (map w_id ps) -> NoDup (map w_id (to_record t m ps)).
Proof. intros t m ps ND. destruct m; cbn; [apply nodup_map_filter; exact ND|apply nodup_map_filter; exact ND|apply pointed_nodup; exact ND]. Qed.

Definition file_of (vars : list string) (sel : list (wp V)) : npy V := mkNpy (map w_id sel) (columns vars sel).
Definition main_files (vars : list string) (log : list (Z * list (wp V))) : list (npy V) :=
  map (file_of vars) (filter nonempty (map snd log)).

Definition skipped (f : pfile V) (t : Z) (m : dmode) : bool :=
  (match f_last f with Some l => (l =? t)%Z | None => false end)
  || (f_ondelete f && match m with DFalse => true | _ => false end).

(** One write. *)
Lemma write_spec : forall f t m ps f', good_write (t, m, ps) -> write f t m ps = Some f' ->
  f_ondelete f' = f_ondelete f /\ f_vars f' = f_vars f /\ f_vars_once f' = f_vars_once f /\
  if skipped f t m then f' = f
  else
    f_last f' = (match m with DFalse => Some t | _ => f_last f end) /\
    f_files f' = f_files f ++ main_files (f_vars f) [(t, to_record t m ps)] /\
    f_maxid f' = id_max (f_maxid f) (to_record t m ps) /\
    (forall x, In x (f_times f) -> In x (f_times f')) /\
    (ps <> [] -> In t (f_times f')) /\
    let once := match f_vars_once f with [] => [] | _ => filter (first_write close f t) ps end in
    f_written f' = f_written f ++ map w_id once /\
    f_once_list f' = f_once_list f ++ map (fun _ => length (f_files f')) (filter nonempty [once]) /\
    f_once_store f' = map (fun o => (length (f_files f'), file_of (f_vars_once f) o)) (filter nonempty [once])
                      ++ f_once_store f.
Proof.
  intros f t m ps f' G W. unfold OutModel.write in W. unfold skipped.
  assert (SK : (negb match f_last f with Some t0 => (t0 =? t)%Z | None => false end
              && (negb (f_ondelete f) || negb match m with DFalse => true | _ => false end)) =
              negb (match f_last f with Some l => (l =? t)%Z | None => false end
              || (f_ondelete f && match m with DFalse => true | _ => false end))).
  { destruct (match f_last f with Some l => (l =? t)%Z | None => false end), (f_ondelete f), m; reflexivity. }
  rewrite SK in W. clear SK.
  destruct (match f_last f with Some l => (l =? t)%Z | None => false end
              || (f_ondelete f && match m with DFalse => true | _ => false end)) eqn:E; cbn [negb] in W.
  - inversion W; subst. auto.
  - destruct ps as [|p0 ps0] eqn:PS.
    + inversion W; subst; clear W. cbn. repeat (split; [reflexivity|]).
      split; [destruct m; reflexivity|].
      assert (TR : to_record t m (@nil (wp V)) = []) by (destruct m as [| |b]; [reflexivity..|destruct b; reflexivity]).
      rewrite TR. cbn. rewrite app_nil_r. split; [reflexivity|]. split; [reflexivity|]. split; [auto|].
      split; [intros Q; contradiction|]. destruct (f_vars_once f); cbn; rewrite ?app_nil_r; auto.
    + rewrite <- PS in *. rewrite select_chosen, (any_chosen_spec _ _ _ G) in W.
      set (sel := to_record t m ps) in *.
      destruct (existsb _ sel && _); [discriminate|].
      set (files' := if nonempty sel then f_files f ++ _ else _) in W.
      assert (FE : files' = f_files f ++ main_files (f_vars f) [(t, sel)]).
      { unfold files', main_files. cbn. destruct sel; cbn; [rewrite app_nil_r; reflexivity|reflexivity]. }
      inversion W; subst f'; clear W. cbn [f_ondelete f_vars f_vars_once f_last f_files f_maxid f_times f_written f_once_list f_once_store].
      repeat (split; [reflexivity|]).
      split; [destruct m; reflexivity|]. split; [exact FE|].
      split; [destruct sel; reflexivity|].
      split; [intros x X; destruct (existsb (Z.eqb t) (f_times f)); [exact X|apply in_or_app; auto]|].
      split; [intros _; destruct (existsb (Z.eqb t) (f_times f)) eqn:T; [|apply in_or_app; right; left; reflexivity]|].
      { apply existsb_exists in T. destruct T as (x & X & Q). apply Z.eqb_eq in Q. subst x. exact X. }
      cbv zeta. split; [reflexivity|]. rewrite PS.
      destruct (match f_vars_once f with [] => [] | _ => filter (first_write close f t) (p0 :: ps0) end) eqn:ON; cbn;
        rewrite ?app_nil_r; auto.
Qed.

Lemma main_files_app : forall vars a b, main_files vars (a ++ b) = main_files vars a ++ main_files vars b.
Proof. intros. unfold main_files. rewrite map_app, filter_app, map_app. reflexivity. Qed.

Lemma id_max_le : forall (l : list (wp V)) m, (m <= id_max m l)%Z /\ forall p, In p l -> (w_id p <= id_max m l)%Z.
Proof.
  induction l as [|p l IH]; intros m; cbn; [split; [lia|contradiction]|].
  destruct (IH (Z.max m (w_id p))) as [A B]. split; [unfold id_max in *; lia|].
  intros q [<-|Q]; [unfold id_max in *; lia|]. apply B. exact Q.
Qed.

Lemma skipped_expected : forall f t m (ps : list (wp V)) ws,
  expected (f_ondelete f) (f_last f) ((t, m, ps) :: ws) =
  if skipped f t m then expected (f_ondelete f) (f_last f) ws
  else (t, to_record t m ps) :: expected (f_ondelete f) (match m with DFalse => Some t | _ => f_last f end) ws.
Proof. reflexivity. Qed.
Lemma skipped_effective : forall f t m (ps : list (wp V)) ws,
  effective (f_ondelete f) (f_last f) ((t, m, ps) :: ws) =
  if skipped f t m then effective (f_ondelete f) (f_last f) ws
  else (t, ps) :: effective (f_ondelete f) (match m with DFalse => Some t | _ => f_last f end) ws.
Proof. reflexivity. Qed.

(** All writes of a session. *)
Lemma writes_spec : forall ws f f', Forall good_write ws -> writes f ws = Some f' ->
  let log := expected (f_ondelete f) (f_last f) ws in
  f_ondelete f' = f_ondelete f /\ f_vars f' = f_vars f /\ f_vars_once f' = f_vars_once f /\
  f_files f' = f_files f ++ main_files (f_vars f) log /\
  (f_maxid f <= f_maxid f')%Z /\
  (forall t sel p, In (t, sel) log -> In p sel -> (w_id p <= f_maxid f')%Z /\ In t (f_times f')) /\
  (forall x, In x (f_times f) -> In x (f_times f')).
Proof.
  induction ws as [|[[t m] ps] ws IH]; intros f f' G W; cbn [OutModel.writes] in W.
  - inversion W; subst. cbn. rewrite app_nil_r. repeat split; auto; try lia; contradiction.
  - apply Forall_cons_iff in G. destruct G as [G1 G2].
    destruct (write f t m ps) as [f1|] eqn:W1; [|discriminate].
    destruct (write_spec _ _ _ _ _ G1 W1) as (A1 & A2 & A3 & A4).
    destruct (IH f1 f' G2 W) as (B1 & B2 & B3 & B4 & B5 & B6 & B7). clear IH.
    cbv zeta. rewrite skipped_expected. destruct (skipped f t m) eqn:SK.
    + subst f1. repeat (split; [assumption|]). assumption.
    + destruct A4 as (L & FL & MX & T1 & T2 & _). rewrite A1, L in *. rewrite B1, B2, B3, A2, A3.
      repeat (split; [reflexivity|]). split.
      { rewrite B4, FL, A2, <- app_assoc. rewrite <- main_files_app. reflexivity. }
      split; [destruct (id_max_le (to_record t m ps) (f_maxid f)); lia|]. split.
      * intros t' sel p [E|I] P.
        -- inversion E; subst t' sel. destruct (id_max_le (to_record t m ps) (f_maxid f)) as [_ Q]. specialize (Q p P).
           split; [lia|]. apply B7, T2. apply to_record_in in P. intros ->. contradiction.
        -- apply (B6 t' sel p); assumption.
      * intros x X. apply B7, T1, X.
Qed.

Lemma good_log : forall ws od last, Forall good_write ws ->
  Forall (fun tp => NoDup (map w_id (snd tp)) /\ Forall (fun p => (0 <= w_id p)%Z) (snd tp)) (expected (V:=V) od last ws).
Proof.
  induction ws as [|[[t m] ps] ws IH]; intros od last G; cbn [expected]; [constructor|].
  apply Forall_cons_iff in G. destruct G as [(ND & NN & _) G2].
  destruct (_ || _); [apply IH; exact G2|]. constructor; [|apply IH; exact G2]. cbn. split.
  - apply to_record_nodup. exact ND.
  - apply Forall_forall. intros p P. apply to_record_in in P. rewrite Forall_forall in NN. apply NN. exact P.
Qed.

Lemma assoc_columns : forall var vars (sel : list (wp V)), In var vars ->
  assoc var (columns vars sel) = Some (map (fun p => w_val p var) sel).
Proof.
  intros var vars sel I. unfold columns. induction vars as [|v vars IH]; [contradiction|]. cbn.
  destruct (String.eqb v var) eqn:E; [apply String.eqb_eq in E; subst; reflexivity|].
  destruct I as [->|I]; [rewrite String.eqb_refl in E; discriminate|]. apply IH. exact I.
Qed.

Lemma combine_same : forall A B C (f : A -> B) (g : A -> C) l, combine (map f l) (map g l) = map (fun x => (f x, g x)) l.
Proof. intros A B C f g l. induction l; cbn; [reflexivity|]. f_equal. exact IHl. Qed.

Lemma zobs_file : forall var vars (sel : list (wp V)), In var vars ->
  zobs (file_of vars sel) var = map (fun p => (w_id p, w_val p var)) sel.
Proof. intros var vars sel I. unfold zobs, file_of. cbn. rewrite (assoc_columns _ _ _ I). apply combine_same. Qed.

Lemma fobs_main : forall var vars log, In var vars ->
  fobs var (main_files vars log) = flat_map (fun tp => map (fun p => (w_id p, w_val p var)) (snd tp)) log.
Proof.
  intros var vars log I. induction log as [|[t sel] log IH]; [reflexivity|].
  change ((t, sel) :: log) with ([(t, sel)] ++ log). rewrite main_files_app. unfold fobs in *. rewrite !flat_map_app.
  rewrite IH. f_equal. unfold main_files. cbn. destruct sel as [|p sel]; [reflexivity|]. cbn [nonempty map flat_map].
  rewrite (zobs_file _ _ _ I). reflexivity.
Qed.

Lemma vals_values : forall var (log : list (Z * list (wp V))) i, (0 <= i)%Z ->
  Forall (fun tp => Forall (fun p => (0 <= w_id p)%Z) (snd tp)) log ->
  vals_of (Z.to_nat i) (map to_pos (flat_map (fun tp => map (fun p => (w_id p, w_val p var)) (snd tp)) log))
  = values i var log.
Proof.
  intros var log i I0. unfold values, vals_of. induction log as [|[t sel] log IH]; intros F; [reflexivity|].
  apply Forall_cons_iff in F. destruct F as [F1 F2]. cbn [flat_map snd fst].
  rewrite map_app, filter_app, map_app, (IH F2). f_equal. clear IH F2. cbn [snd] in F1.
  induction sel as [|p sel IHs]; [reflexivity|]. apply Forall_cons_iff in F1. destruct F1 as [P1 P2].
  cbn [map filter to_pos fst snd]. replace (Z.to_nat (w_id p) =? Z.to_nat i) with (w_id p =? i)%Z by lia.
  destruct (w_id p =? i)%Z; cbn [map]; rewrite <- (IHs P2); reflexivity.
Qed.

Lemma values_length : forall var (log : list (Z * list (wp V))) i, length (values i var log) = length (recorded_at i log).
Proof.
  intros. unfold values, recorded_at. induction log as [|tp log IH]; [reflexivity|]. cbn. rewrite !app_length, IH, !map_length. reflexivity.
Qed.

Lemma recorded_at_in : forall (log : list (Z * list (wp V))) i t, In t (recorded_at i log) ->
  exists sel p, In (t, sel) log /\ In p sel /\ w_id p = i.
Proof.
  intros log i t I. unfold recorded_at in I. apply in_flat_map in I. destruct I as ([t' sel] & L & I).
  apply in_map_iff in I. destruct I as (p & E & P). cbn in *. subst t'. apply filter_In in P. destruct P as [P Q].
  exists sel, p. repeat split; auto. lia.
Qed.

Lemma seq_sorted : forall (g : nat -> bool) a k, StronglySorted Z.lt (map Z.of_nat (filter g (seq a k))).
Proof.
  intros g a k. revert a. induction k as [|k IH]; intros a; cbn; [constructor|].
  destruct (g a); cbn; [|apply IH]. constructor; [apply IH|]. apply Forall_forall. intros x X.
  apply in_map_iff in X. destruct X as (q & <- & Q). apply filter_In in Q. destruct Q as [Q _]. apply in_seq in Q. lia.
Qed.

(** A list of files whose observations are those of [log] reads back exactly. *)
Lemma read_log_exact : forall once var fs (log : list (Z * list (wp V))) maxid steps,
  (once = true -> steps = 1) ->
  Forall (good_npy (Z.to_nat (maxid + 1)) var) fs ->
  fobs var fs = flat_map (fun tp => map (fun p => (w_id p, w_val p var)) (snd tp)) log ->
  Forall (fun tp => Forall (fun p => (0 <= w_id p <= maxid)%Z) (snd tp)) log ->
  (forall i, length (values i var log) <= steps) ->
  exists rows, read_from_npy once maxid steps fs var = Some rows /\ exact_matrix var log rows.
Proof.
  intros once var fs log maxid steps ON G FO LB LE. set (n := Z.to_nat (maxid + 1)) in *.
  assert (NN : Forall (fun tp => Forall (fun p : wp V => (0 <= w_id p)%Z) (snd tp)) log).
  { eapply Forall_impl; [|exact LB]. intros tp F. eapply Forall_impl; [|exact F]. cbn. lia. }
  assert (VV : forall p, vals_of p (map to_pos (fobs var fs)) = values (Z.of_nat p) var log).
  { intros p. rewrite FO. rewrite <- (Nat2Z.id p) at 1. apply vals_values; [lia|exact NN]. }
  destruct (read_from_npy_spec n steps once var fs maxid eq_refl ON G) as (w & R & B & AT).
  { intros p. rewrite VV. apply LE. }
  assert (OUT : forall i, recorded_at i log <> [] -> (0 <= i <= maxid)%Z).
  { intros i RA. destruct (recorded_at i log) as [|t ts] eqn:E; [contradiction|].
    destruct (recorded_at_in log i t) as (sel & p & L & P & Q); [rewrite E; left; reflexivity|].
    rewrite Forall_forall in LB. specialize (LB _ L). rewrite Forall_forall in LB. specialize (LB p P). lia. }
  assert (OUTV : forall i, (i < 0)%Z -> values i var log = []).
  { intros i I0. destruct (values i var log) eqn:E; [reflexivity|]. exfalso.
    assert (recorded_at i log <> []).
    { intros RA. pose proof (values_length var log i) as VL. rewrite E, RA in VL. discriminate. }
    apply OUT in H. lia. }
  eexists. split; [exact R|].
  exists (map Z.of_nat (filter (fun p => 0 <? length (vals_of p (map to_pos (fobs var fs)))) (seq 0 n))), w.
  split; [apply seq_sorted|]. split; [|split; [|split]].
  - intros i. rewrite in_map_iff. split.
    + intros (p & <- & P). apply filter_In in P. destruct P as [_ P]. rewrite VV, values_length in P.
      intros E. rewrite E in P. discriminate.
    + intros RA. pose proof (OUT i RA). exists (Z.to_nat i). split; [lia|]. apply filter_In. split; [apply in_seq; lia|].
      rewrite VV, values_length, Z2Nat.id by lia. destruct (recorded_at i log); [contradiction|reflexivity].
  - rewrite map_map. apply map_ext. intros p. rewrite VV. reflexivity.
  - intros i. destruct (Z_lt_ge_dec i 0) as [I0|I0]; [rewrite (OUTV i I0); cbn; lia|].
    specialize (B (Z.to_nat i)). rewrite VV, Z2Nat.id in B by lia. exact B.
  - destruct AT as [AT|(p & P & AT)]; [left; exact AT|]. destruct w as [|w]; [left; reflexivity|]. right.
    exists (Z.of_nat p). rewrite VV in AT. split; [|exact AT]. apply in_map_iff. exists p. split; [reflexivity|].
    apply filter_In. split; [apply in_seq; lia|]. rewrite VV, AT. reflexivity.
Qed.

Lemma good_main : forall n var vars (log : list (Z * list (wp V))), In var vars ->
  Forall (fun tp => NoDup (map w_id (snd tp)) /\ Forall (fun p => (0 <= w_id p < Z.of_nat n)%Z) (snd tp)) log ->
  Forall (good_npy n var) (main_files vars log).
Proof.
  intros n var vars log I F. unfold main_files. apply Forall_forall. intros f X. apply in_map_iff in X.
  destruct X as (sel & <- & X). apply filter_In in X. destruct X as [X _]. apply in_map_iff in X.
  destruct X as (tp & <- & X). rewrite Forall_forall in F. destruct (F tp X) as [ND R]. unfold good_npy, file_of. cbn.
  split; [exact ND|]. split.
  - apply Forall_forall. intros i Y. apply in_map_iff in Y. destruct Y as (p & <- & Y). rewrite Forall_forall in R. apply R. exact Y.
  - eexists. split; [apply assoc_columns; exact I|]. rewrite !map_length. reflexivity.
Qed.

Lemma export_all : forall od vars once ws f var,
  Forall good_write ws -> writes (pfile0 od vars once) ws = Some f -> In var vars ->
  (forall i, NoDup (recorded_at i (expected od None ws))) ->
  exists rows, export_var false f var = Some rows /\ exact_matrix var (expected od None ws) rows.
Proof.
  intros od vars once ws f var G W I ND.
  destruct (writes_spec _ _ _ G W) as (_ & _ & _ & FL & MX & IN & _). cbn [pfile0 f_ondelete f_last f_vars f_files f_maxid] in *.
  cbn [app] in FL. set (log := expected od None ws) in *.
  pose proof (good_log ws od None G) as GL. fold log in GL.
  assert (LB : Forall (fun tp => NoDup (map w_id (snd tp)) /\ Forall (fun p => (0 <= w_id p < Z.of_nat (Z.to_nat (f_maxid f + 1)))%Z) (snd tp)) log).
  { apply Forall_forall. intros [t sel] X. rewrite Forall_forall in GL. destruct (GL _ X) as [A B]. split; [exact A|].
    apply Forall_forall. intros p P. cbn in *. rewrite Forall_forall in B. specialize (B p P). destruct (IN t sel p X P). lia. }
  unfold export_var. rewrite FL. apply read_log_exact.
  - discriminate.
  - apply good_main; assumption.
  - apply fobs_main. exact I.
  - eapply Forall_impl; [|exact LB]. intros tp [_ F]. eapply Forall_impl; [|exact F]. cbn. intros p. lia.
  - intros i. rewrite values_length. apply NoDup_incl_length; [apply ND|]. intros t T. apply nodup_In.
    destruct (recorded_at_in log i t T) as (sel & p & L & P & _). apply (IN t sel p L P).
Qed.

(** ** C19 *)
Lemma session_files : forall od vars once ws f,
  Forall good_write ws -> writes (pfile0 od vars once) ws = Some f ->
  f_files f = map (fun sel => mkNpy (map w_id sel) (map (fun v => (v, map (fun p => w_val p v) sel)) vars))
                  (filter nonempty (map snd (expected od None ws))).
Proof.
  intros od vars once ws f G W. destruct (writes_spec _ _ _ G W) as (_ & _ & _ & FL & _). exact FL.
Qed.

Lemma write_total : forall f t m ps, (forall p, In p (to_record t m ps) -> w_st p = op_Delete \/ (Z.abs (t - w_time p) <= warn_tol)%Z) ->
  write f t m ps <> None.
Proof.
  intros f t m ps OK. unfold OutModel.write. destruct (_ && _); [|discriminate]. destruct ps as [|p0 ps0] eqn:PS; [discriminate|].
  rewrite <- PS in *. rewrite select_chosen.
  assert (E : existsb (fun p => negb (is_del p) && (warn_tol <? Z.abs (t - w_time p))%Z) (to_record t m ps) = false).
  { destruct (existsb _ _) eqn:E; [|reflexivity]. apply existsb_exists in E. destruct E as (p & P & Q).
    destruct (OK p P) as [D|D]; unfold is_del in Q; lia. }
  rewrite E. cbn [andb]. discriminate.
Qed.

(** ** C20 *)
Definition appears (i t : Z) (p : wp V) : bool :=
  (w_id p =? i)%Z && active t p && ((w_dt p * w_time p <=? w_dt p * t)%Z || close (w_time p) t).

Lemma appears_first : forall f t (p : wp V) i, (w_id p =? i)%Z && first_write close f t p =
  appears i t p && negb (existsb (Z.eqb i) (f_written f)).
Proof.
  intros. unfold first_write, appears, started. rewrite to_write_active. destruct (w_id p =? i)%Z eqn:E; [|reflexivity].
  apply Z.eqb_eq in E. subst i. cbn [andb]. reflexivity.
Qed.

Definition once_inv (f : pfile V) : Prop :=
  Forall (fun k => k <= length (f_files f)) (f_once_list f) /\ NoDup (f_once_list f) /\
  map fst (f_once_store f) = rev (f_once_list f).

Lemma load_skip : forall (st : list (nat * npy V)) k g names, ~ In k names ->
  load_all ((k, g) :: st) names = load_all st names.
Proof.
  intros st k g names NI. induction names as [|a names IH]; [reflexivity|]. cbn [load_all load].
  destruct (k =? a) eqn:E; [apply Nat.eqb_eq in E; subst; exfalso; apply NI; left; reflexivity|].
  rewrite IH; [reflexivity|]. intros I. apply NI. right. exact I.
Qed.

Lemma load_all_app : forall (st : list (nat * npy V)) a b,
  load_all st (a ++ b) = match load_all st a, load_all st b with Some x, Some y => Some (x ++ y) | _, _ => None end.
Proof.
  intros st a b. induction a as [|k a IH]; cbn [app load_all].
  - destruct (load_all st b); reflexivity.
  - rewrite IH. destruct (load st k); [|reflexivity]. destruct (load_all st a); [|reflexivity].
    destruct (load_all st b); reflexivity.
Qed.

Lemma once_values_app : forall i var a b, once_values (V:=V) i var (a ++ b) = once_values i var a ++ once_values i var b.
Proof. intros. unfold once_values. apply flat_map_app. Qed.

Lemma once_values_file : forall i var vars (sel : list (wp V)), In var vars ->
  once_values i var [file_of vars sel] = map (fun p => w_val p var) (filter (fun p => w_id p =? i)%Z sel).
Proof.
  intros i var vars sel I. unfold once_values, file_of. cbn. rewrite (assoc_columns _ _ _ I), app_nil_r, combine_same.
  induction sel as [|p sel IH]; [reflexivity|]. cbn. destruct (w_id p =? i)%Z; cbn; rewrite IH; reflexivity.
Qed.

Lemma filter_filter : forall A (f g : A -> bool) l, filter f (filter g l) = filter (fun x => f x && g x) l.
Proof.
  intros A f g l. induction l as [|x l IH]; [reflexivity|]. cbn. destruct (g x), (f x) eqn:F; cbn; rewrite ?F, ?IH; reflexivity.
Qed.

Lemma filter_id_le1 : forall (ps : list (wp V)) i g, NoDup (map w_id ps) ->
  length (filter (fun p => (w_id p =? i)%Z && g p) ps) <= 1.
Proof.
  intros ps i g. induction ps as [|p ps IH]; intros ND; cbn; [lia|]. inversion ND as [|? ? NI ND']; subst.
  destruct ((w_id p =? i)%Z && g p) eqn:E; [|apply IH; exact ND']. cbn.
  assert (Z : filter (fun p => (w_id p =? i)%Z && g p) ps = []).
  { destruct (filter _ ps) as [|q l] eqn:F; [reflexivity|]. exfalso. apply NI.
    assert (Q : In q (filter (fun p => (w_id p =? i)%Z && g p) ps)) by (rewrite F; left; reflexivity).
    apply filter_In in Q. destruct Q as [Q1 Q2]. apply in_map_iff. exists q. split; [lia|exact Q1]. }
  rewrite Z. cbn. lia.
Qed.

Lemma first_first : forall A (a b : list A), firstn 1 (a ++ b) = match a with [] => firstn 1 b | x :: _ => [x] end.
Proof. intros A [|x a] b; reflexivity. Qed.

(** State of the 'once' bookkeeping after some writes: [fs] are the loaded files. *)
Definition once_state (f : pfile V) (var : string) (app : Z -> list (wp V)) : Prop :=
  once_inv f /\
  exists fs, load_all (f_once_store f) (f_once_list f) = Some fs /\
    (exists sels, fs = map (file_of (f_vars_once f)) sels /\
                  f_written f = flat_map (map w_id) sels) /\
    (forall i, once_values i var fs = firstn 1 (map (fun p => w_val p var) (app i))) /\
    (forall i, existsb (Z.eqb i) (f_written f) = nonempty (app i)) /\
    NoDup (f_written f).

Lemma nodup_app_intro : forall A (a b : list A), NoDup a -> NoDup b -> (forall x, In x a -> ~ In x b) -> NoDup (a ++ b).
Proof.
  intros A a b NA NB D. induction a as [|x a IH]; [exact NB|]. inversion NA; subst. cbn. constructor.
  - intros I. apply in_app_or in I. destruct I as [I|I]; [contradiction|]. apply (D x); [left; reflexivity|exact I].
  - apply IH; [assumption|]. intros y Y. apply D. right. exact Y.
Qed.

Lemma nodup_app_parts : forall A (a b : list A), NoDup (a ++ b) -> NoDup a /\ NoDup b.
Proof.
  intros A a b. induction a as [|x a IH]; cbn; intros ND; [split; [constructor|exact ND]|].
  inversion ND as [|? ? NI ND']; subst. destruct (IH ND') as [P Q]. split; [|exact Q]. constructor; [|exact P].
  intros I. apply NI. apply in_or_app. left. exact I.
Qed.

Lemma once_step : forall f t m ps f' var app, good_write (t, m, ps) -> records_something (t, m, ps) ->
  In var (f_vars_once f) -> write f t m ps = Some f' -> once_state f var app ->
  once_state f' var (fun i => app i ++ if skipped f t m then [] else filter (appears i t) ps).
Proof.
  intros f t m ps f' var app G RS IV W OS.
  destruct (write_spec _ _ _ _ _ G W) as (A1 & A2 & A3 & A4).
  destruct (skipped f t m) eqn:SK.
  { subst f'. destruct OS as (OI & fs & L & SE & VA & WR & ND). split; [exact OI|]. exists fs.
    repeat split; auto; intros i; rewrite app_nil_r; auto. }
  destruct A4 as (_ & FL & _ & _ & _ & A5). cbv zeta in A5.
  set (once := match f_vars_once f with [] => [] | _ => filter (first_write close f t) ps end) in A5.
  assert (ON : once = filter (first_write close f t) ps).
  { unfold once. destruct (f_vars_once f); [contradiction|reflexivity]. }
  rewrite ON in A5. clear once ON. destruct A5 as (WR' & OL' & ST').
  destruct OS as ((B & NDL & MF) & fs & L & (sels & SE & SW) & VA & WR & ND).
  set (once := filter (first_write close f t) ps) in *.
  destruct G as (NDP & _ & _).
  assert (SELF : forall i, filter (fun p => w_id p =? i)%Z once =
                if nonempty (app i) then [] else filter (appears i t) ps).
  { intros i. unfold once. rewrite filter_filter.
    rewrite (filter_ext _ (fun p => appears i t p && negb (existsb (Z.eqb i) (f_written f)))) by (intros p; apply appears_first).
    rewrite WR. destruct (nonempty (app i)); cbn [negb].
    - rewrite (filter_ext _ (fun _ => false)) by (intros p; apply andb_false_r). clear. induction ps; [reflexivity|exact IHps].
    - apply filter_ext. intros p. apply andb_true_r. }
  assert (AL1 : forall i, length (filter (appears i t) ps) <= 1).
  { intros i. erewrite (filter_ext (appears i t)); [apply (filter_id_le1 ps i (fun p => active t p && ((w_dt p * w_time p <=? w_dt p * t)%Z || close (w_time p) t)) NDP)|].
    intros p. unfold appears. rewrite andb_assoc. reflexivity. }
  assert (WRN : forall i, existsb (Z.eqb i) (f_written f') = nonempty (app i ++ filter (appears i t) ps)).
  { intros i. rewrite WR', existsb_app, WR.
    assert (EX : existsb (Z.eqb i) (map w_id once) = nonempty (filter (fun p => w_id p =? i)%Z once)).
    { clear. induction once as [|p l IH]; [reflexivity|]. cbn. rewrite Z.eqb_sym. destruct (w_id p =? i)%Z; cbn; [reflexivity|exact IH]. }
    rewrite EX, SELF. destruct (app i); cbn; [reflexivity|reflexivity]. }
  assert (NDW : NoDup (f_written f')).
  { rewrite WR'. apply nodup_app_intro; [exact ND|unfold once; apply nodup_map_filter; exact NDP|].
    intros x X Y. apply in_map_iff in Y. destruct Y as (p & <- & Y). unfold once in Y. apply filter_In in Y.
    destruct Y as [_ Y]. unfold first_write in Y. apply andb_true_iff in Y. destruct Y as [_ Y].
    assert (E : existsb (Z.eqb (w_id p)) (f_written f) = true) by (apply existsb_exists; exists (w_id p); split; [exact X|apply Z.eqb_refl]).
    rewrite E in Y. discriminate. }
  assert (OV : forall i, map (fun p => w_val p var) (filter (fun p => w_id p =? i)%Z once) =
                         if nonempty (app i) then [] else map (fun p => w_val p var) (filter (appears i t) ps)).
  { intros i. rewrite SELF. destruct (nonempty (app i)); reflexivity. }
  assert (VAL : forall i, once_values i var fs ++ map (fun p => w_val p var) (filter (fun p => w_id p =? i)%Z once) =
                firstn 1 (map (fun p => w_val p var) (app i ++ filter (appears i t) ps))).
  { intros i. rewrite VA, OV, map_app, first_first. destruct (app i) as [|q l]; cbn [nonempty map firstn Datatypes.app].
    - specialize (AL1 i). destruct (filter (appears i t) ps) as [|a [|b l]]; cbn in *; try reflexivity; lia.
    - reflexivity. }
  destruct once as [|o1 orest] eqn:EO.
  - cbn in OL', ST'. rewrite app_nil_r in OL'. split.
    + split; [|split].
      * rewrite OL', FL, app_length. eapply Forall_impl; [|exact B]. cbn. lia.
      * rewrite OL'. exact NDL.
      * rewrite OL', ST'. exact MF.
    + exists fs. rewrite OL', ST'. split; [exact L|]. split; [exists sels; rewrite A3, WR'; cbn; rewrite app_nil_r; auto|].
      split; [|auto]. intros i. rewrite <- VAL. cbn. rewrite app_nil_r. reflexivity.
  - cbn in OL', ST'. rewrite <- EO in *.
    assert (GROW : length (f_files f) < length (f_files f')).
    { rewrite FL, app_length. unfold main_files. cbn [map snd filter].
      assert (NE : nonempty (to_record t m ps) = true).
      { assert (NEq : forall l : list (wp V), l <> [] -> nonempty l = true) by (intros [|? ?]; [congruence|reflexivity]).
        destruct m as [| |b]; [|apply NEq; exact RS|apply NEq; exact RS].
        cbn [to_record].
        assert (O1 : In o1 (filter (first_write close f t) ps)) by (fold once; rewrite EO; left; reflexivity).
        apply filter_In in O1. destruct O1 as [O1 O2]. unfold first_write in O2. rewrite to_write_active in O2.
        apply andb_true_iff in O2. destruct O2 as [O2 _]. apply andb_true_iff in O2. destruct O2 as [O2 _].
        destruct (filter (active t) ps) as [|q l] eqn:FF; [|reflexivity]. exfalso.
        assert (Q : In o1 (filter (active t) ps)) by (apply filter_In; auto). rewrite FF in Q. contradiction. }
      rewrite NE. cbn. lia. }
    assert (NI : ~ In (length (f_files f')) (f_once_list f)).
    { intros I. rewrite Forall_forall in B. specialize (B _ I). lia. }
    split.
    + split; [|split].
      * rewrite OL'. apply Forall_app. split; [eapply Forall_impl; [|exact B]; cbn; lia|repeat constructor].
      * rewrite OL'. apply nodup_app_intro; [exact NDL|repeat constructor; intros []|]. intros x X [<-|[]]. contradiction.
      * rewrite OL', ST', rev_app_distr. cbn. f_equal. exact MF.
    + exists (fs ++ [file_of (f_vars_once f) once]). rewrite OL', ST', load_all_app, load_skip by exact NI. rewrite L.
      cbn [load_all load]. rewrite Nat.eqb_refl. split; [reflexivity|].
      split; [exists (sels ++ [once]); rewrite A3, map_app, flat_map_app, SE, WR', SW; cbn; rewrite app_nil_r; auto|].
      split; [|auto]. intros i. rewrite once_values_app, (once_values_file _ _ _ _ IV). apply VAL.
Qed.

Lemma appearances_cons : forall i t (ps : list (wp V)) eff,
  appearances close i ((t, ps) :: eff) = filter (appears i t) ps ++ appearances close i eff.
Proof. reflexivity. Qed.

Lemma once_run : forall ws f f' var app, Forall good_write ws -> Forall records_something ws ->
  In var (f_vars_once f) -> writes f ws = Some f' -> once_state f var app ->
  exists app', (forall i, app' i = app i ++ appearances close i (effective (f_ondelete f) (f_last f) ws)) /\ once_state f' var app'.
Proof.
  induction ws as [|[[t m] ps] ws IH]; intros f f' var app G RS IV W OS; cbn [OutModel.writes] in W.
  - inversion W; subst. exists app. split; [|exact OS]. intros i. cbn. rewrite app_nil_r. reflexivity.
  - apply Forall_cons_iff in G. destruct G as [G1 G2]. apply Forall_cons_iff in RS. destruct RS as [R1 R2].
    destruct (write f t m ps) as [f1|] eqn:W1; [|discriminate].
    pose proof (once_step _ _ _ _ _ _ _ G1 R1 IV W1 OS) as OS1.
    destruct (write_spec _ _ _ _ _ G1 W1) as (A1 & _ & A3 & A4).
    rewrite <- A3 in IV. destruct (IH f1 f' var _ G2 R2 IV W OS1) as (app' & E & OS2).
    exists app'. split; [|exact OS2]. intros i. rewrite E, skipped_effective, A1. destruct (skipped f t m).
    + subst f1. rewrite app_nil_r. reflexivity.
    + destruct A4 as (L & _). rewrite L, appearances_cons, app_assoc. reflexivity.
Qed.

Lemma once_state0 : forall od vars once var, once_state (pfile0 od vars once) var (fun _ => []).
Proof.
  intros. split; [repeat constructor|]. exists []. cbn. split; [reflexivity|].
  split; [exists []; auto|]. split; [reflexivity|]. split; [reflexivity|constructor].
Qed.

Lemma once_all : forall od vars once ws f var, Forall good_write ws -> Forall records_something ws ->
  In var once -> writes (pfile0 od vars once) ws = Some f ->
  exists fs, load_all (f_once_store f) (f_once_list f) = Some fs /\
    forall i, once_values i var fs = firstn 1 (map (fun p => w_val p var) (appearances close i (effective od None ws))).
Proof.
  intros od vars once ws f var G RS IV W.
  destruct (once_run ws _ _ var _ G RS (IV : In var (f_vars_once (pfile0 od vars once))) W (once_state0 _ _ _ _)) as (app' & E & (_ & fs & L & _ & VA & _)).
  exists fs. split; [exact L|]. intros i. rewrite VA, E. reflexivity.
Qed.

(** Export of the 'once' variables, when every particle with an appearance is within the ids of the main
    records. *)
Lemma once_export_all : forall od vars once ws f var, Forall good_write ws -> Forall records_something ws ->
  In var once -> writes (pfile0 od vars once) ws = Some f ->
  (forall i, appearances close i (effective od None ws) <> [] -> recorded_at i (expected od None ws) <> []) ->
  exists rows ids, export_once f var = Some rows /\ StronglySorted Z.lt ids /\
    (forall i, In i ids <-> appearances close i (effective od None ws) <> []) /\
    rows = map (fun i => map Some (firstn 1 (map (fun p => w_val p var) (appearances close i (effective od None ws))))) ids.
Proof.
  intros od vars once ws f var G RS IV W SUB.
  destruct (once_run ws _ _ var _ G RS (IV : In var (f_vars_once (pfile0 od vars once))) W (once_state0 _ _ _ _)) as (app' & E & (_ & fs & L & (sels & SE & SW) & VA & WR & ND)).
  cbn [app pfile0 f_ondelete f_last] in E.
  destruct (writes_spec _ _ _ G W) as (_ & _ & VO & _ & _ & IN & _). cbn [pfile0 f_ondelete f_last f_vars f_vars_once] in *.
  rewrite VO in SE. rewrite <- (app_nil_l (map _ sels)) in SE.
  assert (WB : forall i, In i (f_written f) -> (0 <= i <= f_maxid f)%Z).
  { intros i I. assert (EX : existsb (Z.eqb i) (f_written f) = true) by (apply existsb_exists; exists i; split; [exact I|apply Z.eqb_refl]).
    rewrite WR in EX. assert (NE : app' i <> []) by (destruct (app' i); [discriminate|discriminate]).
    rewrite E in NE. specialize (SUB i NE). destruct (recorded_at i (expected od None ws)) as [|t ts] eqn:RA; [contradiction|].
    destruct (recorded_at_in (expected od None ws) i t) as (sel & p & LG & P & Q); [rewrite RA; left; reflexivity|].
    destruct (IN t sel p LG P) as [MX _]. pose proof (good_log ws od None G) as GL. rewrite Forall_forall in GL.
    destruct (GL _ LG) as [_ NN]. cbn in NN. rewrite Forall_forall in NN. specialize (NN p P). lia. }
  set (log := map (fun sel => (0%Z, sel)) sels).
  assert (SELB : forall sel p, In sel sels -> In p sel -> In (w_id p) (f_written f)).
  { intros sel p S P. rewrite SW. apply in_flat_map. exists sel. split; [exact S|]. apply in_map. exact P. }
  assert (NDS : forall sel, In sel sels -> NoDup (map w_id sel)).
  { intros sel S. rewrite SW in ND. clear - ND S. induction sels as [|a l IH]; [contradiction|]. cbn in ND.
    destruct S as [<-|S]; [apply nodup_app_parts in ND; apply ND|]. apply IH; [apply nodup_app_parts in ND; apply ND|exact S]. }
  assert (FO : fobs var fs = flat_map (fun tp => map (fun p => (w_id p, w_val p var)) (snd tp)) log).
  { subst fs. unfold fobs, log. cbn [app]. rewrite !flat_map_concat_map, !map_map. f_equal. apply map_ext. intros sel. apply zobs_file. exact IV. }
  assert (VL : forall i, values i var log = firstn 1 (map (fun p => w_val p var) (appearances close i (effective od None ws)))).
  { intros i. rewrite <- E, <- VA. subst fs. cbn [app]. unfold values, once_values, log.
    rewrite !flat_map_concat_map, !map_map. f_equal. apply map_ext. intros sel. cbn [snd].
    rewrite <- (once_values_file i var once sel IV). unfold once_values. cbn. rewrite app_nil_r. reflexivity. }
  destruct (read_log_exact true var fs log (f_maxid f) 1) as (rows & R & EX).
  - auto.
  - subst fs. cbn [app]. apply Forall_forall. intros g X. apply in_map_iff in X. destruct X as (sel & <- & S).
    unfold good_npy, file_of. cbn. split; [apply NDS; exact S|]. split.
    + apply Forall_forall. intros i Y. apply in_map_iff in Y. destruct Y as (p & <- & Y). specialize (WB _ (SELB _ _ S Y)). lia.
    + eexists. split; [apply assoc_columns; exact IV|]. rewrite !map_length. reflexivity.
  - exact FO.
  - apply Forall_forall. intros tp X. unfold log in X. apply in_map_iff in X. destruct X as (sel & <- & S). cbn.
    apply Forall_forall. intros p P. apply WB. eapply SELB; eassumption.
  - intros i. rewrite VL. rewrite firstn_length. lia.
  - destruct EX as (ids & w & SS & II & RR & BB & AT). exists rows, ids.
    unfold export_once. rewrite L. split; [exact R|]. split; [exact SS|].
    assert (III : forall i, In i ids <-> appearances close i (effective od None ws) <> []).
    { intros i. rewrite II. rewrite <- E. specialize (WR i).
      assert (Q : recorded_at i log <> [] <-> existsb (Z.eqb i) (f_written f) = true).
      { rewrite existsb_exists, SW. split.
        - intros RA. destruct (recorded_at i log) as [|t ts] eqn:RE; [contradiction|].
          destruct (recorded_at_in log i t) as (sel & p & LG & P & QQ); [rewrite RE; left; reflexivity|].
          exists i. split; [|apply Z.eqb_refl]. unfold log in LG. apply in_map_iff in LG. destruct LG as (sel' & EQ & S). inversion EQ; subst.
          apply in_flat_map. exists sel. split; [exact S|]. apply in_map. exact P.
        - intros (x & X & QQ). apply Z.eqb_eq in QQ. subst x. apply in_flat_map in X. destruct X as (sel & S & X).
          apply in_map_iff in X. destruct X as (p & <- & P). unfold recorded_at. intros C.
          assert (IN0 : In 0%Z (recorded_at (w_id p) log)).
          { unfold recorded_at. apply in_flat_map. exists (0%Z, sel). split; [unfold log; apply in_map; exact S|].
            apply in_map_iff. exists p. split; [reflexivity|]. apply filter_In. split; [exact P|apply Z.eqb_refl]. }
          unfold recorded_at in IN0. rewrite C in IN0. contradiction. }
      rewrite Q, WR. destruct (app' i); cbn; split; congruence. }
    split; [exact III|]. rewrite RR. apply map_ext_in. intros i I. rewrite VL.
    apply III in I. destruct (appearances close i (effective od None ws)) as [|q l] eqn:AP; [contradiction|].
    cbn [map firstn length].
    assert (W1 : w = 1).
    { specialize (BB i). rewrite VL, AP in BB. cbn in BB. destruct AT as [AT|(j & J & AT)]; [lia|]. rewrite VL in AT.
      rewrite firstn_length in AT. lia. }
    subst w. reflexivity.
Qed.

End Session.

(** ** Consequences used in the statements of C19 *)
Section More.
Context {V : Type}.
Variable close : Z -> Z -> bool.
Variable warn_tol : Z.

Lemma same_time_all : forall (f f1 : pfile V) t ps m ps2,
  f_ondelete f = false -> OutModel.write close warn_tol f t DFalse ps = Some f1 ->
  OutModel.write close warn_tol f1 t m ps2 = Some f1.
Proof.
  intros f f1 t ps m ps2 OD W. unfold OutModel.write in W. rewrite OD in W. cbn [negb orb] in W. rewrite andb_true_r in W.
  assert (L : f_last f1 = Some t).
  { destruct (negb match f_last f with Some t0 => (t0 =? t)%Z | None => false end) eqn:E.
    - destruct ps as [|p0 ps0]; [inversion W; reflexivity|]. destruct (_ && _) in W; [discriminate|]. inversion W; reflexivity.
    - inversion W; subst. destruct (f_last f1) as [l|]; [|discriminate]. f_equal. lia. }
  unfold OutModel.write. rewrite L, Z.eqb_refl. reflexivity.
Qed.

Lemma deletion_all : forall (f : pfile V) t b ps, NoDup (map w_id ps) -> Forall (fun p => (0 <= w_id p)%Z) ps ->
  length b = length ps -> pointed b ps <> [] -> (forall p, In p (pointed b ps) -> w_st p = op_Delete) ->
  f_last f <> Some t ->
  exists f1, OutModel.write close warn_tol f t (DMask b) ps = Some f1 /\
    f_files f1 = f_files f ++ [mkNpy (map w_id (pointed b ps))
                                     (map (fun v => (v, map (fun p => w_val p v) (pointed b ps))) (f_vars f))] /\
    f_last f1 = f_last f.
Proof.
  intros f t b ps ND NN LB NE DL LT.
  destruct (OutModel.write close warn_tol f t (DMask b) ps) as [f1|] eqn:W.
  2:{ exfalso. revert W. apply write_total. intros p P. left. apply DL. exact P. }
  exists f1. split; [reflexivity|].
  destruct (write_spec close warn_tol f t (DMask b) ps f1) as (_ & _ & _ & A); [split; [exact ND|split; assumption]|exact W|].
  assert (SK : skipped f t (DMask b) = false).
  { unfold skipped. rewrite andb_false_r, orb_false_r. destruct (f_last f) as [l|]; [|reflexivity].
    destruct (l =? t)%Z eqn:E; [|reflexivity]. exfalso. apply LT. f_equal. lia. }
  rewrite SK in A. destruct A as (L & F & _). split; [|exact L]. rewrite F. unfold main_files. cbn [map snd to_record].
  destruct (pointed b ps); [contradiction|]. reflexivity.
Qed.
End More.
