From Coq Require Import String List ZArith QArith Bool Arith Lia ZifyBool Permutation.
From Verif Require Import ConsModel ConsSpec.
Import ListNotations.
Open Scope string_scope.

Lemma mem_in : forall n l, mem n l = true <-> In n l.
Proof.
  intros n l. unfold mem. rewrite existsb_exists. split; [intros (x & A & B); apply String.eqb_eq in B; subst; exact A|].
  intros H. exists n. split; [exact H|apply String.eqb_refl].
Qed.
Lemma mem_out : forall n l, mem n l = false <-> ~ In n l.
Proof. intros n l. rewrite <- mem_in. destruct (mem n l); split; intros H; try congruence; try discriminate; exfalso; apply H; reflexivity. Qed.

Lemma column_set : forall d n c m, column (set_column d n c) m = if String.eqb n m then (match column d m with Some _ => Some c | None => None end) else column d m.
Proof.
  intros d n c m. unfold column, set_column. induction d as [|[k v] d IH]; cbn [map find fst snd]; [destruct (String.eqb n m); reflexivity|].
  destruct (String.eqb k n) eqn:KN; cbn [fst].
  - apply String.eqb_eq in KN. subst k. destruct (String.eqb n m) eqn:NM; [reflexivity|]. exact IH.
  - destruct (String.eqb k m) eqn:KM.
    + apply String.eqb_eq in KM. subst k. rewrite String.eqb_sym, KN. reflexivity.
    + exact IH.
Qed.
Lemma column_same : forall d n c, In n (map fst d) -> column (set_column d n c) n = Some c.
Proof.
  intros d n c I. rewrite column_set, String.eqb_refl. unfold column.
  destruct (find _ d) eqn:F; [reflexivity|]. exfalso. apply in_map_iff in I. destruct I as (k & E & K).
  pose proof (find_none _ _ F k K) as H. cbn in H. rewrite E, String.eqb_refl in H. discriminate.
Qed.
Lemma column_other : forall d n c m, n <> m -> column (set_column d n c) m = column d m.
Proof. intros d n c m N. rewrite column_set. apply String.eqb_neq in N. rewrite N. reflexivity. Qed.
Lemma set_names : forall d n c, map fst (set_column d n c) = map fst d.
Proof. intros d n c. unfold set_column. rewrite map_map. apply map_ext. intros k. destruct (String.eqb (fst k) n); reflexivity. Qed.
Lemma set_lengths : forall d n c m, (forall k, In k d -> length (snd k) = m) -> length c = m -> forall k, In k (set_column d n c) -> length (snd k) = m.
Proof.
  intros d n c m H L k I. unfold set_column in I. apply in_map_iff in I. destruct I as (k' & E & K). subst k.
  destruct (String.eqb (fst k') n); [exact L|apply H; exact K].
Qed.
Lemma column_in : forall d n, In n (map fst d) -> exists c, column d n = Some c /\ In (n, c) d.
Proof.
  intros d n I. unfold column. destruct (find (fun c => String.eqb (fst c) n) d) as [[k c]|] eqn:F.
  - apply find_some in F. destruct F as [F1 F2]. cbn in F2. apply String.eqb_eq in F2. subst k. exists c. split; [reflexivity|exact F1].
  - exfalso. apply in_map_iff in I. destruct I as (k & E & K). pose proof (find_none _ _ F k K) as H. cbn in H. rewrite E, String.eqb_refl in H. discriminate.
Qed.

(** Further arguments. *)
Lemma further_spec : forall names kw d d', further names kw d = Ok d' -> NoDup (map fst kw) -> map fst d = names ->
  map fst d' = names /\ (forall n l, In (n, l) kw -> column d' n = Some (map Val l) /\ In n names) /\
  (forall n, ~ In n (map fst kw) -> column d' n = column d n).
Proof.
  intros names kw. induction kw as [|[n l] kw IH]; intros d d' E ND SH; cbn [further] in E.
  - inversion E; subst. split; [reflexivity|]. split; [intros n l []|reflexivity].
  - destruct (mem n names) eqn:M; cbn [negb] in E; [|discriminate]. apply mem_in in M. cbn [map fst] in ND. inversion ND; subst.
    destruct (IH _ _ E H2 ltac:(rewrite set_names; reflexivity)) as (A & B & C). split; [exact A|]. split.
    + intros m k [I|I]; [inversion I; subst m k|apply B; exact I]. split; [|exact M]. rewrite (C n H1). apply column_same. exact M.
    + intros m I. cbn [map fst] in I. rewrite C by (intros J; apply I; right; exact J). apply column_other. intros J. apply I. left. exact J.
Qed.
Lemma further_ok : forall names kw d, (forall n l, In (n, l) kw -> In n names) -> exists d', further names kw d = Ok d'.
Proof.
  intros names kw. induction kw as [|[n l] kw IH]; intros d H; cbn [further]; [eexists; reflexivity|].
  rewrite (proj2 (mem_in n names)) by (apply (H n l); left; reflexivity). cbn [negb]. apply IH. intros m k I. apply (H m k). right. exact I.
Qed.
Lemma further_names : forall names kw d d', further names kw d = Ok d' -> forall n l, In (n, l) kw -> In n names.
Proof.
  intros names kw. induction kw as [|[n l] kw IH]; intros d d' E m k I; [destruct I|]. cbn [further] in E.
  destruct (mem n names) eqn:M; cbn [negb] in E; [|discriminate]. destruct I as [I|I]; [inversion I; subst; apply mem_in; exact M|]. eapply IH; eassumption.
Qed.
Lemma further_lengths : forall names kw d d' n, further names kw d = Ok d' -> (forall k, In k d -> length (snd k) = n) -> (forall m l, In (m, l) kw -> length l = n) ->
  forall k, In k d' -> length (snd k) = n.
Proof.
  intros names kw. induction kw as [|[m l] kw IH]; intros d d' n E H K; cbn [further] in E; [inversion E; subst; exact H|].
  destruct (negb (mem m names)); [discriminate|]. eapply IH; [exact E| |intros p q I; apply (K p q); right; exact I].
  apply set_lengths; [exact H|]. rewrite map_length. apply (K m). left. reflexivity.
Qed.

(** Sampling. *)
Lemma sample_all_spec : forall f ts zs ys xs l, sample_all f ts zs ys xs = Ok l -> length zs = length ts -> length ys = length ts -> length xs = length ts ->
  length l = length ts /\ forall i, (i < length ts)%nat -> exists t z y x q, nth_error ts i = Some (Some t) /\ nth_error zs i = Some z /\ nth_error ys i = Some y /\
    nth_error xs i = Some x /\ f t z y x = Some q /\ nth_error l i = Some (Val q).
Proof.
  intros f ts. induction ts as [|t ts IH]; intros [|z zs] [|y ys] [|x xs] l E L1 L2 L3; cbn [length] in *; try discriminate.
  - inversion E; subst. split; [reflexivity|]. intros i I. lia.
  - cbn [sample_all] in E. destruct t as [t|]; [|discriminate]. destruct (f t z y x) as [q|] eqn:F; [|discriminate].
    destruct (sample_all f ts zs ys xs) as [l'|] eqn:S; [|discriminate]. cbn [bind] in E. inversion E; subst.
    destruct (IH zs ys xs l' S ltac:(lia) ltac:(lia) ltac:(lia)) as [A B]. split; [cbn [length]; lia|].
    intros [|i] I; [exists t, z, y, x, q; repeat split; assumption|]. apply B. lia.
Qed.
Lemma sample_all_ok : forall f ts zs ys xs, length zs = length ts -> length ys = length ts -> length xs = length ts ->
  (forall i, (i < length ts)%nat -> exists t z y x q, nth_error ts i = Some (Some t) /\ nth_error zs i = Some z /\ nth_error ys i = Some y /\
    nth_error xs i = Some x /\ f t z y x = Some q) -> exists l, sample_all f ts zs ys xs = Ok l.
Proof.
  intros f ts. induction ts as [|t ts IH]; intros [|z zs] [|y ys] [|x xs] L1 L2 L3 H; cbn [length] in *; try discriminate; [eexists; reflexivity|].
  destruct (H 0%nat ltac:(lia)) as (t0 & z0 & y0 & x0 & q & A & B & C & D & E). cbn in A, B, C, D. inversion A; inversion B; inversion C; inversion D; subst.
  destruct (IH zs ys xs ltac:(lia) ltac:(lia) ltac:(lia)) as (l & S).
  { intros i I. destruct (H (Datatypes.S i) ltac:(lia)) as (t' & z' & y' & x' & q' & HH). exists t', z', y', x', q'. exact HH. }
  cbn [sample_all]. rewrite E, S. eexists; reflexivity.
Qed.

(** Arrays of one length. *)
Definition even (r : arrays) : Prop :=
  let n := length (r_lon r) in length (r_lat r) = n /\ length (r_depth r) = n /\ length (r_time r) = n /\ length (r_pid r) = n /\ forall m l, In (m, l) (r_kw r) -> length l = n.

Definition arrays_of (lastID : Z) (a : cargs) : arrays := mkArrays (a_lon a) (a_lat a) (depths a) (times a) (new_ids lastID a) (a_kw a).
Lemma depths_length : forall a, length (depths a) = count_of a <-> forall l, a_depth a = Some l -> length l = count_of a.
Proof.
  intros a. unfold depths. destruct (a_depth a) as [l|]; [split; [intros H k E; inversion E; subst; exact H|intros H; apply H; reflexivity]|].
  rewrite repeat_length. split; [discriminate|reflexivity].
Qed.
Lemma times_length : forall a, length (times a) = count_of a <-> forall l, a_time a = Some l -> length l = count_of a \/ length l = 1%nat.
Proof.
  intros a. unfold times. destruct (a_time a) as [[|t [|t' l]]|]; rewrite ?repeat_length, ?map_length.
  - split; [intros H k E; inversion E; subst; left; exact H|intros H; destruct (H [] eq_refl) as [K|K]; [exact K|discriminate]].
  - split; [intros _ k E; inversion E; subst; right; reflexivity|reflexivity].
  - split; [intros H k E; inversion E; subst; left; exact H|intros H; destruct (H _ eq_refl) as [K|K]; [exact K|discriminate]].
  - split; [discriminate|reflexivity].
Qed.
Lemma lengths_ok_spec : forall a, lengths_ok a = true <-> length (a_lat a) = count_of a /\ (forall l, a_depth a = Some l -> length l = count_of a) /\
  (forall l, a_time a = Some l -> length l = count_of a \/ length l = 1%nat) /\ (forall n l, In (n, l) (a_kw a) -> length l = count_of a).
Proof.
  intros a. unfold lengths_ok. rewrite !andb_true_iff, !Nat.eqb_eq, depths_length, times_length, forallb_forall. split.
  - intros (((A & B) & C) & D). repeat (split; [assumption|]). intros n l I. specialize (D _ I). apply Nat.eqb_eq in D. exact D.
  - intros (A & B & C & D). repeat (split; [|]); try assumption. intros [n l] I. apply Nat.eqb_eq. apply (D n l I).
Qed.
Lemma pids_length : forall lastID a, proper a -> length (new_ids lastID a) = count_of a.
Proof.
  intros lastID a (_ & _ & P). unfold new_ids, pids. rewrite map_length. destruct (a_pid a); [exact P|]. rewrite map_length, seq_length. reflexivity.
Qed.
Lemma arrays_even : forall lastID a, proper a -> lengths_ok a = true -> even (arrays_of lastID a).
Proof.
  intros lastID a P L. apply lengths_ok_spec in L. destruct L as (A & B & C & D). unfold even, arrays_of. cbn.
  repeat (split; [first [exact A|apply depths_length; exact B|apply times_length; exact C|apply pids_length; exact P]|]). exact D.
Qed.

(** Values of the arrays are those of the specification. *)
Lemma nth_repeat_some : forall {A} (x : A) n i y, nth_error (repeat x n) i = Some y -> y = x /\ (i < n)%nat.
Proof. intros A x n. induction n as [|n IH]; intros [|i] y H; cbn in H; try discriminate; [inversion H; split; [reflexivity|lia]|]. apply IH in H. split; [tauto|lia]. Qed.
Lemma depth_starts : forall vars lastID a i z, nth_error (depths a) i = Some z -> starts_as vars lastID a i "depth" (Val z).
Proof.
  intros vars lastID a i z. unfold depths. destruct (a_depth a) as [l|] eqn:E; intros H; [eapply from_depth; eassumption|].
  apply nth_repeat_some in H. destruct H as [-> _]. apply from_mindepth. exact E.
Qed.
Lemma time_starts : forall vars lastID a i t, length (times a) = count_of a -> nth_error (times a) i = Some t -> starts_as vars lastID a i "time" (val_time t).
Proof.
  intros vars lastID a i t L H. unfold times in *. destruct (a_time a) as [l|] eqn:E; [|apply nth_repeat_some in H; destruct H as [-> _]; apply no_time; exact E].
  assert (M : nth_error (map Some l) i = Some t -> length (map (@Some Q) l) = count_of a -> starts_as vars lastID a i "time" (val_time t)).
  { intros H1 H2. rewrite nth_error_map in H1. destruct (nth_error l i) as [q|] eqn:N; [|discriminate]. inversion H1; subst. rewrite map_length in H2. eapply from_time; eassumption. }
  destruct l as [|q [|q' l]]; [apply M; assumption| |apply M; assumption].
  apply nth_repeat_some in H. destruct H as [-> _]. apply from_one_time. exact E.
Qed.
Lemma id_starts : forall vars lastID a i p, ~ In "id" (map fst (a_kw a)) -> nth_error (new_ids lastID a) i = Some p -> starts_as vars lastID a i "id" (Val (inject_Z p)).
Proof.
  intros vars lastID a i p N H. unfold new_ids, pids in H. rewrite nth_error_map in H. destruct (a_pid a) as [l|] eqn:E.
  - destruct (nth_error l i) as [q|] eqn:F; [|discriminate]. inversion H; subst. eapply from_pid; eassumption.
  - rewrite nth_error_map in H. destruct (nth_error (seq 0 (count_of a)) i) as [k|] eqn:F; [|discriminate]. cbn in H. inversion H; subst.
    assert (K : k = i). { assert (L : (i < length (seq 0 (count_of a)))%nat) by (apply nth_error_Some; congruence). rewrite seq_length in L.
      rewrite (nth_error_nth' _ 0%nat) in F by (rewrite seq_length; exact L). rewrite seq_nth in F by exact L. inversion F. reflexivity. }
    subst k. apply from_count; assumption.
Qed.

(** One set, from its arrays: the columns before the variables are filled. *)
Definition given (r : arrays) : list string := ["lat"; "lon"; "depth"; "time"; "id"] ++ map fst (r_kw r).
Definition started (vars : list vdecl) (r : arrays) : data :=
  let n := length (r_lon r) in
  set_column (set_column (set_column (set_column (set_column (set_column (map (fun v => (v_name v, repeat Junk n)) vars) "lat" (map Val (r_lat r)))
    "lon" (map Val (r_lon r))) "depth" (map Val (r_depth r))) "time" (map val_time (r_time r)))
    "id" (map (fun p => Val (inject_Z p)) (r_pid r))) "fileid" (repeat (Val (-1)) n).
Lemma collect_unfold : forall vars r, even r -> collect vars r =
  bind (further (map v_name vars) (r_kw r) (started vars r)) (fun d => fill r (given r) vars d).
Proof.
  intros vars r (A & B & C & D & E). unfold collect, assign, started. cbv zeta. rewrite D, Nat.eqb_refl. reflexivity.
Qed.
Lemma started_names : forall vars r, map fst (started vars r) = map v_name vars.
Proof. intros vars r. unfold started. cbv zeta. rewrite !set_names, map_map. reflexivity. Qed.
Lemma started_lengths : forall vars r, even r -> forall k, In k (started vars r) -> length (snd k) = length (r_lon r).
Proof.
  intros vars r (A & B & C & D & E). unfold started. cbv zeta. repeat (apply set_lengths; [|rewrite ?map_length, ?repeat_length; congruence]).
  intros k I. apply in_map_iff in I. destruct I as (v & K & _). subst k. apply repeat_length.
Qed.

Section Fill.
  Variables (vars : list vdecl) (lastID : Z) (a : cargs).
  Let r := arrays_of lastID a.
  Hypothesis PR : proper a.
  Hypothesis LO : lengths_ok a = true.
  Hypothesis ND : NoDup (map v_name vars).
  Let n := count_of a.

  Definition known (d : data) (names : list string) : Prop :=
    forall m i, In m names -> In m (map v_name vars) -> (i < n)%nat -> exists c, value_of d m i = Some c /\ starts_as vars lastID a i m c.

  Lemma nth_some : forall {A} (l : list A) i, length l = n -> (i < n)%nat -> exists x, nth_error l i = Some x.
  Proof. intros A l i L I. destruct (nth_error l i) as [x|] eqn:E; [exists x; reflexivity|]. apply nth_error_None in E. lia. Qed.

  Lemma started_known : (forall m, In m ["lat"; "lon"; "depth"; "time"; "id"] -> In m (map v_name vars)) ->
    forall d, further (map v_name vars) (r_kw r) (started vars r) = Ok d -> known d (given r).
  Proof.
    intros BN d F. pose proof PR as (NK & NB & NP). pose proof (arrays_even lastID a PR LO) as (E1 & E2 & E3 & E4 & E5).
    fold r in E1, E2, E3, E4, E5. change (length (r_lon r)) with n in *.
    destruct (further_spec _ _ _ _ F NK (started_names vars r)) as (S1 & S2 & S3).
    assert (SN : forall x, In x ["lat"; "lon"; "depth"; "time"; "id"] -> In x (map fst (map (fun v => (v_name v, repeat Junk (length (r_lon r)))) vars))).
    { intros x I. rewrite map_map. cbn. apply BN. exact I. }
    intros m i I V L. unfold given in I. apply in_app_or in I. destruct I as [I|I].
    2:{ apply in_map_iff in I. destruct I as ((m' & l) & E & K). cbn in E. subst m'. destruct (S2 m l K) as [C _]. unfold value_of. rewrite C.
        destruct (nth_some l i ltac:(apply (E5 m l K)) L) as (q & Q). exists (Val q). rewrite nth_error_map, Q. split; [reflexivity|]. eapply from_kw; eassumption. }
    destruct (in_dec String.string_dec m (map fst (r_kw r))) as [K|K].
    { apply in_map_iff in K. destruct K as ((m' & l) & E & K). cbn in E. subst m'. destruct (S2 m l K) as [C _]. unfold value_of. rewrite C.
      destruct (nth_some l i ltac:(apply (E5 m l K)) L) as (q & Q). exists (Val q). rewrite nth_error_map, Q. split; [reflexivity|]. eapply from_kw; eassumption. }
    unfold value_of. rewrite (S3 m K). unfold started. cbv zeta.
    destruct I as [<-|[<-|[<-|[<-|[<-|[]]]]]].
    - rewrite !column_other by discriminate. rewrite column_same by (apply SN; cbn; tauto). rewrite nth_error_map.
      destruct (nth_some (r_lat r) i E1 L) as (q & Q). rewrite Q. eexists. split; [reflexivity|]. apply from_lat. exact Q.
    - do 4 rewrite column_other by discriminate. rewrite column_same by (rewrite !set_names; apply SN; cbn; tauto). rewrite nth_error_map.
      destruct (nth_some (r_lon r) i eq_refl L) as (q & Q). rewrite Q. eexists. split; [reflexivity|]. apply from_lon. exact Q.
    - do 3 rewrite column_other by discriminate. rewrite column_same by (rewrite !set_names; apply SN; cbn; tauto). rewrite nth_error_map.
      destruct (nth_some (r_depth r) i E2 L) as (q & Q). rewrite Q. eexists. split; [reflexivity|]. apply depth_starts. exact Q.
    - do 2 rewrite column_other by discriminate. rewrite column_same by (rewrite !set_names; apply SN; cbn; tauto). rewrite nth_error_map.
      destruct (nth_some (r_time r) i E3 L) as (q & Q). rewrite Q. eexists. split; [reflexivity|]. apply time_starts; [exact E3|exact Q].
    - do 1 rewrite column_other by discriminate. rewrite column_same by (rewrite !set_names; apply SN; cbn; tauto). rewrite nth_error_map.
      destruct (nth_some (r_pid r) i E4 L) as (q & Q). rewrite Q. eexists. split; [reflexivity|]. apply id_starts; [exact K|exact Q].
  Qed.

  Lemma known_set : forall d names m c, known d names -> ~ In m names -> known (set_column d m c) names.
  Proof.
    intros d names m c K N x i I V L. destruct (K x i I V L) as (y & Y & S). exists y. split; [|exact S].
    unfold value_of in *. rewrite column_other; [exact Y|]. intros E. subst x. contradiction.
  Qed.

  Lemma fill_known : copies_back a vars -> (forall m, In m (given r) -> In m (map v_name vars)) -> forall rest pre d d', vars = (pre ++ rest)%list -> map fst d = map v_name vars -> (forall k, In k d -> length (snd k) = n) ->
    known d (given r ++ map v_name pre) -> (forall done, (forall m, In m done <-> In m (given r ++ map v_name pre)) -> fill r done rest d = Ok d' ->
    map fst d' = map v_name vars /\ (forall k, In k d' -> length (snd k) = n) /\ known d' (map v_name vars)).
  Proof.
    intros CB GV. induction rest as [|v rest IH]; intros pre d d' VV DN DL KN done DO F; cbn [fill] in F.
    - inversion F; subst d'. split; [exact DN|]. split; [exact DL|]. rewrite app_nil_r in VV. intros m i I V L. apply KN; [|exact V|exact L].
      apply in_or_app. right. rewrite <- VV. exact I.
    - assert (VV' : vars = ((pre ++ [v]) ++ rest)%list) by (rewrite <- app_assoc; exact VV).
      assert (IV : In v vars) by (rewrite VV; apply in_or_app; right; left; reflexivity).
      assert (IVN : In (v_name v) (map v_name vars)) by (apply in_map; exact IV).
      destruct (mem (v_name v) done) eqn:M.
      + apply mem_in in M. apply (IH (pre ++ [v])%list d d' VV' DN DL) with (done := done); [| |exact F].
        * intros m i I. apply KN. rewrite map_app in I. cbn [map] in I. apply in_app_or in I. apply in_or_app. destruct I as [I|I]; [left; exact I|].
          apply in_app_or in I. destruct I as [I|[<-|[]]]; [right; exact I|]. apply DO in M. apply in_app_or in M. exact M.
        * intros m. rewrite DO, map_app. cbn [map]. rewrite !in_app_iff. apply DO in M. apply in_app_or in M.
          split; [tauto|]. intros [H|[H|[<-|[]]]]; tauto.
      + apply mem_out in M. assert (NG : ~ In (v_name v) (given r ++ map v_name pre)) by (rewrite <- DO; exact M).
        assert (NG1 : ~ In (v_name v) (given r)) by (intros H; apply NG; apply in_or_app; left; exact H).
        destruct (fill_one r v d) as [c|] eqn:FO; [|discriminate]. cbn [bind] in F.
        assert (C : length c = n /\ forall i, (i < n)%nat -> exists x, nth_error c i = Some x /\ starts_as vars lastID a i (v_name v) x).
        { unfold fill_one in FO. change (length (r_lon r)) with n in FO. pose proof (arrays_even lastID a PR LO) as (E1 & E2 & E3 & E4 & E5). fold r in E1, E2, E3, E4, E5.
          change (length (r_lon r)) with n in *.
          destruct (v_init v) as [x|b|f] eqn:VI.
          - inversion FO; subst c. split; [apply repeat_length|]. intros i I. exists x. split; [apply nth_error_repeat; exact I|]. apply from_const; assumption.
          - destruct (CB pre v rest b VV VI) as [H|H]; [contradiction|].
            assert (BI : In b (given r ++ map v_name pre)) by (apply in_or_app; destruct H as [H|H]; [left; exact H|right; exact H]).
            destruct (column d b) as [c'|] eqn:CD.
            + inversion FO; subst c'. assert (BV : In b (map v_name vars)).
              { rewrite <- DN. unfold column in CD. destruct (find _ d) as [k|] eqn:FF; [|discriminate]. apply find_some in FF. destruct FF as [F1 F2]. apply String.eqb_eq in F2. rewrite <- F2. apply in_map. exact F1. }
              assert (LC : length c = n). { assert (H' : exists k, In k d /\ snd k = c). { unfold column in CD. destruct (find _ d) as [k|] eqn:FF; [|discriminate]. apply find_some in FF. exists k. split; [tauto|]. inversion CD. reflexivity. }
                destruct H' as (k & K1 & K2). rewrite <- K2. apply DL. exact K1. }
              split; [exact LC|]. intros i I. destruct (KN b i BI BV I) as (x & X1 & X2). unfold value_of in X1. rewrite CD in X1. exists x. split; [exact X1|].
              eapply from_copy; eassumption.
            + exfalso. assert (BV : In b (map v_name vars)).
              { destruct H as [H|H]; [apply GV; exact H|rewrite VV, map_app; apply in_or_app; left; exact H]. }
              rewrite <- DN in BV. destruct (column_in d b BV) as (c' & C1 & _). congruence.
          - destruct (sample_all_spec f _ _ _ _ _ FO (eq_trans E2 (eq_sym E3)) (eq_trans E1 (eq_sym E3)) (eq_sym E3)) as [S1 S2]. split; [exact (eq_trans S1 E3)|].
            intros i I. destruct (S2 i ltac:(lia)) as (t & z & y & x & q & T1 & T2 & T3 & T4 & T5 & T6). exists (Val q). split; [exact T6|].
            eapply from_field; [exact IV|exact NG1|exact VI|apply (time_starts vars lastID a i (Some t)); [exact E3|exact T1]|apply depth_starts; exact T2|apply from_lat; exact T3|apply from_lon; exact T4|exact T5]. }
        destruct C as [C1 C2].
        apply (IH (pre ++ [v])%list _ d' VV') with (done := v_name v :: done) in F; [exact F|rewrite set_names; exact DN|apply set_lengths; assumption| |].
        * rewrite map_app. cbn [map]. intros m i I V L. rewrite app_assoc in I. apply in_app_or in I. destruct I as [I|[<-|[]]].
          -- exact (known_set d _ _ c KN NG m i I V L).
          -- unfold value_of. rewrite column_same by (rewrite DN; exact IVN). apply C2. exact L.
        * intros m. cbn [In]. rewrite map_app. cbn [map]. rewrite app_assoc, (in_app_iff _ [v_name v]), DO. cbn [In]. tauto.
  Qed.
End Fill.

Definition base_names : list string := ["lat"; "lon"; "depth"; "time"; "id"].

Lemma make_set_unfold : forall vars lastID a, proper a -> lengths_ok a = true -> make_set vars lastID a =
  bind (collect vars (arrays_of lastID a)) (fun d => Ok ((offset lastID a + 1)%Z, d)).
Proof. intros vars lastID a P L. unfold make_set, construct. rewrite L. cbn [negb]. unfold divide. rewrite andb_false_r. reflexivity. Qed.

Theorem set_as_asked : forall vars lastID a l d, NoDup (map v_name vars) -> (forall m, In m base_names -> In m (map v_name vars)) -> proper a -> copies_back a vars ->
  make_set vars lastID a = Ok (l, d) ->
  map fst d = map v_name vars /\ (forall m c, In (m, c) d -> length c = count_of a) /\
  forall m i, In m (map v_name vars) -> (i < count_of a)%nat -> exists c, value_of d m i = Some c /\ starts_as vars lastID a i m c.
Proof.
  intros vars lastID a l d ND BN P CB E.
  assert (L : lengths_ok a = true). { unfold make_set, construct in E. destruct (lengths_ok a); [reflexivity|discriminate]. }
  rewrite (make_set_unfold vars lastID a P L), (collect_unfold vars _ (arrays_even lastID a P L)) in E.
  destruct (further (map v_name vars) (r_kw (arrays_of lastID a)) (started vars (arrays_of lastID a))) as [d1|] eqn:F; [|discriminate]. cbn [bind] in E.
  destruct (fill (arrays_of lastID a) (given (arrays_of lastID a)) vars d1) as [d2|] eqn:G; [|discriminate]. cbn [bind] in E. inversion E; subst l d2.
  pose proof (arrays_even lastID a P L) as EV. pose proof EV as (_ & _ & _ & _ & KL).
  destruct (further_spec _ _ _ _ F (proj1 P) (started_names vars _)) as (S1 & S2 & S3).
  assert (GV : forall m, In m (given (arrays_of lastID a)) -> In m (map v_name vars)).
  { intros m I. unfold given in I. apply in_app_or in I. destruct I as [I|I]; [apply BN; exact I|].
    apply in_map_iff in I. destruct I as ([m' k] & M & I). cbn in M. subst m'. apply (S2 m k I). }
  destruct (fill_known vars lastID a P L CB GV vars [] d1 d eq_refl S1) with (done := given (arrays_of lastID a)) as (A & B & C).
  - exact (further_lengths _ _ _ _ _ F (started_lengths vars _ EV) KL).
  - cbn [map]. rewrite app_nil_r. apply started_known; assumption.
  - intros m. cbn [map]. rewrite app_nil_r. reflexivity.
  - exact G.
  - split; [exact A|]. split; [intros m c I; apply (B (m, c) I)|]. intros m i I J. apply C; assumption.
Qed.

(** The set is made exactly when its arguments are complete. *)
Lemma fill_ok : forall r vars done d, (forall v f, In v vars -> ~ In (v_name v) done -> v_init v = ISample f -> exists l, sample_all f (r_time r) (r_depth r) (r_lat r) (r_lon r) = Ok l) ->
  exists d', fill r done vars d = Ok d'.
Proof.
  intros r vars. induction vars as [|v vars IH]; intros done d H; cbn [fill]; [eexists; reflexivity|].
  destruct (mem (v_name v) done) eqn:M; [apply IH; intros w f I; apply H; right; exact I|]. apply mem_out in M.
  assert (F : exists c, fill_one r v d = Ok c).
  { unfold fill_one. destruct (v_init v) as [x|b|f] eqn:V; [eexists; reflexivity|destruct (column d b); eexists; reflexivity|]. apply (H v f); [left; reflexivity|exact M|exact V]. }
  destruct F as (c & F). rewrite F. cbn [bind]. apply IH. intros w f I N. apply H; [right; exact I|]. intros J. apply N. right. exact J.
Qed.
Lemma fill_sampled : forall r vars done d d', NoDup (map v_name vars) -> fill r done vars d = Ok d' ->
  forall v f, In v vars -> ~ In (v_name v) done -> v_init v = ISample f -> exists l, sample_all f (r_time r) (r_depth r) (r_lat r) (r_lon r) = Ok l.
Proof.
  intros r vars. induction vars as [|w vars IH]; intros done d d' ND F v f I N V; [destruct I|]. cbn [fill] in F. cbn [map] in ND. inversion ND; subst.
  destruct I as [->|I].
  - apply mem_out in N. rewrite N in F. unfold fill_one in F. rewrite V in F. destruct (sample_all f (r_time r) (r_depth r) (r_lat r) (r_lon r)); [eexists; reflexivity|discriminate].
  - destruct (mem (v_name w) done); [eapply IH; eassumption|]. destruct (fill_one r w d); [|discriminate]. cbn [bind] in F.
    eapply IH; [assumption|exact F|exact I| |exact V]. intros [J|J]; [|contradiction]. apply H1. rewrite J. apply in_map. exact I.
Qed.
(** The value lon, lat, depth, time start with is that of the arrays. *)
Lemma starts_lon : forall vars lastID a i c, proper a -> starts_as vars lastID a i "lon" c -> exists x, c = Val x /\ nth_error (a_lon a) i = Some x.
Proof.
  intros vars lastID a i c (_ & NB & _) H.
  inversion H; subst; try (exfalso; match goal with K : ~ In (v_name _) _ |- _ => apply K; match goal with J : _ = _ |- _ => rewrite J; cbn; tauto end end).
  - eexists; split; [reflexivity|assumption].
  - exfalso. apply (NB "lon"); [cbn; tauto|]. apply in_map_iff. exists ("lon", l). split; [reflexivity|assumption].
Qed.
Lemma starts_lat : forall vars lastID a i c, proper a -> starts_as vars lastID a i "lat" c -> exists x, c = Val x /\ nth_error (a_lat a) i = Some x.
Proof.
  intros vars lastID a i c (_ & NB & _) H.
  inversion H; subst; try (exfalso; match goal with K : ~ In (v_name _) _ |- _ => apply K; match goal with J : _ = _ |- _ => rewrite J; cbn; tauto end end).
  - eexists; split; [reflexivity|assumption].
  - exfalso. apply (NB "lat"); [cbn; tauto|]. apply in_map_iff. exists ("lat", l). split; [reflexivity|assumption].
Qed.
Lemma starts_depth : forall vars lastID a i c, proper a -> (i < count_of a)%nat -> starts_as vars lastID a i "depth" c -> exists x, c = Val x /\ nth_error (depths a) i = Some x.
Proof.
  intros vars lastID a i c (_ & NB & _) L H.
  inversion H; subst; try (exfalso; match goal with K : ~ In (v_name _) _ |- _ => apply K; match goal with J : _ = _ |- _ => rewrite J; cbn; tauto end end).
  - eexists; split; [reflexivity|]. unfold depths. rewrite H0. assumption.
  - eexists; split; [reflexivity|]. unfold depths. rewrite H0. apply nth_error_repeat. exact L.
  - exfalso. apply (NB "depth"); [cbn; tauto|]. apply in_map_iff. exists ("depth", l). split; [reflexivity|assumption].
Qed.
Lemma starts_time : forall vars lastID a i t, proper a -> (i < count_of a)%nat -> starts_as vars lastID a i "time" (Val t) -> nth_error (times a) i = Some (Some t).
Proof.
  intros vars lastID a i t (_ & NB & _) L H.
  inversion H; subst; try (exfalso; match goal with K : ~ In (v_name _) _ |- _ => apply K; match goal with J : _ = _ |- _ => rewrite J; cbn; tauto end end).
  - unfold times. match goal with T : a_time a = Some _ |- _ => rewrite T end. destruct l as [|q [|q' l]]; try (rewrite nth_error_map; match goal with Q : nth_error _ i = Some t |- _ => rewrite Q end; reflexivity).
    match goal with K : length [q] = count_of a, Q : nth_error [q] i = Some t |- _ => cbn [length] in K; rewrite <- K in L |- *; assert (i = 0%nat) by lia; subst i; cbn in Q; inversion Q; subst end. reflexivity.
  - unfold times. match goal with T : a_time a = Some _ |- _ => rewrite T end. apply nth_error_repeat. exact L.
  - exfalso. apply (NB "time"); [cbn; tauto|]. apply in_map_iff. exists ("time", l). split; [reflexivity|assumption].
Qed.

Theorem set_made_iff : forall vars lastID a, NoDup (map v_name vars) -> (forall m, In m base_names -> In m (map v_name vars)) -> proper a ->
  ((exists d, make_set vars lastID a = Ok ((offset lastID a + 1)%Z, d)) <-> complete vars a).
Proof.
  intros vars lastID a ND BN P. split.
  - intros (d & E). assert (L : lengths_ok a = true). { unfold make_set, construct in E. destruct (lengths_ok a); [reflexivity|discriminate]. }
    pose proof (arrays_even lastID a P L) as EV.
    rewrite (make_set_unfold vars lastID a P L), (collect_unfold vars _ EV) in E.
    destruct (further (map v_name vars) (r_kw (arrays_of lastID a)) (started vars (arrays_of lastID a))) as [d1|] eqn:F; [|discriminate]. cbn [bind] in E.
    destruct (fill (arrays_of lastID a) (given (arrays_of lastID a)) vars d1) as [d2|] eqn:G; [|discriminate].
    pose proof (proj1 (lengths_ok_spec a) L) as (A & B & C & D). split; [exact A|]. split; [exact B|]. split; [exact C|]. split.
    + intros n l I. split; [apply (D n l I)|]. exact (further_names _ _ _ _ F n l I).
    + intros v f i I N V IL. destruct (fill_sampled _ _ _ _ _ ND G v f I N V) as (l & S). destruct EV as (E1 & E2 & E3 & E4 & E5).
      destruct (sample_all_spec f _ _ _ _ _ S (eq_trans E2 (eq_sym E3)) (eq_trans E1 (eq_sym E3)) (eq_sym E3)) as [_ S2].
      destruct (S2 i ltac:(rewrite E3; exact IL)) as (t & z & y & x & q & T1 & T2 & T3 & T4 & T5 & T6). exists t, z, y, x, q.
      split; [apply (time_starts vars 0 a i (Some t)); [exact E3|exact T1]|]. split; [apply depth_starts; exact T2|]. split; [apply from_lat; exact T3|]. split; [apply from_lon; exact T4|exact T5].
  - intros (A & B & C & D & S). assert (L : lengths_ok a = true). { apply lengths_ok_spec. repeat (split; [assumption|]). intros n l I. apply (D n l I). }
    pose proof (arrays_even lastID a P L) as EV. destruct EV as (E1 & E2 & E3 & E4 & E5).
    rewrite (make_set_unfold vars lastID a P L), (collect_unfold vars _ (arrays_even lastID a P L)).
    destruct (further_ok (map v_name vars) (r_kw (arrays_of lastID a)) (started vars (arrays_of lastID a))) as (d1 & F); [intros n l I; apply (D n l I)|]. rewrite F. cbn [bind].
    destruct (fill_ok (arrays_of lastID a) vars (given (arrays_of lastID a)) d1) as (d2 & G); [|rewrite G; eexists; reflexivity].
    intros v f I N V. apply sample_all_ok; [exact (eq_trans E2 (eq_sym E3))|exact (eq_trans E1 (eq_sym E3))|exact (eq_sym E3)|].
    intros i IL. rewrite E3 in IL. destruct (S v f i I N V IL) as (t & z & y & x & q & T1 & T2 & T3 & T4 & T5). exists t, z, y, x, q.
    split; [eapply starts_time; eassumption|]. destruct (starts_depth _ _ _ _ _ P IL T2) as (z' & Z1 & Z2). inversion Z1; subst z'. split; [exact Z2|].
    destruct (starts_lat _ _ _ _ _ P T3) as (y' & Y1 & Y2). inversion Y1; subst y'. split; [exact Y2|].
    destruct (starts_lon _ _ _ _ _ P T4) as (x' & X1 & X2). inversion X1; subst x'. split; [exact X2|exact T5].
Qed.
