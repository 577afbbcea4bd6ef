(** Proofs about releases (C56): lines, cells drawn from a field, positions in them. *)
From Coq Require Import List ZArith Bool QArith Reals Lia Lqa ZifyBool Arith.
From Verif Require Import IdxModel IdxBase IdxSpec IdxProofs TimeModel InterpModel InterpSpec TimeProofs InterpProofs MethSpec CurvModel ReleaseModel ReleaseSpec.
From Verif Require CurvSpec.
Import ListNotations.
Open Scope Q_scope.

(** ** Lines *)
Lemma nq_pos n : (0 < n)%nat -> 0 < inject_Z (Z.of_nat n).
Proof. intros H. change 0 with (inject_Z 0). rewrite <- Zlt_Qlt. lia. Qed.
Lemma linspace_at a b n k x : nth_error (linspace a b n) k = Some x -> equidistant a b n k x /\ (k < n)%nat.
Proof.
  unfold linspace. rewrite nth_error_map. destruct (nth_error (seq 0 n) k) as [m|] eqn:E; [|discriminate]. cbn [option_map].
  assert (K : (k < n)%nat) by (assert (nth_error (seq 0 n) k <> None) by congruence; apply nth_error_Some in H; rewrite seq_length in H; exact H).
  assert (M : m = k). { apply nth_error_nth with (d := O) in E. rewrite seq_nth in E by exact K. cbn in E. congruence. }
  subst m. intros X. injection X as <-. split; [|exact K]. unfold equidistant.
  destruct (Nat.eq_dec n 1) as [->|N].
  - left. split; [reflexivity|]. assert (k = 0)%nat by lia. subst k. cbn. unfold Qdiv. ring.
  - right. assert (P : 0 < inject_Z (Z.of_nat (n - 1))) by (apply nq_pos; lia).
    destruct ((1 <? n)%nat && (k =? n - 1)%nat) eqn:B.
    + assert (k = n - 1)%nat by lia. subst k. split; [lia|]. reflexivity.
    + split; [lia|]. field. lra.
Qed.
Lemma linspace_length a b n : length (linspace a b n) = n.
Proof. unfold linspace. rewrite map_length. apply seq_length. Qed.

Lemma sum_cons x l : qsum (x :: l) = x + qsum l.
Proof. reflexivity. Qed.

(** ** Choosing by cumulated probabilities *)
Lemma search_is l : forall s u m, (forall x, In x l -> 0 <= x) -> (m < length l)%nat -> s + qsum (firstn m l) <= u -> u < s + qsum (firstn (S m) l) ->
  search_right (cumsum s l) u = m.
Proof.
  induction l as [|x l IH]; intros s u m P M A B; [cbn in M; lia|]. cbn [cumsum search_right].
  destruct m as [|m].
  - cbn in A, B. replace (qle (s + x) u) with false by (symmetry; apply qle_false; lra). reflexivity.
  - cbn [firstn qsum fold_right] in A. fold (qsum (firstn m l)) in A.
    assert (N : 0 <= qsum (firstn m l)).
    { assert (Q : forall k, (forall y, In y k -> 0 <= y) -> 0 <= qsum k) by (induction k as [|y k IHk]; intros Hk; cbn; [lra|]; assert (0 <= y) by (apply Hk; left; reflexivity); specialize (IHk (fun z Z => Hk z (or_intror Z))); unfold qsum in IHk; lra).
      apply Q. intros y Y. apply P. right. rewrite <- (firstn_skipn m l). apply in_or_app. left. exact Y. }
    replace (qle (s + x) u) with true by (symmetry; apply qle_spec; lra). f_equal. apply IH.
    + intros y Y. apply P. right. exact Y.
    + cbn in M. lia.
    + lra.
    + change (firstn (S (S m)) (x :: l)) with (x :: firstn (S m) l) in B. cbn [qsum fold_right] in B. fold (qsum (firstn (S m) l)) in B. lra.
Qed.
Lemma search_some l : forall s u, (forall x, In x l -> 0 <= x) -> s <= u -> u < s + qsum l ->
  exists m, (m < length l)%nat /\ s + qsum (firstn m l) <= u /\ u < s + qsum (firstn (S m) l).
Proof.
  induction l as [|x l IH]; intros s u P A B; [cbn in B; lra|].
  destruct (Qlt_le_dec u (s + x)) as [C|C].
  - exists O. cbn. split; [lia|]. split; lra.
  - destruct (IH (s + x) u) as (m & M & M1 & M2).
    + intros y Y. apply P. right. exact Y.
    + exact C.
    + cbn in B. fold (qsum l) in B. lra.
    + exists (S m). split; [cbn; lia|].
      change (firstn (S m) (x :: l)) with (x :: firstn m l). change (firstn (S (S m)) (x :: l)) with (x :: firstn (S m) l). cbn [qsum fold_right].
      fold (qsum (firstn m l)). fold (qsum (firstn (S m) l)). split; lra.
Qed.
Lemma sum_nonneg l : (forall y, In y l -> 0 <= y) -> 0 <= qsum l.
Proof.
  induction l as [|y l IH]; intros H; cbn; [lra|]. assert (0 <= y) by (apply H; left; reflexivity). fold (qsum l).
  assert (0 <= qsum l) by (apply IH; intros z Z; apply H; right; exact Z). lra.
Qed.
Lemma sum_app a b : qsum (a ++ b) == qsum a + qsum b.
Proof. induction a as [|x a IH]; [cbn [app]; change (qsum []) with 0; lra|]. cbn [app]. rewrite !sum_cons. lra. Qed.
Lemma sum_step l m : (m < length l)%nat -> qsum (firstn (S m) l) == qsum (firstn m l) + nth m l 0.
Proof.
  revert m. induction l as [|x l IH]; intros m M; [cbn in M; lia|]. destruct m as [|m]; [cbn; lra|].
  change (firstn (S (S m)) (x :: l)) with (x :: firstn (S m) l). change (firstn (S m) (x :: l)) with (x :: firstn m l). cbn [qsum fold_right nth].
  fold (qsum (firstn m l)) (qsum (firstn (S m) l)). rewrite IH by (cbn in M; lia). lra.
Qed.
Lemma sum_part l m : (forall y, In y l -> 0 <= y) -> qsum (firstn m l) <= qsum l.
Proof.
  intros P. rewrite <- (firstn_skipn m l) at 2. rewrite sum_app. assert (0 <= qsum (skipn m l)); [|lra].
  apply sum_nonneg. intros y Y. apply P. rewrite <- (firstn_skipn m l). apply in_or_app. right. exact Y.
Qed.
Lemma part_nonneg l m : (forall y, In y l -> 0 <= y) -> 0 <= qsum (firstn m l).
Proof. intros P. apply sum_nonneg. intros y Y. apply P. rewrite <- (firstn_skipn m l). apply in_or_app. left. exact Y. Qed.
Lemma part_mono l m k : (forall y, In y l -> 0 <= y) -> (m <= k)%nat -> qsum (firstn m l) <= qsum (firstn k l).
Proof.
  intros P K. replace m with (Nat.min m k) by lia. rewrite <- firstn_firstn. apply sum_part.
  intros y Y. apply P. rewrite <- (firstn_skipn k l). apply in_or_app. left. exact Y.
Qed.
Lemma choice_at l u m : (forall x, In x l -> 0 <= x) -> qsum l == 1 -> unit_ u ->
  (choice l u = Some m <-> (m < length l)%nat /\ qsum (firstn m l) <= u /\ u < qsum (firstn (S m) l)).
Proof.
  intros P T [U0 U1]. unfold choice. destruct l as [|x0 l0] eqn:EL; [exfalso; cbn in T; lra|]. rewrite <- EL in *.
  replace (existsb (fun x => qlt x 0) l) with false.
  2:{ symmetry. apply not_true_is_false. intros E. apply existsb_exists in E. destruct E as (x & I & Q). apply qlt_spec in Q. specialize (P x I). lra. }
  destruct (search_some l 0 u P U0 ltac:(lra)) as (k & K & K1 & K2).
  rewrite (search_is l 0 u k P K K1 K2). split.
  - intros E. injection E as <-. split; [exact K|]. lra.
  - intros (M & M1 & M2). f_equal. rewrite <- (search_is l 0 u k P K K1 K2). apply search_is; [exact P|exact M|lra|lra].
Qed.

(** ** Cells in a row *)
Lemma row_of_cells a b : (0 < b)%nat ->
  map (fun m => (m / b, m mod b)%nat) (seq 0 (a * b)) = flat_map (fun j => map (fun i => (j, i)) (seq 0 b)) (seq 0 a).
Proof.
  intros B. induction a as [|a IH]; [reflexivity|].
  replace (S a * b)%nat with (a * b + b)%nat by lia. rewrite seq_app, map_app, IH, seq_S, flat_map_app. f_equal. cbn [flat_map Nat.add]. rewrite app_nil_r.
  rewrite <- (Nat.add_0_l (a * b)) at 1. 
  replace (seq (0 + a * b) b) with (map (fun k => k + a * b)%nat (seq 0 b)).
  2:{ clear. generalize (a * b)%nat as n. intros n. generalize 0%nat as s. induction b as [|b IH]; intros s; [reflexivity|]. cbn. f_equal. exact (IH (S s)). }
  rewrite map_map. apply map_ext_in. intros k K. apply in_seq in K. f_equal.
  - rewrite Nat.div_add by lia. rewrite Nat.div_small by lia. lia.
  - rewrite Nat.mod_add by lia. apply Nat.mod_small. lia.
Qed.

Section Draw.
Variables (tracer : bool) (ny nx : nat) (d w : nat -> nat -> Q).
Hypothesis NY : (2 <= ny)%nat.
Hypothesis NX : (2 <= nx)%nat.
Hypothesis TR : tracer = true -> (3 <= ny)%nat /\ (3 <= nx)%nat.
Hypothesis SH : forall j i, (j + 1 < ny)%nat -> (i + 1 < nx)%nat -> share tracer d j i (w j i) /\ 0 <= w j i.
Hypothesis TP : 0 < total ny nx w.

Lemma dims_interior : f_dims (interior tracer (layer ny nx d)) = [(ny - 1)%nat; (nx - 1)%nat].
Proof.
  unfold interior. destruct tracer; [|reflexivity]. destruct (TR eq_refl) as [A B]. cbn.
  replace (ny - 1 =? 1)%nat with false by lia. replace (nx - 1 =? 1)%nat with false by lia. reflexivity.
Qed.
Lemma value_interior j i : (j + 1 < ny)%nat -> (i + 1 < nx)%nat -> f_get (interior tracer (layer ny nx d)) [j; i] == w j i.
Proof.
  intros J I. destruct (SH j i J I) as [S _]. unfold interior, share in *. destruct tracer.
  - destruct (TR eq_refl) as [A B]. cbn. replace (ny - 1 =? 1)%nat with false by lia. replace (nx - 1 =? 1)%nat with false by lia. symmetry. exact S.
  - cbn -[Qeq_bool]. cbv zeta in S. destruct S as [S1 S2].
    assert (Z1 : forall c, In c [d j i; d j (S i); d (S j) i; d (S j) (S i)] -> Qeq_bool c 0 = true -> w j i == 0).
    { intros c C E. apply S1. exists c. split; [exact C|]. apply Qeq_bool_iff. exact E. }
    destruct (Qeq_bool (d j (S i)) 0) eqn:E1; [symmetry; apply (Z1 _ (or_intror (or_introl eq_refl)) E1)|].
    destruct (Qeq_bool (d (S j) (S i)) 0) eqn:E2; [symmetry; apply (Z1 _ (or_intror (or_intror (or_intror (or_introl eq_refl)))) E2)|].
    destruct (Qeq_bool (d (S j) i) 0) eqn:E3; [symmetry; apply (Z1 _ (or_intror (or_intror (or_introl eq_refl))) E3)|].
    destruct (Qeq_bool (d j i) 0) eqn:E4; [symmetry; apply (Z1 _ (or_introl eq_refl) E4)|].
    assert (Q1 : 4 * w j i == d j i + d j (S i) + d (S j) i + d (S j) (S i)).
    { apply S2. intros c [<-|[<-|[<-|[<-|[]]]]] E; apply Qeq_bool_iff in E; congruence. }
    match goal with |- ?a / 4 == _ => assert (Q2 : a == 4 * w j i) by lra end. rewrite Q2. field.
Qed.
Let n := ((ny - 1) * (nx - 1))%nat.
Let p := flat (interior tracer (layer ny nx d)).
Lemma unravel_at m : unravel [(ny - 1)%nat; (nx - 1)%nat] m = [(m / (nx - 1))%nat; (m mod (nx - 1))%nat].
Proof. cbn [unravel prod]. rewrite Nat.mul_1_r, Nat.div_1_r. reflexivity. Qed.
Lemma p_length : length p = n.
Proof. unfold p, flat. rewrite map_length, seq_length, dims_interior. cbn [prod]. unfold n. lia. Qed.
Lemma p_at m : (m < n)%nat -> nth m p 0 == w (m / (nx - 1)) (m mod (nx - 1)).
Proof.
  intros M. unfold p, flat. rewrite dims_interior.
  rewrite nth_indep with (d' := f_get (interior tracer (layer ny nx d)) (unravel [(ny - 1)%nat; (nx - 1)%nat] O)).
  2:{ rewrite map_length, seq_length. cbn [prod]. unfold n in M. lia. }
  rewrite (map_nth (fun m => f_get (interior tracer (layer ny nx d)) (unravel [(ny - 1)%nat; (nx - 1)%nat] m))).
  rewrite seq_nth by (cbn [prod]; unfold n in M; lia). rewrite unravel_at. rewrite Nat.add_0_l. apply value_interior.
  - assert (m / (nx - 1) < ny - 1)%nat; [|lia]. apply Nat.div_lt_upper_bound; unfold n in M; lia.
  - assert (m mod (nx - 1) < nx - 1)%nat; [|lia]. apply Nat.mod_upper_bound. lia.
Qed.
Lemma p_in x : In x p -> exists m, (m < n)%nat /\ x == w (m / (nx - 1)) (m mod (nx - 1)).
Proof.
  intros I. apply (In_nth _ _ 0) in I. destruct I as (m & M & <-). rewrite p_length in M. exists m. split; [exact M|]. apply p_at. exact M.
Qed.
Lemma cell_range m : (m < n)%nat -> (m / (nx - 1) + 1 < ny)%nat /\ (m mod (nx - 1) + 1 < nx)%nat.
Proof.
  intros M. split.
  - assert (m / (nx - 1) < ny - 1)%nat; [|lia]. apply Nat.div_lt_upper_bound; unfold n in M; lia.
  - assert (m mod (nx - 1) < nx - 1)%nat; [|lia]. apply Nat.mod_upper_bound. lia.
Qed.
Lemma sum_eq l l' : length l = length l' -> (forall k, (k < length l)%nat -> nth k l 0 == nth k l' 0) -> qsum l == qsum l'.
Proof.
  revert l'. induction l as [|x l IH]; intros [|y l'] L E; try discriminate; [reflexivity|]. cbn [qsum fold_right]. fold (qsum l) (qsum l').
  rewrite (IH l'); [|cbn in L; lia|intros k K; exact (E (S k) ltac:(cbn; lia))]. specialize (E O ltac:(cbn; lia)). cbn in E. lra.
Qed.
Lemma p_total : qsum p == total ny nx w.
Proof.
  unfold total. fold (qsum (map (fun c : nat * nat => w (fst c) (snd c)) (cells ny nx))). unfold cells.
  rewrite <- row_of_cells by lia. fold n. apply sum_eq.
  - rewrite p_length, !map_length, seq_length. reflexivity.
  - intros k K. rewrite p_length in K. rewrite p_at by exact K. rewrite map_map.
    rewrite nth_indep with (d' := w (O / (nx - 1)) (O mod (nx - 1))) by (rewrite map_length, seq_length; exact K).
    rewrite (map_nth (fun m => w (fst (m / (nx - 1), m mod (nx - 1))%nat) (snd (m / (nx - 1), m mod (nx - 1))%nat)) (seq 0 n) O).
    rewrite seq_nth by exact K. reflexivity.
Qed.
Let q := map (fun x => x / qsum p) p.
Lemma q_length : length q = n.
Proof. unfold q. rewrite map_length. exact p_length. Qed.
Lemma q_at m : (m < n)%nat -> nth m q 0 == w (m / (nx - 1)) (m mod (nx - 1)) / total ny nx w.
Proof.
  intros M. unfold q. rewrite nth_indep with (d' := 0 / qsum p) by (rewrite map_length, p_length; exact M).
  rewrite (map_nth (fun x => x / qsum p)), p_at, p_total by exact M. reflexivity.
Qed.
Lemma q_nonneg x : In x q -> 0 <= x.
Proof.
  unfold q. rewrite in_map_iff. intros (y & <- & Y). destruct (p_in y Y) as (m & M & E). destruct (cell_range m M) as [A B].
  destruct (SH _ _ A B) as [_ W]. rewrite p_total. apply Qle_shift_div_l; [exact TP|]. rewrite E. lra.
Qed.
Lemma q_sum : qsum q == 1.
Proof.
  assert (S : forall l c, ~ c == 0 -> qsum (map (fun x => x / c) l) == qsum l / c).
  { intros l c C. induction l as [|x l IH]; cbn; [field; exact C|]. unfold qsum in IH. rewrite IH. field. exact C. }
  unfold q. rewrite S; rewrite p_total; [field|]; lra.
Qed.
Lemma draw_is u j i : unit_ u -> (j + 1 < ny)%nat -> (i + 1 < nx)%nat -> let m := (j * (nx - 1) + i)%nat in
  (draw_cell tracer (layer ny nx d) u = Some (j, i) <-> qsum (firstn m q) <= u /\ u < qsum (firstn (S m) q)).
Proof.
  intros U J I m. unfold draw_cell. cbv zeta. fold p.
  replace (Qeq_bool (qsum p) 0) with false by (symmetry; apply not_true_is_false; intros E; apply Qeq_bool_iff in E; rewrite p_total in E; lra).
  fold q. rewrite dims_interior.
  assert (M : (m < n)%nat) by (unfold m, n; nia).
  assert (D1 : (m / (nx - 1) = j)%nat) by (unfold m; rewrite Nat.add_comm, Nat.div_add by lia; rewrite Nat.div_small by lia; lia).
  assert (D2 : (m mod (nx - 1) = i)%nat) by (unfold m; rewrite Nat.add_comm, Nat.mod_add by lia; apply Nat.mod_small; lia).
  destruct (search_some q 0 u q_nonneg (proj1 U)) as (k & K & K1 & K2); [destruct U; rewrite q_sum; lra|].
  assert (CK : choice q u = Some k) by (apply choice_at; [exact q_nonneg|exact q_sum|exact U|]; split; [exact K|]; lra).
  rewrite CK, unravel_at. split.
  - intros E. injection E as E1 E2. assert (k = m).
    { unfold m. rewrite <- E1, <- E2. rewrite (Nat.div_mod k (nx - 1)) at 1 by lia. lia. }
    subst k. split; lra.
  - intros [A B]. assert (CM : choice q u = Some m) by (apply choice_at; [exact q_nonneg|exact q_sum|exact U|]; split; [rewrite q_length; exact M|]; split; assumption).
    rewrite CM in CK. injection CK as <-. rewrite D1, D2. reflexivity.
Qed.
Lemma draw_probability j i : (j + 1 < ny)%nat -> (i + 1 < nx)%nat ->
  with_probability (w j i / total ny nx w) (fun u => draw_cell tracer (layer ny nx d) u = Some (j, i)).
Proof.
  intros J I. set (m := (j * (nx - 1) + i)%nat).
  assert (M : (m < n)%nat) by (unfold m, n; nia).
  assert (D1 : (m / (nx - 1) = j)%nat) by (unfold m; rewrite Nat.add_comm, Nat.div_add by lia; rewrite Nat.div_small by lia; lia).
  assert (D2 : (m mod (nx - 1) = i)%nat) by (unfold m; rewrite Nat.add_comm, Nat.mod_add by lia; apply Nat.mod_small; lia).
  pose proof (sum_step q m ltac:(rewrite q_length; exact M)) as ST. rewrite (q_at m M), D1, D2 in ST.
  exists (qsum (firstn m q)). split; [apply part_nonneg, q_nonneg|].
  split; [rewrite <- ST; rewrite <- q_sum; apply sum_part, q_nonneg|].
  intros u U. rewrite (draw_is u j i U J I). fold m. rewrite ST. reflexivity.
Qed.
Lemma draw_some u : unit_ u -> exists j i, draw_cell tracer (layer ny nx d) u = Some (j, i) /\ (j + 1 < ny)%nat /\ (i + 1 < nx)%nat /\ 0 < w j i.
Proof.
  intros U. destruct (search_some q 0 u q_nonneg (proj1 U)) as (k & K & K1 & K2); [destruct U; rewrite q_sum; lra|].
  rewrite q_length in K. destruct (cell_range k K) as [A B]. exists (k / (nx - 1))%nat, (k mod (nx - 1))%nat.
  assert (E : (k / (nx - 1) * (nx - 1) + k mod (nx - 1) = k)%nat) by (rewrite (Nat.div_mod k (nx - 1)) at 3 by lia; lia).
  split; [apply draw_is; [exact U|exact A|exact B|]; rewrite E; split; lra|]. split; [exact A|]. split; [exact B|].
  pose proof (sum_step q k ltac:(rewrite q_length; exact K)) as ST. rewrite (q_at k K) in ST.
  assert (P1 : 0 < w (k / (nx - 1)) (k mod (nx - 1)) / total ny nx w) by lra.
  destruct (Qlt_le_dec 0 (w (k / (nx - 1)) (k mod (nx - 1)))) as [|C]; [assumption|]. exfalso.
  assert (w (k / (nx - 1)) (k mod (nx - 1)) / total ny nx w <= 0) by (apply Qle_shift_div_r; lra). lra.
Qed.
End Draw.

(** ** Positions *)
Lemma between_at l i r : (Z.of_nat i + 1 < zlen l)%Z -> 0 <= r <= 1 -> exists x, between l i r = Some x /\ in_cell l x (Z.of_nat i) r.
Proof.
  intros I R. unfold between. rewrite !pyget_in by lia. eexists. split; [reflexivity|]. unfold in_cell. repeat split; try lra; try lia.
Qed.
Lemma in_cell_inside l x i r : axis_ok l -> in_cell l x i r -> first_ l <= x <= last_ l.
Proof.
  intros [L I] (I0 & I1 & R0 & R1 & E). assert (A : at_ l 0 <= at_ l i) by (apply inc_le; [exact I|lia..]).
  assert (B : at_ l (i + 1) <= at_ l (zlen l - 1)) by (apply inc_le; [exact I|lia..]). assert (C : at_ l i < at_ l (i + 1)) by (apply I; lia).
  unfold first_, last_. rewrite E. split; nra.
Qed.
(** A position strictly inside a cell is in no other. *)
Lemma strict_cell l x i r j s : increasing l -> in_cell l x i r -> 0 < r < 1 -> in_cell l x j s -> j = i.
Proof.
  intros I (I0 & I1 & R0 & R1 & E) [R2 R3] (J0 & J1 & S0 & S1 & F).
  assert (A : at_ l i < at_ l (i + 1)) by (apply I; lia). assert (B : at_ l j < at_ l (j + 1)) by (apply I; lia).
  assert (X1 : at_ l i < x) by (rewrite E; nra). assert (X2 : x < at_ l (i + 1)) by (rewrite E; nra).
  assert (Y1 : at_ l j <= x) by (rewrite F; nra). assert (Y2 : x <= at_ l (j + 1)) by (rewrite F; nra).
  destruct (Z_lt_ge_dec j i) as [C|C]; [|destruct (Z_lt_ge_dec i j) as [C'|C']; [|lia]]; exfalso.
  - assert (at_ l (j + 1) <= at_ l i) by (apply inc_le; [exact I|lia..]). lra.
  - assert (at_ l (i + 1) <= at_ l j) by (apply inc_le; [exact I|lia..]). lra.
Qed.

Lemma lin_positive l f i r : 0 <= r <= 1 -> (1 < zlen l)%Z -> 0 < f i -> 0 < f (i + 1)%Z -> 0 < lin1 l f i r.
Proof. intros R L A B. unfold lin1. replace (zlen l =? 1)%Z with false by lia. nra. Qed.

Section Sampled.
Variables (f : sfield).
Let ny := length (s_lat f). Let nx := length (s_lon f).
Let d (j i : nat) := s_data f 0 0 (Z.of_nat j) (Z.of_nat i).

(** A field sampled linearly. *)
Lemma sampled_positive x y z j i xsi eta q : linear_field f -> zlen (s_depth f) = 1%Z -> (forall j i, 0 <= d j i) ->
  (j + 1 < ny)%nat -> (i + 1 < nx)%nat -> forall w, share false d j i w -> 0 < w ->
  in_cell (s_lon f) x (Z.of_nat i) xsi -> in_cell (s_lat f) y (Z.of_nat j) eta -> frame_value f 0 x y z q -> 0 < q.
Proof.
  intros LF Z1 D J I w SH W CX CY V.
  assert (PC : forall c, In c [d j i; d j (S i); d (S j) i; d (S j) (S i)] -> 0 < c).
  { intros c C. destruct (Qlt_le_dec 0 c) as [|N]; [assumption|]. exfalso.
    assert (c == 0). { assert (0 <= c) by (destruct C as [<-|[<-|[<-|[<-|[]]]]]; apply D). lra. }
    destruct SH as [S1 _]. rewrite S1 in W; [lra|]. exists c. split; [exact C|assumption]. }
  assert (LX : (1 < zlen (s_lon f))%Z) by (unfold zlen, nx in *; lia). assert (LY : (1 < zlen (s_lat f))%Z) by (unfold zlen, ny in *; lia).
  pose (q' := lin1 (s_depth f) (fun k => lin1 (s_lat f) (fun j0 => lin1 (s_lon f) (fun i0 => s_data f 0 k j0 i0) (Z.of_nat i) xsi) (Z.of_nat j) eta) 0%Z 0).
  assert (V' : frame_value f 0 x y z q').
  { exists (Z.of_nat i), (Z.of_nat j), 0%Z, xsi, eta, 0. split; [right; split; assumption|]. split; [right; split; assumption|].
    split; [left; split; [exact Z1|reflexivity]|]. reflexivity. }
  rewrite (frame_value_unique f 0 x y z q q' LF V V'). unfold q', lin1 at 1. rewrite Z1. cbn [Z.eqb Pos.eqb].
  destruct CX as (_ & _ & X0 & X1 & _). destruct CY as (_ & _ & Y0 & Y1 & _).
  assert (SI : Z.of_nat (S i) = (Z.of_nat i + 1)%Z) by lia. assert (SJ : Z.of_nat (S j) = (Z.of_nat j + 1)%Z) by lia.
  unfold d in PC. rewrite SI, SJ in PC.
  apply lin_positive; [lra|exact LY| |]; apply lin_positive; try (lra || exact LX); apply PC; cbn; tauto.
Qed.
(** A tracer on a C-grid. *)
Lemma sampled_tracer x y z j i xsi eta q w : axis_ok (s_lon f) -> axis_ok (s_lat f) -> zlen (s_depth f) = 1%Z ->
  (j + 1 < ny)%nat -> (i + 1 < nx)%nat -> share true d j i w -> 0 < xsi < 1 -> 0 < eta < 1 ->
  in_cell (s_lon f) x (Z.of_nat i) xsi -> in_cell (s_lat f) y (Z.of_nat j) eta -> tracer_value f 0 x y z q -> q == w.
Proof.
  intros [LX IX] [LY IY] Z1 J I SH XS ET CX CY (zi & zeta & LZ & xi & yi & r & s & A & B & E).
  assert (NX : (1 < zlen (s_lon f))%Z) by (unfold zlen, nx in *; lia). assert (NY : (1 < zlen (s_lat f))%Z) by (unfold zlen, ny in *; lia).
  destruct A as [[A _]|[_ A]]; [lia|]. destruct B as [[B _]|[_ B]]; [lia|].
  rewrite (strict_cell _ _ _ _ _ _ IX CX XS A), (strict_cell _ _ _ _ _ _ IY CY ET B) in E.
  unfold share, d in SH. rewrite E, SH. unfold low_end, far_end. rewrite Z1. cbn [Z.eqb Pos.eqb].
  replace (zlen (s_lon f) =? 1)%Z with false by lia. replace (zlen (s_lat f) =? 1)%Z with false by lia.
  replace (Z.of_nat (S j)) with (Z.of_nat j + 1)%Z by lia. replace (Z.of_nat (S i)) with (Z.of_nat i + 1)%Z by lia. reflexivity.
Qed.
End Sampled.

(** ** Curvilinear grids *)
From Coq Require Import Lra.
Open Scope R_scope.
Lemma to_first_turns l0 l : CurvSpec.turns l (to_first true l0 l).
Proof.
  unfold to_first, CurvSpec.turns. destruct (Rlt_dec 180 (l - l0)).
  - destruct (Rlt_dec 180 (- (l - 360) + l0)); [exists 0%Z|exists (-1)%Z]; cbn; lra.
  - destruct (Rlt_dec 180 (- l + l0)); [exists 1%Z|exists 0%Z]; cbn; lra.
Qed.
Lemma to_first_near l0 l : Rabs (l - l0) <= 540 -> Rabs (to_first true l0 l - l0) <= 180.
Proof.
  intros H. unfold to_first. destruct (Rlt_dec 180 (l - l0)) as [A|A].
  - destruct (Rlt_dec 180 (- (l - 360) + l0)); apply Rabs_le; unfold Rabs in H; destruct (Rcase_abs (l - l0)); lra.
  - destruct (Rlt_dec 180 (- l + l0)); apply Rabs_le; unfold Rabs in H; destruct (Rcase_abs (l - l0)); lra.
Qed.
Lemma curv_released g j i xsi eta x y :
  (v_spherical g = true -> Rabs (v_lon g j (i + 1)%Z - v_lon g j i) <= 540 /\ Rabs (v_lon g (j + 1)%Z (i + 1)%Z - v_lon g j i) <= 540 /\
    Rabs (v_lon g (j + 1)%Z i - v_lon g j i) <= 540) ->
  curv_position g j i xsi eta = (x, y) -> exists q, CurvSpec.point_of g j i q x y xsi eta.
Proof.
  intros N E. unfold curv_position in E. cbv zeta in E. injection E as EX EY.
  set (fit := to_first (v_spherical g) (v_lon g j i)) in *.
  exists (v_lon g j i, fit (v_lon g j (i + 1)%Z), fit (v_lon g (j + 1)%Z (i + 1)%Z), fit (v_lon g (j + 1)%Z i)).
  split; [|split; [unfold CurvSpec.bil; rewrite <- EX; unfold blend; ring|unfold CurvSpec.bil, CurvSpec.cell; rewrite <- EY; unfold blend; ring]].
  unfold CurvSpec.unrolled, CurvSpec.cell. destruct (v_spherical g) eqn:SP.
  - destruct (N eq_refl) as (N1 & N2 & N3). split; [exists 0%Z; cbn; lra|]. unfold fit.
    repeat (split; [first [apply to_first_turns|apply to_first_near; assumption]|]). apply to_first_near; assumption.
  - reflexivity.
Qed.
