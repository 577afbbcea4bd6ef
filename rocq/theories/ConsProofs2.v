From Coq Require Import String List ZArith QArith Bool Arith Lia ZifyBool Permutation.
From Verif Require Import ConsModel ConsSpec ConsProofs.
Import ListNotations.
Open Scope string_scope.

(** ** The starting value is determined *)
Lemma same_var : forall vars v w, NoDup (map v_name vars) -> In v vars -> In w vars -> v_name v = v_name w -> v = w.
Proof.
  intros vars v w ND. induction vars as [|u vars IH]; intros V W E; [destruct V|]. cbn [map] in ND. inversion ND; subst.
  destruct V as [->|V], W as [->|W]; [reflexivity| | |apply IH; assumption].
  - exfalso. apply H1. rewrite E. apply in_map. exact W.
  - exfalso. apply H1. rewrite <- E. apply in_map. exact V.
Qed.
Lemma same_kw : forall (kw : list (string * list Q)) n l l', NoDup (map fst kw) -> In (n, l) kw -> In (n, l') kw -> l = l'.
Proof.
  intros kw n l l'. induction kw as [|[m k] kw IH]; intros ND A B; [destruct A|]. cbn [map fst] in ND. inversion ND; subst.
  destruct A as [A|A], B as [B|B]; [congruence| | |apply IH; assumption].
  - inversion A; subst. exfalso. apply H1. apply in_map_iff. exists (n, l'). split; [reflexivity|exact B].
  - inversion B; subst. exfalso. apply H1. apply in_map_iff. exists (n, l). split; [reflexivity|exact A].
Qed.
Ltac clash PR :=
  match goal with
  | K : ~ In (v_name ?v) _, J : _ = v_name ?v |- _ => exfalso; apply K; rewrite <- J; apply in_or_app; left; cbn; tauto
  | K : ~ In (v_name ?v) _, J : v_name ?v = _ |- _ => exfalso; apply K; rewrite J; apply in_or_app; left; cbn; tauto
  | K : ~ In (v_name ?v) _, J : In (v_name ?v, ?l) _ |- _ => exfalso; apply K; apply in_or_app; right; apply in_map_iff; exists (v_name v, l); split; [reflexivity|exact J]
  | K : ~ In "id" _, J : In ("id", ?l) _ |- _ => exfalso; apply K; apply in_map_iff; exists ("id", l); split; [reflexivity|exact J]
  | J : In (?n, ?l) (a_kw _) |- _ => exfalso; apply (proj1 (proj2 PR) n); [cbn; tauto|]; apply in_map_iff; exists (n, l); split; [reflexivity|exact J]
  | _ => congruence
  end.
Theorem starts_unique : forall vars lastID a i m c c', NoDup (map v_name vars) -> proper a -> (i < count_of a)%nat ->
  starts_as vars lastID a i m c -> starts_as vars lastID a i m c' -> c = c'.
Proof.
  intros vars lastID a i m c c' ND PR IL H. revert c'. induction H; intros c' H'.
  - inversion H'; subst; clash PR.
  - inversion H'; subst; clash PR.
  - inversion H'; subst; clash PR.
  - inversion H'; subst; clash PR.
  - inversion H'; subst; try clash PR.
    match goal with A : a_time a = Some ?l, B : a_time a = Some [?t] |- _ => rewrite B in A; inversion A; subst l end.
    match goal with A : length [_] = count_of a |- _ => cbn [length] in A; assert (i = 0%nat) by lia; subst i end. cbn in *. congruence.
  - inversion H'; subst; try clash PR.
    match goal with A : a_time a = Some ?l, B : a_time a = Some [?t], C : nth_error ?l i = Some _ |- _ => rewrite B in A; inversion A; subst l end.
    match goal with A : length [_] = count_of a |- _ => cbn [length] in A; assert (i = 0%nat) by lia; subst i end. cbn in *. congruence.
  - inversion H'; subst; clash PR.
  - inversion H'; subst; try clash PR.
    match goal with A : In (?n, ?l) _, B : In (?n, ?l') _ |- _ => pose proof (same_kw _ _ _ _ (proj1 PR) A B); subst l' end. congruence.
  - inversion H'; subst; clash PR.
  - inversion H'; subst; clash PR.
  - inversion H'; subst; try clash PR;
      match goal with A : In ?v vars, B : In ?w vars, C : v_name ?w = v_name ?v |- _ => pose proof (same_var _ _ _ ND B A C); subst w end; congruence.
  - inversion H'; subst; try clash PR;
      match goal with A : In ?v vars, B : In ?w vars, C : v_name ?w = v_name ?v |- _ => pose proof (same_var _ _ _ ND B A C); subst w end; try congruence.
    apply IHstarts_as. match goal with A : v_init v = ICopy b, B : v_init v = ICopy ?b' |- _ => rewrite A in B; inversion B; subst b' end. assumption.
  - inversion H'; subst; try clash PR;
      match goal with A : In ?v vars, B : In ?w vars, C : v_name ?w = v_name ?v |- _ => pose proof (same_var _ _ _ ND B A C); subst w end; try congruence.
    match goal with A : v_init v = ISample f, B : v_init v = ISample ?g |- _ => rewrite A in B; inversion B; subst g end.
    repeat match goal with IH : forall c', starts_as _ _ _ _ ?n c' -> _, B : starts_as _ _ _ _ ?n _ |- _ => apply IH in B; inversion B; subst; clear IH end. congruence.
Qed.

(** ** The particle type *)
Lemma sort64_in : forall l v, In v (sort64 l) <-> In v l.
Proof.
  intros l v. unfold sort64. rewrite in_app_iff, !filter_In. destruct (v_64 v); cbn; split; intros H; try tauto; try (destruct H as [H|H]; tauto).
Qed.
Lemma sort64_perm : forall l, Permutation l (sort64 l).
Proof.
  intros l. unfold sort64. induction l as [|v l IH]; cbn [filter]; [constructor|].
  destruct (v_64 v); cbn [negb]; cbn [app]; [constructor; exact IH|]. apply Permutation_cons_app. exact IH.
Qed.
Lemma sort64_filter : forall p l, filter p (sort64 l) = filter p (filter v_64 l ++ filter (fun v => negb (v_64 v)) l).
Proof. reflexivity. Qed.

Theorem ptype_vars : forall wide bodies vars, ptype wide bodies = Ok vars -> (forall b, In b bodies -> NoDup (map v_name b)) ->
  Permutation vars (base_vars wide ++ concat bodies) /\ NoDup (map v_name vars) /\ ~ In "z" (map v_name vars) /\
  exists a b, vars = (a ++ b)%list /\ (forall v, In v a -> v_64 v = true) /\ (forall v, In v b -> v_64 v = false).
Proof.
  intros wide bodies vars. unfold ptype.
  assert (H : forall bodies l vars, derive (sort64 l) bodies = Ok vars -> (forall b, In b bodies -> NoDup (map v_name b)) -> NoDup (map v_name l) -> ~ In "z" (map v_name l) ->
    Permutation vars (l ++ concat bodies) /\ NoDup (map v_name vars) /\ ~ In "z" (map v_name vars) /\ exists l', vars = sort64 l').
  { clear. induction bodies as [|b bodies IH]; intros l vars E NB NL NZ; cbn [derive] in E.
    - inversion E; subst. cbn [concat]. rewrite app_nil_r. pose proof (sort64_perm l) as P. split; [symmetry; exact P|].
      pose proof (Permutation_map v_name P) as PM. split; [eapply Permutation_NoDup; eassumption|]. split; [intros I; apply NZ; eapply Permutation_in; [symmetry; exact PM|exact I]|]. exists l. reflexivity.
    - destruct (existsb _ b) eqn:X; [discriminate|].
      assert (XF : forall v, In v b -> ~ In (v_name v) (map v_name (sort64 l)) /\ v_name v <> "z").
      { intros v I. assert (XX := X). rewrite <- not_true_iff_false, existsb_exists in XX. split; intros J; apply XX; exists v; (split; [exact I|]); apply orb_true_iff; [left; apply mem_in; exact J|right; apply String.eqb_eq; exact J]. }
      pose proof (Permutation_map v_name (sort64_perm l)) as PM.
      assert (PP : Permutation (l ++ b) (sort64 l ++ b)) by (apply Permutation_app_tail, sort64_perm).
      destruct (IH (sort64 l ++ b)%list vars E) as (A & B & C & D).
      + intros b' I. apply NB. right. exact I.
      + rewrite map_app. assert (N1 : NoDup (map v_name (sort64 l))) by (eapply Permutation_NoDup; eassumption). assert (N2 := NB b (or_introl eq_refl)).
        clear - N1 N2 XF. revert N1 XF. generalize (sort64 l) as k. induction k as [|x k IH]; intros N1 XF; cbn [map app]; [exact N2|]. cbn [map] in N1. inversion N1; subst. constructor.
        * rewrite in_app_iff. intros [I|I]; [contradiction|]. apply in_map_iff in I. destruct I as (v & V & I). destruct (XF v I) as [Y _]. apply Y. rewrite V. left. reflexivity.
        * apply IH; [assumption|]. intros v I. destruct (XF v I) as [Y1 Y2]. split; [|exact Y2]. intros J. apply Y1. right. exact J.
      + rewrite map_app, in_app_iff. intros [I|I]; [apply NZ; eapply Permutation_in; [symmetry; exact PM|exact I]|]. apply in_map_iff in I. destruct I as (v & V & I). destruct (XF v I) as [_ Y]. contradiction.
      + split; [|split; [exact B|split; [exact C|exact D]]]. cbn [concat]. rewrite app_assoc. etransitivity; [exact A|]. apply Permutation_app_tail. symmetry. exact PP. }
  intros E NB. destruct (H bodies (base_vars wide) vars E NB) as (A & B & C & l & D).
  - cbn. repeat constructor; cbn; intuition discriminate.
  - cbn. intuition discriminate.
  - split; [exact A|]. split; [exact B|]. split; [exact C|]. subst vars. exists (filter v_64 l), (filter (fun v => negb (v_64 v)) l). split; [reflexivity|].
    split; intros v I; apply filter_In in I; destruct I as [_ I]; [exact I|]. destruct (v_64 v); [discriminate|reflexivity].
Qed.
Theorem ptype_base : forall wide bodies vars, ptype wide bodies = Ok vars -> (forall b, In b bodies -> NoDup (map v_name b)) ->
  forall m, In m base_names -> In m (map v_name vars).
Proof.
  intros wide bodies vars E NB m I. destruct (ptype_vars wide bodies vars E NB) as (P & _). apply (Permutation_map v_name) in P.
  eapply Permutation_in; [symmetry; exact P|]. rewrite map_app. apply in_or_app. left. unfold base_names in I. cbn in *. tauto.
Qed.

(** ** Division over processes *)
Lemma pick_length : forall {A B} rank labels (l : list A) (k : list B), length l = length k -> length (pick rank labels l) = length (pick rank labels k).
Proof.
  intros A B rank labels. induction labels as [|x labels IH]; intros [|a l] [|b k] H; cbn [length] in H; try discriminate; cbn [pick]; try reflexivity.
  destruct (x =? rank)%Z; cbn [length]; rewrite (IH l k) by lia; reflexivity.
Qed.
Lemma pick_map : forall {A B} (f : A -> B) rank labels l, pick rank labels (map f l) = map f (pick rank labels l).
Proof. intros A B f rank labels. induction labels as [|x labels IH]; intros [|a l]; cbn [pick map]; try reflexivity. destruct (x =? rank)%Z; cbn [map]; rewrite IH; reflexivity. Qed.
Lemma pick_repeat : forall {A B} (x : A) rank labels (l : list B), pick rank labels (repeat x (length l)) = repeat x (length (pick rank labels l)).
Proof.
  intros A B x rank labels. induction labels as [|y labels IH]; intros [|b l]; cbn [pick repeat length]; try reflexivity.
  destruct (y =? rank)%Z; cbn [repeat length]; rewrite IH; reflexivity.
Qed.
Lemma pick_in : forall {A} rank labels (l : list A) x, In x (pick rank labels l) -> In x l.
Proof. intros A rank labels. induction labels as [|y labels IH]; intros [|b l] x I; cbn [pick] in I; try destruct I. destruct (y =? rank)%Z; [destruct I as [<-|I]; [left; reflexivity|]|]; right; apply IH; exact I. Qed.

Section Part.
  Variables (rank : Z) (labels : list Z).
  Definition pick_data (d : data) : data := map (fun k => (fst k, pick rank labels (snd k))) d.
  Definition pick_arrays (r : arrays) : arrays :=
    mkArrays (pick rank labels (r_lon r)) (pick rank labels (r_lat r)) (pick rank labels (r_depth r)) (pick rank labels (r_time r))
      (pick rank labels (r_pid r)) (map (fun k => (fst k, pick rank labels (snd k))) (r_kw r)).
  Lemma pick_set : forall d n c, pick_data (set_column d n c) = set_column (pick_data d) n (pick rank labels c).
  Proof. intros d n c. unfold pick_data, set_column. rewrite !map_map. apply map_ext. intros k. cbn [fst]. destruct (String.eqb (fst k) n); reflexivity. Qed.
  Lemma pick_column : forall d n, column (pick_data d) n = match column d n with Some c => Some (pick rank labels c) | None => None end.
  Proof.
    intros d n. unfold column, pick_data. induction d as [|k d IH]; [reflexivity|]. cbn [map find fst]. destruct (String.eqb (fst k) n); [reflexivity|exact IH].
  Qed.
  Lemma pick_further : forall names kw d d', further names kw d = Ok d' ->
    further names (map (fun k => (fst k, pick rank labels (snd k))) kw) (pick_data d) = Ok (pick_data d').
  Proof.
    intros names kw. induction kw as [|[n l] kw IH]; intros d d' E; cbn [further map fst snd] in *; [inversion E; reflexivity|].
    destruct (negb (mem n names)); [discriminate|]. rewrite <- (IH _ _ E), pick_set, pick_map. reflexivity.
  Qed.
  Lemma pick_sample : forall f ts zs ys xs l, length zs = length ts -> length ys = length ts -> length xs = length ts -> sample_all f ts zs ys xs = Ok l ->
    sample_all f (pick rank labels ts) (pick rank labels zs) (pick rank labels ys) (pick rank labels xs) = Ok (pick rank labels l).
  Proof.
    intros f. induction labels as [|b labels' IH]; intros ts zs ys xs l L1 L2 L3 E; [reflexivity|].
    destruct ts as [|t ts], zs as [|z zs], ys as [|y ys], xs as [|x xs]; cbn [length] in *; try discriminate; [inversion E; reflexivity|].
    cbn [sample_all] in E. destruct t as [t|]; [|discriminate]. destruct (f t z y x) as [q|] eqn:F; [|discriminate].
    destruct (sample_all f ts zs ys xs) as [l'|] eqn:S; [|discriminate]. cbn [bind] in E. inversion E; subst. cbn [pick].
    assert (H := IH ts zs ys xs l' ltac:(lia) ltac:(lia) ltac:(lia) S). destruct (b =? rank)%Z; [|exact H]. cbn [sample_all]. rewrite F, H. reflexivity.
  Qed.
  Lemma pick_fill_one : forall r v d c, even r -> fill_one r v d = Ok c -> fill_one (pick_arrays r) v (pick_data d) = Ok (pick rank labels c).
  Proof.
    intros r v d c (E1 & E2 & E3 & E4 & E5). unfold fill_one. cbn [pick_arrays r_lon r_time r_depth r_lat]. destruct (v_init v) as [x|b|f].
    - intros H. inversion H. rewrite pick_repeat. reflexivity.
    - rewrite pick_column. destruct (column d b); intros H; inversion H; [reflexivity|]. rewrite pick_repeat. reflexivity.
    - apply pick_sample; congruence.
  Qed.
  Lemma pick_fill : forall r vars done d d', even r -> fill r done vars d = Ok d' -> fill (pick_arrays r) done vars (pick_data d) = Ok (pick_data d').
  Proof.
    intros r vars. induction vars as [|v vars IH]; intros done d d' EV E; cbn [fill] in *; [inversion E; reflexivity|].
    destruct (mem (v_name v) done); [apply IH; assumption|]. destruct (fill_one r v d) as [c|] eqn:F; [|discriminate]. cbn [bind] in E.
    rewrite (pick_fill_one r v d c EV F). cbn [bind]. rewrite <- pick_set. apply IH; assumption.
  Qed.
  Lemma pick_even : forall r, even r -> even (pick_arrays r).
  Proof.
    intros r (E1 & E2 & E3 & E4 & E5). unfold even. cbn [pick_arrays r_lon r_lat r_depth r_time r_pid r_kw].
    repeat (split; [apply pick_length; assumption|]). intros m l I. apply in_map_iff in I. destruct I as ([m' k] & K & I). inversion K; subst. cbn [snd]. apply pick_length. eapply E5; exact I.
  Qed.
  Lemma pick_started : forall vars r, pick_data (started vars r) = started vars (pick_arrays r).
  Proof.
    intros vars r. unfold started. cbv zeta. rewrite !pick_set, !pick_map, !pick_repeat. cbn [pick_arrays r_lon r_lat r_depth r_time r_pid].
    f_equal. f_equal. f_equal. f_equal. f_equal. f_equal. unfold pick_data. rewrite map_map. apply map_ext. intros v. cbn [fst snd]. rewrite pick_repeat. reflexivity.
  Qed.
  Lemma pick_collect : forall vars r d, even r -> collect vars r = Ok d -> collect vars (pick_arrays r) = Ok (pick_data d).
  Proof.
    intros vars r d EV. rewrite (collect_unfold vars r EV), (collect_unfold vars _ (pick_even r EV)). intros E.
    destruct (further (map v_name vars) (r_kw r) (started vars r)) as [d1|] eqn:F; [|discriminate]. cbn [bind] in E.
    rewrite <- pick_started. cbn [pick_arrays r_kw]. rewrite (pick_further _ _ _ _ F). cbn [bind].
    assert (G : given (pick_arrays r) = given r). { unfold given. cbn [pick_arrays r_kw]. rewrite map_map. reflexivity. }
    rewrite G. apply pick_fill; assumption.
  Qed.
End Part.

Lemma fold_max_repeat : forall n x, fold_left Z.max (repeat x n) x = x.
Proof. induction n as [|n IH]; intros x; cbn [repeat fold_left]; [reflexivity|]. rewrite Z.max_id. apply IH. Qed.
Lemma zmax_bound : forall l s, (forall x, In x l -> (x < s)%Z) -> l <> [] -> (zmax l < s)%Z.
Proof.
  intros [|p l] s H N; [contradiction|]. cbn [zmax]. assert (P := H p (or_introl eq_refl)). assert (Q : forall x, In x l -> (x < s)%Z) by (intros x I; apply H; right; exact I).
  clear H N. revert p P Q. induction l as [|x l IH]; intros p P Q; cbn [fold_left]; [exact P|]. apply IH; [|intros y I; apply Q; right; exact I].
  pose proof (Q x (or_introl eq_refl)). lia.
Qed.

Theorem part_of_set : forall vars lastID a l d size labels rank, proper a -> make_set vars lastID a = Ok (l, d) ->
  a_parts a <> Already -> length (labels_of a labels) = count_of a -> (forall x, In x (labels_of a labels) -> (0 <= x < size)%Z) ->
  (1 < size)%Z -> (size <= Z.of_nat (count_of a))%Z ->
  make_part size labels vars lastID a rank = Ok (l, pick_data rank (labels_of a labels) d).
Proof.
  intros vars lastID a l d size labels rank P E NA LL LR S1 S2.
  assert (L : lengths_ok a = true). { unfold make_set, construct in E. destruct (lengths_ok a); [reflexivity|discriminate]. }
  pose proof (arrays_even lastID a P L) as EV. rewrite (make_set_unfold vars lastID a P L) in E.
  destruct (collect vars (arrays_of lastID a)) as [d'|] eqn:C; [|discriminate]. cbn [bind] in E. inversion E; subst l d'.
  unfold make_part, construct. rewrite L. cbn [negb]. fold (arrays_of lastID a).
  assert (D : divide size rank labels a (arrays_of lastID a) = Ok (pick_arrays rank (labels_of a labels) (arrays_of lastID a))).
  { unfold divide. replace ((Z.of_nat (count_of a) <? size)%Z && (1 <? size)%Z) with false by lia. replace (1 <? size)%Z with true by lia.
    pose proof (pids_length lastID a P) as PL. unfold labels_of in *.
    destruct (a_parts a) as [| |k]; [| contradiction|].
    - cbn [bind]. cbn [r_pid arrays_of]. rewrite LL, PL, Nat.eqb_refl. reflexivity.
    - assert (K : k <> []) by (intros ->; cbn in LL; lia). pose proof (zmax_bound k size (fun x I => proj2 (LR x I)) K) as Z1. destruct k as [|k0 k]; [contradiction|].
      replace (size <=? zmax (k0 :: k))%Z with false by lia. cbn [bind]. cbn [r_pid arrays_of]. rewrite LL, PL, Nat.eqb_refl. reflexivity. }
  rewrite D. cbn [bind]. rewrite (pick_collect rank (labels_of a labels) vars _ d EV C). cbn [bind]. rewrite fold_max_repeat. reflexivity.
Qed.

(** The particles of the parts, put together, are those of the set. *)
Lemma nth_pick_rows : forall rank labels (d : data) n, (forall k, In k d -> length (snd k) = n) -> length labels = n ->
  particles (pick_data rank labels d) (length (pick rank labels (seq 0 n))) = pick rank labels (particles d n).
Proof.
  intros rank labels d n H LL. unfold particles. rewrite pick_map.
  assert (G : forall labels s n, length labels = n -> (forall k, In k d -> length (snd k) = s + n)%nat ->
    map (fun i => map (fun k => (fst k, nth i (snd k) Junk)) (map (fun k => (fst k, pick rank labels (skipn s (snd k)))) d)) (seq 0 (length (pick rank labels (seq s n))))
    = map (fun i => map (fun k => (fst k, nth i (snd k) Junk)) d) (pick rank labels (seq s n))).
  { clear. induction labels as [|x labels IH]; intros s n LL H; [destruct n; [reflexivity|discriminate]|]. destruct n as [|n]; [discriminate|]. cbn [length] in LL.
    cbn [seq]. assert (SK : forall k, In k d -> skipn s (snd k) = nth s (snd k) Junk :: skipn (S s) (snd k)).
    { intros k I. specialize (H k I). revert H. generalize (snd k) as l. clear. induction s as [|s IH]; intros [|y l] H; cbn [length] in H; try lia; [reflexivity|]. cbn [skipn nth]. apply IH. lia. }
    assert (HS : forall k, In k d -> length (snd k) = (S s + n)%nat) by (intros k I; rewrite (H k I); lia).
    specialize (IH (S s) n ltac:(lia) HS). cbn [pick]. destruct (x =? rank)%Z eqn:X.
    - cbn [length seq map]. f_equal.
      + rewrite map_map. apply map_ext_in. intros k I. cbn [fst snd]. rewrite (SK k I). cbn [pick]. try rewrite X. reflexivity.
      + rewrite <- IH. rewrite <- seq_shift, map_map. apply map_ext. intros i. rewrite !map_map. apply map_ext_in. intros k I. cbn [fst snd]. rewrite (SK k I). cbn [pick]. try rewrite X. reflexivity.
    - rewrite <- IH. apply map_ext. intros i. rewrite !map_map. apply map_ext_in. intros k I. cbn [fst snd]. rewrite (SK k I). cbn [pick]. try rewrite X. reflexivity. }
  specialize (G labels 0%nat n LL H). cbn [skipn] in G. exact G.
Qed.
Lemma pick_perm : forall {A} size labels (l : list A), length labels = length l -> (forall x, In x labels -> (0 <= x < Z.of_nat size)%Z) ->
  Permutation (concat (map (fun r => pick (Z.of_nat r) labels l) (seq 0 size))) l.
Proof.
  intros A size labels. induction labels as [|x labels IH]; intros [|y l] L H; cbn [length] in L; try discriminate.
  - replace (concat _) with (@nil A); [constructor|]. induction (seq 0 size); [reflexivity|cbn; assumption].
  - assert (HX := H x (or_introl eq_refl)). specialize (IH l ltac:(lia) (fun z I => H z (or_intror I))).
    assert (G : forall rs, NoDup rs -> (forall r, In r rs -> (r < size)%nat) ->
      Permutation (concat (map (fun r => pick (Z.of_nat r) (x :: labels) (y :: l)) rs))
        ((if existsb (fun r => (x =? Z.of_nat r)%Z) rs then [y] else []) ++ concat (map (fun r => pick (Z.of_nat r) labels l) rs))).
    { clear. induction rs as [|r rs IH]; intros ND HR; [constructor|]. inversion ND; subst. specialize (IH H2 (fun z I => HR z (or_intror I))). cbn [map concat existsb pick].
      destruct (x =? Z.of_nat r)%Z eqn:X.
      - cbn [orb app]. constructor. apply Permutation_app_head. etransitivity; [exact IH|].
        replace (existsb (fun r0 => (x =? Z.of_nat r0)%Z) rs) with false; [reflexivity|]. symmetry. rewrite <- not_true_iff_false, existsb_exists. intros (z & I & Z). assert (z = r) by lia. subst z. contradiction.
      - cbn [orb]. etransitivity; [apply Permutation_app_head; exact IH|]. rewrite !app_assoc. apply Permutation_app_tail. apply Permutation_app_comm. }
    specialize (G (seq 0 size) (seq_NoDup _ _) (fun r I => proj2 (proj1 (in_seq size 0 r) I))).
    replace (existsb (fun r => (x =? Z.of_nat r)%Z) (seq 0 size)) with true in G.
    + etransitivity; [exact G|]. cbn [app]. constructor. exact IH.
    + symmetry. apply existsb_exists. exists (Z.to_nat x). split; [apply in_seq; lia|lia].
Qed.

Theorem parts_make_set : forall vars lastID a l d size labels, NoDup (map v_name vars) -> (forall m, In m base_names -> In m (map v_name vars)) -> proper a -> copies_back a vars ->
  make_set vars lastID a = Ok (l, d) -> a_parts a <> Already ->
  length (labels_of a labels) = count_of a -> (forall x, In x (labels_of a labels) -> (0 <= x < Z.of_nat size)%Z) -> (1 < size)%nat -> (size <= count_of a)%nat ->
  exists parts, length parts = size /\
    (forall r p, nth_error parts r = Some p -> exists dr, make_part (Z.of_nat size) labels vars lastID a (Z.of_nat r) = Ok (l, dr) /\
       (forall m c, In (m, c) dr -> length c = length p) /\ p = particles dr (length p)) /\
    (forall r p i, nth_error parts r = Some p -> nth_error (labels_of a labels) i = Some (Z.of_nat r) -> forall x, nth_error (particles d (count_of a)) i = Some x -> In x p) /\
    Permutation (concat parts) (particles d (count_of a)).
Proof.
  intros vars lastID a l d size labels ND BN P CB E NA LL LR S1 S2.
  destruct (set_as_asked vars lastID a l d ND BN P CB E) as (_ & DL & _).
  assert (DL' : forall k, In k d -> length (snd k) = count_of a) by (intros [m c] I; apply (DL m c I)).
  assert (PL : length (particles d (count_of a)) = count_of a) by (unfold particles; rewrite map_length, seq_length; reflexivity).
  exists (map (fun r => pick (Z.of_nat r) (labels_of a labels) (particles d (count_of a))) (seq 0 size)).
  assert (NTH : forall r p, nth_error (map (fun r => pick (Z.of_nat r) (labels_of a labels) (particles d (count_of a))) (seq 0 size)) r = Some p ->
    p = pick (Z.of_nat r) (labels_of a labels) (particles d (count_of a))).
  { intros r p H. assert (RL : (r < size)%nat). { assert (X : nth_error (map (fun r => pick (Z.of_nat r) (labels_of a labels) (particles d (count_of a))) (seq 0 size)) r <> None) by congruence. apply nth_error_Some in X. rewrite map_length, seq_length in X. exact X. }
    rewrite nth_error_map, (nth_error_nth' _ 0%nat) in H by (rewrite seq_length; exact RL). rewrite seq_nth in H by exact RL. cbn in H. inversion H. reflexivity. }
  split; [rewrite map_length, seq_length; reflexivity|]. split; [|split].
  - intros r p H. apply NTH in H. exists (pick_data (Z.of_nat r) (labels_of a labels) d).
    split; [apply part_of_set; try assumption; lia|].
    assert (LP : length p = length (pick (Z.of_nat r) (labels_of a labels) (seq 0 (count_of a)))) by (rewrite H; apply pick_length; rewrite PL, seq_length; reflexivity).
    split.
    + intros m c I. unfold pick_data in I. apply in_map_iff in I. destruct I as (k & K & I). inversion K; subst. rewrite LP. apply pick_length. rewrite (DL' k I), seq_length. reflexivity.
    + rewrite LP, nth_pick_rows by assumption. exact H.
  - intros r p i H LI x X. apply NTH in H. rewrite H. clear - LI X. revert i LI X. generalize (particles d (count_of a)) as ps. induction (labels_of a labels) as [|y lb IH]; intros [|q ps] [|i] LI X; cbn in LI, X; try discriminate.
    + inversion LI; subst. inversion X; subst. cbn [pick]. rewrite Z.eqb_refl. left. reflexivity.
    + cbn [pick]. destruct (y =? Z.of_nat r)%Z; [right|]; eapply IH; eassumption.
  - apply pick_perm; [rewrite PL; exact LL|exact LR].
Qed.

Lemma derive_fails : forall bodies vars e, derive vars bodies = Err e -> e = AttributeError.
Proof. induction bodies as [|b bodies IH]; intros vars e E; cbn [derive] in E; [discriminate|]. destruct (existsb _ b); [congruence|eapply IH; exact E]. Qed.
Theorem ptype_ok_iff : forall wide bodies, (forall b, In b bodies -> NoDup (map v_name b)) ->
  ((exists vars, ptype wide bodies = Ok vars) <-> NoDup (map v_name (base_vars wide ++ concat bodies)) /\ ~ In "z" (map v_name (concat bodies))) /\
  (forall e, ptype wide bodies = Err e -> e = AttributeError).
Proof.
  intros wide bodies NB. split; [split|].
  - intros (vars & E). destruct (ptype_vars wide bodies vars E NB) as (P & N & Z & _). apply (Permutation_map v_name) in P.
    split; [eapply Permutation_NoDup; eassumption|]. intros I. apply Z. eapply Permutation_in; [symmetry; exact P|]. rewrite map_app. apply in_or_app. right. exact I.
  - unfold ptype. clear NB. assert (H : forall bodies l, NoDup (map v_name (l ++ concat bodies)) -> ~ In "z" (map v_name (concat bodies)) -> exists vars, derive l bodies = Ok vars).
    { clear. induction bodies as [|b bodies IH]; intros l N Z; [exists l; reflexivity|]. cbn [derive concat] in *. rewrite map_app in Z.
      destruct (existsb _ b) eqn:X.
      - exfalso. apply existsb_exists in X. destruct X as (v & I & X). apply orb_true_iff in X. destruct X as [X|X].
        + apply mem_in in X. rewrite map_app in N. clear - N X I. induction (map v_name l) as [|m k IH]; [destruct X|]. cbn [app] in N. inversion N; subst. destruct X as [->|X]; [|exact (IH H2 X)].
          apply H1. apply in_or_app. right. rewrite map_app. apply in_or_app. left. apply in_map. exact I.
        + apply String.eqb_eq in X. apply Z. apply in_or_app. left. rewrite <- X. apply in_map. exact I.
      - apply IH.
        + eapply Permutation_NoDup; [|exact N]. apply Permutation_map. rewrite app_assoc. apply Permutation_app_tail, sort64_perm.
        + intros I. apply Z. apply in_or_app. right. exact I. }
    intros [N Z]. apply H; [|exact Z]. eapply Permutation_NoDup; [|exact N]. apply Permutation_map, Permutation_app_tail, sort64_perm.
  - intros e. apply derive_fails.
Qed.

(** A check of [copies_back], for examples. *)
Fixpoint copies_check (known : list string) (done : list string) (vars : list vdecl) : bool :=
  match vars with
  | [] => true
  | v :: rest => match v_init v with ICopy b => mem (v_name v) known || mem b known || mem b done | _ => true end && copies_check known (v_name v :: done) rest
  end.
Lemma copies_check_back : forall a vars, copies_check (["lat"; "lon"; "depth"; "time"; "id"] ++ map fst (a_kw a)) [] vars = true -> copies_back a vars.
Proof.
  intros a vars. assert (G : forall vars done pre0, (forall m, In m done -> In m (map v_name pre0)) -> copies_check (["lat"; "lon"; "depth"; "time"; "id"] ++ map fst (a_kw a)) done vars = true ->
    forall pre v post b, vars = (pre ++ v :: post)%list -> v_init v = ICopy b ->
    In (v_name v) (["lat"; "lon"; "depth"; "time"; "id"] ++ map fst (a_kw a)) \/
    In b (["lat"; "lon"; "depth"; "time"; "id"] ++ map fst (a_kw a)) \/ In b (map v_name (pre0 ++ pre))).
  { clear vars. induction vars as [|w vars IH]; intros done pre0 D C pre v post b E I; [destruct pre; discriminate|]. cbn [copies_check] in C. apply andb_true_iff in C. destruct C as [C1 C2].
    destruct pre as [|w' pre]; cbn [app] in E; inversion E; subst.
    - rewrite I in C1. apply orb_true_iff in C1. destruct C1 as [C1|C1]; [apply orb_true_iff in C1; destruct C1 as [C1|C1]; apply mem_in in C1; tauto|].
      right. right. rewrite app_nil_r. apply D. apply mem_in. exact C1.
    - destruct (IH (v_name w' :: done) (pre0 ++ [w'])%list) with (pre := pre) (v := v) (post := post) (b := b) as [J|[J|J]]; try tauto; try reflexivity.
      + intros m [<-|M]; rewrite map_app; apply in_or_app; [right; left; reflexivity|left; apply D; exact M].
      + right. right. rewrite <- app_assoc in J. exact J. }
  intros C pre v post b E I. apply (G vars [] [] (fun m H => H) C pre v post b E I).
Qed.
