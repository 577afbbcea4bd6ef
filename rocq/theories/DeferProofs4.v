(** Proofs about deferred loading: whole runs, forward and backward. *)
From Coq Require Import List ZArith Bool QArith Qround Lia Lqa.
From Verif Require Import IdxModel IdxSpec IdxProofs TimeModel TimeProofs DeferModel DeferSpec DeferProofs DeferProofs2 DeferProofs3.
Import ListNotations.
Open Scope Z_scope.

Section Runs.
Variable V : Type.
Notation dgrid := (dgrid V).
Notation full := (full V).
Notation per := (per V).
Notation ex := (ex V).
Notation st_p := (st_p V).
Notation st_i := (st_i V).
Notation tT := (tT V).
Notation held := (held V).
Notation loaded := (loaded V).

Lemma c_periods_in : forall k w0 w1 fmin fmax s p q, (w0 <= s <= w1)%Q -> c_periods k [w0; w1] fmin fmax s p = Some q -> q = p.
Proof.
  intros k w0 w1 fmin fmax s p q R H. destruct k as [|k]; [discriminate|]. cbn [c_periods] in H.
  change (cget [w0; w1] 0) with (Some w0) in H. change (cget [w0; w1] (zlen [w0; w1] - 1)) with (Some w1) in H. cbv iota in H.
  rewrite (proj2 (qlt_false s w0)), (proj2 (qlt_false w1 s)) in H by tauto. injection H as <-. reflexivity.
Qed.

Lemma qmax_l : forall a b, (a <= qmax a b)%Q.
Proof. intros a b. unfold qmax. destruct (qle a b) eqn:E; qb; lra. Qed.
Lemma qmax_r : forall a b, (b <= qmax a b)%Q.
Proof. intros a b. unfold qmax. destruct (qle a b) eqn:E; qb; lra. Qed.
Lemma qmin_l : forall a b, (qmin a b <= a)%Q.
Proof. intros a b. unfold qmin. destruct (qle a b) eqn:E; qb; lra. Qed.
Lemma qmin_r : forall a b, (qmin a b <= b)%Q.
Proof. intros a b. unfold qmin. destruct (qle a b) eqn:E; qb; lra. Qed.

Lemma floor0 : forall a b s, (a < b)%Q -> (a <= s < b)%Q -> Qfloor ((s - a) / (b - a)) = 0.
Proof.
  intros a b s D R. assert (P : (0 <= (s - a) / (b - a) < 1)%Q).
  { split; [apply Qle_shift_div_l; lra|apply Qlt_shift_div_r; lra]. }
  pose proof (Qfloor_le ((s - a) / (b - a))) as F1. pose proof (Qlt_floor ((s - a) / (b - a))) as F2.
  set (z := Qfloor ((s - a) / (b - a))) in *.
  assert (A : (inject_Z z < inject_Z 1)%Q) by (change (inject_Z 1) with 1%Q; lra). rewrite <- Zlt_Qlt in A.
  assert (B : (inject_Z 0 < inject_Z (z + 1))%Q) by (change (inject_Z 0) with 0%Q; lra). rewrite <- Zlt_Qlt in B. lia.
Qed.

(** Forall over the updated list, when every other element keeps the property. *)
Lemma update_forall : forall A (P Q : A -> Prop) l n a, Forall P l -> (forall x, P x -> Q x) -> Q a -> Forall Q (update l n a).
Proof.
  intros A P Q l. induction l as [|x r IH]; intros n a F I H; [destruct n; constructor|].
  inversion F; subst. destruct n as [|n]; cbn; constructor; auto. eapply Forall_impl; [|eassumption]. exact I.
Qed.

(** ** Forward *)
Lemma finv_later : forall dt t u u' n g, (u <= u')%Q -> finv V dt t u n g -> finv V dt t u' n g.
Proof.
  intros dt t u u' n g L (A & B & C & D & m & E & F & G & H). split; [exact A|]. split; [exact B|]. split; [exact C|].
  split; [lra|]. exists m. split; [exact E|]. split; [exact F|]. split; [exact G|]. destruct (per g); [|exact H].
  destruct H as (H1 & H2 & H3). split; [exact H1|]. split; [exact H2|]. intro X. apply H3. lra.
Qed.

Lemma sample_forward : forall dt t u n g jit k s g', (0 < dt)%Q -> finv V dt t u n g -> (t <= s)%Q -> before_ext s n ->
  sample_periods V jit k g s = Some g' -> finv V dt t (qmax u s) n g'.
Proof.
  intros dt t u n g jit k s g' D F TS B H. pose proof (sample_same V _ _ _ _ _ H) as (SA & HE & S1 & S2 & S3).
  destruct F as (OK & HO & LO & TU & m & M1 & M2 & M3 & M4).
  pose proof (same_ok V _ _ SA OK) as OK'. pose proof SA as (A1 & A2 & A3 & _).
  assert (F' : full g' = full g) by (unfold DeferProofs.full; rewrite A1; reflexivity).
  assert (I' : st_i g' = st_i g) by exact S1. assert (T' : tT g' = tT g) by (unfold DeferProofs3.tT; rewrite F'; reflexivity).
  assert (E' : ex g' = ex g) by exact A3. assert (P' : per g' = per g) by exact A2.
  split; [exact OK'|]. split; [exact (HE HO)|]. split; [unfold DeferProofs.loaded in *; lia|].
  split; [pose proof (qmax_l u s); lra|]. exists m. rewrite F', I', T', E', P'. split; [exact M1|]. split; [exact M2|]. split; [exact M3|].
  destruct (per g) eqn:PG.
  - destruct M4 as (M5 & M6 & M7). split; [exact M5|]. split; [exact M6|]. intro UL.
    assert (UL' : (u < last_ (full g))%Q) by (pose proof (qmax_l u s); lra).
    assert (SL : (s < last_ (full g))%Q) by (pose proof (qmax_r u s); lra).
    specialize (M7 UL'). specialize (M6 ltac:(lra)). subst m. destruct (proj2 (M3 D) s TS B) as (X & Y). rewrite z0 in X, Y.
    destruct OK as (OK1 & OK2 & OK3). pose proof (OK3 PG) as EX. unfold DeferProofs3.ex in *. rewrite EX in X, Y.
    destruct X as [X|(X & _)]; [|discriminate]. destruct Y as [Y|(Y & _)]; [|discriminate].
    pose proof (inc_dir (full g) ltac:(pose proof (series_len _ OK1); unfold DeferProofs.full; lia) (proj2 (proj1 OK1))) as DIR.
    destruct HO as ([(W & _)|(W1 & W2 & W3)] & _); [unfold DeferProofs.loaded in LO; lia|].
    unfold sample_periods in H. destruct (tm_ends _ (proj1 OK1)) as (EE0 & EE1 & _). rewrite EE0, EE1 in H.
    unfold DeferProofs3.per in PG. rewrite PG in H. cbn [negb] in H. rewrite W3 in H. unfold win in H.
    assert (G : st_p g' = 0); [|exact G].
    destruct jit.
    + destruct (c_periods _ _ _ _ _ _) as [p'|] eqn:CP in H; [|discriminate]. injection H as <-. unfold DeferProofs3.st_p. cbn.
      apply c_periods_in in CP; [|split; [exact X|exact Y]]. rewrite CP. exact M7.
    + match type of H with Some ?x = _ => assert (GE : g' = x) by congruence end. rewrite GE. unfold DeferProofs3.st_p. cbn [d_state s_periods].
      match goal with |- (if ?b then _ else _) = _ => destruct b end; [|exact M7]. apply floor0; [exact DIR|]. split; [|exact SL]. exact (Qle_trans _ _ _ M5 TS).
  - assert (G : st_p g' = 0); [|exact G]. unfold sample_periods in H. destruct (pyget _ 0) as [f0|]; [|discriminate].
    destruct (pyget _ (-1)) as [fn|]; [|discriminate]. unfold DeferProofs3.per in PG. rewrite PG in H. cbn [negb] in H.
    injection H as <-. exact M4.
Qed.

Lemma finv_fwd_ok : forall dt t u n g t', finv V dt t u n g -> (u <= t')%Q -> fwd_ok (per g) (ex g) (full g) (st_p g) t'.
Proof.
  intros dt t u n g t' (OK & _ & _ & TU & m & _ & _ & _ & H) L. unfold fwd_ok. destruct (per g) eqn:PG; [|exact H].
  destruct H as (H1 & _ & H2). split; [apply OK; exact PG|]. split; [lra|]. intro X. apply H2. lra.
Qed.

Lemma run_forward : forall dt rq mo gs0 t0 gs t u n, (0 < dt)%Q -> Forall is_fresh gs0 -> Forall grid_ok gs0 ->
  Forall (fun g => d_periodic _ g = true -> (first_ (time_full (d_series _ g)) <= t0)%Q) gs0 ->
  run_from dt rq mo gs0 t0 gs t u n ->
  Forall2 (same V) gs0 gs /\ Forall (finv V dt t u n) gs.
Proof.
  intros dt rq mo gs0 t0 gs t u n D FR OK ST R. induction R as [gs n RQ E|gs t u n jit k m s gs' u' R IH MO E S1 S2 EU|gs t u n t' gs' n' R IH RQ E S1 S2].
  - destruct (request_forward V gs0 t0 dt gs n ltac:(lra) OK (fresh_held_all V _ FR)) as (A & _ & B); [|exact E|].
    + rewrite Forall_forall in *. intros g IN. destruct (FR g IN) as (se & p & e & cs & ->). specialize (ST _ IN). cbn in ST. unfold fwd_ok.
      cbn. destruct p; [|reflexivity]. split; [apply (OK _ IN); reflexivity|]. split; [apply ST; reflexivity|reflexivity].
    + split; [exact A|exact B].
  - destruct IH as (A & B). cbn [event_step] in E. destruct (nth_error gs m) as [g|] eqn:N; [|discriminate].
    destruct (sample_periods V jit k g s) as [g'|] eqn:SP; [|discriminate]. injection E as <-.
    rewrite (proj2 (qlt_spec 0 dt) D) in EU. subst u'. split.
    + eapply forall2_trans; [apply same_trans|exact A|]. eapply update_forall2; [apply same_refl|exact N|]. apply (sample_same V _ _ _ _ _ SP).
    + destruct (S1 D) as (S3 & S4). eapply update_forall; [exact B| |].
      * intros x. apply finv_later. apply qmax_l.
      * apply (sample_forward dt t u n g jit k s g' D); try assumption. rewrite Forall_forall in B. apply B. eapply nth_error_In. exact N.
  - destruct IH as (A & B). destruct (S1 D) as (S3 & S4 & S5).
    assert (OK1 : Forall grid_ok gs) by (eapply forall2_forall; [|exact A|exact OK]; intros x y; apply same_ok).
    destruct (request_forward V gs t' dt gs' n' ltac:(lra) OK1) as (A' & _ & B').
    + eapply Forall_impl; [|exact B]. intros g G. apply G.
    + eapply Forall_impl; [|exact B]. intros g G. eapply finv_fwd_ok; eassumption.
    + exact E.
    + split; [|exact B']. eapply forall2_trans; [apply same_trans|exact A|exact A'].
Qed.

Lemma run_forward_answered : forall dt rq mo gs0 t0 gs t u n, (0 < dt)%Q -> Forall is_fresh gs0 -> Forall grid_ok gs0 ->
  Forall (fun g => d_periodic _ g = true -> (first_ (time_full (d_series _ g)) <= t0)%Q) gs0 ->
  run_from dt rq mo gs0 t0 gs t u n -> Forall (fun g : dgrid => answered g t dt n) gs.
Proof.
  intros dt rq mo gs0 t0 gs t u n D FR OK ST R. destruct (run_forward _ _ _ _ _ _ _ _ _ D FR OK ST R) as (_ & B).
  eapply Forall_impl; [|exact B]. intros g G. eapply finv_answered; [lra|exact G].
Qed.

(** ** Backward *)
Definition binv (dt t u : Q) (n : ext) (g : dgrid) : Prop :=
  grid_ok g /\ held g /\ loaded g /\ (u <= t)%Q /\
  exists m, (per g = false -> m = 0) /\ brackets (full g) (ex g) (st_i g) (t - inject_Z m * tT g) /\
    earlier t n /\ (forall s, (s <= t)%Q -> after_ext s n -> brackets (full g) (ex g) (st_i g) (s - inject_Z m * tT g)) /\
    (if per g then (t < last_ (full g))%Q /\ ((first_ (full g) < t)%Q -> m = 0) /\
                   ((t == first_ (full g))%Q -> st_i g = zlen (full g) - 2) /\
                   ((first_ (full g) < u)%Q -> st_p g = 0) /\
                   ((u == first_ (full g))%Q -> st_p g = 0 \/ st_p g = -1 /\ st_i g = zlen (full g) - 2)
     else st_p g = 0).

Lemma stepped_backward : forall g g' dt t n m, (dt < 0)%Q -> grid_ok g -> held g -> stepped V t (-1) g g' ->
  bwd_ok (per g) (ex g) (full g) (st_i g) (st_p g) t ->
  own V t (-1) g (d_state _ g') m -> ext_le m n = true -> earlier t n -> binv dt t t (round_next t dt n) g'.
Proof.
  intros g g' dt t n m D OK HE (SA & HE' & LO & _) FO (u & E) LE LT.
  pose proof (same_ok _ _ _ SA OK) as OK'. pose proof SA as (S1 & S2 & S3 & _).
  destruct (chunk_backward _ _ _ _ _ _ _ _ (proj1 (proj1 OK)) (series_len _ (proj1 OK)) (proj1 HE) FO E)
    as (k & K1 & K2 & K3 & K4).
  unfold binv, DeferProofs3.per, DeferProofs3.ex, DeferProofs3.tT, DeferProofs.full, DeferProofs3.st_i, DeferProofs3.st_p in *. rewrite S1, S2, S3.
  split; [exact OK'|]. split; [exact HE'|]. split; [exact LO|]. split; [apply Qle_refl|]. exists k. split; [exact K1|]. split; [exact K2|].
  destruct (round_backward t dt n D LT) as (R1 & R2). split; [exact R1|]. split.
  - intros s TS B. apply R2 in B. apply (after_le _ _ _ B) in LE.
    destruct K2 as (B1 & B2). split.
    + destruct m as [|q|]; cbn in K3, LE; [right; exact K3| |contradiction].
      left. destruct K3 as (K3 & _). lra.
    + destruct B2 as [B2|B2]; [left; lra|right; exact B2].
  - destruct (d_periodic V g); [|exact K4]. destruct FO as (_ & _ & FO & _). destruct K4 as (K5 & K6 & _).
    split; [exact FO|]. split; [intro G; apply K5; exact G|]. split; [intro G; apply K6; exact G|]. split; [intro G; apply K5; exact G|].
    intro G. destruct (K6 G) as (K7 & _ & [K8|K8]); [left; exact K8|right; split; [exact K8|exact K7]].
Qed.

Lemma request_backward : forall gs t dt gs' n, (dt < 0)%Q -> Forall grid_ok gs -> Forall held gs ->
  Forall (fun g => bwd_ok (per g) (ex g) (full g) (st_i g) (st_p g) t) gs ->
  request V gs t dt = Ok (gs', n) -> Forall2 (same V) gs gs' /\ Forall (binv dt t t n) gs'.
Proof.
  intros gs t dt gs' n D OK HE FO H. pose proof (request_steps V gs t dt gs' n OK HE H) as ST.
  unfold request in H. rewrite (sign_neg dt D) in *.
  destruct (chunk_all V gs t (-1) _) as [[us m]| |] eqn:E; [|discriminate|discriminate].
  destruct (load_all V gs us (-1)) as [g1|] eqn:E1; [|discriminate]. injection H as <- <-.
  destruct (all_limits V _ _ _ _ _ _ E) as (L1 & L2 & L3). change (0 <=? -1) with false in L1, L2. change (0 <? -1) with false in L3.
  assert (LT : earlier t m).
  { destruct L3 as [->|(g & st & IN & O)]; [exact I|].
    assert (G : exists g', stepped V t (-1) g g').
    { clear -ST IN. induction ST as [|a b l l' S ST IH]; [destruct IN|]. destruct IN as [->|IN]; [exists b; exact S|apply IH; exact IN]. }
    destruct G as (g' & (_ & _ & _ & u & n' & EC & NE)).
    assert (n' = m) by (eapply own_det; [exists u; exact EC|exact O]). subst n'.
    rewrite Forall_forall in OK, HE, FO.
    destruct (chunk_backward _ _ _ _ _ _ _ _ (proj1 (proj1 (OK g IN))) (series_len _ (proj1 (OK g IN))) (proj1 (HE g IN)) (FO g IN) EC)
      as (k & _ & _ & K3 & _).
    destruct m as [|q|]; cbn in K3; [exact I| |contradiction]. cbn. specialize (NE ltac:(lia)). destruct K3 as (_ & K3 & _).
    apply Qle_lteq in K3. destruct K3 as [K3|K3]; [exact K3|]. exfalso. apply NE. symmetry. exact K3. }
  split; [eapply forall2_weaken; [|exact ST]; intros a b (A & _); exact A|].
  pose proof (forall2_and_l _ _ _ _ _ _ (forall2_and_l _ _ _ _ _ _ (forall2_and_l _ _ _ _ _ _ (forall2_and_l _ _ _ _ _ _ ST OK) HE) FO) L2) as ALL.
  clear -ALL D LT. induction ALL as [|a b l l' H ALL IH]; constructor; [|exact IH].
  destruct H as ((((S & A) & B) & C) & st & m' & O & LE).
  pose proof S as (_ & _ & _ & u & n' & EC & _).
  assert (O' : own V t (-1) a (d_state V b) n') by (exists u; exact EC).
  assert (n' = m') by (eapply own_det; eassumption). subst n'.
  eapply stepped_backward; eassumption.
Qed.

Lemma binv_answered : forall dt t u n g, (dt < 0)%Q -> binv dt t u n g -> answered g t dt n.
Proof.
  intros dt t u n g D (OK & HE & LO & _ & m & M1 & M2 & M3 & M4 & _). exists (st_i g), m.
  destruct HE as (W & F). destruct W as [(W & _)|(W1 & W2 & W3)]; [unfold DeferProofs.loaded in LO; lia|].
  split; [split; [exact W1|]; split; [exact W2|exact W3]|]. split; [apply F; exact LO|]. split; [exact M1|]. split; [exact M2|].
  split; [intro DN; exfalso; lra|]. intros _. split; [exact M3|exact M4].
Qed.

Lemma binv_earlier : forall dt t u u' n g, (u' <= u)%Q -> ((first_ (full g) <= u)%Q -> (u' == u)%Q \/ (u' < first_ (full g))%Q \/ (first_ (full g) < u)%Q) ->
  binv dt t u n g -> binv dt t u' n g.
Proof.
  intros dt t u u' n g L X (A & B & C & D & m & E & F & G & H & I). split; [exact A|]. split; [exact B|]. split; [exact C|].
  split; [lra|]. exists m. split; [exact E|]. split; [exact F|]. split; [exact G|]. split; [exact H|]. destruct (per g); [|exact I].
  destruct I as (I1 & I2 & I3 & I4 & I5). split; [exact I1|]. split; [exact I2|]. split; [exact I3|].
  split; [intro Y; apply I4; lra|]. intro Y. destruct (X ltac:(lra)) as [Z|[Z|Z]]; [apply I5; lra|lra|left; apply I4; exact Z].
Qed.

Lemma sample_backward : forall dt t u n g jit k s g', (dt < 0)%Q -> binv dt t u n g -> (s <= t)%Q -> after_ext s n ->
  (jit = true \/ per g = false) ->
  sample_periods V jit k g s = Some g' -> binv dt t (qmin u s) n g'.
Proof.
  intros dt t u n g jit k s g' D F TS B MO H. pose proof (sample_same V _ _ _ _ _ H) as (SA & HE & S1 & S2 & S3).
  destruct F as (OK & HO & LO & TU & m & M1 & M2 & M3 & M3' & M4).
  pose proof (same_ok V _ _ SA OK) as OK'. pose proof SA as (A1 & A2 & A3 & _).
  assert (F' : full g' = full g) by (unfold DeferProofs.full; rewrite A1; reflexivity).
  assert (I' : st_i g' = st_i g) by exact S1. assert (T' : tT g' = tT g) by (unfold DeferProofs3.tT; rewrite F'; reflexivity).
  assert (E' : ex g' = ex g) by exact A3. assert (P' : per g' = per g) by exact A2.
  split; [exact OK'|]. split; [exact (HE HO)|]. split; [unfold DeferProofs.loaded in *; lia|].
  split; [pose proof (qmin_l u s); lra|]. exists m. rewrite F', I', T', E', P'. split; [exact M1|]. split; [exact M2|]. split; [exact M3|]. split; [exact M3'|].
  destruct (per g) eqn:PG.
  - destruct MO as [->|MO]; [|discriminate]. destruct M4 as (M5 & M6 & M7 & M8 & M9). split; [exact M5|]. split; [exact M6|]. split; [exact M7|].
    pose proof (qmin_l u s) as QL. pose proof (qmin_r u s) as QR.
    destruct OK as (OK1 & OK2 & OK3). pose proof (OK3 PG) as EX. unfold DeferProofs3.ex in *.
    pose proof (inc_dir (full g) ltac:(pose proof (series_len _ OK1); unfold DeferProofs.full; lia) (proj2 (proj1 OK1))) as DIR.
    destruct HO as ([(W & _)|(W1 & W2 & W3)] & _); [unfold DeferProofs.loaded in LO; lia|].
    unfold sample_periods in H. destruct (tm_ends _ (proj1 OK1)) as (EE0 & EE1 & _). rewrite EE0, EE1 in H.
    unfold DeferProofs3.per in PG. rewrite PG in H. cbn [negb] in H. rewrite W3 in H. unfold win in H.
    destruct (c_periods _ _ _ _ _ _) as [p'|] eqn:CP in H; [|discriminate].
    assert (PE : st_p g' = p') by (injection H as <-; reflexivity). rewrite PE. clear PE.
    assert (IN : (first_ (full g) < t)%Q -> p' = st_p g).
    { intro X. specialize (M6 X). subst m. destruct (M3' s TS B) as (Y & Z). rewrite z0 in Y, Z.
      rewrite EX in Y, Z. destruct Y as [Y|(Y & _)]; [|discriminate]. destruct Z as [Z|(Z & _)]; [|discriminate].
      apply c_periods_in in CP; [exact CP|]. split; [exact Y|exact Z]. }
    split.
    + intro X. rewrite IN by lra. apply M8. lra.
    + intro X. destruct (Qlt_le_dec (first_ (full g)) t) as [G|G].
      * rewrite (IN G). destruct (Qlt_le_dec (first_ (full g)) u) as [G'|G']; [left; apply M8; exact G'|]. apply M9. lra.
      * right. assert (TE : (t == first_ (full g))%Q) by lra. split; [|apply M7; exact TE].
        assert (SE : (s == first_ (full g))%Q) by lra. specialize (M7 TE). change (s_ti (d_state V g)) with (st_i g) in *. rewrite M7 in CP.
        set (l := full g) in *. assert (ZL : 3 <= zlen l) by (apply series_len; exact OK1).
        assert (AX : axis_ok l) by exact (proj1 OK1).
        pose proof (at_step l (zlen l - 2) AX ltac:(lia) ltac:(lia)) as ST2. pose proof (first_le l (zlen l - 2) AX ltac:(lia)) as FL.
        assert (FL' : (first_ l < at_ l (zlen l - 2))%Q) by (apply (proj2 AX); lia).
        change (time_full (d_series V g)) with l in CP.
        replace (zlen l - 2 + 1) with (zlen l - 1) in * by lia. fold (last_ l) in *.
        destruct k as [|k]; [discriminate|]. cbn [c_periods] in CP.
        set (w := [at_ l (zlen l - 2); last_ l]) in CP.
        change (cget w 0) with (Some (at_ l (zlen l - 2))) in CP. change (cget w (zlen w - 1)) with (Some (last_ l)) in CP. cbv iota zeta in CP.
        rewrite (proj2 (qlt_spec s (at_ l (zlen l - 2)))) in CP by lra.
        rewrite (floor0 (first_ l) (last_ l) s DIR) in CP by lra.
        rewrite (proj2 (qlt_spec (s - inject_Z 0 * (last_ l - first_ l)) (at_ l (zlen l - 2)))) in CP by (rewrite z0; lra).
        apply c_periods_in in CP; [exact CP|]. change (inject_Z 0) with 0%Q. change (inject_Z (0 - 1)) with (-1)%Q. split; lra.
  - assert (G : st_p g' = 0); [|exact G]. unfold sample_periods in H. destruct (pyget _ 0) as [f0|]; [|discriminate].
    destruct (pyget _ (-1)) as [fn|]; [|discriminate]. unfold DeferProofs3.per in PG. rewrite PG in H. cbn [negb] in H.
    injection H as <-. exact M4.
Qed.

Lemma binv_bwd_ok : forall dt t u n g t', binv dt t u n g -> (t' <= u)%Q -> after_ext t' n -> (per g = true -> at_frame true (full g) t') ->
  bwd_ok (per g) (ex g) (full g) (st_i g) (st_p g) t'.
Proof.
  intros dt t u n g t' (OK & HE & LO & TU & m & M1 & _ & _ & M & H) L B FT. unfold bwd_ok. destruct (per g) eqn:PG.
  - destruct H as (H1 & _ & H2 & H3 & H4). split; [apply OK; exact PG|]. split; [apply FT; reflexivity|]. split; [lra|].
    split; [intro X; apply H3; lra|]. intro X. destruct (Qlt_le_dec (first_ (full g)) u) as [G|G]; [left; apply H3; exact G|].
    apply H4. lra.
  - split; [exact H|]. specialize (M1 eq_refl). subst m. destruct (M t' ltac:(lra) B) as (X & Y). rewrite z0 in X, Y.
    destruct HE as ([(W & _)|(W1 & W2 & W3)] & _); [unfold DeferProofs.loaded in LO; lia|].
    destruct X as [X|(_ & X)].
    + destruct Y as [Y|(_ & Y)]; [right; right; right; split; [exact LO|]; split; [exact X|exact Y]|].
      destruct (Qlt_le_dec t' (last_ (full g))) as [G|G]; [|right; right; left; exact G].
      right. right. right. split; [exact LO|]. split; [exact X|]. change (s_ti (d_state V g)) with (st_i g) in *.
      replace (st_i g + 1) with (zlen (full g) - 1) by lia. fold (last_ (full g)). lra.
    + destruct Y as [Y|(_ & Y)].
      * right. left. rewrite X in Y. exact Y.
      * pose proof (series_len _ (proj1 OK)) as ZL. unfold DeferProofs.full in Y. lia.
Qed.

Lemma run_backward : forall dt gs0 t0 gs t u n, (dt < 0)%Q -> Forall is_fresh gs0 -> Forall grid_ok gs0 ->
  Forall (fun g => start_ok g t0) gs0 ->
  run_from dt (fun t => Forall (fun g => d_periodic _ g = true -> frame_time g t) gs0)
              (fun jit => jit = true \/ Forall (fun g => d_periodic _ g = false) gs0) gs0 t0 gs t u n ->
  Forall2 (same V) gs0 gs /\ Forall (binv dt t u n) gs.
Proof.
  intros dt gs0 t0 gs t u n D FR OK ST R.
  assert (FT : forall gs t, Forall (fun g => d_periodic _ g = true -> frame_time g t) gs0 -> Forall2 (same V) gs0 gs ->
                 Forall (fun g => per g = true -> at_frame true (full g) t) gs).
  { clear. intros gs t F S. eapply forall2_forall; [|exact S|exact F]. intros x y (S1 & S2 & _) H P. unfold DeferProofs3.per in P. rewrite S2 in P.
    destruct (H P) as (i & m & A & B & C). exists i, m. unfold DeferProofs.full. rewrite S1. split; [exact A|]. split; [discriminate|]. exact C. }
  induction R as [gs n RQ E|gs t u n jit k m s gs' u' R IH MO E S1 S2 EU|gs t u n t' gs' n' R IH RQ E S1 S2].
  - destruct (request_backward gs0 t0 dt gs n D OK (fresh_held_all V _ FR)) as (A & B); [|exact E|].
    + pose proof (FT gs0 t0 RQ (forall2_refl _ _ (same_refl V) gs0)) as FT0.
      rewrite Forall_forall in *. intros g IN. specialize (FT0 g IN). specialize (ST g IN). specialize (OK g IN).
      destruct (FR g IN) as (se & p & e & cs & ->). unfold bwd_ok, start_ok in *. cbn in *. destruct p.
      * split; [apply OK; reflexivity|]. split; [apply FT0; reflexivity|]. split; [exact ST|]. split; [reflexivity|left; reflexivity].
      * split; [reflexivity|]. destruct ST as [(i & m & X1 & X2 & X3)|[X|X]]; [|right; left; exact X|right; right; left; exact X].
        left. exists i, m. split; [exact X1|]. split; [exact X2|exact X3].
    + split; [exact A|exact B].
  - destruct IH as (A & B). cbn [event_step] in E. destruct (nth_error gs m) as [g|] eqn:N; [|discriminate].
    destruct (sample_periods V jit k g s) as [g'|] eqn:SP; [|discriminate]. injection E as <-.
    rewrite (proj2 (qlt_false 0 dt)) in EU by lra. subst u'. split.
    + eapply forall2_trans; [apply same_trans|exact A|]. eapply update_forall2; [apply same_refl|exact N|]. apply (sample_same V _ _ _ _ _ SP).
    + destruct (S2 D) as (S3 & S4). eapply update_forall; [exact B| |].
      * intros x X. destruct (Qlt_le_dec s u) as [G|G].
        -- apply (binv_earlier dt t u); [apply qmin_l| |exact X]. intro Y.
           destruct (Qlt_le_dec (first_ (full x)) u) as [Z|Z]; [right; right; exact Z|]. right. left. pose proof (qmin_r u s). lra.
        -- apply (binv_earlier dt t u); [apply qmin_l| |exact X]. intros _. left. unfold qmin. rewrite (proj2 (qle_spec u s) G). reflexivity.
      * apply (sample_backward dt t u n g jit k s g' D); try assumption.
        -- rewrite Forall_forall in B. apply B. eapply nth_error_In. exact N.
        -- destruct MO as [MO|MO]; [left; exact MO|right]. assert (G : Forall (fun g => d_periodic _ g = false) gs).
           { eapply forall2_forall; [|exact A|exact MO]. intros x y (_ & Y & _) Z. cbn in *. congruence. }
           rewrite Forall_forall in G. apply G. eapply nth_error_In. exact N.
  - destruct IH as (A & B). destruct (S2 D) as (S3 & S4 & S5).
    assert (OK1 : Forall grid_ok gs) by (eapply forall2_forall; [|exact A|exact OK]; intros x y; apply same_ok).
    destruct (request_backward gs t' dt gs' n' D OK1) as (A' & B').
    + eapply Forall_impl; [|exact B]. intros g G. apply G.
    + pose proof (FT gs t' RQ A) as FT1. rewrite Forall_forall in *. intros g IN. eapply binv_bwd_ok; [apply B; exact IN|exact S4|exact S5|apply FT1; exact IN].
    + exact E.
    + split; [|exact B']. eapply forall2_trans; [apply same_trans|exact A|exact A'].
Qed.

Lemma run_backward_answered : forall dt gs0 t0 gs t u n, (dt < 0)%Q -> Forall is_fresh gs0 -> Forall grid_ok gs0 ->
  Forall (fun g => start_ok g t0) gs0 ->
  run_from dt (fun t => Forall (fun g => d_periodic _ g = true -> frame_time g t) gs0)
              (fun jit => jit = true \/ Forall (fun g => d_periodic _ g = false) gs0) gs0 t0 gs t u n ->
  Forall (fun g : dgrid => answered g t dt n) gs.
Proof.
  intros dt gs0 t0 gs t u n D FR OK ST R. destruct (run_backward _ _ _ _ _ _ _ D FR OK ST R) as (_ & B).
  eapply Forall_impl; [|exact B]. intros g G. eapply binv_answered; eassumption.
Qed.

(** ** Requests succeed *)
Lemma next_total : forall e full f0 fn i m sgn, exists n, chunk_next e full f0 fn i (win full i) m sgn = Some n.
Proof.
  intros e full f0 fn i m sgn. unfold chunk_next, win. change (pyget [at_ full i; at_ full (i + 1)] 0) with (Some (at_ full i)).
  change (pyget [at_ full i; at_ full (i + 1)] 1) with (Some (at_ full (i + 1))). cbv iota.
  destruct (_ && _); [eexists; reflexivity|]. destruct (_ && _); eexists; reflexivity.
Qed.

Lemma chunk_total : forall p e l st t sgn, axis_ok l -> 3 <= zlen l -> wok l st ->
  py_time_index p e l (first_ l) (last_ l) t <> TExtrap ->
  exists st' u n, grid_chunk p e l st t sgn = Chunk st' u n.
Proof.
  intros p e l st t sgn OK L W NE. unfold grid_chunk. destruct (tm_ends l OK) as (E0 & E1 & _). rewrite E0, E1.
  assert (RESET : exists st' u m, chunk_reset p e l (first_ l) (last_ l) st t sgn = inl (st', u, m) /\ s_time st' = win l (s_ti st')).
  { unfold chunk_reset. destruct (py_time_index p e l (first_ l) (last_ l) t) as [i q| |] eqn:E; [|congruence|].
    - pose proof (ti_range _ _ _ _ _ _ OK L E) as R. cbv zeta.
      match goal with |- context [slice2 l ?x] => assert (R3 : 0 <= x /\ x + 1 < zlen l); [|rewrite (slice2_in l x (proj1 R3) (proj2 R3))] end.
      { destruct ((sgn =? -1) && (i =? 0) && _ && p).
        - destruct (Z.ltb_spec 0 (zlen l - 1)); destruct (sgn =? -1); cbn [andb];
            match goal with |- context [?a <=? ?b] => destruct (Z.leb_spec a b) end; lia.
        - destruct (Z.ltb_spec 0 i); destruct (sgn =? -1); cbn [andb];
            match goal with |- context [?a <=? ?b] => destruct (Z.leb_spec a b) end; lia. }
      eexists. eexists. eexists. split; [reflexivity|]. reflexivity.
    - exfalso. destruct p.
      + destruct (ti_per l e t OK L) as (i & q & X & _). congruence.
      + destruct (ti_nonper l e t OK L) as [(X & _)|(i & X & _)]; congruence. }
  destruct RESET as (st1 & u1 & m1 & R1 & R2).
  destruct W as [(W1 & W2)|(W1 & W2 & W3)].
  - rewrite W1. change (0 <=? -1) with false. cbv iota zeta. change (-1 =? -1) with true. cbv iota. rewrite R1. cbv iota beta. rewrite R2.
    destruct (next_total e l (first_ l) (last_ l) (s_ti st1) m1 sgn) as (n & ->). eexists. eexists. eexists. reflexivity.
  - destruct (Z.leb_spec 0 (s_ti st)); [|lia]. rewrite W3. unfold win at 1 2.
    change (pyget [at_ l (s_ti st); at_ l (s_ti st + 1)] 0) with (Some (at_ l (s_ti st))).
    change (pyget [at_ l (s_ti st); at_ l (s_ti st + 1)] 1) with (Some (at_ l (s_ti st + 1))). cbv zeta iota.
    destruct (chunk_move l (first_ l) (last_ l) (at_ l (s_ti st)) (at_ l (s_ti st + 1)) st t sgn) as [[[ti tm] u]|] eqn:M.
    + destruct (Z.eqb_spec ti (-1)).
      * rewrite R1. cbv iota beta. rewrite R2. destruct (next_total e l (first_ l) (last_ l) (s_ti st1) m1 sgn) as (n & ->). eexists. eexists. eexists. reflexivity.
      * destruct (move_ok _ _ _ _ _ _ _ L W1 W2 W3 M) as [X|(_ & (_ & _ & X & _))]; [contradiction|]. cbn [s_ti s_time] in *. rewrite X.
        destruct (next_total e l (first_ l) (last_ l) ti (s_periods st) sgn) as (n' & ->). eexists. eexists. eexists. reflexivity.
    + exfalso. unfold chunk_move in M.
      destruct (_ || _) in M; [discriminate|]. destruct (_ && (_ || _)) in M; [discriminate|]. destruct (_ && (_ || _)) in M; [discriminate|].
      destruct ((0 <=? sgn) && _ && (s_ti st <? zlen l - 2)) eqn:F in M.
      * apply andb_true_iff in F. destruct F as [_ F]. apply Z.ltb_lt in F. rewrite (slice2_in l (s_ti st + 1)) in M by lia. discriminate.
      * destruct ((sgn <? 0) && _ && (0 <? s_ti st)) eqn:G in M; [|discriminate].
        apply andb_true_iff in G. destruct G as [_ G]. apply Z.ltb_lt in G. rewrite (slice2_in l (s_ti st - 1)) in M by lia. discriminate.
Qed.

Lemma load_total : forall se st st' u sgn fs, series_ok se -> added_ok se -> moved (time_full se) st st' u sgn ->
  (0 <= s_ti st -> Forall (fun f => exists a b, snd f = Some (a, b) /\ frame se (fst f) (s_ti st) = Some a /\ frame se (fst f) (s_ti st + 1) = Some b) fs) ->
  exists fs', map_opt (load_field V se st' u sgn) fs = Some fs'.
Proof.
  intros se st st' u sgn fs OK AD (M1 & M2 & M3 & M4). induction fs as [|f r IH]; intro P; cbn [map_opt]; [eexists; reflexivity|].
  destruct IH as (r' & ->); [intro X; exact (Forall_inv_tail (P X))|].
  enough (exists f', load_field V se st' u sgn f = Some f') as (f' & ->) by (eexists; reflexivity).
  unfold load_field. rewrite M3. unfold win.
  change (pyget [at_ (time_full se) (s_ti st'); at_ (time_full se) (s_ti st' + 1)] 0) with (Some (at_ (time_full se) (s_ti st'))).
  change (pyget [at_ (time_full se) (s_ti st'); at_ (time_full se) (s_ti st' + 1)] 1) with (Some (at_ (time_full se) (s_ti st' + 1))).
  cbv iota zeta.
  destruct (read_right V se (fst f) (s_ti st') OK AD ltac:(lia)) as (a & RA & FA).
  destruct (read_right V se (fst f) (s_ti st' + 1) OK AD ltac:(lia)) as (b & RB & FB).
  rewrite RA, RB. destruct u; [eexists; reflexivity| |eexists; reflexivity].
  destruct M4 as [M4 _]. destruct (Forall_inv (P M4)) as (x & y & E & _). rewrite E. destruct (0 <=? sgn); eexists; reflexivity.
Qed.

Lemma request_total : forall gs t dt, Forall grid_ok gs -> Forall held gs ->
  Forall (fun g => exists st u n, grid_chunk (per g) (ex g) (full g) (d_state _ g) t (qsign dt) = Chunk st u n /\
                     match n with Fin q => ~ (t == q)%Q | _ => True end) gs ->
  exists gs' n, request V gs t dt = Ok (gs', n).
Proof.
  intros gs t dt OK HE C.
  assert (X : forall n0, exists us n gs', chunk_all V gs t (qsign dt) n0 = Ok (us, n) /\ load_all V gs us (qsign dt) = Some gs').
  { induction gs as [|g r IH]; intro n0; [exists [], n0, []; split; reflexivity|].
    destruct (Forall_inv C) as (st & u & n & E & NE). cbn [chunk_all]. unfold DeferProofs3.per, DeferProofs3.ex, DeferProofs.full in E. rewrite E.
    replace (negb (qsign dt =? 0) && match n with Fin q => qeqb t q | _ => false end) with false.
    2: { symmetry. apply andb_false_iff. right. destruct n as [|q|]; try reflexivity. unfold qeqb. destruct (Qeq_bool t q) eqn:Q; [|reflexivity].
         exfalso. apply NE. apply Qeq_bool_iff. exact Q. }
    destruct (IH (Forall_inv_tail OK) (Forall_inv_tail HE) (Forall_inv_tail C) (if 0 <=? qsign dt then ext_min n0 n else ext_max n0 n)) as (us & n' & r' & E1 & E2).
    rewrite E1. exists ((st, u) :: us), n'. pose proof (Forall_inv OK) as (G1 & G2 & G3). pose proof (Forall_inv HE) as (H1 & H2).
    pose proof (chunk_status _ _ _ _ _ _ _ _ _ (proj1 G1) (series_len _ G1) H1 E) as M.
    destruct (load_total _ _ _ _ _ _ G1 G2 M H2) as (fs & E3). cbn [load_all]. rewrite E3, E2. eexists. split; reflexivity. }
  destruct (X (if 0 <? qsign dt then PosInf else NegInf)) as (us & n & gs' & E1 & E2). unfold request. rewrite E1, E2.
  exists gs', (round_next t dt n). reflexivity.
Qed.

Lemma not_extrap : forall g t dt, grid_ok g -> has_data g t dt ->
  py_time_index (per g) (ex g) (full g) (first_ (full g)) (last_ (full g)) t <> TExtrap.
Proof.
  intros g t dt OK H. pose proof (proj1 (proj1 OK)) as AX. pose proof (series_len _ (proj1 OK)) as L.
  unfold DeferProofs3.per, DeferProofs3.ex, DeferProofs.full, has_data in *. destruct (d_periodic V g) eqn:P.
  - destruct (ti_per _ (d_extrapolate V g) t AX L) as (i & q & X & _). rewrite X. discriminate.
  - destruct (ti_nonper _ (d_extrapolate V g) t AX L) as [(X & E & Y)|(i & X & _)]; rewrite X; [|discriminate]. exfalso.
    destruct H as [H|[H|H]]; [discriminate|congruence|]. destruct H as [(_ & H)|(_ & H)]; destruct Y; lra.
Qed.

Lemma forward_total : forall gs t dt, (0 < dt)%Q -> Forall grid_ok gs -> Forall held gs ->
  Forall (fun g => fwd_ok (per g) (ex g) (full g) (st_p g) t) gs -> Forall (fun g => has_data g t dt) gs ->
  exists gs' n, request V gs t dt = Ok (gs', n).
Proof.
  intros gs t dt D OK HE FO HD. apply request_total; [exact OK|exact HE|]. rewrite Forall_forall in *. intros g IN. rewrite (sign_pos _ D).
  destruct (chunk_total (per g) (ex g) (full g) (d_state _ g) t 1 (proj1 (proj1 (OK g IN))) (series_len _ (proj1 (OK g IN))) (proj1 (HE g IN))
    (not_extrap g t dt (OK g IN) (HD g IN))) as (st & u & n & E).
  exists st, u, n. split; [exact E|].
  destruct (chunk_forward _ _ _ _ _ _ _ _ _ (proj1 (proj1 (OK g IN))) (series_len _ (proj1 (OK g IN))) (proj1 (HE g IN)) Z.le_0_1 (FO g IN) E)
    as (k & _ & _ & K3 & _).
  destruct n as [|q|]; try exact I. cbn in K3. destruct K3 as (_ & _ & K3).
  assert (X : (t < q)%Q); [|lra]. apply K3. unfold DeferProofs3.per, DeferProofs3.ex, DeferProofs.full.
  destruct (HD g IN) as [H|[H|[(_ & H)|(H & _)]]]; [left; exact H|right; left; exact H|right; right; lra|lra].
Qed.

Lemma backward_total : forall gs t dt, (dt < 0)%Q -> Forall grid_ok gs -> Forall held gs ->
  Forall (fun g => bwd_ok (per g) (ex g) (full g) (st_i g) (st_p g) t) gs -> Forall (fun g => has_data g t dt) gs ->
  exists gs' n, request V gs t dt = Ok (gs', n).
Proof.
  intros gs t dt D OK HE FO HD. apply request_total; [exact OK|exact HE|]. rewrite Forall_forall in *. intros g IN. rewrite (sign_neg _ D).
  destruct (chunk_total (per g) (ex g) (full g) (d_state _ g) t (-1) (proj1 (proj1 (OK g IN))) (series_len _ (proj1 (OK g IN))) (proj1 (HE g IN))
    (not_extrap g t dt (OK g IN) (HD g IN))) as (st & u & n & E).
  exists st, u, n. split; [exact E|].
  destruct (chunk_backward _ _ _ _ _ _ _ _ (proj1 (proj1 (OK g IN))) (series_len _ (proj1 (OK g IN))) (proj1 (HE g IN)) (FO g IN) E)
    as (k & _ & _ & K3 & _).
  destruct n as [|q|]; try exact I. cbn in K3. destruct K3 as (_ & _ & K3).
  assert (X : (q < t)%Q); [|lra]. apply K3. unfold DeferProofs3.per, DeferProofs3.ex, DeferProofs.full.
  destruct (HD g IN) as [H|[H|[(H & _)|(_ & H)]]]; [left; exact H|right; left; exact H|lra|right; right; lra].
Qed.

Lemma same_data : forall gs gs' t dt, Forall2 (same V) gs gs' -> Forall (fun g => has_data g t dt) gs -> Forall (fun g => has_data g t dt) gs'.
Proof.
  intros gs gs' t dt S H. eapply forall2_forall; [|exact S|exact H]. intros a b (S1 & S2 & S3 & _) X. unfold has_data in *. rewrite S1, S2, S3. exact X.
Qed.

Lemma run_forward_continues : forall dt rq mo gs0 t0 gs t u n t', (0 < dt)%Q -> Forall is_fresh gs0 -> Forall grid_ok gs0 ->
  Forall (fun g => d_periodic _ g = true -> (first_ (time_full (d_series _ g)) <= t0)%Q) gs0 ->
  run_from dt rq mo gs0 t0 gs t u n -> (u <= t')%Q -> Forall (fun g => has_data g t' dt) gs0 ->
  exists gs' n', request V gs t' dt = Ok (gs', n').
Proof.
  intros dt rq mo gs0 t0 gs t u n t' D FR OK ST R L HD. destruct (run_forward _ _ _ _ _ _ _ _ _ D FR OK ST R) as (A & B).
  apply forward_total; [exact D| | | |exact (same_data _ _ _ _ A HD)].
  - eapply Forall_impl; [|exact B]. intros g G. apply G.
  - eapply Forall_impl; [|exact B]. intros g G. apply G.
  - eapply Forall_impl; [|exact B]. intros g G. eapply finv_fwd_ok; eassumption.
Qed.

Lemma run_forward_starts : forall dt gs0 t0, (0 < dt)%Q -> Forall is_fresh gs0 -> Forall grid_ok gs0 ->
  Forall (fun g => d_periodic _ g = true -> (first_ (time_full (d_series _ g)) <= t0)%Q) gs0 -> Forall (fun g => has_data g t0 dt) gs0 ->
  exists gs n, request V gs0 t0 dt = Ok (gs, n).
Proof.
  intros dt gs0 t0 D FR OK ST HD. apply forward_total; [exact D|exact OK|exact (fresh_held_all V _ FR)| |exact HD].
  rewrite Forall_forall in *. intros g IN. destruct (FR g IN) as (se & p & e & cs & ->). specialize (ST _ IN). cbn in ST. unfold fwd_ok.
  cbn. destruct p; [|reflexivity]. split; [apply (OK _ IN); reflexivity|]. split; [apply ST; reflexivity|reflexivity].
Qed.

Lemma run_backward_starts : forall dt gs0 t0, (dt < 0)%Q -> Forall is_fresh gs0 -> Forall grid_ok gs0 ->
  Forall (fun g => start_ok g t0) gs0 -> Forall (fun g => d_periodic _ g = true -> frame_time g t0) gs0 -> Forall (fun g => has_data g t0 dt) gs0 ->
  exists gs n, request V gs0 t0 dt = Ok (gs, n).
Proof.
  intros dt gs0 t0 D FR OK ST FT HD. apply backward_total; [exact D|exact OK|exact (fresh_held_all V _ FR)| |exact HD].
  rewrite Forall_forall in *. intros g IN. specialize (FT g IN). specialize (ST g IN). specialize (OK g IN).
  destruct (FR g IN) as (se & p & e & cs & ->). unfold bwd_ok, start_ok in *. cbn in *. destruct p.
  - split; [apply OK; reflexivity|]. split; [|split; [exact ST|split; [reflexivity|left; reflexivity]]].
    destruct (FT eq_refl) as (i & m & X1 & X2 & X3). exists i, m. split; [exact X1|]. split; [discriminate|exact X3].
  - split; [reflexivity|]. destruct ST as [(i & m & X1 & X2 & X3)|[X|X]]; [|right; left; exact X|right; right; left; exact X].
    left. exists i, m. split; [exact X1|]. split; [exact X2|exact X3].
Qed.

Lemma run_backward_continues : forall dt gs0 t0 gs t u n t', (dt < 0)%Q -> Forall is_fresh gs0 -> Forall grid_ok gs0 ->
  Forall (fun g => start_ok g t0) gs0 ->
  run_from dt (fun t => Forall (fun g => d_periodic _ g = true -> frame_time g t) gs0)
              (fun jit => jit = true \/ Forall (fun g => d_periodic _ g = false) gs0) gs0 t0 gs t u n ->
  (t' <= u)%Q -> after_ext t' n -> Forall (fun g => d_periodic _ g = true -> frame_time g t') gs0 -> Forall (fun g => has_data g t' dt) gs0 ->
  exists gs' n', request V gs t' dt = Ok (gs', n').
Proof.
  intros dt gs0 t0 gs t u n t' D FR OK ST R L AF FT HD. destruct (run_backward _ _ _ _ _ _ _ D FR OK ST R) as (A & B).
  apply backward_total; [exact D| | | |exact (same_data _ _ _ _ A HD)].
  - eapply Forall_impl; [|exact B]. intros g G. apply G.
  - eapply Forall_impl; [|exact B]. intros g G. apply G.
  - assert (FT' : Forall (fun g => per g = true -> at_frame true (full g) t') gs).
    { eapply forall2_forall; [|exact A|exact FT]. intros x y (S1 & S2 & _) H P. unfold DeferProofs3.per in P. rewrite S2 in P.
      destruct (H P) as (i & m & X & Y & C). exists i, m. unfold DeferProofs.full. rewrite S1. split; [exact X|]. split; [discriminate|]. exact C. }
    rewrite Forall_forall in *. intros g IN. eapply binv_bwd_ok; [apply B; exact IN|exact L|exact AF|apply FT'; exact IN].
Qed.
End Runs.
