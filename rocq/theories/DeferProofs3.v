(** Proofs about deferred loading: runs. *)
From Coq Require Import List ZArith Bool QArith Qround Lia Lqa.
From Verif Require Import IdxModel IdxSpec IdxProofs TimeModel TimeProofs DeferModel DeferSpec DeferProofs DeferProofs2.
Import ListNotations.
Open Scope Z_scope.

(** ** The announced time *)
Lemma ext_le_refl : forall a, ext_le a a = true.
Proof. destruct a; cbn; try reflexivity. apply qle_spec. apply Qle_refl. Qed.
Lemma ext_le_trans : forall a b c, ext_le a b = true -> ext_le b c = true -> ext_le a c = true.
Proof.
  destruct a, b, c; cbn; try reflexivity; try discriminate. rewrite !qle_spec. intros. eapply Qle_trans; eassumption.
Qed.
Lemma ext_total : forall a b, ext_le a b = false -> ext_le b a = true.
Proof. destruct a, b; cbn; try reflexivity; try discriminate. rewrite qle_false, qle_spec. apply Qlt_le_weak. Qed.
Lemma ext_min_l : forall a b, ext_le (ext_min a b) a = true.
Proof. intros a b. unfold ext_min. destruct (ext_le b a) eqn:E; [exact E|apply ext_le_refl]. Qed.
Lemma ext_min_r : forall a b, ext_le (ext_min a b) b = true.
Proof. intros a b. unfold ext_min. destruct (ext_le b a) eqn:E; [apply ext_le_refl|apply ext_total; exact E]. Qed.
Lemma ext_max_l : forall a b, ext_le a (ext_max a b) = true.
Proof. intros a b. unfold ext_max. destruct (ext_le a b) eqn:E; [exact E|apply ext_le_refl]. Qed.
Lemma ext_max_r : forall a b, ext_le b (ext_max a b) = true.
Proof. intros a b. unfold ext_max. destruct (ext_le a b) eqn:E; [apply ext_le_refl|apply ext_total; exact E]. Qed.
Lemma before_le : forall s a b, before_ext s a -> ext_le a b = true -> before_ext s b.
Proof. intros s a b H L. destruct a, b; cbn in *; try tauto; try discriminate. apply qle_spec in L. eapply Qle_trans; eassumption. Qed.
Lemma after_le : forall s a b, after_ext s b -> ext_le a b = true -> after_ext s a.
Proof. intros s a b H L. destruct a, b; cbn in *; try tauto; try discriminate. apply qle_spec in L. eapply Qle_trans; eassumption. Qed.

Section Lists.
Variable V : Type.
Notation dgrid := (dgrid V).

Definition own (t : Q) (sgn : Z) (g : dgrid) (st : gstate) (n : ext) : Prop :=
  exists u, grid_chunk (d_periodic _ g) (d_extrapolate _ g) (full V g) (d_state _ g) t sgn = Chunk st u n.

Lemma all_limits : forall gs t sgn n0 us n, chunk_all V gs t sgn n0 = Ok (us, n) ->
  (if 0 <=? sgn then ext_le n n0 else ext_le n0 n) = true /\
  Forall (fun g => exists st m, own t sgn g st m /\ (if 0 <=? sgn then ext_le n m else ext_le m n) = true) gs /\
  (n = n0 \/ exists g st, In g gs /\ own t sgn g st n).
Proof.
  induction gs as [|g r IH]; intros t sgn n0 us n C; cbn [chunk_all] in C.
  - injection C as <- <-. split; [destruct (0 <=? sgn); apply ext_le_refl|]. split; [constructor|left; reflexivity].
  - destruct (grid_chunk _ _ _ _ _ _) as [st u m| |] eqn:E in C; [|discriminate|discriminate].
    destruct (negb (sgn =? 0) && match m with Fin q => qeqb t q | _ => false end) eqn:X; [discriminate|].
    destruct (chunk_all V r t sgn _) as [[l n']| |] eqn:E1 in C; [|discriminate|discriminate]. injection C as <- <-.
    destruct (IH _ _ _ _ _ E1) as (A & B & D). split; [|split].
    + destruct (0 <=? sgn); eapply ext_le_trans; [exact A|apply ext_min_l|apply ext_max_l|exact A].
    + constructor; [|exact B]. exists st, m. split; [exists u; exact E|].
      destruct (0 <=? sgn); eapply ext_le_trans; [exact A|apply ext_min_r|apply ext_max_r|exact A].
    + destruct D as [->|(g' & st' & I & O)].
      * destruct (0 <=? sgn).
        -- unfold ext_min. destruct (ext_le m n0); [|left; reflexivity]. right. exists g, st. split; [left; reflexivity|]. exists u. exact E.
        -- unfold ext_max. destruct (ext_le n0 m); [|left; reflexivity]. right. exists g, st. split; [left; reflexivity|]. exists u. exact E.
      * right. exists g', st'. split; [right; exact I|exact O].
Qed.

Lemma forall2_and_l : forall A B (R : A -> B -> Prop) (P : A -> Prop) l l', Forall2 R l l' -> Forall P l -> Forall2 (fun a b => R a b /\ P a) l l'.
Proof. intros A B R P l l' H. induction H; intro F; inversion F; subst; constructor; auto. Qed.

(** ** Forward *)
Lemma sign_pos : forall dt, (0 < dt)%Q -> qsign dt = 1.
Proof. intros [n d] H. unfold qsign, Qlt in *. cbn in *. rewrite Z.mul_1_r in H. apply Z.sgn_pos. exact H. Qed.
Lemma sign_neg : forall dt, (dt < 0)%Q -> qsign dt = -1.
Proof. intros [n d] H. unfold qsign, Qlt in *. cbn in *. rewrite Z.mul_1_r in H. apply Z.sgn_neg. exact H. Qed.
Lemma sign_nonneg : forall dt, (0 <= dt)%Q -> 0 <= qsign dt.
Proof. intros [n d] H. unfold qsign, Qle in *. cbn in *. rewrite Z.mul_1_r in H. apply Z.sgn_nonneg. exact H. Qed.

Lemma round_forward : forall t dt n, (0 < dt)%Q -> later t n ->
  later t (round_next t dt n) /\ (forall s, before_ext s (round_next t dt n) -> before_ext s n).
Proof.
  intros t dt n D L. destruct n as [|q|]; [contradiction| |split; [exact I|trivial]]. cbn [later] in L. cbn [round_next].
  assert (P : (0 < (q - t) / dt)%Q) by (apply Qlt_shift_div_l; lra).
  unfold qtrunc. rewrite (proj2 (qle_spec _ _) (Qlt_le_weak _ _ P)).
  destruct (Z.eqb_spec (Qfloor ((q - t) / dt)) 0) as [E|E]; [split; [exact L|trivial]|].
  pose proof (Qfloor_le ((q - t) / dt)) as FL. set (k := Qfloor ((q - t) / dt)) in *.
  assert (K : 1 <= k).
  { pose proof (Qlt_floor ((q - t) / dt)) as G. fold k in G. assert (0 < inject_Z (k + 1))%Q by lra.
    change 0%Q with (inject_Z 0) in H. rewrite <- Zlt_Qlt in H. lia. }
  assert (K' : (1 <= inject_Z k)%Q) by (change 1%Q with (inject_Z 1); rewrite <- Zle_Qle; exact K).
  assert (M : (inject_Z k * dt <= q - t)%Q).
  { setoid_replace (q - t)%Q with ((q - t) / dt * dt)%Q by (field; lra). apply Qmult_le_compat_r; lra. }
  assert (M1 : (1 * dt <= inject_Z k * dt)%Q) by (apply Qmult_le_compat_r; lra).
  split; [change (t < t + inject_Z k * dt)%Q; lra|]. intros s B. change (s <= t + inject_Z k * dt)%Q in B. change (s <= q)%Q. lra.
Qed.

Lemma round_backward : forall t dt n, (dt < 0)%Q -> earlier t n ->
  earlier t (round_next t dt n) /\ (forall s, after_ext s (round_next t dt n) -> after_ext s n).
Proof.
  intros t dt n D L. destruct n as [|q|]; [split; [exact I|trivial]| |contradiction]. cbn [earlier] in L. cbn [round_next].
  assert (EQ : ((q - t) / dt == (t - q) / (- dt))%Q) by (field; lra).
  assert (P : (0 < (q - t) / dt)%Q) by (rewrite EQ; apply Qlt_shift_div_l; lra).
  unfold qtrunc. rewrite (proj2 (qle_spec _ _) (Qlt_le_weak _ _ P)).
  destruct (Z.eqb_spec (Qfloor ((q - t) / dt)) 0) as [E|E]; [split; [exact L|trivial]|].
  pose proof (Qfloor_le ((q - t) / dt)) as FL. set (k := Qfloor ((q - t) / dt)) in *.
  assert (K : 1 <= k).
  { pose proof (Qlt_floor ((q - t) / dt)) as G. fold k in G. assert (0 < inject_Z (k + 1))%Q by lra.
    change 0%Q with (inject_Z 0) in H. rewrite <- Zlt_Qlt in H. lia. }
  assert (K' : (1 <= inject_Z k)%Q) by (change 1%Q with (inject_Z 1); rewrite <- Zle_Qle; exact K).
  assert (M : (inject_Z k * (- dt) <= t - q)%Q).
  { setoid_replace (t - q)%Q with ((q - t) / dt * (- dt))%Q by (field; lra). apply Qmult_le_compat_r; lra. }
  assert (M1 : (1 * (- dt) <= inject_Z k * (- dt))%Q) by (apply Qmult_le_compat_r; lra).
  split; [change (t + inject_Z k * dt < t)%Q; lra|]. intros s B. change (t + inject_Z k * dt <= s)%Q in B. change (q <= s)%Q. lra.
Qed.

Lemma brackets_eq : forall full e i s s', (s == s')%Q -> brackets full e i s -> brackets full e i s'.
Proof. intros full e i s s' E H. unfold brackets in *. rewrite <- E. exact H. Qed.

Definition per (g : dgrid) := d_periodic _ g.
Definition ex (g : dgrid) := d_extrapolate _ g.
Definition tT (g : dgrid) : Q := (last_ (full V g) - first_ (full V g))%Q.
Definition st_p (g : dgrid) : Z := s_periods (d_state _ g).
Definition st_i (g : dgrid) : Z := s_ti (d_state _ g).

(** After a forward request at [t], times up to [u] having been used, [n] being announced. *)
Definition finv (dt t u : Q) (n : ext) (g : dgrid) : Prop :=
  grid_ok g /\ held V g /\ loaded V g /\ (t <= u)%Q /\
  exists m, (per g = false -> m = 0) /\ brackets (full V g) (ex g) (st_i g) (t - inject_Z m * tT g) /\
    ((0 < dt)%Q -> later t n /\ forall s, (t <= s)%Q -> before_ext s n -> brackets (full V g) (ex g) (st_i g) (s - inject_Z m * tT g)) /\
    (if per g then (first_ (full V g) <= t)%Q /\ ((t < last_ (full V g))%Q -> m = 0) /\ ((u < last_ (full V g))%Q -> st_p g = 0)
     else st_p g = 0).

Lemma stepped_forward : forall g g' dt t n m, (0 <= dt)%Q -> grid_ok g -> held V g -> stepped V t (qsign dt) g g' ->
  fwd_ok (per g) (ex g) (full V g) (st_p g) t ->
  own t (qsign dt) g (d_state _ g') m -> ext_le n m = true -> ((0 < dt)%Q -> later t n) -> finv dt t t (round_next t dt n) g'.
Proof.
  intros g g' dt t n m D OK HE (SA & HE' & LO & _) FO (u & E) LE LT.
  pose proof (same_ok _ _ _ SA OK) as OK'. pose proof SA as (S1 & S2 & S3 & _).
  destruct (chunk_forward _ _ _ _ _ _ _ _ _ (proj1 (proj1 OK)) (series_len _ (proj1 OK)) (proj1 HE) (sign_nonneg _ D) FO E)
    as (k & K1 & K2 & K3 & K4).
  unfold finv, per, ex, tT, full, st_i, st_p in *. rewrite S1, S2, S3.
  split; [exact OK'|]. split; [exact HE'|]. split; [exact LO|]. split; [apply Qle_refl|]. exists k. split; [exact K1|]. split; [exact K2|]. split.
  - intro DP. specialize (LT DP). destruct (round_forward t dt n DP LT) as (R1 & R2). split; [exact R1|].
    intros s TS B. apply R2 in B. apply (before_le _ _ _ B) in LE.
    destruct K2 as (B1 & B2). split.
    + destruct B1 as [B1|B1]; [left; lra|right; exact B1].
    + destruct m as [|q|]; cbn in K3, LE; [contradiction| |right; exact K3].
      left. destruct K3 as (K3 & _). lra.
  - destruct (d_periodic V g); [|exact K4]. destruct FO as (_ & FO & _). split; [exact FO|]. split; intro G; apply K4; exact G.
Qed.

Lemma own_det : forall t sgn g st n st' n', own t sgn g st n -> own t sgn g st' n' -> n = n'.
Proof. intros t sgn g st n st' n' (u & A) (u' & B). congruence. Qed.

Lemma request_forward : forall gs t dt gs' n, (0 <= dt)%Q -> Forall grid_ok gs -> Forall (held V) gs ->
  Forall (fun g => fwd_ok (per g) (ex g) (full V g) (st_p g) t) gs ->
  request V gs t dt = Ok (gs', n) -> Forall2 (same V) gs gs' /\ ((0 < dt)%Q -> later t n) /\ Forall (finv dt t t n) gs'.
Proof.
  intros gs t dt gs' n D OK HE FO H. pose proof (request_steps V gs t dt gs' n OK HE H) as ST.
  unfold request in H. destruct (chunk_all V gs t (qsign dt) _) as [[us m]| |] eqn:E; [|discriminate|discriminate].
  destruct (load_all V gs us (qsign dt)) as [g1|] eqn:E1; [|discriminate]. injection H as <- <-.
  destruct (all_limits _ _ _ _ _ _ E) as (L1 & L2 & L3). pose proof (sign_nonneg _ D) as SG.
  rewrite (proj2 (Z.leb_le _ _) SG) in L1, L2.
  assert (LT : (0 < dt)%Q -> later t m).
  { intro DP. rewrite (sign_pos _ DP) in *. cbn in L3. destruct L3 as [->|(g & st & IN & O)]; [exact I|].
    assert (G : exists g', stepped V t 1 g g').
    { clear -ST IN. induction ST as [|a b l l' S ST IH]; [destruct IN|]. destruct IN as [->|IN]; [exists b; exact S|apply IH; exact IN]. }
    destruct G as (g' & (_ & _ & _ & u & n' & EC & NE)).
    assert (n' = m) by (eapply own_det; [exists u; exact EC|exact O]). subst n'.
    rewrite Forall_forall in OK, HE, FO.
    destruct (chunk_forward _ _ _ _ _ _ _ _ _ (proj1 (proj1 (OK g IN))) (series_len _ (proj1 (OK g IN))) (proj1 (HE g IN)) Z.le_0_1 (FO g IN) EC)
      as (k & _ & _ & K3 & _).
    destruct m as [|q|]; cbn in K3; [contradiction| |exact I]. cbn. specialize (NE ltac:(lia)). destruct K3 as (_ & K3 & _).
    apply Qle_lteq in K3. destruct K3 as [K3|K3]; [exact K3|contradiction]. }
  split; [eapply forall2_weaken; [|exact ST]; intros a b (A & _); exact A|]. split.
  - intro DP. apply (round_forward t dt m DP (LT DP)).
  - pose proof (forall2_and_l _ _ _ _ _ _ (forall2_and_l _ _ _ _ _ _ (forall2_and_l _ _ _ _ _ _ (forall2_and_l _ _ _ _ _ _ ST OK) HE) FO) L2) as ALL.
    clear -ALL D LT. induction ALL as [|a b l l' H ALL IH]; constructor; [|exact IH].
    destruct H as ((((S & A) & B) & C) & st & m' & O & LE).
    pose proof S as (_ & _ & _ & u & n' & EC & _).
    assert (O' : own t (qsign dt) a (d_state V b) n') by (exists u; exact EC).
    assert (n' = m') by (eapply own_det; eassumption). subst n'.
    eapply stepped_forward; eassumption.
Qed.

Lemma finv_answered : forall dt t u n g, (0 <= dt)%Q -> finv dt t u n g -> answered g t dt n.
Proof.
  intros dt t u n g D (OK & HE & LO & _ & m & M1 & M2 & M3 & _). exists (st_i g), m.
  destruct HE as (W & F). destruct W as [(W & _)|(W1 & W2 & W3)]; [unfold loaded in LO; lia|].
  split; [split; [exact W1|]; split; [exact W2|exact W3]|]. split; [apply F; exact LO|]. split; [exact M1|]. split; [exact M2|].
  split; [exact M3|]. intro DN. exfalso. lra.
Qed.

(** Grids that are not periodic. *)
Definition plain_p (g : dgrid) : Prop := per g = false -> st_p g = 0.

Lemma chunk_plain : forall e full st t sgn st' u n, axis_ok full -> 3 <= zlen full ->
  grid_chunk false e full st t sgn = Chunk st' u n -> s_periods st' = s_periods st.
Proof.
  intros e full st t sgn st' u n OK L H. unfold grid_chunk in H. destruct (pyget full 0) as [f0|]; [|discriminate].
  destruct (pyget full (-1)) as [fn|]; [|discriminate]. cbv zeta in H.
  destruct (if 0 <=? s_ti st then _ else _) as [[[ti tm] u1]|] in H; [|discriminate].
  destruct (ti =? -1).
  - unfold chunk_reset in H. destruct (py_time_index false e full f0 fn t) as [i p| |]; [|discriminate|discriminate].
    unfold stores in H. cbn [andb] in H. rewrite !andb_false_r in H. cbv zeta in H.
    destruct (slice2 full _) as [w|] in H; [|discriminate]. cbn [s_ti s_time] in H.
    destruct (chunk_next _ _ _ _ _ _ _ _) as [n'|] in H; [|discriminate]. injection H as <- _ _. reflexivity.
  - destruct (chunk_next _ _ _ _ _ _ _ _) as [n'|] in H; [|discriminate]. injection H as <- _ _. reflexivity.
Qed.

Lemma history_plain : forall es gs gs', Forall grid_ok gs -> Forall (held V) gs -> Forall plain_p gs -> history V gs es = Some gs' -> Forall plain_p gs'.
Proof.
  induction es as [|e r IH]; intros gs gs' OK HE PL H; cbn [history] in H; [injection H as <-; exact PL|].
  destruct (event_step V gs e) as [g1|] eqn:E; [|discriminate]. destruct (event_keeps V _ _ _ OK HE E) as (A & B & _).
  assert (OK1 : Forall grid_ok g1) by (eapply forall2_forall; [|exact A|exact OK]; intros x y; apply same_ok).
  apply (IH g1 gs' OK1 B); [|exact H]. destruct e as [t dt|jit k n s]; cbn [event_step] in E.
  - destruct (request V gs t dt) as [[g2 m]| |] eqn:R; [|discriminate|discriminate]. injection E as <-.
    pose proof (request_steps V _ _ _ _ _ OK HE R) as ST. pose proof (forall2_and_l _ _ _ _ _ _ ST OK) as ST'.
    eapply forall2_forall; [|exact ST'|exact PL]. intros a b ((S & _ & _ & u & n & EC & _) & OKa) P PB. unfold plain_p, per, st_p in *.
    destruct S as (_ & S & _). rewrite S in PB. rewrite PB in EC.
    rewrite (chunk_plain _ _ _ _ _ _ _ _ (proj1 (proj1 OKa)) (series_len _ (proj1 OKa)) EC). apply P. exact PB.
  - destruct (nth_error gs n) as [g|] eqn:N; [|discriminate]. destruct (sample_periods V jit k g s) as [g2|] eqn:SP; [|discriminate].
    injection E as <-.
    assert (U : Forall2 (fun x y => plain_p x -> plain_p y) gs (update gs n g2)).
    { eapply update_forall2; [|exact N|]; [trivial|]. intros P PB. unfold plain_p, per, st_p in *.
      unfold sample_periods in SP. destruct (pyget _ 0) as [f0|]; [|discriminate]. destruct (pyget _ (-1)) as [fn|]; [|discriminate].
      destruct (d_periodic V g) eqn:DP; cbn [negb] in SP.
      - destruct (if jit then _ else _) in SP; [|discriminate]. injection SP as <-. cbn in PB. congruence.
      - injection SP as <-. cbn in *. apply P. reflexivity. }
    eapply forall2_forall; [|exact U|exact PL]. trivial.
Qed.

Lemma fresh_plain : forall g : dgrid, is_fresh g -> plain_p g.
Proof. intros g (se & p & e & cs & ->) _. reflexivity. Qed.

Lemma forward_any : forall gs0 es gs t dt gs' n, Forall is_fresh gs0 -> Forall grid_ok gs0 -> Forall (fun g => d_periodic _ g = false) gs0 ->
  history V gs0 es = Some gs -> (0 <= dt)%Q -> request V gs t dt = Ok (gs', n) -> Forall (fun g => answered g t dt n) gs'.
Proof.
  intros gs0 es gs t dt gs' n FR OK NP H D R.
  pose proof (fresh_held_all V _ FR) as HE. destruct (history_keeps V es gs0 gs OK HE H) as (A & B & _).
  assert (PL : Forall plain_p gs).
  { apply (history_plain es gs0 gs OK HE); [|exact H]. eapply Forall_impl; [|exact FR]. apply fresh_plain. }
  assert (OK1 : Forall grid_ok gs) by (eapply forall2_forall; [|exact A|exact OK]; intros x y; apply same_ok).
  assert (NP1 : Forall (fun g => d_periodic _ g = false) gs).
  { eapply forall2_forall; [|exact A|exact NP]. intros x y (_ & S & _) G. cbn in *. congruence. }
  destruct (request_forward gs t dt gs' n D OK1 B) as (_ & _ & F); [|exact R|].
  - rewrite Forall_forall in *. intros g IN. unfold fwd_ok, per. rewrite (NP1 g IN). apply PL; [exact IN|]. exact (NP1 g IN).
  - eapply Forall_impl; [|exact F]. intros g G. eapply finv_answered; eassumption.
Qed.
End Lists.
