(** Proofs for C57: runs end when short steps are accepted. *)
From Coq Require Import Reals List ZArith Bool Lia Lra.
From Verif Require Import AdvModel AdvSpec AdvProofs3 Rk45Model Rk45Spec Rk45Proofs Rk45Proofs2.
Import ListNotations.
Open Scope R_scope.

Section Ends.
Variables (atol dt hs : R).
Hypothesis A0 : 0 <= atol.
Hypothesis DT : atol < Rabs dt.
Variable UV : R -> R -> R -> R -> option (R * R).
Hypothesis HS : 2 * atol <= hs.
Hypothesis HS0 : 0 < hs.
Hypothesis accepts : forall p h, Rabs h <= hs -> exists a, call UV p h = ADone a.
Hypothesis no_failure : forall p h a, call UV p h <> AFail a.

Section Window.
Variables (endt delta : R).
Hypothesis D0 : 0 < delta.
Hypothesis DH : 2 * delta <= hs.
Notation left_ p := (left_to dt endt (p_time p)).
Notation active := (active atol dt endt).
Notation over := (over atol dt endt).
Notation dpos := (dpos endt).

(** An accepted step shortens the way by [delta] and doubles dt at most; a repetition halves dt. *)
Definition meas (n : nat) (p : rp) : Prop :=
  exists a k : nat, left_ p <= INR a * delta /\ Rabs (p_dt p) <= 2 ^ k * delta /\ (2 * a + k <= n)%nat.

Definition res (n : nat) (p : rp) : Prop :=
  atol < Rabs (p_dt p) /\
  ((over p /\ (p_state p = Evaluate \/ p_state p = Success)) \/ (p_state p = Repeat /\ delta <= Rabs (p_dt p) /\ exists m, (m < n)%nat /\ meas m p)).

Lemma res_le n m p : (n <= m)%nat -> res n p -> res m p.
Proof. intros L (A & [B|(B & C & k & K & M)]); (split; [exact A|]); [left; exact B|right]. split; [exact B|]. split; [exact C|]. exists k. split; [lia|exact M]. Qed.

Lemma loop_ends n : forall p, active p -> p_state p = Evaluate -> delta <= Rabs (p_dt p) -> meas n p ->
  exists p', (forall f, (n + 2 <= f)%nat -> py_loop UV f atol dt endt p (dpos p) = Some p') /\ res n p'.
Proof.
  induction n as [|n IH]; intros p A E DE (a & k & ML & MK & MN).
  - exfalso. assert (a = 0%nat) by lia. subst a. cbn in ML. destruct A as [A _]. lra.
  - destruct (step_len atol dt A0 DT endt p A) as (S0 & S1 & S2).
    assert (LP : forall f, (S n + 2 <= f)%nat -> exists f', f = S (S f') /\ (n + 2 <= S f')%nat).
    { intros f F. destruct f as [|[|f]]; [lia|lia|]. exists f. split; [reflexivity|lia]. }
    destruct (call_cases UV p (dir dt * dpos p)) as [(b & err & C & Db & F & L & N)|[(b & err & C & Db & _)|(b & C & _)]].
    + destruct (after_fields atol dt endt p b) as (FP & FT & FD).
      assert (AD : Rabs (dir dt * dpos p) = dpos p) by (rewrite (abs_dir atol dt A0 DT), Rabs_right; lra).
      assert (NB : dpos p <= Rabs (p_dt (after atol dt endt p b)) <= 2 * dpos p).
      { rewrite FD. destruct N as [->| ->]; [|rewrite Rabs_mult, (Rabs_right 2) by lra]; rewrite AD; lra. }
      assert (AT : atol < Rabs (p_dt (after atol dt endt p b))) by (destruct A as [_ A]; lra).
      destruct (after_state atol dt endt p b) as [ES|ES].
      * pose proof (proj2 (after_active atol dt A0 DT endt p b) ES) as A2.
        assert (L2 : left_to dt endt (p_time (after atol dt endt p b)) = left_ p - dpos p).
        { rewrite FT, Db, (left_step atol dt A0 DT). reflexivity. }
        assert (DP : dpos p = Rabs (p_dt p)).
        { unfold Rk45Proofs.dpos in *. rewrite (left_abs atol dt A0 DT) in * by lra. unfold Rmin in *. destruct (Rle_dec _ _); [reflexivity|]. destruct A2 as [A2 _]. rewrite L2 in A2. lra. }
        destruct a as [|a]; [cbn in ML; lra|].
        destruct (IH (after atol dt endt p b) A2 ES) as (p' & PL & PR).
        { lra. }
        { exists a, (S k). rewrite L2. rewrite S_INR in ML. split; [rewrite DP; lra|]. split; [cbn [pow]; rewrite Rmult_assoc; lra|lia]. }
        exists p'. split; [|apply (res_le n); [lia|exact PR]]. intros f Ff. destruct (LP f Ff) as (f' & -> & F').
        rewrite (loop_active atol dt DT UV endt (S f') p A E), C, ES. apply PL. exact F'.
      * exists (after atol dt endt p b). split.
        { intros f Ff. destruct (LP f Ff) as (f' & -> & F'). rewrite (loop_active atol dt DT UV endt (S f') p A E), C, ES. reflexivity. }
        split; [exact AT|]. left. split; [|right; exact ES]. apply (not_active_over atol dt A0 DT). intros AC. apply (after_active atol dt A0 DT) in AC. congruence.
    + assert (BIG : hs < dpos p).
      { apply Rnot_le_lt. intros LE. destruct (accepts p (dir dt * dpos p)) as (q & Q); [|congruence]. rewrite (abs_dir atol dt A0 DT), Rabs_right by lra. exact LE. }
      assert (HD : Rabs (p_dt (undone p b Repeat)) = dpos p / 2).
      { cbn. rewrite Db. unfold Rdiv. rewrite Rabs_mult, (abs_dir atol dt A0 DT), (Rabs_right (dpos p)), (Rabs_right (/ 2)) by lra. reflexivity. }
      exists (undone p b Repeat). split.
      { intros f Ff. destruct (LP f Ff) as (f' & -> & F'). rewrite (loop_active atol dt DT UV endt (S f') p A E), C. reflexivity. }
      split; [rewrite HD; lra|]. right. split; [reflexivity|]. rewrite HD. split; [lra|]. exists n. split; [lia|].
      destruct k as [|k]; [cbn in MK; lra|]. exists a, k. split; [exact ML|]. split; [|lia]. rewrite HD. cbn [pow] in MK. lra.
    + exfalso. exact (no_failure _ _ _ C).
Qed.

(** A particle at the start of a pass. *)
Definition start (n : nat) (p : rp) : Prop :=
  atol < Rabs (p_dt p) /\
  ((over p /\ (p_state p = Evaluate \/ p_state p = Success)) \/ (p_state p = Evaluate /\ delta <= Rabs (p_dt p) /\ meas n p)).

Lemma particle_ends n p : start n p -> exists p', (forall f, (n + 2 <= f)%nat -> py_particle UV f atol dt endt p = Some p') /\ res n p'.
Proof.
  intros (AT & ST). destruct (active_dec atol dt endt p) as [A|A].
  - destruct ST as [[O _]|(E & DE & M)]; [exfalso; exact (over_not_active atol dt A0 DT _ _ O A)|].
    destruct (loop_ends n p A E DE M) as (p' & PL & PR). exists p'. split; [|exact PR]. intros f F. rewrite (particle_active atol dt A0 DT UV endt f p A E). exact (PL f F).
  - assert (S : p_state p = Evaluate \/ p_state p = Success) by tauto.
    assert (X : exists s, (forall f, py_particle UV f atol dt endt p = Some (set_state p s)) /\ (s = p_state p \/ s = Success)).
    { destruct (particle_over atol dt A0 DT UV endt 0 p A) as (s & R & Q). exists s. split; [|exact Q]. intros f. destruct (particle_over atol dt A0 DT UV endt f p A) as (s' & R' & Q').
      rewrite R', <- R, <- R'. unfold py_particle in *. cbv zeta in *. destruct (_ && _) eqn:G; [reflexivity|]. cbn in R. discriminate R. }
    destruct X as (s & R & Q). exists (set_state p s). split; [intros f _; apply R|]. split; [exact AT|]. left. split; [exact (not_active_over atol dt A0 DT _ _ A)|].
    cbn. destruct Q as [->| ->]; tauto.
Qed.

Lemma pass_ends n ps : Forall (start n) ps -> exists ps', (forall f, (n + 2 <= f)%nat -> pass (py_particle UV f atol dt endt) ps = Some ps') /\ Forall (res n) ps'.
Proof.
  induction 1 as [|p t P _ (t' & IH & R)]; [exists []; split; [reflexivity|constructor]|]. destruct (particle_ends n p P) as (p' & Q & RP).
  exists (p' :: t'). split; [|constructor; assumption]. intros f F. cbn [pass]. rewrite (Q f F), (IH f F). reflexivity.
Qed.

Lemma rounds_ends n : forall ps, Forall (res n) ps ->
  exists ps', (forall lf rf, (n + 2 <= lf)%nat -> (n <= rf)%nat -> rounds rf (py_particle UV lf atol dt endt) ps = Done ps') /\ Forall (fun p => atol < Rabs (p_dt p)) ps'.
Proof.
  induction n as [|n IH]; intros ps P.
  - exists ps. split; [|eapply Forall_impl; [|exact P]; intros p (A & _); exact A]. intros lf rf _ _.
    assert (E : existsb in_error ps = false).
    { destruct (existsb in_error ps) eqn:E; [|reflexivity]. apply existsb_exists in E. destruct E as (p & I & E). rewrite Forall_forall in P.
      destruct (P p I) as (_ & [[_ [S|S]]|(_ & _ & m & M & _)]); [unfold in_error in E; rewrite S in E; discriminate|unfold in_error in E; rewrite S in E; discriminate|lia]. }
    destruct rf; cbn [rounds]; rewrite E; reflexivity.
  - destruct (existsb in_error ps) eqn:E.
    + assert (F : existsb is_failed ps = false).
      { destruct (existsb is_failed ps) eqn:F; [|reflexivity]. apply existsb_exists in F. destruct F as (p & I & F). rewrite Forall_forall in P.
        unfold is_failed in F. destruct (P p I) as (_ & [[_ [S|S]]|(S & _)]); rewrite S in F; discriminate. }
      destruct (pass_ends n (map resume ps)) as (qs & PS & RS).
      { apply Forall_forall. intros x X. apply in_map_iff in X. destruct X as (y & <- & Y). rewrite Forall_forall in P. destruct (P y Y) as (A & [[O S]|(S & DE & m & M & ME)]).
        - unfold resume. destruct S as [S|S]; rewrite S; (split; [exact A|]); left; tauto.
        - unfold resume. rewrite S. split; [exact A|]. right. split; [reflexivity|]. split; [exact DE|]. destruct ME as (a & k & U & V & W). exists a, k. split; [exact U|]. split; [exact V|lia]. }
      destruct (IH qs RS) as (ps' & RR & FA). exists ps'. split; [|exact FA]. intros lf rf LF RF. destruct rf as [|rf]; [lia|]. cbn [rounds]. rewrite E, F. cbn [negb].
      rewrite (PS lf ltac:(lia)). apply RR; lia.
    + exists ps. split; [|eapply Forall_impl; [|exact P]; intros p (A & _); exact A]. intros lf rf _ _. destruct rf; cbn [rounds]; rewrite E; reflexivity.
Qed.
End Window.

Lemma delta_exists ps : Forall (fun p => atol < Rabs (p_dt p)) ps -> exists delta, 0 < delta /\ 2 * delta <= hs /\ Forall (fun p => delta <= Rabs (p_dt p)) ps.
Proof.
  induction 1 as [|p t P _ (d & D & DH & F)]; [exists (hs / 2); split; [lra|]; split; [lra|constructor]|].
  exists (Rmin d (Rabs (p_dt p))). split; [apply Rmin_glb_lt; lra|]. split; [pose proof (Rmin_l d (Rabs (p_dt p))); lra|]. constructor; [apply Rmin_r|].
  eapply Forall_impl; [|exact F]. cbv beta. intros q Q. pose proof (Rmin_l d (Rabs (p_dt p))). lra.
Qed.

Lemma nat_above x d : 0 < d -> exists n, x <= INR n * d.
Proof.
  intros D. assert (U : exists n, x / d < INR n).
  { destruct (archimed (x / d)) as [U _]. exists (Z.to_nat (up (x / d))). rewrite INR_IZR_INZ. apply (Rlt_le_trans _ _ _ U). apply IZR_le. lia. }
  destruct U as (n & N). exists n. apply (Rmult_lt_compat_r d) in N; [|exact D]. replace (x / d * d) with x in N by (field; lra). lra.
Qed.
Lemma two_pow n : INR n <= 2 ^ n.
Proof.
  induction n as [|n IH]; [cbn; lra|]. rewrite S_INR. cbn [pow]. assert (1 <= 2 ^ n) by (apply pow_R1_Rle; lra). lra.
Qed.

Lemma meas_exists endt delta ps : 0 < delta -> exists n, Forall (meas endt delta n) ps.
Proof.
  intros D. induction ps as [|p t (n & F)]; [exists 0%nat; constructor|].
  destruct (nat_above (left_to dt endt (p_time p)) delta D) as (a & A). destruct (nat_above (Rabs (p_dt p)) delta D) as (k & K).
  exists (n + (2 * a + k))%nat. constructor.
  - exists a, k. split; [exact A|]. split; [|lia]. pose proof (two_pow k) as T. apply (Rmult_le_compat_r delta) in T; lra.
  - eapply Forall_impl; [|exact F]. intros q (b & l & X & Y & Z). exists b, l. split; [exact X|]. split; [exact Y|lia].
Qed.

Lemma execute_ends endt ps : Forall (fun p => atol < Rabs (p_dt p)) ps ->
  exists n ps', (forall lf rf, (n <= lf)%nat -> (n <= rf)%nat -> execute rf (py_particle UV lf atol dt endt) ps = Done ps') /\ Forall (fun p => atol < Rabs (p_dt p)) ps'.
Proof.
  intros F. destruct (delta_exists ps F) as (delta & D & DH & FD). destruct (meas_exists endt delta ps D) as (n & M).
  destruct (pass_ends endt delta D DH n (map (fun p => set_state p Evaluate) ps)) as (qs & PS & RS).
  { apply Forall_forall. intros x X. apply in_map_iff in X. destruct X as (y & <- & Y). rewrite Forall_forall in F, FD, M. split; [exact (F y Y)|]. right. split; [reflexivity|].
    split; [exact (FD y Y)|exact (M y Y)]. }
  destruct (rounds_ends endt delta D DH n qs RS) as (ps' & RR & FA). exists (n + 2)%nat, ps'. split; [|exact FA]. intros lf rf LF RF. unfold execute. rewrite (PS lf LF). apply RR; lia.
Qed.

Lemma windows_end ends : forall ps, Forall (fun p => atol < Rabs (p_dt p)) ps ->
  exists ps', ends_with UV false atol dt ends ps ps' /\ Forall (fun p => atol < Rabs (p_dt p)) ps'.
Proof.
  induction ends as [|e r IH]; intros ps F.
  - exists ps. split; [|exact F]. exists 0%nat. intros lf rf _ _. reflexivity.
  - destruct (execute_ends e ps F) as (n & qs & X & FQ). destruct (IH qs FQ) as (ps' & (m & Y) & FP). exists ps'. split; [|exact FP].
    exists (n + m)%nat. intros lf rf LF RF. cbn [windows]. rewrite (X lf rf) by lia. apply Y; lia.
Qed.

Lemma run_ends ends E ps : Forall (fun p => atol < Rabs (p_dt p)) ps ->
  exists ps', (forall jit, ends_with UV jit atol dt (ends ++ [E]) ps ps') /\ Forall (reached atol dt E) ps'.
Proof.
  intros F. destruct (windows_end (ends ++ [E]) ps F) as (ps' & (n & X) & FP). exists ps'. split.
  - intros [|]; exists n; [|exact X]. intros lf rf LF RF. rewrite (windows_same atol dt A0 DT UV); [exact (X lf rf LF RF)|].
    eapply Forall_impl; [|exact F]. cbv beta. intros p P Z. rewrite Z, Rabs_R0 in P. lra.
  - pose proof (windows_last atol dt A0 DT UV n n ends E ps ps' (X n n (le_n _) (le_n _))) as O.
    apply Forall_forall. intros p I. rewrite Forall_forall in O, FP. destruct (O p I) as [L|L]; [exact L|]. pose proof (FP p I). cbv beta in *. lra.
Qed.
End Ends.
