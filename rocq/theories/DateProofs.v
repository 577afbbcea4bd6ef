(** C52: a run counted from another origin is the same run. *)
From Coq Require Import List ZArith Bool Lia.
From Verif Require Import CollModel KLoopModel SchedModel SplitSpec DateModel DateSpec.
Import ListNotations.
Open Scope Z_scope.

Section Shift.
Context {E X H : Type}.
Notation pcl := (pcl X).
Variable c : Z.
Variables K K' : E -> pcl -> E * kres X.
Variables I I' : handlers E X H.
Hypothesis KS : same_kernel c K K'.
Hypothesis IS : same_handlers c I I'.

Definition calm (p : pcl) : bool := negb (in_error p).

(** Related particles: states may differ while the particle has nothing to do ([w]). *)
Definition rel (w : pcl -> bool) (p q : pcl) : Prop :=
  q_id q = q_id p /\ q_time q = q_time p + c /\ q_dt q = q_dt p /\ q_x q = q_x p /\
  (q_st q = q_st p \/ calm p = true /\ calm q = true /\ w p = true).

Lemma rel_eq : forall w p q, rel w p q -> q_st q = q_st p -> q = later c p.
Proof. intros w [i t d s x] [i' t' d' s' x'] (A & B & C & D & _) S. cbn in *. subst. reflexivity. Qed.
Lemma later_rel : forall w p, rel w p (later c p).
Proof. intros w p. repeat split. left. reflexivity. Qed.


Lemma calm_st : forall p : pcl, calm p = true <-> q_st p = st_Success \/ q_st p = st_Evaluate.
Proof. intros p. unfold calm, in_error. rewrite negb_involutive, orb_true_iff, !Z.eqb_eq. reflexivity. Qed.

(** The guard of both modes; a particle that waits is at most set to Success. *)
Lemma rel_guard : forall w p q b b', rel w p q -> calm p = true -> w p = true -> (forall p s, w (set_st p s) = w p) ->
  rel w (if b : bool then set_st p st_Success else p) (if b' : bool then set_st q st_Success else q).
Proof.
  intros w p q b b' (R1 & R2 & R3 & R4 & R5) C W WS.
  assert (CQ : calm q = true). { destruct R5 as [R5|(_ & R5 & _)]; [|exact R5]. rewrite calm_st in C |- *. rewrite R5. exact C. }
  assert (CS : forall a : pcl, calm (set_st a st_Success) = true) by (intros; apply calm_st; left; reflexivity).
  destruct b, b'; (repeat split; [exact R1|exact R2|exact R3|exact R4|]); right; rewrite ?CS, ?WS; auto.
Qed.

(** ** Scipy *)
Definition py_waits (atol dt endt : Z) (p : pcl) : bool :=
  (negb (Z.sgn (endt - q_time p) =? Z.sgn dt) || close0 atol (Z.min (Z.abs (q_dt p)) (Z.abs (endt - q_time p)))) && negb (close0 atol dt).

Lemma py_loop_later : forall f atol dt endt e p dp,
  match py_loop (H := H) K f atol dt endt e p dp, py_loop (H := H) K' f atol dt (endt + c) e (later c p) dp with
  | Some (e1, p1, _), Some (e2, p2, _) => e2 = e1 /\ p2 = later c p1
  | None, None => True
  | _, _ => False
  end.
Proof.
  induction f as [|f IH]; intros atol dt endt e p dp; [exact Logic.I|]. cbn [py_loop].
  change (q_st (later c p)) with (q_st p). destruct ((q_st p =? st_Evaluate) || (q_st p =? op_Repeat) || close0 atol dt) eqn:G; [|auto].
  cbv zeta. change (mkPcl (q_id (later c p)) (q_time (later c p)) (Z.sgn dt * dp) (q_st p) (q_x (later c p)))
    with (later c (mkPcl (q_id p) (q_time p) (Z.sgn dt * dp) (q_st p) (q_x p))).
  rewrite KS. destruct (K e (mkPcl (q_id p) (q_time p) (Z.sgn dt * dp) (q_st p) (q_x p))) as [e' r]. cbn [fst snd].
  change (k_res (later_res c r)) with (k_res r). change (k_st (later_res c r)) with (k_st r). change (k_dt (later_res c r)) with (k_dt r).
  change (k_next (later_res c r)) with (k_next r). change (k_x (later_res c r)) with (k_x r). change (k_time (later_res c r)) with (k_time r + c).
  set (res1 := if (k_res r =? st_Success) && negb (k_st r =? q_st p) then k_st r else k_res r).
  set (res2 := if (res1 =? st_Success) && negb (close atol (k_dt r) (Z.sgn dt * dp)) then op_Repeat else res1).
  destruct ((res2 =? st_Success) || (res2 =? op_Delete)) eqn:G2; [|auto].
  replace (endt + c - (k_time r + c + k_dt r)) with (endt - (k_time r + k_dt r)) by lia.
  set (dt2 := match k_next r with Some d => d | None => k_dt r end).
  set (se := Z.sgn (endt - (k_time r + k_dt r))).
  set (dpp := Z.min (Z.abs dt2) (Z.abs (endt - (k_time r + k_dt r)))).
  set (res3 := if negb (res2 =? op_Delete) && negb (close0 atol dpp) && (se =? Z.sgn dt) then st_Evaluate else res2).
  replace (mkPcl (q_id (later c p)) (k_time r + c + k_dt r) dt2 res3 (k_x r)) with (later c (mkPcl (q_id p) (k_time r + k_dt r) dt2 res3 (k_x r)))
    by (unfold later; cbn; f_equal; lia).
  destruct (close0 atol dt); [auto|].
  specialize (IH atol dt endt e' (mkPcl (q_id p) (k_time r + k_dt r) dt2 res3 (k_x r)) (if negb (se =? Z.sgn dt) then 0 else dpp)).
  destruct (py_loop K f atol dt endt e' _ _) as [[[e2 p2] t2]|], (py_loop K' f atol dt (endt + c) e' _ _) as [[[e3 p3] t3]|]; auto.
Qed.

(** Results of related particles. *)
Definition both {S T} (w : pcl -> bool) (r r' : option (S * pcl * T)) : Prop :=
  match r, r' with
  | Some (s, p, _), Some (s', q, _) => s = s' /\ rel w p q
  | None, None => True
  | _, _ => False
  end.

Lemma py_particle_later : forall f atol dt endt e p q, rel (py_waits atol dt endt) p q -> calm p = true ->
  both (py_waits atol dt endt) (py_particle (H := H) K f atol dt endt e p) (py_particle (H := H) K' f atol dt (endt + c) e q).
Proof.
  intros f atol dt endt e p q R C. pose proof R as (R1 & R2 & R3 & R4 & R5). unfold py_particle. rewrite R2, R3.
  replace (endt + c - (q_time p + c)) with (endt - q_time p) by lia.
  fold (py_waits atol dt endt p). destruct (py_waits atol dt endt p) eqn:G.
  - split; [reflexivity|]. apply rel_guard; auto.
  - assert (S : q_st q = q_st p) by (destruct R5 as [R5|(_ & _ & R5)]; [exact R5|congruence]).
    rewrite (rel_eq _ _ _ R S). pose proof (py_loop_later f atol dt endt e p (Z.min (Z.abs (q_dt p)) (Z.abs (endt - q_time p)))) as L. unfold both.
    destruct (py_loop K f atol dt endt e p _) as [[[e1 p1] t1]|], (py_loop K' f atol dt (endt + c) e _ _) as [[[e2 p2] t2]|]; try contradiction; auto.
    destruct L as [-> ->]. split; [reflexivity|apply later_rel].
Qed.

(** ** JIT *)
Definition c_waits (atol dt endt : Z) (p : pcl) : bool :=
  (negb (csgn (endt - q_time p) =? csgn dt) || close0 atol (Z.min (Z.abs (q_dt p)) (Z.abs (endt - q_time p)))) && negb (q_dt p =? 0).

Lemma c_loop_later : forall f atol dt endt g e p dp,
  match c_loop (H := H) K f atol dt endt g e p dp, c_loop (H := H) K' f atol dt (endt + c) g e (later c p) dp with
  | Some (g1, e1, p1, _), Some (g2, e2, p2, _) => g2 = g1 /\ e2 = e1 /\ p2 = later c p1
  | None, None => True
  | _, _ => False
  end.
Proof.
  induction f as [|f IH]; intros atol dt endt g e p dp; [exact Logic.I|]. cbn [c_loop].
  change (q_st (later c p)) with (q_st p). change (q_dt (later c p)) with (q_dt p).
  destruct ((q_st p =? st_Evaluate) || (q_st p =? op_Repeat) || (q_dt p =? 0)) eqn:G; [|auto].
  cbv zeta. change (mkPcl (q_id (later c p)) (q_time (later c p)) (dp * csgn dt) (q_st p) (q_x (later c p)))
    with (later c (mkPcl (q_id p) (q_time p) (dp * csgn dt) (q_st p) (q_x p))).
  rewrite KS. destruct (K e (mkPcl (q_id p) (q_time p) (dp * csgn dt) (q_st p) (q_x p))) as [e' r]. cbn [fst snd].
  change (k_res (later_res c r)) with (k_res r). change (k_st (later_res c r)) with (k_st r). change (k_dt (later_res c r)) with (k_dt r).
  change (k_next (later_res c r)) with (k_next r). change (k_x (later_res c r)) with (k_x r). change (k_time (later_res c r)) with (k_time r + c).
  set (res1 := if (k_res r =? st_Success) && negb (k_st r =? q_st p) then k_st r else k_res r).
  set (res2 := if (res1 =? st_Success) && negb (k_dt r =? dp * csgn dt) then op_Repeat else res1).
  set (g1 := match k_next r with Some d => Some d | None => g end).
  destruct ((res2 =? st_Success) || (res2 =? op_Delete)) eqn:G2; [|auto].
  replace (endt + c - (k_time r + c + k_dt r)) with (endt - (k_time r + k_dt r)) by lia.
  set (dt2 := match g1 with Some d => d | None => k_dt r end).
  set (se := csgn (endt - (k_time r + k_dt r))).
  set (dpp := Z.min (Z.abs dt2) (Z.abs (endt - (k_time r + k_dt r)))).
  set (res3 := if negb (res2 =? op_Delete) && negb (close0 atol dpp) && (se =? csgn dt) then st_Evaluate else res2).
  replace (mkPcl (q_id (later c p)) (k_time r + c + k_dt r) dt2 res3 (k_x r)) with (later c (mkPcl (q_id p) (k_time r + k_dt r) dt2 res3 (k_x r)))
    by (unfold later; cbn; f_equal; lia).
  destruct (dt2 =? 0); [auto|].
  specialize (IH atol dt endt None e' (mkPcl (q_id p) (k_time r + k_dt r) dt2 res3 (k_x r)) (if negb (se =? csgn dt) then 0 else dpp)).
  destruct (c_loop K f atol dt endt None e' _ _) as [[[[g2 e2] p2] t2]|], (c_loop K' f atol dt (endt + c) None e' _ _) as [[[[g3 e3] p3] t3]|]; auto.
Qed.

Lemma c_one_later : forall f atol dt endt s p q, rel (c_waits atol dt endt) p q -> calm p = true ->
  both (c_waits atol dt endt) (c_one (H := H) K f atol dt endt s p) (c_one (H := H) K' f atol dt (endt + c) s q).
Proof.
  intros f atol dt endt [g e] p q R C. pose proof R as (R1 & R2 & R3 & R4 & R5). unfold c_one, c_particle. cbn [fst snd]. rewrite R2, R3.
  replace (endt + c - (q_time p + c)) with (endt - q_time p) by lia.
  fold (c_waits atol dt endt p). destruct (c_waits atol dt endt p) eqn:G.
  - split; [reflexivity|]. apply rel_guard; auto.
  - assert (S : q_st q = q_st p) by (destruct R5 as [R5|(_ & _ & R5)]; [exact R5|congruence]).
    rewrite (rel_eq _ _ _ R S). pose proof (c_loop_later f atol dt endt g e p (Z.min (Z.abs (q_dt p)) (Z.abs (endt - q_time p)))) as L. unfold both.
    destruct (c_loop K f atol dt endt g e p _) as [[[[g1 e1] p1] t1]|], (c_loop K' f atol dt (endt + c) g e _ _) as [[[[g2 e2] p2] t2]|]; try contradiction; auto.
    destruct L as (-> & -> & ->). split; [reflexivity|apply later_rel].
Qed.

(** ** Passes, recovery and rounds *)
Section Mode.
Context {S : Type}.
Variable w : pcl -> bool.
Variables one one' : S -> pcl -> option (S * pcl * list (ev H)).
Hypothesis OS : forall s p q, rel w p q -> calm p = true -> both w (one s p) (one' s q).
Variables (get_e : S -> E) (put_e : S -> E -> S).
Hypothesis ST : settles I.
Notation allcalm := (Forall (fun p : pcl => calm p = true)).
Notation rels := (Forall2 (rel w)).

Lemma pass_later : forall ps qs s, rels ps qs -> allcalm ps ->
  match pass one s ps, pass one' s qs with
  | Some (s1, ps1, _), Some (s2, qs1, _) => s1 = s2 /\ rels ps1 qs1
  | None, None => True
  | _, _ => False
  end.
Proof.
  induction ps as [|p ps IH]; intros qs s R C; inversion R as [|p0 q ps0 qs0 R1 R2]; subst.
  - cbn. auto.
  - inversion C as [|? ? C1 C2]; subst. cbn [pass]. pose proof (OS s p q R1 C1) as B. unfold both in B.
    destruct (one s p) as [[[s1 p1] t1]|], (one' s q) as [[[s1' q1] t1']|]; try contradiction; auto. destruct B as [-> B].
    specialize (IH qs0 s1' R2 C2). destruct (pass one s1' ps) as [[[s2 ps2] t2]|], (pass one' s1' qs0) as [[[s2' qs2] t2']|]; try contradiction; auto.
    destruct IH as [-> IH]. split; [reflexivity|constructor; assumption].
Qed.

Lemma rel_error : forall p q, rel w p q -> in_error q = in_error p.
Proof.
  intros p q (_ & _ & _ & _ & [R|(A & B & _)]); [unfold in_error; rewrite R; reflexivity|].
  unfold calm in *. destruct (in_error p), (in_error q); cbn in *; congruence.
Qed.
Lemma rel_deleted : forall p q, rel w p q -> is_deleted q = is_deleted p.
Proof.
  intros p q (_ & _ & _ & _ & [R|(A & B & _)]); [unfold is_deleted; rewrite R; reflexivity|].
  rewrite calm_st in A, B. unfold is_deleted. destruct A as [-> | ->], B as [-> | ->]; reflexivity.
Qed.
Lemma rels_error : forall ps qs, rels ps qs -> existsb in_error qs = existsb in_error ps.
Proof. induction 1 as [|p q ps qs R _ IH]; [reflexivity|]. cbn. rewrite (rel_error _ _ R), IH. reflexivity. Qed.
Lemma rels_remove : forall ps qs, rels ps qs -> rels (filter (fun p => negb (is_deleted p)) ps) (filter (fun p => negb (is_deleted p)) qs).
Proof. induction 1 as [|p q ps qs R _ IH]; [constructor|]. cbn. rewrite (rel_deleted _ _ R). destruct (is_deleted p); cbn; [exact IH|constructor; assumption]. Qed.

Lemma recover_later : forall rmap ps qs e, rels ps qs ->
  match recover I rmap e ps, recover I' rmap e qs with
  | (e1, ps1, _, r), (e2, qs1, _, r') => e1 = e2 /\ r = r' /\ rels ps1 qs1 /\ (r = RNext -> allcalm (filter (fun p => negb (is_deleted p)) ps1))
  end.
Proof.
  induction ps as [|p ps IH]; intros qs e R; inversion R as [|p0 q ps0 qs0 R1 R2]; subst.
  - cbn. auto.
  - cbn [recover]. rewrite (rel_error _ _ R1). destruct (in_error p) eqn:ER; cbn [negb].
    + assert (S0 : q_st q = q_st p). { destruct R1 as (_ & _ & _ & _ & [R1|(A & _)]); [exact R1|]. unfold calm in A. rewrite ER in A. discriminate. }
      pose proof (rel_eq _ _ _ R1 S0) as Q0. rewrite S0.
      destruct (q_st p =? op_StopExecution); [split; [reflexivity|split; [reflexivity|split; [exact R|discriminate]]]|].
      destruct (q_st p =? op_Repeat).
      { specialize (IH qs0 e R2). destruct (recover I rmap e ps) as [[[e1 ps1] t1] r], (recover I' rmap e qs0) as [[[e1' qs1] t1'] r'].
        destruct IH as (-> & -> & IH & IC). split; [reflexivity|]. split; [reflexivity|]. split.
        - constructor; [|exact IH]. rewrite Q0. apply (later_rel w (set_st p st_Evaluate)).
        - intros N. constructor; [reflexivity|]. apply IC, N. }
      destruct (q_st p =? op_Delete) eqn:DE.
      { specialize (IH qs0 e R2). destruct (recover I rmap e ps) as [[[e1 ps1] t1] r], (recover I' rmap e qs0) as [[[e1' qs1] t1'] r'].
        destruct IH as (-> & -> & IH & IC). split; [reflexivity|]. split; [reflexivity|]. split; [constructor; assumption|].
        intros N. cbn [filter]. change (is_deleted p) with (q_st p =? op_Delete). rewrite DE. cbn [negb]. apply IC, N. }
      destruct (rmap (q_st p)) as [h|].
      * assert (RK : run_rkernel I' h e (set_st q st_Success) =
                     (fst (run_rkernel I h e (set_st p st_Success)), option_map (later c) (snd (run_rkernel I h e (set_st p st_Success))))).
        { rewrite Q0. destruct h as [h|]; [|reflexivity]. exact (IS h e (set_st p st_Success)). }
        rewrite RK. destruct (run_rkernel I h e (set_st p st_Success)) as [e1 [p1|]] eqn:RE; cbn [fst snd option_map].
        -- specialize (IH qs0 e1 R2). destruct (recover I rmap e1 ps) as [[[e2 ps1] t1] r], (recover I' rmap e1 qs0) as [[[e2' qs1] t1'] r'].
           destruct IH as (-> & -> & IH & IC). split; [reflexivity|]. split; [reflexivity|]. split.
           ++ constructor; [|exact IH]. rewrite Q0.
              exact (later_rel w (mkPcl (q_id p) (q_time p1) (q_dt p1) (if q_st p1 =? st_Success then st_Evaluate else q_st p1) (q_x p1))).
           ++ intros N. assert (SP : In (q_st p1) [st_Success; st_Evaluate; op_Delete]).
              { destruct h as [h|]; [|discriminate RE]. exact (ST h e _ e1 p1 RE). }
              cbn [filter]. unfold is_deleted at 1. cbn [q_st].
              destruct SP as [<-|[<-|[<-|[]]]]; cbn; [constructor; [reflexivity|apply IC, N]|constructor; [reflexivity|apply IC, N]|apply IC, N].
        -- split; [reflexivity|]. split; [reflexivity|]. split; [|discriminate]. constructor; [|exact R2]. rewrite Q0. apply (later_rel w (set_st p st_Success)).
      * specialize (IH qs0 e R2). destruct (recover I rmap e ps) as [[[e1 ps1] t1] r], (recover I' rmap e qs0) as [[[e1' qs1] t1'] r'].
        destruct IH as (-> & -> & IH & IC). split; [reflexivity|]. split; [reflexivity|]. split.
        -- constructor; [|exact IH]. rewrite Q0. apply (later_rel w (set_st p op_Delete)).
        -- intros N. cbn. apply IC, N.
    + specialize (IH qs0 e R2). destruct (recover I rmap e ps) as [[[e1 ps1] t1] r], (recover I' rmap e qs0) as [[[e1' qs1] t1'] r'].
      destruct IH as (-> & -> & IH & IC). split; [reflexivity|]. split; [reflexivity|]. split; [constructor; assumption|].
      intros N. assert (C : calm p = true) by (unfold calm; rewrite ER; reflexivity).
      cbn [filter]. destruct (is_deleted p); cbn [negb]; [apply IC, N|constructor; [exact C|apply IC, N]].
Qed.

Lemma rounds_later : forall f rmap out s ps qs, rels ps qs ->
  match rounds I f (pass one) get_e put_e rmap out s ps, rounds I' f (pass one') get_e put_e rmap out s qs with
  | (s1, ps1, _, r), (s2, qs1, _, r') => s1 = s2 /\ r = r' /\ rels ps1 qs1
  end.
Proof.
  induction f as [|f IH]; intros rmap out s ps qs R; cbn [rounds]; rewrite (rels_error _ _ R); destruct (existsb in_error ps); cbn [negb]; auto.
  pose proof (recover_later rmap ps qs (get_e s) R) as RL.
  destruct (recover I rmap (get_e s) ps) as [[[e1 ps1] t1] r], (recover I' rmap (get_e s) qs) as [[[e1' qs1] t1'] r'].
  destruct RL as (<- & <- & RL & AC). destruct r; auto.
  unfold remove_deleted. cbv zeta. pose proof (pass_later _ _ (put_e s e1) (rels_remove _ _ RL) (AC eq_refl)) as PL.
  destruct (pass one (put_e s e1) (filter _ ps1)) as [[[s3 ps3] t3]|], (pass one' (put_e s e1) (filter _ qs1)) as [[[s3' qs3] t3']|]; try contradiction.
  - destruct PL as [<- PL]. specialize (IH rmap out s3 ps3 qs3 PL).
    destruct (rounds I f (pass one) get_e put_e rmap out s3 ps3) as [[[s4 ps4] t4] r4], (rounds I' f (pass one') get_e put_e rmap out s3 qs3) as [[[s4' qs4] t4'] r4'].
    exact IH.
  - split; [reflexivity|]. split; [reflexivity|apply rels_remove, RL].
Qed.

(** Particles that differ by [c] in time, and perhaps in state. *)
Definition shifted (p q : pcl) : Prop := q_id q = q_id p /\ q_time q = q_time p + c /\ q_dt q = q_dt p /\ q_x q = q_x p.

Lemma execute_later : forall f user out s ps qs, Forall2 shifted ps qs ->
  match execute I f (pass one) get_e put_e user out s ps, execute I' f (pass one') get_e put_e user out s qs with
  | (s1, ps1, _, r), (s2, qs1, _, r') => s1 = s2 /\ r = r' /\ Forall2 shifted ps1 qs1
  end.
Proof.
  intros f user out s ps qs R. unfold execute. cbv zeta.
  assert (R0 : rels (map (fun p => set_st p st_Evaluate) ps) (map (fun p => set_st p st_Evaluate) qs)).
  { clear - R. induction R as [|p q ps qs (A & B & C & D) _ IH]; cbn; [constructor|]. constructor; [|exact IH]. repeat split; auto. }
  assert (C0 : allcalm (map (fun p : pcl => set_st p st_Evaluate) ps)).
  { clear. induction ps; cbn; constructor; auto. }
  assert (WE : forall l l', rels l l' -> Forall2 shifted l l').
  { clear. intros l l' Q. induction Q as [|p q ps qs (A & B & C & D & _) _ IH]; [constructor|]. constructor; [repeat split; assumption|exact IH]. }
  pose proof (pass_later _ _ s R0 C0) as PL.
  destruct (pass one s (map _ ps)) as [[[s1 ps1] t1]|], (pass one' s (map _ qs)) as [[[s1' qs1] t1']|]; try contradiction.
  - destruct PL as [<- PL]. unfold remove_deleted. cbv zeta.
    pose proof (rounds_later f (recovery_map user) out s1 _ _ (rels_remove _ _ PL)) as RL.
    destruct (rounds I f (pass one) get_e put_e (recovery_map user) out s1 (filter _ ps1)) as [[[s3 ps3] t3] r3],
             (rounds I' f (pass one') get_e put_e (recovery_map user) out s1 (filter _ qs1)) as [[[s3' qs3] t3'] r3'].
    destruct RL as (A & B & C). auto.
  - split; [reflexivity|]. split; [reflexivity|]. apply WE, R0.
Qed.
End Mode.

Lemma mode_exec_later : forall jit lf rf atol user out e ps qs t dt, settles I -> Forall2 shifted ps qs ->
  match mode_exec jit K I lf rf atol user out e ps t dt, mode_exec jit K' I' lf rf atol user out e qs (t + c) dt with
  | Some ps1, Some qs1 => Forall2 shifted ps1 qs1
  | None, None => True
  | _, _ => False
  end.
Proof.
  intros [|] lf rf atol user out e ps qs t dt ST R; cbn [mode_exec].
  - unfold jit_exec, c_execute.
    pose proof (execute_later (c_waits atol dt t) (c_one K lf atol dt t) (c_one K' lf atol dt (t + c)) (fun s p q => c_one_later lf atol dt t s p q)
                  snd (fun s e => (fst s, e)) ST rf user out (None, e) ps qs R) as EL.
    destruct (execute I rf _ _ _ user out (None, e) ps) as [[[s1 ps1] t1] r1], (execute I' rf _ _ _ user out (None, e) qs) as [[[s2 qs1] t2] r2].
    destruct EL as (_ & <- & EL). destruct r1; cbn; auto.
  - unfold scipy_exec, py_execute, py_pass.
    pose proof (execute_later (py_waits atol dt t) (py_particle K lf atol dt t) (py_particle K' lf atol dt (t + c)) (fun s p q => py_particle_later lf atol dt t s p q)
                  (fun e => e) (fun _ e => e) ST rf user out e ps qs R) as EL.
    destruct (execute I rf _ _ _ user out e ps) as [[[s1 ps1] t1] r1], (execute I' rf _ _ _ user out e qs) as [[[s2 qs1] t2] r2].
    destruct EL as (_ & <- & EL). destruct r1; cbn; auto.
Qed.
End Shift.

(** ** The loop of pset.execute *)
Section Sched.
Context {W W' : Type}.
Variable c : Z.
Variable RW : W -> W' -> Prop.
Variables (exec : W -> Z -> Z -> option W) (exec' : W' -> Z -> Z -> option W').
Variables (beg : W -> Z -> W) (beg' : W' -> Z -> W').
Variables (act : kind -> W -> Z -> Z -> W) (act' : kind -> W' -> Z -> Z -> W').
Variables (input : W -> Z -> Z -> option (W * option Z)) (input' : W' -> Z -> Z -> option (W' * option Z)).
Hypothesis XE : forall w w' t d, RW w w' -> match exec w t d, exec' w' (t + c) d with Some a, Some b => RW a b | None, None => True | _, _ => False end.
Hypothesis XB : forall w w' d, RW w w' -> RW (beg w d) (beg' w' d).
Hypothesis XA : forall k w w' t d, RW w w' -> RW (act k w t d) (act' k w' (t + c) d).
Hypothesis XI : forall w w' t d, RW w w' -> match input w t d, input' w' (t + c) d with
  | Some (a, n), Some (b, n') => RW a b /\ n' = option_map (Z.add c) n | None, None => True | _, _ => False end.

Notation le := (later_event c).
Definition nx_later (nx nx' : kind -> option Z) : Prop := forall k, nx' k = option_map (Z.add c) (nx k).

Lemma closest_later : forall dt a b, closest dt (option_map (Z.add c) a) (b + c) = closest dt a b + c.
Proof. intros dt [x|] b; cbn; [|reflexivity]. destruct (0 <? dt); lia. Qed.
Lemma window_later : forall dt endt nx nx' nin, nx_later nx nx' -> window_end dt (endt + c) nx' (option_map (Z.add c) nin) = window_end dt endt nx nin + c.
Proof. intros dt endt nx nx' nin N. unfold window_end. rewrite !N, !closest_later. reflexivity. Qed.
Lemma event_later : forall out cbs k t, event_of out cbs k (t + c) = map le (event_of out cbs k t).
Proof. intros out cbs [| | |] t; cbn; try destruct out; try destruct cbs; reflexivity. Qed.

Lemma serve_later : forall dt per out cbs ks t nx nx' w w', nx_later nx nx' -> RW w w' ->
  match serve act dt per out cbs t ks nx w, serve act' dt per out cbs (t + c) ks nx' w' with
  | (n, a, tr), (n', b, tr') => nx_later n n' /\ RW a b /\ tr' = map le tr
  end.
Proof.
  induction ks as [|k ks IH]; intros t nx nx' w w' N R; cbn [serve]; [auto|]. rewrite (N k).
  destruct (nx k) as [n|]; cbn [option_map]; [|apply IH; assumption]. destruct (per k) as [p|]; [|apply IH; assumption].
  replace (t + c =? c + n) with (t =? n) by (destruct (t =? n) eqn:Q; symmetry; lia).
  destruct (t =? n); [|apply IH; assumption].
  assert (N2 : nx_later (upd nx k (Some (n + p * Z.sgn dt))) (upd nx' k (Some (c + n + p * Z.sgn dt)))).
  { intros j. unfold upd. destruct (kind_eqb k j); [|apply N]. cbn. f_equal. lia. }
  assert (R2 : RW (match event_of out cbs k t with [] => w | _ => act k w t dt end)
                  (match event_of out cbs k (t + c) with [] => w' | _ => act' k w' (t + c) dt end)).
  { rewrite event_later. destruct (event_of out cbs k t); cbn; [exact R|apply XA, R]. }
  specialize (IH t _ _ _ _ N2 R2). destruct (serve act dt per out cbs t ks _ _) as [[n1 a1] t1], (serve act' dt per out cbs (t + c) ks _ _) as [[n2 a2] t2].
  destruct IH as (A & B & ->). split; [exact A|]. split; [exact B|]. rewrite event_later, map_app. reflexivity.
Qed.

Lemma sloop_later : forall fuel dt endt per out cbs time nx nx' nin w w', nx_later nx nx' -> RW w w' ->
  match sloop exec act input fuel dt endt per out cbs time nx nin w, sloop exec' act' input' fuel dt (endt + c) per out cbs (time + c) nx' (option_map (Z.add c) nin) w' with
  | (t, a, tr, r), (t', b, tr', r') => t' = t + c /\ RW a b /\ tr' = map le tr /\ r' = r
  end.
Proof.
  induction fuel as [|fuel IH]; intros dt endt per out cbs time nx nx' nin w w' N R; cbn [sloop];
    replace (time + c <? endt + c) with (time <? endt) by (destruct (time <? endt) eqn:Q; symmetry; lia);
    replace (endt + c <? time + c) with (endt <? time) by (destruct (endt <? time) eqn:Q; symmetry; lia);
    destruct ((time <? endt) && (0 <? dt) || (endt <? time) && (dt <? 0) || (dt =? 0)); auto.
  cbv zeta. rewrite (window_later dt endt nx nx' nin N). set (t := window_end dt endt nx nin).
  pose proof (XE w w' t dt R) as X. destruct (exec w t dt) as [w1|], (exec' w' (t + c) dt) as [w1'|]; try contradiction; [|cbn; auto].
  pose proof (serve_later dt per out cbs kinds t nx nx' w1 w1' N X) as SL.
  destruct (serve act dt per out cbs t kinds nx w1) as [[n2 w2] tr2], (serve act' dt per out cbs (t + c) kinds nx' w1') as [[n2' w2'] tr2'].
  destruct SL as (N2 & R2 & ->).
  replace (t + c =? endt + c) with (t =? endt) by (destruct (t =? endt) eqn:Q; symmetry; lia).
  destruct (t =? endt).
  - destruct (dt =? 0); [cbn; auto|]. specialize (IH dt endt per out cbs t n2 n2' nin w2 w2' N2 R2).
    destruct (sloop exec act input fuel dt endt per out cbs t n2 nin w2) as [[[t3 w3] tr3] r], (sloop exec' act' input' fuel dt (endt + c) per out cbs (t + c) n2' (option_map (Z.add c) nin) w2') as [[[t3' w3'] tr3'] r'].
    destruct IH as (-> & R3 & -> & ->). split; [reflexivity|]. split; [exact R3|]. split; [cbn; rewrite map_app; reflexivity|reflexivity].
  - pose proof (XI w2 w2' t dt R2) as J. destruct (input w2 t dt) as [[w3 n3]|], (input' w2' (t + c) dt) as [[w3' n3']|]; try contradiction.
    + destruct J as [R3 ->]. destruct (dt =? 0).
      * split; [reflexivity|]. split; [exact R3|]. split; [cbn; rewrite map_app; reflexivity|reflexivity].
      * specialize (IH dt endt per out cbs t n2 n2' n3 w3 w3' N2 R3).
        destruct (sloop exec act input fuel dt endt per out cbs t n2 n3 w3) as [[[t4 w4] tr4] r], (sloop exec' act' input' fuel dt (endt + c) per out cbs (t + c) n2' (option_map (Z.add c) n3) w3') as [[[t4' w4'] tr4'] r'].
        destruct IH as (-> & R4 & -> & ->). split; [reflexivity|]. split; [exact R4|]. split; [cbn; rewrite map_app; reflexivity|reflexivity].
    + split; [reflexivity|]. split; [exact R2|]. split; [cbn; rewrite map_app; reflexivity|reflexivity].
Qed.

Lemma sexecute_later : forall fuel eps a start rs dflt w w', RW w w' ->
  match sexecute exec beg act input fuel eps a start rs dflt w,
        sexecute exec' beg' act' input' fuel eps (later_args c a) (start + c) (option_map (Z.add c) rs) (dflt + c) w' with
  | (a1, tr, r), (b1, tr', r') => RW a1 b1 /\ tr' = map le tr /\ r' = r
  end.
Proof.
  intros fuel eps a start rs dflt w w' R. unfold sexecute.
  assert (RE : resolve_end (later_args c a) (start + c) (dflt + c) = option_map (Z.add c) (resolve_end a start dflt)).
  { unfold resolve_end, later_args. cbn. destruct (neg (a_runtime a) || neg (a_output a) || neg (a_movie a)); [reflexivity|].
    destruct (a_runtime a), (a_endtime a); cbn; try reflexivity; f_equal; lia. }
  rewrite RE. destruct (resolve_end a start dflt) as [endt0|]; cbn [option_map]; [|auto].
  assert (RO : resolve_once eps (later_args c a) (start + c) (c + endt0) = (fst (resolve_once eps a start endt0), snd (resolve_once eps a start endt0) + c)).
  { unfold resolve_once, later_args. cbn. replace (c + endt0 - (start + c)) with (endt0 - start) by lia.
    destruct ((Z.abs (endt0 - start) <? eps) || (SchedModel.a_dt a =? 0) || match a_runtime a with Some 0 => true | _ => false end); cbn; f_equal; lia. }
  rewrite RO. destruct (resolve_once eps a start endt0) as [dt endt]. cbn [fst snd]. cbv zeta.
  change (a_out (later_args c a)) with (a_out a). change (a_movie (later_args c a)) with (a_movie a). change (a_cbs (later_args c a)) with (a_cbs a).
  assert (PE : periods (later_args c a) = periods a) by reflexivity. rewrite PE.
  pose proof (XB w w' dt R) as R0.
  assert (R1 : RW (if a_out a then act KOutput (beg w dt) start dt else beg w dt) (if a_out a then act' KOutput (beg' w' dt) (start + c) dt else beg' w' dt))
    by (destruct (a_out a); [apply XA|]; exact R0).
  set (w1 := if a_out a then act KOutput (beg w dt) start dt else beg w dt) in *.
  set (w1' := if a_out a then act' KOutput (beg' w' dt) (start + c) dt else beg' w' dt) in *.
  assert (R2 : RW (match a_movie a with Some (Zpos _) => act KMovie w1 start dt | _ => w1 end)
                  (match a_movie a with Some (Zpos _) => act' KMovie w1' (start + c) dt | _ => w1' end))
    by (destruct (a_movie a) as [[| |]|]; try apply XA; exact R1).
  set (w2 := match a_movie a with Some (Zpos _) => act KMovie w1 start dt | _ => w1 end) in *.
  set (w2' := match a_movie a with Some (Zpos _) => act' KMovie w1' (start + c) dt | _ => w1' end) in *.
  assert (T1 : (if a_out a then [SWrite (start + c)] else []) = map le (if a_out a then [SWrite start] else [])) by (destruct (a_out a); reflexivity).
  assert (T2 : (match a_movie a with Some (Zpos _) => [SShow (start + c)] | _ => [] end) = map le (match a_movie a with Some (Zpos _) => [SShow start] | _ => [] end))
    by (destruct (a_movie a) as [[| |]|]; reflexivity).
  rewrite T1, T2. pose proof (XI w2 w2' start (Z.sgn dt) R2) as J.
  destruct (input w2 start (Z.sgn dt)) as [[w3 nin]|], (input' w2' (start + c) (Z.sgn dt)) as [[w3' nin']|]; try contradiction.
  2:{ split; [exact R2|]. split; [rewrite !map_app; reflexivity|reflexivity]. }
  destruct J as [R3 ->].
  assert (N : nx_later (first_next a dt start (match rs with Some r => r | None => start end))
                       (first_next (later_args c a) dt (start + c) (match option_map (Z.add c) rs with Some r => r | None => start + c end))).
  { intros k. unfold first_next. rewrite PE. destruct (periods a k) as [p|]; [|reflexivity].
    destruct k; cbn [option_map]; try (f_equal; destruct (0 <? dt); lia).
    f_equal. destruct rs as [r|]; cbn [option_map].
    - replace (start + c - (c + r)) with (start - r) by lia. lia.
    - replace (start + c - (start + c)) with (start - start) by lia. lia. }
  pose proof (sloop_later fuel dt endt (periods a) (a_out a) (a_cbs a) start _ _ nin w3 w3' N R3) as SL.
  destruct (sloop exec act input fuel dt endt (periods a) (a_out a) (a_cbs a) start _ nin w3) as [[[t w4] tr4] r],
           (sloop exec' act' input' fuel dt (endt + c) (periods a) (a_out a) (a_cbs a) (start + c) _ (option_map (Z.add c) nin) w3') as [[[t' w4'] tr4'] r'].
  destruct SL as (-> & R4 & -> & ->).
  destruct r; [destruct (a_out a)| |]; (split; [try apply XA; exact R4|]); (split; [rewrite ?map_app; cbn; rewrite ?map_app; reflexivity|reflexivity]).
Qed.
End Sched.

(** ** Runs *)
Theorem run_later : forall (E X H : Type) c (K K' : E -> pcl X -> E * kres X) (I I' : handlers E X H) jit lf rf fuel atol user out e batch batch' next next'
    eps a start rs dflt ps ps' tr r,
  same_kernel c K K' -> same_handlers c I I' -> settles I -> same_batches c batch batch' -> same_forcing c next next' ->
  run_set jit K I lf rf fuel atol user out e batch next eps a start rs dflt ps = (ps', tr, r) ->
  exists qs', run_set jit K' I' lf rf fuel atol user out e batch' next' eps (later_args c a) (start + c) (option_map (Z.add c) rs) (dflt + c) (map (later c) ps)
      = (qs', map (later_event c) tr, r) /\ map seen qs' = map seen (map (later c) ps').
Proof.
  intros E X H c K K' I I' jit lf rf fuel atol user out e batch batch' next next' eps a start rs dflt ps ps' tr r KS IS ST BS FS RUN.
  unfold run_set in *.
  pose proof (sexecute_later c (Forall2 (shifted c)) (mode_exec jit K I lf rf atol user out e) (mode_exec jit K' I' lf rf atol user out e)
    set_all_dt set_all_dt (only_release batch) (only_release batch') (announces next) (announces next')) as SL.
  assert (SD : forall (l l' : list (pcl X)) d, Forall2 (shifted c) l l' -> Forall2 (shifted c) (set_all_dt l d) (set_all_dt l' d)).
  { clear. intros l l' d Q. induction Q as [|p q ps qs (A & B & C & D) _ IH]; cbn; [constructor|]. constructor; [|exact IH]. repeat split; auto. }
  assert (LL : forall l : list (pcl X), Forall2 (shifted c) l (map (later c) l)).
  { clear. induction l; cbn; constructor; auto. repeat split. }
  specialize (SL (fun w w' t d R => mode_exec_later c K K' I I' KS IS jit lf rf atol user out e w w' t d ST R)).
  specialize (SL (fun w w' d R => SD w w' d R)).
  assert (XA : forall k w w' t d, Forall2 (shifted c) w w' -> Forall2 (shifted c) (only_release batch k w t d) (only_release batch' k w' (t + c) d)).
  { intros k w w' t d R. destruct k; cbn; try exact R. apply Forall2_app; [exact R|]. rewrite BS. apply SD, LL. }
  specialize (SL XA).
  assert (XI : forall (w w' : list (pcl X)) t d, Forall2 (shifted c) w w' -> match announces next w t d, announces next' w' (t + c) d with
    | Some (a, n), Some (b, n') => Forall2 (shifted c) a b /\ n' = option_map (Z.add c) n | None, None => True | _, _ => False end).
  { intros w w' t d R. cbn. split; [exact R|apply FS]. }
  specialize (SL XI fuel eps a start rs dflt ps (map (later c) ps) (LL ps)). rewrite RUN in SL.
  destruct (sexecute _ _ _ _ fuel eps (later_args c a) _ _ _ _) as [[qs' tr'] r']. destruct SL as (R & -> & ->).
  exists qs'. split; [reflexivity|]. clear - R. induction R as [|p q ps qs (A & B & C & D) _ IH]; [reflexivity|].
  cbn. rewrite IH. unfold seen at 1 3. cbn. rewrite A, B, C, D. reflexivity.
Qed.
