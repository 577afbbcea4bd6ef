(** Proofs about the kernel loops. *)
From Coq Require Import List ZArith Bool Lia ZifyBool.
From Verif Require Import CollModel KLoopModel KLoopSpec.
Import ListNotations.
Open Scope Z_scope.

Ltac Zify.zify_post_hook ::= Z.div_mod_to_equations.

Section Proofs.
Context {E X H : Type}.
Notation pcl := (pcl X).
Notation ev := (ev H).
Variable K : E -> pcl -> E * kres X.
Variable interp : handlers E X H.

(** ** One call *)

Definition at_dt (p : pcl) (h : Z) : pcl := mkPcl (q_id p) (q_time p) h (q_st p) (q_x p).

(** The code the loop gives to a call, with [same] the comparison of time steps. *)
Definition outcome (same : Z -> Z -> bool) (prev h : Z) (r : kres X) : Z :=
  if (signalled prev r =? st_Success) && negb (same (k_dt r) h) then op_Repeat else signalled prev r.

Lemma res1_signalled : forall prev (r : kres X),
  (if (k_res r =? st_Success) && negb (k_st r =? prev) then k_st r else k_res r) = signalled prev r.
Proof.
  intros prev r. unfold signalled.
  destruct (k_res r =? st_Success) eqn:A; cbn [andb]; [|reflexivity].
  destruct (k_st r =? prev); cbn [negb]; [|reflexivity].
  apply Z.eqb_eq in A. exact A.
Qed.

Definition accepted (c : Z) : bool := (c =? st_Success) || (c =? op_Delete).

Lemma call_accepted_outcome : forall same prev h (r : kres X),
  call_accepted prev (same (k_dt r) h) r = accepted (outcome same prev h r).
Proof.
  intros. unfold call_accepted, accepted, outcome.
  destruct (signalled prev r =? st_Success) eqn:A; destruct (same (k_dt r) h); cbn [andb negb];
    rewrite ?A; cbn [orb]; try rewrite orb_true_r; try rewrite orb_false_r; try reflexivity.
  - apply Z.eqb_eq in A. rewrite A. reflexivity.
Qed.

(** The particle after an accepted call. *)
Definition after_ok (sg : Z -> Z) (atol dt endt : Z) (p : pcl) (c : Z) (nd : option Z) (r : kres X)
  : pcl * Z :=
  let time2 := k_time r + k_dt r in
  let dt2 := match nd with Some d => d | None => k_dt r end in
  let dp := Z.min (Z.abs dt2) (Z.abs (endt - time2)) in
  let se := sg (endt - time2) in
  let res3 := if negb (c =? op_Delete) && negb (close0 atol dp) && (se =? sg dt)
              then st_Evaluate else c in
  (mkPcl (q_id p) time2 dt2 res3 (k_x r), if negb (se =? sg dt) then 0 else dp).

Definition after_fail (p : pcl) (c : Z) (r : kres X) : pcl :=
  mkPcl (q_id p) (q_time p) (k_dt r) c (q_x p).

Lemma py_loop_eq : forall f atol dt endt e p dp,
  py_loop (H:=H) K (S f) atol dt endt e p dp =
  if (q_st p =? st_Evaluate) || (q_st p =? op_Repeat) || close0 atol dt then
    let pdt := Z.sgn dt * dp in
    let r := snd (K e (at_dt p pdt)) in
    let e' := fst (K e (at_dt p pdt)) in
    let c := outcome (close atol) (q_st p) pdt r in
    let call := ECall (q_id p) (q_time p) pdt c in
    if accepted c then
      let '(p2, dp') := after_ok Z.sgn atol dt endt p c (k_next r) r in
      if close0 atol dt then Some (e', p2, [call])
      else match py_loop K f atol dt endt e' p2 dp' with
           | Some (e2, p3, tr) => Some (e2, p3, call :: tr)
           | None => None
           end
    else Some (e', after_fail p c r, [call])
  else Some (e, p, []).
Proof.
  intros. cbn [py_loop]. unfold at_dt.
  destruct ((q_st p =? st_Evaluate) || (q_st p =? op_Repeat) || close0 atol dt); [|reflexivity].
  destruct (K e _) as [e' r] eqn:KE. cbn [fst snd]. rewrite res1_signalled. reflexivity.
Qed.

Lemma c_loop_eq : forall f atol dt endt g e p dp,
  c_loop (H:=H) K (S f) atol dt endt g e p dp =
  if (q_st p =? st_Evaluate) || (q_st p =? op_Repeat) || (q_dt p =? 0) then
    let pdt := dp * csgn dt in
    let r := snd (K e (at_dt p pdt)) in
    let e' := fst (K e (at_dt p pdt)) in
    let c := outcome Z.eqb (q_st p) pdt r in
    let g1 := match k_next r with Some d => Some d | None => g end in
    let call := ECall (q_id p) (q_time p) pdt c in
    if accepted c then
      let '(p2, dp') := after_ok csgn atol dt endt p c g1 r in
      if q_dt p2 =? 0 then Some (None, e', p2, [call])
      else match c_loop K f atol dt endt None e' p2 dp' with
           | Some (g2, e2, p3, tr) => Some (g2, e2, p3, call :: tr)
           | None => None
           end
    else Some (g1, e', after_fail p c r, [call])
  else Some (g, e, p, []).
Proof.
  intros. cbn [c_loop]. unfold at_dt.
  destruct ((q_st p =? st_Evaluate) || (q_st p =? op_Repeat) || (q_dt p =? 0)); [|reflexivity].
  destruct (K e _) as [e' r] eqn:KE. cbn [fst snd]. rewrite res1_signalled. reflexivity.
Qed.

Opaque py_loop c_loop.

(** ** What a pass over one particle can do, for both modes *)

(** Summary of the events of one particle in one pass. *)
Definition one_ok (p : pcl) (tr : list ev) (p' : pcl) : Prop :=
  q_id p' = q_id p /\
  ((tr = [] /\ (p' = p \/ p' = set_st p st_Success)) \/
   exists cs t h c,
     tr = cs ++ [ECall (q_id p) t h c] /\
     Forall (fun v => exists t h, v = ECall (q_id p) t h st_Success) cs /\
     ((c = st_Success /\ (q_st p' = st_Success \/ q_st p' = st_Evaluate)) \/
      (c <> st_Success /\ q_st p' = c))).

Lemma accepted_cases : forall c, accepted c = true -> c = st_Success \/ c = op_Delete.
Proof. unfold accepted, st_Success, op_Delete. intros. lia. Qed.

Lemma after_ok_facts : forall sg atol dt endt p c nd r,
  accepted c = true ->
  let p2 := fst (after_ok sg atol dt endt p c nd r) in
  q_id p2 = q_id p /\
  ((c = st_Success /\ (q_st p2 = st_Success \/ q_st p2 = st_Evaluate)) \/
   (c = op_Delete /\ q_st p2 = op_Delete)).
Proof.
  intros. subst p2. unfold after_ok; cbn [fst q_id q_st]. split; [reflexivity|].
  apply accepted_cases in H0. destruct H0; subst c.
  - left; split; [reflexivity|]. destruct (_ && _); auto.
  - right. split; reflexivity.
Qed.

Definition wants_run (p : pcl) : bool := (q_st p =? st_Evaluate) || (q_st p =? op_Repeat).

Lemma py_loop_idle : forall f atol dt endt e p dp x,
  wants_run p = false -> close0 atol dt = false ->
  py_loop (H:=H) K f atol dt endt e p dp = Some x -> x = (e, p, []).
Proof.
  intros f atol dt endt e p dp x W D L. destruct f; [discriminate|].
  rewrite py_loop_eq in L. unfold wants_run in W. rewrite W, D in L. cbn [orb] in L. congruence.
Qed.

Lemma c_loop_idle : forall f atol dt endt g e p dp x,
  wants_run p = false -> q_dt p =? 0 = false ->
  c_loop (H:=H) K f atol dt endt g e p dp = Some x -> x = (g, e, p, []).
Proof.
  intros f atol dt endt g e p dp x W D L. destruct f; [discriminate|].
  rewrite c_loop_eq in L. unfold wants_run in W. rewrite W, D in L. cbn [orb] in L. congruence.
Qed.

(** Composition of a successful call with the rest of the pass. *)
Lemma one_ok_cons : forall p p2 p3 t h c tr,
  q_id p2 = q_id p ->
  (c = st_Success /\ (q_st p2 = st_Success \/ q_st p2 = st_Evaluate)) \/
  (c = op_Delete /\ q_st p2 = op_Delete /\ p3 = p2 /\ tr = []) ->
  one_ok p2 tr p3 -> one_ok p (ECall (q_id p) t h c :: tr) p3.
Proof.
  intros p p2 p3 t h c tr I2 C [I3 T3]. split; [congruence|]. right.
  destruct C as [[-> S2]|[-> [S2 [-> ->]]]].
  - destruct T3 as [[-> P3]|[cs [t' [h' [c' [-> [FC LC]]]]]]].
    + exists [], t, h, st_Success. split; [reflexivity|]. split; [constructor|]. left.
      split; [reflexivity|]. destruct P3 as [Q|Q]; rewrite Q; [exact S2|left; reflexivity].
    + exists (ECall (q_id p) t h st_Success :: cs), t', h', c'. rewrite I2 in *.
      split; [reflexivity|]. split; [constructor; eauto|exact LC].
  - exists [], t, h, op_Delete. split; [reflexivity|]. split; [constructor|]. right.
    split; [discriminate|exact S2].
Qed.

Lemma one_ok_single : forall p p2 t h c,
  q_id p2 = q_id p ->
  (c = st_Success /\ (q_st p2 = st_Success \/ q_st p2 = st_Evaluate)) \/
  (c <> st_Success /\ q_st p2 = c) ->
  one_ok p [ECall (q_id p) t h c] p2.
Proof.
  intros. split; [assumption|]. right. exists [], t, h, c. split; [reflexivity|].
  split; [constructor|assumption].
Qed.

Lemma not_accepted_neq : forall c, accepted c = false -> c <> st_Success /\ c <> op_Delete.
Proof. unfold accepted, st_Success, op_Delete. intros. lia. Qed.

Lemma py_loop_ok : forall f atol dt endt e p dp e' p' tr,
  py_loop K f atol dt endt e p dp = Some (e', p', tr) -> one_ok p tr p'.
Proof.
  induction f; intros atol dt endt e p dp e' p' tr L; [discriminate|].
  rewrite py_loop_eq in L.
  destruct ((q_st p =? st_Evaluate) || (q_st p =? op_Repeat) || close0 atol dt).
  2:{ inversion L; subst. split; [reflexivity|]. left; auto. }
  cbn zeta in L.
  set (pdt := Z.sgn dt * dp) in *. set (r := snd (K e (at_dt p pdt))) in *.
  set (c := outcome (close atol) (q_st p) pdt r) in *.
  destruct (accepted c) eqn:AC.
  - pose proof (after_ok_facts Z.sgn atol dt endt p c (k_next r) r AC) as AF. cbn zeta in AF.
    destruct (after_ok Z.sgn atol dt endt p c (k_next r) r) as [p2 dp'] eqn:AO. cbn [fst] in AF.
    destruct AF as [I2 S2].
    destruct (close0 atol dt) eqn:CD.
    + inversion L; subst. apply one_ok_single; [exact I2|].
      destruct S2 as [[-> S2]|[-> S2]]; [left; auto|right; split; [discriminate|auto]].
    + destruct (py_loop K f atol dt endt (fst (K e (at_dt p pdt))) p2 dp') as [[[e2 p3] tr2]|] eqn:L2;
        [|discriminate].
      inversion L; subst. apply one_ok_cons with p2; [exact I2| |eapply IHf; exact L2].
      destruct S2 as [S2|[Ec S2]]; [left; exact S2|right].
      apply py_loop_idle in L2; [|unfold wants_run; rewrite S2; reflexivity|exact CD].
      inversion L2. auto.
  - inversion L; subst. apply one_ok_single; [reflexivity|]. right.
    split; [apply not_accepted_neq; exact AC|reflexivity].
Qed.

Lemma c_loop_ok : forall f atol dt endt g e p dp g' e' p' tr,
  c_loop K f atol dt endt g e p dp = Some (g', e', p', tr) -> one_ok p tr p'.
Proof.
  induction f; intros atol dt endt g e p dp g' e' p' tr L; [discriminate|].
  rewrite c_loop_eq in L.
  destruct ((q_st p =? st_Evaluate) || (q_st p =? op_Repeat) || (q_dt p =? 0)).
  2:{ inversion L; subst. split; [reflexivity|]. left; auto. }
  cbn zeta in L.
  set (pdt := dp * csgn dt) in *. set (r := snd (K e (at_dt p pdt))) in *.
  set (c := outcome Z.eqb (q_st p) pdt r) in *.
  set (g1 := match k_next r with Some d => Some d | None => g end) in *.
  destruct (accepted c) eqn:AC.
  - pose proof (after_ok_facts csgn atol dt endt p c g1 r AC) as AF. cbn zeta in AF.
    destruct (after_ok csgn atol dt endt p c g1 r) as [p2 dp'] eqn:AO. cbn [fst] in AF.
    destruct AF as [I2 S2].
    destruct (q_dt p2 =? 0) eqn:CD.
    + inversion L; subst. apply one_ok_single; [exact I2|].
      destruct S2 as [[-> S2]|[-> S2]]; [left; auto|right; split; [discriminate|auto]].
    + destruct (c_loop K f atol dt endt None (fst (K e (at_dt p pdt))) p2 dp')
        as [[[[g2 e2] p3] tr2]|] eqn:L2; [|discriminate].
      inversion L; subst. apply one_ok_cons with p2; [exact I2| |eapply IHf; exact L2].
      destruct S2 as [S2|[Ec S2]]; [left; exact S2|right].
      apply c_loop_idle in L2; [|unfold wants_run; rewrite S2; reflexivity|exact CD].
      inversion L2. auto.
  - inversion L; subst. apply one_ok_single; [reflexivity|]. right.
    split; [apply not_accepted_neq; exact AC|reflexivity].
Qed.

Lemma py_particle_ok : forall f atol dt endt e p e' p' tr,
  py_particle K f atol dt endt e p = Some (e', p', tr) -> one_ok p tr p'.
Proof.
  intros f atol dt endt e p e' p' tr L. unfold py_particle in L.
  destruct (_ && _).
  - destruct (_ <=? _); inversion L; subst; split; try reflexivity; left; auto.
  - eapply py_loop_ok; exact L.
Qed.

Lemma c_one_ok : forall f atol dt endt s p s' p' tr,
  c_one K f atol dt endt s p = Some (s', p', tr) -> one_ok p tr p'.
Proof.
  intros f atol dt endt [g e] p s' p' tr L. unfold c_one, c_particle in L. cbn [fst snd] in L.
  destruct (_ && _).
  - destruct (_ <=? _); inversion L; subst; split; try reflexivity; left; auto.
  - destruct (c_loop K f atol dt endt g e p _) as [[[[g2 e2] p3] tr2]|] eqn:L2; [|discriminate].
    inversion L; subst. eapply c_loop_ok; exact L2.
Qed.

End Proofs.
