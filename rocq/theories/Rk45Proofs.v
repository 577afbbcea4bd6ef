(** Proofs for C57: the particle loop with AdvectionRK45. *)
From Coq Require Import Reals List ZArith Bool Lia Lra.
From Verif Require Import AdvModel AdvSpec AdvProofs3 Rk45Model Rk45Spec.
Import ListNotations.
Open Scope R_scope.

Definition tol : R := 1 / 100000.

(** * One call *)

Lemma call_cases UV p h :
  (exists a err, call UV p h = ADone a /\ a_dt a = h /\ fehlberg_step UV (p_time p) (p_pos p) h (a_lon a, a_lat a, a_depth a) err /\
     err <= tol * Rabs h /\ (next_dt a = h \/ next_dt a = 2 * h)) \/
  (exists a err, call UV p h = ARepeat a /\ a_dt a = h / 2 /\ (exists x', fehlberg_step UV (p_time p) (p_pos p) h x' err) /\ tol * Rabs h < err) \/
  (exists a, call UV p h = AFail a /\ forall x' err, ~ fehlberg_step UV (p_time p) (p_pos p) h x' err).
Proof.
  destruct p as [[[x y] z] t d s]. unfold call, fehlberg_step. cbn [p_pos p_time]. set (a0 := mkA x y z t h None).
  pose proof (rk45_ok UV a0) as R. unfold rk45_spec in R. destruct (stages UV a0 fehlberg []) as [ks|] eqn:E.
  - cbv zeta in R. fold tol in R. change (a_dt a0) with h in R. change (a_depth a0) with z in R. change (a_time a0) with t in R.
    destruct (Rle_dec _ _) as [L|L].
    + left. destruct R as (p' & C & A & B & D & _ & F & G). exists p'. eexists. split; [exact C|]. split; [exact F|].
      split; [exists ks; split; [reflexivity|]; split; [rewrite A, B, D; reflexivity|reflexivity]|]. split; [lra|].
      unfold next_dt. destruct (Rle_dec _ _) in G; rewrite G; [right|left]; [reflexivity|exact F].
    + right. left. destruct R as (p' & C & A & B & D & _ & F & G). exists p'. eexists. split; [exact C|]. split; [exact F|].
      split; [eexists; exists ks; split; [reflexivity|]; split; reflexivity|]. apply Rnot_le_lt in L. lra.
  - right. right. exists a0. split; [exact R|]. intros x' err (ks & K & _). discriminate K.
Qed.

(** A step with an estimate of at most a tenth of what is accepted doubles dt. *)
Lemma call_doubles UV p h a x' err : call UV p h = ADone a -> fehlberg_step UV (p_time p) (p_pos p) h x' err -> err <= tol * Rabs h / 10 -> next_dt a = 2 * h.
Proof.
  destruct p as [[[x y] z] t d s]. unfold call, fehlberg_step. cbn [p_pos p_time]. set (a0 := mkA x y z t h None). intros C (ks & K & _ & ->) L.
  pose proof (rk45_ok UV a0) as R. unfold rk45_spec in R. rewrite K in R.
  cbv zeta in R. fold tol in R. change (a_dt a0) with h in R. change (a_depth a0) with z in R. change (a_time a0) with t in R.
  destruct (Rle_dec _ _) as [L1|L1].
  - destruct R as (p' & C' & _ & _ & _ & _ & _ & G). assert (a = p') by congruence. subst. unfold next_dt. destruct (Rle_dec _ _) as [L2|L2] in G; [rewrite G; reflexivity|lra].
  - destruct R as (p' & C' & _). congruence.
Qed.

(** * Directions *)

Lemma sgn_pos x : 0 < x -> sgn x = 1%Z.
Proof. intros H. unfold sgn. destruct (Rlt_dec 0 x); [reflexivity|lra]. Qed.
Lemma sgn_neg x : x < 0 -> sgn x = (-1)%Z.
Proof. intros H. unfold sgn. destruct (Rlt_dec 0 x); [lra|]. destruct (Rlt_dec x 0); [reflexivity|lra]. Qed.
Lemma sgn_zero : sgn 0 = 0%Z.
Proof. unfold sgn. destruct (Rlt_dec 0 0); [lra|]. destruct (Rlt_dec 0 0); [lra|reflexivity]. Qed.
Lemma csgn_pos x : 0 < x -> csgn x = 1%Z.
Proof. intros H. unfold csgn. destruct (Rlt_dec 0 x); [reflexivity|lra]. Qed.
Lemma csgn_neg x : x <= 0 -> csgn x = (-1)%Z.
Proof. intros H. unfold csgn. destruct (Rlt_dec 0 x); [lra|reflexivity]. Qed.

Lemma close_true atol x : close0 atol x = true <-> Rabs x <= atol.
Proof. unfold close0. destruct (Rle_dec (Rabs x) atol); split; intros; try assumption; try reflexivity; try discriminate; contradiction. Qed.
Lemma close_false atol x : close0 atol x = false <-> atol < Rabs x.
Proof. unfold close0. destruct (Rle_dec (Rabs x) atol); split; intros; try reflexivity; try discriminate; lra. Qed.

Section Dir.
Variables (atol dt : R).
Hypothesis A0 : 0 <= atol.
Hypothesis DT : atol < Rabs dt.

Lemma dt_sign : 0 < dt \/ dt < 0.
Proof. destruct (Rtotal_order dt 0) as [H|[H|H]]; [right; exact H| |left; exact H]. subst dt. rewrite Rabs_R0 in DT. lra. Qed.

Definition dir : R := IZR (sgn dt).
Lemma dir_is : (0 < dt /\ dir = 1) \/ (dt < 0 /\ dir = -1).
Proof. unfold dir. destruct dt_sign as [H|H]; [left; rewrite (sgn_pos _ H)|right; rewrite (sgn_neg _ H)]; split; try exact H; reflexivity. Qed.
Lemma cdir : IZR (csgn dt) = dir.
Proof. unfold dir. destruct dt_sign as [H|H]; [rewrite (sgn_pos _ H), (csgn_pos _ H)|rewrite (sgn_neg _ H), csgn_neg by lra]; reflexivity. Qed.
Lemma left_dir endt t : left_to dt endt t = dir * (endt - t).
Proof. unfold left_to. destruct dir_is as [[H ->]|[H ->]]; destruct (Rlt_dec 0 dt); lra. Qed.
Lemma left_abs endt t : 0 <= left_to dt endt t -> Rabs (endt - t) = left_to dt endt t.
Proof. rewrite left_dir. destruct dir_is as [[H ->]|[H ->]]; intros L; [rewrite Rabs_right by lra|rewrite Rabs_left1 by lra]; lra. Qed.
Lemma left_step endt t h : left_to dt endt (t + dir * h) = left_to dt endt t - h.
Proof. rewrite !left_dir. destruct dir_is as [[H ->]|[H ->]]; lra. Qed.
Lemma abs_dir h : Rabs (dir * h) = Rabs h.
Proof. rewrite Rabs_mult. destruct dir_is as [[H ->]|[H ->]]; [rewrite Rabs_R1; lra|rewrite (Rabs_left (-1)) by lra; lra]. Qed.
Lemma dir_dt h : 0 < h -> 0 < dt * (dir * h).
Proof. intros P. destruct dir_is as [[H ->]|[H ->]]; [apply Rmult_lt_0_compat; lra|]. replace (dt * (-1 * h)) with ((- dt) * h) by ring. apply Rmult_lt_0_compat; lra. Qed.

Lemma ahead_true endt t : (sgn (endt - t) =? sgn dt)%Z = true <-> 0 < left_to dt endt t.
Proof.
  rewrite Z.eqb_eq, left_dir. destruct dir_is as [[H ->]|[H ->]]; [rewrite (sgn_pos _ H)|rewrite (sgn_neg _ H)];
    (destruct (Rtotal_order (endt - t) 0) as [L|[L|L]]; [rewrite (sgn_neg _ L)|rewrite L, sgn_zero|rewrite (sgn_pos _ L)]); split; intros; try lra; try lia.
Qed.
Lemma ahead_false endt t : (sgn (endt - t) =? sgn dt)%Z = false <-> left_to dt endt t <= 0.
Proof. pose proof (ahead_true endt t) as H. destruct (_ =? _)%Z; split; intros; try reflexivity; try discriminate. - assert (0 < left_to dt endt t) by (apply H; reflexivity). lra. - apply Rnot_lt_le. intros L. apply H in L. discriminate. Qed.
(** In C the sign of 0 is -1; this only shows where the distance is 0. *)
Lemma cahead endt t : (csgn (endt - t) =? csgn dt)%Z = (sgn (endt - t) =? sgn dt)%Z \/ (endt - t = 0 /\ (sgn (endt - t) =? sgn dt)%Z = false).
Proof.
  destruct (Rtotal_order (endt - t) 0) as [L|[L|L]].
  - left. rewrite (sgn_neg _ L), (csgn_neg (endt - t)) by lra. destruct dt_sign as [H|H]; [rewrite (sgn_pos _ H), (csgn_pos _ H)|rewrite (sgn_neg _ H), csgn_neg by lra]; reflexivity.
  - right. split; [exact L|]. apply ahead_false. rewrite left_dir, L. lra.
  - left. rewrite (sgn_pos _ L), (csgn_pos _ L). destruct dt_sign as [H|H]; [rewrite (sgn_pos _ H), (csgn_pos _ H)|rewrite (sgn_neg _ H), csgn_neg by lra]; reflexivity.
Qed.

Lemma dt_far : close0 atol dt = false.
Proof. apply close_false. exact DT. Qed.

(** * The loop of one particle *)
Variable UV : R -> R -> R -> R -> option (R * R).
Variable endt : R.

(** The step a particle may take now. *)
Definition dpos (p : rp) : R := Rmin (Rabs (p_dt p)) (Rabs (endt - p_time p)).
(** It has something to do. *)
Definition active (p : rp) : Prop := 0 < left_to dt endt (p_time p) /\ atol < dpos p.
(** Nothing is left to do. *)
Definition over (p : rp) : Prop := left_to dt endt (p_time p) <= atol \/ Rabs (p_dt p) <= atol.

Lemma dpos_nonneg p : 0 <= dpos p.
Proof. unfold dpos. apply Rmin_glb; apply Rabs_pos. Qed.
Lemma active_dec p : active p \/ ~ active p.
Proof. clear UV. unfold active. destruct (Rlt_dec 0 (left_to dt endt (p_time p))), (Rlt_dec atol (dpos p)); tauto. Qed.
Lemma not_active_over p : ~ active p -> over p.
Proof.
  intros N. unfold over. destruct (Rle_dec (left_to dt endt (p_time p)) atol) as [L|L]; [left; exact L|]. right. apply Rnot_le_lt in L.
  destruct (Rle_dec (Rabs (p_dt p)) atol) as [K|K]; [exact K|]. exfalso. apply N. split; [lra|]. unfold dpos. rewrite left_abs by lra. apply Rmin_glb_lt; lra.
Qed.
Lemma over_not_active p : over p -> ~ active p.
Proof.
  intros [L|K] [P D]; unfold dpos in D.
  - rewrite left_abs in D by lra. pose proof (Rmin_r (Rabs (p_dt p)) (left_to dt endt (p_time p))). lra.
  - pose proof (Rmin_l (Rabs (p_dt p)) (Rabs (endt - p_time p))). lra.
Qed.

(** The particle after an accepted step. *)
Definition after (p : rp) (a : apart) : rp :=
  let p2 := mkRp (a_lon a, a_lat a, a_depth a) (p_time p + a_dt a) (next_dt a) Success in
  if negb (close0 atol (dpos p2)) && (sgn (endt - p_time p2) =? sgn dt)%Z then set_state p2 Evaluate else p2.

Lemma after_active p a : active (after p a) <-> p_state (after p a) = Evaluate.
Proof.
  unfold after. cbv zeta. set (p2 := mkRp _ _ _ Success).
  destruct (close0 atol (dpos p2)) eqn:C; cbn [negb andb].
  - apply close_true in C. rewrite Rabs_right in C by (apply Rle_ge, dpos_nonneg). split; [intros [_ D]; exfalso; lra|discriminate].
  - apply close_false in C. rewrite Rabs_right in C by (apply Rle_ge, dpos_nonneg).
    destruct (_ =? _)%Z eqn:H; [apply ahead_true in H|apply ahead_false in H]; split; try discriminate; try reflexivity.
    + intros _. split; [exact H|exact C].
    + intros [D _]. exfalso. revert D H. generalize (left_to dt endt (p_time p2)). intros; lra.
Qed.
Lemma after_state p a : p_state (after p a) = Evaluate \/ p_state (after p a) = Success.
Proof. unfold after. destruct (_ && _); [left|right]; reflexivity. Qed.
Lemma after_fields p a : p_pos (after p a) = (a_lon a, a_lat a, a_depth a) /\ p_time (after p a) = p_time p + a_dt a /\ p_dt (after p a) = next_dt a.
Proof. unfold after. destruct (_ && _); repeat split. Qed.

Lemma loop_active f p : active p -> p_state p = Evaluate ->
  py_loop UV (S f) atol dt endt p (dpos p) =
  match call UV p (dir * dpos p) with
  | ADone a => match f with O => None | S _ => if match p_state (after p a) with Evaluate => true | _ => false end
                 then py_loop UV f atol dt endt (after p a) (dpos (after p a)) else Some (after p a) end
  | ARepeat a => Some (undone p a Repeat)
  | AFail a => Some (undone p a Failed)
  end.
Proof.
  intros _ E. cbn [py_loop]. unfold running. rewrite E. cbn [orb]. fold dir. destruct (call UV p (dir * dpos p)) as [a|a|a]; try reflexivity.
  rewrite dt_far. unfold after, dpos. cbv zeta. cbn [p_time p_dt].
  destruct (close0 _ (Rmin _ _)); cbn [negb andb]; [destruct f; [reflexivity|]; cbn [p_state py_loop running orb]; rewrite dt_far; reflexivity|].
  destruct (_ =? _)%Z; cbn [p_state set_state]; [destruct f; [reflexivity|]; reflexivity|].
  destruct f; [reflexivity|]. cbn [py_loop running p_state orb]. rewrite dt_far. reflexivity.
Qed.

Lemma particle_active f p : active p -> p_state p = Evaluate -> py_particle UV f atol dt endt p = py_loop UV f atol dt endt p (dpos p).
Proof.
  intros [P D] _. unfold py_particle. cbv zeta. apply ahead_true in P. rewrite P. cbn [negb orb]. fold (dpos p).
  replace (close0 atol (dpos p)) with false; [reflexivity|]. symmetry. apply close_false. rewrite Rabs_right by (apply Rle_ge, dpos_nonneg). exact D.
Qed.
Lemma particle_over f p : ~ active p -> exists s, py_particle UV f atol dt endt p = Some (set_state p s) /\ (s = p_state p \/ s = Success).
Proof.
  intros N. unfold py_particle. cbv zeta. fold (dpos p). rewrite dt_far. cbn [negb]. rewrite andb_true_r.
  replace (negb _ || close0 atol (dpos p)) with true.
  - destruct (Rle_dec _ _); [exists Success|exists (p_state p)]; (split; [|tauto]); destruct p; reflexivity.
  - symmetry. destruct (_ =? _)%Z eqn:H; [|reflexivity]. apply ahead_true in H. cbn [negb orb]. apply close_true. rewrite Rabs_right by (apply Rle_ge, dpos_nonneg).
    apply Rnot_lt_le. intros D. apply N. split; [exact H|exact D].
Qed.
End Dir.
