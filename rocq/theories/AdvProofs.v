(** Proofs about the advection kernels. *)
From Coq Require Import Reals List Lra Lia Psatz.
From Verif Require Import AdvModel AdvSpec.
Import ListNotations.
Open Scope R_scope.

(** * Taylor's theorem for a sequence of derivatives, steps of either sign *)

Definition btw (a b s : R) : Prop := Rmin a b <= s <= Rmax a b.

Lemma btw_l a b : btw a b a.
Proof. unfold btw, Rmin, Rmax. destruct (Rle_dec a b); lra. Qed.
Lemma btw_r a b : btw a b b.
Proof. unfold btw, Rmin, Rmax. destruct (Rle_dec a b); lra. Qed.

Lemma mvt (f f' : R -> R) a b : a <> b ->
  (forall s, btw a b s -> derivable_pt_lim f s (f' s)) ->
  exists c, btw a b c /\ c <> b /\ f b - f a = f' c * (b - a).
Proof.
  intros N H. destruct (Rtotal_order a b) as [L | [E | L]]; [| contradiction |].
  - destruct (MVT_cor2 f f' a b L) as (c & E & B).
    { intros s Hs. apply H. unfold btw, Rmin, Rmax. destruct (Rle_dec a b); lra. }
    exists c. split; [|split; [lra|exact E]]. unfold btw, Rmin, Rmax. destruct (Rle_dec a b); lra.
  - destruct (MVT_cor2 f f' b a L) as (c & E & B).
    { intros s Hs. apply H. unfold btw, Rmin, Rmax. destruct (Rle_dec a b); lra. }
    exists c. split; [|split; [lra|lra]]. unfold btw, Rmin, Rmax. destruct (Rle_dec a b); lra.
Qed.

Lemma constant_of_zero (f : R -> R) a b :
  (forall s, btw a b s -> derivable_pt_lim f s 0) -> f b = f a.
Proof.
  intros H. destruct (Req_dec a b) as [-> | N]; [reflexivity|].
  destruct (mvt f (fun _ => 0) a b N H) as (c & _ & _ & E). lra.
Qed.

Lemma deriv_ext (f g : R -> R) s l : (forall t, f t = g t) -> derivable_pt_lim f s l -> derivable_pt_lim g s l.
Proof.
  intros E H eps He. destruct (H eps He) as (d & Hd). exists d. intros h N Hh. rewrite <- !E. apply Hd; assumption.
Qed.

Lemma deriv_eq (f : R -> R) s l l' : l = l' -> derivable_pt_lim f s l -> derivable_pt_lim f s l'.
Proof. intros ->; auto. Qed.

(** derivative of (b - s)^k *)
Lemma deriv_pow b k s : derivable_pt_lim (fun t => (b - t) ^ k) s (- (INR k * (b - s) ^ pred k)).
Proof.
  assert (D1 : derivable_pt_lim (fun t => b - t) s (-1)).
  { apply (deriv_eq _ _ (0 - 1)); [lra|].
    apply (derivable_pt_lim_minus (fun _ => b) (fun t => t)); [apply derivable_pt_lim_const|apply derivable_pt_lim_id]. }
  apply (deriv_eq _ _ (INR k * (b - s) ^ pred k * -1)); [ring|].
  apply (derivable_pt_lim_comp (fun t => b - t) (fun y => y ^ k)); [exact D1|]. apply derivable_pt_lim_pow.
Qed.

Definition tsum (f : nat -> R -> R) (b : R) (n : nat) (s : R) : R :=
  sum_f_R0 (fun k => (b - s) ^ k / INR (fact k) * f k s) n.

Lemma fact_S n : INR (fact (S n)) = INR (S n) * INR (fact n).
Proof. rewrite <- mult_INR. f_equal. Qed.

Lemma tsum_deriv (f : nat -> R -> R) b n s :
  (forall k, (k <= n)%nat -> derivable_pt_lim (f k) s (f (S k) s)) ->
  derivable_pt_lim (tsum f b n) s ((b - s) ^ n / INR (fact n) * f (S n) s).
Proof.
  induction n as [|n IH]; intros H.
  - apply (deriv_eq _ _ (f 1%nat s)); [cbn; field|]. apply (deriv_ext (f 0%nat)); [|apply H; lia].
    intros t. unfold tsum. cbn. field.
  - assert (D := IH (fun k Hk => H k (Nat.le_trans _ _ _ Hk (Nat.le_succ_diag_r n)))).
    pose proof (H (S n) (Nat.le_refl _)) as D2.
    pose proof (derivable_pt_lim_mult _ _ s _ _ (deriv_pow b (S n) s) D2) as D3.
    pose proof (derivable_pt_lim_scal _ (/ INR (fact (S n))) _ _ D3) as D4.
    pose proof (derivable_pt_lim_plus _ _ s _ _ D D4) as D5.
    eapply deriv_eq; [|eapply deriv_ext; [|exact D5]].
    + cbv beta. cbn [pred]. rewrite fact_S.
      assert (N1 : INR (S n) <> 0) by (apply not_0_INR; lia).
      assert (N2 : INR (fact n) <> 0) by apply INR_fact_neq_0.
      field. split; assumption.
    + intros t. unfold tsum, plus_fct, mult_real_fct, mult_fct. cbn [sum_f_R0]. unfold Rdiv. ring.
Qed.

Lemma taylor_seq (f : nat -> R -> R) a b n :
  (forall k s, (k <= n)%nat -> btw a b s -> derivable_pt_lim (f k) s (f (S k) s)) ->
  exists c, btw a b c /\
    f 0%nat b = taylor n (b - a) (fun k => f k a) + (b - a) ^ S n / INR (fact (S n)) * f (S n) c.
Proof.
  intros H. destruct (Req_dec a b) as [-> | N].
  - exists b. split; [apply btw_l|]. replace (b - b) with 0 by ring.
    rewrite pow_i by lia. unfold taylor.
    assert (E : sum_f_R0 (fun k => 0 ^ k / INR (fact k) * f k b) n = f 0%nat b).
    { clear H. induction n as [|n IH]; [cbn; field|]. cbn [sum_f_R0]. rewrite IH, pow_i by lia. unfold Rdiv. ring. }
    rewrite E. unfold Rdiv. ring.
  - set (C := (f 0%nat b - tsum f b n a) / (b - a) ^ S n).
    set (g := fun s => tsum f b n s + C * (b - s) ^ S n).
    assert (Nz : (b - a) ^ S n <> 0) by (apply pow_nonzero; lra).
    assert (Ea : g a = f 0%nat b). { unfold g, C. field. exact Nz. }
    assert (Eb : g b = f 0%nat b).
    { unfold g, tsum. replace (b - b) with 0 by ring. rewrite pow_i by lia.
      assert (E : sum_f_R0 (fun k => 0 ^ k / INR (fact k) * f k b) n = f 0%nat b).
      { clear. induction n as [|n IH]; [cbn; field|]. cbn [sum_f_R0]. rewrite IH, pow_i by lia. unfold Rdiv. ring. }
      rewrite E. ring. }
    destruct (mvt g (fun s => (b - s) ^ n / INR (fact n) * f (S n) s + C * - (INR (S n) * (b - s) ^ n)) a b N) as (c & B & Nc & E).
    { intros s Hs. unfold g.
      apply (derivable_pt_lim_plus (tsum f b n) (fun t => C * (b - t) ^ S n)).
      - apply tsum_deriv. intros k Hk. apply H; assumption.
      - apply (derivable_pt_lim_scal (fun t => (b - t) ^ S n)). apply (deriv_pow b (S n)). }
    exists c. split; [exact B|].
    rewrite Ea, Eb in E.
    assert (N1 : INR (S n) <> 0) by (apply not_0_INR; lia).
    assert (N2 : INR (fact n) <> 0) by apply INR_fact_neq_0.
    assert (N3 : (b - c) ^ n <> 0) by (apply pow_nonzero; lra).
    assert (HC : C = f (S n) c / INR (fact (S n))).
    { rewrite fact_S.
      assert (Z : (b - c) ^ n / INR (fact n) * f (S n) c + C * - (INR (S n) * (b - c) ^ n) = 0).
      { apply (Rmult_eq_reg_r (b - a)); [|lra]. rewrite <- E. ring. }
      apply (Rmult_eq_reg_r (INR (S n) * (b - c) ^ n)); [|apply Rmult_integral_contrapositive; auto].
      transitivity ((b - c) ^ n / INR (fact n) * f (S n) c); [lra|]. field. auto. }
    assert (Et : f 0%nat b = tsum f b n a + C * (b - a) ^ S n).
    { unfold C. field. exact Nz. }
    rewrite Et at 1. unfold taylor, tsum. rewrite HC. unfold Rdiv. ring.
Qed.

(** * The samples of the kernels *)

Lemma during_btw p s : during p s <-> btw (a_time p) (a_time p + a_dt p) s.
Proof. reflexivity. Qed.

Lemma during_part p c : 0 <= c <= 1 -> during p (a_time p + c * a_dt p).
Proof.
  intros Hc. unfold during, Rmin, Rmax. destruct (Rle_dec (a_time p) (a_time p + a_dt p)); nra.
Qed.

Lemma near_part (x0 u c h M : R) : 0 <= c <= 1 -> Rabs u <= M -> Rabs (x0 + u * c * h - x0) <= M * Rabs h.
Proof.
  intros Hc Hu. replace (x0 + u * c * h - x0) with (u * c * h) by ring. rewrite !Rabs_mult.
  rewrite (Rabs_right c) by lra. pose proof (Rabs_pos u). pose proof (Rabs_pos h). 
  apply Rmult_le_compat_r; [assumption|]. nra.
Qed.

Ltac part := first [lra | nra].

(** The four velocities of a step in a total velocity field, as RK4 takes them. *)
Section Step2.
Variable vel : R -> R -> R -> R * R.
Variable p : apart.
Let t := a_time p. Let h := a_dt p. Let x0 := a_lon p. Let y0 := a_lat p.
Definition rk4_k1 := vel t y0 x0.
Definition rk4_k2 := vel (t + 1/2 * h) (y0 + snd rk4_k1 * (1/2) * h) (x0 + fst rk4_k1 * (1/2) * h).
Definition rk4_k3 := vel (t + 1/2 * h) (y0 + snd rk4_k2 * (1/2) * h) (x0 + fst rk4_k2 * (1/2) * h).
Definition rk4_k4 := vel (t + h) (y0 + snd rk4_k3 * h) (x0 + fst rk4_k3 * h).
End Step2.

Lemma near_full (x0 u h M : R) : Rabs u <= M -> Rabs (x0 + u * h - x0) <= M * Rabs h.
Proof. intros H. replace (x0 + u * h - x0) with (x0 + u * 1 * h - x0) by ring. apply near_part; [lra|exact H]. Qed.
Lemma near_zero (x0 h M : R) : 0 <= M -> Rabs (x0 - x0) <= M * Rabs h.
Proof. intros H. rewrite Rminus_eq_0, Rabs_R0. pose proof (Rabs_pos h). nra. Qed.

Lemma during_start p : during p (a_time p).
Proof. replace (a_time p) with (a_time p + 0 * a_dt p) by ring. apply during_part. lra. Qed.
Lemma during_half p : during p (a_time p + 1/2 * a_dt p).
Proof. apply during_part. lra. Qed.
Lemma during_end p : during p (a_time p + a_dt p).
Proof. replace (a_time p + a_dt p) with (a_time p + 1 * a_dt p) by ring. apply during_part. lra. Qed.

Lemma rk4_runs UV vel p M : field_is UV vel p M ->
  exists p', rk4 UV p = ADone p' /\
    moved_to p p'
      (a_lon p + (fst (rk4_k1 vel p) + 2 * fst (rk4_k2 vel p) + 2 * fst (rk4_k3 vel p) + fst (rk4_k4 vel p)) / 6 * a_dt p)
      (a_lat p + (snd (rk4_k1 vel p) + 2 * snd (rk4_k2 vel p) + 2 * snd (rk4_k3 vel p) + snd (rk4_k4 vel p)) / 6 * a_dt p)
      (a_depth p).
Proof.
  intros [M0 F].
  destruct (F (a_time p) (a_lat p) (a_lon p) (during_start p) (near_zero _ _ _ M0) (near_zero _ _ _ M0)) as (E1 & U1 & V1).
  change (vel (a_time p) (a_lat p) (a_lon p)) with (rk4_k1 vel p) in *.
  assert (Hh : 0 <= 1/2 <= 1) by lra.
  destruct (F (a_time p + 1/2 * a_dt p) (a_lat p + snd (rk4_k1 vel p) * (1/2) * a_dt p)
              (a_lon p + fst (rk4_k1 vel p) * (1/2) * a_dt p) (during_half p)
              (near_part _ _ _ _ _ Hh U1) (near_part _ _ _ _ _ Hh V1)) as (E2 & U2 & V2).
  change (vel (a_time p + 1/2 * a_dt p) (a_lat p + snd (rk4_k1 vel p) * (1/2) * a_dt p)
              (a_lon p + fst (rk4_k1 vel p) * (1/2) * a_dt p)) with (rk4_k2 vel p) in *.
  destruct (F (a_time p + 1/2 * a_dt p) (a_lat p + snd (rk4_k2 vel p) * (1/2) * a_dt p)
              (a_lon p + fst (rk4_k2 vel p) * (1/2) * a_dt p) (during_half p)
              (near_part _ _ _ _ _ Hh U2) (near_part _ _ _ _ _ Hh V2)) as (E3 & U3 & V3).
  change (vel (a_time p + 1/2 * a_dt p) (a_lat p + snd (rk4_k2 vel p) * (1/2) * a_dt p)
              (a_lon p + fst (rk4_k2 vel p) * (1/2) * a_dt p)) with (rk4_k3 vel p) in *.
  destruct (F (a_time p + a_dt p) (a_lat p + snd (rk4_k3 vel p) * a_dt p)
              (a_lon p + fst (rk4_k3 vel p) * a_dt p) (during_end p)
              (near_full _ _ _ _ U3) (near_full _ _ _ _ V3)) as (E4 & U4 & V4).
  change (vel (a_time p + a_dt p) (a_lat p + snd (rk4_k3 vel p) * a_dt p)
              (a_lon p + fst (rk4_k3 vel p) * a_dt p)) with (rk4_k4 vel p) in *.
  unfold rk4. rewrite E1. cbn [sampled].
  destruct (rk4_k1 vel p) as [u1 v1]. cbn [fst snd] in *. rewrite E2. cbn [sampled].
  destruct (rk4_k2 vel p) as [u2 v2]. cbn [fst snd] in *. rewrite E3. cbn [sampled].
  destruct (rk4_k3 vel p) as [u3 v3]. cbn [fst snd] in *. rewrite E4. cbn [sampled].
  destruct (rk4_k4 vel p) as [u4 v4]. cbn [fst snd].
  eexists. split; [reflexivity|]. repeat split.
Qed.

(** * Velocity that depends on time only *)

Fixpoint integ_from (k : nat) (cs : list R) (t : R) : R :=
  match cs with [] => 0 | c :: r => c * t ^ S k / INR (S k) + integ_from (S k) r t end.
Definition poly_from (k : nat) (cs : list R) (t : R) : R := t ^ k * poly cs t.

Lemma integ_deriv cs : forall k s, derivable_pt_lim (integ_from k cs) s (poly_from k cs s).
Proof.
  induction cs as [|c r IH]; intros k s; cbn [integ_from poly_from poly].
  - apply (deriv_eq _ _ 0); [unfold poly_from; cbn; ring|]. apply derivable_pt_lim_const.
  - apply (deriv_eq _ _ (c / INR (S k) * (INR (S k) * s ^ pred (S k)) + poly_from (S k) r s)).
    { unfold poly_from. cbn [poly pred pow]. field. apply not_0_INR. lia. }
    apply (deriv_ext (fun t => c / INR (S k) * t ^ S k + integ_from (S k) r t)).
    { intros t. unfold Rdiv. ring. }
    apply (derivable_pt_lim_plus (fun t => c / INR (S k) * t ^ S k) (integ_from (S k) r)); [|apply IH].
    apply (derivable_pt_lim_scal (fun t => t ^ S k)). apply derivable_pt_lim_pow.
Qed.

Lemma poly_integral cs (x : R -> R) a b :
  (forall s, btw a b s -> derivable_pt_lim x s (poly cs s)) ->
  x b = x a + (integ_from 0 cs b - integ_from 0 cs a).
Proof.
  intros H.
  assert (E : x b - integ_from 0 cs b = x a - integ_from 0 cs a).
  { apply (constant_of_zero (fun s => x s - integ_from 0 cs s) a b). intros s Hs.
    apply (deriv_eq _ _ (poly cs s - poly_from 0 cs s)); [unfold poly_from; cbn; ring|].
    apply (derivable_pt_lim_minus x (integ_from 0 cs)); [apply H; exact Hs|apply integ_deriv]. }
  lra.
Qed.

Lemma simpson cs t h : (length cs <= 4)%nat ->
  (poly cs t + 2 * poly cs (t + 1/2 * h) + 2 * poly cs (t + 1/2 * h) + poly cs (t + h)) / 6 * h
  = integ_from 0 cs (t + h) - integ_from 0 cs t.
Proof.
  intros L. destruct cs as [|c0 [|c1 [|c2 [|c3 [|c4 r]]]]]; cbn [length] in L; try lia;
    cbn [poly integ_from]; cbn [INR]; field.
Qed.

Lemma rk4_time UV p M cu cv x y :
  (length cu <= 4)%nat -> (length cv <= 4)%nat ->
  field_is UV (fun t _ _ => (poly cu t, poly cv t)) p M ->
  path (fun t _ _ => (poly cu t, poly cv t)) p x y ->
  exists p', rk4 UV p = ADone p' /\ moved_to p p' (x (a_time p + a_dt p)) (y (a_time p + a_dt p)) (a_depth p).
Proof.
  intros Lu Lv F (X0 & Y0 & D). destruct (rk4_runs _ _ _ _ F) as (p' & E & Mv). exists p'. split; [exact E|].
  rewrite (poly_integral cu x (a_time p) (a_time p + a_dt p)) by (intros s Hs; apply (D s Hs)).
  rewrite (poly_integral cv y (a_time p) (a_time p + a_dt p)) by (intros s Hs; apply (D s Hs)).
  rewrite X0, Y0, <- (simpson cu) by exact Lu. rewrite <- (simpson cv) by exact Lv. exact Mv.
Qed.

Lemma ee_constant UV p u v x y :
  UV (a_time p) (a_depth p) (a_lat p) (a_lon p) = Some (u, v) ->
  path (fun _ _ _ => (u, v)) p x y ->
  exists p', ee UV p = ADone p' /\ moved_to p p' (x (a_time p + a_dt p)) (y (a_time p + a_dt p)) (a_depth p).
Proof.
  intros S (X0 & Y0 & D). unfold ee. rewrite S. cbn [sampled]. eexists. split; [reflexivity|].
  rewrite (poly_integral [u] x (a_time p) (a_time p + a_dt p)).
  2:{ intros s Hs. apply (deriv_eq _ _ u); [cbn; ring|]. apply (D s Hs). }
  rewrite (poly_integral [v] y (a_time p) (a_time p + a_dt p)).
  2:{ intros s Hs. apply (deriv_eq _ _ v); [cbn; ring|]. apply (D s Hs). }
  rewrite X0, Y0. unfold moved_to, move. cbn [a_lon a_lat a_depth a_time a_dt a_next integ_from INR].
  repeat split; field.
Qed.

(** Error of a step of the Euler method: half the square of the step times the acceleration of the parcel. *)
Lemma ee_error UV vel p x y ax ay :
  UV (a_time p) (a_depth p) (a_lat p) (a_lon p) = Some (vel (a_time p) (a_lat p) (a_lon p)) ->
  path vel p x y ->
  (forall s, during p s -> derivable_pt_lim (fun r => fst (vel r (y r) (x r))) s (ax s) /\
                           derivable_pt_lim (fun r => snd (vel r (y r) (x r))) s (ay s)) ->
  exists p' s1 s2, ee UV p = ADone p' /\ during p s1 /\ during p s2 /\
    moved_to p p' (x (a_time p + a_dt p) - a_dt p ^ 2 / 2 * ax s1)
                  (y (a_time p + a_dt p) - a_dt p ^ 2 / 2 * ay s2) (a_depth p).
Proof.
  intros S (X0 & Y0 & D) A. set (t := a_time p) in *. set (h := a_dt p) in *.
  assert (TX : exists c, btw t (t + h) c /\ x (t + h) = a_lon p + h * fst (vel t (a_lat p) (a_lon p)) + h ^ 2 / 2 * ax c).
  { destruct (taylor_seq (fun k s => match k with O => x s | 1%nat => fst (vel s (y s) (x s)) | _ => ax s end) t (t + h) 1) as (c & B & E).
    { intros k s Hk Hs. destruct k as [|[|k]]; [apply (D s Hs)|apply (A s Hs)|lia]. }
    exists c. split; [exact B|]. rewrite E. unfold taylor. cbn [sum_f_R0 fact]. rewrite X0, Y0. cbn. field. }
  assert (TY : exists c, btw t (t + h) c /\ y (t + h) = a_lat p + h * snd (vel t (a_lat p) (a_lon p)) + h ^ 2 / 2 * ay c).
  { destruct (taylor_seq (fun k s => match k with O => y s | 1%nat => snd (vel s (y s) (x s)) | _ => ay s end) t (t + h) 1) as (c & B & E).
    { intros k s Hk Hs. destruct k as [|[|k]]; [apply (D s Hs)|apply (A s Hs)|lia]. }
    exists c. split; [exact B|]. rewrite E. unfold taylor. cbn [sum_f_R0 fact]. rewrite X0, Y0. cbn. field. }
  destruct TX as (c1 & B1 & E1), TY as (c2 & B2 & E2).
  unfold ee. change (a_time p) with t. rewrite S. cbn [sampled]. destruct (vel t (a_lat p) (a_lon p)) as [u v]. cbn [fst snd] in *.
  eexists; exists c1, c2. split; [reflexivity|]. split; [exact B1|]. split; [exact B2|].
  rewrite E1, E2. unfold moved_to, move. cbn [a_lon a_lat a_depth a_time a_dt a_next]. fold h.
  repeat split; field.
Qed.
