(** Proofs about the advection kernels: linear velocity fields, vertical velocity. *)
From Coq Require Import Reals List Lra Lia Psatz.
From Verif Require Import AdvModel AdvSpec AdvProofs.
Import ListNotations.
Open Scope R_scope.

Lemma deriv_comb (f g : R -> R) s f' g' a b e :
  derivable_pt_lim f s f' -> derivable_pt_lim g s g' ->
  derivable_pt_lim (fun r => a * f r + b * g r + e) s (a * f' + b * g').
Proof.
  intros F G. apply (deriv_eq _ _ ((a * f' + b * g') + 0)); [ring|].
  apply (derivable_pt_lim_plus (fun r => a * f r + b * g r) (fun _ => e)); [|apply derivable_pt_lim_const].
  apply (derivable_pt_lim_plus (fun r => a * f r) (fun r => b * g r));
    apply (derivable_pt_lim_scal); assumption.
Qed.

Lemma lin_SS L k x y : lin_deriv L (S (S k)) x y =
  (l_a L * fst (lin_deriv L (S k) x y) + l_b L * snd (lin_deriv L (S k) x y),
   l_c L * fst (lin_deriv L (S k) x y) + l_d L * snd (lin_deriv L (S k) x y)).
Proof. cbn [lin_deriv]. destruct (match k with O => _ | S _ => _ end). reflexivity. Qed.

Lemma lin_derives L p x y : path (lin_vel L) p x y ->
  forall k s, during p s ->
    derivable_pt_lim (fun r => fst (lin_deriv L k (x r) (y r))) s (fst (lin_deriv L (S k) (x s) (y s))) /\
    derivable_pt_lim (fun r => snd (lin_deriv L k (x r) (y r))) s (snd (lin_deriv L (S k) (x s) (y s))).
Proof.
  intros (_ & _ & D). intros k. induction k as [|[|k] IH]; intros s Hs.
  - exact (D s Hs).
  - destruct (D s Hs) as [DX DY]. rewrite lin_SS. cbn [fst snd].
    split; [apply (deriv_comb x y s _ _ (l_a L) (l_b L) (l_e L) DX DY)|apply (deriv_comb x y s _ _ (l_c L) (l_d L) (l_f L) DX DY)].
  - destruct (IH s Hs) as [DX DY]. rewrite (lin_SS L (S k)). cbn [fst snd]. split.
    + eapply deriv_ext; [|apply (deriv_comb _ _ s _ _ (l_a L) (l_b L) 0 DX DY)].
      intros r. cbv beta. rewrite (lin_SS L k). cbn [fst]. ring.
    + eapply deriv_ext; [|apply (deriv_comb _ _ s _ _ (l_c L) (l_d L) 0 DX DY)].
      intros r. cbv beta. rewrite (lin_SS L k). cbn [snd]. ring.
Qed.

Lemma lin_taylor L p x y n : path (lin_vel L) p x y ->
  (exists s, during p s /\ x (a_time p + a_dt p) =
     taylor n (a_dt p) (fun k => fst (lin_deriv L k (a_lon p) (a_lat p)))
     + a_dt p ^ S n / INR (fact (S n)) * fst (lin_deriv L (S n) (x s) (y s))) /\
  (exists s, during p s /\ y (a_time p + a_dt p) =
     taylor n (a_dt p) (fun k => snd (lin_deriv L k (a_lon p) (a_lat p)))
     + a_dt p ^ S n / INR (fact (S n)) * snd (lin_deriv L (S n) (x s) (y s))).
Proof.
  intros P. pose proof (lin_derives L p x y P) as D. destruct P as (X0 & Y0 & _). split.
  - destruct (taylor_seq (fun k s => fst (lin_deriv L k (x s) (y s))) (a_time p) (a_time p + a_dt p) n) as (c & B & E).
    { intros k s _ Hs. apply (D k s Hs). }
    exists c. split; [exact B|]. cbv beta in E. rewrite X0, Y0 in E.
    replace (a_time p + a_dt p - a_time p) with (a_dt p) in E by ring. exact E.
  - destruct (taylor_seq (fun k s => snd (lin_deriv L k (x s) (y s))) (a_time p) (a_time p + a_dt p) n) as (c & B & E).
    { intros k s _ Hs. apply (D k s Hs). }
    exists c. split; [exact B|]. cbv beta in E. rewrite X0, Y0 in E.
    replace (a_time p + a_dt p - a_time p) with (a_dt p) in E by ring. exact E.
Qed.

Lemma rk4_lin L p :
  (a_lon p + (fst (rk4_k1 (lin_vel L) p) + 2 * fst (rk4_k2 (lin_vel L) p) + 2 * fst (rk4_k3 (lin_vel L) p)
              + fst (rk4_k4 (lin_vel L) p)) / 6 * a_dt p
   = taylor 4 (a_dt p) (fun k => fst (lin_deriv L k (a_lon p) (a_lat p)))) /\
  (a_lat p + (snd (rk4_k1 (lin_vel L) p) + 2 * snd (rk4_k2 (lin_vel L) p) + 2 * snd (rk4_k3 (lin_vel L) p)
              + snd (rk4_k4 (lin_vel L) p)) / 6 * a_dt p
   = taylor 4 (a_dt p) (fun k => snd (lin_deriv L k (a_lon p) (a_lat p)))).
Proof.
  unfold rk4_k4, rk4_k3, rk4_k2, rk4_k1, lin_vel, taylor. cbn [fst snd sum_f_R0 fact Nat.add Nat.mul lin_deriv INR].
  split; field.
Qed.

Lemma rk4_linear UV L p M : field_is UV (lin_vel L) p M ->
  exists p', rk4 UV p = ADone p' /\
    moved_to p p' (taylor 4 (a_dt p) (fun k => fst (lin_deriv L k (a_lon p) (a_lat p))))
                  (taylor 4 (a_dt p) (fun k => snd (lin_deriv L k (a_lon p) (a_lat p)))) (a_depth p).
Proof.
  intros F. destruct (rk4_runs _ _ _ _ F) as (p' & E & Mv). exists p'. split; [exact E|].
  destruct (rk4_lin L p) as [EX EY]. rewrite EX, EY in Mv. exact Mv.
Qed.

Lemma rk4_linear_err UV L p M x y : field_is UV (lin_vel L) p M -> path (lin_vel L) p x y ->
  exists p' s1 s2, rk4 UV p = ADone p' /\ during p s1 /\ during p s2 /\
    moved_to p p' (x (a_time p + a_dt p) - a_dt p ^ 5 / 120 * fst (lin_deriv L 5 (x s1) (y s1)))
                  (y (a_time p + a_dt p) - a_dt p ^ 5 / 120 * snd (lin_deriv L 5 (x s2) (y s2))) (a_depth p).
Proof.
  intros F P. destruct (rk4_linear _ _ _ _ F) as (p' & E & Mv).
  destruct (lin_taylor L p x y 4 P) as [(s1 & B1 & X) (s2 & B2 & Y)].
  assert (F5 : INR (fact 5) = 120) by (cbn; ring).
  rewrite F5 in X, Y.
  exists p', s1, s2. split; [exact E|]. split; [exact B1|]. split; [exact B2|].
  replace (x (a_time p + a_dt p) - a_dt p ^ 5 / 120 * fst (lin_deriv L 5 (x s1) (y s1)))
    with (taylor 4 (a_dt p) (fun k => fst (lin_deriv L k (a_lon p) (a_lat p)))) by lra.
  replace (y (a_time p + a_dt p) - a_dt p ^ 5 / 120 * snd (lin_deriv L 5 (x s2) (y s2)))
    with (taylor 4 (a_dt p) (fun k => snd (lin_deriv L k (a_lon p) (a_lat p)))) by lra.
  exact Mv.
Qed.

(** * With a vertical velocity *)

Section Step3.
Variable vel : R -> R -> R -> R -> R * R * R.
Variable p : apart.
Let t := a_time p. Let h := a_dt p. Let x0 := a_lon p. Let y0 := a_lat p. Let z0 := a_depth p.
Let at_ s c (k : R * R * R) := vel s (z0 + snd k * c * h) (y0 + snd (fst k) * c * h) (x0 + fst (fst k) * c * h).
Definition rk3_k1 := vel t z0 y0 x0.
Definition rk3_k2 := at_ (t + 1/2 * h) (1/2) rk3_k1.
Definition rk3_k3 := at_ (t + 1/2 * h) (1/2) rk3_k2.
Definition rk3_k4 := vel (t + h) (z0 + snd rk3_k3 * h) (y0 + snd (fst rk3_k3) * h) (x0 + fst (fst rk3_k3) * h).
End Step3.

Definition wsum (a b c d : R) (h : R) : R := (a + 2 * b + 2 * c + d) / 6 * h.

Lemma rk3_runs UVW vel p M : field3_is UVW vel p M ->
  exists p', rk4_3d UVW p = ADone p' /\
    moved_to p p'
      (a_lon p + wsum (fst (fst (rk3_k1 vel p))) (fst (fst (rk3_k2 vel p))) (fst (fst (rk3_k3 vel p))) (fst (fst (rk3_k4 vel p))) (a_dt p))
      (a_lat p + wsum (snd (fst (rk3_k1 vel p))) (snd (fst (rk3_k2 vel p))) (snd (fst (rk3_k3 vel p))) (snd (fst (rk3_k4 vel p))) (a_dt p))
      (a_depth p + wsum (snd (rk3_k1 vel p)) (snd (rk3_k2 vel p)) (snd (rk3_k3 vel p)) (snd (rk3_k4 vel p)) (a_dt p)).
Proof.
  intros [M0 F]. assert (Hh : 0 <= 1/2 <= 1) by lra.
  destruct (F (a_time p) (a_depth p) (a_lat p) (a_lon p) (during_start p) (near_zero _ _ _ M0) (near_zero _ _ _ M0)
              (near_zero _ _ _ M0)) as (E1 & U1 & V1 & W1).
  change (vel (a_time p) (a_depth p) (a_lat p) (a_lon p)) with (rk3_k1 vel p) in *.
  pose proof (F _ _ _ _ (during_half p) (near_part _ _ _ _ _ Hh U1) (near_part _ _ _ _ _ Hh V1) (near_part _ _ _ _ _ Hh W1))
    as (E2 & U2 & V2 & W2).
  change (vel _ (a_depth p + snd (rk3_k1 vel p) * (1/2) * a_dt p) _ _) with (rk3_k2 vel p) in *.
  pose proof (F _ _ _ _ (during_half p) (near_part _ _ _ _ _ Hh U2) (near_part _ _ _ _ _ Hh V2) (near_part _ _ _ _ _ Hh W2))
    as (E3 & U3 & V3 & W3).
  change (vel _ (a_depth p + snd (rk3_k2 vel p) * (1/2) * a_dt p) _ _) with (rk3_k3 vel p) in *.
  pose proof (F _ _ _ _ (during_end p) (near_full _ _ _ _ U3) (near_full _ _ _ _ V3) (near_full _ _ _ _ W3))
    as (E4 & U4 & V4 & W4).
  change (vel _ (a_depth p + snd (rk3_k3 vel p) * a_dt p) _ _) with (rk3_k4 vel p) in *.
  unfold rk4_3d. rewrite E1. cbn [sampled].
  destruct (rk3_k1 vel p) as [[u1 v1] w1]. cbn [fst snd] in *. rewrite E2. cbn [sampled].
  destruct (rk3_k2 vel p) as [[u2 v2] w2]. cbn [fst snd] in *. rewrite E3. cbn [sampled].
  destruct (rk3_k3 vel p) as [[u3 v3] w3]. cbn [fst snd] in *. rewrite E4. cbn [sampled].
  destruct (rk3_k4 vel p) as [[u4 v4] w4]. cbn [fst snd].
  eexists. split; [reflexivity|]. repeat split.
Qed.

Lemma rk3_time UVW p M cu cv cw x y z :
  (length cu <= 4)%nat -> (length cv <= 4)%nat -> (length cw <= 4)%nat ->
  field3_is UVW (fun t _ _ _ => (poly cu t, poly cv t, poly cw t)) p M ->
  path3 (fun t _ _ _ => (poly cu t, poly cv t, poly cw t)) p x y z ->
  exists p', rk4_3d UVW p = ADone p' /\
    moved_to p p' (x (a_time p + a_dt p)) (y (a_time p + a_dt p)) (z (a_time p + a_dt p)).
Proof.
  intros Lu Lv Lw F (X0 & Y0 & Z0 & D). destruct (rk3_runs _ _ _ _ F) as (p' & E & Mv). exists p'. split; [exact E|].
  rewrite (poly_integral cu x (a_time p) (a_time p + a_dt p)) by (intros s Hs; apply (D s Hs)).
  rewrite (poly_integral cv y (a_time p) (a_time p + a_dt p)) by (intros s Hs; apply (D s Hs)).
  rewrite (poly_integral cw z (a_time p) (a_time p + a_dt p)) by (intros s Hs; apply (D s Hs)).
  rewrite X0, Y0, Z0, <- (simpson cu) by exact Lu. rewrite <- (simpson cv) by exact Lv.
  rewrite <- (simpson cw) by exact Lw. exact Mv.
Qed.

Lemma lin3_SS L k x y z : lin3_deriv L (S (S k)) x y z =
  (let d := lin3_deriv L (S k) x y z in
   (row3 (m_x L) (fst (fst d)) (snd (fst d)) (snd d), row3 (m_y L) (fst (fst d)) (snd (fst d)) (snd d),
    row3 (m_z L) (fst (fst d)) (snd (fst d)) (snd d))).
Proof. cbn [lin3_deriv]. destruct (match k with O => _ | S _ => _ end) as [[u v] w]. reflexivity. Qed.

Lemma deriv_row (r : R * R * R * R) (f g q : R -> R) s f' g' q' e :
  derivable_pt_lim f s f' -> derivable_pt_lim g s g' -> derivable_pt_lim q s q' ->
  derivable_pt_lim (fun t => row3 r (f t) (g t) (q t) + e) s (row3 r f' g' q').
Proof.
  intros F G Q. destruct r as [[[a b] c] k]. cbn [row3].
  apply (deriv_eq _ _ ((a * f' + b * g') + (c * q' + 0 * f'))); [ring|].
  apply (deriv_ext (fun t => (a * f t + b * g t + 0) + (c * q t + 0 * f t + e))); [intros t; ring|].
  apply (derivable_pt_lim_plus (fun t => a * f t + b * g t + 0) (fun t => c * q t + 0 * f t + e)); apply deriv_comb; assumption.
Qed.

Lemma lin3_derives L p x y z : path3 (lin3_vel L) p x y z ->
  forall k s, during p s ->
    derivable_pt_lim (fun r => fst (fst (lin3_deriv L k (x r) (y r) (z r)))) s (fst (fst (lin3_deriv L (S k) (x s) (y s) (z s)))) /\
    derivable_pt_lim (fun r => snd (fst (lin3_deriv L k (x r) (y r) (z r)))) s (snd (fst (lin3_deriv L (S k) (x s) (y s) (z s)))) /\
    derivable_pt_lim (fun r => snd (lin3_deriv L k (x r) (y r) (z r))) s (snd (lin3_deriv L (S k) (x s) (y s) (z s))).
Proof.
  intros (_ & _ & _ & D). intros k. induction k as [|[|k] IH]; intros s Hs.
  - exact (D s Hs).
  - destruct (D s Hs) as (DX & DY & DZ). rewrite lin3_SS. cbv zeta. cbn [fst snd].
    split; [|split]; apply (deriv_row _ x y z); assumption.
  - destruct (IH s Hs) as (DX & DY & DZ). rewrite (lin3_SS L (S k)). cbv zeta. cbn [fst snd]. split; [|split].
    + eapply deriv_ext; [|apply (deriv_row (m_x L) _ _ _ s _ _ _ 0 DX DY DZ)].
      intros r. cbv beta. rewrite (lin3_SS L k). cbv zeta. cbn [fst snd]. ring.
    + eapply deriv_ext; [|apply (deriv_row (m_y L) _ _ _ s _ _ _ 0 DX DY DZ)].
      intros r. cbv beta. rewrite (lin3_SS L k). cbv zeta. cbn [fst snd]. ring.
    + eapply deriv_ext; [|apply (deriv_row (m_z L) _ _ _ s _ _ _ 0 DX DY DZ)].
      intros r. cbv beta. rewrite (lin3_SS L k). cbv zeta. cbn [fst snd]. ring.
Qed.

Lemma rk3_lin L p : let d k := lin3_deriv L k (a_lon p) (a_lat p) (a_depth p) in
  let k1 := rk3_k1 (lin3_vel L) p in let k2 := rk3_k2 (lin3_vel L) p in
  let k3 := rk3_k3 (lin3_vel L) p in let k4 := rk3_k4 (lin3_vel L) p in
  (a_lon p + wsum (fst (fst k1)) (fst (fst k2)) (fst (fst k3)) (fst (fst k4)) (a_dt p) = taylor 4 (a_dt p) (fun k => fst (fst (d k)))) /\
  (a_lat p + wsum (snd (fst k1)) (snd (fst k2)) (snd (fst k3)) (snd (fst k4)) (a_dt p) = taylor 4 (a_dt p) (fun k => snd (fst (d k)))) /\
  (a_depth p + wsum (snd k1) (snd k2) (snd k3) (snd k4) (a_dt p) = taylor 4 (a_dt p) (fun k => snd (d k))).
Proof.
  cbv zeta. unfold rk3_k4, rk3_k3, rk3_k2, rk3_k1, lin3_vel, taylor, wsum.
  destruct L as [mx my mz]. destruct mx as [[[a1 a2] a3] a4], my as [[[b1 b2] b3] b4], mz as [[[c1 c2] c3] c4].
  cbn [fst snd sum_f_R0 fact Nat.add Nat.mul lin3_deriv INR lin3_vel m_x m_y m_z row3 cst3].
  split; [|split]; field.
Qed.

Lemma rk3_linear_err UVW L p M x y z : field3_is UVW (lin3_vel L) p M -> path3 (lin3_vel L) p x y z ->
  let d k s := lin3_deriv L k (x s) (y s) (z s) in
  exists p' s1 s2 s3, rk4_3d UVW p = ADone p' /\ during p s1 /\ during p s2 /\ during p s3 /\
    moved_to p p' (taylor 4 (a_dt p) (fun k => fst (fst (d k (a_time p)))))
                  (taylor 4 (a_dt p) (fun k => snd (fst (d k (a_time p)))))
                  (taylor 4 (a_dt p) (fun k => snd (d k (a_time p)))) /\
    moved_to p p' (x (a_time p + a_dt p) - a_dt p ^ 5 / 120 * fst (fst (d 5%nat s1)))
                  (y (a_time p + a_dt p) - a_dt p ^ 5 / 120 * snd (fst (d 5%nat s2)))
                  (z (a_time p + a_dt p) - a_dt p ^ 5 / 120 * snd (d 5%nat s3)).
Proof.
  intros F P d. destruct (rk3_runs _ _ _ _ F) as (p' & E & Mv).
  destruct (rk3_lin L p) as (EX & EY & EZ). cbv zeta in EX, EY, EZ. rewrite EX, EY, EZ in Mv. clear EX EY EZ.
  pose proof (lin3_derives L p x y z P) as D. destruct P as (X0 & Y0 & Z0 & _).
  assert (F5 : INR (fact 5) = 120) by (cbn; ring).
  assert (T : a_time p + a_dt p - a_time p = a_dt p) by ring.
  destruct (taylor_seq (fun k s => fst (fst (d k s))) (a_time p) (a_time p + a_dt p) 4) as (s1 & B1 & X).
  { intros k s _ Hs. apply (D k s Hs). }
  destruct (taylor_seq (fun k s => snd (fst (d k s))) (a_time p) (a_time p + a_dt p) 4) as (s2 & B2 & Y).
  { intros k s _ Hs. apply (D k s Hs). }
  destruct (taylor_seq (fun k s => snd (d k s)) (a_time p) (a_time p + a_dt p) 4) as (s3 & B3 & Z).
  { intros k s _ Hs. apply (D k s Hs). }
  rewrite F5, T in X, Y, Z. change (d 0%nat (a_time p + a_dt p)) with (x (a_time p + a_dt p), y (a_time p + a_dt p), z (a_time p + a_dt p)) in X, Y, Z.
  cbn [fst snd] in X, Y, Z.
  assert (Mv' : moved_to p p' (taylor 4 (a_dt p) (fun k => fst (fst (d k (a_time p)))))
                  (taylor 4 (a_dt p) (fun k => snd (fst (d k (a_time p)))))
                  (taylor 4 (a_dt p) (fun k => snd (d k (a_time p))))).
  { unfold d. rewrite X0, Y0, Z0. exact Mv. }
  exists p', s1, s2, s3. split; [exact E|]. split; [exact B1|]. split; [exact B2|]. split; [exact B3|]. split; [exact Mv'|].
  rewrite X, Y, Z.
  match goal with |- moved_to _ _ (?a + ?b - ?c) (?a' + ?b' - ?c') (?a'' + ?b'' - ?c'') =>
    replace (a + b - c) with a by ring; replace (a' + b' - c') with a' by ring; replace (a'' + b'' - c'') with a'' by ring end.
  exact Mv'.
Qed.
