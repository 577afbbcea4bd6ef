(** Proofs for C47: one direction. *)
From Coq Require Import Reals ZArith List Lra Lia Bool.
From Verif Require Import UnitModel UnitSpec CGridModel CGridSpec CGridProofs AdvModel AnaModel AnaSpec.
Import ListNotations.
Open Scope R_scope.

Lemma tol_pos : 0 < tol.
Proof. unfold tol. lra. Qed.
Lemma pow2_gt_0 x : x <> 0 -> 0 < x ^ 2.
Proof. intros H. rewrite <- Rsqr_pow2. apply Rsqr_pos_lt. exact H. Qed.

(** (1 - exp (-b x)) / b is not negative for x >= 0. *)
Lemma decay_sign b x : b <> 0 -> 0 <= x -> 0 <= (1 - exp (- b * x)) / b.
Proof.
  intros B X. destruct (Rtotal_order b 0) as [L|[E|G]]; [|contradiction|].
  - replace ((1 - exp (- b * x)) / b) with ((exp (- b * x) - 1) / (- b)) by (field; lra).
    apply Rmult_le_pos; [|left; apply Rinv_0_lt_compat; lra]. assert (H : 1 <= exp (- b * x)); [|lra].
    rewrite <- exp_0. destruct (Req_dec (- b * x) 0) as [E|N]; [rewrite E; right; reflexivity|]. left. apply exp_increasing. nra.
  - apply Rmult_le_pos; [|left; apply Rinv_0_lt_compat; lra]. assert (H : exp (- b * x) <= 1); [|lra].
    rewrite <- exp_0. destruct (Req_dec (- b * x) 0) as [E|N]; [rewrite E; right; reflexivity|]. left. apply exp_increasing. nra.
Qed.
(** and strictly increasing. *)
Lemma decay_pos b x : b <> 0 -> 0 < x -> 0 < (1 - exp (- b * x)) / b.
Proof.
  intros B X. destruct (Rtotal_order b 0) as [L|[E|G]]; [|contradiction|].
  - replace ((1 - exp (- b * x)) / b) with ((exp (- b * x) - 1) / (- b)) by (field; lra).
    apply Rmult_lt_0_compat; [|apply Rinv_0_lt_compat; lra]. assert (H : 1 < exp (- b * x)); [|lra].
    rewrite <- exp_0. apply exp_increasing. nra.
  - apply Rmult_lt_0_compat; [|apply Rinv_0_lt_compat; lra]. assert (H : exp (- b * x) < 1); [|lra].
    rewrite <- exp_0. apply exp_increasing. nra.
Qed.

(** The solution. *)
Definition sol (F0 F1 r s : R) : R :=
  if Req_EM_T F0 F1 then r + F0 * s else r + flow_at F0 F1 r * ((1 - exp (- (F0 - F1) * s)) / (F0 - F1)).

Lemma sol_0 F0 F1 r : sol F0 F1 r 0 = r.
Proof. unfold sol. destruct (Req_EM_T F0 F1); [ring|]. rewrite Rmult_0_r, exp_0. field. lra. Qed.

Lemma sol_flow F0 F1 r s : flow_at F0 F1 (sol F0 F1 r s) = flow_at F0 F1 r * exp (- (F0 - F1) * s).
Proof.
  unfold sol, flow_at. destruct (Req_EM_T F0 F1) as [E|N].
  - subst F1. replace (- (F0 - F0) * s) with 0 by ring. rewrite exp_0. ring.
  - field. lra.
Qed.

Lemma sol_deriv F0 F1 r s : derivable_pt_lim (sol F0 F1 r) s (flow_at F0 F1 (sol F0 F1 r s)).
Proof.
  rewrite sol_flow. unfold sol. destruct (Req_EM_T F0 F1) as [E|N].
  - subst F1. replace (flow_at F0 F0 r * exp (- (F0 - F0) * s)) with (0 + F0 * 1)
      by (unfold flow_at; replace (- (F0 - F0) * s) with 0 by ring; rewrite exp_0; ring).
    apply derivable_pt_lim_plus; [apply derivable_pt_lim_const|]. apply derivable_pt_lim_scal, derivable_pt_lim_id.
  - assert (D : derivable_pt_lim (fun x => exp (- (F0 - F1) * x)) s (exp (- (F0 - F1) * s) * (- (F0 - F1) * 1))).
    { apply (derivable_pt_lim_comp (fun x => - (F0 - F1) * x) exp).
      - apply derivable_pt_lim_scal, derivable_pt_lim_id.
      - apply derivable_pt_lim_exp. }
    set (c := flow_at F0 F1 r). set (b := F0 - F1) in *.
    replace (c * exp (- b * s)) with (0 + (c / b) * (0 - exp (- b * s) * (- b * 1))) by (unfold b; field; lra).
    assert (D2 : derivable_pt_lim (fun x => r + (c / b) * (1 - exp (- b * x))) s (0 + (c / b) * (0 - exp (- b * s) * (- b * 1)))).
    { apply derivable_pt_lim_plus; [apply derivable_pt_lim_const|].
      apply (derivable_pt_lim_scal (fun x => 1 - exp (- b * x))).
      apply (derivable_pt_lim_minus (fun _ => 1)); [apply derivable_pt_lim_const|exact D]. }
    intros eps He. destruct (D2 eps He) as [d Hd]. exists d. intros h Hh Hl. specialize (Hd h Hh Hl).
    replace (r + c * ((1 - exp (- b * (s + h))) / b)) with (r + c / b * (1 - exp (- b * (s + h)))) by (unfold b; field; lra).
    replace (r + c * ((1 - exp (- b * s)) / b)) with (r + c / b * (1 - exp (- b * s))) by (unfold b; field; lra).
    exact Hd.
Qed.

(** It moves one way. *)
Lemma sol_mono F0 F1 r s s' : s <= s' ->
  (0 <= flow_at F0 F1 r -> sol F0 F1 r s <= sol F0 F1 r s') /\ (flow_at F0 F1 r <= 0 -> sol F0 F1 r s' <= sol F0 F1 r s).
Proof.
  intros L. unfold sol. destruct (Req_EM_T F0 F1) as [E|N].
  - subst F1. replace (flow_at F0 F0 r) with F0 by (unfold flow_at; ring). split; intros; nra.
  - set (b := F0 - F1). assert (B : b <> 0) by (unfold b; lra). set (c := flow_at F0 F1 r).
    assert (X : 0 <= (1 - exp (- b * s')) / b - (1 - exp (- b * s)) / b).
    { replace ((1 - exp (- b * s')) / b - (1 - exp (- b * s)) / b) with (exp (- b * s) * ((1 - exp (- b * (s' - s))) / b)).
      - apply Rmult_le_pos; [left; apply exp_pos|apply decay_sign; lra].
      - replace (- b * (s' - s)) with (- b * s' + - (- b * s)) by ring. rewrite exp_plus, exp_Ropp. field. split; [exact B|].
        apply Rgt_not_eq, exp_pos. }
    split; intros; nra.
Qed.
Lemma sol_strict F0 F1 r s s' : s < s' ->
  (0 < flow_at F0 F1 r -> sol F0 F1 r s < sol F0 F1 r s') /\ (flow_at F0 F1 r < 0 -> sol F0 F1 r s' < sol F0 F1 r s).
Proof.
  intros L. unfold sol. destruct (Req_EM_T F0 F1) as [E|N].
  - subst F1. replace (flow_at F0 F0 r) with F0 by (unfold flow_at; ring). split; intros; nra.
  - set (b := F0 - F1). assert (B : b <> 0) by (unfold b; lra). set (c := flow_at F0 F1 r).
    assert (X : 0 < (1 - exp (- b * s')) / b - (1 - exp (- b * s)) / b).
    { replace ((1 - exp (- b * s')) / b - (1 - exp (- b * s)) / b) with (exp (- b * s) * ((1 - exp (- b * (s' - s))) / b)).
      - apply Rmult_lt_0_compat; [apply exp_pos|apply decay_pos; lra].
      - replace (- b * (s' - s)) with (- b * s' + - (- b * s)) by ring. rewrite exp_plus, exp_Ropp. field. split; [exact B|].
        apply Rgt_not_eq, exp_pos. }
    split; intros; nra.
Qed.

(** The formulas of the kernel. *)
Definition B_of (F0 F1 : R) : R := if Rlt_dec (Rabs (F0 - F1)) tol then 0 else F0 - F1.
Lemma rs_is F0 F1 r s : F0 = F1 \/ tol < Rabs (F0 - F1) -> compute_rs r (B_of F0 F1) (- F0) s = sol F0 F1 r s.
Proof.
  pose proof tol_pos as T. intros H. unfold compute_rs, B_of, sol. destruct (Req_EM_T F0 F1) as [E|N].
  - subst F1. replace (F0 - F0) with 0 by ring. rewrite Rabs_R0. destruct (Rlt_dec 0 tol); [|lra].
    rewrite Rabs_R0. destruct (Rlt_dec 0 tol); [|lra]. ring.
  - destruct H as [E|H]; [contradiction|]. destruct (Rlt_dec (Rabs (F0 - F1)) tol); [lra|].
    destruct (Rlt_dec (Rabs (F0 - F1)) tol); [lra|]. unfold flow_at. field. lra.
Qed.

(** One direction of the kernel, forward. *)
Lemma one_direction F0 F1 r : clear F0 F1 r ->
  exists ds, compute_ds F0 F1 r 1 = Some (ds, B_of F0 F1, - F0) /\
    match ds with
    | None => forall s, 0 <= s -> 0 <= sol F0 F1 r s <= 1
    | Some d => 0 < d /\ (forall s, 0 <= s <= d -> 0 <= sol F0 F1 r s <= 1) /\ (sol F0 F1 r d = 0 \/ sol F0 F1 r d = 1)
    end.
Proof.
  pose proof tol_pos as T. intros (Hr & C). unfold compute_ds. fold (B_of F0 F1).
  replace (1 * (F0 * (1 - r) + F1 * r)) with (flow_at F0 F1 r) by (unfold flow_at; ring).
  fold (heading F0 F1 r). set (h := heading F0 F1 r) in *.
  assert (Hh : (0 <= flow_at F0 F1 r /\ h = 1) \/ (flow_at F0 F1 r < 0 /\ h = 0)).
  { unfold h, heading. destruct (Rle_dec 0 (flow_at F0 F1 r)); [left|right]; split; lra. }
  destruct C as [(E & C)|(N & C)].
  - subst F1. assert (BB : B_of F0 F0 = 0).
    { unfold B_of. replace (F0 - F0) with 0 by ring. rewrite Rabs_R0. destruct (Rlt_dec 0 tol); [reflexivity|lra]. }
    rewrite BB, Rabs_R0. destruct (Rlt_dec 0 tol); [|lra]. rewrite Rabs_Ropp.
    assert (FF : flow_at F0 F0 r = F0) by (unfold flow_at; ring). rewrite FF in Hh.
    destruct (Rlt_dec (Rabs F0) tol) as [S|S].
    + destruct C as [Z|(C & _)]; [|lra]. eexists. split; [reflexivity|]. cbn beta iota. intros s Hs. unfold sol.
      destruct (Req_EM_T F0 F0); [|lra]. rewrite Z. lra.
    + destruct C as [Z|(_ & C)]; [rewrite Z, Rabs_R0 in S; lra|].
      assert (F0N : F0 <> 0) by (intros Z; rewrite Z, Rabs_R0 in S; lra).
      assert (DE : - (h - r) / - F0 = (h - r) / F0) by (field; exact F0N). rewrite DE.
      assert (DP : 0 <= (h - r) / F0).
      { destruct Hh as [(P & E)|(P & E)]; rewrite E.
        - apply Rmult_le_pos; [lra|left; apply Rinv_0_lt_compat; lra].
        - replace ((0 - r) / F0) with (r / (- F0)) by (field; exact F0N).
          apply Rmult_le_pos; [lra|left; apply Rinv_0_lt_compat; lra]. }
      assert (DT : tol <= (h - r) / F0).
      { assert (A : Rabs ((h - r) / F0) = (h - r) / F0) by (apply Rabs_right; lra). rewrite <- A. unfold Rdiv.
        rewrite Rabs_mult, Rabs_inv. apply Rmult_le_reg_r with (Rabs F0); [apply Rabs_pos_lt; exact F0N|].
        rewrite Rmult_assoc, Rinv_l by (apply Rabs_no_R0; exact F0N). rewrite Rmult_1_r. exact C. }
      rewrite (Rabs_right ((h - r) / F0)) by lra. destruct (Rlt_dec ((h - r) / F0) tol); [lra|].
      eexists. split; [reflexivity|]. cbn beta iota. split; [lra|].
      assert (SE : forall s, sol F0 F0 r s = r + F0 * s) by (intros s; unfold sol; destruct (Req_EM_T F0 F0); [reflexivity|lra]).
      assert (SD : r + F0 * ((h - r) / F0) = h) by (field; exact F0N).
      split.
      * intros s Hs. rewrite SE. set (d := (h - r) / F0) in *. destruct Hh as [(P & E)|(P & E)]; nra.
      * rewrite SE, SD. destruct Hh as [(P & E)|(P & E)]; lra.
  - assert (NE : F0 <> F1) by (intros E; subst; replace (F1 - F1) with 0 in N by ring; rewrite Rabs_R0 in N; lra).
    assert (BB : B_of F0 F1 = F0 - F1) by (unfold B_of; destruct (Rlt_dec (Rabs (F0 - F1)) tol); [lra|reflexivity]).
    rewrite BB. set (b := F0 - F1) in *. assert (Bn : b <> 0) by (unfold b; lra).
    destruct (Rlt_dec (Rabs b) tol); [lra|]. destruct (Rlt_dec tol (Rabs b)); [|lra].
    assert (E0 : r + - F0 / b = - flow_at F0 F1 r / b) by (unfold flow_at, b; field; lra).
    assert (E1 : h + - F0 / b = - flow_at F0 F1 h / b) by (unfold flow_at, b; field; lra).
    rewrite E0, E1. set (here := flow_at F0 F1 r) in *. set (there := flow_at F0 F1 h) in *.
    assert (PR : - there / b * (- here / b) = here * there / b ^ 2) by (field; exact Bn). rewrite PR.
    assert (B2 : 0 < b ^ 2) by (apply pow2_gt_0; exact Bn).
    destruct (Rlt_dec (here * there / b ^ 2) tol) as [S|S].
    + (* the flow ends before the face *)
      destruct C as [C|(C & _)].
      2:{ exfalso. apply Rmult_lt_compat_r with (r := b ^ 2) in S; [|exact B2].
          replace (here * there / b ^ 2 * b ^ 2) with (here * there) in S by (field; exact Bn). lra. }
      eexists. split; [reflexivity|]. cbn beta iota. intros s Hs.
      set (e := exp (- b * s)).
      assert (e0 : 0 < e) by apply exp_pos.
      assert (SS : sol F0 F1 r s = r + here * ((1 - e) / b)).
      { unfold sol. destruct (Req_EM_T F0 F1); [contradiction|]. reflexivity. }
      rewrite SS.
      destruct (Req_dec here 0) as [Z|NZ]; [rewrite Z; lra|].
      assert (Bp : 0 < b).
      { destruct Hh as [(P & E)|(P & E)].
        - assert (F1 <= 0) by (replace there with F1 in C by (unfold there, flow_at; rewrite E; ring); nra).
          assert (0 < F0) by (unfold here, flow_at in *; nra). unfold b. lra.
        - assert (0 <= F0) by (replace there with F0 in C by (unfold there, flow_at; rewrite E; ring); nra).
          assert (F1 < 0) by (unfold here, flow_at in *; nra). unfold b. lra. }
      assert (e1 : e <= 1) by (unfold e; rewrite <- exp_0; destruct (Req_dec (- b * s) 0) as [Q|Q]; [rewrite Q; lra|left; apply exp_increasing; nra]).
      (* between r and the stagnation point r + here / b *)
      replace (r + here * ((1 - e) / b)) with (e * r + (1 - e) * (r + here / b)) by (field; lra).
      assert (ST : 0 <= r + here / b <= 1).
      { replace (r + here / b) with (F0 / b) by (unfold here, flow_at, b; field; lra).
        destruct Hh as [(P & E)|(P & E)].
        - assert (F1 <= 0) by (replace there with F1 in C by (unfold there, flow_at; rewrite E; ring); nra).
          assert (0 < F0) by (unfold here, flow_at in *; nra).
          split; [apply Rmult_le_pos; [lra|left; apply Rinv_0_lt_compat; lra]|].
          apply Rmult_le_reg_r with b; [lra|]. replace (F0 / b * b) with F0 by (field; lra). unfold b. lra.
        - assert (0 <= F0) by (replace there with F0 in C by (unfold there, flow_at; rewrite E; ring); nra).
          assert (F1 < 0) by (unfold here, flow_at in *; nra).
          split; [apply Rmult_le_pos; [lra|left; apply Rinv_0_lt_compat; lra]|].
          apply Rmult_le_reg_r with b; [lra|]. replace (F0 / b * b) with F0 by (field; lra). unfold b. lra. }
      nra.
    + (* it reaches the face *)
      assert (HT : 0 < here * there).
      { apply Rnot_lt_le in S. apply Rmult_le_compat_r with (r := b ^ 2) in S; [|lra].
        replace (here * there / b ^ 2 * b ^ 2) with (here * there) in S by (field; exact Bn). nra. }
      assert (Hn : here <> 0) by (intros Z; rewrite Z in HT; lra).
      assert (Tn : there <> 0) by (intros Z; rewrite Z in HT; lra).
      assert (QP : 0 < there / here).
      { replace (there / here) with (here * there / (here ^ 2)) by (field; exact Hn).
        apply Rmult_lt_0_compat; [exact HT|]. apply Rinv_0_lt_compat, pow2_gt_0. exact Hn. }
      replace (- there / b / (- here / b)) with (there / here) by (field; split; assumption).
      set (d := - 1 / b * ln (there / here)).
      assert (SD : sol F0 F1 r d = h).
      { assert (X : flow_at F0 F1 (sol F0 F1 r d) = there).
        { rewrite sol_flow. fold here b. replace (- b * d) with (ln (there / here)) by (unfold d; field; exact Bn).
          rewrite exp_ln by exact QP. field. exact Hn. }
        unfold there, flow_at in X. unfold b in Bn. nra. }
      assert (DP : 0 <= d).
      { destruct (Rle_dec 0 d) as [G|G]; [exact G|]. exfalso. apply Rnot_le_lt in G.
        destruct (sol_strict F0 F1 r d 0 G) as [S1 S2]. rewrite SD, sol_0 in S1, S2. fold here in S1, S2.
        destruct Hh as [(P & E)|(P & E)]; [assert (0 < here) by lra; specialize (S1 H); lra|specialize (S2 P); lra]. }
      assert (DT : tol <= d).
      { destruct C as [C|(_ & C)]; [lra|].
        assert (A : Rabs d = Rabs (ln (there / here)) / Rabs b).
        { unfold d. unfold Rdiv at 1 2. rewrite !Rabs_mult, Rabs_inv. replace (Rabs (-1)) with 1 by (rewrite Rabs_left; lra).
          unfold Rdiv. ring. }
        rewrite (Rabs_right d) in A by lra. rewrite A. apply Rmult_le_reg_r with (Rabs b); [apply Rabs_pos_lt; exact Bn|].
        unfold Rdiv. rewrite Rmult_assoc, Rinv_l by (apply Rabs_no_R0; exact Bn). rewrite Rmult_1_r. exact C. }
      rewrite (Rabs_right d) by lra. destruct (Rlt_dec d tol); [lra|].
      eexists. split; [reflexivity|]. cbn beta iota. split; [lra|]. split.
      * intros s Hs. destruct (sol_mono F0 F1 r 0 s) as [L1 L2]; [lra|]. destruct (sol_mono F0 F1 r s d) as [M1 M2]; [lra|].
        rewrite sol_0 in L1, L2. rewrite SD in M1, M2. fold here in L1, L2, M1, M2.
        destruct Hh as [(P & E)|(P & E)]; [specialize (L1 P); specialize (M1 P); lra|].
        assert (Q : here <= 0) by lra. specialize (L2 Q). specialize (M2 Q). lra.
      * rewrite SD. destruct Hh as [(P & E)|(P & E)]; lra.
Qed.

(** There is no other solution. *)
Lemma zero_deriv_const (g : R -> R) (T : R) : 0 <= T -> (forall t, 0 <= t <= T -> derivable_pt_lim g t 0) -> g T = g 0.
Proof.
  intros HT D. destruct HT as [HT|HT]; [|rewrite HT; reflexivity].
  assert (pr : forall c, 0 < c < T -> derivable_pt g c) by (intros c Hc; exists 0; apply D; lra).
  assert (pr2 : forall c, 0 < c < T -> derivable_pt id c) by (intros; apply derivable_pt_id).
  destruct (MVT g id 0 T pr pr2 HT) as (c & Hc & E).
  - intros c Hc. apply derivable_continuous_pt. exists 0. apply D. exact Hc.
  - intros c Hc. apply derivable_continuous_pt, derivable_pt_id.
  - rewrite (derive_pt_eq_0 g c 0 (pr c Hc)) in E by (apply D; lra).
    rewrite (derive_pt_eq_0 id c 1 (pr2 c Hc)) in E by apply derivable_pt_lim_id. unfold id in E. lra.
Qed.
Lemma linear_unique (a b : R) (X Y : R -> R) (T : R) : 0 <= T -> X 0 = Y 0 ->
  (forall t, 0 <= t <= T -> derivable_pt_lim X t (a + b * X t)) ->
  (forall t, 0 <= t <= T -> derivable_pt_lim Y t (a + b * Y t)) -> X T = Y T.
Proof.
  intros HT E DX DY.
  assert (C : (X T - Y T) * exp (- b * T) = (X 0 - Y 0) * exp (- b * 0)).
  { apply (zero_deriv_const (fun t => (X t - Y t) * exp (- b * t)) T HT). intros t Ht.
    replace 0 with (((a + b * X t) - (a + b * Y t)) * exp (- b * t) + (X t - Y t) * (exp (- b * t) * (- b * 1))) by ring.
    apply (derivable_pt_lim_mult (fun t => X t - Y t) (fun t => exp (- b * t))).
    - apply derivable_pt_lim_minus; [apply DX|apply DY]; exact Ht.
    - apply (derivable_pt_lim_comp (fun x => - b * x) exp).
      + apply derivable_pt_lim_scal, derivable_pt_lim_id.
      + apply derivable_pt_lim_exp. }
  rewrite E in C. replace ((Y 0 - Y 0) * exp (- b * 0)) with 0 in C by ring.
  pose proof (exp_pos (- b * T)). apply Rmult_integral in C. lra.
Qed.
