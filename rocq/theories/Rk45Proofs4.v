(** Proofs for C57: the error estimate in gentle flows, flows that depend on time, and two counterexamples. *)
From Coq Require Import Reals List ZArith Bool Lia Lra.
From Verif Require Import AdvModel AdvSpec AdvProofs AdvProofs2 AdvProofs3 RunSpec Rk45Model Rk45Spec Rk45Proofs Rk45Proofs2 Rk45Proofs3.
Import ListNotations.
Open Scope R_scope.

Lemma stages_total UV p : (forall t z y x, UV t z y x <> None) -> forall rows ks, exists ks', stages UV p rows ks = Some ks'.
Proof.
  intros T rows. induction rows as [|[c a] r IH]; intros ks; cbn [stages]; [eexists; reflexivity|]. destruct (UV _ _ _ _) eqn:E; [apply IH|]. exfalso. exact (T _ _ _ _ E).
Qed.
Lemma no_fail UV : (forall t z y x, UV t z y x <> None) -> forall p h a, call UV p h <> AFail a.
Proof.
  intros T p h a C. destruct (call_cases UV p h) as [(b & err & D & _)|[(b & err & D & _)|(b & D & N)]]; try congruence.
  destruct (p_pos p) as [[x y] z] eqn:P. destruct (stages_total UV (mkA x y z (p_time p) h None) T fehlberg []) as (ks & K).
  eapply N. unfold fehlberg_step. cbv zeta. exists ks. split; [exact K|]. split; reflexivity.
Qed.
Lemma accept UV p h : (forall t z y x, UV t z y x <> None) -> (forall x' err, fehlberg_step UV (p_time p) (p_pos p) h x' err -> err <= tol * Rabs h) -> exists a, call UV p h = ADone a.
Proof.
  intros T B. destruct (call_cases UV p h) as [(b & err & D & _)|[(b & err & D & _ & (x' & F) & L)|(b & D & N)]].
  - exists b. exact D.
  - specialize (B x' err F). lra.
  - exfalso. exact (no_fail UV T p h b D).
Qed.

Lemma abs_le x a : Rabs x <= a -> - a <= x <= a.
Proof. intros H. pose proof (Rle_abs x). pose proof (Rle_abs (- x)) as N. rewrite Rabs_Ropp in N. lra. Qed.
Lemma distance_le a b e : Rabs (fst a - fst b) <= e -> Rabs (snd a - snd b) <= e -> distance a b <= 2 * e.
Proof.
  intros X Y. unfold distance. pose proof (Rabs_pos (fst a - fst b)) as P. assert (E : 0 <= 2 * e) by lra. rewrite <- (sqrt_pow2 (2 * e) E). apply sqrt_le_1_alt.
  rewrite <- (pow2_abs (fst a - fst b)), <- (pow2_abs (snd a - snd b)). pose proof (Rabs_pos (snd a - snd b)).
  assert (Rabs (fst a - fst b) ^ 2 <= e ^ 2) by (apply pow_incr; lra). assert (Rabs (snd a - snd b) ^ 2 <= e ^ 2) by (apply pow_incr; lra). nra.
Qed.

Ltac bound := apply Rabs_le; cbn [dot map combine fold_right fst snd app]; lra.

Lemma gentle_estimate UV vel L Lt M t X h x' err :
  (forall t z y x, UV t z y x = Some (vel t z y x)) -> gentle2 vel L Lt M -> fehlberg_step UV t X h x' err -> err <= 2 * (Lt + L * M) * (Rabs h * Rabs h).
Proof.
  intros S (L0 & T0 & M0 & GL & GT & GM) F. destruct X as [[x y] z]. destruct F as (ks & K & _ & ->).
  apply (stages_vel UV (fun t y x => vel t z y x)) in K; [|intros t' y' xx w W; cbn in W; rewrite S in W; congruence]. subst ks.
  cbn [vstages fehlberg app a_time a_dt a_lat a_lon map fst snd].
  set (p := mkA x y z t h None). set (H := Rabs h).
  set (k1 := vel (t + 0 * h) z (y + h * dot [] []) (x + h * dot [] [])).
  set (k2 := vel (t + 1 / 4 * h) z _ _). set (k3 := vel (t + 3 / 8 * h) z _ _). set (k4 := vel (t + 12 / 13 * h) z _ _).
  set (k5 := vel (t + 1 * h) z _ _). set (k6 := vel (t + 1 / 2 * h) z _ _).
  assert (H0 : 0 <= H) by apply Rabs_pos.
  assert (VAR : forall c dx dy A, 0 <= c -> Rabs dx <= A * M -> Rabs dy <= A * M -> 
      near2 (vel (t + c * h) z (y + h * dy) (x + h * dx)) k1 (A * (L * M * H) + c * (Lt * H))).
  { intros c dx dy A C DX DY. assert (N1 : near2 (vel (t + c * h) z (y + h * dy) (x + h * dx)) (vel (t + c * h) z (y + h * 0) (x + h * 0)) (L * (A * M * H))).
    { apply GL. unfold near2. cbn [fst snd]. replace (x + h * dx - (x + h * 0)) with (h * dx) by ring. replace (y + h * dy - (y + h * 0)) with (h * dy) by ring.
      rewrite !Rabs_mult. fold H. split; rewrite Rmult_comm; apply Rmult_le_compat_r; assumption. }
    assert (N2 : near2 (vel (t + c * h) z (y + h * 0) (x + h * 0)) (vel (t + 0 * h) z (y + h * 0) (x + h * 0)) (Lt * (c * H))).
    { pose proof (GT (t + c * h) (t + 0 * h) z (y + h * 0) (x + h * 0)) as G. replace (t + c * h - (t + 0 * h)) with (c * h) in G by ring. rewrite Rabs_mult, (Rabs_right c) in G by lra. exact G. }
    change (vel (t + 0 * h) z (y + h * 0) (x + h * 0)) with k1 in N2. revert N1 N2. generalize (vel (t + c * h) z (y + h * 0) (x + h * 0)). intros m [N1 N1'] [N2 N2'].
    replace (A * (L * M * H) + c * (Lt * H)) with (L * (A * M * H) + Lt * (c * H)) by ring.
    split; [replace (fst _ - fst k1) with ((fst (vel (t + c * h) z (y + h * dy) (x + h * dx)) - fst m) + (fst m - fst k1)) by ring|
            replace (snd _ - snd k1) with ((snd (vel (t + c * h) z (y + h * dy) (x + h * dx)) - snd m) + (snd m - snd k1)) by ring];
      (eapply Rle_trans; [apply Rabs_triang|]); lra. }
  assert (B : forall k t' z' y' xx, k = vel t' z' y' xx -> - M <= fst k <= M /\ - M <= snd k <= M).
  { intros k t' z' y' xx ->. destruct (GM t' z' y' xx) as [G1 G2]. cbn [fst snd] in G1, G2. rewrite Rminus_0_r in G1, G2. split; apply abs_le; assumption. }
  destruct (B k1 _ _ _ _ eq_refl) as [B1 B1']. destruct (B k2 _ _ _ _ eq_refl) as [B2 B2']. destruct (B k3 _ _ _ _ eq_refl) as [B3 B3'].
  destruct (B k4 _ _ _ _ eq_refl) as [B4 B4']. destruct (B k5 _ _ _ _ eq_refl) as [B5 B5'].
  assert (V3 : near2 k3 k1 (3 / 8 * (L * M * H) + 3 / 8 * (Lt * H))) by (apply VAR; [lra|bound|bound]).
  assert (V4 : near2 k4 k1 (15 / 2 * (L * M * H) + 12 / 13 * (Lt * H))) by (apply VAR; [lra|bound|bound]).
  assert (V5 : near2 k5 k1 (35 / 2 * (L * M * H) + 1 * (Lt * H))) by (apply VAR; [lra|bound|bound]).
  assert (V6 : near2 k6 k1 (9 / 2 * (L * M * H) + 1 / 2 * (Lt * H))) by (apply VAR; [lra|bound|bound]).
  assert (P0 : 0 <= L * M * H) by (apply Rmult_le_pos; [apply Rmult_le_pos; lra|exact H0]). assert (Q0 : 0 <= Lt * H) by (apply Rmult_le_pos; lra).
  clearbody k1 k2 k3 k4 k5 k6. clear VAR B GL GT GM.
  destruct V3 as [V3 V3'], V4 as [V4 V4'], V5 as [V5 V5'], V6 as [V6 V6'].
  apply abs_le in V3, V3', V4, V4', V5, V5', V6, V6'.
  replace (2 * (Lt + L * M) * (H * H)) with (2 * (H * (L * M * H + Lt * H))) by ring.
  apply distance_le; unfold solution; cbn [fst snd a_lon a_lat a_dt p map].
  - match goal with |- Rabs ?d <= _ => replace d with (h * (128 / 4275 * (fst k3 - fst k1) + 2197 / 75240 * (fst k4 - fst k1) - 1 / 50 * (fst k5 - fst k1) - 2 / 55 * (fst k6 - fst k1)))
      by (unfold dot; cbn [fehlberg4 fehlberg5 map combine fold_right fst snd]; field) end.
    rewrite Rabs_mult. fold H. apply Rmult_le_compat_l; [exact H0|]. apply Rabs_le. lra.
  - match goal with |- Rabs ?d <= _ => replace d with (h * (128 / 4275 * (snd k3 - snd k1) + 2197 / 75240 * (snd k4 - snd k1) - 1 / 50 * (snd k5 - snd k1) - 2 / 55 * (snd k6 - snd k1)))
      by (unfold dot; cbn [fehlberg4 fehlberg5 map combine fold_right fst snd]; field) end.
    rewrite Rabs_mult. fold H. apply Rmult_le_compat_l; [exact H0|]. apply Rabs_le. lra.
Qed.

Lemma gentle_arrives UV vel L Lt M atol dt ends E ps :
  (forall t z y x, UV t z y x = Some (vel t z y x)) -> gentle2 vel L Lt M -> 0 <= atol -> atol < Rabs dt -> 4 * atol * (Lt + L * M) <= tol ->
  Forall (fun p => atol < Rabs (p_dt p)) ps ->
  exists ps', (forall jit, ends_with UV jit atol dt (ends ++ [E]) ps ps') /\ Forall (reached atol dt E) ps'.
Proof.
  intros S G A0 DT K F. assert (T : forall t z y x, UV t z y x <> None) by (intros; rewrite S; discriminate).
  pose proof G as (L0 & T0 & M0 & _). assert (K0 : 0 <= Lt + L * M) by (assert (0 <= L * M) by (apply Rmult_le_pos; lra); lra).
  assert (TL : 0 < tol) by (unfold tol; lra).
  set (hs := 2 * atol + (if Rlt_dec 0 (Lt + L * M) then (if Rlt_dec 0 atol then 0 else tol / (2 * (Lt + L * M))) else 1)).
  assert (HS : 2 * atol <= hs /\ 0 < hs /\ 2 * (Lt + L * M) * hs <= tol).
  { unfold hs. destruct (Rlt_dec 0 (Lt + L * M)) as [P|P]; [destruct (Rlt_dec 0 atol) as [Q|Q]|].
    - split; [lra|]. split; [lra|]. lra.
    - assert (atol = 0) by lra. subst atol. assert (0 < tol / (2 * (Lt + L * M))) by (apply Rdiv_lt_0_compat; lra). split; [lra|]. split; [lra|].
      replace (2 * (Lt + L * M) * _) with tol by (field; lra). lra.
    - replace (Lt + L * M) with 0 by lra. lra. }
  destruct HS as (H1 & H2 & H3).
  apply (run_ends atol dt hs A0 DT UV H1 H2); [|apply no_fail; exact T|exact F].
  intros p h LE. apply accept; [exact T|]. intros x' err FS. pose proof (gentle_estimate UV vel L Lt M _ _ _ _ _ S G FS) as EST.
  pose proof (Rabs_pos h) as AH. eapply Rle_trans; [exact EST|]. rewrite <- Rmult_assoc. apply Rmult_le_compat_r; [exact AH|].
  eapply Rle_trans; [|exact H3]. apply Rmult_le_compat_l; lra.
Qed.

(** * Flows that depend on time and depth *)

Lemma chain_on_course UV cu cv c tl dt t x t' x' total :
  samples UV (fun t z _ _ => (poly (cu z) t, poly (cv z) t)) -> (forall z, (length (cu z) <= 4)%nat /\ (length (cv z) <= 4)%nat) ->
  (forall s, c_depth c s = c_depth c (c_start c)) ->
  (forall s, derivable_pt_lim (c_lon c) s (poly (cu (c_depth c s)) s) /\ derivable_pt_lim (c_lat c) s (poly (cv (c_depth c s)) s)) ->
  chain UV tl dt t x t' x' total -> x = place c t -> x' = place c t'.
Proof.
  intros S LN DC DR. induction 1 as [|t x h x1 err t' x' total P F L C IH]; intros E; [exact E|]. apply IH. subst x. unfold place in F. unfold fehlberg_step in F. cbv zeta in F.
  destruct F as (ks & K & -> & _). set (z := c_depth c t) in *. destruct (LN z) as [LU LV].
  rewrite (rk45_poly4 UV (mkA (c_lon c t) (c_lat c t) z t h None) (cu z) (cv z) (c_lon c) (c_lat c) ks LU LV); [| | |exact K].
  - unfold place. cbn [fst snd a_time a_dt]. f_equal. unfold z. rewrite DC. symmetry. apply DC.
  - intros s y x w W. cbn in W. apply S in W. exact W.
  - split; [reflexivity|]. split; [reflexivity|]. intros s _. cbn [fst snd]. destruct (DR s) as [X Y]. replace z with (c_depth c s); [split; assumption|].
    unfold z. rewrite DC. symmetry. apply DC.
Qed.

Lemma tide_accepts UV cu cv p h : (forall t z y x, UV t z y x = Some (poly (cu z) t, poly (cv z) t)) -> (forall z, (length (cu z) <= 4)%nat /\ (length (cv z) <= 4)%nat) ->
  exists a, call UV p h = ADone a.
Proof.
  intros S LN. unfold call. destruct (p_pos p) as [[x y] z]. set (a0 := mkA x y z (p_time p) h None). destruct (LN z) as [LU LV].
  destruct (rk45_time UV a0 (cu z) (cv z) (fun s => x + (integ_from 0 (cu z) s - integ_from 0 (cu z) (p_time p))) (fun s => y + (integ_from 0 (cv z) s - integ_from 0 (cv z) (p_time p))) LU LV)
    as [R|(p' & R & _)].
  - intros t y' x' w W. cbn in W. rewrite S in W. congruence.
  - assert (D : forall cs c b s, derivable_pt_lim (fun s => c + (integ_from 0 cs s - b)) s (poly cs s)).
    { intros cs c b s. replace (poly cs s) with (0 + (poly_from 0 cs s - 0)) by (unfold poly_from; cbn; ring).
      apply (derivable_pt_lim_plus (fun _ => c) (fun s => integ_from 0 cs s - b)); [apply derivable_pt_lim_const|].
      apply (derivable_pt_lim_minus (integ_from 0 cs) (fun _ => b)); [apply integ_deriv|apply derivable_pt_lim_const]. }
    split; [cbn; ring|]. split; [cbn; ring|]. intros s _. split; apply D.
  - exfalso. apply (no_fail UV) with (p := p) (h := h) (a := a0); [intros; rewrite S; discriminate|]. unfold call.
    pose proof (rk45_ok UV a0) as O. unfold rk45_spec in O. destruct (stages_total UV a0 ltac:(intros; rewrite S; discriminate) fehlberg []) as (ks & K). rewrite K in O. cbv zeta in O.
    destruct (Rle_dec _ _) in O; destruct O as (q & Q & _); congruence.
  - exists p'. exact R.
Qed.
