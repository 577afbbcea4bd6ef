(** Proofs about the advection kernels: RK45. *)
From Coq Require Import Reals List Lra Lia Psatz.
From Verif Require Import AdvModel AdvSpec AdvProofs AdvProofs2.
Import ListNotations.
Open Scope R_scope.

Lemma sq_le (k d : R) : 0 <= k -> (sqrt k <= Rabs d <-> k <= Rabs d ^ 2).
Proof.
  intros K. pose proof (Rabs_pos d) as A. split; intros H.
  - rewrite <- (sqrt_sqrt k K). pose proof (sqrt_pos k). nra.
  - rewrite <- (sqrt_pow2 (Rabs d) A). apply sqrt_le_1; [exact K|nra|exact H].
Qed.

Ltac stage UV p :=
  match goal with
  | |- context[match UV ?t ?z ?y ?x with Some _ => _ | None => None end] =>
      match goal with
      | |- context[sampled p (UV ?t' ?z' ?y' ?x') _] =>
          let E := fresh in
          assert (E : UV t' z' y' x' = UV t z y x)
            by (f_equal; cbn [dot map combine fold_right fst snd app nth]; field);
          rewrite E; clear E; destruct (UV t z y x) as [[? ?]|]; cbn [sampled stages app fehlberg]; [|reflexivity]
      end
  end.

Lemma rk45_ok UV p : rk45_spec UV p (1 / 100000) (rk45 UV p).
Proof.
  unfold rk45_spec, rk45. cbv zeta. cbn [nth rk_A rk_c rk_b4 rk_b5].
  cbn [stages fehlberg app].
  do 6 stage UV p.
  match goal with |- context[Rle_dec ?k (Rabs (a_dt p * rk45tol) ^ 2)] => set (kappa2 := k) end.
  match goal with |- context[distance ?a ?b] => set (e := distance a b) end.
  assert (K : kappa2 = let a := solution p fehlberg4 [(r, r0); (r1, r2); (r3, r4); (r5, r6); (r7, r8); (r9, r10)] in
                       let b := solution p fehlberg5 [(r, r0); (r1, r2); (r3, r4); (r5, r6); (r7, r8); (r9, r10)] in
                       (fst a - fst b) ^ 2 + (snd a - snd b) ^ 2).
  { unfold kappa2. cbv zeta. unfold solution, dot, fehlberg4, fehlberg5. cbn [map combine fold_right fst snd]. field. }
  assert (Ek : e = sqrt kappa2). { unfold e, distance. rewrite K. reflexivity. }
  assert (K0 : 0 <= kappa2). { rewrite K. cbv zeta. apply Rplus_le_le_0_compat; apply pow2_ge_0. }
  assert (T1 : Rabs (a_dt p * rk45tol) = Rabs (a_dt p) * (1 / 100000)).
  { unfold rk45tol. rewrite Rabs_mult, (Rabs_right (1 / 100000)) by lra. reflexivity. }
  assert (T2 : Rabs (a_dt p * rk45tol / 10) = Rabs (a_dt p) * (1 / 100000) / 10).
  { unfold Rdiv. rewrite Rabs_mult. fold (1 / 100000). rewrite T1. rewrite (Rabs_right (/ 10)) by lra. reflexivity. }
  pose proof (sq_le kappa2 (a_dt p * rk45tol) K0) as S1. rewrite <- Ek, T1 in S1.
  pose proof (sq_le kappa2 (a_dt p * rk45tol / 10) K0) as S2. rewrite <- Ek, T2 in S2.
  rewrite T1, T2.
  destruct (Rle_dec e (Rabs (a_dt p) * (1 / 100000))) as [H1|H1];
    destruct (Rle_dec kappa2 ((Rabs (a_dt p) * (1 / 100000)) ^ 2)) as [H2|H2]; try tauto.
  - destruct (Rle_dec e (Rabs (a_dt p) * (1 / 100000) / 10)) as [H3|H3];
      destruct (Rle_dec kappa2 ((Rabs (a_dt p) * (1 / 100000) / 10) ^ 2)) as [H4|H4]; try tauto.
    + eexists. split; [reflexivity|]. unfold solution, dot, fehlberg4. cbn [note_dt move a_lon a_lat a_depth a_time a_dt a_next map combine fold_right fst snd].
      split; [field|]. split; [field|]. split; [reflexivity|]. split; [reflexivity|]. split; [reflexivity|]. f_equal; ring.
    + eexists. split; [reflexivity|]. unfold solution, dot, fehlberg4. cbn [note_dt move a_lon a_lat a_depth a_time a_dt a_next map combine fold_right fst snd].
      split; [field|]. split; [field|]. repeat split.
  - eexists. split; [reflexivity|]. cbn [set_dt a_lon a_lat a_depth a_time a_dt a_next]. repeat split.
Qed.

(** * The two solutions *)

Fixpoint vstages (vel : R -> R -> R -> R * R) (p : apart) (rows : list (R * list R)) (ks : list (R * R)) : list (R * R) :=
  match rows with
  | [] => ks
  | (c, a) :: r =>
      vstages vel p r (ks ++ [vel (a_time p + c * a_dt p) (a_lat p + a_dt p * dot a (map snd ks))
                                  (a_lon p + a_dt p * dot a (map fst ks))])
  end.

Lemma stages_vel UV vel p : samples_are UV vel p ->
  forall rows ks0 ks, stages UV p rows ks0 = Some ks -> ks = vstages vel p rows ks0.
Proof.
  intros S rows. induction rows as [|[c a] r IH]; intros ks0 ks H; cbn [stages vstages] in *.
  - congruence.
  - destruct (UV _ _ _ _) as [k|] eqn:E; [|discriminate H]. apply S in E. rewrite <- E. apply IH. exact H.
Qed.

Lemma quad4 cs t h : (length cs <= 4)%nat ->
  h * dot fehlberg4 [poly cs (t + 0 * h); poly cs (t + 1/4 * h); poly cs (t + 3/8 * h); poly cs (t + 12/13 * h);
                     poly cs (t + 1 * h); poly cs (t + 1/2 * h)]
  = integ_from 0 cs (t + h) - integ_from 0 cs t.
Proof.
  intros L. destruct cs as [|c0 [|c1 [|c2 [|c3 [|c4 r]]]]]; cbn [length] in L; try lia;
    unfold dot; cbn [fehlberg4 map combine fold_right fst snd poly integ_from INR]; field.
Qed.

Lemma quad5 cs t h : (length cs <= 5)%nat ->
  h * dot fehlberg5 [poly cs (t + 0 * h); poly cs (t + 1/4 * h); poly cs (t + 3/8 * h); poly cs (t + 12/13 * h);
                     poly cs (t + 1 * h); poly cs (t + 1/2 * h)]
  = integ_from 0 cs (t + h) - integ_from 0 cs t.
Proof.
  intros L. destruct cs as [|c0 [|c1 [|c2 [|c3 [|c4 [|c5 r]]]]]]; cbn [length] in L; try lia;
    unfold dot; cbn [fehlberg5 map combine fold_right fst snd poly integ_from INR]; field.
Qed.

Lemma rk45_poly4 UV p cu cv x y ks :
  (length cu <= 4)%nat -> (length cv <= 4)%nat ->
  samples_are UV (fun t _ _ => (poly cu t, poly cv t)) p ->
  path (fun t _ _ => (poly cu t, poly cv t)) p x y ->
  stages UV p fehlberg [] = Some ks ->
  solution p fehlberg4 ks = (x (a_time p + a_dt p), y (a_time p + a_dt p)).
Proof.
  intros Lu Lv S (X0 & Y0 & D) H. apply (stages_vel _ _ _ S) in H. subst ks.
  rewrite (poly_integral cu x (a_time p) (a_time p + a_dt p)) by (intros s Hs; apply (D s Hs)).
  rewrite (poly_integral cv y (a_time p) (a_time p + a_dt p)) by (intros s Hs; apply (D s Hs)).
  rewrite X0, Y0, <- (quad4 cu) by exact Lu. rewrite <- (quad4 cv) by exact Lv.
  reflexivity.
Qed.

Lemma rk45_poly5 UV p cu cv x y ks :
  (length cu <= 5)%nat -> (length cv <= 5)%nat ->
  samples_are UV (fun t _ _ => (poly cu t, poly cv t)) p ->
  path (fun t _ _ => (poly cu t, poly cv t)) p x y ->
  stages UV p fehlberg [] = Some ks ->
  solution p fehlberg5 ks = (x (a_time p + a_dt p), y (a_time p + a_dt p)).
Proof.
  intros Lu Lv S (X0 & Y0 & D) H. apply (stages_vel _ _ _ S) in H. subst ks.
  rewrite (poly_integral cu x (a_time p) (a_time p + a_dt p)) by (intros s Hs; apply (D s Hs)).
  rewrite (poly_integral cv y (a_time p) (a_time p + a_dt p)) by (intros s Hs; apply (D s Hs)).
  rewrite X0, Y0, <- (quad5 cu) by exact Lu. rewrite <- (quad5 cv) by exact Lv.
  reflexivity.
Qed.

Lemma distance_0 a : distance a a = 0.
Proof. unfold distance. replace ((fst a - fst a) ^ 2 + (snd a - snd a) ^ 2) with 0 by ring. apply sqrt_0. Qed.

(** With such velocities every step is accepted, lands on the path, and the next step is doubled. *)
Lemma rk45_time UV p cu cv x y :
  (length cu <= 4)%nat -> (length cv <= 4)%nat ->
  samples_are UV (fun t _ _ => (poly cu t, poly cv t)) p ->
  path (fun t _ _ => (poly cu t, poly cv t)) p x y ->
  rk45 UV p = AFail p \/
  exists p', rk45 UV p = ADone p' /\ a_lon p' = x (a_time p + a_dt p) /\ a_lat p' = y (a_time p + a_dt p) /\
    a_depth p' = a_depth p /\ a_time p' = a_time p /\ a_dt p' = a_dt p /\ a_next p' = Some (2 * a_dt p).
Proof.
  intros Lu Lv S P. pose proof (rk45_ok UV p) as R. unfold rk45_spec in R.
  destruct (stages UV p fehlberg []) as [ks|] eqn:E; [|left; exact R]. right. cbv zeta in R.
  assert (L1 : (length cu <= 5)%nat) by lia. assert (L2 : (length cv <= 5)%nat) by lia.
  rewrite (rk45_poly4 UV p cu cv x y ks Lu Lv S P E), (rk45_poly5 UV p cu cv x y ks L1 L2 S P E), distance_0 in R.
  pose proof (Rabs_pos (a_dt p)) as A.
  destruct (Rle_dec 0 _) as [H|H]; [|lra]. destruct R as (p' & E1 & X & Y & Z & T & D & Nx). exists p'.
  destruct (Rle_dec 0 _) as [H2|H2] in Nx; [|lra]. cbn [fst snd] in X, Y. auto 10.
Qed.

Lemma rkf_lin L p :
  let d k := lin_deriv L k (a_lon p) (a_lat p) in let h := a_dt p in
  let ks := vstages (lin_vel L) p fehlberg [] in
  solution p fehlberg4 ks =
    (taylor 4 h (fun k => fst (d k)) + h ^ 5 / 104 * fst (d 5%nat), taylor 4 h (fun k => snd (d k)) + h ^ 5 / 104 * snd (d 5%nat)) /\
  solution p fehlberg5 ks =
    (taylor 5 h (fun k => fst (d k)) + h ^ 6 / 2080 * fst (d 6%nat), taylor 5 h (fun k => snd (d k)) + h ^ 6 / 2080 * snd (d 6%nat)).
Proof.
  cbv zeta. destruct p as [x0 y0 z0 t h nx]. destruct L as [a b c d e f].
  unfold solution, taylor, dot. cbn [a_lon a_lat a_dt a_time].
  cbn [vstages fehlberg app]. unfold dot, lin_vel.
  cbn [vstages fehlberg app map combine fold_right fst snd lin_vel dot a_lon a_lat a_dt a_time l_a l_b l_c l_d l_e l_f
       sum_f_R0 lin_deriv fact Nat.mul Nat.add fehlberg4 fehlberg5 INR].
  split; f_equal; field.
Qed.

Lemma rk45_linear UV L p x y ks :
  samples_are UV (lin_vel L) p -> path (lin_vel L) p x y ->
  stages UV p fehlberg [] = Some ks ->
  let d k s := lin_deriv L k (x s) (y s) in
  let t := a_time p in let h := a_dt p in
  exists s1 s2 s3 s4, during p s1 /\ during p s2 /\ during p s3 /\ during p s4 /\
    solution p fehlberg4 ks =
      (x (t + h) - h ^ 5 * (fst (d 5%nat s1) / 120 - fst (d 5%nat t) / 104),
       y (t + h) - h ^ 5 * (snd (d 5%nat s2) / 120 - snd (d 5%nat t) / 104)) /\
    solution p fehlberg5 ks =
      (x (t + h) - h ^ 6 * (fst (d 6%nat s3) / 720 - fst (d 6%nat t) / 2080),
       y (t + h) - h ^ 6 * (snd (d 6%nat s4) / 720 - snd (d 6%nat t) / 2080)).
Proof.
  intros S P H d t h. apply (stages_vel _ _ _ S) in H. subst ks.
  destruct (rkf_lin L p) as [E4 E5]. cbv zeta in E4, E5. rewrite E4, E5. clear E4 E5.
  destruct (lin_taylor L p x y 4 P) as [(s1 & B1 & X) (s2 & B2 & Y)].
  destruct (lin_taylor L p x y 5 P) as [(s3 & B3 & X5) (s4 & B4 & Y5)].
  exists s1, s2, s3, s4. split; [exact B1|]. split; [exact B2|]. split; [exact B3|]. split; [exact B4|].
  destruct P as (X0 & Y0 & _). subst t h d. cbv beta. rewrite X0, Y0.
  assert (F5 : INR (fact 5) = 120) by (cbn; ring). assert (F6 : INR (fact 6) = 720) by (cbn; ring).
  rewrite F5 in X, Y. rewrite F6 in X5, Y5.
  split.
  - rewrite X, Y. f_equal; field.
  - rewrite X5, Y5. f_equal; field.
Qed.

Lemma rk45_repeat_case : exists UV p p', rk45 UV p = ARepeat p' /\ a_lon p' = a_lon p /\ a_lat p' = a_lat p /\ a_dt p' = a_dt p / 2.
Proof.
  exists (fun t _ _ _ => if Req_EM_T t 0 then Some (1, 0) else Some (0, 0)), (mkA 0 0 0 0 1 None).
  pose proof (rk45_ok (fun t _ _ _ => if Req_EM_T t 0 then Some (1, 0) else Some (0, 0)) (mkA 0 0 0 0 1 None)) as H.
  unfold rk45_spec in H. cbn [stages fehlberg a_time a_dt] in H.
  destruct (Req_EM_T (0 + 0 * 1) 0) as [_|N]; [|exfalso; lra].
  repeat match type of H with context[Req_EM_T (0 + ?c * 1) 0] => destruct (Req_EM_T (0 + c * 1) 0) as [?|_]; [exfalso; lra|] end.
  cbn [app] in H. cbv zeta in H.
  match type of H with context[distance ?a ?b] => assert (E : distance a b = 1 / 360) end.
  { unfold distance, solution, dot. cbn [map combine fold_right fst snd fehlberg4 fehlberg5 a_lon a_lat a_dt].
    match goal with |- sqrt ?e = _ => replace e with ((1 / 360) ^ 2) by field end. apply sqrt_pow2. lra. }
  rewrite E in H. rewrite (Rabs_right 1) in H by lra.
  destruct (Rle_dec (1 / 360) (1 * (1 / 100000))) as [C|_] in H; [exfalso; lra|].
  destruct H as (p' & H & X & Y & _ & _ & D & _). exists p'. cbn in *. auto.
Qed.

Lemma fail_unmoved : forall UV UVW p p',
  (ee UV p = AFail p' -> p' = p) /\ (rk4 UV p = AFail p' -> p' = p) /\
  (rk4_3d UVW p = AFail p' -> p' = p) /\ (rk45 UV p = AFail p' -> p' = p).
Proof.
  intros UV UVW p p'. split; [|split; [|split]].
  - unfold ee. destruct (UV _ _ _ _) as [[? ?]|]; cbn; congruence.
  - unfold rk4. do 4 (destruct (UV _ _ _ _) as [[? ?]|]; cbn [sampled]; [|congruence]). congruence.
  - unfold rk4_3d. do 4 (destruct (UVW _ _ _ _) as [[[? ?] ?]|]; cbn [sampled]; [|congruence]). congruence.
  - unfold rk45. cbv zeta. do 6 (destruct (UV _ _ _ _) as [[? ?]|]; cbn [sampled]; [|congruence]).
    destruct (Rle_dec _ _); [destruct (Rle_dec _ _)|]; congruence.
Qed.
