(** Proofs for C36. *)
From Coq Require Import String List ZArith QArith Qreals Reals Bool Arith Lia Lra.
From Verif Require Import GenModel GenSpec GenProofs GenProofs2 UnitModel UnitSpec.
Import ListNotations.
Local Open Scope string_scope.
Local Open Scope list_scope.
Open Scope R_scope.

Lemma cos_pos y : between_poles y -> 0 < cos (y * pi / 180).
Proof.
  intros [H1 H2]. pose proof PI_RGT_0 as P. apply cos_gt_0; unfold Rdiv; nra.
Qed.

Lemma round_trip u v y : between_poles y ->
  to_source u (to_target u v y) y = v /\ to_target u (to_source u v y) y = v.
Proof.
  intros B. pose proof (cos_pos y B) as C.
  destruct u; cbn [to_source to_target]; split; try reflexivity; field; lra.
Qed.

Lemma field_units mesh name u v y : between_poles y -> converter_for mesh name = Some u ->
  to_target u v y = v / size_of mesh name y.
Proof.
  intros B. pose proof (cos_pos y B) as C. unfold converter_for, size_of, metres_of_lat, metres_of_lon.
  destruct (String.eqb name "U"), (String.eqb name "V"), (String.eqb name "Kh_zonal"),
    (String.eqb name "Kh_meridional"), (String.eqb mesh "flat"), (String.eqb mesh "spherical");
    intros H; try discriminate H; injection H as <-; cbn [to_target]; field; try (split; lra); lra.
Qed.

Lemma converter_exists mesh name : mesh = "flat" \/ mesh = "spherical" -> converter_for mesh name <> None.
Proof.
  intros [-> | ->]; unfold converter_for; cbn [String.eqb Ascii.eqb Bool.eqb];
    destruct (String.eqb name "U"), (String.eqb name "V"), (String.eqb name "Kh_zonal"),
      (String.eqb name "Kh_meridional"); discriminate.
Qed.

Lemma lat_arc v y : metres_of_lat (to_target Geographic v y) = v.
Proof. unfold metres_of_lat. cbn. field. Qed.

Lemma lon_arc v y : between_poles y -> metres_of_lon (to_target GeographicPolar v y) y = v.
Proof. intros B. pose proof (cos_pos y B). unfold metres_of_lon. cbn. field. lra. Qed.

(** * The C text *)

Definition x_mile : cexpr :=
  XBin O_mul (XBin O_mul (XNum (NFlt 1000)) (XNum (NFlt (1852#1000)))) (XNum (NFlt 60)).
Definition x_polar (e : cexpr) : cexpr :=
  XBin O_mul x_mile (XCall1 (NFun "cos") (XBin O_div (XBin O_mul e (XId M_PI)) (XNum (NInt 180)))).
Definition x_over (e : cexpr) : cexpr := XBin O_div (XNum (NFlt 1)) e.
Definition x_square (e : cexpr) : cexpr := XCall2 (NFun "pow") e (XNum (NInt 2)).

Lemma p_mile : phrase 5 t_mile x_mile.
Proof.
  unfold t_mile, x_mile.
  apply (ph_mul O_mul [k_flt 1000; KOp O_mul; k_flt (1852#1000)] [k_flt 60]); [cbn; auto| |apply ph_num].
  apply (ph_mul O_mul [k_flt 1000] [k_flt (1852#1000)]); [cbn; auto| |apply ph_num].
  apply ph_up; [lia|]. apply ph_num.
Qed.

Lemma p_polar ty e : phrase 5 ty e -> phrase 5 (t_polar ty) (x_polar e).
Proof.
  intros P. unfold t_polar, x_polar.
  replace (t_mile ++ [KOp O_mul; k_cos; KLP] ++ ty ++ [KOp O_mul; KId M_PI; KOp O_div; KNum (NInt 180); KRP])
    with (t_mile ++ KOp O_mul :: (KId (NFun "cos") :: KLP :: ((ty ++ KOp O_mul :: [KId M_PI]) ++ KOp O_div :: [KNum (NInt 180)]) ++ [KRP]))
    by (cbn [app]; rewrite <- !app_assoc; reflexivity).
  apply ph_mul; [cbn; auto|apply p_mile|]. apply ph_call1. apply (phrase_lower 5); [|lia].
  apply ph_mul; [cbn; auto| |apply ph_num]. apply ph_mul; [cbn; auto|exact P|apply ph_id].
Qed.

Lemma p_over ts e : phrase 0 ts e -> phrase 5 (t_over ts) (x_over e).
Proof.
  intros P. unfold t_over, x_over.
  change ([k_flt 1; KOp O_div; KLP] ++ ts ++ [KRP]) with ([k_flt 1] ++ KOp O_div :: (KLP :: ts ++ [KRP])).
  apply ph_mul; [cbn; auto| |apply ph_par; exact P]. apply ph_up; [lia|]. apply ph_num.
Qed.

Lemma p_square ts e : phrase 0 ts e -> phrase 6 (t_square ts) (x_square e).
Proof. intros P. apply (ph_call2 (NFun "pow") ts [KNum (NInt 2)]); [exact P|]. apply (phrase_lower 6); [|lia]. apply ph_num. Qed.

Lemma p0 l ts e : (l <= 6)%nat -> phrase l ts e -> phrase 0 ts e.
Proof. intros H P. apply (phrase_lower l); [exact P|lia]. Qed.

Definition x_target (u : converter) (e : cexpr) : cexpr :=
  match u with
  | NoConversion => XNum (NFlt 1)
  | Geographic => x_over x_mile
  | GeographicPolar => x_over (x_polar e)
  | GeographicSquare => x_square (x_over x_mile)
  | GeographicPolarSquare => x_square (x_over (x_polar e))
  end.
Definition x_source (u : converter) (e : cexpr) : cexpr :=
  match u with
  | NoConversion => XNum (NFlt 1)
  | Geographic => x_mile
  | GeographicPolar => x_polar e
  | GeographicSquare => x_square x_mile
  | GeographicPolarSquare => x_square (x_polar e)
  end.

Lemma text_parsed u ty e : phrase 5 ty e ->
  cparse (ccode_to_target u ty) = Some (x_target u e) /\ cparse (ccode_to_source u ty) = Some (x_source u e).
Proof.
  intros P. pose proof p_mile as M. pose proof (p_polar _ _ P) as Q.
  assert (M0 := p0 _ _ _ (le_S _ _ (le_n 5)) M). assert (Q0 := p0 _ _ _ (le_S _ _ (le_n 5)) Q).
  pose proof (p_over _ _ M0) as OM. pose proof (p_over _ _ Q0) as OQ.
  assert (OM0 := p0 _ _ _ (le_S _ _ (le_n 5)) OM). assert (OQ0 := p0 _ _ _ (le_S _ _ (le_n 5)) OQ).
  split; apply cparse_spec; destruct u; cbn [ccode_to_target ccode_to_source x_target x_source];
    (apply (p0 6); [lia|]).
  - apply ph_num. - apply ph_par; exact OM0. - apply ph_par; exact OQ0.
  - apply p_square; exact OM0. - apply p_square; exact OQ0.
  - apply ph_num. - apply ph_par; exact M0. - apply ph_par; exact Q0.
  - apply p_square. apply (p0 6); [lia|]. apply ph_par; exact M0.
  - apply p_square. apply (p0 6); [lia|]. apply ph_par; exact Q0.
Qed.

Lemma q1000 : Q2R 1000 = 1000. Proof. unfold Q2R. cbn. lra. Qed.
Lemma q1852 : Q2R (1852#1000) = 1852/1000. Proof. unfold Q2R. cbn. lra. Qed.
Lemma q60 : Q2R 60 = 60. Proof. unfold Q2R. cbn. lra. Qed.
Lemma qone : Q2R 1 = 1. Proof. unfold Q2R. cbn. lra. Qed.

Lemma v_mile env : rval env x_mile = Some (RR (1000 * (1852/1000) * 60)).
Proof. cbn [rval x_mile rarith rnum]. rewrite q1000, q1852, q60. reflexivity. Qed.

Lemma v_polar env e v : knows_pi env -> rval env e = Some v ->
  rval env (x_polar e) = Some (RR (1000 * (1852/1000) * 60 * cos (rnum v * pi / 180))).
Proof.
  intros K E. unfold x_polar. cbn [rval]. rewrite v_mile, E, K. cbn [rarith].
  destruct (Req_EM_T (rnum (RI 180)) 0) as [H|_]; [cbn in H; lra|]. destruct v; reflexivity.
Qed.

Lemma v_over env e r : rval env e = Some (RR r) -> r <> 0 -> rval env (x_over e) = Some (RR (1 / r)).
Proof.
  intros E H. unfold x_over. cbn [rval]. rewrite E. cbn [rarith rnum].
  destruct (Req_EM_T r 0); [contradiction|]. rewrite qone. reflexivity.
Qed.

Lemma v_square env e r : rval env e = Some (RR r) -> rval env (x_square e) = Some (RR (r ^ 2)).
Proof. intros E. unfold x_square. cbn [rval]. rewrite E. reflexivity. Qed.

Lemma text_num_parsed env ts e : cparse ts = Some e ->
  text_num env ts = match rval env e with Some v => Some (rnum v) | None => None end.
Proof. intros E. unfold text_num. rewrite E. reflexivity. Qed.

Lemma c_factor u ty e env v : phrase 5 ty e -> knows_pi env -> rval env e = Some v -> between_poles (rnum v) ->
  (exists k, text_num env (ccode_to_target u ty) = Some k /\ forall x, x * k = to_target u x (rnum v)) /\
  (exists k, text_num env (ccode_to_source u ty) = Some k /\ forall x, x * k = to_source u x (rnum v)).
Proof.
  intros P K E B. pose proof (cos_pos _ B) as C. destruct (text_parsed u ty e P) as [T S].
  rewrite (text_num_parsed _ _ _ T), (text_num_parsed _ _ _ S).
  pose proof (v_mile env) as M. pose proof (v_polar env e v K E) as Q.
  assert (NM : 1000 * (1852/1000) * 60 <> 0) by lra.
  assert (NQ : 1000 * (1852/1000) * 60 * cos (rnum v * pi / 180) <> 0) by nra.
  pose proof (v_over _ _ _ M NM) as OM. pose proof (v_over _ _ _ Q NQ) as OQ.
  split; destruct u; cbn [x_target x_source].
  - eexists. split; [reflexivity|]. intros x. cbn [rnum to_target]. rewrite qone. ring.
  - rewrite OM. eexists. split; [reflexivity|]. intros x. cbn [rnum to_target]. field.
  - rewrite OQ. eexists. split; [reflexivity|]. intros x. cbn [rnum to_target]. field. lra.
  - rewrite (v_square _ _ _ OM). eexists. split; [reflexivity|]. intros x. cbn [rnum to_target]. field.
  - rewrite (v_square _ _ _ OQ). eexists. split; [reflexivity|]. intros x. cbn [rnum to_target]. field. lra.
  - eexists. split; [reflexivity|]. intros x. cbn [rnum to_source]. rewrite qone. ring.
  - rewrite M. eexists. split; [reflexivity|]. intros x. cbn [rnum to_source]. ring.
  - rewrite Q. eexists. split; [reflexivity|]. intros x. cbn [rnum to_source]. ring.
  - rewrite (v_square _ _ _ M). eexists. split; [reflexivity|]. intros x. cbn [rnum to_source]. ring.
  - rewrite (v_square _ _ _ Q). eexists. split; [reflexivity|]. intros x. cbn [rnum to_source]. ring.
Qed.

(** The latitude argument of a kernel. *)
Lemma c_factor_expr ncomp aint e n te cs n' u env y :
  fits ncomp aint e = true -> (5 <= level ncomp e)%nat -> hoist ncomp n e = (te, cs, n') ->
  exists ts, gen te = Some ts /\
    (text_num env ts = Some y -> knows_pi env -> between_poles y ->
     (exists k, text_num env (ccode_to_target u ts) = Some k /\ forall x, x * k = to_target u x y) /\
     (exists k, text_num env (ccode_to_source u ts) = Some k /\ forall x, x * k = to_source u x y)).
Proof.
  intros F L H.
  destruct (gen_ok ncomp aint (fun _ _ => None) (fun _ _ _ _ _ => Sampled []) e n te cs n' F H)
    as (ts & t & G & (P & _)).
  exists ts. split; [exact G|]. intros T K B.
  assert (P5 : phrase 5 ts t).
  { apply (phrase_lower (level ncomp e)); [exact P|lia]. }
  assert (P0 : cparse ts = Some t) by (apply cparse_spec; apply (p0 5); [lia|exact P5]).
  rewrite (text_num_parsed _ _ _ P0) in T. destruct (rval env t) as [v|] eqn:E; [|discriminate T].
  injection T as <-. apply (c_factor u ts t env v P5 K E B).
Qed.

(** The latitude is a sample of a sum of two fields, pi and 0 degrees at this place. *)
Definition lat_of_sum : expr :=
  EField "S" (ELeaf (LVar "time")) (ELeaf (LAttr "depth")) (ELeaf (LAttr "lat")) (ELeaf (LAttr "lon")).
Definition two_parts (f : string) : nat := if String.eqb f "S" then 2 else 1.
Definition sum_env (c : cname) : option rv :=
  match c with
  | NTmp 0 => Some (RR pi)
  | NTmp 1 => Some (RR 0)
  | NLeaf (LMath _) => Some (RR pi)
  | _ => None
  end.

Lemma summed_lat :
  exists te cs n' ts y k,
    hoist two_parts 0 lat_of_sum = (te, cs, n') /\ gen te = Some ts /\
    text_num sum_env ts = Some y /\ knows_pi sum_env /\ between_poles y /\
    text_num sum_env (ccode_to_target GeographicPolar ts) = Some k /\
    1 * k < 0 < to_target GeographicPolar 1 y.
Proof.
  pose proof PI_RGT_0 as P. pose proof PI_4 as P4.
  eexists _, _, _, _, (pi + 0), _. split; [reflexivity|]. split; [reflexivity|]. split; [reflexivity|].
  split; [reflexivity|]. assert (B : between_poles (pi + 0)) by (unfold between_poles; lra).
  split; [exact B|]. split.
  - unfold text_num. cbn -[cparse rval].
    match goal with |- context [cparse ?l] => let v := eval vm_compute in (cparse l) in
      replace (cparse l) with v by (vm_compute; reflexivity) end.
    cbn [rval sum_env M_PI String.eqb Ascii.eqb Bool.eqb rarith rnum].
    destruct (Req_EM_T 180 0); [lra|]. cbn [rnum rarith].
    replace (pi + 0 * pi / 180) with pi by field. rewrite cos_PI, q1000, q60, qone.
    replace (Q2R (1852 # 1000)) with (1852/1000) by (symmetry; apply q1852).
    match goal with |- context [Req_EM_T ?a 0] => destruct (Req_EM_T a 0); [lra|] end. reflexivity.
  - pose proof (cos_pos _ B). split; [cbn [rnum]; lra|]. cbn [to_target].
    apply Rdiv_lt_0_compat; [lra|assumption].
Qed.

(** ** Cases *)
Definition case_env (c : cname) : option rv :=
  match c with
  | NLeaf (LAttr _) => Some (RR 60)
  | NLeaf (LMath _) => Some (RR pi)
  | _ => None
  end.

Lemma case_ok :
  fits two_parts (fun _ => false) (ELeaf (LAttr "lat")) = true /\
  (5 <= level two_parts (ELeaf (LAttr "lat")))%nat /\
  hoist two_parts 0 (ELeaf (LAttr "lat")) = (RLeaf (LAttr "lat"), [], 0%nat) /\
  gen (RLeaf (LAttr "lat")) = Some [KId (NLeaf (LAttr "lat"))] /\
  text_num case_env [KId (NLeaf (LAttr "lat"))] = Some 60 /\ knows_pi case_env /\ between_poles 60 /\
  to_target GeographicPolar 1852 60 = 2 / 60.
Proof.
  repeat (split; [try reflexivity; try (cbn; lia); try (unfold between_poles; lra)|]).
  cbn [to_target]. replace (60 * pi / 180) with (pi / 3) by field. rewrite cos_PI3. lra.
Qed.
