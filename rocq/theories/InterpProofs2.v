From Coq Require Import List ZArith Bool QArith Qabs Qround Lia Lqa ZifyBool Psatz.
From Verif Require Import IdxModel IdxSpec IdxProofs TimeModel InterpModel InterpSpec TimeProofs InterpProofs.
Import ListNotations.
Open Scope Q_scope.

Lemma indices_zero : forall f, linear_field f -> indices_ok f 0 0 0.
Proof.
  intros f (_ & _ & _ & _ & [LX _] & [LY _] & [LZ _] & _). unfold indices_ok, valid_start. repeat split; lia.
Qed.
Lemma history_ok : forall f hist i, linear_field f -> (let '(xi, yi, zi) := i in indices_ok f xi yi zi) ->
  let '(xi, yi, zi) := fold_left (fun i p => let '(xi, yi, zi) := i in let '(x, y, z) := p in c_indices f x y z xi yi zi) hist i in
  indices_ok f xi yi zi.
Proof.
  intros f hist. induction hist as [|[[x y] z] hist IH]; intros [[xi yi] zi] LF H; [exact H|]. cbn [fold_left].
  destruct (c_indices f x y z xi yi zi) as [[xi' yi'] zi'] eqn:E. apply IH; [exact LF|]. eapply c_indices_ok; eassumption.
Qed.
Lemma c_history_ok : forall f hist xi yi zi, linear_field f -> c_history f hist = (xi, yi, zi) -> indices_ok f xi yi zi.
Proof.
  intros f hist xi yi zi LF E. pose proof (history_ok f hist (0, 0, 0)%Z LF (indices_zero f LF)) as H.
  unfold c_history in E. rewrite E in H. exact H.
Qed.

(** The time index stays in range. *)
Lemma c_walk_range : forall dec l x i j, (0 <= i < zlen l)%Z -> c_walk dec l x i = Some j -> (0 <= j < zlen l)%Z.
Proof.
  intros dec l x i j R E. unfold c_walk in E.
  destruct (c_up_spec dec l x (Z.to_nat (zlen l - 1 - i)) i ltac:(lia) ltac:(lia)) as (a & A & A1 & _). rewrite A in E.
  destruct (c_down_spec dec l x (Z.to_nat a) a ltac:(lia) ltac:(lia)) as (b & B & B1 & _). rewrite B in E. inversion E; subst. lia.
Qed.
Theorem c_time_range : forall k per tm f0 fn t ti t' j, (1 <= zlen tm)%Z -> (ti < zlen tm)%Z ->
  c_time k per tm f0 fn t ti = Some (t', j) -> (0 <= j < zlen tm)%Z.
Proof.
  induction k as [|k IH]; intros per tm f0 fn t ti t' j L T E; [discriminate|]. cbn [c_time] in E.
  rewrite !cget_in in E by lia.
  assert (ST : (0 <= (if (ti <? 0)%Z then 0 else ti) < zlen tm)%Z) by (destruct (ti <? 0)%Z eqn:E1; lia).
  assert (GO : forall r, (forall a b, r = Some (a, b) -> (0 <= b < zlen tm)%Z) ->
     match r with None => None | Some (t1, i1) => match c_walk false tm t1 i1 with None => None | Some j => Some (t1, j) end end = Some (t', j) ->
     (0 <= j < zlen tm)%Z).
  { intros [[a b]|] H X; [|discriminate]. specialize (H a b eq_refl). destruct (c_walk false tm a b) eqn:W; [|discriminate].
    inversion X; subst. eapply c_walk_range; eassumption. }
  apply GO in E; [exact E|]. clear GO E. intros a b E.
  destruct per; [|inversion E; subst; exact ST].
  destruct (qlt t _); [eapply IH; [exact L| |exact E]; lia|]. destruct (qlt _ t); [eapply IH; [exact L| |exact E]; lia|].
  inversion E; subst; exact ST.
Qed.

(** ** Whole-number periods *)
Theorem py_sample_periodic : forall f t n x y z, linear_field f -> s_periodic f = true -> (1 < zlen (s_time f))%Z ->
  same_result (py_sample f t x y z) (py_sample f (t + inject_Z n * (last_ (s_time f) - first_ (s_time f))) x y z).
Proof.
  intros f t n x y z LF P L1. set (t2 := t + inject_Z n * (last_ (s_time f) - first_ (s_time f))).
  pose proof LF as (_ & _ & _ & _ & _ & _ & _ & [LT IT]).
  assert (TO : forall s, time_ok f s) by (intros; left; split; assumption).
  destruct (position_cases f x y z LF) as [PI|[e PE]].
  - pose proof (py_sample_value f t x y z LF PI) as A. pose proof (py_sample_value f t2 x y z LF PI) as B.
    unfold samples_as in A, B. rewrite P in A, B. destruct (A L1) as (q & a & -> & A1 & A2). destruct (B L1) as (q' & b & -> & B1 & B2).
    cbn. eapply field_value_unique; [exact LF|exact A2|exact B2|].
    apply (wraps_unique (s_time f) t t2 a b (inc_dir _ L1 IT) A1 B1). exists n. reflexivity.
  - rewrite !(py_sample_error f _ x y z e LF PE (TO _)). reflexivity.
Qed.

(** In JIT mode, except where the time falls on the end of a period... *)
Theorem c_sample_periodic : forall k f t n x y z xi0 yi0 zi0 ti0 xi1 yi1 zi1 ti1,
  linear_field f -> s_periodic f = true -> (1 < zlen (s_time f))%Z ->
  indices_ok f xi0 yi0 zi0 -> (ti0 < zlen (s_time f))%Z -> indices_ok f xi1 yi1 zi1 -> (ti1 < zlen (s_time f))%Z -> (1 < k)%nat ->
  (forall m, ~ t == first_ (s_time f) + inject_Z m * (last_ (s_time f) - first_ (s_time f))) ->
  same_result (c_sample k f t x y z xi0 yi0 zi0 ti0)
              (c_sample k f (t + inject_Z n * (last_ (s_time f) - first_ (s_time f))) x y z xi1 yi1 zi1 ti1).
Proof.
  intros k f t n x y z xi0 yi0 zi0 ti0 xi1 yi1 zi1 ti1 LF P L1 I0 T0 I1 T1 K NE.
  set (T := last_ (s_time f) - first_ (s_time f)) in *.
  assert (N1 : ~ t == last_ (s_time f)).
  { intros C. apply (NE 1%Z). change (inject_Z 1) with 1. unfold T. lra. }
  assert (N2 : ~ t + inject_Z n * T == last_ (s_time f)).
  { intros C. apply (NE (1 - n)%Z). unfold Z.sub. rewrite inject_Z_plus, inject_Z_opp. change (inject_Z 1) with 1. unfold T in *. lra. }
  pose proof (modes_sample_same k f t x y z xi0 yi0 zi0 ti0 LF (or_introl L1) I0 T0 K (or_intror N1)) as A.
  pose proof (modes_sample_same k f _ x y z xi1 yi1 zi1 ti1 LF (or_introl L1) I1 T1 K (or_intror N2)) as B.
  pose proof (py_sample_periodic f t n x y z LF P L1) as C. fold T in C.
  destruct (py_sample f t x y z), (py_sample f (t + inject_Z n * T) x y z), (c_sample k f t x y z xi0 yi0 zi0 ti0),
    (c_sample k f (t + inject_Z n * T) x y z xi1 yi1 zi1 ti1); cbn in *; try contradiction; try congruence; lra.
Qed.
