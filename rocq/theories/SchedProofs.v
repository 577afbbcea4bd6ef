From Coq Require Import List ZArith Bool Lia ZifyBool.
From Verif Require Import SchedModel SchedSpec.
Import ListNotations.
Open Scope Z_scope.

Ltac Zify.zify_post_hook ::= Z.div_mod_to_equations.

Lemma kind_eqb_eq : forall a b, kind_eqb a b = true <-> a = b.
Proof. intros [] []; cbn; split; congruence. Qed.

Lemma closest_cases : forall dt a b, closest dt a b = b \/ a = Some (closest dt a b).
Proof.
  intros. unfold closest. destruct a as [x|]; [|auto]. destruct (0 <? dt).
  - destruct (Z.min_spec x b) as [[_ ->]|[_ ->]]; auto.
  - destruct (Z.max_spec x b) as [[_ ->]|[_ ->]]; auto.
Qed.

Lemma closest_le : forall dt a b, dt <> 0 -> 0 <= Z.sgn dt * (b - closest dt a b).
Proof. intros. unfold closest. destruct a; [|lia]. destruct (0 <? dt) eqn:B; lia. Qed.

Lemma closest_le_l : forall dt x b, dt <> 0 -> 0 <= Z.sgn dt * (x - closest dt (Some x) b).
Proof. intros. unfold closest. destruct (0 <? dt) eqn:B; lia. Qed.

Lemma window_end_le_end : forall dt endt nx nin, dt <> 0 -> 0 <= Z.sgn dt * (endt - window_end dt endt nx nin).
Proof.
  intros. unfold window_end.
  pose proof (closest_le dt (nx KCallback) endt H) as A.
  set (c1 := closest dt (nx KCallback) endt) in *.
  pose proof (closest_le dt (nx KMovie) c1 H) as B. set (c2 := closest dt (nx KMovie) c1) in *.
  pose proof (closest_le dt (nx KOutput) c2 H) as C. set (c3 := closest dt (nx KOutput) c2) in *.
  pose proof (closest_le dt nin c3 H) as D. set (c4 := closest dt nin c3) in *.
  pose proof (closest_le dt (nx KRelease) c4 H) as E. set (c5 := closest dt (nx KRelease) c4) in *.
  lia.
Qed.

Lemma window_end_le_next : forall dt endt nx nin k n, dt <> 0 -> nx k = Some n ->
  0 <= Z.sgn dt * (n - window_end dt endt nx nin).
Proof.
  intros dt endt nx nin k n H N. unfold window_end.
  set (c1 := closest dt (nx KCallback) endt) in *.
  pose proof (closest_le dt (nx KMovie) c1 H) as B.
  assert (A1 : forall b, nx k = Some n -> 0 <= Z.sgn dt * (n - closest dt (nx k) b)).
  { intros b Q. rewrite Q. apply closest_le_l. exact H. }
  set (c2 := closest dt (nx KMovie) c1) in *.
  pose proof (closest_le dt (nx KOutput) c2 H) as C. set (c3 := closest dt (nx KOutput) c2) in *.
  pose proof (closest_le dt nin c3 H) as D. set (c4 := closest dt nin c3) in *.
  pose proof (closest_le dt (nx KRelease) c4 H) as E. set (c5 := closest dt (nx KRelease) c4) in *.
  destruct k.
  - specialize (A1 c4 N). fold c5 in A1. lia.
  - specialize (A1 c2 N). fold c3 in A1. lia.
  - specialize (A1 c1 N). fold c2 in A1. lia.
  - specialize (A1 endt N). fold c1 in A1. lia.
Qed.

Lemma window_end_cases : forall dt endt nx nin,
  let t := window_end dt endt nx nin in t = endt \/ nin = Some t \/ exists k, nx k = Some t.
Proof.
  intros. unfold t, window_end.
  set (c1 := closest dt (nx KCallback) endt). set (c2 := closest dt (nx KMovie) c1).
  set (c3 := closest dt (nx KOutput) c2). set (c4 := closest dt nin c3).
  destruct (closest_cases dt (nx KRelease) c4) as [E|E]; [rewrite E|eauto].
  unfold c4 in *. destruct (closest_cases dt nin c3) as [D|D]; [rewrite D|auto].
  unfold c3 in *. destruct (closest_cases dt (nx KOutput) c2) as [C|C]; [rewrite C|eauto].
  unfold c2 in *. destruct (closest_cases dt (nx KMovie) c1) as [B|B]; [rewrite B|eauto].
  unfold c1 in *. destruct (closest_cases dt (nx KCallback) endt) as [A|A]; [rewrite A; auto|eauto].
Qed.

(** The times of the events of one kind. *)
Definition sel (k : kind) (v : sev) : list Z :=
  match k, v with
  | KRelease, SRelease t | KOutput, SWrite t | KMovie, SShow t | KCallback, SCallback t => [t]
  | _, _ => []
  end.
Definition times (k : kind) (tr : list sev) : list Z := flat_map (sel k) tr.
Definition on (out cbs : bool) (k : kind) : bool :=
  match k with KOutput => out | KCallback => cbs | _ => true end.

Lemma times_app : forall k a b, times k (a ++ b) = times k a ++ times k b.
Proof. intros. apply flat_map_app. Qed.

Lemma times_event : forall out cbs k k' t,
  times k (event_of out cbs k' t) = if kind_eqb k' k && on out cbs k then [t] else [].
Proof. intros out cbs k k' t. destruct k', k; cbn; try reflexivity; destruct out, cbs; reflexivity. Qed.

Lemma event_of_exec : forall out cbs k t, exec_times (event_of out cbs k t) = [].
Proof. intros out cbs [] t; cbn; destruct out, cbs; reflexivity. Qed.

Definition due (per nx : kind -> option Z) (t : Z) (k : kind) : bool :=
  match nx k, per k with Some n, Some _ => t =? n | _, _ => false end.

Section P1.
Context {W : Type}.
Variable act : kind -> W -> Z -> Z -> W.

Lemma serve_spec : forall dt per out cbs t ks nx w nx2 w2 tr,
  NoDup ks -> serve act dt per out cbs t ks nx w = (nx2, w2, tr) ->
  exec_times tr = [] /\
  forall k,
    (times k tr = if existsb (kind_eqb k) ks && due per nx t k && on out cbs k then [t] else []) /\
    nx2 k = (if existsb (kind_eqb k) ks && due per nx t k
             then match nx k, per k with Some n, Some p => Some (n + p * Z.sgn dt) | o, _ => o end
             else nx k).
Proof.
  intros dt per out cbs t ks. induction ks as [|k0 ks IH]; intros nx w nx2 w2 tr ND S; cbn [serve] in S.
  - inversion S; subst. split; [reflexivity|]. intros k. split; reflexivity.
  - inversion ND as [|? ? NI ND']; subst.
    assert (NK : forall k, kind_eqb k k0 = true -> existsb (kind_eqb k) ks = false).
    { intros k Q. apply kind_eqb_eq in Q. subst k. destruct (existsb (kind_eqb k0) ks) eqn:B; [|reflexivity].
      apply existsb_exists in B. destruct B as (x & IX & QX). apply kind_eqb_eq in QX. subst x. contradiction. }
    assert (SK : due per nx t k0 = false -> serve act dt per out cbs t ks nx w = (nx2, w2, tr) ->
      exec_times tr = [] /\ forall k,
      (times k tr = if existsb (kind_eqb k) (k0 :: ks) && due per nx t k && on out cbs k then [t] else []) /\
      nx2 k = (if existsb (kind_eqb k) (k0 :: ks) && due per nx t k
             then match nx k, per k with Some n, Some p => Some (n + p * Z.sgn dt) | o, _ => o end
             else nx k)).
    { intros D0 S'. destruct (IH _ _ _ _ _ ND' S') as [EX REST]. split; [exact EX|]. intros k.
      destruct (REST k) as [R1 R2]. cbn [existsb]. destruct (kind_eqb k k0) eqn:Q; [|exact (conj R1 R2)].
      pose proof (NK _ Q) as NKk. rewrite NKk in *. apply kind_eqb_eq in Q. subst k. rewrite D0. cbn in *. auto. }
    destruct (nx k0) as [n|] eqn:N; [|apply SK; [unfold due; rewrite N; reflexivity|exact S]].
    destruct (per k0) as [p|] eqn:P; [|apply SK; [unfold due; rewrite N, P; reflexivity|exact S]].
    destruct (t =? n) eqn:T; [|apply SK; [unfold due; rewrite N, P; exact T|exact S]].
    clear SK. set (w1 := match event_of out cbs k0 t with [] => w | _ => act k0 w t dt end) in *.
    set (nx1 := upd nx k0 (Some (n + p * Z.sgn dt))) in *.
    destruct (serve act dt per out cbs t ks nx1 w1) as [[nx3 w3] tr3] eqn:S3.
    assert (R : nx3 = nx2 /\ w3 = w2 /\ tr = event_of out cbs k0 t ++ tr3)
      by (inversion S; auto). destruct R as (-> & -> & ->). clear S.
    destruct (IH _ _ _ _ _ ND' S3) as [EX REST]. split.
    { unfold exec_times in *. rewrite flat_map_app. fold (exec_times (event_of out cbs k0 t)).
      rewrite event_of_exec. exact EX. }
    intros k. destruct (REST k) as [R1 R2]. rewrite times_app, times_event, R1, R2. cbn [existsb].
    destruct (kind_eqb k k0) eqn:Q.
    + pose proof (NK _ Q) as NKk. rewrite NKk in *. apply kind_eqb_eq in Q. subst k.
      assert (DU : due per nx t k0 = true) by (unfold due; rewrite N, P; exact T).
      rewrite DU, N, P. cbn [orb andb].
      replace (kind_eqb k0 k0) with true by (destruct k0; reflexivity). cbn [andb]. rewrite app_nil_r.
      split; [reflexivity|]. unfold nx1, upd. replace (kind_eqb k0 k0) with true by (destruct k0; reflexivity).
      reflexivity.
    + assert (Q' : kind_eqb k0 k = false).
      { destruct (kind_eqb k0 k) eqn:B; [|reflexivity]. apply kind_eqb_eq in B. subst k.
        destruct k0; discriminate. }
      assert (NX : nx1 k = nx k) by (unfold nx1, upd; rewrite Q'; reflexivity).
      unfold due. rewrite NX, Q'. cbn [andb orb app]. auto.
Qed.

Lemma serve_kinds : forall dt per out cbs t nx w nx2 w2 tr,
  serve act dt per out cbs t kinds nx w = (nx2, w2, tr) ->
  exec_times tr = [] /\
  forall k,
    (times k tr = if due per nx t k && on out cbs k then [t] else []) /\
    nx2 k = (if due per nx t k
             then match nx k, per k with Some n, Some p => Some (n + p * Z.sgn dt) | o, _ => o end
             else nx k).
Proof.
  intros dt per out cbs t nx w nx2 w2 tr S.
  destruct (serve_spec _ _ _ _ _ _ _ _ _ _ _ (ltac:(repeat constructor; cbn; intuition discriminate) : NoDup kinds) S)
    as [EX REST]. split; [exact EX|]. intros k. destruct (REST k) as [A B].
  assert (Q : existsb (kind_eqb k) kinds = true) by (destruct k; reflexivity). rewrite Q in *. auto.
Qed.

End P1.

(** ** Periodic times *)

Definition tick_count (s n p endt : Z) : nat :=
  if s * (endt - n) <? 0 then O else Z.to_nat (s * (endt - n) / p + 1).
Definition ticks (s n p endt : Z) : list Z :=
  map (fun k => n + s * (p * Z.of_nat k)) (seq 0 (tick_count s n p endt)).

Lemma map_seq_shift : forall (f g : nat -> Z) a b n,
  (forall k, f (a + k)%nat = g (b + k)%nat) -> map f (seq a n) = map g (seq b n).
Proof.
  intros f g a b n. revert a b. induction n; intros a b Q; [reflexivity|]. cbn [seq map]. f_equal.
  - specialize (Q O). rewrite !Nat.add_0_r in Q. exact Q.
  - apply IHn. intros k. replace (S a + k)%nat with (a + S k)%nat by lia.
    replace (S b + k)%nat with (b + S k)%nat by lia. apply Q.
Qed.

Lemma ticks_none : forall s n p endt, s * (endt - n) < 0 -> ticks s n p endt = [].
Proof. intros. unfold ticks, tick_count. replace (s * (endt - n) <? 0) with true by lia. reflexivity. Qed.

Lemma ticks_step : forall s n p endt, (s = 1 \/ s = -1) -> 0 < p -> 0 <= s * (endt - n) ->
  ticks s n p endt = n :: ticks s (n + p * s) p endt.
Proof.
  intros s n p endt S P D. unfold ticks, tick_count.
  replace (s * (endt - n) <? 0) with false by lia.
  set (d := s * (endt - n)) in *.
  replace (s * (endt - (n + p * s))) with (d - p) by (unfold d; destruct S; subst s; lia).
  destruct (d - p <? 0) eqn:B.
  - replace (d / p) with 0 by (symmetry; apply Z.div_small; lia).
    change (Z.to_nat (0 + 1)) with 1%nat. cbn [seq map]. f_equal. change (Z.of_nat 0) with 0. ring.
  - assert (Q : d / p = (d - p) / p + 1).
    { replace d with ((d - p) + 1 * p) at 1 by lia. apply Z.div_add. lia. }
    assert (0 <= (d - p) / p) by (apply Z.div_pos; lia).
    rewrite Q. replace (Z.to_nat ((d - p) / p + 1 + 1)) with (Datatypes.S (Z.to_nat ((d - p) / p + 1))) by lia.
    cbn [seq map]. f_equal; [change (Z.of_nat 0) with 0; ring|]. apply map_seq_shift. intros k.
    rewrite !Nat2Z.inj_add. cbn [Z.of_nat Pos.of_succ_nat]. ring.
Qed.

Lemma in_ticks : forall s n p endt t, (s = 1 \/ s = -1) -> 0 < p ->
  (In t (ticks s n p endt) <-> (exists k, 0 <= k /\ t = n + s * (k * p)) /\ 0 <= s * (endt - t)).
Proof.
  intros s n p endt t S P. unfold ticks, tick_count. set (d := s * (endt - n)). split.
  - intros I. apply in_map_iff in I. destruct I as (k & <- & IK). apply in_seq in IK.
    destruct (d <? 0) eqn:B; [lia|]. split; [exists (Z.of_nat k); split; [lia|f_equal; f_equal; apply Z.mul_comm]|].
    assert (Z.of_nat k <= d / p) by lia.
    assert (p * (d / p) <= d) by (apply Z.mul_div_le; lia).
    assert (p * Z.of_nat k <= d) by nia. unfold d in *. destruct S; subst s; lia.
  - intros ((k & K0 & ->) & LE). apply in_map_iff. exists (Z.to_nat k).
    split; [rewrite Z2Nat.id by lia; f_equal; f_equal; apply Z.mul_comm|]. apply in_seq.
    assert (KP : k * p <= d) by (unfold d in *; destruct S; subst s; nia).
    replace (d <? 0) with false by nia.
    assert (k <= d / p) by (apply Z.div_le_lower_bound; lia). lia.
Qed.

Lemma ticks_ordered : forall dt n p endt t0, dt <> 0 -> 0 < p -> 0 < Z.sgn dt * (n - t0) ->
  ordered_after dt t0 (ticks (Z.sgn dt) n p endt).
Proof.
  intros dt n p endt t0 D P N. unfold ticks. set (c := tick_count _ _ _ _). clearbody c.
  assert (G : forall m a t, 0 < Z.sgn dt * (n + Z.sgn dt * (p * Z.of_nat a) - t) ->
            ordered_after dt t (map (fun k => n + Z.sgn dt * (p * Z.of_nat k)) (seq a m))).
  { induction m; intros a t Q; cbn [seq map ordered_after]; [exact I|]. split; [exact Q|].
    apply IHm. nia. }
  apply G. cbn. rewrite Z.mul_0_r, Z.mul_0_r, Z.add_0_r. exact N.
Qed.

(** ** The loop *)

Definition ahead (dt t : Z) (o : option Z) : Prop :=
  match o with Some n => 0 < Z.sgn dt * (n - t) | None => True end.

Definition inv (dt time : Z) (per nx : kind -> option Z) (nin : option Z) : Prop :=
  (forall k, ahead dt time (nx k)) /\ (forall k, positive (per k)) /\
  (forall k, nx k = None <-> per k = None) /\ ahead dt time nin.

Lemma window_end_after : forall dt endt time per nx nin, dt <> 0 -> inv dt time per nx nin ->
  0 < Z.sgn dt * (endt - time) -> 0 < Z.sgn dt * (window_end dt endt nx nin - time).
Proof.
  intros dt endt time per nx nin D (A & _ & _ & B) L.
  destruct (window_end_cases dt endt nx nin) as [Q|[Q|[k Q]]].
  - rewrite Q. exact L.
  - rewrite Q in B. exact B.
  - specialize (A k). rewrite Q in A. exact A.
Qed.

Section P.
Context {W : Type}.
Variable exec : W -> Z -> Z -> option W.
Variable begin_run : W -> Z -> W.
Variable act : kind -> W -> Z -> Z -> W.
Variable input : W -> Z -> Z -> option (W * option Z).

Lemma sloop_spec : forall fuel dt endt per out cbs time nx nin w t w' tr r,
  dt <> 0 -> input_ahead input dt ->
  inv dt time per nx nin -> 0 <= Z.sgn dt * (endt - time) ->
  sloop exec act input fuel dt endt per out cbs time nx nin w = (t, w', tr, r) ->
  ((Z.to_nat (Z.sgn dt * (endt - time)) < fuel)%nat -> r <> SFuel) /\
  (r = SDone ->
   t = endt /\ leads_to dt time (exec_times tr) endt /\
   forall k, times k tr = match nx k, per k with
                          | Some n, Some p => if on out cbs k then ticks (Z.sgn dt) n p endt else []
                          | _, _ => []
                          end).
Proof.
  induction fuel; intros dt endt per out cbs time nx nin w t w' tr r D IA INV LE R; cbn [sloop] in R.
  - destruct (((time <? endt) && (0 <? dt)) || ((endt <? time) && (dt <? 0)) || (dt =? 0)) eqn:C.
    + inversion R; subst. split; [lia|discriminate].
    + assert (T : time = endt) by lia. inversion R; subst.
      split; [intros _; discriminate|]. intros _. split; [reflexivity|]. split; [reflexivity|].
      intros k. destruct INV as (A & P & N & _). specialize (A k). specialize (P k). cbn [times flat_map].
      destruct (nx k) as [n|]; [|reflexivity]. destruct (per k) as [p|]; [|reflexivity].
      destruct (on out cbs k); [|reflexivity]. rewrite ticks_none; [reflexivity|]. cbn in A. lia.
  - destruct (((time <? endt) && (0 <? dt)) || ((endt <? time) && (dt <? 0)) || (dt =? 0)) eqn:C.
    2:{ assert (T : time = endt) by lia. inversion R; subst.
      split; [intros _; discriminate|]. intros _. split; [reflexivity|]. split; [reflexivity|].
      intros k. destruct INV as (A & P & N & _). specialize (A k). specialize (P k). cbn [times flat_map].
      destruct (nx k) as [n|]; [|reflexivity]. destruct (per k) as [p|]; [|reflexivity].
      destruct (on out cbs k); [|reflexivity]. rewrite ticks_none; [reflexivity|]. cbn in A. lia. }
    assert (LT : 0 < Z.sgn dt * (endt - time)) by lia.
    pose proof (window_end_after _ _ _ _ _ _ D INV LT) as WA.
    pose proof (window_end_le_end dt endt nx nin D) as WE.
    pose proof (fun k n => window_end_le_next dt endt nx nin k n D) as WN.
    set (t1 := window_end dt endt nx nin) in *.
    destruct (exec w t1 dt) as [w1|]; [|inversion R; subst; split; [discriminate|discriminate]].
    destruct (serve act dt per out cbs t1 kinds nx w1) as [[nx2 w2] tr2] eqn:SV.
    destruct (serve_kinds _ _ _ _ _ _ _ _ _ _ _ SV) as [EX SK].
    replace (dt =? 0) with false in R by lia.
    assert (S1 : Z.sgn dt = 1 \/ Z.sgn dt = -1) by lia.
    assert (INV2 : forall nin', ahead dt t1 nin' -> inv dt t1 per nx2 nin').
    { intros nin' AN. destruct INV as (A & P & N & _). split; [|split; [exact P|split; [|exact AN]]].
      - intros k. destruct (SK k) as [_ ->]. unfold due.
        specialize (A k). specialize (P k). specialize (N k). specialize (WN k).
        destruct (nx k) as [n|] eqn:NX; [|exact I].
        destruct (per k) as [p|] eqn:PK; [|exfalso; destruct N; intuition congruence].
        specialize (WN n eq_refl). cbn [ahead positive] in *.
        destruct (t1 =? n) eqn:TQ; cbn [ahead]; destruct S1 as [S1|S1]; rewrite S1 in *; lia.
      - intros k. destruct (SK k) as [_ ->]. unfold due. specialize (N k).
        destruct (nx k) as [n|], (per k) as [p|]; try (destruct (t1 =? n)); split; intros; try congruence;
          destruct N as [N1 N2]; try (specialize (N1 eq_refl); congruence); try (specialize (N2 eq_refl); congruence). }
    (* one step of each periodic interrupt *)
    assert (STEP : forall k,
       times k tr2 ++ match nx2 k, per k with
                      | Some n, Some p => if on out cbs k then ticks (Z.sgn dt) n p endt else []
                      | _, _ => [] end =
       match nx k, per k with
       | Some n, Some p => if on out cbs k then ticks (Z.sgn dt) n p endt else []
       | _, _ => [] end).
    { intros k. destruct (SK k) as [-> ->]. destruct INV as (A & P & N & _). unfold due.
      specialize (A k). specialize (P k). specialize (WN k).
      destruct (nx k) as [n|] eqn:NX; [|reflexivity]. destruct (per k) as [p|] eqn:PK; [|reflexivity].
      specialize (WN n eq_refl). cbn [ahead positive] in *.
      destruct (t1 =? n) eqn:TQ; cbn [andb]; [|reflexivity].
      destruct (on out cbs k); [|reflexivity]. apply Z.eqb_eq in TQ. subst n.
      rewrite (ticks_step (Z.sgn dt) t1 p endt S1 P WE). reflexivity. }
    assert (FIN : forall nin' w3 tr0 t4 w4 tr4 r4,
       exec_times tr0 = [] -> (forall k, times k tr0 = []) -> ahead dt t1 nin' \/ t1 = endt ->
       sloop exec act input fuel dt endt per out cbs t1 nx2 nin' w3 = (t4, w4, tr4, r4) ->
       (t, w', tr, r) = (t4, w4, SExec t1 :: tr2 ++ tr0 ++ tr4, r4) ->
       ((Z.to_nat (Z.sgn dt * (endt - time)) < S fuel)%nat -> r <> SFuel) /\
       (r = SDone ->
         t = endt /\ leads_to dt time (exec_times tr) endt /\
         forall k, times k tr = match nx k, per k with
                          | Some n, Some p => if on out cbs k then ticks (Z.sgn dt) n p endt else []
                          | _, _ => [] end)).
    { intros nin' w3 tr0 t4 w4 tr4 r4 E0 T0 AN SL RR. inversion RR; subst t4 w4 r4 tr. clear RR.
      assert (SL' : exists nin2, ahead dt t1 nin2 /\
         sloop exec act input fuel dt endt per out cbs t1 nx2 nin2 w3 = (t, w', tr4, r)).
      { destruct AN as [AN|AN]; [exists nin'; auto|]. exists None. split; [exact I|].
        rewrite <- SL. destruct fuel; cbn [sloop];
          replace (((t1 <? endt) && (0 <? dt)) || ((endt <? t1) && (dt <? 0)) || (dt =? 0)) with false by lia;
          reflexivity. }
      destruct SL' as (nin2 & AN2 & SL2).
      destruct (IHfuel _ _ _ _ _ _ _ _ _ _ _ _ _ D IA (INV2 nin2 AN2) WE SL2) as [F1 F2].
      split; [intros FU; apply F1; lia|]. intros RD. destruct (F2 RD) as (-> & LD & TK).
      split; [reflexivity|]. split.
      - cbn [exec_times flat_map app]. fold (exec_times (tr2 ++ tr0 ++ tr4)).
        assert (Q : exec_times (tr2 ++ tr0 ++ tr4) = exec_times tr4).
        { unfold exec_times in *. rewrite !flat_map_app, EX, E0. reflexivity. }
        rewrite Q. cbn [leads_to]. auto.
      - intros k. cbn [times flat_map]. replace (sel k (SExec t1)) with (@nil Z) by (destruct k; reflexivity).
        cbn [app]. fold (times k (tr2 ++ tr0 ++ tr4)). rewrite !times_app, T0. cbn [app].
        rewrite TK. apply STEP. }
    destruct (t1 =? endt) eqn:TE.
    + destruct (sloop exec act input fuel dt endt per out cbs t1 nx2 nin w2) as [[[t3 w3] tr3] r3] eqn:SL.
      apply (FIN nin w2 [] t3 w3 tr3 r3); auto. right. lia.
    + destruct (input w2 t1 dt) as [[w3 nin']|] eqn:IN.
      2:{ inversion R; subst. split; discriminate. }
      destruct (sloop exec act input fuel dt endt per out cbs t1 nx2 nin' w3) as [[[t4 w4] tr4] r4] eqn:SL.
      apply (FIN nin' w3 [SInput t1] t4 w4 tr4 r4); auto.
      * intros k. destruct k; reflexivity.
      * left. destruct nin' as [n|]; [|exact I]. cbn. eapply IA; [reflexivity|exact IN].
Qed.

(** ** execute *)

Lemma periods_pos : forall a, positive_periods a -> forall k, positive (periods a k).
Proof.
  intros a (R & O & M & C) [].
  - unfold periods. destruct (a_repeat a) as [[| |]|]; exact I || exact R.
  - exact O.
  - exact M.
  - unfold periods, callback_period. destruct (a_callback a); [exact C|].
    destruct (a_movie a), (a_output a), (a_repeat a); cbn in *; lia.
Qed.

Lemma first_next_ahead : forall a dt start rs k, dt <> 0 -> positive_periods a ->
  ahead dt start (first_next a dt start rs k).
Proof.
  intros a dt start rs k D PP. pose proof (periods_pos a PP k) as P. unfold first_next.
  destruct (periods a k) as [p|]; [|exact I]. cbn [positive] in P.
  assert (S1 : Z.sgn dt = 1 \/ Z.sgn dt = -1) by lia.
  destruct k; cbn [ahead]; try (destruct (0 <? dt) eqn:B; lia).
Qed.

Lemma first_next_none : forall a dt start rs k, first_next a dt start rs k = None <-> periods a k = None.
Proof. intros. unfold first_next. destruct (periods a k); [destruct k|]; split; congruence. Qed.

(** What one call of execute that moves time does. *)
Lemma sexecute_spec : forall fuel eps a start rs dflt endt w w' tr r,
  resolve_end a start dflt = Some endt ->
  resolve_once eps a start endt = (a_dt a, endt) -> a_dt a <> 0 ->
  positive_periods a -> input_ahead input (a_dt a) -> 0 <= Z.sgn (a_dt a) * (endt - start) ->
  sexecute exec begin_run act input fuel eps a start rs dflt w = (w', tr, r) ->
  ((Z.to_nat (Z.abs (endt - start)) < fuel)%nat -> r <> SFuel) /\
  (r = SDone ->
   leads_to (a_dt a) start (exec_times tr) endt /\
   let tk k := match first_next a (a_dt a) start (match rs with Some x => x | None => start end) k, periods a k with
               | Some n, Some p => ticks (Z.sgn (a_dt a)) n p endt
               | _, _ => [] end in
   (write_times tr = if a_out a then start :: tk KOutput ++ [endt] else []) /\
   release_times tr = tk KRelease).
Proof.
  intros fuel eps a start rs dflt endt w w' tr r RE RO D PP IA LE R. unfold sexecute in R.
  rewrite RE in R. set (rs0 := match rs with Some x => x | None => start end) in *. cbn zeta in R.
  rewrite RO in R. set (w0 := begin_run w (a_dt a)) in *.
  set (w1 := if a_out a then act KOutput w0 start (a_dt a) else w0) in *.
  set (tr1 := if a_out a then [SWrite start] else []) in *.
  set (w2 := match a_movie a with Some (Zpos _) => act KMovie w1 start (a_dt a) | _ => w1 end) in *.
  set (tr2 := match a_movie a with Some (Zpos _) => [SShow start] | _ => [] end) in *.
  destruct (input w2 start (Z.sgn (a_dt a))) as [[w3 nin]|] eqn:IN; [|inversion R; subst; split; discriminate].
  assert (SS : Z.sgn (Z.sgn (a_dt a)) = Z.sgn (a_dt a)) by lia.
  destruct (sloop exec act input fuel (a_dt a) endt (periods a) (a_out a) (a_cbs a) start
              (first_next a (a_dt a) start rs0) nin w3) as [[[t w4] tr4] r4] eqn:SL.
  assert (INV : inv (a_dt a) start (periods a) (first_next a (a_dt a) start rs0) nin).
  { split; [intros; apply first_next_ahead; assumption|]. split; [apply periods_pos; exact PP|].
    split; [intros; apply first_next_none|]. destruct nin as [n|]; [|exact I]. cbn.
    eapply IA; [exact SS|exact IN]. }
  destruct (sloop_spec _ _ _ _ _ _ _ _ _ _ _ _ _ _ D IA INV LE SL) as [F1 F2].
  assert (R4 : r = r4 /\ (r4 = SDone -> tr = tr1 ++ tr2 ++ SInput start :: tr4 ++ (if a_out a then [SWrite t] else []))).
  { destruct r4; [|inversion R; subst; split; [reflexivity|discriminate]..].
    destruct (a_out a); inversion R; subst; split; try reflexivity; intros _; rewrite <- ?app_assoc; cbn [app];
      rewrite ?app_nil_r; reflexivity. }
  destruct R4 as [-> TR].
  split. { intros FU. apply F1. replace (Z.sgn (a_dt a) * (endt - start)) with (Z.abs (endt - start)) by lia. exact FU. }
  intros RD. specialize (TR RD). destruct (F2 RD) as (-> & LD & TK). clear F1 F2.
  assert (X1 : exec_times tr1 = [] /\ release_times tr1 = [] /\ write_times tr1 = if a_out a then [start] else [])
    by (unfold tr1; destruct (a_out a); auto).
  assert (X2 : exec_times tr2 = [] /\ release_times tr2 = [] /\ write_times tr2 = [])
    by (unfold tr2; destruct (a_movie a) as [[| |]|]; auto).
  destruct X1 as (A1 & A2 & A3), X2 as (B1 & B2 & B3).
  assert (X3 : forall b : bool, exec_times (if b then [SWrite endt] else []) = [] /\
                         release_times (if b then [SWrite endt] else []) = [] /\
                         write_times (if b then [SWrite endt] else []) = if b then [endt] else [])
    by (intros []; auto).
  destruct (X3 (a_out a)) as (C1 & C2 & C3).
  subst tr. split; [|split].
  - unfold exec_times in *. rewrite !flat_map_app. cbn [flat_map]. rewrite flat_map_app, A1, B1, C1.
    cbn [app]. rewrite app_nil_r. exact LD.
  - unfold write_times in *. rewrite !flat_map_app. cbn [flat_map]. rewrite flat_map_app, A3, B3, C3. cbn [app].
    specialize (TK KOutput).
    assert (Q : flat_map (fun v => match v with SWrite t => [t] | _ => [] end) tr4 = times KOutput tr4)
      by reflexivity.
    rewrite Q, TK. cbn [on]. destruct (a_out a).
    + cbn [app]. f_equal. 
    + destruct (first_next a (a_dt a) start rs0 KOutput); [destruct (periods a KOutput)|]; reflexivity.
  - unfold release_times in *. rewrite !flat_map_app. cbn [flat_map]. rewrite flat_map_app, A2, B2, C2. cbn [app].
    rewrite app_nil_r. specialize (TK KRelease).
    assert (Q : flat_map (fun v => match v with SRelease t => [t] | _ => [] end) tr4 = times KRelease tr4)
      by reflexivity.
    rewrite Q, TK. reflexivity.
Qed.


Lemma requested_resolves : forall a start dflt endt, requested a start dflt endt -> resolve_end a start dflt = Some endt.
Proof.
  intros a start dflt endt [R N]. unfold resolve_end.
  assert (N1 : neg (a_output a) = false) by (destruct (a_output a) as [x|]; [specialize (N x (or_introl eq_refl)); cbn; lia|reflexivity]).
  assert (N2 : neg (a_movie a) = false) by (destruct (a_movie a) as [x|]; [specialize (N x (or_intror eq_refl)); cbn; lia|reflexivity]).
  rewrite N1, N2. destruct (a_runtime a) as [r|]; cbn [neg orb].
  - destruct (a_endtime a); [contradiction|]. destruct R as [R ->]. replace (r <? 0) with false by lia. cbn [orb].
    f_equal. lia.
  - destruct (a_endtime a); subst; reflexivity.
Qed.

Lemma resolve_moves : forall eps a start dflt endt, moves eps a start dflt endt ->
  resolve_once eps a start endt = (a_dt a, endt) /\ a_dt a <> 0 /\ 0 <= Z.sgn (a_dt a) * (endt - start).
Proof.
  intros eps a start dflt endt (RE & RT & EP & LT). assert (D : a_dt a <> 0) by lia.
  split; [|split; [exact D|lia]]. unfold resolve_once.
  replace (Z.abs (endt - start) <? eps) with false by lia. replace (a_dt a =? 0) with false by lia.
  destruct (a_runtime a) as [[| |]|]; try reflexivity. contradiction.
Qed.

Lemma execute_covers_all : forall fuel eps a start rs dflt endt w w' tr r,
  moves eps a start dflt endt -> positive_periods a -> input_ahead input (a_dt a) ->
  sexecute exec begin_run act input fuel eps a start rs dflt w = (w', tr, r) ->
  ((Z.to_nat (Z.abs (endt - start)) < fuel)%nat -> r <> SFuel) /\
  (r = SDone -> leads_to (a_dt a) start (exec_times tr) endt).
Proof.
  intros fuel eps a start rs dflt endt w w' tr r M PP IA R.
  destruct (resolve_moves _ _ _ _ _ M) as (RO & D & LE). destruct M as (RE & _). apply requested_resolves in RE.
  destruct (sexecute_spec _ _ _ _ _ _ _ _ _ _ _ RE RO D PP IA LE R) as [A B].
  split; [exact A|]. intros Q. apply B in Q. apply Q.
Qed.

Lemma ticks_multiples : forall dt base p t0 t1 q, dt <> 0 -> 0 < p -> 0 <= q ->
  q * p <= Z.sgn dt * (t0 - base) < (q + 1) * p ->
  all_multiples dt base p t0 t1 (ticks (Z.sgn dt) (base + Z.sgn dt * ((q + 1) * p)) p t1).
Proof.
  intros dt base p t0 t1 q D P Q0 Q. assert (S1 : Z.sgn dt = 1 \/ Z.sgn dt = -1) by lia. split.
  - apply ticks_ordered; try assumption. destruct S1 as [S1|S1]; rewrite S1 in *; lia.
  - intros t. rewrite in_ticks by assumption. split.
    + intros ((k & K0 & ->) & L). split; [|split; [|exact L]].
      * exists (q + 1 + k). split; [lia|]. destruct S1 as [S1|S1]; rewrite S1; ring.
      * destruct S1 as [S1|S1]; rewrite S1 in *; nia.
    + intros ((k & K1 & ->) & L & G). split; [|exact G].
      exists (k - (q + 1)). split; [|destruct S1 as [S1|S1]; rewrite S1; ring].
      assert (q * p < k * p) by (destruct S1 as [S1|S1]; rewrite S1 in *; lia). nia.
Qed.

Lemma writes_all : forall fuel eps a start rs dflt endt w w' tr o,
  moves eps a start dflt endt -> positive_periods a -> input_ahead input (a_dt a) ->
  a_out a = true -> a_output a = Some o ->
  sexecute exec begin_run act input fuel eps a start rs dflt w = (w', tr, SDone) ->
  exists mid, write_times tr = start :: mid ++ [endt] /\ all_multiples (a_dt a) start o start endt mid.
Proof.
  intros fuel eps a start rs dflt endt w w' tr o M PP IA AO O R.
  destruct (resolve_moves _ _ _ _ _ M) as (RO & D & LE). destruct M as (RE & _). apply requested_resolves in RE.
  destruct (sexecute_spec _ _ _ _ _ _ _ _ _ _ _ RE RO D PP IA LE R) as [_ B].
  destruct (B eq_refl) as (_ & WT & _). rewrite AO in WT. cbn [first_next periods] in WT.
  unfold first_next, periods in WT. rewrite O in WT.
  assert (P : 0 < o) by (destruct PP as (_ & PO & _); rewrite O in PO; exact PO).
  eexists. split; [exact WT|].
  replace (if 0 <? a_dt a then start + o else start - o) with (start + Z.sgn (a_dt a) * ((0 + 1) * o)).
  - apply ticks_multiples; try assumption; lia.
  - destruct (0 <? a_dt a) eqn:Q; [replace (Z.sgn (a_dt a)) with 1 by lia|replace (Z.sgn (a_dt a)) with (-1) by lia]; lia.
Qed.

Lemma no_output_period_writes : forall fuel eps a start rs dflt endt w w' tr,
  moves eps a start dflt endt -> positive_periods a -> input_ahead input (a_dt a) ->
  a_out a = true -> a_output a = None ->
  sexecute exec begin_run act input fuel eps a start rs dflt w = (w', tr, SDone) ->
  write_times tr = [start; endt].
Proof.
  intros fuel eps a start rs dflt endt w w' tr M PP IA AO O R.
  destruct (resolve_moves _ _ _ _ _ M) as (RO & D & LE). destruct M as (RE & _). apply requested_resolves in RE.
  destruct (sexecute_spec _ _ _ _ _ _ _ _ _ _ _ RE RO D PP IA LE R) as [_ B].
  destruct (B eq_refl) as (_ & WT & _). rewrite AO in WT.
  unfold first_next, periods in WT. rewrite O in WT. exact WT.
Qed.

Lemma releases_one : forall fuel eps a start rs dflt endt w w' tr r,
  moves eps a start dflt endt -> positive_periods a -> input_ahead input (a_dt a) ->
  a_repeat a = Some r ->
  sexecute exec begin_run act input fuel eps a start rs dflt w = (w', tr, SDone) ->
  let base := match rs with Some x => x | None => start end in
  0 <= Z.sgn (a_dt a) * (start - base) ->
  all_multiples (a_dt a) base r start endt (release_times tr).
Proof.
  intros fuel eps a start rs dflt endt w w' tr r M PP IA RP R base BS.
  destruct (resolve_moves _ _ _ _ _ M) as (RO & D & LE). destruct M as (RE & _). apply requested_resolves in RE.
  destruct (sexecute_spec _ _ _ _ _ _ _ _ _ _ _ RE RO D PP IA LE R) as [_ B].
  destruct (B eq_refl) as (_ & _ & RT). fold base in RT.
  assert (P : 0 < r) by (destruct PP as (PR & _); rewrite RP in PR; exact PR).
  unfold first_next, periods in RT. rewrite RP in RT. destruct r as [|r|r]; try lia.
  rewrite RT. replace (base + (Z.abs (start - base) / Z.pos r + 1) * Z.pos r * Z.sgn (a_dt a))
    with (base + Z.sgn (a_dt a) * ((Z.abs (start - base) / Z.pos r + 1) * Z.pos r)) by lia.
  replace (Z.abs (start - base)) with (Z.sgn (a_dt a) * (start - base)) by lia.
  set (d := Z.sgn (a_dt a) * (start - base)) in *.
  apply ticks_multiples; [exact D|lia|apply Z.div_pos; lia|].
  fold d. pose proof (Z.mul_div_le d (Z.pos r) P). pose proof (Z.mul_succ_div_gt d (Z.pos r) P). lia.
Qed.

Lemma ordered_app : forall dt t0 xs t1 ys, ordered_after dt t0 xs ->
  (forall x, In x xs -> 0 <= Z.sgn dt * (t1 - x)) -> 0 <= Z.sgn dt * (t1 - t0) -> ordered_after dt t1 ys ->
  ordered_after dt t0 (xs ++ ys).
Proof.
  intros dt t0 xs. revert t0. induction xs as [|x xs IH]; intros t0 t1 ys O L T Y.
  - cbn. destruct ys as [|y ys]; [exact I|]. cbn in *. destruct Y. split; [lia|assumption].
  - cbn in *. destruct O as [O1 O2]. split; [exact O1|]. apply (IH x t1); auto.
Qed.

Lemma multiples_app : forall dt base p t0 t1 t2 xs ys,
  0 <= Z.sgn dt * (t1 - t0) -> 0 <= Z.sgn dt * (t2 - t1) ->
  all_multiples dt base p t0 t1 xs -> all_multiples dt base p t1 t2 ys ->
  all_multiples dt base p t0 t2 (xs ++ ys).
Proof.
  intros dt base p t0 t1 t2 xs ys L1 L2 [OX MX] [OY MY]. split.
  - apply (ordered_app dt t0 xs t1 ys); auto. intros x I. apply MX in I. lia.
  - intros t. rewrite in_app_iff, MX, MY. split.
    + intros [(E & A & B)|(E & A & B)]; (split; [exact E|lia]).
    + intros (E & A & B). destruct (Z_lt_le_dec 0 (Z.sgn dt * (t - t1))); [right|left]; (split; [exact E|lia]).
Qed.

Lemma ordered_sgn : forall d1 d2 xs t, Z.sgn d1 = Z.sgn d2 -> ordered_after d1 t xs -> ordered_after d2 t xs.
Proof. intros d1 d2 xs. induction xs; intros t S O; cbn in *; [exact I|]. rewrite <- S. destruct O. split; auto. Qed.

Lemma multiples_sgn : forall d1 d2 base p t0 t1 ts, Z.sgn d1 = Z.sgn d2 ->
  all_multiples d1 base p t0 t1 ts -> all_multiples d2 base p t0 t1 ts.
Proof.
  intros d1 d2 base p t0 t1 ts S [O M]. split; [eapply ordered_sgn; eassumption|]. rewrite <- S. exact M.
Qed.

Lemma releases_split : forall eps dt r rs t0 t2 tr,
  input_ahead input dt -> dt <> 0 -> 0 < r ->
  consecutive exec begin_run act input eps dt r rs t0 t2 tr ->
  let base := match rs with Some x => x | None => t0 end in
  0 <= Z.sgn dt * (t0 - base) ->
  0 <= Z.sgn dt * (t2 - t0) /\ all_multiples dt base r t0 t2 (release_times tr).
Proof.
  intros eps dt r rs t0 t2 tr IA D P C. induction C; intros base B.
  - split; [lia|]. split; [exact I|]. intros x. split; [intros []|]. intros (_ & A1 & A2). lia.
  - assert (IA' : input_ahead input (a_dt a)).
    { intros w1 t d w2 n S E. rewrite H. eapply IA; [|exact E]. congruence. }
    assert (B' : 0 <= Z.sgn (a_dt a) * (t0 - base)) by (rewrite H; exact B).
    pose proof (releases_one _ _ _ _ _ _ _ _ _ _ _ H2 H1 IA' H0 H3 B') as R1. fold base in R1.
    apply (multiples_sgn _ dt) in R1; [|exact H].
    destruct H2 as (_ & _ & _ & LT). rewrite H in LT.
    assert (BB : match rs_after rs t0 with Some x => x | None => t1 end = base)
      by (unfold base; destruct rs; reflexivity).
    cbn zeta in IHC. rewrite BB in IHC. destruct IHC as [LE R2]; [lia|].
    split; [lia|]. unfold release_times in *. rewrite flat_map_app. eapply multiples_app; [| |exact R1|exact R2]; lia.
Qed.

(** A run that does not move time: exactly one window, at the start time. *)
Lemma once_all : forall fuel eps a start rs dflt endt w w' tr r,
  requested a start dflt endt ->
  (a_dt a = 0 \/ Z.abs (endt - start) < eps \/ a_runtime a = Some 0) ->
  positive_periods a ->
  (forall w1 w2 n, input w1 start 0 = Some (w2, Some n) -> n <= start) ->
  match rs with Some x => x <= start | None => True end ->
  sexecute exec begin_run act input (S fuel) eps a start rs dflt w = (w', tr, r) ->
  r <> SFuel /\ (r = SDone -> exec_times tr = [start]).
Proof.
  intros fuel eps a start rs dflt endt w w' tr r RE ON PP IN RS R. apply requested_resolves in RE. unfold sexecute in R.
  rewrite RE in R. set (rs0 := match rs with Some x => x | None => start end) in *. cbn zeta in R.
  assert (RO : resolve_once eps a start endt = (0, start)).
  { unfold resolve_once. destruct ON as [O|[O|O]].
    - rewrite O, Z.eqb_refl, orb_true_r. reflexivity.
    - replace (Z.abs (endt - start) <? eps) with true by lia. reflexivity.
    - rewrite O, orb_true_r. reflexivity. }
  rewrite RO in R. set (w1 := if a_out a then _ else _) in R.
  set (tr1 := if a_out a then [SWrite start] else []) in R.
  set (w2 := match a_movie a with Some (Zpos _) => act KMovie w1 start 0 | _ => w1 end) in *.
  set (tr2 := match a_movie a with Some (Zpos _) => [SShow start] | _ => [] end) in *.
  change (Z.sgn 0) with 0 in R.
  destruct (input w2 start 0) as [[w3 nin]|] eqn:I0; [|inversion R; subst; split; discriminate].
  assert (WE : window_end 0 start (first_next a 0 start rs0) nin = start).
  { destruct (window_end_cases 0 start (first_next a 0 start rs0) nin) as [Q|Q]; [exact Q|].
    assert (LE : window_end 0 start (first_next a 0 start rs0) nin <= start).
    { set (we := window_end 0 start (first_next a 0 start rs0) nin) in *. clearbody we.
      destruct Q as [Q|[k Q]]; [subst nin; eapply IN; exact I0|].
      pose proof (periods_pos a PP k) as P. unfold first_next in Q.
      destruct (periods a k) as [p|]; [|discriminate]. cbn [positive] in P.
      destruct k; [|inversion Q as [Q']; rewrite Q'; cbn in Q'; lia..].
      change (Z.sgn 0) with 0 in Q. rewrite Z.mul_0_r in Q. inversion Q as [Q']. rewrite Q'.
      unfold rs0 in *. destruct rs; lia. }
    assert (GE : forall o b, b <= closest 0 o b) by (intros [x|] b; cbn; lia).
    unfold window_end in *.
    pose proof (GE (first_next a 0 start rs0 KCallback) start) as G1. set (c1 := closest 0 _ start) in *.
    pose proof (GE (first_next a 0 start rs0 KMovie) c1) as G2. set (c2 := closest 0 _ c1) in *.
    pose proof (GE (first_next a 0 start rs0 KOutput) c2) as G3. set (c3 := closest 0 _ c2) in *.
    pose proof (GE nin c3) as G4. set (c4 := closest 0 _ c3) in *.
    pose proof (GE (first_next a 0 start rs0 KRelease) c4) as G5. set (c5 := closest 0 _ c4) in *. lia. }
  cbn [sloop] in R. rewrite orb_true_r in R. rewrite WE in R.
  destruct (exec w3 start 0) as [w4|]; [|inversion R; subst; split; discriminate].
  destruct (serve act 0 (periods a) (a_out a) (a_cbs a) start kinds (first_next a 0 start rs0) w4) as [[nx5 w5] tr5] eqn:SV.
  destruct (serve_kinds _ _ _ _ _ _ _ _ _ _ _ SV) as [EX _].
  rewrite Z.eqb_refl in R. change (0 =? 0) with true in R. cbv iota in R.
  assert (X1 : exec_times tr1 = []) by (unfold tr1; destruct (a_out a); reflexivity).
  assert (X2 : exec_times tr2 = []) by (unfold tr2; destruct (a_movie a) as [[| |]|]; reflexivity).
  split; [destruct (a_out a); inversion R; subst; discriminate|]. intros _.
  assert (TR : exists tl, (tl = [] \/ tl = [SWrite start]) /\ tr = (tr1 ++ tr2 ++ SInput start :: SExec start :: tr5) ++ tl).
  { destruct (a_out a); inversion R; subst; [exists [SWrite start]|exists []]; rewrite ?app_nil_r; auto. }
  destruct TR as (tl & TL & ->). unfold exec_times in *. rewrite !flat_map_app. cbn [flat_map]. rewrite X1, X2, EX.
  destruct TL; subst tl; reflexivity.
Qed.

(** An end time on the wrong side of the start: nothing is executed. *)
Lemma wrong_side_all : forall fuel eps a start rs dflt endt w w' tr r,
  requested a start dflt endt -> eps <= Z.abs (endt - start) -> a_runtime a <> Some 0 ->
  0 < eps -> Z.sgn (a_dt a) * (endt - start) < 0 ->
  sexecute exec begin_run act input fuel eps a start rs dflt w = (w', tr, r) ->
  exec_times tr = [] /\ release_times tr = [].
Proof.
  intros fuel eps a start rs dflt endt w w' tr r RE EP RT E0 NG R. apply requested_resolves in RE. unfold sexecute in R.
  rewrite RE in R. set (rs0 := match rs with Some x => x | None => start end) in *. cbn zeta in R.
  assert (RO : resolve_once eps a start endt = (a_dt a, endt)).
  { unfold resolve_once. replace (Z.abs (endt - start) <? eps) with false by lia.
    replace (a_dt a =? 0) with false by lia. destruct (a_runtime a) as [[| |]|]; try reflexivity. contradiction. }
  rewrite RO in R.
  set (w0 := begin_run w (a_dt a)) in *.
  set (w1 := if a_out a then act KOutput w0 start (a_dt a) else w0) in *.
  set (tr1 := if a_out a then [SWrite start] else []) in R.
  set (w2 := match a_movie a with Some (Zpos _) => act KMovie w1 start (a_dt a) | _ => w1 end) in *.
  set (tr2 := match a_movie a with Some (Zpos _) => [SShow start] | _ => [] end) in *.
  assert (X1 : exec_times tr1 = [] /\ release_times tr1 = []) by (unfold tr1; destruct (a_out a); auto).
  assert (X2 : exec_times tr2 = [] /\ release_times tr2 = []) by (unfold tr2; destruct (a_movie a) as [[| |]|]; auto).
  destruct X1 as [X1 Y1], X2 as [X2 Y2].
  assert (TR : exists tl, (tl = [] \/ tl = [SWrite start]) /\ tr = (tr1 ++ tr2 ++ [SInput start]) ++ tl).
  { destruct (input w2 start (Z.sgn (a_dt a))) as [[w3 nin]|];
      [|exists []; inversion R; subst; rewrite app_nil_r; auto].
    assert (SL : sloop exec act input fuel (a_dt a) endt (periods a) (a_out a) (a_cbs a) start
              (first_next a (a_dt a) start rs0) nin w3 = (start, w3, [], SDone)).
    { destruct fuel; cbn [sloop];
        replace (((start <? endt) && (0 <? a_dt a)) || ((endt <? start) && (a_dt a <? 0)) || (a_dt a =? 0)) with false by lia;
        reflexivity. }
    rewrite SL in R. destruct (a_out a); inversion R; subst; [exists [SWrite start]|exists []]; rewrite ?app_nil_r; auto. }
  destruct TR as (tl & TL & ->). unfold exec_times, release_times in *. rewrite !flat_map_app. cbn [flat_map].
  rewrite X1, X2, Y1, Y2. destruct TL; subst tl; split; reflexivity.
Qed.

End P.

(** ** Released batches *)

Lemma set_nth_other : forall {A} i j (v d : A) l, i <> j -> nth i (set_nth j v l) d = nth i l d.
Proof. intros A i j v d l. revert i j. induction l as [|h t IH]; intros [|i] [|j] N; cbn; try reflexivity; try lia. apply IH. lia. Qed.

Lemma set_nth_length : forall {A} j (v : A) l, length (set_nth j v l) = length l.
Proof. intros A j v l. revert j. induction l; intros [|j]; cbn; auto. Qed.

Definition detached (s : rset) : Prop := r_live s <> r_rep s /\ (r_rep s < length (r_heap s))%nat.

Lemma detached_step : forall s o s1 b, detached s -> rstep s o = (s1, b) ->
  detached s1 /\ r_rep s1 = r_rep s /\ deref s1 (r_rep s1) = deref s (r_rep s) /\
  (b = [] \/ b = [deref s (r_rep s)]).
Proof.
  intros s o s1 b [N L] E. destruct o; cbn in E; inversion E; subst; clear E; unfold detached, deref; cbn.
  - rewrite set_nth_length. split; [auto|]. split; [reflexivity|]. split; [|auto]. apply set_nth_other. auto.
  - rewrite app_length. cbn. split; [split; lia|]. split; [reflexivity|]. split; [|auto]. apply app_nth1. exact L.
  - rewrite app_length. cbn. split; [split; lia|]. split; [reflexivity|]. split; [|auto]. apply app_nth1. exact L.
Qed.

Lemma detached_run : forall os s, detached s -> Forall (eq (deref s (r_rep s))) (rrun s os).
Proof.
  induction os as [|o os IH]; intros s D; cbn; [constructor|]. destruct (rstep s o) as [s1 b] eqn:E.
  destruct (detached_step _ _ _ _ D E) as (D1 & R1 & Q & B). apply Forall_app. split.
  - destruct B as [->| ->]; repeat constructor.
  - specialize (IH _ D1). rewrite Q in IH. exact IH.
Qed.

Definition attached (s : rset) (xs : list Z) : Prop :=
  r_live s = r_rep s /\ (r_rep s < length (r_heap s))%nat /\ deref s (r_rep s) = xs.

Definition moves_first (os : list rop) (xs : list Z) : list Z :=
  (fix go os xs := match os with RKernel f :: rest => go rest (f xs) | _ => xs end) os xs.

Lemma set_nth_same : forall {A} j (v d : A) l, (j < length l)%nat -> nth j (set_nth j v l) d = v.
Proof. intros A j v d l. revert j. induction l as [|h t IH]; intros [|j] L; cbn in *; try reflexivity; try lia. apply IH. lia. Qed.

Lemma attached_run : forall os s xs, attached s xs -> Forall (eq (moves_first os xs)) (rrun s os).
Proof.
  induction os as [|o os IH]; intros s xs (E & L & V); cbn [rrun]; [constructor|].
  destruct o as [f| |keep]; cbn [rstep moves_first].
  - cbn [app]. apply IH. unfold attached, deref. cbn. rewrite set_nth_length. split; [exact E|]. split; [exact L|].
    rewrite <- E. unfold deref in V. rewrite E, V. apply set_nth_same. exact L.
  - cbn [app]. constructor; [symmetry; exact V|].
    match goal with |- Forall _ (rrun ?s1 _) => assert (D : detached s1) end.
    { unfold detached. cbn. rewrite app_length. cbn. lia. }
    pose proof (detached_run os _ D) as F. unfold deref in *. cbn in F. rewrite app_nth1 in F by exact L.
    rewrite ?V in *. exact F.
  - cbn [app].
    match goal with |- Forall _ (rrun ?s1 _) => assert (D : detached s1) end.
    { unfold detached. cbn. rewrite app_length. cbn. lia. }
    pose proof (detached_run os _ D) as F. unfold deref in *. cbn in F. rewrite app_nth1 in F by exact L.
    rewrite ?V in *. exact F.
Qed.

Lemma batches_all : forall xs os, Forall (eq (moves_first os xs)) (rrun (rconstruct xs) os).
Proof. intros. apply attached_run. repeat split. cbn. lia. Qed.

Lemma batches_original : forall xs os,
  (match os with RKernel _ :: _ => False | _ => True end) -> Forall (eq xs) (rrun (rconstruct xs) os).
Proof.
  intros xs os K. pose proof (batches_all xs os) as F. destruct os as [|[f| |keep] os]; [exact F|contradiction|exact F..].
Qed.

Lemma batches_alike : forall xs os b1 b2, In b1 (rrun (rconstruct xs) os) -> In b2 (rrun (rconstruct xs) os) -> b1 = b2.
Proof.
  intros xs os b1 b2 I1 I2. pose proof (batches_all xs os) as F. rewrite Forall_forall in F.
  rewrite <- (F _ I1), <- (F _ I2). reflexivity.
Qed.

(** ** A zero output period never ends *)
Ltac show_requested := split; [cbn; lia|intros ? [Q|Q]; cbn in Q; inversion Q; subst; lia].
Ltac show_moves := split; [show_requested|repeat split; vm_compute; congruence].

Lemma zero_output_loop : forall fuel t per nx (w : unit),
  t < 10 -> nx KOutput = Some t -> per KOutput = Some 0 ->
  (forall k n, k <> KOutput -> nx k = Some n -> t < n) ->
  snd (sloop (fun w _ _ => Some w) (fun _ w _ _ => w) (fun w _ _ => Some (w, None)) fuel 1 10
    per true false t nx None w) = SFuel.
Proof.
  induction fuel; intros t per nx w L N P O; cbn [sloop]; replace (t <? 10) with true by lia;
    cbn [andb orb Z.ltb Z.compare]; [reflexivity|].
  assert (WE : window_end 1 10 nx None = t).
  { pose proof (window_end_le_next 1 10 nx None KOutput t ltac:(lia) N) as A. change (Z.sgn 1) with 1 in A.
    destruct (window_end_cases 1 10 nx None) as [B|[B|[k B]]]; [lia|discriminate|].
    destruct (kind_eqb k KOutput) eqn:K; [apply kind_eqb_eq in K; subst k; congruence|].
    assert (K' : k <> KOutput) by (intros ->; discriminate). specialize (O k _ K' B). lia. }
  rewrite WE. destruct (serve (fun _ w _ _ => w) 1 per true false t kinds nx w) as [[nx2 w2] tr2] eqn:SV.
  destruct (serve_kinds _ _ _ _ _ _ _ _ _ _ _ SV) as [_ SK].
  replace (t =? 10) with false by lia. change (1 =? 0) with false. cbv iota.
  assert (Q : snd (sloop (fun w _ _ => Some w) (fun _ w _ _ => w) (fun w _ _ => Some (w, None)) fuel 1 10
    per true false t nx2 None w2) = SFuel).
  { apply IHfuel; [exact L| |exact P|].
    - destruct (SK KOutput) as [_ ->]. unfold due. rewrite N, P. destruct (t =? t); f_equal; lia.
    - intros k n K. destruct (SK k) as [_ ->]. unfold due. intros Q. specialize (O k).
      destruct (nx k) as [m|] eqn:NK; [|discriminate]. specialize (O m K eq_refl).
      destruct (per k); [replace (t =? m) with false in Q by lia|]; inversion Q; lia. }
  match type of Q with snd ?x = _ => destruct x as [[[t4 w4] tr4] r4] end. exact Q.
Qed.

Lemma zero_output_run :
  exists a : args, moves 1 a 0 99 10 /\ a_output a = Some 0 /\
    forall fuel, snd (sexecute (fun (w : unit) _ _ => Some w) (fun w _ => w) (fun _ w _ _ => w)
                        (fun w _ _ => Some (w, None)) fuel 1 a 0 None 99 tt) = SFuel.
Proof.
  exists (mkArgs 1 (Some 10) None None (Some 0) None (Some 5) true false).
  split; [show_moves|]. split; [reflexivity|]. intros fuel.
  set (a := mkArgs 1 (Some 10) None None (Some 0) None (Some 5) true false). unfold sexecute.
  change (resolve_end a 0 99) with (Some 10). cbv iota beta zeta.
  change (resolve_once 1 a 0 10) with (1, 10). cbv iota beta zeta.
  change (a_out a) with true. change (a_cbs a) with false. change (a_movie a) with (@None Z). cbv iota.
  match goal with |- context [sloop ?e ?a ?i fuel ?d ?en ?per ?o ?c ?t ?nx ?ni ?w] =>
    assert (Q : snd (sloop e a i fuel d en per o c t nx ni w) = SFuel);
    [apply zero_output_loop; [lia|reflexivity|reflexivity|]|
     destruct (sloop e a i fuel d en per o c t nx ni w) as [[[t4 w4] tr4] r4]] end.
  - intros [] n K E; cbn in E; inversion E; lia || contradiction.
  - cbn in Q. subst r4. reflexivity.
Qed.
