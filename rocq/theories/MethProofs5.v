From Coq Require Import List ZArith Bool QArith Qabs Qround Lia Lqa ZifyBool Psatz.
From Verif Require Import IdxModel IdxSpec IdxBase IdxProofs TimeModel InterpModel InterpSpec TimeProofs InterpProofs MethSpec MethProofs MethProofs2 MethProofs3 MethProofs4.
Import ListNotations.
Open Scope Q_scope.

(** ** In time *)
Definition respects (V : Z -> Q -> Prop) : Prop := forall n q q', q == q' -> V n q -> V n q'.

Lemma by_nonperiodic : forall f V t w r, axis_ok (s_time f) -> respects V -> s_periodic f = false ->
  (forall n, (0 <= n < zlen (s_time f))%Z -> V n (w n)) ->
  nonperiodic_value (s_time f) w (s_extrapolate f) t r -> samples_by f V t r.
Proof.
  intros f V t w r [L _] RV P W (A & B & C & D & E). unfold samples_by. rewrite P. repeat split.
  - intros R. destruct (A R) as (q & Q1 & Q2). exists q. split; [exact Q1|]. exists w. split; assumption.
  - intros [R|R] X; [specialize (B R)|specialize (D R)]; rewrite X in *; assumption.
  - intros R X. destruct (C R X) as (q & Q1 & Q2). exists q. split; [exact Q1|]. apply (RV 0%Z (w 0%Z)); [lra|]. apply W. lia.
  - intros R X. destruct (E R X) as (q & Q1 & Q2). exists q. split; [exact Q1|]. apply (RV _ (w (zlen (s_time f) - 1)%Z)); [lra|]. apply W. lia.
Qed.

Lemma py_by : forall f V t x y z, axis_ok (s_time f) -> respects V ->
  (forall n, (0 <= n < zlen (s_time f))%Z -> exists q, py_spatial f x y z n = IVal q /\ V n q) ->
  samples_by f V t (py_sample f t x y z).
Proof.
  intros f V t x y z AT RV FR.
  assert (F : frames (s_time f) (py_spatial f x y z) (fun n => val_of (py_spatial f x y z n))).
  { intros n N. destruct (FR n N) as (q & E & _). rewrite E. reflexivity. }
  assert (W : forall n, (0 <= n < zlen (s_time f))%Z -> V n (val_of (py_spatial f x y z n))).
  { intros n N. destruct (FR n N) as (q & E & Q1). rewrite E. exact Q1. }
  destruct (ends_eq f AT) as [E0 EN]. unfold py_sample. rewrite E0, EN.
  destruct (s_periodic f) eqn:PER.
  - unfold samples_by. rewrite PER. intros L1.
    destruct (py_eval_periodic (s_extrapolate f) (s_time f) _ _ t AT L1 F) as (q & t' & Q1 & Q2 & Q3).
    exists q, t'. split; [exact Q1|]. split; [exact Q2|]. eexists. split; [exact W|exact Q3].
  - eapply by_nonperiodic; [exact AT|exact RV|exact PER|exact W|]. apply py_eval_nonperiodic; [exact AT|exact F].
Qed.

Lemma c_by : forall k f V t x y z xi0 yi0 zi0 ti0, axis_ok (s_time f) -> respects V ->
  (forall n, (0 <= n < zlen (s_time f))%Z -> exists q, c_spatial f x y z xi0 yi0 zi0 n = IVal q /\ V n q) ->
  (ti0 < zlen (s_time f))%Z -> (1 < k)%nat -> (s_periodic f = false \/ ~ t == last_ (s_time f)) ->
  samples_by f V t (c_sample k f t x y z xi0 yi0 zi0 ti0).
Proof.
  intros k f V t x y z xi0 yi0 zi0 ti0 AT RV FR T0 K NL.
  assert (F : frames (s_time f) (c_spatial f x y z xi0 yi0 zi0) (fun n => val_of (c_spatial f x y z xi0 yi0 zi0 n))).
  { intros n N. destruct (FR n N) as (q & E & _). rewrite E. reflexivity. }
  assert (W : forall n, (0 <= n < zlen (s_time f))%Z -> V n (val_of (c_spatial f x y z xi0 yi0 zi0 n))).
  { intros n N. destruct (FR n N) as (q & E & Q1). rewrite E. exact Q1. }
  destruct (ends_eq f AT) as [E0 EN]. unfold c_sample. rewrite E0, EN.
  destruct (s_periodic f) eqn:PER.
  - unfold samples_by. rewrite PER. intros L1.
    destruct (c_eval_periodic k (s_extrapolate f) (s_time f) _ _ t ti0 AT L1 F T0 K) as (q & t' & Q1 & Q2 & [Q3|[_ Q3]]).
    + exists q, t'. split; [exact Q1|]. split; [exact Q3|]. eexists. split; [exact W|exact Q2].
    + destruct NL as [NL|NL]; [discriminate|contradiction].
  - eapply by_nonperiodic; [exact AT|exact RV|exact PER|exact W|]. apply c_eval_nonperiodic; [exact AT|exact F|exact T0|lia].
Qed.

Lemma method_respects : forall f x y z, respects (fun n q => method_value f n x y z q).
Proof.
  intros f x y z n q q' E. unfold method_value. destruct (s_method f); try (intros H; exact H).
  - intros [[L H]|(L & zi & zeta & q0 & q1 & A & B & C & D)]; [left; split; [exact L|eapply at_level_eq; eassumption]|].
    right. split; [exact L|]. exists zi, zeta, q0, q1. rewrite <- E. repeat (split; [assumption|]). exact D.
  - intros (i & j & k & A & B & C & D). exists i, j, k. rewrite <- E. repeat split; try assumption; apply A || apply B || apply C.
  - intros (zi & zeta & A & B). exists zi, zeta. split; [exact A|eapply at_corner_eq; eassumption].
  - intros (zi & zeta & A & B). exists zi, zeta. split; [exact A|eapply at_corner_eq; eassumption].
  - intros (zi & zeta & A & B). exists zi, zeta. split; [exact A|eapply at_level_eq; eassumption].
  - intros (zi & zeta & q0 & q1 & A & B & C & D). exists zi, zeta, q0, q1. rewrite <- E. repeat (split; [assumption|]). exact D.
Qed.
Lemma surface_respects : forall f x y z, respects (fun n q => surface_value f n x y z q).
Proof.
  intros f x y z n q q' E. unfold surface_value. destruct (s_method f); try (intros H; exact H).
  - apply at_level_eq; exact E.
  - intros (q1 & A & B). exists q1. rewrite <- E. split; assumption.
Qed.

(** ** Samples *)
Theorem py_method : forall f t x y z, gridded f -> offered f -> position_inside f x y z ->
  samples_by f (fun n q => method_value f n x y z q) t (py_sample f t x y z).
Proof.
  intros f t x y z G OF P. pose proof G as (S & ZP & AX & AY & AZ & AT). apply py_by; [exact AT|apply method_respects|]. intros n N.
  destruct (py_found f x y z G P) as (xsi & eta & zeta & xi & yi & zi & E & LX & LY & LZ & NX & NY).
  unfold py_spatial. rewrite E, py_index_in by exact N. exact (py_method_found f x y z n xsi eta zeta xi yi zi OF AX AY AZ LX LY LZ NX NY).
Qed.
Theorem py_surface : forall f t x y z, gridded f -> surface_offered f -> inside (s_lon f) x -> inside (s_lat f) y -> surface_layer f z ->
  samples_by f (fun n q => surface_value f n x y z q) t (py_sample f t x y z).
Proof.
  intros f t x y z G OF IX IY SL. pose proof G as (S & ZP & AX & AY & AZ & AT). apply py_by; [exact AT|apply surface_respects|]. intros n N.
  destruct (py_found_surface f x y z G IX IY SL) as (xsi & eta & xi & yi & E & LX & LY & NX & NY).
  unfold py_spatial. rewrite E, py_index_in by exact N. exact (py_surface_found f x y z n xsi eta xi yi OF AX AY SL LX LY NX NY).
Qed.
Theorem c_method : forall k f t x y z xi0 yi0 zi0 ti0, gridded f -> offered f -> jit_offered f z -> position_inside f x y z ->
  carries f z xi0 yi0 zi0 -> (ti0 < zlen (s_time f))%Z -> (1 < k)%nat -> (s_periodic f = false \/ ~ t == last_ (s_time f)) ->
  samples_by f (fun n q => method_value f n x y z q) t (c_sample k f t x y z xi0 yi0 zi0 ti0).
Proof.
  intros k f t x y z xi0 yi0 zi0 ti0 G OF JO P CA T0 K NL. pose proof G as (S & ZP & AX & AY & AZ & AT).
  apply c_by; [exact AT|apply method_respects| |exact T0|exact K|exact NL]. intros n N.
  destruct (c_found f x y z xi0 yi0 zi0 G P CA) as (xsi & eta & zeta & xi & yi & zi & E & LX & LY & LZ & NX & NY).
  unfold c_spatial. rewrite E. replace ((0 <=? n)%Z && (n <? zlen (s_time f))%Z) with true by lia.
  exact (c_method_found f x y z n xsi eta zeta xi yi zi OF JO AX AY AZ LX LY LZ NX NY).
Qed.
Theorem c_surface : forall k f t x y z xi0 yi0 zi0 ti0, gridded f -> surface_offered f -> inside (s_lon f) x -> inside (s_lat f) y -> surface_layer f z ->
  carried f xi0 yi0 zi0 -> (ti0 < zlen (s_time f))%Z -> (1 < k)%nat -> (s_periodic f = false \/ ~ t == last_ (s_time f)) ->
  samples_by f (fun n q => surface_value f n x y z q) t (c_sample k f t x y z xi0 yi0 zi0 ti0).
Proof.
  intros k f t x y z xi0 yi0 zi0 ti0 G OF IX IY SL CA T0 K NL. pose proof G as (S & ZP & AX & AY & AZ & AT).
  apply c_by; [exact AT|apply surface_respects| |exact T0|exact K|exact NL]. intros n N.
  destruct (c_found_surface f x y z xi0 yi0 zi0 G IX IY SL CA) as (xsi & eta & xi & yi & E & LX & LY & NX & NY).
  unfold c_spatial. rewrite E. replace ((0 <=? n)%Z && (n <? zlen (s_time f))%Z) with true by lia.
  exact (c_surface_found f x y z n xsi eta xi yi OF AX AY SL LX LY NX NY).
Qed.

(** ** Uniqueness *)
Lemma level_unique : forall f d x y q q', axis_ok (s_lon f) -> axis_ok (s_lat f) -> at_level f d x y q -> at_level f d x y q' -> q == q'.
Proof.
  intros f d x y q q' [_ IX] [_ IY] (xi & yi & xsi & eta & A & B & C) (xj & yj & xsj & etj & A' & B' & C'). rewrite C, C'.
  apply (lin1_unique (s_lat f) y); [left; exact IY|assumption..|]. intros j. apply (lin1_unique (s_lon f) x); [left; exact IX|assumption..|]. reflexivity.
Qed.
Lemma cell_unique : forall l x i r j s, increasing l \/ decreasing l -> off_nodes l x -> located l x i r -> located l x j s ->
  low_end l i = low_end l j /\ far_end l i = far_end l j.
Proof.
  intros l x i r j s M O [[A _]|[A C]] [[B _]|[B D]]; unfold low_end, far_end; try lia.
  - replace (zlen l =? 1)%Z with true by lia. split; reflexivity.
  - replace (zlen l =? 1)%Z with false by lia. destruct (same_cell l x i r j s M C D) as [[-> _]|[(-> & R & _)|(-> & R & _)]]; [split; reflexivity|exfalso|exfalso].
    + destruct C as (C1 & C2 & _ & _ & C3). apply (O A (i + 1)%Z ltac:(lia)). rewrite C3, R. ring.
    + destruct D as (C1 & C2 & _ & _ & C3). apply (O A (j + 1)%Z ltac:(lia)). rewrite C3, R. ring.
Qed.
Lemma corner_unique : forall f d x y q q', axis_ok (s_lon f) -> axis_ok (s_lat f) -> off_nodes (s_lon f) x -> off_nodes (s_lat f) y ->
  at_corner f d x y q -> at_corner f d x y q' -> q == q'.
Proof.
  intros f d x y q q' [_ IX] [_ IY] OX OY (xi & yi & xsi & eta & A & B & C) (xj & yj & xsj & etj & A' & B' & C'). rewrite C, C'.
  destruct (cell_unique _ _ _ _ _ _ (or_introl IX) OX A A') as [_ ->]. destruct (cell_unique _ _ _ _ _ _ (or_introl IY) OY B B') as [_ ->]. reflexivity.
Qed.
(** Two descriptions of a linear value in depth agree when the values of each level do. *)
Lemma layer_unique : forall f z (P : Z -> Q -> Prop) zi zeta q0 q1 zj zetb r0 r1 q q', depth_ok (s_depth f) ->
  (forall k a b, P k a -> P k b -> a == b) ->
  in_cell (s_depth f) z zi zeta -> P zi q0 -> P (zi + 1)%Z q1 -> q == in_layer f zi zeta q0 q1 ->
  in_cell (s_depth f) z zj zetb -> P zj r0 -> P (zj + 1)%Z r1 -> q' == in_layer f zj zetb r0 r1 -> q == q'.
Proof.
  intros f z P zi zeta q0 q1 zj zetb r0 r1 q q' (L & M) U C A0 A1 E D B0 B1 E'. rewrite E, E'. clear q q' E E'. unfold in_layer.
  destruct (same_cell _ _ _ _ _ _ M C D) as [[-> R]|[(-> & R & S)|(-> & R & S)]].
  - pose proof (U _ _ _ A0 B0) as V0. pose proof (U _ _ _ A1 B1) as V1. destruct (is_pop _ && _)%bool; rewrite V0, ?V1, R; reflexivity.
  - pose proof (U _ _ _ A1 B0) as V. destruct D as (_ & D & _). replace (zi =? zlen (s_depth f) - 2)%Z with false by lia. rewrite andb_false_r.
    destruct (is_pop _ && _)%bool; rewrite R, S, V; ring.
  - pose proof (U _ _ _ A0 B1) as V. destruct C as (_ & C & _). replace (zj =? zlen (s_depth f) - 2)%Z with false by lia. rewrite andb_false_r.
    destruct (is_pop _ && _)%bool; rewrite R, S, V; ring.
Qed.
Theorem method_unique : forall f n x y z q q', gridded f -> settled f x y z -> method_value f n x y z q -> method_value f n x y z q' -> q == q'.
Proof.
  intros f n x y z q q' (_ & _ & AX & AY & AZ & _) SE. unfold method_value, settled in *. destruct (s_method f); try contradiction.
  - intros [[L H]|(L & zi & zeta & q0 & q1 & A & B & C & D)] [[L' H']|(L' & zj & zetb & r0 & r1 & A' & B' & C' & D')]; try lia.
    + eapply level_unique; eassumption.
    + apply (layer_unique f z (fun k v => at_level f (s_data f n k) x y v) zi zeta q0 q1 zj zetb r0 r1); try assumption.
      intros k a b. apply level_unique; assumption.
  - intros (i & j & k & A & B & C & D) (i' & j' & k' & A' & B' & C' & D'). destruct SE as (SX & SY & SZ). rewrite D, D'.
    rewrite (nearest_unique _ _ _ _ (proj1 AX) (or_introl (proj2 AX)) SX A A').
    rewrite (nearest_unique _ _ _ _ (proj1 AY) (or_introl (proj2 AY)) SY B B').
    rewrite (nearest_unique _ _ _ _ (proj1 AZ) (proj2 AZ) SZ C C'). reflexivity.
  - intros (zi & zeta & A & B) (zj & zetb & A' & B'). destruct SE as (SX & SY & SZ).
    destruct (cell_unique _ _ _ _ _ _ (proj2 AZ) SZ A A') as [E _]. rewrite E in B. eapply corner_unique; eassumption.
  - intros (zi & zeta & A & B) (zj & zetb & A' & B'). destruct SE as (SX & SY & SZ).
    destruct (cell_unique _ _ _ _ _ _ (proj2 AZ) SZ A A') as [E _]. rewrite E in B. eapply corner_unique; eassumption.
  - intros (zi & zeta & A & B) (zj & zetb & A' & B').
    destruct (cell_unique _ _ _ _ _ _ (proj2 AZ) SE A A') as [E1 E2]. rewrite E1, E2 in B. eapply level_unique; eassumption.
  - intros (zi & zeta & q0 & q1 & A & B & C & D) (zj & zetb & r0 & r1 & A' & B' & C' & D'). destruct SE as (SX & SY).
    apply (layer_unique f z (fun k v => at_corner f (s_data f n k) x y v) zi zeta q0 q1 zj zetb r0 r1); try assumption.
    intros k a b. apply corner_unique; assumption.
Qed.
Theorem surface_unique : forall f n x y z q q', gridded f -> surface_offered f -> (s_method f = BgridWVelocity -> off_nodes (s_lon f) x /\ off_nodes (s_lat f) y) ->
  surface_value f n x y z q -> surface_value f n x y z q' -> q == q'.
Proof.
  intros f n x y z q q' (_ & _ & AX & AY & AZ & _) OF SE. unfold surface_value. destruct OF as [E|E]; rewrite E in *.
  - apply level_unique; assumption.
  - destruct (SE eq_refl) as [SX SY]. intros (q1 & A & B) (r1 & A' & B'). rewrite B, B'. rewrite (corner_unique f _ x y q1 r1 AX AY SX SY A A'). reflexivity.
Qed.

Lemma by_same : forall f (V : Z -> Q -> Prop) t r r', axis_ok (s_time f) -> (1 < zlen (s_time f))%Z \/ s_periodic f = false ->
  (forall n q q', V n q -> V n q' -> q == q') -> samples_by f V t r -> samples_by f V t r' -> same_result r r'.
Proof.
  intros f V t r r' AT LEN U A B. unfold samples_by in A, B.
  assert (TU : forall t1 t2 q q', t1 == t2 -> in_time f V t1 q -> in_time f V t2 q' -> q == q').
  { intros t1 t2 q q' TT (w & W & E) (w' & W' & E'). eapply time_value_unique; [exact AT|exact E|exact E'|exact TT|].
    intros n N. eapply U; [apply W; exact N|apply W'; exact N]. }
  destruct (s_periodic f) eqn:PER.
  - destruct LEN as [LEN|LEN]; [|discriminate].
    destruct (A LEN) as (q & s & -> & S1 & V1). destruct (B LEN) as (q' & s' & -> & S2 & V2). cbn.
    eapply TU; [|exact V1|exact V2]. destruct AT as [L I].
    apply (wraps_unique (s_time f) t t); [apply inc_dir; assumption|assumption..|]. exists 0%Z. unfold inject_Z. ring.
  - destruct A as (A1 & A2 & A3 & A4). destruct B as (B1 & B2 & B3 & B4).
    destruct (Qlt_le_dec t (first_ (s_time f))) as [C|C]; [|destruct (Qlt_le_dec (last_ (s_time f)) t) as [C'|C']].
    + destruct (s_extrapolate f).
      * destruct (A3 C eq_refl) as (q & -> & V1). destruct (B3 C eq_refl) as (q' & -> & V2). cbn. eapply U; eassumption.
      * rewrite (A2 (or_introl C) eq_refl), (B2 (or_introl C) eq_refl). reflexivity.
    + destruct (s_extrapolate f).
      * destruct (A4 C' eq_refl) as (q & -> & V1). destruct (B4 C' eq_refl) as (q' & -> & V2). cbn. eapply U; eassumption.
      * rewrite (A2 (or_intror C') eq_refl), (B2 (or_intror C') eq_refl). reflexivity.
    + destruct (A1 (conj C C')) as (q & -> & V1). destruct (B1 (conj C C')) as (q' & -> & V2). cbn. eapply TU; [reflexivity|exact V1|exact V2].
Qed.

Theorem method_modes : forall k f t x y z xi0 yi0 zi0 ti0, gridded f -> offered f -> jit_offered f z -> settled f x y z ->
  position_inside f x y z -> carries f z xi0 yi0 zi0 -> (ti0 < zlen (s_time f))%Z -> (1 < k)%nat ->
  (1 < zlen (s_time f))%Z \/ s_periodic f = false -> (s_periodic f = false \/ ~ t == last_ (s_time f)) ->
  same_result (py_sample f t x y z) (c_sample k f t x y z xi0 yi0 zi0 ti0).
Proof.
  intros k f t x y z xi0 yi0 zi0 ti0 G OF JO SE P CA T0 K LEN NL. pose proof G as (_ & _ & _ & _ & _ & AT).
  eapply by_same; [exact AT|exact LEN| |apply py_method; assumption|apply c_method; assumption].
  intros n q q'. apply method_unique; assumption.
Qed.
Theorem surface_modes : forall k f t x y z xi0 yi0 zi0 ti0, gridded f -> surface_offered f ->
  (s_method f = BgridWVelocity -> off_nodes (s_lon f) x /\ off_nodes (s_lat f) y) ->
  inside (s_lon f) x -> inside (s_lat f) y -> surface_layer f z -> carried f xi0 yi0 zi0 -> (ti0 < zlen (s_time f))%Z -> (1 < k)%nat ->
  (1 < zlen (s_time f))%Z \/ s_periodic f = false -> (s_periodic f = false \/ ~ t == last_ (s_time f)) ->
  same_result (py_sample f t x y z) (c_sample k f t x y z xi0 yi0 zi0 ti0).
Proof.
  intros k f t x y z xi0 yi0 zi0 ti0 G OF SE IX IY SL CA T0 K LEN NL. pose proof G as (_ & _ & _ & _ & _ & AT).
  eapply by_same; [exact AT|exact LEN| |apply py_surface; assumption|apply c_surface; assumption].
  intros n q q'. apply surface_unique; assumption.
Qed.

(** ** The indices a particle carries *)
Lemma vertical_range : forall m d z zi0 zi r, c_vertical_z m d z zi0 = VFound zi r -> (m = true /\ zi = (-1)%Z) \/ (0 <= zi < zlen d)%Z.
Proof.
  intros m d z zi0 zi r. assert (RR : forall i v, c_rel d i z = Some v -> (0 <= i < zlen d)%Z).
  { intros i v. unfold c_rel, cget. destruct ((0 <=? i) && (i <? zlen d))%Z eqn:E; [lia|discriminate]. }
  unfold c_vertical_z. destruct (cget d 0) as [d0|]; [|discriminate]. destruct (cget d (zlen d - 1)) as [dn|]; [|discriminate].
  destruct (qlt d0 dn).
  - destruct (qlt z d0 && m && _) eqn:E; [intros H; inversion H; subst; left; split; [|reflexivity]; destruct m; [reflexivity|rewrite andb_false_r in E; discriminate]|].
    destruct (qlt z d0); [discriminate|]. destruct (qlt dn z); [discriminate|]. destruct (c_walk false d z zi0) as [j|]; [|discriminate]. cbv zeta.
    destruct (c_rel d _ z) as [v|] eqn:R; [|discriminate]. intros H; inversion H; subst. right. eapply RR. exact R.
  - destruct (qlt d0 z); [discriminate|]. destruct (qlt z dn); [discriminate|]. destruct (c_walk true d z zi0) as [j|]; [|discriminate]. cbv zeta.
    destruct (c_rel d _ z) as [v|] eqn:R; [|discriminate]. intros H; inversion H; subst. right. eapply RR. exact R.
Qed.
Lemma carried_step : forall f x y z xi0 yi0 zi0 xi yi zi, gridded f -> carried f xi0 yi0 zi0 ->
  c_indices f x y z xi0 yi0 zi0 = (xi, yi, zi) -> carried f xi yi zi.
Proof.
  intros f x y z xi0 yi0 zi0 xi yi zi G CA E. pose proof G as (S & ZP & AX & AY & AZ & AT). pose proof CA as (VX & VY & VZ).
  unfold c_indices in E. cbv zeta in E. destruct (outside (s_grid f) x y) eqn:O; [inversion E; subst; exact CA|].
  pose proof (unmom_plain f G) as PL. destruct (proj1 (outside_plain _ x y PL) O) as [IX IY]. cbn in IX, IY.
  destruct (c_lon_located (s_spherical f) _ x xi0 AX IX VX S) as (xi' & xsi & EX & LX & NX).
  destruct (c_axis_located _ y yi0 AY IY VY) as (yi' & eta & EY & LY & NY).
  unfold s_grid in E. cbn [g_lon g_lat g_depth g_spherical g_mom5] in E. rewrite EX, EY in E.
  assert (VX' : valid_start (s_lon f) xi') by (eapply located_start; eassumption).
  assert (VY' : valid_start (s_lat f) yi') by (eapply located_start; eassumption).
  destruct (1 <? zlen (s_depth f))%Z eqn:L.
  - destruct (c_vertical_z _ _ _ _) as [zi' r| | |] eqn:V; inversion E; subst; try (split; [assumption|split; assumption]).
    split; [assumption|]. split; [assumption|]. right. destruct (vertical_range _ _ _ _ _ _ V) as [[M ->]|H]; [right|left; exact H].
    split; [|reflexivity]. destruct (s_indexing f); try discriminate; reflexivity.
  - inversion E; subst. split; [assumption|]. split; [assumption|]. exact VZ.
Qed.
Lemma carried_zero : forall f, gridded f -> carried f 0 0 0.
Proof.
  intros f (S & ZP & (LX & _) & (LY & _) & (LZ & _) & AT). unfold carried, valid_start. repeat split; lia.
Qed.
Theorem carried_history : forall f hist xi yi zi, gridded f -> c_history f hist = (xi, yi, zi) -> carried f xi yi zi.
Proof.
  intros f hist. unfold c_history.
  assert (H : forall i xi yi zi, gridded f -> (let '(a, b, c) := i in carried f a b c) ->
    fold_left (fun i p => let '(xi, yi, zi) := i in let '(x, y, z) := p in c_indices f x y z xi yi zi) hist i = (xi, yi, zi) -> carried f xi yi zi).
  { induction hist as [|[[x y] z] hist IH]; intros [[a b] c] xi yi zi G C E; cbn [fold_left] in E; [inversion E; subst; exact C|].
    destruct (c_indices f x y z a b c) as [[a' b'] c'] eqn:E1. apply (IH (a', b', c') xi yi zi G); [|exact E]. eapply carried_step; eassumption. }
  intros xi yi zi G E. apply (H (0, 0, 0)%Z xi yi zi G); [apply carried_zero; exact G|exact E].
Qed.

(** ** Outside the mesh *)
Theorem method_outside : forall k f t x y z e xi0 yi0 zi0 ti0, gridded f -> s_indexing f <> Mom5 -> position_error f x y z e -> time_ok f t ->
  carried f xi0 yi0 zi0 -> (ti0 < zlen (s_time f))%Z -> (1 < k)%nat ->
  py_sample f t x y z = ISearch e /\ c_sample k f t x y z xi0 yi0 zi0 ti0 = ISearch e.
Proof.
  intros k f t x y z e xi0 yi0 zi0 ti0 G NM PE TO (VX & VY & VZ) T0 K. pose proof G as (S & ZP & AX & AY & AZ & AT).
  assert (PL : plain (s_grid f)).
  { pose proof (unmom_plain f G) as H. unfold unmom in H. replace (s_grid f) with (mkRgrid (g_lon (s_grid f)) (g_lat (s_grid f)) (g_depth (s_grid f)) (g_spherical (s_grid f)) (g_zonal_periodic (s_grid f)) false); [exact H|].
    unfold s_grid. cbn. destruct (s_indexing f); try reflexivity. exfalso. apply NM. reflexivity. }
  assert (I0 : indices_ok f xi0 yi0 zi0).
  { split; [exact VX|]. split; [exact VY|]. destruct VZ as [H|[H|[H _]]]; [left; exact H|right; exact H|contradiction]. }
  assert (E : (py_search (s_grid f) x y z = e /\ c_search (s_grid f) x y z xi0 yi0 zi0 = e) /\ (e = OutOfBounds \/ e = ThroughSurface)).
  { destruct PE as [[N ->]|[(A & B & C & ->)|(A & B & C & ->)]]; (split; [split|auto]).
    - apply py_search_outside; assumption.
    - apply c_search_outside; assumption.
    - apply (py_search_depth (s_grid f) x y z PL A B). exact C.
    - apply (c_search_depth (s_grid f) x y z xi0 yi0 zi0 PL A B I0). exact C.
    - apply (py_search_depth (s_grid f) x y z PL A B). exact C.
    - apply (c_search_depth (s_grid f) x y z xi0 yi0 zi0 PL A B I0). exact C. }
  destruct E as [[E1 E2] E]. split.
  - destruct (py_eval_ok f t AT TO) as (q & Q). unfold py_sample. apply (py_eval_error _ _ _ _ _ _ q); [discriminate|exact Q|].
    intros n. unfold py_spatial. rewrite E1. destruct E as [-> | ->]; reflexivity.
  - destruct (c_eval_ok k f t ti0 AT TO T0 K) as (q & Q). unfold c_sample. apply (c_eval_error _ _ _ _ _ _ _ _ q); [discriminate|exact Q|].
    intros n. unfold c_spatial. rewrite E2. destruct E as [-> | ->]; reflexivity.
Qed.
