From Coq Require Import List ZArith Bool QArith Qabs Lia Lqa ZifyBool Psatz.
From Verif Require Import IdxModel IdxSpec IdxProofs TimeModel InterpModel InterpSpec TimeProofs InterpProofs LandSpec.
Import ListNotations.
Open Scope Q_scope.

(** ** The inverse-distance pass *)
Definition inv_w (c : corner) : Q := if k_skip c then 0 else 1 / k_dist c.
Definition inv_num (cs : list corner) : Q := qsum (map (fun c => inv_w c * k_val c) cs).
Definition inv_den (cs : list corner) : Q := qsum (map inv_w cs).

Lemma invdist_closed : forall zero cs val w, (forall c, In c cs -> zero (k_dist c) = false) ->
  ~ w + inv_den cs == 0 -> exists q, invdist zero cs val w = Some q /\ q == (val + inv_num cs) / (w + inv_den cs).
Proof.
  intros zero cs. induction cs as [|c cs IH]; intros val w Z N; cbn [invdist].
  - unfold inv_den, inv_num in *. cbn in *. destruct (Qeq_bool w 0) eqn:E; [apply Qeq_bool_iff in E; exfalso; apply N; lra|].
    exists (val / w). split; [reflexivity|]. setoid_replace (val + 0) with val by ring. setoid_replace (w + 0) with w by ring. reflexivity.
  - rewrite (Z c (or_introl eq_refl)). unfold inv_den, inv_num in *. cbn [map qsum fold_right] in *. unfold inv_w at 1 in N.
    unfold inv_w at 1 3. destruct (k_skip c).
    + destruct (IH val w (fun c' H => Z c' (or_intror H))) as (q & -> & E); [intros H; apply N; unfold qsum in *; lra|].
      exists q. split; [reflexivity|]. rewrite E. unfold qsum. setoid_replace (val + (0 * k_val c + fold_right Qplus 0 (map (fun c => inv_w c * k_val c) cs))) with (val + fold_right Qplus 0 (map (fun c => inv_w c * k_val c) cs)) by ring.
      setoid_replace (w + (0 + fold_right Qplus 0 (map inv_w cs))) with (w + fold_right Qplus 0 (map inv_w cs)) by ring. reflexivity.
    + destruct (IH (val + k_val c / k_dist c) (w + 1 / k_dist c) (fun c' H => Z c' (or_intror H))) as (q & -> & E);
        [intros H; apply N; unfold qsum in *; lra|].
      exists q. split; [reflexivity|]. rewrite E. unfold qsum.
      setoid_replace (val + (1 / k_dist c * k_val c + fold_right Qplus 0 (map (fun c => inv_w c * k_val c) cs)))
        with (val + k_val c / k_dist c + fold_right Qplus 0 (map (fun c => inv_w c * k_val c) cs)) by (unfold Qdiv; ring).
      setoid_replace (w + (1 / k_dist c + fold_right Qplus 0 (map inv_w cs))) with (w + 1 / k_dist c + fold_right Qplus 0 (map inv_w cs)) by ring.
      reflexivity.
Qed.

Lemma invdist_node : forall zero pre c post val w, (forall a, In a pre -> zero (k_dist a) = false) -> zero (k_dist c) = true ->
  invdist zero (pre ++ c :: post) val w = Some (if k_land c then 0 else k_here c).
Proof.
  intros zero pre c post. induction pre as [|a pre IH]; intros val w P C; cbn [app invdist].
  - rewrite C. reflexivity.
  - rewrite (P a (or_introl eq_refl)). destruct (k_skip a); apply IH; auto; intros b B; apply P; right; exact B.
Qed.

Lemma inv_w_nonneg : forall c, 0 < k_dist c -> 0 <= inv_w c.
Proof.
  intros c D. unfold inv_w. destruct (k_skip c); [lra|]. apply Qlt_le_weak. apply Qlt_shift_div_l; lra.
Qed.
Lemma inv_w_pos : forall c, 0 < k_dist c -> k_skip c = false -> 0 < inv_w c.
Proof. intros c D S. unfold inv_w. rewrite S. apply Qlt_shift_div_l; lra. Qed.
Lemma inv_den_nonneg : forall cs, (forall c, In c cs -> 0 < k_dist c) -> 0 <= inv_den cs.
Proof.
  intros cs. unfold inv_den. induction cs as [|c cs IH]; intros D; cbn [map qsum fold_right]; [lra|].
  pose proof (inv_w_nonneg c (D c (or_introl eq_refl))). specialize (IH (fun a H => D a (or_intror H))). unfold qsum in IH. lra.
Qed.
Lemma inv_den_pos : forall cs, (forall c, In c cs -> 0 < k_dist c) -> (exists c, In c cs /\ k_skip c = false) -> 0 < inv_den cs.
Proof.
  intros cs D (c & I & S). apply in_split in I. destruct I as (a & b & ->).
  assert (E : inv_den (a ++ c :: b) == inv_den a + (inv_w c + inv_den b)).
  { clear. unfold inv_den. induction a as [|x a IH]; cbn [app map qsum fold_right]; [unfold qsum; ring|]. unfold qsum in IH. rewrite IH. unfold qsum. ring. }
  rewrite E. pose proof (inv_den_nonneg a (fun x I => D x (in_or_app a (c :: b) x (or_introl I)))).
  pose proof (inv_den_nonneg b (fun x I => D x (in_or_app a (c :: b) x (or_intror (or_intror I))))).
  pose proof (inv_w_pos c (D c (in_elt c a b)) S). lra.
Qed.

Lemma qsum_div : forall l k, qsum (map (fun x => x / k) l) == qsum l / k.
Proof.
  intros l k. induction l as [|a l IH]; cbn [map qsum fold_right]; [unfold Qdiv; ring|]. unfold qsum in IH. rewrite IH. unfold Qdiv. ring.
Qed.

(** Away from the corners the pass gives an average of the sea corners. *)
Lemma invdist_average : forall zero (land : Q -> Prop) cs,
  (forall c, In c cs -> zero (k_dist c) = false /\ 0 < k_dist c) ->
  (forall c, In c cs -> (k_skip c = true <-> land (k_val c))) ->
  some_sea land (map k_val cs) ->
  exists q, invdist zero cs 0 0 = Some q /\ q == inv_num cs / inv_den cs /\ sea_average land True (map k_val cs) q.
Proof.
  intros zero land cs D S (v & I & V). apply in_map_iff in I. destruct I as (c & <- & I).
  assert (P : 0 < inv_den cs).
  { apply inv_den_pos; [intros a A; apply D, A|]. exists c. split; [exact I|]. destruct (k_skip c) eqn:E; [|reflexivity].
    exfalso. apply V, S; assumption. }
  destruct (invdist_closed zero cs 0 0) as (q & E & Q); [intros a A; apply D, A|lra|].
  exists q. split; [exact E|].
  assert (Q' : q == inv_num cs / inv_den cs).
  { rewrite Q. setoid_replace (0 + inv_num cs) with (inv_num cs) by ring. setoid_replace (0 + inv_den cs) with (inv_den cs) by ring. reflexivity. }
  split; [exact Q'|]. exists (map (fun x => x / inv_den cs) (map inv_w cs)). split; [|split].
  - clear E Q Q' I V c. set (W := inv_den cs) in *. clearbody W. induction cs as [|a cs IH]; cbn [map]; constructor.
    + destruct (D a (or_introl eq_refl)) as [_ DA]. pose proof (inv_w_nonneg a DA) as NA. split; [|split].
      * apply Qle_shift_div_l; lra.
      * intros L. apply (S a (or_introl eq_refl)) in L. unfold inv_w. rewrite L. unfold Qdiv. ring.
      * intros L _. apply Qlt_shift_div_l; [exact P|]. assert (K : k_skip a = false).
        { destruct (k_skip a) eqn:K; [|reflexivity]. exfalso. apply L, (S a (or_introl eq_refl)), K. }
        pose proof (inv_w_pos a DA K). lra.
    + apply IH; intros b B; [apply D|apply S]; right; exact B.
  - rewrite qsum_div. fold (inv_den cs). field. lra.
  - rewrite Q'. unfold inv_num. generalize (inv_den cs). intros W. clear. induction cs as [|a cs IH]; cbn [map qsum fold_right dot]; [unfold Qdiv; ring|].
    unfold qsum in IH. rewrite <- IH. unfold Qdiv, qsum. ring.
Qed.

(** ** Counting land *)
Lemma count_cons : forall b bs, count (b :: bs) = ((if b then 1 else 0) + count bs)%nat.
Proof. intros [] bs; reflexivity. Qed.
Lemma count_le : forall bs, (count bs <= length bs)%nat.
Proof. induction bs as [|b bs IH]; [auto|]. rewrite count_cons. cbn [length]. destruct b; lia. Qed.
Lemma count_all : forall bs, count bs = length bs -> forall b, In b bs -> b = true.
Proof.
  induction bs as [|a bs IH]; intros E b I; [destruct I|]. rewrite count_cons in E. cbn [length] in E. pose proof (count_le bs).
  destruct a; [|lia]. destruct I as [<-|I]; [reflexivity|]. apply IH; [lia|exact I].
Qed.
Lemma count_all_conv : forall bs, (forall b, In b bs -> b = true) -> count bs = length bs.
Proof.
  induction bs as [|a bs IH]; intros H; [reflexivity|]. rewrite count_cons, IH by (intros b B; apply H; right; exact B).
  rewrite (H a (or_introl eq_refl)). reflexivity.
Qed.
Lemma count_none : forall bs, count bs = 0%nat <-> forall b, In b bs -> b = false.
Proof.
  induction bs as [|a bs IH]; [split; [intros _ b []|reflexivity]|]. rewrite count_cons. split.
  - intros E b [<-|I]; [destruct a; [lia|reflexivity]|]. apply IH; [destruct a; lia|exact I].
  - intros H. rewrite (H a (or_introl eq_refl)). cbn. apply IH. intros b B. apply H. right. exact B.
Qed.
Lemma count_one : forall vals (landb : Q -> bool), S (count (map landb vals)) = length vals ->
  exists a v b, vals = a ++ v :: b /\ landb v = false /\ forall u, In u a \/ In u b -> landb u = true.
Proof.
  induction vals as [|x vals IH]; intros landb E; cbn [map length] in E; [discriminate|]. rewrite count_cons in E.
  destruct (landb x) eqn:L.
  - destruct (IH landb ltac:(lia)) as (a & v & b & -> & F & A). exists (x :: a), v, b. split; [reflexivity|]. split; [exact F|].
    intros u [[<-|U]|U]; [exact L|apply A; auto|apply A; auto].
  - exists [], x, vals. split; [reflexivity|]. split; [exact L|]. intros u [[]|U].
    apply (count_all (map landb vals)); [rewrite map_length; lia|]. apply in_map, U.
Qed.
Lemma count_one_conv : forall a v b (landb : Q -> bool), landb v = false -> (forall u, In u a \/ In u b -> landb u = true) ->
  S (count (map landb (a ++ v :: b))) = length (a ++ v :: b).
Proof.
  intros a v b landb F A. induction a as [|x a IH]; cbn [app map length]; rewrite count_cons.
  - rewrite F. cbn. rewrite count_all_conv, map_length; [reflexivity|]. intros c C. apply in_map_iff in C. destruct C as (u & <- & U). apply A. auto.
  - rewrite (A x (or_introl (or_introl eq_refl))). cbn. rewrite <- IH; [reflexivity|]. intros u [U|U]; apply A; [left; right|right]; exact U.
Qed.
Definition last_sea (landb : Q -> bool) (vals : list Q) : Q := fold_left (fun a v => if landb v then a else v) vals 0.
Lemma last_sea_one : forall landb a v b, landb v = false -> (forall u, In u a \/ In u b -> landb u = true) -> last_sea landb (a ++ v :: b) = v.
Proof.
  intros landb a v b F A. unfold last_sea. rewrite fold_left_app. cbn [fold_left]. rewrite F.
  assert (H : forall l x, (forall u, In u l -> landb u = true) -> fold_left (fun a v => if landb v then a else v) l x = x).
  { induction l as [|y l IH]; intros x H; [reflexivity|]. cbn [fold_left]. rewrite (H y (or_introl eq_refl)). apply IH. intros u U. apply H. right. exact U. }
  apply H. intros u U. apply A. right. exact U.
Qed.

Lemma one_sea_average : forall (land : Q -> Prop) P vals, forall a v b, vals = a ++ v :: b -> ~ land v -> (forall u, In u a \/ In u b -> land u) ->
  sea_average land P vals v.
Proof.
  intros land P vals a v b -> V A. exists (map (fun _ => 0) a ++ 1 :: map (fun _ => 0) b).
  assert (Z : forall l, (forall u, In u l -> land u) -> Forall2 (fun v w => 0 <= w /\ (land v -> w == 0) /\ (~ land v -> P -> 0 < w)) l (map (fun _ => 0) l)).
  { induction l as [|x l IH]; intros H; cbn [map]; constructor; [|apply IH; intros u U; apply H; right; exact U].
    split; [lra|]. split; [reflexivity|]. intros N. exfalso. apply N, H. left. reflexivity. }
  assert (S : forall l : list Q, qsum (map (fun _ => 0) l) == 0).
  { induction l as [|x l IH]; cbn [map qsum fold_right]; [reflexivity|]. unfold qsum in IH. rewrite IH. ring. }
  assert (D : forall l l' : list Q, dot (map (fun _ => 0) l) l' == 0).
  { induction l as [|x l IH]; intros [|y l']; cbn [map dot]; try reflexivity. rewrite IH. ring. }
  split; [|split].
  - apply Forall2_app; [apply Z; intros u U; apply A; left; exact U|]. constructor; [|apply Z; intros u U; apply A; right; exact U].
    split; [lra|]. split; [intros L; contradiction|]. intros _ _. lra.
  - clear - S. induction a as [|x a IH]; cbn [app map qsum fold_right]; [specialize (S b); unfold qsum in S; rewrite S; ring|]. unfold qsum in IH. rewrite IH. ring.
  - clear - D. induction a as [|x a IH]; cbn [app map dot]; [rewrite D; ring|]. rewrite <- IH. ring.
Qed.

(** ** The four routines are one *)
Definition landw (zero landb : Q -> bool) (single : bool) (linear : Q) (cs : list corner) : option Q :=
  let vals := map k_val cs in
  let nb := count (map landb vals) in
  if (nb =? length vals)%nat then Some 0
  else if (nb =? 0)%nat then Some linear
  else if single && (S nb =? length vals)%nat then Some (last_sea landb vals)
  else invdist zero cs 0 0.

Definition ccorner2 (landb : Q -> bool) (xsi eta : Q) (d : cell2) (b : bool * bool) : corner :=
  mkCorner (sq (xsi - b2q (snd b)) + sq (eta - b2q (fst b))) (d (fst b) (snd b)) (landb (d (fst b) (snd b))) (landb (d (fst b) (snd b))) (d (fst b) (snd b)).
Lemma c_land2_is : forall xsi eta d, c_land2 xsi eta d = landw c_zero c_zero true (c_bilinear xsi eta d) (map (ccorner2 c_zero xsi eta d) bits2).
Proof.
  intros xsi eta d. unfold c_land2, landw. cbv zeta.
  change (map k_val (map (ccorner2 c_zero xsi eta d) bits2)) with [d false false; d false true; d true false; d true true].
  change (map (fun b : bool * bool => c_zero (d (fst b) (snd b))) bits2) with (map c_zero [d false false; d false true; d true false; d true true]).
  destruct (count (map c_zero [d false false; d false true; d true false; d true true])) as [|[|[|[|[|]]]]]; reflexivity.
Qed.

Definition ccorner3 (landb : Q -> bool) (xsi eta zeta : Q) (d : cell3) (b : bool * bool * bool) : corner :=
  let '(k, j, i) := b in
  mkCorner (sq (zeta - b2q k) + sq (eta - b2q j) + sq (xsi - b2q i)) (d k j i) (landb (d k j i)) (landb (d k j i)) (d k j i).
Lemma c_land3_is : forall xsi eta zeta d,
  c_land3 xsi eta zeta d = landw c_zero c_zero true (c_trilinear xsi eta zeta d) (map (ccorner3 c_zero xsi eta zeta d) bits3).
Proof.
  intros xsi eta zeta d. unfold c_land3, landw. cbv zeta.
  set (vals := map k_val (map (ccorner3 c_zero xsi eta zeta d) bits3)).
  assert (V : map (fun b : bool * bool * bool => let '(i, j, k) := b in c_zero (d i j k)) bits3 = map c_zero vals) by reflexivity.
  rewrite V. change (length vals) with 8%nat.
  set (cs := map (ccorner3 c_zero xsi eta zeta d) bits3).
  assert (EC : map (fun b : bool * bool * bool => let '(i, j, k) := b in
                   mkCorner (sq (zeta - b2q i) + sq (eta - b2q j) + sq (xsi - b2q k))%Q
                            (d i j k) (c_zero (d i j k)) (c_zero (d i j k)) (d i j k)) bits3 = cs) by reflexivity.
  rewrite EC. clear EC.
  assert (ES : fold_left (fun a b => let '(i, j, k) := b in if c_zero (d i j k) then a else d i j k) bits3 0 = last_sea c_zero vals) by reflexivity.
  rewrite ES. clear ES. generalize (invdist c_zero cs 0 0) (last_sea c_zero vals) (c_trilinear xsi eta zeta d). intros e1 e2 e3.
  destruct (count (map c_zero vals)) as [|[|[|[|[|[|[|[|[|]]]]]]]]]; reflexivity.
Qed.

Definition vals2 (d : cell2) : list Q := [d false false; d false true; d true false; d true true].
Definition vals3 (d : cell3) : list Q :=
  [d false false false; d false false true; d false true false; d false true true;
   d true false false; d true false true; d true true false; d true true true].

(** Bilinear and trilinear interpolation are averages. *)
Lemma bilinear_average : forall (land : Q -> Prop) d xsi eta, unit_coord xsi -> unit_coord eta -> (forall v, In v (vals2 d) -> ~ land v) ->
  sea_average land (inner_coord xsi /\ inner_coord eta) (vals2 d) (c_bilinear xsi eta d).
Proof.
  intros land d xsi eta [X0 X1] [E0 E1] N.
  exists [(1 - xsi) * (1 - eta); xsi * (1 - eta); (1 - xsi) * eta; xsi * eta]. split; [|split].
  - unfold vals2 in *. repeat constructor; try (intros L; exfalso; revert L; apply N; cbn; tauto);
      try (intros _ [[A B] [C D]]); nra.
  - cbn. ring.
  - unfold vals2, c_bilinear. cbn. ring.
Qed.
Lemma trilinear_average : forall (land : Q -> Prop) d xsi eta zeta, unit_coord xsi -> unit_coord eta -> unit_coord zeta ->
  (forall v, In v (vals3 d) -> ~ land v) ->
  sea_average land (inner_coord xsi /\ inner_coord eta /\ inner_coord zeta) (vals3 d) (c_trilinear xsi eta zeta d).
Proof.
  intros land d xsi eta zeta [X0 X1] [E0 E1] [Z0 Z1] N.
  assert (P : forall a b c, 0 <= a -> 0 <= b -> 0 <= c -> 0 <= a * b * c) by (intros; repeat apply Qmult_le_0_compat; assumption).
  assert (PP : forall a b c, 0 < a -> 0 < b -> 0 < c -> 0 < a * b * c) by (intros; repeat apply Qmult_lt_0_compat; assumption).
  exists [(1 - zeta) * (1 - xsi) * (1 - eta); (1 - zeta) * xsi * (1 - eta); (1 - zeta) * (1 - xsi) * eta; (1 - zeta) * xsi * eta;
          zeta * (1 - xsi) * (1 - eta); zeta * xsi * (1 - eta); zeta * (1 - xsi) * eta; zeta * xsi * eta]. split; [|split].
  - unfold vals3 in *. repeat constructor; try (intros L; exfalso; revert L; apply N; cbn; tauto);
      try (intros _ [[A B] [[C D] [E F]]]); first [apply P; lra|apply PP; lra].
  - cbn. ring.
  - unfold vals3, c_trilinear, c_bilinear. cbn. ring.
Qed.

Lemma Forall2_impl_gen : forall {A B} (R R' : A -> B -> Prop) l l', (forall a b, R a b -> R' a b) -> Forall2 R l l' -> Forall2 R' l l'.
Proof. intros A B R R' l l' H F. induction F; constructor; auto. Qed.

(** ** The general statement *)
Lemma landw_all : forall zero landb single linear cs, (forall c, In c cs -> landb (k_val c) = true) ->
  landw zero landb single linear cs = Some 0.
Proof.
  intros zero landb single linear cs H. unfold landw.
  rewrite count_all_conv; [rewrite map_length, Nat.eqb_refl; reflexivity|].
  intros b B. apply in_map_iff in B. destruct B as (v & <- & V). apply in_map_iff in V. destruct V as (c & <- & C). auto.
Qed.

Lemma landw_average : forall zero (landb : Q -> bool) (land : Q -> Prop) single linear cs (P : Prop),
  (forall v, landb v = true <-> land v) ->
  (forall c, In c cs -> zero (k_dist c) = false /\ 0 < k_dist c) ->
  (forall c, In c cs -> k_skip c = landb (k_val c)) ->
  some_sea land (map k_val cs) ->
  ((forall v, In v (map k_val cs) -> ~ land v) -> sea_average land P (map k_val cs) linear) ->
  exists q, landw zero landb single linear cs = Some q /\ sea_average land (some_land land (map k_val cs) \/ P) (map k_val cs) q.
Proof.
  intros zero landb land single linear cs P LS D SK SEA LIN. unfold landw. cbv zeta. set (vals := map k_val cs) in *.
  assert (SUB : forall (A B : Prop) q, (B -> A) -> sea_average land A vals q -> sea_average land B vals q).
  { intros A B q AB (ws & F & T & E). exists ws. split; [|split; assumption]. revert F. apply Forall2_impl_gen.
    intros v w (H1 & H2 & H3). split; [exact H1|]. split; [exact H2|]. intros N HB. apply H3; auto. }
  destruct (Nat.eqb_spec (count (map landb vals)) (length vals)) as [E|E].
  - exfalso. destruct SEA as (v & I & V). apply V, LS. rewrite <- map_length with (f := landb) in E.
    apply (count_all _ E). apply in_map, I.
  - destruct (Nat.eqb_spec (count (map landb vals)) 0) as [E0|E0].
    + exists linear. split; [reflexivity|]. pose proof (proj1 (count_none _) E0) as NL.
      assert (N : forall v, In v vals -> ~ land v).
      { intros v I L. apply LS in L. rewrite (NL (landb v) (in_map landb _ _ I)) in L. discriminate. }
      apply (SUB P); [|apply LIN, N]. intros [(v & I & L)|HP]; [exfalso; apply (N v I L)|exact HP].
    + destruct (single && (S (count (map landb vals)) =? length vals)%nat) eqn:E1.
      * apply andb_true_iff in E1. destruct E1 as [_ E1]. apply Nat.eqb_eq in E1.
        destruct (count_one vals landb E1) as (a & v & b & EV & F & A). exists (last_sea landb vals). split; [reflexivity|].
        assert (LV : last_sea landb vals = v) by (rewrite EV; apply last_sea_one; assumption). rewrite LV. apply (one_sea_average land _ vals a v b EV).
        -- intros L. apply LS in L. congruence.
        -- intros u U. apply LS, A, U.
      * destruct (invdist_average zero land cs D) as (q & Q & _ & SA); [intros c C; rewrite (SK c C); apply LS|exact SEA|].
        exists q. split; [exact Q|]. apply (SUB True); [auto|exact SA].
Qed.

(** The value on a corner. *)
Lemma landw_node : forall zero landb single linear pre c post, 
  (forall a, In a pre -> zero (k_dist a) = false) -> zero (k_dist c) = true ->
  k_land c = landb (k_val c) -> k_here c = k_val c -> (landb (k_val c) = true -> k_val c == 0) ->
  linear == k_val c ->
  (single = true -> landb (k_val c) = true -> S (count (map landb (map k_val (pre ++ c :: post)))) <> length (pre ++ c :: post)) ->
  exists q, landw zero landb single linear (pre ++ c :: post) = Some q /\ q == k_val c.
Proof.
  intros zero landb single linear pre c post PRE C L H0 Z LIN ONE. unfold landw. cbv zeta. rewrite map_length.
  destruct (Nat.eqb_spec (count (map landb (map k_val (pre ++ c :: post)))) (length (pre ++ c :: post))) as [E|E].
  - exists 0. split; [reflexivity|]. rewrite Z; [reflexivity|]. rewrite <- (map_length k_val), <- (map_length landb) in E.
    apply (count_all _ E). apply in_map, in_map, in_elt.
  - destruct (Nat.eqb_spec (count (map landb (map k_val (pre ++ c :: post)))) 0) as [E0|E0].
    + exists linear. split; [reflexivity|exact LIN].
    + destruct (single && (S (count (map landb (map k_val (pre ++ c :: post)))) =? length (pre ++ c :: post))%nat) eqn:E1.
      * apply andb_true_iff in E1. destruct E1 as [E1 E2]. apply Nat.eqb_eq in E2. rewrite <- (map_length k_val) in E2.
        destruct (count_one _ landb E2) as (a & v & b & EV & F & A).
        destruct (landb (k_val c)) eqn:LC; [exfalso; rewrite map_length in E2; apply (ONE E1 eq_refl E2)|].
        exists (last_sea landb (map k_val (pre ++ c :: post))). split; [reflexivity|].
        assert (V : v = k_val c).
        { assert (I : In (k_val c) (a ++ v :: b)) by (rewrite <- EV; apply in_map, in_elt).
          apply in_app_or in I. destruct I as [I|[I|I]]; [rewrite (A _ (or_introl I)) in LC; discriminate|exact I|rewrite (A _ (or_intror I)) in LC; discriminate]. }
        rewrite EV, last_sea_one by assumption. rewrite V. reflexivity.
      * rewrite (invdist_node zero pre c post 0 0 PRE C). rewrite L, H0. eexists. split; [reflexivity|].
        destruct (landb (k_val c)) eqn:LC; [symmetry; apply Z, eq_refl|reflexivity].
Qed.

(** ** Corners of the square *)
Lemma c_zero_spec : forall v, c_zero v = true <-> zero_value v.
Proof. intros v. unfold c_zero, zero_value. apply Qeq_bool_iff. Qed.
Lemma py_zero_spec : forall v, py_zero v = true <-> near_zero v.
Proof. intros v. unfold py_zero, near_zero. apply qle_spec. Qed.

Lemma sq_nonneg : forall a, 0 <= sq a.
Proof. intros a. unfold sq. nra. Qed.
Lemma dist2_nonneg : forall xsi eta j i, 0 <= dist2 xsi eta j i.
Proof. intros. unfold dist2. pose proof (sq_nonneg (eta - b2q j)). pose proof (sq_nonneg (xsi - b2q i)). unfold sq in *. lra. Qed.

Lemma away_c2 : forall xsi eta d c, away2 0 xsi eta -> In c (map (ccorner2 c_zero xsi eta d) bits2) -> c_zero (k_dist c) = false /\ 0 < k_dist c.
Proof.
  intros xsi eta d c A I. apply in_map_iff in I. destruct I as ([j i] & <- & _). cbn [ccorner2 k_dist fst snd].
  specialize (A j i). unfold dist2 in A. assert (P : 0 < sq (xsi - b2q i) + sq (eta - b2q j)) by (unfold sq; lra).
  split; [|exact P]. unfold c_zero. destruct (Qeq_bool _ 0) eqn:E; [apply Qeq_bool_iff in E; lra|reflexivity].
Qed.
Lemma away_c3 : forall xsi eta zeta d c, away3 0 xsi eta zeta -> In c (map (ccorner3 c_zero xsi eta zeta d) bits3) ->
  c_zero (k_dist c) = false /\ 0 < k_dist c.
Proof.
  intros xsi eta zeta d c A I. apply in_map_iff in I. destruct I as ([[k j] i] & <- & _). cbn [ccorner3 k_dist].
  specialize (A k j i). unfold dist3, dist2 in A. assert (P : 0 < sq (zeta - b2q k) + sq (eta - b2q j) + sq (xsi - b2q i)) by (unfold sq; lra).
  split; [|exact P]. unfold c_zero. destruct (Qeq_bool _ 0) eqn:E; [apply Qeq_bool_iff in E; lra|reflexivity].
Qed.
Lemma skip_c2 : forall landb xsi eta d c, In c (map (ccorner2 landb xsi eta d) bits2) -> k_skip c = landb (k_val c).
Proof. intros landb xsi eta d c I. apply in_map_iff in I. destruct I as ([j i] & <- & _). reflexivity. Qed.
Lemma skip_c3 : forall landb xsi eta zeta d c, In c (map (ccorner3 landb xsi eta zeta d) bits3) -> k_skip c = landb (k_val c).
Proof. intros landb xsi eta zeta d c I. apply in_map_iff in I. destruct I as ([[k j] i] & <- & _). reflexivity. Qed.

Lemma c_land2_average : forall d xsi eta, unit_coord xsi -> unit_coord eta -> away2 0 xsi eta -> some_sea zero_value (vals2 d) ->
  exists q, c_land2 xsi eta d = Some q /\
    sea_average zero_value (some_land zero_value (vals2 d) \/ inner_coord xsi /\ inner_coord eta) (vals2 d) q.
Proof.
  intros d xsi eta X E A S. rewrite c_land2_is. change (vals2 d) with (map k_val (map (ccorner2 c_zero xsi eta d) bits2)) in S |- *.
  apply (landw_average c_zero c_zero zero_value).
  - exact c_zero_spec.
  - intros c. apply away_c2, A.
  - intros c. apply skip_c2.
  - exact S.
  - intros N. apply (bilinear_average zero_value d xsi eta X E N).
Qed.
Lemma c_land3_average : forall d xsi eta zeta, unit_coord xsi -> unit_coord eta -> unit_coord zeta -> away3 0 xsi eta zeta ->
  some_sea zero_value (vals3 d) ->
  exists q, c_land3 xsi eta zeta d = Some q /\
    sea_average zero_value (some_land zero_value (vals3 d) \/ inner_coord xsi /\ inner_coord eta /\ inner_coord zeta) (vals3 d) q.
Proof.
  intros d xsi eta zeta X E Z A S. rewrite c_land3_is. change (vals3 d) with (map k_val (map (ccorner3 c_zero xsi eta zeta d) bits3)) in S |- *.
  apply (landw_average c_zero c_zero zero_value).
  - exact c_zero_spec.
  - intros c. apply away_c3, A.
  - intros c. apply skip_c3.
  - exact S.
  - intros N. apply (trilinear_average zero_value d xsi eta zeta X E Z N).
Qed.

(** On a corner. *)
Lemma b2q_sq : forall a b, sq (b2q a - b2q b) == if Bool.eqb a b then 0 else 1.
Proof. intros [] []; reflexivity. Qed.
Lemma c_bilinear_node : forall xsi eta d j i, xsi == b2q i -> eta == b2q j -> c_bilinear xsi eta d == d j i.
Proof. intros xsi eta d [] [] X E; unfold c_bilinear; rewrite X, E; cbn [b2q]; ring. Qed.
Lemma c_trilinear_node : forall xsi eta zeta d k j i, xsi == b2q i -> eta == b2q j -> zeta == b2q k -> c_trilinear xsi eta zeta d == d k j i.
Proof.
  intros xsi eta zeta d k j i X E Z. unfold c_trilinear. rewrite !(c_bilinear_node _ _ _ j i X E), Z. destruct k; cbn [b2q]; ring.
Qed.
Lemma in_split_first : forall (A : Type) (l : list A) x, In x l -> NoDup l ->
  exists a b, l = a ++ x :: b /\ ~ In x a.
Proof. intros A l x I N. destruct (in_split x l I) as (a & b & ->). exists a, b. split; [reflexivity|].
  intros H. apply NoDup_remove_2 in N. apply N. apply in_or_app. left. exact H. Qed.
Lemma bits2_nodup : NoDup bits2. Proof. repeat constructor; cbn; intuition discriminate. Qed.
Lemma bits3_nodup : NoDup bits3. Proof. repeat constructor; cbn; intuition discriminate. Qed.
Lemma bits2_all : forall j i, In (j, i) bits2. Proof. intros [] []; cbn; tauto. Qed.
Lemma bits3_all : forall k j i, In (k, j, i) bits3. Proof. intros [] [] []; cbn; tauto. Qed.

Lemma c_zero_comp : forall a b, a == b -> c_zero a = c_zero b.
Proof. intros a b E. unfold c_zero. apply Qeqb_comp; [exact E|reflexivity]. Qed.

Lemma one_sea_count : forall (landb : Q -> bool) (land : Q -> Prop), (forall v, landb v = true <-> land v) -> forall vals,
  S (count (map landb vals)) = length vals <-> one_sea land vals.
Proof.
  intros landb land LS vals. split.
  - intros E. destruct (count_one vals landb E) as (a & v & b & -> & F & A). exists a, v, b. split; [reflexivity|].
    split; [intros L; apply LS in L; congruence|]. intros u U. apply LS, A, U.
  - intros (a & v & b & -> & F & A). apply count_one_conv.
    + destruct (landb v) eqn:E; [|reflexivity]. exfalso. apply F, LS, E.
    + intros u U. apply LS, A, U.
Qed.

Lemma c_land2_node : forall d xsi eta j i, xsi == b2q i -> eta == b2q j ->
  (d j i == 0 -> ~ one_sea zero_value (vals2 d)) -> exists q, c_land2 xsi eta d = Some q /\ q == d j i.
Proof.
  intros d xsi eta j i X E ONE. rewrite c_land2_is.
  destruct (in_split_first _ bits2 (j, i) (bits2_all j i) bits2_nodup) as (a & b & EB & NA).
  assert (V : map k_val (map (ccorner2 c_zero xsi eta d) bits2) = vals2 d) by reflexivity.
  assert (LEN : length (map (ccorner2 c_zero xsi eta d) bits2) = length (vals2 d)) by reflexivity.
  assert (DEF : exists q, landw c_zero c_zero true (c_bilinear xsi eta d) (map (ccorner2 c_zero xsi eta d) bits2) = Some q /\ q == k_val (ccorner2 c_zero xsi eta d (j, i))).
  { pose proof V as V'. pose proof LEN as LEN'. rewrite EB in V', LEN' |- *. rewrite map_app in V', LEN' |- *. cbn [map] in V', LEN' |- *. apply landw_node.
    - intros c I. apply in_map_iff in I. destruct I as ([j' i'] & <- & I). cbn [ccorner2 k_dist fst snd].
      assert (NE : (j', i') <> (j, i)) by (intros Q; apply NA; rewrite <- Q; exact I).
      unfold c_zero. destruct (Qeq_bool _ 0) eqn:EQ; [exfalso|reflexivity]. apply Qeq_bool_iff in EQ.
      apply NE. unfold sq in EQ. rewrite X, E in EQ. destruct j, i, j', i'; cbn [b2q] in EQ; try reflexivity; exfalso; revert EQ; vm_compute; discriminate.
    - cbn [ccorner2 k_dist fst snd]. unfold c_zero. apply Qeq_bool_iff. unfold sq. rewrite X, E. ring.
    - reflexivity.
    - reflexivity.
    - intros L. apply c_zero_spec in L. exact L.
    - cbn [ccorner2 k_val fst snd]. apply c_bilinear_node; assumption.
    - intros _ L H. rewrite V', LEN' in H. apply (one_sea_count c_zero zero_value c_zero_spec) in H. apply (ONE (proj1 (c_zero_spec _) L) H). }
  exact DEF.
Qed.
Lemma c_land3_node : forall d xsi eta zeta k j i, xsi == b2q i -> eta == b2q j -> zeta == b2q k ->
  (d k j i == 0 -> ~ one_sea zero_value (vals3 d)) -> exists q, c_land3 xsi eta zeta d = Some q /\ q == d k j i.
Proof.
  intros d xsi eta zeta k j i X E Z ONE. rewrite c_land3_is.
  destruct (in_split_first _ bits3 (k, j, i) (bits3_all k j i) bits3_nodup) as (a & b & EB & NA).
  assert (V : map k_val (map (ccorner3 c_zero xsi eta zeta d) bits3) = vals3 d) by reflexivity.
  assert (LEN : length (map (ccorner3 c_zero xsi eta zeta d) bits3) = length (vals3 d)) by reflexivity.
  assert (DEF : exists q, landw c_zero c_zero true (c_trilinear xsi eta zeta d) (map (ccorner3 c_zero xsi eta zeta d) bits3) = Some q /\ q == k_val (ccorner3 c_zero xsi eta zeta d (k, j, i))).
  { pose proof V as V'. pose proof LEN as LEN'. rewrite EB in V', LEN' |- *. rewrite map_app in V', LEN' |- *. cbn [map] in V', LEN' |- *. apply landw_node.
    - intros c I. apply in_map_iff in I. destruct I as ([[k' j'] i'] & <- & I). cbn [ccorner3 k_dist].
      assert (NE : (k', j', i') <> (k, j, i)) by (intros Q; apply NA; rewrite <- Q; exact I).
      unfold c_zero. destruct (Qeq_bool _ 0) eqn:EQ; [exfalso|reflexivity]. apply Qeq_bool_iff in EQ.
      apply NE. unfold sq in EQ. rewrite X, E, Z in EQ. destruct k, j, i, k', j', i'; cbn [b2q] in EQ; try reflexivity; exfalso; revert EQ; vm_compute; discriminate.
    - cbn [ccorner3 k_dist]. unfold c_zero. apply Qeq_bool_iff. unfold sq. rewrite X, E, Z. ring.
    - reflexivity.
    - reflexivity.
    - intros L. apply c_zero_spec in L. exact L.
    - cbn [ccorner3 k_val]. apply c_trilinear_node; assumption.
    - intros _ L H. rewrite V', LEN' in H. apply (one_sea_count c_zero zero_value c_zero_spec) in H. apply (ONE (proj1 (c_zero_spec _) L) H). }
  exact DEF.
Qed.

(** ** Python *)
Definition fcell2 (f : frame) (zi yi xi : Z) : cell2 := fun j i => f_at f zi (yi + b2z j) (xi + b2z i).
Definition fcell3 (f : frame) (zi yi xi : Z) : cell3 := fun k j i => f_at f (zi + b2z k) (yi + b2z j) (xi + b2z i).

Lemma py_read_in : forall f z y x, (0 <= z < f_zdim f)%Z -> (0 <= y < f_ydim f)%Z -> (0 <= x < f_xdim f)%Z -> py_read f z y x = Some (f_at f z y x).
Proof. intros f z y x Z Y X. unfold py_read. rewrite !py_index_in by assumption. reflexivity. Qed.

Lemma py_bilinear_in : forall f zi yi xi xsi eta, (0 <= zi < f_zdim f)%Z -> (0 <= yi)%Z -> (yi + 1 < f_ydim f)%Z -> (0 <= xi)%Z -> (xi + 1 < f_xdim f)%Z ->
  py_bilinear f zi yi xi xsi eta = Some (c_bilinear xsi eta (fcell2 f zi yi xi)).
Proof.
  intros f zi yi xi xsi eta Z Y0 Y1 X0 X1. unfold py_bilinear. rewrite !py_read_in by lia. unfold c_bilinear, fcell2. cbn [b2z].
  rewrite !Z.add_0_r. reflexivity.
Qed.

(** With the transposed mask of field.py 916. *)
Definition pcorner2 (xsi eta : Q) (d : cell2) (b : bool * bool) : corner :=
  mkCorner (sq (eta - b2q (fst b)) + sq (xsi - b2q (snd b))) (d (fst b) (snd b)) (py_zero (d (fst b) (snd b)))
           (py_zero (d (snd b) (fst b))) (d (fst b) (snd b)).
Lemma py_land2_is : forall f zi yi xi xsi eta, (0 <= zi < f_zdim f)%Z -> (0 <= yi)%Z -> (yi + 1 < f_ydim f)%Z -> (0 <= xi)%Z -> (xi + 1 < f_xdim f)%Z ->
  let d := fcell2 f zi yi xi in
  py_land2 f zi yi xi xsi eta = landw py_zero py_zero false (c_bilinear xsi eta d) (map (pcorner2 xsi eta d) bits2).
Proof.
  intros f zi yi xi xsi eta Z Y0 Y1 X0 X1 d. unfold py_land2. replace ((f_ydim f <=? 1)%Z || (f_xdim f <=? 1)%Z) with false by lia.
  rewrite (py_bilinear_in f zi yi xi xsi eta) by lia. fold d. rewrite !py_read_in by lia. unfold landw. cbv zeta.
  assert (D00 : f_at f zi yi xi = d false false) by (unfold d, fcell2; cbn [b2z]; rewrite !Z.add_0_r; reflexivity).
  assert (D01 : f_at f zi yi (xi + 1) = d false true) by (unfold d, fcell2; cbn [b2z]; rewrite !Z.add_0_r; reflexivity).
  assert (D10 : f_at f zi (yi + 1) xi = d true false) by (unfold d, fcell2; cbn [b2z]; rewrite !Z.add_0_r; reflexivity).
  assert (D11 : f_at f zi (yi + 1) (xi + 1) = d true true) by (unfold d, fcell2; cbn [b2z]; reflexivity).
  rewrite D00, D01, D10, D11. generalize d. intros e.
  change (map k_val (map (pcorner2 xsi eta e) bits2)) with [e false false; e false true; e true false; e true true].
  cbn [map length].
  destruct (count [py_zero (e false false); py_zero (e false true); py_zero (e true false); py_zero (e true true)]) as [|[|[|[|[|]]]]]; reflexivity.
Qed.

Definition sym2 (d : cell2) : Prop := near_zero (d false true) <-> near_zero (d true false).
Lemma py_land2_average : forall f yi xi xsi eta, cell2_ok f yi xi -> unit_coord xsi -> unit_coord eta -> away2 py_tol xsi eta ->
  some_sea near_zero (corners2 f yi xi) ->
  (near_zero (f_at f 0 yi (xi + 1)) <-> near_zero (f_at f 0 (yi + 1) xi)) \/ (forall v, In v (corners2 f yi xi) -> ~ near_zero v) ->
  exists q, py_land2 f 0 yi xi xsi eta = Some q /\
    sea_average near_zero (some_land near_zero (corners2 f yi xi) \/ inner_coord xsi /\ inner_coord eta) (corners2 f yi xi) q.
Proof.
  intros f yi xi xsi eta (Z & Y0 & Y1 & X0 & X1) X E A SEA SYM0.
  assert (SYM : near_zero (f_at f 0 yi (xi + 1)) <-> near_zero (f_at f 0 (yi + 1) xi)).
  { destruct SYM0 as [H|H]; [exact H|]. split; intros L; exfalso; revert L; apply H; cbn; tauto. }
  rewrite py_land2_is by lia. cbv zeta.
  set (d := fcell2 f 0 yi xi).
  assert (V : corners2 f yi xi = vals2 d) by (unfold corners2, vals2, d, fcell2; cbn [b2z]; rewrite !Z.add_0_r; reflexivity).
  assert (S2 : py_zero (d false true) = py_zero (d true false)).
  { assert (H : py_zero (d false true) = true <-> py_zero (d true false) = true).
    { rewrite !py_zero_spec. unfold d, fcell2. cbn [b2z]. rewrite !Z.add_0_r. exact SYM. }
    destruct (py_zero (d false true)), (py_zero (d true false)); try reflexivity; [symmetry; apply H; reflexivity|apply H; reflexivity]. }
  rewrite V in SEA |- *. change (vals2 d) with (map k_val (map (pcorner2 xsi eta d) bits2)) in SEA |- *.
  apply (landw_average py_zero py_zero near_zero).
  - exact py_zero_spec.
  - intros c I. apply in_map_iff in I. destruct I as ([j i] & <- & _). cbn [pcorner2 k_dist fst snd].
    specialize (A j i). unfold dist2, py_tol in A. assert (P : (1 # 100000000) < sq (eta - b2q j) + sq (xsi - b2q i)) by (unfold sq; lra).
    split; [|lra]. unfold py_zero. apply qle_false. rewrite Qabs_pos; lra.
  - intros c I. apply in_map_iff in I. destruct I as ([j i] & <- & _). cbn [pcorner2 k_skip k_val fst snd].
    destruct j, i; try reflexivity; [exact S2|symmetry; exact S2].
  - exact SEA.
  - intros N. apply (bilinear_average near_zero d xsi eta X E N).
Qed.

Definition pcorner3 (xsi eta zeta : Q) (d : cell3) (b : bool * bool * bool) : corner :=
  let '(k, j, i) := b in
  mkCorner (sq (zeta - b2q k) + sq (eta - b2q j) + sq (xsi - b2q i)) (d i j k) (py_zero (d k j i)) (py_zero (d k j i)) (d k j i).
Lemma py_land3_is : forall f zi yi xi xsi eta zeta, cell3_ok f zi yi xi ->
  let d := fcell3 f zi yi xi in
  py_land3 f zi yi xi xsi eta zeta = landw py_zero py_zero false (c_trilinear xsi eta zeta d) (map (pcorner3 xsi eta zeta d) bits3).
Proof.
  intros f zi yi xi xsi eta zeta (Z0 & Z1 & Y0 & Y1 & X0 & X1) d. unfold py_land3.
  replace ((zi <? 0)%Z || (yi <? 0)%Z || (xi <? 0)%Z || (f_zdim f <=? zi + 1)%Z || (f_ydim f <=? yi + 1)%Z || (f_xdim f <=? xi + 1)%Z) with false by lia.
  cbv zeta. unfold py_trilinear. rewrite !py_bilinear_in by lia.
  assert (T : (1 - zeta) * c_bilinear xsi eta (fcell2 f zi yi xi) + zeta * c_bilinear xsi eta (fcell2 f (zi + 1) yi xi) = c_trilinear xsi eta zeta d).
  { unfold c_trilinear, d, fcell3, fcell2. cbn [b2z]. rewrite Z.add_0_r. reflexivity. }
  rewrite T. change (fun k j i : bool => f_at f (zi + b2z k) (yi + b2z j) (xi + b2z i)) with d.
  unfold landw. cbv zeta. set (vals := map k_val (map (pcorner3 xsi eta zeta d) bits3)).
  assert (V : map (fun b : bool * bool * bool => let '(k, j, i) := b in py_zero (f_at f (zi + b2z k) (yi + b2z j) (xi + b2z i))) bits3 = map py_zero vals) by reflexivity.
  rewrite V. change (length vals) with 8%nat.
  set (cs := map (pcorner3 xsi eta zeta d) bits3).
  match goal with |- context [invdist py_zero ?a 0 0] => change a with cs end.
  generalize (invdist py_zero cs 0 0) (c_trilinear xsi eta zeta d). intros e1 e3.
  destruct (count (map py_zero vals)) as [|[|[|[|[|[|[|[|[|]]]]]]]]]; reflexivity.
Qed.
Lemma py_land3_average : forall f zi yi xi xsi eta zeta, cell3_ok f zi yi xi -> unit_coord xsi -> unit_coord eta -> unit_coord zeta ->
  away3 py_tol xsi eta zeta -> some_sea near_zero (corners3 f zi yi xi) ->
  exists q, py_land3 f zi yi xi xsi eta zeta = Some q /\
    sea_average near_zero (some_land near_zero (corners3 f zi yi xi) \/ inner_coord xsi /\ inner_coord eta /\ inner_coord zeta) (corners3 f zi yi xi) q.
Proof.
  intros f zi yi xi xsi eta zeta OK X E Z A SEA. rewrite py_land3_is by exact OK. cbv zeta. set (d := fcell3 f zi yi xi).
  assert (V : corners3 f zi yi xi = vals3 d) by (unfold corners3, vals3, d, fcell3; cbn [b2z]; rewrite !Z.add_0_r; reflexivity).
  rewrite V in SEA |- *. change (vals3 d) with (map k_val (map (pcorner3 xsi eta zeta d) bits3)) in SEA |- *.
  apply (landw_average py_zero py_zero near_zero).
  - exact py_zero_spec.
  - intros c I. apply in_map_iff in I. destruct I as ([[k j] i] & <- & _). cbn [pcorner3 k_dist].
    specialize (A k j i). unfold dist3, dist2, py_tol in A.
    assert (P : (1 # 100000000) < sq (zeta - b2q k) + sq (eta - b2q j) + sq (xsi - b2q i)) by (unfold sq; lra).
    split; [|lra]. unfold py_zero. apply qle_false. rewrite Qabs_pos; lra.
  - intros c I. apply in_map_iff in I. destruct I as ([[k j] i] & <- & _). reflexivity.
  - exact SEA.
  - intros N. apply (trilinear_average near_zero d xsi eta zeta X E Z N).
Qed.

(** All land. *)
Lemma py_land2_all : forall f yi xi xsi eta, cell2_ok f yi xi -> all_land near_zero (corners2 f yi xi) -> py_land2 f 0 yi xi xsi eta = Some 0.
Proof.
  intros f yi xi xsi eta (Z & Y0 & Y1 & X0 & X1) AL. rewrite py_land2_is by lia. cbv zeta. apply landw_all.
  intros c I. apply in_map_iff in I. destruct I as ([j i] & <- & _). apply py_zero_spec, AL. cbn [pcorner2 k_val fst snd].
  unfold fcell2, corners2. destruct j, i; cbn [b2z]; rewrite ?Z.add_0_r; cbn; tauto.
Qed.
Lemma py_land3_all : forall f zi yi xi xsi eta zeta, cell3_ok f zi yi xi -> all_land near_zero (corners3 f zi yi xi) ->
  py_land3 f zi yi xi xsi eta zeta = Some 0.
Proof.
  intros f zi yi xi xsi eta zeta OK AL. rewrite py_land3_is by exact OK. cbv zeta. apply landw_all.
  intros c I. apply in_map_iff in I. destruct I as ([[k j] i] & <- & _). apply py_zero_spec, AL. cbn [pcorner3 k_val].
  unfold fcell3, corners3. destruct k, j, i; cbn [b2z]; rewrite ?Z.add_0_r; cbn; tauto.
Qed.
Lemma c_land2_all : forall d xsi eta, all_land zero_value (vals2 d) -> c_land2 xsi eta d = Some 0.
Proof.
  intros d xsi eta AL. rewrite c_land2_is. apply landw_all. intros c I. apply in_map_iff in I. destruct I as ([j i] & <- & _).
  apply c_zero_spec, AL. cbn [ccorner2 k_val fst snd]. unfold vals2. destruct j, i; cbn; tauto.
Qed.
Lemma c_land3_all : forall d xsi eta zeta, all_land zero_value (vals3 d) -> c_land3 xsi eta zeta d = Some 0.
Proof.
  intros d xsi eta zeta AL. rewrite c_land3_is. apply landw_all. intros c I. apply in_map_iff in I. destruct I as ([[k j] i] & <- & _).
  apply c_zero_spec, AL. cbn [ccorner3 k_val]. unfold vals3. destruct k, j, i; cbn; tauto.
Qed.

(** What an average of the sea values gives. *)
Lemma sea_average_bounds : forall land P vals q lo hi, sea_average land P vals q ->
  (forall v, In v vals -> ~ land v -> lo <= v <= hi) -> (forall v, land v \/ ~ land v) -> lo <= q <= hi.
Proof.
  intros land P vals q lo hi (ws & F & S & ->) B DEC.
  assert (G : lo * qsum ws <= dot ws vals <= hi * qsum ws).
  { clear S. induction F as [|v w vals ws (W0 & W1 & W2) F IH]; cbn [qsum fold_right dot]; [lra|].
    specialize (IH (fun u U => B u (or_intror U))). unfold qsum in IH.
    destruct (DEC v) as [L|L].
    - rewrite (W1 L). lra.
    - specialize (B v (or_introl eq_refl) L). nra. }
  rewrite S in G. lra.
Qed.
Lemma sea_average_pos : forall land (P : Prop) vals q, sea_average land P vals q -> P -> some_sea land vals ->
  (forall v, In v vals -> ~ land v -> 0 < v) -> (forall v, land v \/ ~ land v) -> 0 < q.
Proof.
  intros land P vals q (ws & F & _ & ->) HP SEA B DEC. destruct SEA as (v & I & V).
  assert (N : 0 <= dot ws vals /\ ((exists u, In u vals /\ ~ land u) -> 0 < dot ws vals)).
  { clear I V. induction F as [|u w vals ws (W0 & W1 & W2) F IH]; cbn [dot]; [split; [lra|intros (u & [] & _)]|].
    destruct (IH (fun x X => B x (or_intror X))) as [N0 N1].
    destruct (DEC u) as [L|L].
    - assert (Z : w * u == 0) by (rewrite (W1 L); ring). split; [lra|]. intros (x & [<-|X] & NX); [contradiction|].
      specialize (N1 (ex_intro _ x (conj X NX))). lra.
    - specialize (B u (or_introl eq_refl) L). specialize (W2 L HP). assert (0 < w * u) by nra. split; [lra|]. intros _. lra. }
  apply N. exists v. split; assumption.
Qed.

(** ** Agreement of the modes *)
Lemma landb_same : forall vals, (forall v, In v vals -> v == 0 \/ ~ near_zero v) -> map c_zero vals = map py_zero vals.
Proof.
  intros vals H. apply map_ext_in. intros v I. destruct (H v I) as [Z|N].
  - transitivity true; [apply c_zero_spec; exact Z|]. symmetry. apply py_zero_spec. unfold near_zero. rewrite Z. vm_compute. discriminate.
  - transitivity false.
    + destruct (c_zero v) eqn:E; [|reflexivity]. exfalso. apply N. apply c_zero_spec in E. unfold near_zero, zero_value in *. rewrite E. vm_compute. discriminate.
    + destruct (py_zero v) eqn:E; [|reflexivity]. exfalso. apply N, py_zero_spec, E.
Qed.

Lemma landw_same : forall (zero zero' landb landb' : Q -> bool) (land : Q -> Prop) single single' linear cs cs',
  (forall v, landb v = true <-> land v) ->
  map k_val cs = map k_val cs' ->
  map landb (map k_val cs) = map landb' (map k_val cs) ->
  (forall c, In c cs -> zero (k_dist c) = false /\ 0 < k_dist c) ->
  (forall c, In c cs' -> zero' (k_dist c) = false /\ 0 < k_dist c) ->
  map k_skip cs = map landb (map k_val cs) -> map k_skip cs' = map landb (map k_val cs) ->
  Forall2 (fun c c' => k_dist c == k_dist c') cs cs' ->
  exists q q', landw zero landb single linear cs = Some q /\ landw zero' landb' single' linear cs' = Some q' /\ q == q'.
Proof.
  intros zero zero' landb landb' land single single' linear cs cs' LS EV EL D D' SK SK' ED.
  unfold landw. cbv zeta. rewrite <- EV, <- EL. set (vals := map k_val cs) in *.
  assert (W : inv_den cs == inv_den cs' /\ inv_num cs == inv_num cs').
  { clear - EV SK SK' ED. assert (SKE : map k_skip cs = map k_skip cs') by congruence. subst vals. clear SK SK'. revert EV SKE. induction ED as [|c c' l l' E F IH]; intros EV SK; [split; reflexivity|].
    cbn [map] in EV, SK. inversion EV as [[V1 V2]]. inversion SK as [[S1 S2]]. destruct (IH V2 S2) as [I1 I2].
    assert (WW : inv_w c == inv_w c') by (unfold inv_w; rewrite S1; destruct (k_skip c'); [reflexivity|rewrite E; reflexivity]).
    unfold inv_den, inv_num in *. cbn [map qsum fold_right]. unfold qsum in *. split; [rewrite WW, I1; reflexivity|rewrite WW, V1, I2; reflexivity]. }
  destruct W as [WD WN].
  destruct (Nat.eqb_spec (count (map landb vals)) (length vals)) as [E|E]; [exists 0, 0; repeat split; reflexivity|].
  destruct (Nat.eqb_spec (count (map landb vals)) 0) as [E0|E0]; [exists linear, linear; repeat split; reflexivity|].
  assert (SEA : some_sea land vals).
  { clear - LS E. assert (H : exists v, In v vals /\ landb v = false).
    { induction vals as [|v vals IH]; [exfalso; apply E; reflexivity|]. cbn [map length] in E. rewrite count_cons in E.
      destruct (landb v) eqn:L; [|exists v; split; [left; reflexivity|exact L]].
      destruct IH as (u & U & LU); [lia|]. exists u. split; [right; exact U|exact LU]. }
    destruct H as (v & I & L). exists v. split; [exact I|]. intros H. apply LS in H. congruence. }
  assert (SKc : forall c, In c cs -> k_skip c = true <-> land (k_val c)).
  { intros c C. rewrite <- LS. assert (H : k_skip c = landb (k_val c)).
    { clear - SK C. subst vals. revert SK. induction cs as [|a l IH]; intros SK; [destruct C|]. cbn [map] in SK. inversion SK as [[S1 S2]]. destruct C as [<-|C]; [exact S1|exact (IH C S2)]. }
    rewrite H. tauto. }
  assert (SKc' : forall c, In c cs' -> k_skip c = true <-> land (k_val c)).
  { intros c C. rewrite <- LS. assert (H : k_skip c = landb (k_val c)).
    { clear - SK' EV C. rewrite EV in SK'. clear EV. revert SK'. induction cs' as [|a l IH]; intros SK; [destruct C|]. cbn [map] in SK. inversion SK as [[S1 S2]]. destruct C as [<-|C]; [exact S1|exact (IH C S2)]. }
    rewrite H. tauto. }
  destruct (invdist_average zero land cs D SKc SEA) as (q & Q & QV & SA).
  destruct (invdist_average zero' land cs' D' SKc') as (q' & Q' & QV' & SA'); [rewrite <- EV; exact SEA|].
  assert (QQ : q == q') by (rewrite QV, QV', WD, WN; reflexivity).
  assert (ONE : S (count (map landb vals)) = length vals -> q == last_sea landb vals).
  { intros E1. destruct (count_one vals landb E1) as (a & v & b & EVAL & F & A).
    assert (LV : last_sea landb vals = v) by (rewrite EVAL; apply last_sea_one; assumption). rewrite LV.
    assert (DEC : forall u, land u \/ ~ land u) by (intros u; destruct (landb u) eqn:LU; [left; apply LS, LU|right; intros H; apply LS in H; congruence]).
    assert (B : v <= q <= v).
    { apply (sea_average_bounds land True vals q v v SA); [|exact DEC]. intros u U NU. rewrite EVAL in U.
      apply in_app_or in U. destruct U as [U|[<-|U]]; [exfalso; apply NU, LS, A; auto|lra|exfalso; apply NU, LS, A; auto]. }
    lra. }
  assert (LSE : last_sea landb' vals = last_sea landb vals).
  { clear - EL. unfold last_sea. generalize 0. revert EL. induction vals as [|v vals IH]; intros EL x; [reflexivity|]. cbn [map] in EL. inversion EL as [[E1 E2]].
    cbn [fold_left]. rewrite E1. apply IH, E2. }
  destruct (single && (S (count (map landb vals)) =? length vals)%nat) eqn:S1;
    destruct (single' && (S (count (map landb vals)) =? length vals)%nat) eqn:S2.
  - do 2 eexists. split; [reflexivity|]. split; [reflexivity|]. rewrite LSE. reflexivity.
  - do 2 eexists. split; [reflexivity|]. split; [exact Q'|]. apply andb_true_iff in S1. rewrite <- ONE by (apply Nat.eqb_eq, S1). exact QQ.
  - do 2 eexists. split; [exact Q|]. split; [reflexivity|]. apply andb_true_iff in S2. rewrite LSE, <- ONE by (apply Nat.eqb_eq, S2). reflexivity.
  - exists q, q'. split; [exact Q|]. split; [exact Q'|exact QQ].
Qed.

(** On a corner in Scipy mode. *)
Lemma py_land2_node : forall f yi xi xsi eta j i, cell2_ok f yi xi -> xsi == b2q i -> eta == b2q j ->
  (near_zero (fcell2 f 0 yi xi j i) -> fcell2 f 0 yi xi j i == 0) ->
  exists q, py_land2 f 0 yi xi xsi eta = Some q /\ q == fcell2 f 0 yi xi j i.
Proof.
  intros f yi xi xsi eta j i (Z & Y0 & Y1 & X0 & X1) X E NZ. rewrite py_land2_is by lia. cbv zeta. set (d := fcell2 f 0 yi xi) in *.
  destruct (in_split_first _ bits2 (j, i) (bits2_all j i) bits2_nodup) as (a & b & EB & NA).
  change (d j i) with (k_val (pcorner2 xsi eta d (j, i))). rewrite EB, map_app. cbn [map]. apply landw_node.
  - intros c I. apply in_map_iff in I. destruct I as ([j' i'] & <- & I). cbn [pcorner2 k_dist fst snd].
    assert (NE : (j', i') <> (j, i)) by (intros Q; apply NA; rewrite <- Q; exact I).
    unfold py_zero. apply qle_false. unfold sq. rewrite X, E. destruct j, i, j', i'; try (exfalso; apply NE; reflexivity); reflexivity.
  - cbn [pcorner2 k_dist fst snd]. unfold py_zero. apply qle_spec. unfold sq. rewrite X, E. destruct j, i; vm_compute; discriminate.
  - reflexivity.
  - reflexivity.
  - intros L. apply NZ, py_zero_spec. exact L.
  - cbn [pcorner2 k_val fst snd]. apply c_bilinear_node; assumption.
  - discriminate.
Qed.
Lemma py_land3_node : forall f zi yi xi xsi eta zeta k j, cell3_ok f zi yi xi -> xsi == b2q k -> eta == b2q j -> zeta == b2q k ->
  (near_zero (fcell3 f zi yi xi k j k) -> fcell3 f zi yi xi k j k == 0) ->
  exists q, py_land3 f zi yi xi xsi eta zeta = Some q /\ q == fcell3 f zi yi xi k j k.
Proof.
  intros f zi yi xi xsi eta zeta k j OK X E Z NZ. rewrite py_land3_is by exact OK. cbv zeta. set (d := fcell3 f zi yi xi) in *.
  destruct (in_split_first _ bits3 (k, j, k) (bits3_all k j k) bits3_nodup) as (a & b & EB & NA).
  change (d k j k) with (k_val (pcorner3 xsi eta zeta d (k, j, k))). rewrite EB, map_app. cbn [map]. apply landw_node.
  - intros c I. apply in_map_iff in I. destruct I as ([[k' j'] i'] & <- & I). cbn [pcorner3 k_dist].
    assert (NE : (k', j', i') <> (k, j, k)) by (intros Q; apply NA; rewrite <- Q; exact I).
    unfold py_zero. apply qle_false. unfold sq. rewrite X, E, Z. destruct k, j, k', j', i'; try (exfalso; apply NE; reflexivity); reflexivity.
  - cbn [pcorner3 k_dist]. unfold py_zero. apply qle_spec. unfold sq. rewrite X, E, Z. destruct k, j; vm_compute; discriminate.
  - reflexivity.
  - reflexivity.
  - intros L. apply NZ, py_zero_spec. exact L.
  - cbn [pcorner3 k_val]. apply c_trilinear_node; assumption.
  - discriminate.
Qed.

(** The cell in C. *)
Lemma c_interp_land2 : forall ix f xsi eta zeta xi yi zi, cell2_ok f yi xi ->
  c_interp ix LandTracer f xsi eta zeta xi yi zi = opt (c_land2 xsi eta (fcell2 f 0 yi xi)).
Proof.
  intros ix f xsi eta zeta xi yi zi (Z & Y0 & Y1 & X0 & X1). unfold c_interp. rewrite Z, Z.eqb_refl. cbv zeta iota.
  assert (OK : c_cell_ok f 0 yi xi = true).
  { unfold c_cell_ok, c_index. rewrite Z. cbn [b2z]. replace (1 =? 1)%Z with true by lia.
    replace (f_ydim f =? 1)%Z with false by lia. replace (f_xdim f =? 1)%Z with false by lia.
    replace ((0 <=? 0)%Z && (0 <? 1)%Z) with true by lia. replace ((0 <=? yi + 0)%Z && (yi + 0 <? f_ydim f)%Z) with true by lia.
    replace ((0 <=? yi + 1)%Z && (yi + 1 <? f_ydim f)%Z) with true by lia. replace ((0 <=? xi + 0)%Z && (xi + 0 <? f_xdim f)%Z) with true by lia.
    replace ((0 <=? xi + 1)%Z && (xi + 1 <? f_xdim f)%Z) with true by lia. reflexivity. }
  assert (CE : c_cell f 0 yi xi = fun _ => fcell2 f 0 yi xi).
  { unfold c_cell. rewrite Z, Z.eqb_refl. replace (f_ydim f =? 1)%Z with false by lia. replace (f_xdim f =? 1)%Z with false by lia. reflexivity. }
  rewrite OK, CE. cbn [negb]. cbv iota. reflexivity.
Qed.
Lemma c_interp_land3 : forall ix f xsi eta zeta xi yi zi, ix = Nemo \/ ix = Mitgcm -> cell3_ok f zi yi xi ->
  c_interp ix LandTracer f xsi eta zeta xi yi zi = opt (c_land3 xsi eta zeta (fcell3 f zi yi xi)).
Proof.
  intros ix f xsi eta zeta xi yi zi IX (Z0 & Z1 & Y0 & Y1 & X0 & X1). unfold c_interp. cbv zeta.
  assert (M : is_mom5 ix = false /\ is_pop ix = false) by (destruct IX as [-> | ->]; split; reflexivity). destruct M as [-> ->]. cbn [andb].
  replace (f_zdim f =? 1)%Z with false by lia. cbv iota.
  assert (OK : c_cell_ok f zi yi xi = true).
  { unfold c_cell_ok, c_index. cbn [b2z]. replace (f_zdim f =? 1)%Z with false by lia.
    replace (f_ydim f =? 1)%Z with false by lia. replace (f_xdim f =? 1)%Z with false by lia.
    replace ((0 <=? zi + 0)%Z && (zi + 0 <? f_zdim f)%Z) with true by lia. replace ((0 <=? zi + 1)%Z && (zi + 1 <? f_zdim f)%Z) with true by lia.
    replace ((0 <=? yi + 0)%Z && (yi + 0 <? f_ydim f)%Z) with true by lia.
    replace ((0 <=? yi + 1)%Z && (yi + 1 <? f_ydim f)%Z) with true by lia. replace ((0 <=? xi + 0)%Z && (xi + 0 <? f_xdim f)%Z) with true by lia.
    replace ((0 <=? xi + 1)%Z && (xi + 1 <? f_xdim f)%Z) with true by lia. reflexivity. }
  assert (CE : c_cell f zi yi xi = fcell3 f zi yi xi).
  { unfold c_cell. replace (f_zdim f =? 1)%Z with false by lia. replace (f_ydim f =? 1)%Z with false by lia. replace (f_xdim f =? 1)%Z with false by lia. reflexivity. }
  rewrite OK, CE. cbn [negb]. cbv iota. reflexivity.
Qed.
Lemma vals2_corners : forall f yi xi, vals2 (fcell2 f 0 yi xi) = corners2 f yi xi.
Proof. intros. unfold corners2, vals2, fcell2. cbn [b2z]. rewrite !Z.add_0_r. reflexivity. Qed.
Lemma vals3_corners : forall f zi yi xi, vals3 (fcell3 f zi yi xi) = corners3 f zi yi xi.
Proof. intros. unfold corners3, vals3, fcell3. cbn [b2z]. rewrite !Z.add_0_r. reflexivity. Qed.

(** ** In terms of the interpolators *)
Theorem jit_average2 : forall ix f xsi eta zeta xi yi zi, cell2_ok f yi xi -> unit_coord xsi -> unit_coord eta -> away2 0 xsi eta ->
  some_sea zero_value (corners2 f yi xi) ->
  exists q, c_interp ix LandTracer f xsi eta zeta xi yi zi = IVal q /\
    sea_average zero_value (some_land zero_value (corners2 f yi xi) \/ inner_coord xsi /\ inner_coord eta) (corners2 f yi xi) q.
Proof.
  intros ix f xsi eta zeta xi yi zi OK X E A SEA. rewrite c_interp_land2 by exact OK. rewrite <- vals2_corners in *.
  destruct (c_land2_average _ xsi eta X E A SEA) as (q & -> & S). exists q. split; [reflexivity|exact S].
Qed.
Theorem jit_average3 : forall ix f xsi eta zeta xi yi zi, ix = Nemo \/ ix = Mitgcm -> cell3_ok f zi yi xi ->
  unit_coord xsi -> unit_coord eta -> unit_coord zeta -> away3 0 xsi eta zeta ->
  some_sea zero_value (corners3 f zi yi xi) ->
  exists q, c_interp ix LandTracer f xsi eta zeta xi yi zi = IVal q /\
    sea_average zero_value (some_land zero_value (corners3 f zi yi xi) \/ inner_coord xsi /\ inner_coord eta /\ inner_coord zeta)
      (corners3 f zi yi xi) q.
Proof.
  intros ix f xsi eta zeta xi yi zi IX OK X E Z A SEA. rewrite c_interp_land3 by assumption. rewrite <- vals3_corners in *.
  destruct (c_land3_average _ xsi eta zeta X E Z A SEA) as (q & -> & S). exists q. split; [reflexivity|exact S].
Qed.
Theorem scipy_average2 : forall f xsi eta xi yi, cell2_ok f yi xi -> unit_coord xsi -> unit_coord eta -> away2 py_tol xsi eta ->
  some_sea near_zero (corners2 f yi xi) ->
  (near_zero (f_at f 0 yi (xi + 1)) <-> near_zero (f_at f 0 (yi + 1) xi)) \/ (forall v, In v (corners2 f yi xi) -> ~ near_zero v) ->
  exists q, py_interp2D LandTracer f xsi eta xi yi = IVal q /\
    sea_average near_zero (some_land near_zero (corners2 f yi xi) \/ inner_coord xsi /\ inner_coord eta) (corners2 f yi xi) q.
Proof.
  intros f xsi eta xi yi OK X E A SEA SYM. destruct (py_land2_average f yi xi xsi eta OK X E A SEA SYM) as (q & Q & S).
  exists q. cbn [py_interp2D]. rewrite Q. split; [reflexivity|exact S].
Qed.
Theorem scipy_average3 : forall ix f xsi eta zeta xi yi zi, cell3_ok f zi yi xi -> unit_coord xsi -> unit_coord eta -> unit_coord zeta ->
  away3 py_tol xsi eta zeta -> some_sea near_zero (corners3 f zi yi xi) ->
  exists q, py_interp3D ix LandTracer f xsi eta zeta xi yi zi = IVal q /\
    sea_average near_zero (some_land near_zero (corners3 f zi yi xi) \/ inner_coord xsi /\ inner_coord eta /\ inner_coord zeta)
      (corners3 f zi yi xi) q.
Proof.
  intros ix f xsi eta zeta xi yi zi OK X E Z A SEA. destruct (py_land3_average f zi yi xi xsi eta zeta OK X E Z A SEA) as (q & Q & S).
  exists q. cbn [py_interp3D]. rewrite Q. split; [reflexivity|exact S].
Qed.

Theorem all_land_zero : forall ix f xsi eta zeta xi yi zi,
  (cell2_ok f yi xi ->
     (all_land near_zero (corners2 f yi xi) -> py_interp2D LandTracer f xsi eta xi yi = IVal 0) /\
     (all_land zero_value (corners2 f yi xi) -> c_interp ix LandTracer f xsi eta zeta xi yi zi = IVal 0)) /\
  (cell3_ok f zi yi xi ->
     (all_land near_zero (corners3 f zi yi xi) -> py_interp3D ix LandTracer f xsi eta zeta xi yi zi = IVal 0) /\
     (ix = Nemo \/ ix = Mitgcm -> all_land zero_value (corners3 f zi yi xi) -> c_interp ix LandTracer f xsi eta zeta xi yi zi = IVal 0)).
Proof.
  intros ix f xsi eta zeta xi yi zi. split; intros OK; split.
  - intros AL. cbn [py_interp2D]. rewrite (py_land2_all f yi xi xsi eta OK AL). reflexivity.
  - intros AL. rewrite c_interp_land2 by exact OK. rewrite c_land2_all; [reflexivity|]. rewrite vals2_corners. exact AL.
  - intros AL. cbn [py_interp3D]. rewrite (py_land3_all f zi yi xi xsi eta zeta OK AL). reflexivity.
  - intros IX AL. rewrite c_interp_land3 by assumption. rewrite c_land3_all; [reflexivity|]. rewrite vals3_corners. exact AL.
Qed.

Theorem jit_node2 : forall ix f xsi eta zeta xi yi zi j i, cell2_ok f yi xi -> xsi == b2q i -> eta == b2q j ->
  (f_at f 0 (yi + b2z j) (xi + b2z i) == 0 -> ~ one_sea zero_value (corners2 f yi xi)) ->
  exists q, c_interp ix LandTracer f xsi eta zeta xi yi zi = IVal q /\ q == f_at f 0 (yi + b2z j) (xi + b2z i).
Proof.
  intros ix f xsi eta zeta xi yi zi j i OK X E ONE. rewrite c_interp_land2 by exact OK. rewrite <- vals2_corners in ONE.
  destruct (c_land2_node (fcell2 f 0 yi xi) xsi eta j i X E ONE) as (q & -> & Q). exists q. split; [reflexivity|exact Q].
Qed.
Theorem jit_node3 : forall ix f xsi eta zeta xi yi zi k j i, ix = Nemo \/ ix = Mitgcm -> cell3_ok f zi yi xi ->
  xsi == b2q i -> eta == b2q j -> zeta == b2q k ->
  (f_at f (zi + b2z k) (yi + b2z j) (xi + b2z i) == 0 -> ~ one_sea zero_value (corners3 f zi yi xi)) ->
  exists q, c_interp ix LandTracer f xsi eta zeta xi yi zi = IVal q /\ q == f_at f (zi + b2z k) (yi + b2z j) (xi + b2z i).
Proof.
  intros ix f xsi eta zeta xi yi zi k j i IX OK X E Z ONE. rewrite c_interp_land3 by assumption. rewrite <- vals3_corners in ONE.
  destruct (c_land3_node (fcell3 f zi yi xi) xsi eta zeta k j i X E Z ONE) as (q & -> & Q). exists q. split; [reflexivity|exact Q].
Qed.
Theorem scipy_node2 : forall f xsi eta xi yi j i, cell2_ok f yi xi -> xsi == b2q i -> eta == b2q j ->
  (near_zero (f_at f 0 (yi + b2z j) (xi + b2z i)) -> f_at f 0 (yi + b2z j) (xi + b2z i) == 0) ->
  exists q, py_interp2D LandTracer f xsi eta xi yi = IVal q /\ q == f_at f 0 (yi + b2z j) (xi + b2z i).
Proof.
  intros f xsi eta xi yi j i OK X E NZ. destruct (py_land2_node f yi xi xsi eta j i OK X E NZ) as (q & Q & V).
  exists q. cbn [py_interp2D]. rewrite Q. split; [reflexivity|exact V].
Qed.
Theorem scipy_node3 : forall ix f xsi eta zeta xi yi zi k j, cell3_ok f zi yi xi -> xsi == b2q k -> eta == b2q j -> zeta == b2q k ->
  (near_zero (f_at f (zi + b2z k) (yi + b2z j) (xi + b2z k)) -> f_at f (zi + b2z k) (yi + b2z j) (xi + b2z k) == 0) ->
  exists q, py_interp3D ix LandTracer f xsi eta zeta xi yi zi = IVal q /\ q == f_at f (zi + b2z k) (yi + b2z j) (xi + b2z k).
Proof.
  intros ix f xsi eta zeta xi yi zi k j OK X E Z NZ. destruct (py_land3_node f zi yi xi xsi eta zeta k j OK X E Z NZ) as (q & Q & V).
  exists q. cbn [py_interp3D]. rewrite Q. split; [reflexivity|exact V].
Qed.

Theorem modes_land2 : forall ix f xsi eta zeta xi yi zi, cell2_ok f yi xi -> unit_coord xsi -> unit_coord eta -> away2 py_tol xsi eta ->
  (forall v, In v (corners2 f yi xi) -> v == 0 \/ ~ near_zero v) ->
  (near_zero (f_at f 0 yi (xi + 1)) <-> near_zero (f_at f 0 (yi + 1) xi)) \/ (forall v, In v (corners2 f yi xi) -> ~ near_zero v) ->
  same_result (py_interp2D LandTracer f xsi eta xi yi) (c_interp ix LandTracer f xsi eta zeta xi yi zi).
Proof.
  intros ix f xsi eta zeta xi yi zi OK X E A ZV SYM0.
  assert (SYM : near_zero (f_at f 0 yi (xi + 1)) <-> near_zero (f_at f 0 (yi + 1) xi)).
  { destruct SYM0 as [H|H]; [exact H|]. split; intros L; exfalso; revert L; apply H; cbn; tauto. }
  rewrite c_interp_land2 by exact OK. cbn [py_interp2D]. pose proof OK as (Z & Y0 & Y1 & X0 & X1). rewrite py_land2_is by lia. cbv zeta. rewrite c_land2_is.
  pose proof (vals2_corners f yi xi) as VC.
  set (d := fcell2 f 0 yi xi) in *.
  assert (S2 : py_zero (d false true) = py_zero (d true false)).
  { assert (H : py_zero (d false true) = true <-> py_zero (d true false) = true).
    { rewrite !py_zero_spec. unfold d, fcell2. cbn [b2z]. rewrite !Z.add_0_r. exact SYM. }
    destruct (py_zero (d false true)), (py_zero (d true false)); try reflexivity; [symmetry; apply H; reflexivity|apply H; reflexivity]. }
  assert (LB : map c_zero (vals2 d) = map py_zero (vals2 d)) by (apply landb_same; rewrite VC; exact ZV).
  destruct (landw_same py_zero c_zero py_zero c_zero near_zero false true (c_bilinear xsi eta d)
    (map (pcorner2 xsi eta d) bits2) (map (ccorner2 c_zero xsi eta d) bits2)) as (q & q' & -> & -> & Q); [..|exact Q].
  - exact py_zero_spec.
  - reflexivity.
  - symmetry. exact LB.
  - intros c I. apply in_map_iff in I. destruct I as ([j i] & <- & _). cbn [pcorner2 k_dist fst snd].
    specialize (A j i). unfold dist2, py_tol in A. assert (P : (1 # 100000000) < sq (eta - b2q j) + sq (xsi - b2q i)) by (unfold sq; lra).
    split; [|lra]. unfold py_zero. apply qle_false. rewrite Qabs_pos; lra.
  - intros c. apply away_c2. intros j i. specialize (A j i). unfold py_tol in A. lra.
  - cbn [map bits2 pcorner2 k_skip k_val fst snd]. rewrite S2. reflexivity.
  - exact LB.
  - repeat constructor; cbn [pcorner2 ccorner2 k_dist fst snd]; apply Qplus_comm.
Qed.
Theorem modes_land3 : forall ix f xsi eta zeta xi yi zi, ix = Nemo \/ ix = Mitgcm -> cell3_ok f zi yi xi ->
  unit_coord xsi -> unit_coord eta -> unit_coord zeta -> away3 py_tol xsi eta zeta ->
  (forall v, In v (corners3 f zi yi xi) -> v == 0 \/ ~ near_zero v) ->
  same_result (py_interp3D ix LandTracer f xsi eta zeta xi yi zi) (c_interp ix LandTracer f xsi eta zeta xi yi zi).
Proof.
  intros ix f xsi eta zeta xi yi zi IX OK X E Z A ZV.
  rewrite c_interp_land3 by assumption. cbn [py_interp3D]. rewrite py_land3_is by exact OK. cbv zeta. rewrite c_land3_is.
  pose proof (vals3_corners f zi yi xi) as VC. set (d := fcell3 f zi yi xi) in *.
  assert (LB : map c_zero (vals3 d) = map py_zero (vals3 d)) by (apply landb_same; rewrite VC; exact ZV).
  destruct (landw_same py_zero c_zero py_zero c_zero near_zero false true (c_trilinear xsi eta zeta d)
    (map (pcorner3 xsi eta zeta d) bits3) (map (ccorner3 c_zero xsi eta zeta d) bits3)) as (q & q' & -> & -> & Q); [..|exact Q].
  - exact py_zero_spec.
  - reflexivity.
  - symmetry. exact LB.
  - intros c I. apply in_map_iff in I. destruct I as ([[k j] i] & <- & _). cbn [pcorner3 k_dist].
    specialize (A k j i). unfold dist3, dist2, py_tol in A.
    assert (P : (1 # 100000000) < sq (zeta - b2q k) + sq (eta - b2q j) + sq (xsi - b2q i)) by (unfold sq; lra).
    split; [|lra]. unfold py_zero. apply qle_false. rewrite Qabs_pos; lra.
  - intros c. apply away_c3. intros k j i. specialize (A k j i). unfold py_tol in A. lra.
  - reflexivity.
  - exact LB.
  - repeat constructor; reflexivity.
Qed.
