(** Proofs about sampling on s levels (C41). *)
From Coq Require Import List ZArith Bool QArith Qround Lia Lqa ZifyBool.
From Verif Require Import IdxModel IdxSpec IdxProofs TimeModel InterpModel InterpSpec TimeProofs InterpProofs.
From Verif Require Import SlevModel SlevSpec SlevTime.
Import ListNotations.
Open Scope Q_scope.

(** ** Lists of levels *)
Lemma all_some_map : forall (g : Z -> option Q) h l, (forall k, In k l -> g k = Some (h k)) -> all_some (map g l) = Some (map h l).
Proof.
  intros g h l. induction l as [|a l IH]; intros H; [reflexivity|]. cbn [map all_some]. rewrite H by (left; reflexivity).
  rewrite IH by (intros; apply H; right; assumption). reflexivity.
Qed.
Lemma zrange_in : forall n k, In k (zrange n) -> (0 <= k < n)%Z.
Proof. intros n k H. unfold zrange in H. apply in_map_iff in H. destruct H as (m & <- & H). apply in_seq in H. lia. Qed.
Lemma zrange_len : forall n, (0 <= n)%Z -> zlen (zrange n) = n.
Proof. intros n H. unfold zlen, zrange. rewrite map_length, seq_length. lia. Qed.
Lemma at_zrange : forall h n k, (0 <= k < n)%Z -> at_ (map h (zrange n)) k = h k.
Proof.
  intros h n k H. unfold at_, zrange. rewrite map_map. rewrite nth_indep with (d' := h (Z.of_nat 0)) by (rewrite map_length, seq_length; lia).
  rewrite (map_nth (fun x => h (Z.of_nat x)) (seq 0 (Z.to_nat n)) 0%nat (Z.to_nat k)). rewrite seq_nth by lia. f_equal. lia.
Qed.
Lemma at_combine : forall (g : Q * Q -> Q) h1 h2 (l : list Z), map g (combine (map h1 l) (map h2 l)) = map (fun k => g (h1 k, h2 k)) l.
Proof. intros g h1 h2 l. induction l as [|a l IH]; [reflexivity|]. cbn. rewrite IH. reflexivity. Qed.

(** ** Reading the depths *)
Definition four (f : lfield) (n k : Z) (xi yi : Z) (xsi eta : Q) : Q :=
  (1 - xsi) * (1 - eta) * level_depth f n k (node (l_lat f) yi) (node (l_lon f) xi)
  + xsi * (1 - eta) * level_depth f n k (node (l_lat f) yi) (node (l_lon f) (xi + 1))
  + xsi * eta * level_depth f n k (node (l_lat f) (yi + 1)) (node (l_lon f) (xi + 1))
  + (1 - xsi) * eta * level_depth f n k (node (l_lat f) (yi + 1)) (node (l_lon f) xi).
Lemma four_bilin : forall f n k x y xi yi xsi eta, located (l_lon f) x xi xsi -> located (l_lat f) y yi eta ->
  four f n k xi yi xsi eta == bilin f (fun j i => level_depth f n k j i) xi xsi yi eta.
Proof.
  intros f n k x y xi yi xsi eta LX LY. symmetry. unfold four.
  apply (level_eq (l_lon f) (l_lat f) (fun j i => level_depth f n k j i)); eapply located_one; eassumption.
Qed.

Lemma level_depth_3d : forall f n n' k j i, l_z4d f = false -> level_depth f n k j i = level_depth f n' k j i.
Proof. intros. unfold level_depth, flat. rewrite H. reflexivity. Qed.

Lemma py_corners : forall f n n' k x y xi yi xsi eta xsi' eta', axis_ok (l_lon f) -> axis_ok (l_lat f) ->
  located (l_lon f) x xi xsi -> located (l_lat f) y yi eta ->
  (zlen (l_lon f) = 1 -> xi = -1)%Z -> (zlen (l_lat f) = 1 -> yi = -1)%Z ->
  (l_z4d f = true -> py_index (l_tdim f) n = Some n') -> (0 <= k < l_zdim f)%Z ->
  corners4 (fun j i => py_depth f n k j i) yi xi xsi' eta' = Some (four f n' k xi yi xsi' eta').
Proof.
  intros f n n' k x y xi yi xsi eta xsi' eta' AX AY LX LY NX NY N K.
  destruct (py_nodes _ _ _ _ AX LX NX) as [X1 X2]. destruct (py_nodes _ _ _ _ AY LY NY) as [Y1 Y2].
  unfold corners4, py_depth, l_ydim, l_xdim. rewrite X1, X2, Y1, Y2, (py_index_in _ k K).
  destruct (l_z4d f) eqn:Z4.
  - rewrite N by reflexivity. reflexivity.
  - cbn [py_index Z.ltb Z.compare Z.leb andb]. change (py_index 1 0) with (Some 0%Z). cbv iota.
    unfold four, level_depth, flat. rewrite Z4. reflexivity.
Qed.

Lemma flat_in : forall f n k j i, (l_z4d f = true -> 0 <= n < l_tdim f)%Z -> (0 <= k < l_zdim f)%Z -> (0 <= j < l_ydim f)%Z -> (0 <= i < l_xdim f)%Z ->
  (0 <= flat f n k j i < mem_size f)%Z.
Proof.
  intros f n k j i N K J I. unfold flat, mem_size.
  assert (A : exists a b, (0 <= a < b)%Z /\ (if l_z4d f then n else 0)%Z = a /\ (if l_z4d f then l_tdim f else 1)%Z = b).
  { destruct (l_z4d f); eexists; eexists; (split; [|split; reflexivity]); [apply N; reflexivity|lia]. }
  destruct A as (a & b & AB & -> & ->). generalize dependent (l_zdim f). generalize dependent (l_ydim f). generalize dependent (l_xdim f).
  intros X I Y J Z K. assert (H1 : (0 <= a * Z + k < b * Z)%Z) by nia. remember (a * Z + k)%Z as u. remember (b * Z)%Z as U.
  assert (H2 : (0 <= u * Y + j < U * Y)%Z) by nia. remember (u * Y + j)%Z as v. remember (U * Y)%Z as V. nia.
Qed.

Lemma c_corners : forall f n k x y xi yi xsi eta xsi' eta', (1 < zlen (l_lon f))%Z -> (1 < zlen (l_lat f))%Z ->
  located (l_lon f) x xi xsi -> located (l_lat f) y yi eta ->
  (l_z4d f = true -> 0 <= n < l_tdim f)%Z -> (0 <= k < l_zdim f)%Z ->
  corners4 (fun j i => c_depth f n k j i) yi xi xsi' eta' = Some (four f n k xi yi xsi' eta').
Proof.
  intros f n k x y xi yi xsi eta xsi' eta' DX DY LX LY N K.
  destruct LX as [[LX _]|[_ (X0 & X1 & _)]]; [lia|]. destruct LY as [[LY _]|[_ (Y0 & Y1 & _)]]; [lia|].
  assert (R : forall j i, (yi <= j <= yi + 1)%Z -> (xi <= i <= xi + 1)%Z -> c_depth f n k j i = Some (level_depth f n k j i)).
  { intros j i J I. unfold c_depth, level_depth. pose proof (flat_in f n k j i N K ltac:(unfold l_ydim; lia) ltac:(unfold l_xdim; lia)).
    cbv zeta. replace ((0 <=? flat f n k j i)%Z && (flat f n k j i <? mem_size f)%Z) with true by lia. reflexivity. }
  unfold corners4. rewrite !R by lia. unfold four, node.
  replace (zlen (l_lon f) =? 1)%Z with false by lia. replace (zlen (l_lat f) =? 1)%Z with false by lia. reflexivity.
Qed.

(** ** Interpolation at a place *)
Lemma lin1_const : forall l c i r, lin1 l (fun _ => c) i r == c.
Proof. intros. unfold lin1. destruct (zlen l =? 1)%Z; [reflexivity|ring]. Qed.
Lemma located_eq : forall l x x' i r, x == x' -> located l x i r -> located l x' i r.
Proof. intros l x x' i r E [H|[L H]]; [left; exact H|right; split; [exact L|eapply in_cell_eq; eassumption]]. Qed.
Lemma place_eq : forall f t t' x y p, t == t' -> place_of f t x y p -> place_of f t' x y p.
Proof. intros f t t' x y p E (A & B & C). split; [exact A|]. split; [exact B|]. eapply located_eq; eassumption. Qed.

Lemma at_place_unique : forall f t x y p p' d, axis_ok (l_lon f) -> axis_ok (l_lat f) -> axis_ok (l_time f) ->
  place_of f t x y p -> place_of f t x y p' -> at_place f p d == at_place f p' d.
Proof.
  intros f t x y p p' d [_ AX] [_ AY] [_ AT] (A1 & A2 & A3) (B1 & B2 & B3). unfold at_place.
  apply (lin1_unique _ t); [left; exact AT|exact A3|exact B3|]. intros n. unfold bilin.
  apply (lin1_unique _ y); [left; exact AY|exact A2|exact B2|]. intros j.
  apply (lin1_unique _ x); [left; exact AX|exact A1|exact B1|]. reflexivity.
Qed.

Lemma lin1_lt : forall l f g x i r, (1 <= zlen l)%Z -> located l x i r -> (forall a, (0 <= a < zlen l)%Z -> f a < g a) -> lin1 l f i r < lin1 l g i r.
Proof.
  intros l f g x i r L A B. unfold lin1. destruct (zlen l =? 1)%Z eqn:E; [apply B; lia|].
  destruct A as [[A _]|[_ (C & D & R0 & R1 & _)]]; [lia|].
  pose proof (B i ltac:(lia)) as B1. pose proof (B (i + 1)%Z ltac:(lia)) as B2.
  destruct (Qlt_le_dec 0 r) as [P|P]; [nra|]. assert (r == 0) by lra. rewrite H. lra.
Qed.
Lemma lin1_ext' : forall l f g x i r, (1 <= zlen l)%Z -> located l x i r -> (forall a, (0 <= a < zlen l)%Z -> f a == g a) -> lin1 l f i r == lin1 l g i r.
Proof. intros l f g x i r L A B. apply lin1_ext; [|exact L]. intros a C. apply B. eapply cell_node_range; eassumption. Qed.

Lemma at_place_lt : forall f t x y p d d', axis_ok (l_lon f) -> axis_ok (l_lat f) -> axis_ok (l_time f) -> place_of f t x y p ->
  (forall n j i, is_node f n j i -> d n j i < d' n j i) -> at_place f p d < at_place f p d'.
Proof.
  intros f t x y p d d' [LX _] [LY _] [LT _] (A & B & C) H. unfold at_place. apply (lin1_lt _ _ _ t); [exact LT|exact C|]. intros n N.
  unfold bilin. apply (lin1_lt _ _ _ y); [exact LY|exact B|]. intros j J. apply (lin1_lt _ _ _ x); [exact LX|exact A|]. intros i I.
  apply H. split; [exact N|]. split; [exact J|exact I].
Qed.
Lemma at_place_ext : forall f t x y p d d', axis_ok (l_lon f) -> axis_ok (l_lat f) -> axis_ok (l_time f) -> place_of f t x y p ->
  (forall n j i, is_node f n j i -> d n j i == d' n j i) -> at_place f p d == at_place f p d'.
Proof.
  intros f t x y p d d' [LX _] [LY _] [LT _] (A & B & C) H. unfold at_place. apply (lin1_ext' _ _ _ t); [exact LT|exact C|]. intros n N.
  unfold bilin. apply (lin1_ext' _ _ _ y); [exact LY|exact B|]. intros j J. apply (lin1_ext' _ _ _ x); [exact LX|exact A|]. intros i I.
  apply H. split; [exact N|]. split; [exact J|exact I].
Qed.

(** The column of depths at a place. *)
Definition is_column (f : lfield) (p : place) (d : list Q) : Prop :=
  zlen d = l_zdim f /\ forall k, (0 <= k < l_zdim f)%Z -> at_ d k == depth_at f p k.

Lemma column_mono : forall f t x y p d, axis_ok (l_lon f) -> axis_ok (l_lat f) -> axis_ok (l_time f) -> levels_ok f ->
  place_of f t x y p -> is_column f p d -> (1 < zlen d)%Z /\ (increasing d \/ decreasing d).
Proof.
  intros f t x y p d AX AY AT (L & M) P (LD & E). split; [lia|]. destruct M as [M|M]; [left|right]; intros i j I J; rewrite !E by lia; unfold depth_at;
    apply (at_place_lt f t x y); try assumption; intros n b a N; (apply M; [exact N|lia..]).
Qed.

(** One frame, or two. *)
Lemma place_at_frame : forall f i x y xi yi xsi eta, axis_ok (l_time f) -> (0 <= i < zlen (l_time f))%Z ->
  located (l_lon f) x xi xsi -> located (l_lat f) y yi eta ->
  exists p, place_of f (at_ (l_time f) i) x y p /\ p_xi p = xi /\ p_yi p = yi /\ p_xsi p = xsi /\ p_eta p = eta /\
    forall d, at_place f p d == bilin f (d i) xi xsi yi eta.
Proof.
  intros f i x y xi yi xsi eta AT I LX LY. set (tm := l_time f) in *.
  destruct (Z.eq_dec (zlen tm) 1) as [E|N1].
  - exists (mkPlace xi xsi yi eta i 0). split; [|cbn; repeat (split; [reflexivity|])].
    + split; [exact LX|]. split; [exact LY|]. left. split; [exact E|reflexivity].
    + intros d. unfold at_place. cbn [p_xi p_xsi p_yi p_eta p_ti p_r]. fold tm. unfold lin1 at 1. replace (zlen tm =? 1)%Z with true by lia.
      replace i with 0%Z by lia. reflexivity.
  - destruct (Z.eq_dec i (zlen tm - 1)) as [E|N].
    + exists (mkPlace xi xsi yi eta (i - 1) 1). split; [|cbn; repeat (split; [reflexivity|])].
      * split; [exact LX|]. split; [exact LY|]. right. split; [exact (ltac:(lia) : (1 < zlen tm)%Z)|]. unfold in_cell. fold tm. cbn [p_ti p_r].
        repeat split; try lia; try lra. replace (i - 1 + 1)%Z with i by lia. ring.
      * intros d. unfold at_place. cbn [p_xi p_xsi p_yi p_eta p_ti p_r]. fold tm. unfold lin1 at 1. replace (zlen tm =? 1)%Z with false by lia.
        replace (i - 1 + 1)%Z with i by lia. ring.
    + exists (mkPlace xi xsi yi eta i 0). split; [|cbn; repeat (split; [reflexivity|])].
      * split; [exact LX|]. split; [exact LY|]. right. split; [exact (ltac:(lia) : (1 < zlen tm)%Z)|]. unfold in_cell. fold tm. cbn [p_ti p_r].
        repeat split; try lia; try lra. 
      * intros d. unfold at_place. cbn [p_xi p_xsi p_yi p_eta p_ti p_r]. fold tm. unfold lin1 at 1. replace (zlen tm =? 1)%Z with false by lia. ring.
Qed.

Lemma place_between : forall f i t x y xi yi xsi eta, axis_ok (l_time f) -> (0 <= i)%Z -> (i + 1 < zlen (l_time f))%Z ->
  at_ (l_time f) i < t -> t <= at_ (l_time f) (i + 1) -> located (l_lon f) x xi xsi -> located (l_lat f) y yi eta ->
  let r := (t - at_ (l_time f) i) / (at_ (l_time f) (i + 1) - at_ (l_time f) i) in
  place_of f t x y (mkPlace xi xsi yi eta i r) /\ 0 <= r /\ r <= 1 /\
  forall d, at_place f (mkPlace xi xsi yi eta i r) d == (1 - r) * bilin f (d i) xi xsi yi eta + r * bilin f (d (i + 1)%Z) xi xsi yi eta.
Proof.
  intros f i t x y xi yi xsi eta [LT IT] I0 I1 A B LX LY r. set (tm := l_time f) in *.
  assert (C : in_cell tm t i r) by (apply in_cell_up; [exact IT|exact I0|exact I1|lra]). pose proof C as (_ & _ & R0 & R1 & _).
  split; [|split; [exact R0|split; [exact R1|]]].
  - split; [exact LX|]. split; [exact LY|]. right. split; [exact (ltac:(lia) : (1 < zlen tm)%Z)|exact C].
  - intros d. unfold at_place. cbn [p_xi p_xsi p_yi p_eta p_ti p_r]. fold tm. unfold lin1 at 1. replace (zlen tm =? 1)%Z with false by lia. reflexivity.
Qed.

(** ** The columns Python and C compute *)
Lemma col_levels : forall f (g : Z -> option Q) h, (0 <= l_zdim f)%Z -> (forall k, (0 <= k < l_zdim f)%Z -> g k = Some (h k)) ->
  all_some (map g (zrange (l_zdim f))) = Some (map h (zrange (l_zdim f))).
Proof. intros f g h L H. apply all_some_map. intros k K. apply H, zrange_in, K. Qed.

Section Columns.
  Variables (f : lfield) (x y : Q) (xi yi : Z) (xsi eta : Q).
  Hypothesis AX : axis_ok (l_lon f).
  Hypothesis AY : axis_ok (l_lat f).
  Hypothesis AT : axis_ok (l_time f).
  Hypothesis LZ : (1 < l_zdim f)%Z.
  Hypothesis LX : located (l_lon f) x xi xsi.
  Hypothesis LY : located (l_lat f) y yi eta.

  Lemma four_3d : forall n n' k, l_z4d f = false -> four f n k xi yi xsi eta = four f n' k xi yi xsi eta.
  Proof. intros n n' k H. unfold four. rewrite !(level_depth_3d f n n') by exact H. reflexivity. Qed.

  (** Any column whose entries are those of one frame. *)
  Lemma frame_column : forall i h p, (0 <= i < zlen (l_time f))%Z -> (forall k, (0 <= k < l_zdim f)%Z -> h k == four f i k xi yi xsi eta) ->
    place_of f (at_ (l_time f) i) x y p -> is_column f p (map h (zrange (l_zdim f))).
  Proof.
    intros i h p I H P. split; [rewrite zlen_map; apply zrange_len; lia|]. intros k K. rewrite at_zrange, H by exact K.
    destruct (place_at_frame f i x y xi yi xsi eta AT I LX LY) as (p' & P' & _ & _ & _ & _ & V). unfold depth_at.
    rewrite (at_place_unique f _ x y p p' _ AX AY AT P P'), V. apply (four_bilin f i k x y); assumption.
  Qed.
  Lemma steady_column : forall t h p n, l_z4d f = false -> (forall k, (0 <= k < l_zdim f)%Z -> h k == four f n k xi yi xsi eta) ->
    place_of f t x y p -> is_column f p (map h (zrange (l_zdim f))).
  Proof.
    intros t h p n Z4 H P. split; [rewrite zlen_map; apply zrange_len; lia|]. intros k K. rewrite at_zrange, H by exact K.
    unfold depth_at, at_place. rewrite (four_bilin f n k x y) by assumption. pose proof P as (PX & PY & PT).
    assert (E : bilin f (fun j i => level_depth f n k j i) xi xsi yi eta == bilin f (fun j i => level_depth f n k j i) (p_xi p) (p_xsi p) (p_yi p) (p_eta p)).
    { unfold bilin. apply (lin1_unique _ y); [left; apply AY|exact LY|exact PY|]. intros j. apply (lin1_unique _ x); [left; apply AX|exact LX|exact PX|]. reflexivity. }
    rewrite E. symmetry. transitivity (lin1 (l_time f) (fun _ => bilin f (fun j i => level_depth f n k j i) (p_xi p) (p_xsi p) (p_yi p) (p_eta p)) (p_ti p) (p_r p)).
    - apply (lin1_ext' _ _ _ t); [apply AT|exact PT|]. intros a _. unfold bilin.
      apply (lin1_ext' _ _ _ y); [apply AY|exact PY|]. intros j _. apply (lin1_ext' _ _ _ x); [apply AX|exact PX|]. intros i _.
      rewrite (level_depth_3d f a n) by exact Z4. reflexivity.
    - apply lin1_const.
  Qed.
  Lemma two_column : forall i t h p, (0 <= i)%Z -> (i + 1 < zlen (l_time f))%Z -> at_ (l_time f) i < t -> t <= at_ (l_time f) (i + 1) ->
    (forall k, (0 <= k < l_zdim f)%Z -> let r := (t - at_ (l_time f) i) / (at_ (l_time f) (i + 1) - at_ (l_time f) i) in
       h k == (1 - r) * four f i k xi yi xsi eta + r * four f (i + 1) k xi yi xsi eta) ->
    place_of f t x y p -> is_column f p (map h (zrange (l_zdim f))).
  Proof.
    intros i t h p I0 I1 A B H P. split; [rewrite zlen_map; apply zrange_len; lia|]. intros k K. rewrite at_zrange, H by exact K. cbv zeta.
    destruct (place_between f i t x y xi yi xsi eta AT I0 I1 A B LX LY) as (P' & _ & _ & V). unfold depth_at.
    rewrite (at_place_unique f _ x y p _ _ AX AY AT P P'), V. rewrite !(four_bilin f _ k x y) by assumption. reflexivity.
  Qed.

  Hypothesis MT : is_bgrid (l_method f) = false.
  Hypothesis NX : (zlen (l_lon f) = 1 -> xi = -1)%Z.
  Hypothesis NY : (zlen (l_lat f) = 1 -> yi = -1)%Z.

  (** The call for a frame itself. *)
  Lemma py_column_frame : forall i p, (0 <= i < zlen (l_time f))%Z -> place_of f (at_ (l_time f) i) x y p ->
    exists d, py_column f xi yi xsi eta i (at_ (l_time f) i) = Some d /\ is_column f p d.
  Proof.
    intros i p I P. unfold py_column. rewrite MT. cbv zeta. rewrite pyget_in by exact I.
    replace (qlt (at_ (l_time f) i) (at_ (l_time f) i)) with false by (symmetry; apply qlt_false; lra).
    destruct (l_z4d f) eqn:Z4.
    - unfold l_tdim at 1. destruct (i =? zlen (l_time f) - 1)%Z eqn:E.
      + rewrite (col_levels f _ (fun k => four f i k xi yi xsi eta)); [|lia|].
        * eexists. split; [reflexivity|]. apply (frame_column i); [exact I|reflexivity|exact P].
        * intros k K. apply (py_corners f (-1) i k x y xi yi xsi eta); try assumption. intros _. unfold py_index, l_tdim. cbn [Z.ltb Z.compare].
          replace (-1 + zlen (l_time f))%Z with i by lia. replace ((0 <=? i)%Z && (i <? zlen (l_time f))%Z) with true by lia. reflexivity.
      + replace (i <? 0)%Z with false by lia. rewrite !pyget_in by lia.
        rewrite (col_levels f _ (fun k => four f i k xi yi xsi eta)), (col_levels f _ (fun k => four f (i + 1) k xi yi xsi eta)); [|lia| |lia|].
        2: { intros k K. apply (py_corners f (i + 1) (i + 1) k x y xi yi xsi eta); try assumption. intros _. apply py_index_in. unfold l_tdim. lia. }
        2: { intros k K. apply (py_corners f i i k x y xi yi xsi eta); try assumption. intros _. apply py_index_in. unfold l_tdim. lia. }
        assert (D : at_ (l_time f) i < at_ (l_time f) (i + 1)) by (apply AT; lia).
        assert (T0 : (at_ (l_time f) i - at_ (l_time f) i) / (at_ (l_time f) (i + 1) - at_ (l_time f) i) == 0) by (field; lra).
        replace (qle 0 _ && qle _ 1) with true.
        2: { symmetry. apply andb_true_iff. rewrite !qle_spec, T0. split; lra. }
        eexists. split; [reflexivity|]. rewrite at_combine. apply (frame_column i); [exact I| |exact P].
        intros k K. cbn [fst snd]. rewrite T0. ring.
    - rewrite (col_levels f _ (fun k => four f 0 k xi yi xsi eta)); [|lia|].
      + eexists. split; [reflexivity|]. apply (steady_column _ _ p 0 Z4 (fun _ _ => Qeq_refl _) P).
      + intros k K. apply (py_corners f 0 0 k x y xi yi xsi eta); try assumption. rewrite Z4. discriminate.
  Qed.

  (** The calls for the two frames around a time between them. *)
  Lemma py_column_between : forall i t p c, (0 <= i)%Z -> (i + 1 < zlen (l_time f))%Z -> at_ (l_time f) i < t -> t < at_ (l_time f) (i + 1) ->
    c = i \/ c = (i + 1)%Z -> place_of f t x y p ->
    exists d, py_column f xi yi xsi eta c t = Some d /\ is_column f p d.
  Proof.
    intros i t p c I0 I1 A B C P. unfold py_column. rewrite MT. cbv zeta. rewrite pyget_in by lia.
    assert (EC : (if qlt t (at_ (l_time f) c) then c - 1 else c)%Z = i).
    { destruct C as [-> | ->].
      - replace (qlt t (at_ (l_time f) i)) with false by (symmetry; apply qlt_false; lra). reflexivity.
      - replace (qlt t (at_ (l_time f) (i + 1))) with true by (symmetry; apply qlt_spec; lra). lia. }
    rewrite EC. destruct (l_z4d f) eqn:Z4.
    - unfold l_tdim at 1. replace (i =? zlen (l_time f) - 1)%Z with false by lia.
      replace (i <? 0)%Z with false by lia. rewrite !pyget_in by lia.
      rewrite (col_levels f _ (fun k => four f i k xi yi xsi eta)), (col_levels f _ (fun k => four f (i + 1) k xi yi xsi eta)); [|lia| |lia|].
      2: { intros k K. apply (py_corners f (i + 1) (i + 1) k x y xi yi xsi eta); try assumption. intros _. apply py_index_in. unfold l_tdim. lia. }
      2: { intros k K. apply (py_corners f i i k x y xi yi xsi eta); try assumption. intros _. apply py_index_in. unfold l_tdim. lia. }
      destruct (place_between f i t x y xi yi xsi eta AT I0 I1 A ltac:(lra) LX LY) as (_ & R0 & R1 & _).
      replace (qle 0 _ && qle _ 1) with true.
      2: { symmetry. apply andb_true_iff. rewrite !qle_spec. split; assumption. }
      eexists. split; [reflexivity|]. rewrite at_combine. apply (two_column i t); [exact I0|exact I1|exact A|lra| |exact P].
      intros k K. cbn [fst snd]. cbv zeta. ring.
    - rewrite (col_levels f _ (fun k => four f 0 k xi yi xsi eta)); [|lia|].
      + eexists. split; [reflexivity|]. apply (steady_column _ _ p 0 Z4 (fun _ _ => Qeq_refl _) P).
      + intros k K. apply (py_corners f 0 0 k x y xi yi xsi eta); try assumption. rewrite Z4. discriminate.
  Qed.
End Columns.

Section CColumns.
  Variables (f : lfield) (x y : Q) (xi yi : Z) (xsi eta : Q).
  Hypothesis AX : axis_ok (l_lon f).
  Hypothesis AY : axis_ok (l_lat f).
  Hypothesis AT : axis_ok (l_time f).
  Hypothesis LZ : (1 < l_zdim f)%Z.
  Hypothesis MT : is_bgrid (l_method f) = false.
  Hypothesis LX : located (l_lon f) x xi xsi.
  Hypothesis LY : located (l_lat f) y yi eta.
  Hypothesis DX : (1 < zlen (l_lon f))%Z.
  Hypothesis DY : (1 < zlen (l_lat f))%Z.

  Lemma c_col : forall n, (l_z4d f = true -> 0 <= n < l_tdim f)%Z ->
    all_some (map (fun k => corners4 (fun j i => c_depth f n k j i) yi xi xsi eta) (zrange (l_zdim f))) =
    Some (map (fun k => four f n k xi yi xsi eta) (zrange (l_zdim f))).
  Proof. intros n N. apply col_levels; [lia|]. intros k K. apply (c_corners f n k x y xi yi xsi eta); assumption. Qed.

  Lemma c_column_frame : forall i p, (0 <= i < zlen (l_time f))%Z -> place_of f (at_ (l_time f) i) x y p ->
    exists d, c_column f xi yi xsi eta i (at_ (l_time f) i) (at_ (l_time f) i) (at_ (l_time f) i + 1) = Some d /\ is_column f p d.
  Proof.
    intros i p I P. unfold c_column. rewrite MT. cbv zeta. destruct (l_z4d f) eqn:Z4.
    - rewrite !c_col by (intros _; unfold l_tdim; destruct (i <? zlen (l_time f) - 1)%Z eqn:E; lia).
      eexists. split; [reflexivity|]. rewrite at_combine. apply (frame_column f x y xi yi xsi eta AX AY AT LZ LX LY i); [exact I| |exact P].
      intros k K. cbn [fst snd]. field. lra.
    - rewrite c_col by (rewrite Z4; discriminate). eexists. split; [reflexivity|].
      apply (steady_column f x y xi yi xsi eta AX AY AT LZ LX LY _ _ p 0 Z4 (fun _ _ => Qeq_refl _) P).
  Qed.
  Lemma c_column_between : forall i t tc p, (0 <= i)%Z -> (i + 1 < zlen (l_time f))%Z -> at_ (l_time f) i < t -> t <= at_ (l_time f) (i + 1) -> tc == t ->
    place_of f t x y p ->
    exists d, c_column f xi yi xsi eta i tc (at_ (l_time f) i) (at_ (l_time f) (i + 1)) = Some d /\ is_column f p d.
  Proof.
    intros i t tc p I0 I1 A B TC P. unfold c_column. rewrite MT. cbv zeta. destruct (l_z4d f) eqn:Z4.
    - rewrite !c_col by (intros _; unfold l_tdim; destruct (i <? zlen (l_time f) - 1)%Z eqn:E; lia).
      unfold l_tdim. replace (i <? zlen (l_time f) - 1)%Z with true by lia.
      eexists. split; [reflexivity|]. rewrite at_combine. apply (two_column f x y xi yi xsi eta AX AY AT LZ LX LY i t); [exact I0|exact I1|exact A|exact B| |exact P].
      intros k K. cbn [fst snd]. cbv zeta. rewrite TC. ring.
    - rewrite c_col by (rewrite Z4; discriminate). eexists. split; [reflexivity|].
      apply (steady_column f x y xi yi xsi eta AX AY AT LZ LX LY _ _ p 0 Z4 (fun _ _ => Qeq_refl _) P).
  Qed.
End CColumns.

(** ** The search along a column *)
Lemma py_vertical_s_z : forall d z, (1 < zlen d)%Z -> increasing d \/ decreasing d -> py_vertical_s d z = py_vertical_z false d z.
Proof.
  intros d z L M. destruct (py_vertical_spec d z L M) as (W & _ & _).
  unfold py_vertical_s, py_vertical_z in *. rewrite (pyget_in d 0), pyget_last in * by lia. fold (first_ d) in *.
  assert (G1 : pyget d 1 = Some (at_ d 1)) by (apply pyget_in; lia). rewrite G1 in *. cbn [andb] in *.
  destruct M as [I|D].
  - pose proof (inc_dir d L I) as DIR. replace (qlt (first_ d) (last_ d)) with true in * by (symmetry; apply qlt_spec; exact DIR).
    destruct (qlt z (first_ d)) eqn:E1.
    + apply qlt_spec in E1 as E1'. replace (qle (last_ d) z) with false by (symmetry; apply qle_false; lra).
      replace (qle (first_ d) z) with false by (symmetry; apply qle_false; lra). rewrite (pyget_in d 0) by lia. change (0 + 1)%Z with 1%Z. rewrite G1.
      fold (first_ d). rewrite E1. reflexivity.
    + apply qlt_false in E1 as E1'. destruct (qlt (last_ d) z) eqn:E2.
      * apply qlt_spec in E2 as E2'. replace (qle (last_ d) z) with true by (symmetry; apply qle_spec; lra).
        rewrite !pyget_in by lia. replace (zlen d - 2 + 1)%Z with (zlen d - 1)%Z by lia. fold (last_ d). rewrite E2.
        assert (at_ d (zlen d - 2) < last_ d) by (apply I; lia).
        replace (qlt z (at_ d (zlen d - 2))) with false by (symmetry; apply qlt_false; lra). reflexivity.
      * apply qlt_false in E2 as E2'. destruct (W (or_introl (conj E1' E2'))) as (i & r & V & C). revert V. cbv zeta.
        set (zi := (if qle (last_ d) z then _ else _)). unfold py_rel. destruct (pyget d zi) as [a|] eqn:GA; [|discriminate]. destruct (pyget d (zi + 1)) as [b|] eqn:GB; [|discriminate].
        intros V. inversion V; subst i. destruct C as (C0 & C1 & R0 & R1 & EZ). rewrite pyget_in in GA, GB by lia. inversion GA; inversion GB; subst a b.
        assert (at_ d zi < at_ d (zi + 1)) by (apply I; lia).
        replace (qlt z (at_ d zi)) with false by (symmetry; apply qlt_false; nra).
        replace (qlt (at_ d (zi + 1)) z) with false by (symmetry; apply qlt_false; nra). reflexivity.
  - pose proof (dec_dir d L D) as DIR. replace (qlt (first_ d) (last_ d)) with false in * by (symmetry; apply qlt_false; lra).
    destruct (qlt (first_ d) z) eqn:E1.
    + apply qlt_spec in E1 as E1'. replace (qle z (last_ d)) with false by (symmetry; apply qle_false; lra).
      replace (qle z (first_ d)) with false by (symmetry; apply qle_false; lra). rewrite (pyget_in d 0) by lia. change (0 + 1)%Z with 1%Z. rewrite G1.
      fold (first_ d). rewrite E1. reflexivity.
    + apply qlt_false in E1 as E1'. destruct (qlt z (last_ d)) eqn:E2.
      * apply qlt_spec in E2 as E2'. replace (qle z (last_ d)) with true by (symmetry; apply qle_spec; lra).
        rewrite !pyget_in by lia. replace (zlen d - 2 + 1)%Z with (zlen d - 1)%Z by lia. fold (last_ d). rewrite E2.
        assert (last_ d < at_ d (zlen d - 2)) by (apply D; lia).
        replace (qlt (at_ d (zlen d - 2)) z) with false by (symmetry; apply qlt_false; lra). reflexivity.
      * apply qlt_false in E2 as E2'. destruct (W (or_intror (conj E2' E1'))) as (i & r & V & C). revert V. cbv zeta.
        set (zi := (if qle z (last_ d) then _ else _)). unfold py_rel. destruct (pyget d zi) as [a|] eqn:GA; [|discriminate]. destruct (pyget d (zi + 1)) as [b|] eqn:GB; [|discriminate].
        intros V. inversion V; subst i. destruct C as (C0 & C1 & R0 & R1 & EZ). rewrite pyget_in in GA, GB by lia. inversion GA; inversion GB; subst a b.
        assert (at_ d (zi + 1) < at_ d zi) by (apply D; lia).
        replace (qlt (at_ d zi) z) with false by (symmetry; apply qlt_false; nra).
        replace (qlt z (at_ d (zi + 1))) with false by (symmetry; apply qlt_false; nra). reflexivity.
Qed.
