(** Proofs about periodic halos. *)
From Coq Require Import List ZArith Bool QArith Lia Lqa ZifyBool.
From Verif Require Import IdxModel IdxSpec IdxProofs HaloModel HaloSpec.
Import ListNotations.
Open Scope Z_scope.

(** ** Indices *)
Lemma origin_left : forall h n k, 1 <= h <= n -> 0 <= k < h -> origin h n k = n - h + k /\ turns h n k = -1.
Proof.
  intros h n k H K. assert (E : k - h = n * (-1) + (n - h + k)) by lia.
  split; unfold origin, turns; symmetry; [apply (Z.mod_unique_pos _ _ (-1))|apply (Z.div_unique_pos _ _ _ (n - h + k))]; lia.
Qed.
Lemma origin_mid : forall h n k, 0 <= h -> h <= k < h + n -> origin h n k = k - h /\ turns h n k = 0.
Proof. intros h n k H K. split; [apply Z.mod_small|apply Z.div_small]; lia. Qed.
Lemma origin_right : forall h n k, 0 <= h <= n -> h + n <= k < n + 2 * h -> origin h n k = k - h - n /\ turns h n k = 1.
Proof.
  intros h n k H K. split; unfold origin, turns; symmetry; [apply (Z.mod_unique_pos _ _ 1)|apply (Z.div_unique_pos _ _ _ (k - h - n))]; lia.
Qed.
Lemma origin_zero : forall n k, 0 <= k < n -> origin 0 n k = k /\ turns 0 n k = 0.
Proof. intros n k K. destruct (origin_mid 0 n k) as (A & B); [lia..|]. split; [rewrite A; lia|exact B]. Qed.
Lemma origin_next : forall h n k, 1 <= n -> origin h n (k + n) = origin h n k /\ turns h n (k + n) = turns h n k + 1.
Proof.
  intros h n k N. unfold origin, turns. replace (k + n - h) with (k - h + 1 * n) by lia.
  split; [apply Z.mod_add|apply Z.div_add]; lia.
Qed.
Lemma origin_range : forall h n k, 1 <= n -> 0 <= origin h n k < n.
Proof. intros h n k N. apply Z.mod_pos_bound. lia. Qed.
Lemma origin_inner : forall h n i, 0 <= h -> 0 <= i < n -> origin h n (h + i) = i.
Proof. intros h n i H I. destruct (origin_mid h n (h + i)) as (A & _); lia. Qed.

(** ** Vectors *)
Lemma zlen_app : forall A (a b : list A), zlen (a ++ b) = zlen a + zlen b.
Proof. intros. unfold zlen. rewrite app_length. lia. Qed.
Lemma at_app : forall a b i, 0 <= i -> at_ (a ++ b) i = if i <? zlen a then at_ a i else at_ b (i - zlen a).
Proof.
  intros a b i I. unfold at_. destruct (Z.ltb_spec i (zlen a)) as [L|L]; unfold zlen in *.
  - apply app_nth1. lia.
  - rewrite app_nth2 by lia. f_equal. lia.
Qed.
Lemma at_map : forall f l i, 0 <= i < zlen l -> at_ (map f l) i = f (at_ l i).
Proof. intros f l i I. unfold at_. rewrite (nth_indep _ 0%Q (f 0%Q)) by (rewrite map_length; unfold zlen in I; lia). apply map_nth. Qed.
Lemma at_skipn : forall k l i, 0 <= k -> 0 <= i -> at_ (skipn (Z.to_nat k) l) i = at_ l (k + i).
Proof.
  intros k l i K I. unfold at_. replace (Z.to_nat (k + i)) with (Z.to_nat k + Z.to_nat i)%nat by lia.
  generalize (Z.to_nat k) (Z.to_nat i). clear. intros k i. revert l. induction k as [|k IH]; intros l; [reflexivity|].
  destruct l as [|a l]; [cbn; destruct i; reflexivity|]. apply IH.
Qed.
Lemma at_firstn : forall k l i, 0 <= i < k -> at_ (firstn (Z.to_nat k) l) i = at_ l i.
Proof.
  intros k l i I. unfold at_. assert (L : (Z.to_nat i < Z.to_nat k)%nat) by lia. revert L.
  generalize (Z.to_nat k) (Z.to_nat i). clear. intros k i. revert l i. induction k as [|k IH]; intros l i L; [lia|].
  destruct l as [|a l]; [reflexivity|]. destruct i as [|i]; [reflexivity|]. cbn. apply IH. lia.
Qed.
Lemma zlen_skipn : forall A k (l : list A), 0 <= k <= zlen l -> zlen (skipn (Z.to_nat k) l) = zlen l - k.
Proof. intros. unfold zlen in *. rewrite skipn_length. lia. Qed.
Lemma zlen_firstn : forall A k (l : list A), 0 <= k <= zlen l -> zlen (firstn (Z.to_nat k) l) = k.
Proof. intros. unfold zlen in *. rewrite firstn_length. lia. Qed.

Lemma increasing_step : forall l, (forall i, 0 <= i -> i + 1 < zlen l -> (at_ l i < at_ l (i + 1))%Q) -> increasing l.
Proof.
  intros l H i j I J. assert (G : forall d, 0 <= d -> i + 1 + d < zlen l -> (at_ l i < at_ l (i + 1 + d))%Q).
  { intros d D. revert d D. refine (natlike_ind _ _ _).
    - intros L. replace (i + 1 + 0) with (i + 1) by lia. apply H; lia.
    - intros d D IH L. apply Qlt_trans with (at_ l (i + 1 + d)); [apply IH; lia|].
      replace (i + 1 + Z.succ d) with (i + 1 + d + 1) by lia. apply H; lia. }
  replace j with (i + 1 + (j - i - 1)) by lia. apply G; lia.
Qed.

Lemma shift_value : forall l, 2 <= zlen l -> exists s, shift_of l = Some s /\ (s == axis_period l)%Q.
Proof.
  intros l N. unfold shift_of. rewrite pyget_last by lia. rewrite !pyget_in by lia.
  assert (E : pyget l (-2) = Some (at_ l (zlen l - 2))).
  { unfold pyget. change (-2 <? 0) with true. cbv iota. rewrite cget_in by lia. f_equal. f_equal. lia. }
  rewrite E. eexists. split; [reflexivity|]. unfold axis_period, first_. lra.
Qed.

Lemma halo_parts : forall h l, 1 <= h <= zlen l ->
  vtail l (- h) = skipn (Z.to_nat (zlen l - h)) l /\ vslice l 0 h = firstn (Z.to_nat h) l.
Proof.
  intros h l H. unfold vtail, vslice, py_bound.
  replace (- h <? 0) with true by lia. change (0 <? 0) with false. replace (h <? 0) with false by lia. cbv iota zeta.
  replace (Z.max 0 (- h + zlen l)) with (zlen l - h) by lia. replace (Z.min 0 (zlen l)) with 0 by lia.
  replace (Z.min h (zlen l)) with h by lia. split; [reflexivity|]. replace (h - 0) with h by lia. reflexivity.
Qed.

(** The axis with its halo, in its three parts. *)
Lemma halo_axis_parts : forall h l, 2 <= zlen l -> 1 <= h <= zlen l -> exists l',
  halo_axis h l = Some l' /\ zlen l' = zlen l + 2 * h /\
  (forall k, 0 <= k < h -> (at_ l' k == at_ l (zlen l - h + k) - axis_period l)%Q) /\
  (forall k, h <= k < h + zlen l -> at_ l' k = at_ l (k - h)) /\
  (forall k, h + zlen l <= k < zlen l + 2 * h -> (at_ l' k == at_ l (k - h - zlen l) + axis_period l)%Q).
Proof.
  intros h l N H. destruct (shift_value l N) as (s & S & V). destruct (halo_parts h l H) as (T1 & T2).
  unfold halo_axis. rewrite S, T1, T2. eexists. split; [reflexivity|].
  assert (L1 : zlen (map (fun v : Q => (v - s)%Q) (skipn (Z.to_nat (zlen l - h)) l)) = h) by (rewrite zlen_map, zlen_skipn; lia).
  assert (L2 : zlen (map (fun v : Q => (v + s)%Q) (firstn (Z.to_nat h) l)) = h) by (rewrite zlen_map, zlen_firstn; lia).
  split; [rewrite !zlen_app, L1, L2; lia|]. split; [|split].
  - intros k K. rewrite at_app by lia. rewrite L1. replace (k <? h) with true by lia.
    rewrite at_map by (rewrite zlen_skipn; lia). rewrite at_skipn by lia. rewrite V. lra.
  - intros k K. rewrite at_app by lia. rewrite L1. replace (k <? h) with false by lia.
    rewrite at_app by lia. replace (k - h <? zlen l) with true by lia. reflexivity.
  - intros k K. rewrite at_app by lia. rewrite L1. replace (k <? h) with false by lia.
    rewrite at_app by lia. replace (k - h <? zlen l) with false by lia.
    rewrite at_map by (rewrite zlen_firstn; lia). rewrite at_firstn by lia. rewrite V. lra.
Qed.

Lemma halo_axis_spec : forall h l, axis_ok l -> 2 <= zlen l -> 1 <= h <= zlen l ->
  exists l', halo_axis h l = Some l' /\ extends_axis h l l' /\ increasing l'.
Proof.
  intros h l (_ & I) N H. destruct (halo_axis_parts h l N H) as (l' & E & L & A & B & C).
  exists l'. split; [exact E|]. split.
  - split; [exact L|]. split.
    + intros i J. rewrite B by lia. f_equal. lia.
    + intros k K. destruct (Z_lt_dec k h) as [K1|K1].
      { destruct (origin_left h (zlen l) k H) as (O & T); [lia|]. rewrite O, T, A by lia. change (inject_Z (-1)) with (-1 # 1)%Q. lra. }
      destruct (Z_lt_dec k (h + zlen l)) as [K2|K2].
      { destruct (origin_mid h (zlen l) k) as (O & T); [lia..|]. rewrite O, T, B by lia. change (inject_Z 0) with 0%Q. lra. }
      destruct (origin_right h (zlen l) k) as (O & T); [lia..|]. rewrite O, T, C by lia. change (inject_Z 1) with 1%Q. lra.
  - apply increasing_step. intros i I0 I1. rewrite L in I1.
    assert (P : (at_ l (zlen l - 1) - axis_period l < at_ l 0)%Q).
    { unfold axis_period, first_, last_. pose proof (I 0 1 ltac:(lia) ltac:(lia)). lra. }
    assert (P' : (at_ l (zlen l - 1) < at_ l 0 + axis_period l)%Q) by lra.
    destruct (Z_lt_dec (i + 1) h) as [K1|K1].
    { rewrite !A by lia. pose proof (I (zlen l - h + i) (zlen l - h + (i + 1)) ltac:(lia) ltac:(lia)). lra. }
    destruct (Z_lt_dec i h) as [K2|K2].
    { rewrite A by lia. rewrite B by lia. replace (zlen l - h + i) with (zlen l - 1) by lia. replace (i + 1 - h) with 0 by lia. exact P. }
    destruct (Z_lt_dec (i + 1) (h + zlen l)) as [K3|K3].
    { rewrite !B by lia. apply I; lia. }
    destruct (Z_lt_dec i (h + zlen l)) as [K4|K4].
    { rewrite B by lia. rewrite C by lia. replace (i - h) with (zlen l - 1) by lia. replace (i + 1 - h - zlen l) with 0 by lia. exact P'. }
    rewrite !C by lia. pose proof (I (i - h - zlen l) (i + 1 - h - zlen l) ltac:(lia) ltac:(lia)). lra.
Qed.

(** ** Arrays *)
Lemma halo_x_spec : forall h a, 1 <= h <= a_x a ->
  a_x (halo_x h a) = a_x a + 2 * h /\ a_y (halo_x h a) = a_y a /\
  forall t j i, 0 <= i < a_x a + 2 * h -> a_at (halo_x h a) t j i = a_at a t j (origin h (a_x a) i).
Proof.
  intros h a H. unfold halo_x, join_x, tail_x, slice_x, py_bound. cbn [a_x a_y a_at].
  replace (- h <? 0) with true by lia. change (0 <? 0) with false. replace (h <? 0) with false by lia. cbv iota zeta.
  replace (Z.max 0 (- h + a_x a)) with (a_x a - h) by lia. replace (Z.min 0 (a_x a)) with 0 by lia. replace (Z.min h (a_x a)) with h by lia.
  replace (a_x a - (a_x a - h)) with h by lia. replace (Z.max 0 (h - 0)) with h by lia.
  split; [lia|]. split; [reflexivity|]. intros t j i I.
  destruct (Z.ltb_spec i (h + a_x a)) as [L|L].
  - destruct (Z.ltb_spec i h) as [L'|L'].
    + destruct (origin_left h (a_x a) i H) as (O & _); [lia|]. rewrite O. reflexivity.
    + destruct (origin_mid h (a_x a) i) as (O & _); [lia..|]. rewrite O. reflexivity.
  - destruct (origin_right h (a_x a) i) as (O & _); [lia..|]. rewrite O. f_equal. lia.
Qed.
Lemma halo_y_spec : forall h a, 1 <= h <= a_y a ->
  a_y (halo_y h a) = a_y a + 2 * h /\ a_x (halo_y h a) = a_x a /\
  forall t j i, 0 <= j < a_y a + 2 * h -> a_at (halo_y h a) t j i = a_at a t (origin h (a_y a) j) i.
Proof.
  intros h a H. unfold halo_y, join_y, tail_y, slice_y, py_bound. cbn [a_x a_y a_at].
  replace (- h <? 0) with true by lia. change (0 <? 0) with false. replace (h <? 0) with false by lia. cbv iota zeta.
  replace (Z.max 0 (- h + a_y a)) with (a_y a - h) by lia. replace (Z.min 0 (a_y a)) with 0 by lia. replace (Z.min h (a_y a)) with h by lia.
  replace (a_y a - (a_y a - h)) with h by lia. replace (Z.max 0 (h - 0)) with h by lia.
  split; [lia|]. split; [reflexivity|]. intros t j i I.
  destruct (Z.ltb_spec j (h + a_y a)) as [L|L].
  - destruct (Z.ltb_spec j h) as [L'|L'].
    + destruct (origin_left h (a_y a) j H) as (O & _); [lia|]. rewrite O. reflexivity.
    + destruct (origin_mid h (a_y a) j) as (O & _); [lia..|]. rewrite O. reflexivity.
  - destruct (origin_right h (a_y a) j) as (O & _); [lia..|]. rewrite O. f_equal. lia.
Qed.

Lemma array_halo_spec : forall zonal meridional h xdim ydim a,
  1 <= a_x a -> 1 <= a_y a -> 1 <= h -> (zonal = true -> h <= a_x a) -> (meridional = true -> h <= a_y a) ->
  xdim = a_x a + 2 * (if zonal then h else 0) -> ydim = a_y a + 2 * (if meridional then h else 0) ->
  exists a', array_halo zonal meridional h xdim ydim a = Some a' /\ extends_array zonal meridional h a a'.
Proof.
  intros zonal meridional h xdim ydim a AX AY H Z M X Y. unfold array_halo.
  assert (A1 : exists a1, (if zonal then halo_x h a else a) = a1 /\ a_x a1 = xdim /\ a_y a1 = a_y a /\
    forall t j i, 0 <= i < xdim -> a_at a1 t j i = a_at a t j (origin (if zonal then h else 0) (a_x a) i)).
  { eexists. split; [reflexivity|]. destruct zonal.
    - destruct (halo_x_spec h a) as (S1 & S2 & S3); [specialize (Z eq_refl); lia|]. split; [lia|]. split; [exact S2|].
      intros t j i I. apply S3. lia.
    - split; [lia|]. split; [reflexivity|]. intros t j i I. destruct (origin_zero (a_x a) i) as (O & _); [lia|]. rewrite O. reflexivity. }
  destruct A1 as (a1 & -> & X1 & Y1 & V1). rewrite X1, Z.eqb_refl. rewrite andb_false_r. cbv zeta.
  assert (A2 : exists a2, (if meridional then halo_y h a1 else a1) = a2 /\ a_y a2 = ydim /\ a_x a2 = xdim /\
    forall t j i, 0 <= j < ydim -> a_at a2 t j i = a_at a1 t (origin (if meridional then h else 0) (a_y a) j) i).
  { eexists. split; [reflexivity|]. destruct meridional.
    - destruct (halo_y_spec h a1) as (S1 & S2 & S3); [specialize (M eq_refl); lia|]. split; [lia|]. split; [lia|].
      intros t j i I. rewrite <- Y1. apply S3. lia.
    - split; [lia|]. split; [lia|]. intros t j i I. destruct (origin_zero (a_y a) j) as (O & _); [lia|]. rewrite O. reflexivity. }
  destruct A2 as (a2 & -> & Y2 & X2 & V2). rewrite Y2, Z.eqb_refl. rewrite andb_false_r.
  exists a2. split; [reflexivity|]. split; [lia|]. split; [lia|]. intros t j i J I. rewrite V2 by lia. apply V1. lia.
Qed.

(** ** Curvilinear coordinates *)
Lemma curv_x_spec : forall h a, 1 <= h <= a_x a ->
  a_x (curv_x h a) = a_x a + 2 * h /\ a_y (curv_x h a) = a_y a /\
  forall j i, 0 <= i < a_x a + 2 * h ->
    (a_at (curv_x h a) [] j i == a_at a [] j (origin h (a_x a) i) + inject_Z (turns h (a_x a) i) * row_period a j)%Q.
Proof.
  intros h a H. unfold curv_x, join_x, add_rows, tail_x, slice_x, py_bound. cbn [a_x a_y a_at].
  replace (- h <? 0) with true by lia. change (0 <? 0) with false. replace (h <? 0) with false by lia. cbv iota zeta.
  replace (Z.max 0 (- h + a_x a)) with (a_x a - h) by lia. replace (Z.min 0 (a_x a)) with 0 by lia. replace (Z.min h (a_x a)) with h by lia.
  replace (a_x a - (a_x a - h)) with h by lia. replace (Z.max 0 (h - 0)) with h by lia.
  split; [lia|]. split; [reflexivity|]. intros j i I. unfold row_shift, row_period.
  destruct (Z.ltb_spec i (h + a_x a)) as [L|L].
  - destruct (Z.ltb_spec i h) as [L'|L'].
    + destruct (origin_left h (a_x a) i H) as (O & T); [lia|]. rewrite O, T. change (inject_Z (-1)) with (-1 # 1)%Q. lra.
    + destruct (origin_mid h (a_x a) i) as (O & T); [lia..|]. rewrite O, T. change (inject_Z 0) with 0%Q. lra.
  - destruct (origin_right h (a_x a) i) as (O & T); [lia..|]. rewrite O, T.
    replace (0 + (i - (h + a_x a))) with (i - h - a_x a) by lia. change (inject_Z 1) with 1%Q. lra.
Qed.
Lemma curv_y_spec : forall h a, 1 <= h <= a_y a ->
  a_y (curv_y h a) = a_y a + 2 * h /\ a_x (curv_y h a) = a_x a /\
  forall j i, 0 <= j < a_y a + 2 * h ->
    (a_at (curv_y h a) [] j i == a_at a [] (origin h (a_y a) j) i + inject_Z (turns h (a_y a) j) * col_period a i)%Q.
Proof.
  intros h a H. unfold curv_y, join_y, add_cols, tail_y, slice_y, py_bound. cbn [a_x a_y a_at].
  replace (- h <? 0) with true by lia. change (0 <? 0) with false. replace (h <? 0) with false by lia. cbv iota zeta.
  replace (Z.max 0 (- h + a_y a)) with (a_y a - h) by lia. replace (Z.min 0 (a_y a)) with 0 by lia. replace (Z.min h (a_y a)) with h by lia.
  replace (a_y a - (a_y a - h)) with h by lia. replace (Z.max 0 (h - 0)) with h by lia.
  split; [lia|]. split; [reflexivity|]. intros j i I. unfold col_shift, col_period.
  destruct (Z.ltb_spec j (h + a_y a)) as [L|L].
  - destruct (Z.ltb_spec j h) as [L'|L'].
    + destruct (origin_left h (a_y a) j H) as (O & T); [lia|]. rewrite O, T. change (inject_Z (-1)) with (-1 # 1)%Q. lra.
    + destruct (origin_mid h (a_y a) j) as (O & T); [lia..|]. rewrite O, T. change (inject_Z 0) with 0%Q. lra.
  - destruct (origin_right h (a_y a) j) as (O & T); [lia..|]. rewrite O, T.
    replace (0 + (j - (h + a_y a))) with (j - h - a_y a) by lia. change (inject_Z 1) with 1%Q. lra.
Qed.

Definition coords_ok (c : coords) (xdim ydim : Z) : Prop :=
  match c with
  | Rect lon lat => axis_ok lon /\ axis_ok lat /\ xdim = zlen lon /\ ydim = zlen lat
  | Curv lon lat => xdim = a_x lon /\ ydim = a_y lon /\ a_x lat = a_x lon /\ a_y lat = a_y lon /\ 1 <= a_x lon /\ 1 <= a_y lon
  end.

Lemma coords_halo : forall zonal meridional h c xdim ydim, coords_ok c xdim ydim -> 1 <= h ->
  (zonal = true -> 2 <= xdim /\ h <= xdim) -> (meridional = true -> 2 <= ydim /\ h <= ydim) ->
  exists c1 x1 y1 c2 x2 y2,
    (if zonal then zonal_coords h c else Some (c, xdim, ydim)) = Some (c1, x1, y1) /\
    (if meridional then meridional_coords h c1 else Some (c1, x1, y1)) = Some (c2, x2, y2) /\
    x2 = xdim + 2 * (if zonal then h else 0) /\ y2 = ydim + 2 * (if meridional then h else 0) /\
    match c, c2 with
    | Rect lon lat, Rect lon' lat' =>
        (if zonal then extends_axis h lon lon' /\ increasing lon' else lon' = lon) /\
        (if meridional then extends_axis h lat lat' /\ increasing lat' else lat' = lat)
    | Curv lon lat, Curv lon' lat' => extends_curv zonal meridional h lon lat lon' lat'
    | _, _ => False
    end.
Proof.
  intros zonal meridional h c xdim ydim C H Z M. destruct c as [lon lat|lon lat].
  - destruct C as (A1 & A2 & X & Y).
    assert (L : exists lon', (if zonal then zonal_coords h (Rect lon lat) else Some (Rect lon lat, xdim, ydim)) =
        Some (Rect lon' lat, xdim + 2 * (if zonal then h else 0), ydim) /\
        (if zonal then extends_axis h lon lon' /\ increasing lon' else lon' = lon) /\ zlen lon' = xdim + 2 * (if zonal then h else 0)).
    { destruct zonal; [|exists lon; split; [f_equal; f_equal; f_equal; lia|]; split; [reflexivity|lia]].
      destruct (Z eq_refl) as (Z1 & Z2). destruct (halo_axis_spec h lon A1) as (lon' & E & S & I); [lia..|].
      exists lon'. cbn [zonal_coords]. rewrite E. pose proof (proj1 S) as LL. cbv zeta in LL.
      split; [f_equal; f_equal; [f_equal; lia|lia]|]. split; [split; assumption|lia]. }
    destruct L as (lon' & E1 & S1 & L1).
    assert (L : exists lat', (if meridional then meridional_coords h (Rect lon' lat) else Some (Rect lon' lat, xdim + 2 * (if zonal then h else 0), ydim)) =
        Some (Rect lon' lat', xdim + 2 * (if zonal then h else 0), ydim + 2 * (if meridional then h else 0)) /\
        (if meridional then extends_axis h lat lat' /\ increasing lat' else lat' = lat)).
    { destruct meridional; [|exists lat; split; [f_equal; f_equal; lia|]; reflexivity].
      destruct (M eq_refl) as (Z1 & Z2). destruct (halo_axis_spec h lat A2) as (lat' & E & S & I); [lia..|].
      exists lat'. cbn [meridional_coords]. rewrite E. pose proof (proj1 S) as LL. cbv zeta in LL.
      split; [f_equal; f_equal; [f_equal; lia|lia]|]. split; assumption. }
    destruct L as (lat' & E2 & S2).
    do 6 eexists. split; [exact E1|]. split; [exact E2|]. split; [reflexivity|]. split; [reflexivity|]. split; assumption.
  - destruct C as (X & Y & X' & Y' & PX & PY).
    assert (L : exists lon1 lat1, (if zonal then zonal_coords h (Curv lon lat) else Some (Curv lon lat, xdim, ydim)) =
        Some (Curv lon1 lat1, xdim + 2 * (if zonal then h else 0), ydim) /\
        a_x lon1 = xdim + 2 * (if zonal then h else 0) /\ a_y lon1 = ydim /\ a_x lat1 = a_x lon1 /\ a_y lat1 = ydim /\
        forall j i, 0 <= i < a_x lon1 -> let i0 := origin (if zonal then h else 0) (a_x lon) i in
          (a_at lon1 [] j i == a_at lon [] j i0 + inject_Z (turns (if zonal then h else 0) (a_x lon) i) * row_period lon j)%Q /\
          a_at lat1 [] j i = a_at lat [] j i0).
    { destruct zonal.
      - destruct (Z eq_refl) as (Z1 & Z2). destruct (curv_x_spec h lon) as (S1 & S2 & S3); [lia|]. destruct (halo_x_spec h lat) as (T1 & T2 & T3); [lia|].
        exists (curv_x h lon), (halo_x h lat). cbn [zonal_coords]. replace (a_x lon <? 2) with false by lia. cbv zeta.
        split; [f_equal; f_equal; [f_equal; lia|lia]|]. split; [lia|]. split; [lia|]. split; [lia|]. split; [lia|].
        intros j i I. split; [apply S3; lia|]. rewrite T3 by lia. rewrite X'. reflexivity.
      - exists lon, lat. split; [f_equal; f_equal; f_equal; lia|]. split; [lia|]. split; [lia|]. split; [lia|]. split; [lia|].
        intros j i I. cbv zeta. destruct (origin_zero (a_x lon) i) as (O & T); [lia|]. rewrite O, T. change (inject_Z 0) with 0%Q. split; [lra|reflexivity]. }
    destruct L as (lon1 & lat1 & E1 & X1 & Y1 & X1' & Y1' & V1).
    assert (L : exists lon2 lat2, (if meridional then meridional_coords h (Curv lon1 lat1) else Some (Curv lon1 lat1, xdim + 2 * (if zonal then h else 0), ydim)) =
        Some (Curv lon2 lat2, xdim + 2 * (if zonal then h else 0), ydim + 2 * (if meridional then h else 0)) /\
        a_x lon2 = a_x lon1 /\ a_y lon2 = ydim + 2 * (if meridional then h else 0) /\ a_x lat2 = a_x lon1 /\ a_y lat2 = a_y lon2 /\
        forall j i, 0 <= j < a_y lon2 -> let j0 := origin (if meridional then h else 0) ydim j in
          a_at lon2 [] j i = a_at lon1 [] j0 i /\
          (a_at lat2 [] j i == a_at lat1 [] j0 i + inject_Z (turns (if meridional then h else 0) ydim j) * col_period lat1 i)%Q).
    { destruct meridional.
      - destruct (M eq_refl) as (Z1 & Z2). destruct (curv_y_spec h lat1) as (S1 & S2 & S3); [lia|]. destruct (halo_y_spec h lon1) as (T1 & T2 & T3); [lia|].
        exists (halo_y h lon1), (curv_y h lat1). cbn [meridional_coords]. replace (a_y lat1 <? 2) with false by lia. cbv zeta.
        split; [f_equal; f_equal; [f_equal; lia|lia]|]. split; [lia|]. split; [lia|]. split; [lia|]. split; [lia|].
        intros j i I. split; [rewrite T3 by lia; rewrite Y1; reflexivity|]. rewrite <- Y1'. apply S3. lia.
      - exists lon1, lat1. split; [f_equal; f_equal; lia|]. split; [lia|]. split; [lia|]. split; [lia|]. split; [lia|].
        intros j i I. cbv zeta. destruct (origin_zero ydim j) as (O & T); [lia|]. rewrite O, T. change (inject_Z 0) with 0%Q. split; [reflexivity|lra]. }
    destruct L as (lon2 & lat2 & E2 & X2 & Y2 & X2' & Y2' & V2).
    do 6 eexists. split; [exact E1|]. split; [exact E2|]. split; [reflexivity|]. split; [reflexivity|].
    split; [lia|]. split; [lia|]. split; [lia|]. split; [lia|].
    intros j i J I. destruct (V2 j i J) as (A & B). rewrite <- Y.
    assert (Hj : 0 <= origin (if meridional then h else 0) ydim j < ydim) by (apply origin_range; lia).
    destruct (V1 (origin (if meridional then h else 0) ydim j) i ltac:(lia)) as (A1 & B1). split.
    + rewrite A. exact A1.
    + rewrite B, B1. replace (a_y lat) with ydim by lia.
      assert (P : (col_period lat1 i == col_period lat (origin (if zonal then h else 0) (a_x lon) i))%Q).
      { unfold col_period. replace (a_y lat) with ydim by lia. rewrite Y1'.
        rewrite (proj2 (V1 (ydim - 1) i ltac:(lia))), (proj2 (V1 0 i ltac:(lia))), (proj2 (V1 1 i ltac:(lia))). reflexivity. }
      rewrite P. reflexivity.
Qed.

Theorem grid_halo_spec : forall zonal meridional h g, grid_ok g -> fits zonal meridional h g ->
  exists g', grid_halo zonal meridional h g = Some g' /\ extends_grid zonal meridional h g g' /\
    h_zonal_halo g' = (if zonal then h else h_zonal_halo g) /\ h_meridional_halo g' = (if meridional then h else h_meridional_halo g).
Proof.
  intros zonal meridional h g (C & D) (H & Z & M).
  assert (PX : 1 <= h_xdim g /\ 1 <= h_ydim g).
  { destruct (h_coords g); [destruct C as ((A1 & _) & (A2 & _) & -> & ->); split; assumption|destruct C as (-> & -> & _ & _ & ? & ?); split; assumption]. }
  destruct (coords_halo zonal meridional h (h_coords g) (h_xdim g) (h_ydim g) C H Z M) as (c1 & x1 & y1 & c2 & x2 & y2 & E1 & E2 & X & Y & S).
  unfold grid_halo. rewrite E1, E2.
  assert (SD : exists d, sdepth_halo zonal meridional h x2 y2 (h_sdepth g) = Some d /\
    match h_sdepth g, d with Some a, Some a' => extends_array zonal meridional h a a' | None, None => True | _, _ => False end).
  { destruct (h_sdepth g) as [a|]; [|exists None; split; [reflexivity|exact I]]. destruct D as (D1 & D2).
    destruct (array_halo_spec zonal meridional h x2 y2 a) as (a' & E & S'); [lia|lia|lia| | |rewrite X; f_equal; lia|rewrite Y; f_equal; lia|].
    - intros F. specialize (Z F). lia.
    - intros F. specialize (M F). lia.
    - exists (Some a'). cbn [sdepth_halo]. rewrite E. split; [reflexivity|exact S']. }
  destruct SD as (d & E3 & SD). rewrite E3. eexists. split; [reflexivity|].
  split; [|split; reflexivity]. unfold extends_grid. cbn [h_coords h_sdepth h_xdim h_ydim h_zonal_periodic h_defer].
  split; [exact S|]. split; [exact SD|]. split; [exact X|]. split; [exact Y|]. split; reflexivity.
Qed.
