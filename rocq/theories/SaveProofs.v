(** Proofs for C58: the file that is written, and what is read of it. *)
From Coq Require Import List Arith Bool QArith Qabs String Lia Lqa.
From Verif Require Import IdxModel GsetModel DateModel ReadModel ReadSpec ReadProofs ReadProps SaveModel SaveSpec.
Import ListNotations.
Open Scope nat_scope.

(** * np.reshape *)

Fixpoint in_bounds (ds i : list nat) : Prop := match ds, i with [], [] => True | d :: r, k :: i' => k < d /\ in_bounds r i' | _, _ => False end.
Lemma ravel_lt ds : forall i, in_bounds ds i -> ravel ds i < prod ds.
Proof.
  induction ds as [|d r IH]; intros [|k i] B; cbn in *; try tauto; [lia|]. destruct B as [K B]. specialize (IH i B).
  assert (k * prod r + prod r <= d * prod r) by (replace (k * prod r + prod r) with (S k * prod r) by lia; apply Nat.mul_le_mono_r; lia). lia.
Qed.
Lemma unravel_ravel ds : forall i, in_bounds ds i -> unravel ds (ravel ds i) = i.
Proof.
  induction ds as [|d r IH]; intros [|k i] B; cbn in *; try tauto. destruct B as [K B]. pose proof (ravel_lt r i B) as L.
  assert (N : prod r <> 0) by lia. rewrite (Nat.add_comm (k * prod r)). rewrite Nat.div_add, Nat.mod_add, Nat.div_small, Nat.mod_small by lia. cbn. rewrite IH by exact B. reflexivity.
Qed.

Definition shape4 (f : field) : list nat := [frames_of f; levels f; rows f; columns f].
Lemma reshaped f a : 0 < frames_of f -> 0 < levels f -> 0 < rows f -> 0 < columns f -> f_data f = Some a ->
  dims a = (if levels f =? 1 then [frames_of f; rows f; columns f] else shape4 f) ->
  exists d, np_reshape (shape4 f) a = Some d /\ dims d = shape4 f /\ forall t z y x, is_node_of f t z y x -> get d [t; z; y; x] = value_at f t z y x.
Proof.
  intros T Z Y X A D. unfold np_reshape. replace (prod (dims a) =? prod (shape4 f)) with true.
  - eexists. split; [reflexivity|]. split; [reflexivity|]. intros t z y x (HT & HZ & HY & HX). cbn [get]. unfold value_at. rewrite A. rewrite D.
    destruct (levels f =? 1) eqn:E.
    + apply Nat.eqb_eq in E. assert (z = 0) by lia. subst. replace (ravel (shape4 f) [t; 0; y; x]) with (ravel [frames_of f; rows f; columns f] [t; y; x]) by (cbn; rewrite E; cbn; lia).
      rewrite unravel_ravel; [reflexivity|]. cbn. auto.
    + rewrite unravel_ravel; [reflexivity|]. cbn. auto.
  - symmetry. apply Nat.eqb_eq. rewrite D. destruct (levels f =? 1) eqn:E; [|reflexivity]. apply Nat.eqb_eq in E. cbn. rewrite E. cbn. lia.
Qed.

(** * Writing *)

Definition file_of (var : string) (f : field) (z : list Q) (d : arr value) : file :=
  NcFile var d (nav_lon (fg_c (f_grid f))) (nav_lat (fg_c (f_grid f))) (depth_name (f_name f)) z (units_of (fg_origin (f_grid f))) (fg_time (f_grid f)) (fg_mesh (f_grid f)).

Lemma written f var : loaded f -> exists z d, fg_z (f_grid f) = Some z /\ write var f = WFile (file_of var f z d) /\ dims d = shape4 f /\
  forall t z y x, is_node_of f t z y x -> get d [t; z; y; x] = value_at f t z y x.
Proof.
  intros (TD & T & _ & Z & Y & X & (a & A & D) & _). destruct (reshaped f a T Z Y X A D) as (d & R & DD & V).
  destruct (fg_z (f_grid f)) as [z|] eqn:EZ; [|unfold levels in Z; rewrite EZ in Z; lia]. exists z, d. split; [reflexivity|]. split; [|split; assumption].
  unfold write. rewrite EZ, A. replace [fg_tdim (f_grid f); List.length z; n_rows (fg_c (f_grid f)); n_cols (fg_c (f_grid f))] with (shape4 f).
  - rewrite R. fold (frames_of f). rewrite TD, Nat.eqb_refl. reflexivity.
  - unfold shape4, levels. rewrite EZ, TD. reflexivity.
Qed.

(** * Reading *)

Lemma everything_of var f z d : fg_z (f_grid f) = Some z -> everything (file_of var f z d) = Subset (seq 0 (levels f)) (seq 0 (rows f)) (seq 0 (columns f)).
Proof. intros EZ. unfold everything, file_of, levels. rewrite EZ. reflexivity. Qed.

Lemma seq_below n : Forall (fun k => k < n) (seq 0 n).
Proof. apply Forall_forall. intros k H. apply in_seq in H. lia. Qed.

Lemma read_core f rw var z d c stamps origin ts :
  loaded f -> fg_z (f_grid f) = Some z -> dims d = shape4 f -> (forall t z y x, is_node_of f t z y x -> get d [t; z; y; x] = value_at f t z y x) ->
  py_lonlat isclose (everything (file_of var f z d)) (nav_lon (fg_c (f_grid f))) (nav_lat (fg_c (f_grid f))) = Some c ->
  all_some (map (decode rw (units_of (fg_origin (f_grid f)))) (fg_time (f_grid f))) = Some stamps -> collect stamps = DOk (origin, ts) -> List.length ts = frames_of f ->
  let g := Gdims (frames_of f) (levels f) (rows f) (columns f) (grid_flipped c) in
  let fg := FGrid (new_coords c (rows f) (columns f)) (Some z) (frames_of f) ts origin (fg_mesh (f_grid f)) in
  (exists d', read rw false (f_name f) var (file_of var f z d) = Some (Field (f_name f) fg (Some d') "linear" false) /\
     forall t z y x, is_node_of f t z y x -> node g d' t z y x = value_at f t z (row g y) x) /\
  (2 < frames_of f -> read rw true (f_name f) var (file_of var f z d) = Some (Field (f_name f) fg None "linear" false)).
Proof.
  intros LD EZ DD V C ST CO LT g fg. pose proof LD as (TD & T & _ & Z & Y & X & _ & NN & _).
  pose proof (everything_of var f z d EZ) as EV. set (s := Subset (seq 0 (levels f)) (seq 0 (rows f)) (seq 0 (columns f))) in *.
  assert (H : forall b, read rw b (f_name f) var (file_of var f z d) =
     if b && (2 <? frames_of f) then Some (Field (f_name f) fg None "linear" false)
     else match immediate g s None None None false [(frames_of f, d)] with Some d' => Some (Field (f_name f) fg (Some d') "linear" false) | None => None end).
  { intros b. unfold read. change (n_lon (file_of var f z d)) with (nav_lon (fg_c (f_grid f))). change (n_lat (file_of var f z d)) with (nav_lat (fg_c (f_grid f))). rewrite C. change (n_units (file_of var f z d)) with (units_of (fg_origin (f_grid f))). change (n_time (file_of var f z d)) with (fg_time (f_grid f)).
    rewrite ST, CO, EV. cbn [n_var n_depth_name file_of]. rewrite !String.eqb_refl. cbn [andb]. unfold sizes. rewrite EV. cbn [s i_depth i_lat i_lon]. rewrite !seq_length, LT. reflexivity. }
  split.
  - rewrite H. cbn [andb]. assert (GF : grid_for g s) by (unfold g, s, grid_for; cbn [g_z g_y g_x i_depth i_lat i_lon]; rewrite !seq_length; repeat split; assumption).
    assert (FO : file_ok s TZYX (frames_of f) d).
    { exists (levels f), (rows f), (columns f). split; [exact DD|]. cbn [s i_depth i_lat i_lon]. repeat split; apply seq_below. }
    assert (LF : List.length (frames [(TZYX, frames_of f, d)]) = frames_of f) by (cbn; rewrite app_nil_r, map_length, seq_length; reflexivity).
    destruct (data_from_files s g None None None [(TZYX, frames_of f, d)] GF) as (d' & I & _ & K).
    + split; [discriminate|]. constructor; [exact FO|constructor].
    + rewrite LF. reflexivity.
    + cbn [files_of map] in I. rewrite I. exists d'. split; [reflexivity|]. intros t zz y x (HT & HZ & HY & HX).
      assert (RY : row g y < rows f) by (unfold row, g; cbn; destruct (grid_flipped c); lia).
      assert (NE : nth_error (frames [(TZYX, frames_of f, d)]) t = Some (TZYX, d, t)).
      { cbn. rewrite app_nil_r. rewrite nth_error_map, nth_error_nth' with (d := 0) by (rewrite seq_length; lia). rewrite seq_nth by lia. reflexivity. }
      specialize (K t zz y x TZYX d t ltac:(repeat split; assumption) NE). destruct K as (u & (K & _) & E). rewrite E.
      unfold in_file in K. cbn [place_of s i_depth i_lat i_lon] in K. rewrite !seq_nth in K by lia. cbn [plus] in K. rewrite V in K by (repeat split; assumption).
      destruct (value_at f t zz (row g y) x) as [q|] eqn:EQ; [|exfalso; apply (NN t zz (row g y) x); [repeat split; assumption|exact EQ]].
      apply (K q eq_refl). split; intros m Hm; discriminate Hm.
  - intros TT. rewrite H. replace (2 <? frames_of f) with true by (symmetry; apply Nat.ltb_lt; exact TT). reflexivity.
Qed.

(** * Coordinates *)

Lemma isclose_near a b : isclose a b = true <-> near a b.
Proof. unfold isclose, near. apply Qle_bool_iff. Qed.
Lemma near_refl q : near q q.
Proof. unfold near. setoid_replace (q - q)%Q with 0%Q by ring. pose proof (Qabs_nonneg q). rewrite Qabs_pos by lra. lra. Qed.
Lemma near_eq q q' : (q == q')%Q -> near q q'.
Proof. intros E. unfold near. rewrite E. apply near_refl. Qed.

Section Coords.
Variables (f : field) (var : string) (z : list Q) (d : arr value).
Hypothesis EZ : fg_z (f_grid f) = Some z.
Let s := everything (file_of var f z d).
Let X y x := sheet (nav_lon (fg_c (f_grid f))) (nth y (i_lat s) 0) (nth x (i_lon s) 0).
Let Y y x := sheet (nav_lat (fg_c (f_grid f))) (nth y (i_lat s) 0) (nth x (i_lon s) 0).

Lemma X_at y x : y < rows f -> x < columns f -> X y x = lon_at f y x.
Proof.
  intros HY HX. unfold X, s. rewrite everything_of by exact EZ. cbn [i_lat i_lon]. rewrite !seq_nth by assumption. unfold sheet, nav_lon, lon_at. cbn. destruct (fg_c (f_grid f)); reflexivity.
Qed.
Lemma Y_at y x : y < rows f -> x < columns f -> Y y x = lat_at f y x.
Proof.
  intros HY HX. unfold Y, s. rewrite everything_of by exact EZ. cbn [i_lat i_lon]. rewrite !seq_nth by assumption. unfold sheet, nav_lat, lat_at. cbn. destruct (fg_c (f_grid f)); reflexivity.
Qed.

Lemma lonlat_cases : 0 < rows f -> 0 < columns f ->
  (~ bent f /\ py_lonlat isclose s (nav_lon (fg_c (f_grid f))) (nav_lat (fg_c (f_grid f))) = Some (Lines (map (lon_at f 0) (seq 0 (columns f))) (map (fun y => lat_at f y 0) (seq 0 (rows f))))) \/
  (bent f /\ exists X' Y', py_lonlat isclose s (nav_lon (fg_c (f_grid f))) (nav_lat (fg_c (f_grid f))) = Some (Sheets X' Y') /\
     (forall y x, y < rows f -> x < columns f -> X' y x = lon_at f y x /\ Y' y x = lat_at f y x)).
Proof.
  intros RP CP. unfold py_lonlat. change (ndim (nav_lon (fg_c (f_grid f)))) with 2. cbv iota. fold X. fold Y.
  assert (LX : List.length (i_lon s) = columns f) by (unfold s; rewrite everything_of by exact EZ; apply seq_length).
  assert (LY : List.length (i_lat s) = rows f) by (unfold s; rewrite everything_of by exact EZ; apply seq_length). rewrite LX, LY.
  set (b1 := forallb _ (seq 1 (rows f - 1))). set (b2 := forallb _ (seq 1 (columns f - 1))). destruct (b1 && b2) eqn:B.
  - left. apply andb_true_iff in B. destruct B as [B1 B2]. unfold b1, b2 in B1, B2. rewrite forallb_forall in B1, B2. split.
    + intros (y & x & HY & HX & [N|N]); apply N.
      * destruct y as [|y]; [apply near_refl|]. specialize (B1 (S y)). rewrite forallb_forall in B1. rewrite <- !X_at by lia. apply isclose_near.
        apply B1; [apply in_seq; lia|apply in_seq; lia].
      * destruct x as [|x]; [apply near_refl|]. specialize (B2 (S x)). rewrite forallb_forall in B2. rewrite <- !Y_at by lia. apply isclose_near.
        apply B2; [apply in_seq; lia|apply in_seq; lia].
    + f_equal. f_equal; apply map_ext_in; intros k K; apply in_seq in K; [apply X_at|apply Y_at]; lia.
  - right. split.
    + apply andb_false_iff in B. destruct B as [B|B].
      * assert (exists y x, In y (seq 1 (rows f - 1)) /\ In x (seq 0 (columns f)) /\ isclose (X 0 x) (X y x) = false) as (y & x & IY & IX & E).
        { unfold b1 in B. clear - B. induction (seq 1 (rows f - 1)) as [|y r IH]; [discriminate|]. cbn [forallb] in B. apply andb_false_iff in B. destruct B as [B|B].
          - assert (exists x, In x (seq 0 (columns f)) /\ isclose (X 0 x) (X y x) = false) as (x & IX & E).
            { clear - B. induction (seq 0 (columns f)) as [|x r IH]; [discriminate|]. cbn [forallb] in B. apply andb_false_iff in B. destruct B as [B|B]; [exists x; split; [left; reflexivity|exact B]|].
              destruct (IH B) as (x' & I & E). exists x'. split; [right; exact I|exact E]. }
            exists y, x. split; [left; reflexivity|]. split; assumption.
          - destruct (IH B) as (y' & x & I & J & E). exists y', x. split; [right; exact I|]. split; assumption. }
        apply in_seq in IY, IX. exists y, x. split; [lia|]. split; [lia|]. left. rewrite <- !X_at by lia. intros N. apply isclose_near in N. congruence.
      * assert (exists x y, In x (seq 1 (columns f - 1)) /\ In y (seq 0 (rows f)) /\ isclose (Y y 0) (Y y x) = false) as (x & y & IX & IY & E).
        { unfold b2 in B. clear - B. induction (seq 1 (columns f - 1)) as [|x r IH]; [discriminate|]. cbn [forallb] in B. apply andb_false_iff in B. destruct B as [B|B].
          - assert (exists y, In y (seq 0 (rows f)) /\ isclose (Y y 0) (Y y x) = false) as (y & IY & E).
            { clear - B. induction (seq 0 (rows f)) as [|y r IH]; [discriminate|]. cbn [forallb] in B. apply andb_false_iff in B. destruct B as [B|B]; [exists y; split; [left; reflexivity|exact B]|].
              destruct (IH B) as (y' & I & E). exists y'. split; [right; exact I|exact E]. }
            exists x, y. split; [left; reflexivity|]. split; assumption.
          - destruct (IH B) as (x' & y & I & J & E). exists x', y. split; [right; exact I|]. split; assumption. }
        apply in_seq in IY, IX. exists y, x. split; [lia|]. split; [lia|]. right. rewrite <- !Y_at by lia. intros N. apply isclose_near in N. congruence.
    + exists X, Y. split; [reflexivity|]. intros y x HY HX. split; [apply X_at|apply Y_at]; assumption.
Qed.
End Coords.

Lemma list_as_map (l : list Q) : map (fun k => nth k l 0%Q) (seq 0 (List.length l)) = l.
Proof.
  induction l as [|a l IH]; [reflexivity|]. cbn [List.length seq map nth]. f_equal. rewrite <- seq_shift, map_map. cbn [nth]. exact IH.
Qed.
Lemma lines_again f lon lat : fg_c (f_grid f) = CLines lon lat ->
  map (lon_at f 0) (seq 0 (columns f)) = lon /\ map (fun y => lat_at f y 0) (seq 0 (rows f)) = lat.
Proof. intros E. unfold lon_at, lat_at, rows, columns. rewrite E. split; apply list_as_map. Qed.
Lemma not_bent f lon lat : fg_c (f_grid f) = CLines lon lat -> ~ bent f.
Proof. intros E (y & x & _ & _ & [N|N]); apply N; unfold lon_at, lat_at; rewrite E; apply near_refl. Qed.

Lemma last_nth {A} (l : list A) d : last l d = nth (List.length l - 1) l d.
Proof.
  induction l as [|a [|b r] IH]; [reflexivity|reflexivity|]. change (last (a :: b :: r) d) with (last (b :: r) d). rewrite IH. cbn. rewrite Nat.sub_0_r. reflexivity.
Qed.
Lemma flipped_iff lat : flipped lat = true <-> (nth (List.length lat - 1) lat 0 < nth 0 lat 0)%Q.
Proof.
  unfold flipped. destruct lat as [|a r]; [cbn; split; [discriminate|intros H; exfalso; apply (Qlt_irrefl 0); exact H]|]. rewrite last_nth. rewrite andb_true_iff, negb_true_iff. split.
  - intros [_ H]. apply Qnot_le_lt. intros L. apply Qle_bool_iff in L. change (nth 0 (a :: r) 0%Q) with a in L. congruence.
  - intros H. split.
    + apply Nat.ltb_lt. destruct r; [|cbn; lia]. exfalso. cbn in H. apply (Qlt_irrefl _ H).
    + destruct (Qle_bool a _) eqn:E; [|reflexivity]. apply Qle_bool_iff in E. exfalso. apply (Qle_not_lt _ _ E). exact H.
Qed.

(** * Times *)

Lemma each_map {A B} (h : A -> dres B) (k : A -> B) l : (forall x, In x l -> h x = DOk (k x)) -> each h l = DOk (map k l).
Proof. induction l as [|x r IH]; intros H; [reflexivity|]. cbn. rewrite H by (left; reflexivity). rewrite IH by (intros y I; apply H; right; exact I). reflexivity. Qed.
Lemma all_some_map {A B} (h : A -> option B) (k : A -> B) l : (forall x, In x l -> h x = Some (k x)) -> all_some (map h l) = Some (map k l).
Proof. induction l as [|x r IH]; intros H; [reflexivity|]. cbn. rewrite H by (left; reflexivity). rewrite IH by (intros y I; apply H; right; exact I). reflexivity. Qed.

Lemma increasing_pairs (k : Q -> Q) l : (forall a b, In a l -> In b l -> (a < b)%Q -> (k a < k b)%Q) -> increasing l -> forallb (fun '(a, b) => qlt a b) (pairs (map k l)) = true.
Proof.
  induction l as [|a [|b r] IH]; intros M I; [reflexivity|reflexivity|]. cbn [map pairs forallb]. apply andb_true_iff. split.
  - unfold qlt. apply negb_true_iff. destruct (Qle_bool _ _) eqn:E; [|reflexivity]. apply Qle_bool_iff in E. exfalso. apply (Qle_not_lt _ _ E).
    apply M; [left; reflexivity|right; left; reflexivity|]. apply (I 0). cbn. lia.
  - apply IH; [intros x y Hx Hy; apply M; right; assumption|]. intros i Hi. apply (I (S i)). cbn in *. lia.
Qed.

Lemma py_int_whole q k : (q == inject_Z k)%Q -> py_int q = k.
Proof.
  intros E. unfold py_int. unfold Qeq in E. cbn in E. rewrite Z.mul_1_r in E. rewrite E. apply Z.quot_mul. discriminate.
Qed.

Definition ns (t : Q) : Z := py_int (t * per_s)%Q.
Lemma ns_whole t : whole t -> (inject_Z (ns t) == t * 1000000000)%Q.
Proof. intros (k & E). unfold ns. rewrite (py_int_whole _ k); [symmetry; exact E|exact E]. Qed.

(** What is read of numbers and of dates: the times after the first. *)
Lemma times_read f rw : 0 < frames_of f -> increasing (fg_time (f_grid f)) -> times_ok f ->
  exists stamps origin ts, all_some (map (decode rw (units_of (fg_origin (f_grid f)))) (fg_time (f_grid f))) = Some stamps /\ collect stamps = DOk (origin, ts) /\
    List.length ts = frames_of f /\
    (forall k, k < frames_of f -> (nth k ts 0 == nth k (fg_time (f_grid f)) 0 - nth 0 (fg_time (f_grid f)) 0)%Q) /\
    match fg_origin (f_grid f) with
    | PNum _ => origin = PNum (nth 0 (fg_time (f_grid f)) 0%Q)
    | PDate o => exists o', origin = PDate o' /\ (inject_Z o' == inject_Z o + nth 0 (fg_time (f_grid f)) 0 * 1000000000)%Q
    | _ => False
    end.
Proof.
  unfold frames_of. intros T I OK. unfold times_ok in OK. destruct (fg_time (f_grid f)) as [|t0 r] eqn:ET; [cbn in T; lia|]. set (l := t0 :: r) in *.
  destruct (fg_origin (f_grid f)) as [q|o| | | |] eqn:EO; try tauto.
  - exists (map PNum l), (PNum t0), (map (fun t => t - t0)%Q l). split; [apply all_some_map; reflexivity|]. split.
    + unfold collect. change (map PNum l) with (PNum t0 :: map PNum r) at 1. cbv iota.
      assert (E : each (fun t => number (reltime (PNum t0) t)) (map PNum l) = DOk (map (fun t => t - t0)%Q l)).
      { rewrite (each_map _ (fun p => match p with PNum t => t - t0 | _ => 0 end)%Q).
        - rewrite map_map. reflexivity.
        - intros p P. apply in_map_iff in P. destruct P as (t & <- & _). reflexivity. }
      rewrite E. rewrite increasing_pairs; [reflexivity| |exact I]. intros a b _ _ L. lra.
    + split; [apply map_length|]. split; [|reflexivity]. intros k K. rewrite (nth_indep _ 0%Q (0 - t0)%Q) by (rewrite map_length; exact K). rewrite (map_nth (fun t => t - t0)%Q). cbn [nth l]. reflexivity.
  - pose proof (proj1 (Forall_forall _ _) OK) as W. set (st := fun t => PDate (o + ns t)). set (dt := fun t => (inject_Z ((o + ns t) - (o + ns t0)) / per_s)%Q).
    assert (D : forall t, In t l -> (dt t == t - t0)%Q).
    { intros t IT. unfold dt. replace ((o + ns t) - (o + ns t0))%Z with (ns t + - ns t0)%Z by lia. rewrite inject_Z_plus, inject_Z_opp, (ns_whole t (W t IT)), (ns_whole t0 (W t0 (or_introl eq_refl))). unfold per_s. field. }
    exists (map st l), (st t0), (map dt l). split; [apply all_some_map; reflexivity|]. split.
    + unfold collect. change (map st l) with (st t0 :: map st r) at 1. cbv iota.
      assert (E : each (fun t => number (reltime (st t0) t)) (map st l) = DOk (map dt l)).
      { rewrite (each_map _ (fun p => match p with PDate t => inject_Z (t - (o + ns t0)) / per_s | _ => 0 end)%Q).
        - rewrite map_map. reflexivity.
        - intros p P. apply in_map_iff in P. destruct P as (t & <- & _). reflexivity. }
      rewrite E. rewrite increasing_pairs; [reflexivity| |exact I]. intros a b IA IB L. rewrite (D a IA), (D b IB). lra.
    + split; [apply map_length|]. split.
      * intros k K. rewrite (nth_indep _ 0%Q (dt 0%Q)) by (rewrite map_length; exact K). rewrite map_nth. rewrite D by (apply nth_In; exact K). reflexivity.
      * exists (o + ns t0)%Z. split; [reflexivity|]. rewrite inject_Z_plus, (ns_whole t0 (W t0 (or_introl eq_refl))). cbn [nth l]. reflexivity.
Qed.
