(** Proofs for C58: fields and field sets are restored. *)
From Coq Require Import List Arith Bool QArith Qabs String Lia Lqa.
From Verif Require Import IdxModel GsetModel DateModel ReadModel ReadSpec ReadProofs ReadProps SaveModel SaveSpec SaveProofs.
Import ListNotations.
Open Scope nat_scope.

Definition straight (f : field) : Prop := exists lon lat, fg_c (f_grid f) = CLines lon lat.

Lemma near_dec a b : near a b \/ ~ near a b.
Proof. destruct (isclose a b) eqn:E; [left; apply isclose_near; exact E|right; intros N; apply isclose_near in N; congruence]. Qed.
Lemma all_near f y x : ~ bent f -> y < rows f -> x < columns f -> near (lon_at f 0 x) (lon_at f y x) /\ near (lat_at f y 0) (lat_at f y x).
Proof.
  intros B HY HX. split.
  - destruct (near_dec (lon_at f 0 x) (lon_at f y x)) as [N|N]; [exact N|]. exfalso. apply B. exists y, x. tauto.
  - destruct (near_dec (lat_at f y 0) (lat_at f y x)) as [N|N]; [exact N|]. exfalso. apply B. exists y, x. tauto.
Qed.

Lemma nth_map_seq (h : nat -> Q) n k : k < n -> nth k (map h (seq 0 n)) 0%Q = h k.
Proof. intros K. rewrite (nth_indep _ 0%Q (h 0)) by (rewrite map_length, seq_length; exact K). rewrite map_nth, seq_nth by exact K. reflexivity. Qed.

Lemma field_again f rw var : loaded f -> times_ok f -> exists n f',
  write var f = WFile n /\ read rw false (f_name f) var n = Some f' /\
  (2 < frames_of f -> read rw true (f_name f) var n = Some (Field (f_name f) (f_grid f') None "linear" false)) /\
  same_form f f' /\ near_nodes f f' /\ (straight f \/ bent f -> same_nodes f f') /\
  (forall k i, k < frames_of f -> instant f k i -> instant f' k i) /\
  (forall q, fg_origin (f_grid f) = PNum q -> fg_origin (f_grid f') = PNum (nth 0 (fg_time (f_grid f)) 0%Q) /\
     forall k, k < frames_of f -> (nth k (fg_time (f_grid f')) 0 == nth k (fg_time (f_grid f)) 0 - nth 0 (fg_time (f_grid f)) 0)%Q) /\
  f_interp f' = "linear"%string /\ f_extrapolates f' = false /\
  everything n = Subset (seq 0 (levels f)) (seq 0 (rows f)) (seq 0 (columns f)) /\ dims (n_data n) = shape4 f /\
  (forall t z y x, is_node_of f t z y x -> get (n_data n) [t; z; y; x] = value_at f t z y x).
Proof.
  intros LD OK. destruct (written f var LD) as (z & d & EZ & W & DD & V). pose proof LD as (TD & T & I & LZ & Y & X & _ & NN & SO).
  destruct (times_read f rw T I OK) as (stamps & origin & ts & ST & CO & LT & TS & OR).
  assert (LE : levels f = List.length z) by (unfold levels; rewrite EZ; reflexivity).
  destruct (lonlat_cases f var z d EZ Y X) as [[NB C]|[B (X' & Y' & C & XY)]].
  - set (lon := map (lon_at f 0) (seq 0 (columns f))) in *. set (lat := map (fun y => lat_at f y 0) (seq 0 (rows f))) in *.
    assert (LL : List.length lat = rows f) by (unfold lat; rewrite map_length, seq_length; reflexivity).
    assert (LO : List.length lon = columns f) by (unfold lon; rewrite map_length, seq_length; reflexivity).
    destruct (read_core f rw var z d _ stamps origin ts LD EZ DD V C ST CO LT) as [(d' & R & VV) DR].
    cbn [grid_flipped new_coords] in R, VV, DR.
    match type of R with _ = Some ?F => set (f' := F) in * end. exists (file_of var f z d), f'. split; [exact W|]. split; [exact R|]. split; [exact DR|].
    set (fl := flipped lat) in *. set (lat' := if fl then rev lat else lat) in *.
    assert (LL' : List.length lat' = rows f) by (unfold lat'; destruct fl; rewrite ?rev_length; exact LL).
    assert (RW : rows f' = rows f) by exact LL'. assert (CL : columns f' = columns f) by exact LO.
    assert (FR : frames_of f' = frames_of f) by exact LT. assert (LV : levels f' = levels f) by (symmetry; exact LE).
    split; [repeat split; try assumption; symmetry; exact EZ|]. set (g := Gdims (frames_of f) (levels f) (rows f) (columns f) fl) in *.
    assert (VA : forall t zz y x, is_node_of f t zz y x -> value_at f' t zz y x = value_at f t zz (row g y) x).
    { intros t zz y x H. rewrite <- VV by exact H. unfold value_at, node. cbn [f_data f']. rewrite LV. reflexivity. }
    assert (RI : forall y, y < rows f -> row g y < rows f /\ row g (row g y) = y) by (intros y HY; unfold row, g; cbn [g_flipped g_y]; destruct fl; lia).
    assert (LA : forall y x, y < rows f -> lat_at f' (row g y) x = lat_at f y 0).
    { intros y x HY. unfold lat_at at 1. cbn [f_grid fg_c f']. unfold lat', row, g. cbn [g_flipped g_y]. destruct fl.
      - rewrite rev_nth by (rewrite LL; lia). rewrite LL. replace (rows f - S (rows f - 1 - y)) with y by lia. exact (nth_map_seq (fun y => lat_at f y 0) (rows f) y HY).
      - exact (nth_map_seq (fun y => lat_at f y 0) (rows f) y HY). }
    assert (LN : forall y x, x < columns f -> lon_at f' y x = lon_at f 0 x) by (intros y x HX; unfold lon_at at 1; cbn [f_grid fg_c f']; apply nth_map_seq; exact HX).
    split; [exists (row g); split; [exact RI|]|].
    { intros t zz y x (HT & HZ & HY & HX). destruct (RI y HY) as [R1 R2]. destruct (all_near f y x NB HY HX) as [N1 N2]. split; [|split].
      - rewrite VA by (repeat split; assumption). rewrite R2. reflexivity.
      - rewrite LN by exact HX. exact N1.
      - rewrite LA by exact HY. exact N2. }
    split; [|split; [|split; [|split; [reflexivity|split; [reflexivity|split; [apply everything_of; exact EZ|split; [exact DD|exact V]]]]]]].
    + intros [(lo & la & E)|B]; [|exfalso; exact (NB B)]. destruct (lines_again f lo la E) as [E1 E2]. fold lon in E1. fold lat in E2.
      assert (FF : fl = false). { destruct fl eqn:F; [|reflexivity]. exfalso. apply flipped_iff in F. rewrite E in SO. rewrite E2 in F. apply (Qle_not_lt _ _ SO F). }
      intros t zz y x (HT & HZ & HY & HX). assert (RR : row g y = y) by (unfold row, g; cbn [g_flipped]; rewrite FF; reflexivity). split; [|split].
      * rewrite VA by (repeat split; assumption). rewrite RR. reflexivity.
      * rewrite LN by exact HX. unfold lon_at. rewrite E. reflexivity.
      * rewrite <- RR at 1. rewrite LA by exact HY. unfold lat_at. rewrite E. reflexivity.
    + intros k i K (o & EO & EI). rewrite EO in OR. destruct OR as (o' & E' & EQ). exists o'. split; [exact E'|]. cbn [f_grid fg_time f']. rewrite (TS k K), EQ, EI. ring.
    + intros q EO. rewrite EO in OR. split; [exact OR|]. intros k K. exact (TS k K).
  - destruct (read_core f rw var z d _ stamps origin ts LD EZ DD V C ST CO LT) as [(d' & R & VV) DR].
    cbn [grid_flipped new_coords] in R, VV, DR.
    match type of R with _ = Some ?F => set (f' := F) in * end. exists (file_of var f z d), f'. split; [exact W|]. split; [exact R|]. split; [exact DR|].
    assert (FR : frames_of f' = frames_of f) by exact LT. assert (LV : levels f' = levels f) by (symmetry; exact LE).
    split; [repeat split; try assumption; symmetry; exact EZ|].
    assert (SN : same_nodes f f').
    { intros t zz y x H. pose proof H as (HT & HZ & HY & HX). destruct (XY y x HY HX) as [E1 E2]. split; [|split].
      - specialize (VV t zz y x H). unfold row in VV. cbn [g_flipped] in VV. rewrite <- VV. unfold value_at, node. cbn [f_data f']. rewrite LV. reflexivity.
      - unfold lon_at at 1. cbn [f_grid fg_c f']. exact E1.
      - unfold lat_at at 1. cbn [f_grid fg_c f']. exact E2. }
    split; [exists (fun y => y); split; [intros y HY; split; [exact HY|reflexivity]|]|].
    { intros t zz y x H. destruct (SN t zz y x H) as (E1 & E2 & E3). split; [exact E1|]. rewrite E2, E3. split; apply near_refl. }
    split; [|split; [|split; [|split; [reflexivity|split; [reflexivity|split; [apply everything_of; exact EZ|split; [exact DD|exact V]]]]]]].
    + intros _. exact SN.
    + intros k i K (o & EO & EI). rewrite EO in OR. destruct OR as (o' & E' & EQ). exists o'. split; [exact E'|]. cbn [f_grid fg_time f']. rewrite (TS k K), EQ, EI. ring.
    + intros q EO. rewrite EO in OR. split; [exact OR|]. intros k K. exact (TS k K).
Qed.

(** * Field sets *)

Lemma append_inj_l a : forall b c, (a ++ b)%string = (a ++ c)%string -> b = c.
Proof. induction a as [|k a IH]; cbn; intros b c E; [exact E|]. injection E as E. exact (IH _ _ E). Qed.
Lemma append_length a b : String.length (a ++ b) = String.length a + String.length b.
Proof. induction a as [|k a IH]; cbn; [reflexivity|]. rewrite IH. reflexivity. Qed.
Lemma append_inj_r a : forall b c, (a ++ c)%string = (b ++ c)%string -> a = b.
Proof.
  induction a as [|k a IH]; intros [|k' b] c E.
  - reflexivity.
  - exfalso. pose proof (f_equal String.length E) as L. cbn in L. rewrite append_length in L. lia.
  - exfalso. pose proof (f_equal String.length E) as L. cbn in L. rewrite append_length in L. lia.
  - cbn in E. injection E as -> E. f_equal. exact (IH _ _ E).
Qed.
Lemma file_name_inj base a b : file_name base a = file_name base b -> a = b.
Proof. unfold file_name. intros E. apply append_inj_l in E. exact (append_inj_r _ _ _ E). Qed.

Definition extra_ok (f : field) : Prop := f_name f <> "U"%string /\ f_name f <> "V"%string.
Lemma extra_names f : extra_ok f -> String.eqb (f_name f) "U" || String.eqb (f_name f) "V" = false.
Proof. intros [A B]. apply orb_false_iff. split; apply String.eqb_neq; assumption. Qed.

Lemma rest_written base l : forall d0, Forall extra_ok l -> Forall (fun f => exists n, write (f_name f) f = WFile n) l -> NoDup (map f_name l) ->
  exists d, put_rest base (map IField l) d0 = (true, d) /\
    (forall f, In f l -> exists n, write (f_name f) f = WFile n /\ d (file_name base (f_name f)) = Some n) /\
    (forall s, (forall f, In f l -> s <> file_name base (f_name f)) -> d s = d0 s).
Proof.
  induction l as [|f r IH]; intros d0 EX WR ND.
  - exists d0. split; [reflexivity|]. split; [intros f []|intros; reflexivity].
  - inversion EX as [|? ? E1 E2]; subst. inversion WR as [|? ? (n & W1) W2]; subst. cbn [map] in ND. apply NoDup_cons_iff in ND. destruct ND as [N1 N2].
    cbn [map put_rest item_name]. rewrite (extra_names f E1). unfold put_item. rewrite W1.
    destruct (IH (put d0 (file_name base (f_name f)) n) E2 W2 N2) as (d & P & A & B). exists d. split; [exact P|]. split.
    + intros h [->|I]; [|exact (A h I)]. exists n. split; [exact W1|]. rewrite B; [unfold put; rewrite String.eqb_refl; reflexivity|].
      intros h' I' E. apply file_name_inj in E. apply N1. rewrite E. apply in_map. exact I'.
    + intros s H. rewrite B by (intros h I; apply H; right; exact I). unfold put. destruct (String.eqb s (file_name base (f_name f))) eqn:E; [|reflexivity].
      apply String.eqb_eq in E. exfalso. apply (H f); [left; reflexivity|exact E].
Qed.

Lemma all_some_Forall2 {A B C} (P : A -> C -> Prop) (h : B -> option C) (k : A -> B) l : (forall a, In a l -> exists c, h (k a) = Some c /\ P a c) ->
  exists cs, all_some (map h (map k l)) = Some cs /\ Forall2 P l cs.
Proof.
  induction l as [|a r IH]; intros H; [exists []; split; [reflexivity|constructor]|]. destruct (H a (or_introl eq_refl)) as (c & E & Q).
  destruct (IH (fun x I => H x (or_intror I))) as (cs & E' & F). exists (c :: cs). cbn. rewrite E, E'. split; [reflexivity|]. constructor; assumption.
Qed.

Definition kept_field (f : field) : Prop := loaded f /\ times_ok f.
Lemma again_restored f rw var : kept_field f -> exists n f', write var f = WFile n /\ read rw false (f_name f) var n = Some f' /\ restored f f'.
Proof.
  intros [L O]. destruct (field_again f rw var L O) as (n & f' & W & R & _ & SF & NN & _ & I & Q & _). exists n, f'. split; [exact W|]. split; [exact R|]. split; [exact SF|]. split; [exact NN|].
  split; [exact I|]. intros q EO Z0 k K. destruct (Q q EO) as [_ Q']. rewrite (Q' k K), Z0. ring.
Qed.

Lemma set_again rw base u v l d0 : f_name u = "U"%string -> f_name v = "V"%string -> Forall extra_ok l -> NoDup (map f_name l) ->
  kept_field u -> kept_field v -> Forall kept_field l ->
  exists d fs', write_all base (Some (IField u)) (Some (IField v)) (map IField (u :: v :: l)) d0 = (true, d) /\
    from_parcels rw false base (map (fun f => (f_name f, f_name f)) l) d = Some fs' /\ Forall2 restored (l ++ [u; v]) fs' /\
    (forall s, (forall f, In f (u :: v :: l) -> s <> file_name base (f_name f)) -> d s = d0 s).
Proof.
  intros NU NV EX ND KU KV KL. destruct (again_restored u rw "vozocrtx" KU) as (nu & u' & WU & RU & SU). destruct (again_restored v rw "vomecrty" KV) as (nv & v' & WV & RV & SV).
  assert (WL : Forall (fun f => exists n, write (f_name f) f = WFile n) l).
  { eapply Forall_impl; [|exact KL]. cbv beta. intros f K. destruct (again_restored f rw (f_name f) K) as (n & _ & W & _). exists n. exact W. }
  set (d1 := put d0 (file_name base (f_name u)) nu). set (d2 := put d1 (file_name base (f_name v)) nv).
  destruct (rest_written base l d2 EX WL ND) as (d & P & A & B).
  assert (NB : forall f w, In f l -> f_name w = "U"%string \/ f_name w = "V"%string -> file_name base (f_name w) <> file_name base (f_name f)).
  { intros f w I H E. apply file_name_inj in E. destruct (proj1 (Forall_forall _ _) EX f I) as [E1 E2]. destruct H; congruence. }
  assert (DU : d (file_name base "U") = Some nu).
  { rewrite <- NU. rewrite B by (intros f I; apply NB; [exact I|left; exact NU]). unfold d2, put. destruct (String.eqb _ _) eqn:E.
    - apply String.eqb_eq in E. apply file_name_inj in E. congruence.
    - unfold d1, put. rewrite String.eqb_refl. reflexivity. }
  assert (DV : d (file_name base "V") = Some nv).
  { rewrite <- NV. rewrite B by (intros f I; apply NB; [exact I|right; exact NV]). unfold d2, put. rewrite String.eqb_refl. reflexivity. }
  destruct (all_some_Forall2 restored (fun p => match d (file_name base (fst p)) with Some n => read rw false (fst p) (snd p) n | None => None end) (fun f => (f_name f, f_name f)) l) as (fl & E & F).
  { intros f I. destruct (A f I) as (n & W & D). cbn [fst snd]. rewrite D. destruct (again_restored f rw (f_name f) (proj1 (Forall_forall _ _) KL f I)) as (n' & f' & W' & R & S).
    assert (n' = n) by congruence. subst. exists f'. split; assumption. }
  exists d, (fl ++ [u'; v']). split; [|split; [|split]].
  - unfold write_all. unfold put_named, put_item at 1. rewrite WU. fold d1. unfold put_item at 1. rewrite WV. fold d2. cbn [map put_rest item_name]. rewrite NU, NV. cbn [String.eqb Ascii.eqb Bool.eqb orb]. exact P.
  - unfold from_parcels, with_uv.
    assert (FI : filter (fun p : string * string => negb (String.eqb (fst p) "U" || String.eqb (fst p) "V")) (map (fun f => (f_name f, f_name f)) l) = map (fun f => (f_name f, f_name f)) l).
    { clear - EX. induction l as [|f r IH]; [reflexivity|]. inversion EX; subst. cbn [map filter fst]. rewrite extra_names by assumption. cbn [negb]. rewrite IH by assumption. reflexivity. }
    rewrite FI, map_app. cbn [map fst snd]. rewrite DU, DV. rewrite <- NU at 1. rewrite <- NV at 1. rewrite RU, RV.
    clear - E. revert fl E. induction (map (fun f => (f_name f, f_name f)) l) as [|p r IH]; intros fl E; cbn in E |- *; [injection E as <-; reflexivity|].
    destruct (match d (file_name base (fst p)) with Some n => _ | None => _ end); [|discriminate]. destruct (all_some _) as [cs|]; [|discriminate]. injection E as <-. rewrite (IH cs eq_refl). reflexivity.
  - apply Forall2_app; [exact F|]. constructor; [exact SU|constructor; [exact SV|constructor]].
  - intros s H. rewrite B by (intros f I; apply H; right; right; exact I). unfold d2, d1, put.
    destruct (String.eqb s (file_name base (f_name v))) eqn:E1; [apply String.eqb_eq in E1; exfalso; apply (H v); [right; left; reflexivity|exact E1]|].
    destruct (String.eqb s (file_name base (f_name u))) eqn:E2; [apply String.eqb_eq in E2; exfalso; apply (H u); [left; reflexivity|exact E2]|]. reflexivity.
Qed.
