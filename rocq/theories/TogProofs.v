(** Lemmas on reading one variable. *)
From Coq Require Import List Arith Bool ZArith QArith String Lia.
From Verif Require Import UnitModel TogModel TogSpec.
Import ListNotations.
Open Scope nat_scope.

Ltac brk H :=
  repeat match type of H with
         | context [match ?x with _ => _ end] => let E := fresh "E" in destruct x eqn:E; try discriminate H
         end.

(** ** Names of files *)
Lemma parse_expand w p l : parse w p = Some l -> expand w p = l /\ l <> [].
Proof. unfold parse. destruct p; cbn; intro H; brk H; injection H as <-; split; congruence. Qed.
Lemma parse_dims_find w d d' : parse_dims w d = Some d' ->
  forall k, find_dim k d' = option_map (fun p => Files (expand w p)) (find_dim k d).
Proof.
  revert d'. induction d as [|[k0 p] r IH]; cbn; intros d' H k.
  - injection H as <-. reflexivity.
  - destruct (parse w p) eqn:E; try discriminate. destruct (parse_dims w r) eqn:E2; try discriminate. injection H as <-. cbn.
    destruct (dim_eq k k0); cbn; [|now apply IH]. apply parse_expand in E. now destruct E as [-> _].
Qed.
Lemma find_set_key {A} k (a : A) l v : find k l <> None -> find v (set_key k a l) = if string_dec v k then Some a else find v l.
Proof.
  induction l as [|[k0 b] r IH]; cbn; [congruence|]. intro H. destruct (string_dec k k0) as [->|N]; cbn.
  - destruct (string_dec v k0); reflexivity.
  - destruct (string_dec v k0) as [->|M]; [|now apply IH]. destruct (string_dec k0 k); congruence.
Qed.
Definition shape_of (fn : filenames) (v : string) : bool :=
  match fn with Vars m => match find v m with Some (PerDim _) => true | _ => false end | _ => false end.
Lemma shape_per_dim fn v : shape_of fn v = true <-> per_dim fn v.
Proof.
  unfold shape_of, per_dim. split.
  - destruct fn as [p|d|m]; try discriminate. destruct (find v m) as [[p|d]|] eqn:E; try discriminate. intros _. now exists m, d.
  - intros (m & d & -> & ->). reflexivity.
Qed.
(** The user's files after some have been resolved in place. *)
Definition alike (w : world) (fn fn' : filenames) : Prop :=
  (forall v k, own_files w fn' v k = own_files w fn v k) /\ (forall v, shape_of fn' v = shape_of fn v) /\
  match fn, fn' with Vars _, Vars _ => True | Plain _, Plain _ => True | Dims _, Dims _ => True | _, _ => False end.
Lemma alike_refl w fn : alike w fn fn.
Proof. repeat split; auto. destruct fn; auto. Qed.
Lemma alike_trans w a b c : alike w a b -> alike w b c -> alike w a c.
Proof.
  intros (A1 & A2 & A3) (B1 & B2 & B3). repeat split; intros.
  - rewrite B1. apply A1.
  - rewrite B2. apply A2.
  - destruct a, b, c; auto; contradiction.
Qed.
Lemma resolve_ok w fn var p fn' : resolve w fn var = Some (p, fn') ->
  (forall k, dim_files p k = own_files w fn var k) /\ alike w fn fn'.
Proof.
  unfold resolve, own_files, given. destruct fn as [q|d|m]; intro H.
  - destruct (parse w q) eqn:E; try discriminate. injection H as <- <-. apply parse_expand in E. destruct E as [<- _].
    split; [reflexivity|apply alike_refl].
  - destruct (parse_dims w d) as [d'|] eqn:E; try discriminate. injection H as <- <-. pose proof (parse_dims_find _ _ _ E) as F.
    split; [|split; [|split]]; cbn; intros; auto; unfold own_files; cbn; rewrite F; destruct (find_dim k d); reflexivity.
  - destruct (find var m) as [q|] eqn:E; try discriminate. destruct (resolve_paths w q) as [[r q']|] eqn:E2; try discriminate.
    injection H as <- <-. unfold resolve_paths in E2. destruct q as [q|d].
    + destruct (parse w q) eqn:E3; try discriminate. injection E2 as <- <-. apply parse_expand in E3. destruct E3 as [<- _].
      split; [reflexivity|]. split; [|split]; cbn; auto; unfold own_files, given, shape_of; intros;
      (rewrite find_set_key by congruence; destruct (string_dec v var) as [->|]; [rewrite E|]; reflexivity).
    + destruct (parse_dims w d) as [d'|] eqn:E3; try discriminate. injection E2 as <- <-. pose proof (parse_dims_find _ _ _ E3) as F.
      split; [intro k; cbn; rewrite F; destruct (find_dim k d); reflexivity|].
      split; [|split]; cbn; auto; unfold own_files, given, shape_of; intros;
      (rewrite find_set_key by congruence; destruct (string_dec v var) as [->|]; [rewrite E|reflexivity]); [|reflexivity].
      rewrite F. destruct (find_dim k d); reflexivity.
Qed.

(** ** Lines *)
Lemma take_spec X ks L : take X ks = Some L ->
  List.length L = List.length ks /\ forall k i, nth_error ks k = Some i -> nth_error L k = nth_error X i /\ i < List.length X.
Proof.
  revert L. induction ks as [|i0 r IH]; cbn; intros L H.
  - injection H as <-. split; [reflexivity|]. intros [|k]; discriminate.
  - destruct (nth_error X i0) eqn:E; try discriminate. destruct (take X r) eqn:E2; try discriminate. injection H as <-.
    destruct (IH _ eq_refl) as [A B]. split; [cbn; congruence|]. intros [|k] i K; cbn in *.
    + injection K as <-. split; [congruence|]. apply nth_error_Some. congruence.
    + now apply B.
Qed.
Lemma take_seq X L : take X (seq 0 (List.length X)) = Some L -> L = X.
Proof.
  intro H. apply take_spec in H. destruct H as [A B]. rewrite seq_length in A.
  apply nth_ext with (d := 0%Q) (d' := 0%Q); [exact A|]. intros k K.
  assert (S : nth_error (seq 0 (List.length X)) k = Some k).
  { rewrite (nth_error_nth' _ 0) by (rewrite seq_length; lia). rewrite seq_nth by lia. reflexivity. }
  destruct (B _ _ S) as [C _]. rewrite A in K. rewrite (nth_error_nth' L 0%Q), (nth_error_nth' X 0%Q) in C by lia. congruence.
Qed.
Lemma take_line w f n name o X L : w_file w f = Some n -> n_line n name = Some X -> take X (all_or o X) = Some L -> line_of w f name o L.
Proof.
  intros A B C. exists n, X. repeat split; auto. destruct o as [ks|]; cbn in C.
  - now apply take_spec.
  - now apply take_seq.
Qed.
Lemma all_or_place o X L k : take X (all_or o X) = Some L -> k < List.length L -> nth k (all_or o X) 0 = place o k.
Proof.
  destruct o as [ks|]; cbn; intros H K; [reflexivity|]. apply take_seq in H. subst. now rewrite seq_nth.
Qed.
Lemma all_or_length o X L : take X (all_or o X) = Some L -> List.length (all_or o X) = List.length L.
Proof. intro H. apply take_spec in H. now destruct H. Qed.

(** ** Dates *)
Lemma sequence_Forall2 {A} (l : list (option A)) r : sequence l = Some r -> Forall2 (fun o a => o = Some a) l r.
Proof.
  revert r. induction l as [|o l IH]; cbn; intros r H.
  - injection H as <-. constructor.
  - destruct o; try discriminate. destruct (sequence l) eqn:E; try discriminate. injection H as <-. constructor; auto.
Qed.
Lemma file_times_spec w d f ts : file_times w d f = Some ts <-> dates_in w d f ts.
Proof.
  unfold file_times, dates_in. destruct (w_file w f) as [n|].
  - destruct (d_time d); split.
    + intro H. now exists n.
    + intros (m & E & H). now injection E as <-.
    + intro H. injection H as <-. now exists n.
    + intros (m & E & ->). reflexivity.
  - split; [discriminate|]. intros (n & E & _). discriminate.
Qed.
Definition spread (fs : list string) (tss : list (list Z)) : list string :=
  List.concat (map (fun p => repeat (fst p) (List.length (snd p))) (combine fs tss)).
Lemma collect_spec w d fs t o sl df : collect w d fs = Some (t, o, sl, df) ->
  Forall2 (dates_in w d) fs sl /\ map (fun x => (o + x)%Z) t = List.concat sl /\ increasing (List.concat sl) = true /\ df = spread fs sl.
Proof.
  unfold collect. intro H. destruct (sequence (map (file_times w d) fs)) as [tss|] eqn:E; try discriminate.
  destruct (List.concat tss) as [|o' r] eqn:E2; try discriminate. destruct (increasing (o' :: r)) eqn:E3; try discriminate.
  injection H as <- <- <- <-. repeat split.
  - apply sequence_Forall2 in E. clear E2 E3. revert tss E. induction fs as [|f fs IH]; cbn; intros tss E; inversion E; subst; constructor.
    + now apply file_times_spec.
    + auto.
  - rewrite E2. transitivity (map (fun x => x) (o' :: r)); [|apply map_id].
    change (map (fun x => (o' + x)%Z) (map (fun t => (t - o')%Z) (o' :: r)) = map (fun x => x) (o' :: r)). rewrite map_map. apply map_ext. intro x. lia.
  - now rewrite E2.
Qed.
Lemma dates_fun w d f a b : dates_in w d f a -> dates_in w d f b -> a = b.
Proof. rewrite <- !file_times_spec. congruence. Qed.
Lemma dates_fun2 w d fs a b : Forall2 (dates_in w d) fs a -> Forall2 (dates_in w d) fs b -> a = b.
Proof.
  intro H. revert b. induction H; intros b K; inversion K; subst; [reflexivity|]. f_equal; [eapply dates_fun; eauto|auto].
Qed.

(** ** Reading one variable *)
(** What is known of a field that was read, apart from its grid. *)
Definition read_spec (w : world) (a : args) (var name : string) (f : field) (dlen ylen xlen : nat) : Prop :=
  exists d i fs tss il ia iz,
    of_var (a_dims a) var = Some d /\ of_var (a_inds a) var = Some i /\ own_files w (a_files a) var DData = Some fs /\
    Forall2 (dates_in w d) fs tss /\ increasing (List.concat tss) = true /\
    f_files f = spread fs tss /\ f_name f = name /\ f_dims f = d /\ f_inds f = (il, ia, iz) /\
    List.length iz = dlen /\ (d_time d = None -> List.length fs <= 1) /\
    (forall k, k < dlen -> nth k iz 0 = match d_depth d with None => 0 | Some _ => place (wanted i i_depth) k end) /\
    (forall k, k < ylen -> nth k ia 0 = place (wanted i i_lat) k) /\
    (forall k, k < xlen -> nth k il 0 = place (wanted i i_lon) k) /\
    match f_data f with
    | Loaded fr => load w name (il, ia, iz) (g_slices (f_grid f)) fs = Some fr /\ List.length fr = List.length (g_time (f_grid f)) /\
                   (List.length (g_time (f_grid f)) <= 2 \/ a_deferred a = false)
    | Deferred => 2 < List.length (g_time (f_grid f)) /\ a_deferred a = true
    end.
(** The coordinates of the variable, as three lists. *)
Definition coords_at (w : world) (a : args) (var : string) (lon lat dep : list Q) (fl : bool) : Prop :=
  own_coords w a var (Grid lon lat dep fl 0 [] []).
Definition dfiles_ok (w : world) (d : dimdict) (fs : list string) (o : option (list string)) : Prop :=
  forall df, o = Some df -> exists tss, Forall2 (dates_in w d) fs tss /\ increasing (List.concat tss) = true /\ df = spread fs tss.
Definition times_ok (w : world) (a : args) (var : string) (g : grid) : Prop :=
  exists fs tss, own_dates w a var fs tss /\ g_slices g = tss /\ map (fun x => (g_origin g + x)%Z) (g_time g) = List.concat tss.

Lemma read_field_ok w a p var name d i ft sh df f :
  (forall k, dim_files p k = own_files w (a_files a) var k) ->
  of_var (a_dims a) var = Some d -> of_var (a_inds a) var = Some i ->
  (forall fs, own_files w (a_files a) var DData = Some fs -> dfiles_ok w d fs df) ->
  read_field w p var name d i ft (a_flat a) (a_deferred a) sh df = Some f ->
  units (g_flat (f_grid f)) var ft = Some (f_units f) /\
  exists lon lat dep fl,
    coords_at w a var lon lat dep fl /\
    read_spec w a var name f (List.length dep) (List.length lat) (List.length lon) /\
    match sh with
    | Some g => f_grid f = g
    | None => g_lon (f_grid f) = lon /\ g_lat (f_grid f) = lat /\ g_depth (f_grid f) = dep /\ g_flat (f_grid f) = fl /\ times_ok w a var (f_grid f)
    end.
Proof.
  intros P D I DF H. unfold read_field in H. rewrite !P in H.
  destruct (own_files w (a_files a) var DData) as [dfs|] eqn:Ed; try discriminate.
  destruct (own_files w (a_files a) var DLon) as [lons|] eqn:Eo; try discriminate.
  destruct (own_files w (a_files a) var DLat) as [lats|] eqn:Ea; try discriminate.
  destruct (match p with PerDim _ => _ | Same _ => _ end); try discriminate.
  destruct (list_eq_dec string_dec lons lats) as [->|]; try discriminate.
  destruct lats as [|lf lmore]; try discriminate.
  destruct (w_file w lf) as [n|] eqn:En; try discriminate.
  destruct (n_line n (d_lon d)) as [X|] eqn:EX; try discriminate. destruct (n_line n (d_lat d)) as [Y|] eqn:EY; try discriminate.
  cbv zeta in H.
  set (ind := match i with Some i0 => i0 | None => _ end) in H.
  assert (WL : forall c, c (Inds None None None) = None -> c ind = wanted i c) by (intros c K; unfold ind; destruct i; cbn; auto).
  rewrite (WL i_lon), (WL i_lat) in H by reflexivity.
  destruct (take X (all_or (wanted i i_lon) X)) as [lon|] eqn:TX; try discriminate.
  destruct (take Y (all_or (wanted i i_lat) Y)) as [lat|] eqn:TY; try discriminate.
  match type of H with match ?z with _ => _ end = _ => set (zread := z) in H; destruct zread as [[dep iz]|] eqn:EZ; try discriminate end.
  destruct ((1 <? List.length dfs) && match d_time d with None => true | Some _ => false end) eqn:EM; try discriminate.
  assert (ONE : d_time d = None -> List.length dfs <= 1).
  { intro K. rewrite K, andb_true_r in EM. now apply Nat.ltb_ge in EM. }
  set (fl := match n_mesh n with Some b => b | None => a_flat a end) in H.
  assert (ZS : match d_depth d with
               | None => dep = [0%Q]
               | Some z => exists zf more', own_files w (a_files a) var DDepth = Some (zf :: more') /\ line_of w zf z (wanted i i_depth) dep
               end /\ List.length iz = List.length dep /\
               (forall k, k < List.length dep -> nth k iz 0 = match d_depth d with None => 0 | Some _ => place (wanted i i_depth) k end)).
  { subst zread. clear H. destruct (d_depth d) as [z|].
    - destruct (own_files w (a_files a) var DDepth) as [[|zf zmore]|] eqn:Ez; try discriminate.
      destruct (match p with PerDim _ => _ | Same _ => _ end); try discriminate.
      destruct (w_file w zf) as [m|] eqn:Em; try discriminate. destruct (n_line m z) as [L|] eqn:EL; try discriminate.
      rewrite (WL i_depth) in EZ by reflexivity.
      destruct (take L _) as [l|] eqn:TL; try discriminate. cbn in EZ. injection EZ as <- <-. repeat split.
      + exists zf, zmore. split; [reflexivity|]. eapply take_line; eauto.
      + now apply (all_or_length _ _ l).
      + intros k K. eapply all_or_place; eauto.
    - injection EZ as <- <-. repeat split. intros [|k] K; cbn in *; [reflexivity|lia]. }
  destruct ZS as (Z1 & Z2 & Z3).
  assert (C : coords_at w a var lon lat dep fl).
  { exists d, i, lf, lmore, n. cbn. repeat split; auto.
    - eapply take_line; eauto.
    - eapply take_line; eauto. }
  clear EZ zread.
  assert (G : exists g dff,
     match sh with None => match collect w d dfs with Some (t, o, sl, df0) => Some (Grid lon lat dep fl o t sl, df0) | None => None end
       | Some g0 => match df with Some df0 => Some (g0, df0) | None => match collect w d dfs with Some (_, _, _, df0) => Some (g0, df0) | None => None end end end = Some (g, dff) /\
     match units (g_flat g) var ft with
     | Some u => if (List.length (g_time g) <=? 2) || negb (a_deferred a)
         then match load w name (all_or (wanted i i_lon) X, all_or (wanted i i_lat) Y, iz) (g_slices g) dfs with
              | Some fr => if List.length fr =? List.length (g_time g) then Some (Field g dff (Loaded fr) name d (all_or (wanted i i_lon) X, all_or (wanted i i_lat) Y, iz) u) else None
              | None => None end
         else Some (Field g dff Deferred name d (all_or (wanted i i_lon) X, all_or (wanted i i_lat) Y, iz) u)
     | None => None end = Some f).
  { destruct sh as [g0|]; [destruct df as [df0|]|].
    - exists g0, df0. split; [reflexivity|exact H].
    - destruct (collect w d dfs) as [[[[t o] sl] df0]|]; try discriminate. exists g0, df0. split; [reflexivity|exact H].
    - destruct (collect w d dfs) as [[[[t o] sl] df0]|]; try discriminate. eexists _, df0. split; [reflexivity|exact H]. }
  clear H. destruct G as (g & dff & G & H).
  assert (S : (exists tss, Forall2 (dates_in w d) dfs tss /\ increasing (List.concat tss) = true /\ dff = spread dfs tss) /\
              match sh with Some g0 => g = g0
              | None => g_lon g = lon /\ g_lat g = lat /\ g_depth g = dep /\ g_flat g = fl /\ times_ok w a var g end).
  { destruct sh as [g0|]; [destruct df as [df0|]|].
    - injection G as <- <-. split; [|reflexivity]. exact (DF _ eq_refl _ eq_refl).
    - destruct (collect w d dfs) as [[[[t o] sl] df0]|] eqn:EC; try discriminate. injection G as <- <-. apply collect_spec in EC.
      destruct EC as (C1 & C2 & C3 & C4). split; [|reflexivity]. now exists sl.
    - destruct (collect w d dfs) as [[[[t o] sl] df0]|] eqn:EC; try discriminate. injection G as <- <-. apply collect_spec in EC.
      destruct EC as (C1 & C2 & C3 & C4). split; [now exists sl|]. repeat split. exists dfs, sl. cbn. repeat split; auto. exists d. auto. }
  destruct S as ((tss & S1 & S2 & S3) & S4). clear G.
  destruct (units (g_flat g) var ft) as [u|] eqn:EU; try discriminate.
  assert (F : f_grid f = g /\ f_units f = u /\ f_files f = dff /\ f_name f = name /\ f_dims f = d /\
              f_inds f = (all_or (wanted i i_lon) X, all_or (wanted i i_lat) Y, iz) /\
              match f_data f with
              | Loaded fr => load w name (all_or (wanted i i_lon) X, all_or (wanted i i_lat) Y, iz) (g_slices g) dfs = Some fr /\ List.length fr = List.length (g_time g) /\ (List.length (g_time g) <= 2 \/ a_deferred a = false)
              | Deferred => 2 < List.length (g_time g) /\ a_deferred a = true
              end).
  { destruct ((List.length (g_time g) <=? 2) || negb (a_deferred a)) eqn:EB.
    - destruct (load _ _ _ _ _) as [fr|] eqn:EL; try discriminate. destruct (List.length fr =? _) eqn:EN; try discriminate.
      injection H as <-. cbn. apply Nat.eqb_eq in EN. repeat split; auto.
      apply orb_true_iff in EB. destruct EB as [B|B]; [left; now apply Nat.leb_le|right; now apply negb_true_iff].
    - injection H as <-. cbn. apply orb_false_iff in EB. destruct EB as [B1 B2]. apply Nat.leb_gt in B1. apply negb_false_iff in B2. repeat split; auto. }
  destruct F as (F1 & F2 & F3 & F4 & F5 & F6 & F7). split; [now rewrite F1, F2, EU|].
  exists lon, lat, dep, fl. split; [exact C|]. split.
  - exists d, i, dfs, tss, (all_or (wanted i i_lon) X), (all_or (wanted i i_lat) Y), iz. rewrite F1. repeat split; auto.
    + congruence.
    + intros k K. eapply all_or_place; eauto.
    + intros k K. eapply all_or_place; eauto.
  - rewrite F1. exact S4.
Qed.
