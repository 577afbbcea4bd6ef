(** Lemmas on reading several variables. *)
From Coq Require Import List Arith Bool ZArith QArith String Lia.
From Verif Require Import UnitModel TogModel TogSpec TogProofs.
Import ListNotations.
Open Scope nat_scope.

(** ** Frames *)
Lemma nth_concat {A B} (L : list (list A)) (T : list (list B)) m l k :
  Forall2 (fun x y => List.length x = List.length y) L T -> nth_error L m = Some l -> k < List.length l ->
  nth_error (List.concat L) (List.length (List.concat (firstn m T)) + k) = nth_error l k.
Proof.
  intro H. revert m. induction H as [|x y L T E H IH]; intros m M K.
  - destruct m; discriminate.
  - destruct m as [|m]; cbn in *.
    + injection M as ->. now rewrite nth_error_app1.
    + rewrite app_length, <- E, <- Nat.add_assoc, nth_error_app2 by lia. replace (List.length x + (List.length (List.concat (firstn m T)) + k) - List.length x) with (List.length (List.concat (firstn m T)) + k) by lia. now apply IH.
Qed.
Lemma Forall2_nth {A B} (P : A -> B -> Prop) l r m a b : Forall2 P l r -> nth_error l m = Some a -> nth_error r m = Some b -> P a b.
Proof. intro H. revert m. induction H; intros [|m]; cbn; try discriminate; intros; try congruence. eauto. Qed.
Lemma Forall2_nth_l {A B} (P : A -> B -> Prop) l r m b : Forall2 P l r -> nth_error r m = Some b -> exists a, nth_error l m = Some a.
Proof. intro H. revert m. induction H; intros [|m]; cbn; try discriminate; intros; eauto. Qed.
Lemma Forall2_nth_r {A B} (P : A -> B -> Prop) l r m a : Forall2 P l r -> nth_error l m = Some a -> exists b, nth_error r m = Some b.
Proof. intro H. revert m. induction H; intros [|m]; cbn; try discriminate; intros; eauto. Qed.
Lemma same_lengths {A} (l : list (list A)) : Forall2 (fun x y => List.length x = List.length y) l l.
Proof. induction l; constructor; auto. Qed.

Lemma increasing_lt a r x : increasing (a :: r) = true -> In x r -> (a < x)%Z.
Proof.
  revert a. induction r as [|b r IH]; intros a H K; [destruct K|].
  change ((a <? b)%Z && increasing (b :: r) = true) in H. apply andb_true_iff in H. destruct H as [H1 H2]. apply Z.ltb_lt in H1.
  destruct K as [->|K]; [exact H1|]. specialize (IH _ H2 K). lia.
Qed.
Lemma increasing_tl a r : increasing (a :: r) = true -> increasing r = true.
Proof. destruct r as [|b r]; [reflexivity|]. intro H. change ((a <? b)%Z && increasing (b :: r) = true) in H. now apply andb_true_iff in H. Qed.
Lemma increasing_app l r : increasing (l ++ r) = true -> increasing l = true /\ increasing r = true.
Proof.
  induction l as [|a l IH]; intro H; [auto|]. pose proof (increasing_tl _ _ H) as T. destruct (IH T) as [A B]. split; [|exact B].
  destruct l as [|b l]; [reflexivity|]. change ((a <? b)%Z && increasing (b :: l ++ r) = true) in H.
  change ((a <? b)%Z && increasing (b :: l) = true). apply andb_true_iff in H. destruct H as [-> _]. exact A.
Qed.
Lemma increasing_nth tss m ts : increasing (List.concat tss) = true -> nth_error tss m = Some ts -> increasing ts = true.
Proof.
  revert m. induction tss as [|x r IH]; intros [|m] H E; try discriminate; cbn in *; apply increasing_app in H; destruct H as [H1 H2].
  - congruence.
  - eauto.
Qed.
Lemma first_after_nth l k t k0 : increasing l = true -> nth_error l k = Some t ->
  first_after l t k0 = if S k <? List.length l then Some (k0 + S k) else None.
Proof.
  revert k k0. induction l as [|a l IH]; intros [|k] k0 H E; try discriminate.
  - injection E as ->. cbn [first_after]. rewrite Z.ltb_irrefl. destruct l as [|b l]; [reflexivity|].
    cbn [first_after]. assert (L : (t < b)%Z) by (eapply increasing_lt; [exact H|now left]). apply Z.ltb_lt in L. rewrite L.
    cbn. f_equal. lia.
  - cbn [nth_error] in E. cbn [first_after]. assert (L : (a < t)%Z) by (eapply increasing_lt; [exact H|eapply nth_error_In; eauto]).
    assert ((t <? a)%Z = false) as -> by (apply Z.ltb_ge; lia). rewrite (IH k (S k0)); [|eapply increasing_tl; eauto|exact E].
    change (S (S k) <? List.length (a :: l)) with (S k <? List.length l). destruct (S k <? List.length l); [f_equal; lia|reflexivity].
Qed.
Lemma time_index_nth l k t : increasing l = true -> nth_error l k = Some t -> time_index l t = k.
Proof.
  intros H E. unfold time_index. rewrite (first_after_nth l k t 0 H E). pose proof (proj1 (nth_error_Some l k) ltac:(congruence)).
  destruct (S k <? List.length l) eqn:L; cbn; [reflexivity|]. apply Nat.ltb_ge in L. lia.
Qed.

Lemma spread_nth w d fs tss m fn ts k : Forall2 (dates_in w d) fs tss -> nth_error fs m = Some fn -> nth_error tss m = Some ts -> k < List.length ts ->
  nth_error (spread fs tss) (List.length (List.concat (firstn m tss)) + k) = Some fn.
Proof.
  intros F A B K. unfold spread.
  assert (L : Forall2 (fun x y => List.length x = List.length y) (map (fun p : string * list Z => repeat (fst p) (List.length (snd p))) (combine fs tss)) tss).
  { clear -F. induction F; cbn; constructor; auto. now rewrite repeat_length. }
  rewrite (nth_concat _ tss m (repeat fn (List.length ts)) k L).
  - assert (R : forall n, k < n -> nth_error (repeat fn n) k = Some fn).
    { clear. revert k. induction k; intros [|n] H; cbn; try lia; auto. apply IHk. lia. }
    now apply R.
  - clear -F A B. revert m A B. induction F; intros [|m] A B; try discriminate; cbn in *.
    + now injection A as ->; injection B as ->.
    + now apply IHF.
  - now rewrite repeat_length.
Qed.

Lemma load_frames w name ks fs tss fr d :
  aligned w -> Forall2 (dates_in w d) fs tss -> (d_time d = None -> List.length fs <= 1) ->
  load w name ks tss fs = Some fr -> List.length fr = List.length (List.concat tss) ->
  forall m k fn ts n v, nth_error fs m = Some fn -> nth_error tss m = Some ts -> k < List.length ts ->
    w_file w fn = Some n -> n_var n name = Some v ->
    exists x, nth_error (v_frames v) k = Some x /\ nth_error fr (List.length (List.concat (firstn m tss)) + k) = Some (pick ks (v_levels v) x).
Proof.
  intros AL F ONE H LEN m k fn ts n v A B K En Ev. unfold load in H.
  destruct (sequence _) as [L|] eqn:E; try discriminate. cbn in H. injection H as <-. apply sequence_Forall2 in E.
  assert (E' : Forall2 (fun p l => load_file w name ks (fst p) (snd p) = Some l) (combine tss fs) L).
  { remember (combine tss fs) as c eqn:Ec. clear -E. revert L E. induction c; intros L E; inversion E; subst; constructor; auto. }
  clear E.
  assert (LF : forall ts0 fn0 l n0 v0, load_file w name ks ts0 fn0 = Some l -> w_file w fn0 = Some n0 -> n_var n0 name = Some v0 -> l = map (pick ks (v_levels v0)) (v_frames v0)).
  { intros ts0 fn0 l n0 v0 Q1 Q2 Q3. unfold load_file in Q1. rewrite Q2, Q3 in Q1. destruct (v_levels v0); [congruence|].
    destruct (1 <? _); try discriminate. destruct (_ =? _) in Q1; congruence. }
  assert (CN : nth_error (combine tss fs) m = Some (ts, fn)).
  { clear -A B. revert fs tss A B. induction m; intros [|f fs] [|t tss] A B; try discriminate; cbn in *; [congruence|]. now apply IHm. }
  destruct (Forall2_nth_r _ _ _ _ _ E' CN) as [l El]. pose proof (Forall2_nth _ _ _ _ _ _ E' CN El) as Q. cbn in Q.
  pose proof (LF _ _ _ _ _ Q En Ev) as ->.
  assert (SL : Forall2 (fun x y => List.length x = List.length y) L tss).
  { destruct (d_time d) as [t|] eqn:Et.
    - clear LEN CN A B Q El ONE. revert L E'. induction F as [|f0 t0 fs tss D F IH]; cbn; intros L E'.
      + inversion E'. constructor.
      + inversion E' as [|? y ? L' Q1 Q2]; subst. constructor; [|now apply IH].
        destruct D as (n0 & D1 & D2). rewrite Et in D2. cbn in Q1. destruct (n_var n0 name) as [v0|] eqn:Ev0.
        * rewrite (LF _ _ _ _ _ Q1 D1 Ev0), map_length. exact (AL _ _ _ _ _ _ D1 D2 Ev0).
        * unfold load_file in Q1. rewrite D1, Ev0 in Q1. discriminate.
    - specialize (ONE eq_refl). destruct fs as [|f0 [|f1 fs]]; cbn in ONE; try lia.
      + inversion F; subst. inversion E'; subst. constructor.
      + inversion F as [|? t0 ? ? D F']; subst. inversion F'; subst. cbn in E'. inversion E' as [|? l0 ? ? Q1 Q2]; subst. inversion Q2; subst.
        constructor; [|constructor]. cbn in LEN. rewrite !app_nil_r in LEN. exact LEN. }
  assert (KL : k < List.length (map (pick ks (v_levels v)) (v_frames v))) by (rewrite (Forall2_nth _ _ _ _ _ _ SL El B); exact K).
  rewrite (nth_concat L tss m _ k SL El KL). rewrite map_length in KL. destruct (nth_error (v_frames v) k) as [x|] eqn:Ex.
  - exists x. split; [reflexivity|]. rewrite nth_error_map, Ex. reflexivity.
  - apply nth_error_None in Ex. lia.
Qed.

(** Dates of the frames. *)
Lemma dates_of f tss : map (fun x => (g_origin (f_grid f) + x)%Z) (g_time (f_grid f)) = List.concat tss -> forall j, date_of f j = nth_error (List.concat tss) j.
Proof. intros H j. unfold date_of. rewrite <- H, nth_error_map. reflexivity. Qed.

Lemma frames_ok w a var name f :
  aligned w ->
  read_spec w a var name f (List.length (g_depth (f_grid f))) (List.length (g_lat (f_grid f))) (List.length (g_lon (f_grid f))) ->
  (exists fs tss, own_dates w a var fs tss /\ map (fun x => (g_origin (f_grid f) + x)%Z) (g_time (f_grid f)) = List.concat tss /\
     (g_slices (f_grid f) = tss \/ f_data f = Deferred)) ->
  own_frames w a var name f.
Proof.
  intros AL (d & i & fs & tss & il & ia & iz & Hd & Hi & Hf & HT & HI & Hdf & Hn & Hdd & Hin & Hz & H1 & Pz & Py & Px & HD) (fs' & tss' & (d' & D1 & D2 & D3) & T2 & T3).
  rewrite Hd in D1. injection D1 as <-. rewrite Hf in D2. injection D2 as <-. pose proof (dates_fun2 _ _ _ _ _ HT D3) as <-.
  exists fs, tss, d, i. repeat split; auto.
  - now exists d.
  - now apply dates_of.
  - intros m k fn ts n v A B K En Ev LV.
    assert (PV : forall x, forall z y0 x0, z < List.length (g_depth (f_grid f)) -> y0 < List.length (g_lat (f_grid f)) -> x0 < List.length (g_lon (f_grid f)) ->
              pick (il, ia, iz) (v_levels v) x z y0 x0 = own_value d i (v_levels v) x z y0 x0).
    { intros x z y0 x0 Z1 Z2 Z3. unfold pick, own_value. rewrite Py, Px by assumption. destruct (v_levels v); [now rewrite Pz|reflexivity]. }
    destruct (f_data f) as [fr|] eqn:Efd.
    + destruct HD as (L1 & L2 & _). destruct T3 as [T3|T3]; [|discriminate]. rewrite T3 in L1.
      assert (LEN : List.length fr = List.length (List.concat tss)) by (rewrite L2, <- T2, map_length; reflexivity).
      destruct (load_frames _ _ _ _ _ _ _ AL HT H1 L1 LEN _ _ _ _ _ _ A B K En Ev) as (x & X1 & X2).
      exists x, (pick (il, ia, iz) (v_levels v) x). split; [exact X1|]. split; [unfold frame_of; now rewrite Efd|]. apply PV.
    + destruct HD as (L1 & _). destruct (nth_error ts k) as [t|] eqn:Et; [|apply nth_error_None in Et; lia].
      pose proof (Forall2_nth _ _ _ _ _ _ HT A B) as DI. pose proof (increasing_nth _ _ _ HI B) as INC.
      assert (FR : List.length (v_frames v) = List.length ts).
      { destruct DI as (n0 & N1 & N2). rewrite En in N1. injection N1 as <-. destruct (d_time d) as [tn|] eqn:Etn; [eapply AL; eauto|].
        exfalso. specialize (H1 eq_refl). rewrite <- (map_length (fun x => (g_origin (f_grid f) + x)%Z)), T2 in L1.
        destruct fs as [|f0 [|f1 fs]]; cbn in H1; try lia; inversion HT as [|? t0 ? ? Q1 Q2]; subst.
        - cbn in L1. lia.
        - inversion Q2; subst. destruct Q1 as (n1 & _ & Q1). rewrite Etn in Q1. subst. cbn in L1. lia. }
      destruct (nth_error (v_frames v) k) as [x|] eqn:Ex; [|apply nth_error_None in Ex; lia].
      exists x, (pick (il, ia, iz) (v_levels v) x). split; [reflexivity|]. split; [|apply PV].
      unfold frame_of. rewrite Efd, Hdf, (spread_nth _ _ _ _ _ _ _ _ HT A B K).
      rewrite (dates_of _ _ T2), (nth_concat tss tss m ts k (same_lengths tss) B K), Et, En.
      rewrite Hdd. rewrite (proj2 (file_times_spec w d fn ts) DI). rewrite Hn, Ev, Hin. cbn [snd].
      assert (v_levels v || (List.length iz <=? 1) = true) as ->.
      { destruct (v_levels v); [reflexivity|]. cbn. apply Nat.leb_le. rewrite Hz. now apply LV. }
      rewrite (time_index_nth _ _ _ INC Et), Ex. reflexivity.
Qed.

(** ** Coordinates *)
Lemma line_fun w f name o L L' : line_of w f name o L -> line_of w f name o L' -> L = L'.
Proof.
  intros (n & X & A & B & C) (n' & X' & A' & B' & C'). rewrite A in A'. injection A' as <-. rewrite B in B'. injection B' as <-.
  destruct o as [ks|]; [|congruence]. destruct C as [C1 C2]. destruct C' as [C1' C2'].
  apply nth_ext with (d := 0%Q) (d' := 0%Q); [congruence|]. intros k K. rewrite C1 in K.
  destruct (nth_error ks k) as [i|] eqn:E; [|apply nth_error_None in E; lia].
  destruct (C2 _ _ E) as [Q1 _]. destruct (C2' _ _ E) as [Q2 _].
  rewrite (nth_error_nth' L 0%Q) in Q1 by lia. rewrite (nth_error_nth' L' 0%Q) in Q2 by lia. congruence.
Qed.
Lemma coords_fun w a var g g' : own_coords w a var g -> own_coords w a var g' ->
  g_lon g = g_lon g' /\ g_lat g = g_lat g' /\ g_depth g = g_depth g' /\ g_flat g = g_flat g'.
Proof.
  intros (d & i & f & more & n & A1 & A2 & A3 & A4 & A5 & A6 & A7 & A8) (d' & i' & f' & more' & n' & B1 & B2 & B3 & B4 & B5 & B6 & B7 & B8).
  rewrite A1 in B1. injection B1 as <-. rewrite A2 in B2. injection B2 as <-. rewrite A3 in B3. injection B3 as <- <-.
  rewrite A7 in B7. injection B7 as <-. repeat split.
  - eapply line_fun; eauto.
  - eapply line_fun; eauto.
  - destruct (d_depth d) as [z|]; [|congruence]. destruct A6 as (zf & m & Z1 & Z2). destruct B6 as (zf' & m' & Z1' & Z2').
    rewrite Z1 in Z1'. injection Z1' as <- <-. eapply line_fun; eauto.
  - congruence.
Qed.

(** ** Sharing *)
Lemma dict_eqb_find a b k : dict_eqb a b = true -> find_dim k a = find_dim k b.
Proof.
  intro H. unfold dict_eqb in H. rewrite forallb_forall in H. assert (I : In k [DLon; DLat; DDepth; DData]) by (destruct k; cbn; auto).
  specialize (H k I). cbn in H. destruct (opt_pat_eq (find_dim k a) (find_dim k b)); congruence.
Qed.
Lemma paths_given m pv v pp p k : find pv m = Some pp -> find v m = Some p -> paths_eqb pp p = true -> given (Vars m) pv k = given (Vars m) v k.
Proof.
  intros A B H. cbn. rewrite A, B. destruct pp as [q|d], p as [q'|d']; cbn in H; try discriminate.
  - destruct (pat_eq q q'); congruence.
  - now apply dict_eqb_find.
Qed.
Lemma same_paths_files w fn pv v k : same_paths fn pv v = true -> (match fn with Dims _ => False | _ => True end) -> own_files w fn pv k = own_files w fn v k.
Proof.
  unfold own_files. destruct fn as [p|d|m]; intros H D; [reflexivity|destruct D|]. f_equal. cbn in H.
  destruct (find pv m) eqn:A; try discriminate. destruct (find v m) eqn:B; try discriminate. eapply paths_given; eauto.
Qed.
Lemma same_files_spec d a b : same_files (All d) a b = Some true ->
  find_dim DLon a = find_dim DLon b /\ (d_depth d <> None -> find_dim DDepth a = find_dim DDepth b).
Proof.
  unfold same_files. destruct (d_depth d); cbn; intro H;
  repeat match type of H with
         | context [find_dim ?k ?l] => destruct (find_dim k l); try discriminate H
         end;
  repeat match type of H with
         | context [pat_eq ?x ?y] => destruct (pat_eq x y); try discriminate H
         end; split; congruence.
Qed.
Lemma same_grid_files w a fn pv v d :
  alike w (a_files a) fn -> uniform a -> of_var (a_dims a) v = Some d -> same_grid fn (a_dims a) pv v = Some true ->
  own_files w (a_files a) pv DLon = own_files w (a_files a) v DLon /\
  (d_depth d <> None -> own_files w (a_files a) pv DDepth = own_files w (a_files a) v DDepth).
Proof.
  intros (A1 & A2 & A3) U D H. rewrite <- !A1. unfold same_grid in H. destruct fn as [p|e|m]; try discriminate; [split; reflexivity|].
  destruct (find pv m) as [pp|] eqn:F1; try discriminate. destruct (find v m) as [p|] eqn:F2; try discriminate.
  destruct (paths_eqb pp p) eqn:E.
  - split; intros; unfold own_files; f_equal; eapply paths_given; eauto.
  - assert (PD : forall x, pp = PerDim x -> exists d0, a_dims a = All d0).
    { intros x ->. destruct U as [U|U]; [exact U|]. exfalso. apply (U pv). apply shape_per_dim. rewrite <- A2. cbn. now rewrite F1. }
    destruct pp as [q|x]; try discriminate. destruct (PD x eq_refl) as [d0 E0]. rewrite E0 in H, D. cbn in D. injection D as ->.
    destruct p as [q|y]; try discriminate. apply same_files_spec in H. destruct H as [H1 H2].
    unfold own_files, given. rewrite F1, F2. split; [now rewrite H1|intro N; now rewrite (H2 N)].
Qed.
Lemma coords_move w a fn pv v d i g :
  alike w (a_files a) fn -> uniform a ->
  of_var (a_dims a) pv = Some d -> of_var (a_inds a) pv = Some i -> of_var (a_dims a) v = Some d -> of_var (a_inds a) v = Some i ->
  same_grid fn (a_dims a) pv v = Some true -> own_coords w a pv g -> own_coords w a v g.
Proof.
  intros AL U P1 P2 V1 V2 S (d' & i' & f & more & n & A1 & A2 & A3 & A4 & A5 & A6 & A7 & A8).
  rewrite P1 in A1. injection A1 as <-. rewrite P2 in A2. injection A2 as <-.
  destruct (same_grid_files _ _ _ _ _ _ AL U V1 S) as [L Z].
  exists d, i, f, more, n. rewrite <- L. repeat split; auto. destruct (d_depth d); [|exact A6]. rewrite <- Z by congruence. exact A6.
Qed.

Lemma search_ok (Pg : grid -> Prop) (Pf : list string -> Prop) fn a v d i done : forall g r df,
  (forall pv f, In (pv, f) done -> of_var (a_dims a) pv = Some d -> of_var (a_inds a) pv = Some i -> same_grid fn (a_dims a) pv v = Some true ->
     Pg (f_grid f) /\ (same_paths fn pv v = true -> Pf (f_files f))) ->
  (forall g0, g = Some g0 -> Pg g0) ->
  search fn a v d i done g = Some (r, df) -> (forall g0, r = Some g0 -> Pg g0) /\ (forall l, df = Some l -> Pf l).
Proof.
  induction done as [|[pv f] rest IH]; intros g r df H G E; cbn in E.
  - injection E as <- <-. split; [exact G|discriminate].
  - destruct (of_var (a_dims a) pv) as [pd|] eqn:E1; try discriminate. destruct (of_var (a_inds a) pv) as [pi|] eqn:E2; try discriminate.
    assert (H' : forall pv0 f0, In (pv0, f0) rest -> of_var (a_dims a) pv0 = Some d -> of_var (a_inds a) pv0 = Some i -> same_grid fn (a_dims a) pv0 v = Some true ->
       Pg (f_grid f0) /\ (same_paths fn pv0 v = true -> Pf (f_files f0))) by (intros; eapply H; eauto; now right).
    destruct (dimdict_eq pd d) as [->|]; [|eapply IH; eauto]. destruct (inds_eq pi i) as [->|]; [|eapply IH; eauto].
    destruct (same_grid fn (a_dims a) pv v) as [[|]|] eqn:E3; try discriminate; [|eapply IH; eauto].
    destruct (H pv f (or_introl eq_refl) E1 E2 E3) as [H1 H2].
    destruct (same_paths fn pv v) eqn:E4.
    + injection E as <- <-. split; [intros g0 K; now injection K as <-|intros l K; injection K as <-; now apply H2].
    + eapply IH; [exact H'| |exact E]. intros g0 K. now injection K as <-.
Qed.

(** ** All variables *)
Definition good (w : world) (a : args) (Tm : string -> grid -> Prop) (p : string * field) : Prop :=
  let '(v, f) := p in
  own_coords w a v (f_grid f) /\
  read_spec w a v (f_name f) f (List.length (g_depth (f_grid f))) (List.length (g_lat (f_grid f))) (List.length (g_lon (f_grid f))) /\
  Tm v (f_grid f).
Lemma read_vars_ok w a (Tm : string -> grid -> Prop) :
  uniform a ->
  (forall v g, times_ok w a v g -> Tm v g) ->
  forall vs, (forall v v' g fs tss, In v' (map fst vs) -> Tm v g -> own_dates w a v' fs tss -> Tm v' g) ->
  forall fn ft done r, alike w (a_files a) fn -> Forall (good w a Tm) done ->
  read_vars w a fn ft vs done = Some r ->
  Forall (good w a Tm) r /\ map (fun p => (fst p, f_name (snd p))) r = (map (fun p => (fst p, f_name (snd p))) done ++ vs)%list.
Proof.
  intros U T0 vs. induction vs as [|[var name] vs IH]; intros T1 fn ft done r AL G H; cbn in H.
  - injection H as <-. split; [exact G|]. now rewrite app_nil_r.
  - destruct (resolve w fn var) as [[p fn']|] eqn:E1; try discriminate.
    destruct (of_var (a_dims a) var) as [d|] eqn:E2; try discriminate. destruct (of_var (a_inds a) var) as [i|] eqn:E3; try discriminate.
    destruct (next_type ft var) as [ft'|]; try discriminate.
    destruct (search fn' a var d i done None) as [[g df]|] eqn:E4; try discriminate.
    destruct (read_field w p var name d i ft' (a_flat a) (a_deferred a) g df) as [f|] eqn:E5; try discriminate.
    apply resolve_ok in E1. destruct E1 as [R1 R2]. assert (AL' : alike w (a_files a) fn') by (eapply alike_trans; eauto).
    assert (P : forall k, dim_files p k = own_files w (a_files a) var k) by (intro k; rewrite R1; destruct AL as [AL _]; apply AL).
    pose (Pg g := own_coords w a var g /\ forall fs tss, own_dates w a var fs tss -> Tm var g).
    pose (Pf l := forall fs, own_files w (a_files a) var DData = Some fs -> exists tss, Forall2 (dates_in w d) fs tss /\ increasing (List.concat tss) = true /\ l = spread fs tss).
    assert (S : (forall g0, g = Some g0 -> Pg g0) /\ (forall l, df = Some l -> Pf l)).
    { eapply (search_ok Pg Pf); [| |exact E4]; [|discriminate]. intros pv f0 I D1 D2 SG. rewrite Forall_forall in G. destruct (G _ I) as (G1 & G2 & G3).
      split; [split|].
      - eapply coords_move; eauto.
      - intros fs tss OD. eapply T1; eauto. now left.
      - intros SP fs OF. destruct G2 as (d1 & i1 & fs1 & tss1 & il & ia & iz & Q1 & Q2 & Q3 & Q4 & Q5 & Q6 & _).
        rewrite D1 in Q1. injection Q1 as <-. exists tss1.
        assert (own_files w (a_files a) pv DData = own_files w (a_files a) var DData) as EQ.
        { destruct AL' as (A1 & _ & A3). rewrite <- !A1. apply same_paths_files; [exact SP|]. destruct fn'; auto. cbn in SG. discriminate. }
        rewrite EQ, OF in Q3. injection Q3 as <-. auto. }
    destruct S as [S1 S2].
    assert (DF : forall fs, own_files w (a_files a) var DData = Some fs -> dfiles_ok w d fs df).
    { intros fs OF df0 K. exact (S2 _ K _ OF). }
    destruct (read_field_ok _ _ _ _ _ _ _ _ _ _ _ P E2 E3 DF E5) as (_ & lon & lat & dep & fl & C & RS & SH).
    assert (GD : good w a Tm (var, f)).
    { assert (NM : f_name f = name) by (destruct RS as (? & ? & ? & ? & ? & ? & ? & ? & ? & ? & ? & ? & ? & ? & _); assumption).
      assert (OD : exists fs tss, own_dates w a var fs tss).
      { destruct RS as (d1 & i1 & fs1 & tss1 & il & ia & iz & Q1 & Q2 & Q3 & Q4 & _). exists fs1, tss1, d1. auto. }
      assert (OC : own_coords w a var (f_grid f) /\ Tm var (f_grid f)).
      { destruct g as [g0|].
        - rewrite SH. destruct (S1 _ eq_refl) as [Q1 Q2]. destruct OD as (fs & tss & OD). split; [exact Q1|exact (Q2 _ _ OD)].
        - destruct SH as (L1 & L2 & L3 & L4 & L5). split; [|now apply T0].
          destruct C as (d1 & i1 & f1 & m1 & n1 & C1). exists d1, i1, f1, m1, n1. rewrite L1, L2, L3, L4. exact C1. }
      destruct OC as [OC1 OC2]. split; [exact OC1|]. split; [|exact OC2]. rewrite NM.
      destruct (coords_fun _ _ _ _ _ OC1 C) as (-> & -> & -> & _). exact RS. }
    assert (NM : f_name f = name) by (destruct RS as (? & ? & ? & ? & ? & ? & ? & ? & ? & ? & ? & ? & ? & ? & _); assumption).
    destruct (IH (fun v v' g0 fs tss I => T1 v v' g0 fs tss (or_intror I)) fn' ft' (done ++ [(var, f)])%list r AL') as [I1 I2]; auto.
    + apply Forall_app. split; auto.
    + split; [exact I1|]. rewrite I2, map_app, <- app_assoc. cbn. now rewrite NM.
Qed.

(** ** Units *)
Lemma read_field_units w p var name d i ft fl de sh df f :
  read_field w p var name d i ft fl de sh df = Some f -> units (g_flat (f_grid f)) var ft = Some (f_units f).
Proof.
  unfold read_field. cbv zeta. intro H.
  destruct (dim_files p DData); try discriminate. destruct (dim_files p DLon) as [lons|]; try discriminate. destruct (dim_files p DLat); try discriminate.
  destruct (match p with PerDim _ => _ | Same _ => _ end); try discriminate.
  destruct (list_eq_dec string_dec _ _); try discriminate. destruct lons; try discriminate.
  destruct (w_file w s); try discriminate. destruct (n_line n (d_lon d)); try discriminate. destruct (n_line n (d_lat d)); try discriminate.
  destruct (take _ _); try discriminate. destruct (take _ _); try discriminate.
  match type of H with match ?z with _ => _ end = _ => destruct z as [[dep iz]|]; try discriminate end.
  destruct (_ && _); try discriminate.
  match type of H with match ?z with _ => _ end = _ => destruct z as [[g df']|]; try discriminate end.
  destruct (units (g_flat g) var ft) as [u|] eqn:E; try discriminate.
  destruct (_ || _).
  - destruct (load _ _ _ _ _); try discriminate. destruct (_ =? _); try discriminate. injection H as <-. exact E.
  - injection H as <-. exact E.
Qed.
Lemma units_own ft fl var u : units fl var ft = Some u -> (forall l, ft <> FDict l) -> u = own_units ft fl var.
Proof.
  unfold units, own_units. destruct fl; [congruence|]. destruct ft; intros H N; try congruence; unfold converter_of in H; congruence.
Qed.
Lemma read_vars_prefix w a vs : forall fn ft done r, read_vars w a fn ft vs done = Some r -> exists r', r = (done ++ r')%list.
Proof.
  induction vs as [|[var name] vs IH]; intros fn ft done r H; cbn in H.
  - injection H as <-. exists []. now rewrite app_nil_r.
  - destruct (resolve w fn var) as [[p fn']|]; try discriminate. destruct (of_var (a_dims a) var); try discriminate.
    destruct (of_var (a_inds a) var); try discriminate. destruct (next_type ft var); try discriminate.
    destruct (search _ _ _ _ _ _ _) as [[g df]|]; try discriminate. destruct (read_field _ _ _ _ _ _ _ _ _ _ _); try discriminate.
    apply IH in H. destruct H as [r' ->]. rewrite <- app_assoc. eexists. reflexivity.
Qed.
Lemma read_vars_units w a ft : (forall l, ft <> FDict l) -> forall vs fn done r,
  Forall (fun p => f_units (snd p) = own_units ft (g_flat (f_grid (snd p))) (fst p)) done ->
  read_vars w a fn ft vs done = Some r -> Forall (fun p => f_units (snd p) = own_units ft (g_flat (f_grid (snd p))) (fst p)) r.
Proof.
  intro N. induction vs as [|[var name] vs IH]; intros fn done r F H; cbn in H.
  - now injection H as <-.
  - destruct (resolve w fn var) as [[p fn']|]; try discriminate. destruct (of_var (a_dims a) var); try discriminate.
    destruct (of_var (a_inds a) var); try discriminate. destruct (next_type ft var) as [ft'|] eqn:E; try discriminate.
    assert (ft' = ft) as ->.
    { unfold next_type in E. destruct ft as [|s|l]; [congruence| |now destruct (N l)]. destruct s; [congruence|]. destruct (index _ _ _); congruence. }
    destruct (search _ _ _ _ _ _ _) as [[g df]|]; try discriminate. destruct (read_field _ _ _ _ _ _ _ _ _ _ _) as [f|] eqn:E2; try discriminate.
    eapply IH; [|exact H]. apply Forall_app. split; [exact F|]. constructor; [|constructor]. cbn. apply units_own; [|exact N]. eapply read_field_units; eauto.
Qed.
Lemma units_first fl var ft ft' u : next_type ft var = Some ft' -> units fl var ft' = Some u -> u = own_units ft fl var.
Proof.
  intros N H. destruct ft as [|s|l].
  - cbn in N. injection N as <-. apply units_own; [exact H|discriminate].
  - assert (ft' = FStr s) as -> by (cbn in N; destruct s; [congruence|]; destruct (index _ _ _); congruence). apply units_own; [exact H|discriminate].
  - cbn in N. unfold own_units. destruct fl; [cbn in H; congruence|]. destruct (find var l) as [[s|]|]; injection N as <-; cbn in H; try discriminate;
    unfold converter_of in H; congruence.
Qed.
