(** Reading variables together is reading each of them alone. *)
From Coq Require Import List Arith Bool ZArith QArith String Lia.
From Verif Require Import UnitModel TogModel TogSpec TogProofs TogProofs2.
Import ListNotations.
Open Scope nat_scope.

Lemma collect_times w d fs t o sl df : collect w d fs = Some (t, o, sl, df) ->
  hd_error (List.concat sl) = Some o /\ t = map (fun x => (x - o)%Z) (List.concat sl).
Proof.
  unfold collect. destruct (sequence _) as [tss|]; try discriminate. destruct (List.concat tss) as [|o' r] eqn:E; try discriminate.
  destruct (increasing _); try discriminate. intro H. injection H as <- <- <- <-. rewrite E. split; reflexivity.
Qed.

(** What reading alone computes, and that the grid and files it made can be given back. *)
Lemma read_alone w p var name d i ft fl de f :
  read_field w p var name d i ft fl de None None = Some f ->
  (exists dfs lon lat dep b t o sl df,
     dim_files p DData = Some dfs /\ collect w d dfs = Some (t, o, sl, df) /\ f_grid f = Grid lon lat dep b o t sl /\ f_files f = df) /\
  dim_files p DLon <> None /\ dim_files p DLat <> None /\ (d_depth d <> None -> dim_files p DDepth <> None) /\
  read_field w p var name d i ft fl de (Some (f_grid f)) None = Some f /\
  read_field w p var name d i ft fl de (Some (f_grid f)) (Some (f_files f)) = Some f /\
  (forall x, read_field w p var name d i ft fl de None x = Some f).
Proof.
  unfold read_field. cbv zeta. intro H.
  destruct (dim_files p DData) as [dfs|]; try discriminate. destruct (dim_files p DLon) as [lons|]; try discriminate. destruct (dim_files p DLat); try discriminate.
  destruct (match p with PerDim _ => _ | Same _ => _ end); try discriminate.
  destruct (list_eq_dec string_dec _ _); try discriminate. destruct lons; try discriminate.
  destruct (w_file w s) as [n|]; try discriminate. destruct (n_line n (d_lon d)); try discriminate. destruct (n_line n (d_lat d)); try discriminate.
  destruct (take _ _); try discriminate. destruct (take _ _); try discriminate.
  match type of H with match ?z with _ => _ end = _ => destruct z as [[dep iz]|] eqn:EZ; try discriminate end.
  assert (ZZ : d_depth d <> None -> dim_files p DDepth <> None).
  { clear H. intro N. destruct (d_depth d); [|congruence]. destruct (dim_files p DDepth); [congruence|discriminate]. }
  clear EZ. destruct (_ && _); try discriminate.
  destruct (collect w d dfs) as [[[[t o] sl] df]|] eqn:EC; try discriminate.
  match type of H with context [units (g_flat ?g) _ _] => set (g0 := g) in * end.
  assert (F : f_grid f = g0 /\ f_files f = df).
  { destruct (units _ _ _); try discriminate. destruct (_ || _).
    - destruct (load _ _ _ _ _); try discriminate. destruct (_ =? _); try discriminate. injection H as <-. split; reflexivity.
    - injection H as <-. split; reflexivity. }
  destruct F as [F1 F2]. rewrite F1, F2. split; [|repeat split; try discriminate; auto].
  exists dfs. do 4 eexists. exists t, o, sl, df. repeat split; auto.
Qed.

Lemma alone_inv w a v name f : from_netcdf w (only a (v, name)) = Some [(v, f)] ->
  exists p fn' d i ft', resolve w (a_files a) v = Some (p, fn') /\ of_var (a_dims a) v = Some d /\ of_var (a_inds a) v = Some i /\
    next_type (a_type a) v = Some ft' /\ read_field w p v name d i ft' (a_flat a) (a_deferred a) None None = Some f.
Proof.
  unfold from_netcdf, only. cbn [a_files a_type a_vars read_vars a_dims a_inds a_flat a_deferred]. intro H.
  destruct (resolve w (a_files a) v) as [[p fn']|]; try discriminate. destruct (of_var (a_dims a) v) as [d|]; try discriminate.
  destruct (of_var (a_inds a) v) as [i|]; try discriminate. destruct (next_type (a_type a) v) as [ft'|]; try discriminate. cbn [search] in H.
  destruct (read_field _ _ _ _ _ _ _ _ _ _ _) as [f'|] eqn:E; try discriminate. injection H as <-. exists p, fn', d, i, ft'. auto.
Qed.

(** The raw entry of a variable is untouched before its turn. *)
Definition entry (fn : filenames) (v : string) : option paths :=
  match fn with Plain p => Some (Same p) | Dims d => Some (PerDim d) | Vars m => find v m end.
Lemma resolve_entry w fn v p fn' x : resolve w fn v = Some (p, fn') -> x <> v -> match fn with Dims _ => False | _ => True end -> entry fn' x = entry fn x.
Proof.
  destruct fn as [q|d|m]; cbn; intros H N D.
  - destruct (parse w q); try discriminate. injection H as <- <-. reflexivity.
  - destruct D.
  - destruct (find v m) as [pp|] eqn:E; try discriminate. destruct (resolve_paths w pp) as [[r p']|]; try discriminate. injection H as <- <-. cbn.
    rewrite find_set_key by congruence. destruct (string_dec x v); congruence.
Qed.
Lemma resolve_same w fn fn0 v p fn0' : alike w fn0 fn -> entry fn v = entry fn0 v -> resolve w fn0 v = Some (p, fn0') -> exists fn', resolve w fn v = Some (p, fn').
Proof.
  intros (_ & _ & K) E H. destruct fn0 as [q|d|m], fn as [q'|d'|m']; try contradiction; cbn in *.
  - injection E as ->. destruct (parse w q); try discriminate. injection H as <- <-. eauto.
  - injection E as ->. destruct (parse_dims w d); try discriminate. injection H as <- <-. eauto.
  - rewrite E. destruct (find v m) as [pp|]; try discriminate. destruct (resolve_paths w pp) as [[r p']|]; try discriminate. injection H as <- <-. eauto.
Qed.

Lemma search_total fn a v d i done : forall g,
  (forall pv f, In (pv, f) done -> of_var (a_dims a) pv <> None /\ of_var (a_inds a) pv <> None /\
     (of_var (a_dims a) pv = Some d -> same_grid fn (a_dims a) pv v <> None)) ->
  exists r, search fn a v d i done g = Some r.
Proof.
  induction done as [|[pv f] rest IH]; intros g H; cbn; [eauto|].
  destruct (H pv f (or_introl eq_refl)) as (H1 & H2 & H3).
  assert (H' : forall pv0 f0, In (pv0, f0) rest -> of_var (a_dims a) pv0 <> None /\ of_var (a_inds a) pv0 <> None /\
     (of_var (a_dims a) pv0 = Some d -> same_grid fn (a_dims a) pv0 v <> None)) by (intros; eapply H; now right; eauto).
  destruct (of_var (a_dims a) pv) as [pd|]; [|congruence]. destruct (of_var (a_inds a) pv) as [pi|]; [|congruence].
  destruct (dimdict_eq pd d) as [->|]; [|now apply IH]. destruct (inds_eq pi i); [|now apply IH].
  destruct (same_grid fn (a_dims a) pv v) as [[|]|]; [|now apply IH|now destruct (H3 eq_refl)].
  destruct (same_paths fn pv v); [eauto|now apply IH].
Qed.

Definition needs (w : world) (a : args) (d : dimdict) (v : string) : Prop :=
  own_files w (a_files a) v DLon <> None /\ own_files w (a_files a) v DLat <> None /\ (d_depth d <> None -> own_files w (a_files a) v DDepth <> None).
Lemma own_find w m v x k : find v m = Some (PerDim x) -> own_files w (Vars m) v k <> None -> find_dim k x <> None.
Proof. unfold own_files, given. intros -> H E. rewrite E in H. now apply H. Qed.
Lemma same_files_total d a b : (forall k, In k [DLon; DLat] \/ (k = DDepth /\ d_depth d <> None) -> find_dim k a <> None /\ find_dim k b <> None) ->
  same_files (All d) a b <> None.
Proof.
  intro H. pose proof (H DLon (or_introl (or_introl eq_refl))) as [A1 A2]. pose proof (H DLat (or_introl (or_intror (or_introl eq_refl)))) as [B1 B2].
  unfold same_files. destruct (d_depth d) as [z|] eqn:E.
  - assert (N : Some z <> None) by discriminate. pose proof (H DDepth (or_intror (conj eq_refl N))) as [C1 C2]. cbn.
    destruct (find_dim DDepth a); [|congruence]. destruct (find_dim DDepth b); [|congruence].
    destruct (find_dim DLat a); [|congruence]. destruct (find_dim DLat b); [|congruence].
    destruct (find_dim DLon a); [|congruence]. destruct (find_dim DLon b); congruence.
  - cbn. destruct (find_dim DLat a); [|congruence]. destruct (find_dim DLat b); [|congruence].
    destruct (find_dim DLon a); [|congruence]. destruct (find_dim DLon b); congruence.
Qed.
Lemma same_grid_total w a fn pv v d :
  alike w (a_files a) fn -> regular a -> In pv (map fst (a_vars a)) -> In v (map fst (a_vars a)) ->
  of_var (a_dims a) v = Some d -> of_var (a_dims a) pv = Some d -> needs w a d pv -> needs w a d v -> same_grid fn (a_dims a) pv v <> None.
Proof.
  intros (A1 & A2 & A3) (R0 & R) I1 I2 D1 D2 N1 N2. unfold needs in *. rewrite <- !A1 in N1, N2.
  destruct fn as [p|x|m]; cbn; try discriminate.
  - destruct (a_files a); contradiction.
  - destruct N1 as (N11 & N12 & N13). destruct N2 as (N21 & N22 & N23).
    destruct (find pv m) as [pp|] eqn:F1; [|unfold own_files, given in N11; rewrite F1 in N11; cbn in N11; congruence].
    destruct (find v m) as [p|] eqn:F2; [|unfold own_files, given in N21; rewrite F2 in N21; cbn in N21; congruence].
    destruct (paths_eqb pp p); [discriminate|]. destruct R as [R|[(d0 & R1) R2]].
    + destruct pp as [q|x]; [discriminate|]. exfalso. apply (R pv). apply shape_per_dim. rewrite <- A2. cbn. now rewrite F1.
    + pose proof (R2 _ I1) as P1. pose proof (R2 _ I2) as P2. apply shape_per_dim in P1. apply shape_per_dim in P2. rewrite <- A2 in P1, P2.
      cbn in P1, P2. rewrite F1 in P1. rewrite F2 in P2. destruct pp as [q|x]; try discriminate. destruct p as [q|y]; try discriminate.
      rewrite R1 in *. cbn in D1. injection D1 as ->. apply same_files_total.
      assert (Z1 : forall k, own_files w (Vars m) pv k <> None -> find_dim k x <> None) by (intros k; eapply own_find; eauto).
      assert (Z2 : forall k, own_files w (Vars m) v k <> None -> find_dim k y <> None) by (intros k; eapply own_find; eauto).
      intros k [[<-|[<-|[]]]|[-> N]]; split; auto.
Qed.

(** A field that was read before, alone. *)
Definition settled (w : world) (a : args) (p : string * field) : Prop :=
  let '(v, f) := p in
  exists d i fs lon lat dep b t o sl,
    In v (map fst (a_vars a)) /\ of_var (a_dims a) v = Some d /\ of_var (a_inds a) v = Some i /\ needs w a d v /\
    own_coords w a v (f_grid f) /\ own_files w (a_files a) v DData = Some fs /\ collect w d fs = Some (t, o, sl, f_files f) /\
    f_grid f = Grid lon lat dep b o t sl.
Lemma same_dates_grid w a v v' f f' : same_dates w a ->
  settled w a (v, f) -> settled w a (v', f') -> own_coords w a v' (f_grid f) -> f_grid f = f_grid f'.
Proof.
  intros S (d & i & fs & lon & lat & dep & b & t & o & sl & I1 & D1 & D2 & N & C & OF & CO & G)
           (d' & i' & fs' & lon' & lat' & dep' & b' & t' & o' & sl' & I1' & D1' & D2' & N' & C' & OF' & CO' & G') OC.
  pose proof (coords_fun _ _ _ _ _ OC C') as (E1 & E2 & E3 & E4). rewrite G, G' in *. cbn in E1, E2, E3, E4. subst.
  pose proof (collect_times _ _ _ _ _ _ _ CO) as [T1 T2]. pose proof (collect_times _ _ _ _ _ _ _ CO') as [T1' T2'].
  apply collect_spec in CO. apply collect_spec in CO'. destruct CO as [F _]. destruct CO' as [F' _].
  assert (sl = sl') as -> by (eapply (S v v' fs fs'); [exists d; auto|exists d'; auto]).
  rewrite T1 in T1'. injection T1' as <-. subst. reflexivity.
Qed.

Lemma regular_uniform a : regular a -> uniform a.
Proof. intros [_ [R|[R _]]]; [now right|now left]. Qed.

Lemma read_vars_alone w a :
  regular a -> same_dates w a -> (forall l, a_type a <> FDict l) ->
  forall vs rs, NoDup (map fst vs) -> (forall v, In v (map fst vs) -> In v (map fst (a_vars a))) ->
  Forall2 (fun vn f => from_netcdf w (only a vn) = Some [(fst vn, f)]) vs rs ->
  forall fn done, alike w (a_files a) fn -> (forall v, In v (map fst vs) -> entry fn v = entry (a_files a) v) -> Forall (settled w a) done ->
  read_vars w a fn (a_type a) vs done = Some (done ++ combine (map fst vs) rs)%list.
Proof.
  intros R S T. induction vs as [|[var name] vs IH]; intros rs ND SUB F fn done AL EN G; inversion F as [|? f ? rs' A F']; subst; cbn.
  - now rewrite app_nil_r.
  - cbn [fst] in A. apply alone_inv in A. destruct A as (p & fn0 & d & i & ft' & A1 & A2 & A3 & A4 & A5).
    destruct (resolve_same w fn _ var p fn0 AL (EN var (or_introl eq_refl)) A1) as [fn' E1]. rewrite E1, A2, A3, A4.
    assert (ft' = a_type a) as ->.
    { unfold next_type in A4. destruct (a_type a) as [|s|l] eqn:ET; [congruence| |now destruct (T l)]. destruct s; [congruence|]. destruct (index _ _ _); congruence. }
    pose proof (resolve_ok _ _ _ _ _ E1) as [R1 R2]. assert (AL' : alike w (a_files a) fn') by (eapply alike_trans; eauto).
    assert (P : forall k, dim_files p k = own_files w (a_files a) var k) by (intro k; rewrite R1; destruct AL as [AL _]; apply AL).
    destruct (read_alone _ _ _ _ _ _ _ _ _ _ A5) as ((dfs & lon & lat & dep & b & t & o & sl & df & L1 & L2 & L3 & L4) & L5 & L6 & L7 & L8 & L9 & L10).
    rewrite P in L1, L5, L6, L7.
    assert (DFN : forall fs, own_files w (a_files a) var DData = Some fs -> dfiles_ok w d fs None) by (intros fs _ x K; discriminate).
    destruct (read_field_ok _ _ _ _ _ _ _ _ _ _ _ P A2 A3 DFN A5) as (_ & lon' & lat' & dep' & fl' & C & _ & (C1 & C2 & C3 & C4 & _)).
    assert (OC : own_coords w a var (f_grid f)).
    { destruct C as (d1 & i1 & f1 & m1 & n1 & C). exists d1, i1, f1, m1, n1. rewrite C1, C2, C3, C4. exact C. }
    assert (ST : settled w a (var, f)).
    { exists d, i, dfs, lon, lat, dep, b, t, o, sl. rewrite L4. repeat split; auto. apply SUB. now left. }
    assert (ND' : needs w a d var) by (split; [exact L5|split; [exact L6|exact L7]]).
    rewrite Forall_forall in G.
    destruct (search_total fn' a var d i done None) as [[g dff] E2].
    { intros pv fp I. destruct (G _ I) as (d1 & i1 & fs1 & lo1 & la1 & de1 & b1 & t1 & o1 & sl1 & I1 & D1 & D2 & N & _).
      rewrite D1, D2. repeat split; try discriminate. intro K. injection K as ->. eapply same_grid_total; eauto. apply SUB. now left. }
    rewrite E2.
    assert (SO : (forall g0, g = Some g0 -> g0 = f_grid f) /\ (forall l, dff = Some l -> l = f_files f)).
    { eapply (search_ok (fun g0 => g0 = f_grid f) (fun l => l = f_files f)); [| |exact E2]; [|discriminate]. intros pv fp I D1 D2 SG. split.
      - eapply same_dates_grid; [exact S|exact (G _ I)|exact ST|]. destruct (G _ I) as (? & ? & ? & ? & ? & ? & ? & ? & ? & ? & _ & _ & _ & _ & PC & _).
        eapply coords_move; eauto. now apply regular_uniform.
      - intro SP. destruct (G _ I) as (d1 & i1 & fs1 & lo1 & la1 & de1 & b1 & t1 & o1 & sl1 & I1 & D1' & D2' & N & PC & OF & CO & _).
        rewrite D1 in D1'. injection D1' as <-.
        assert (own_files w (a_files a) pv DData = own_files w (a_files a) var DData) as EQ.
        { destruct AL' as (B1 & _ & B3). rewrite <- !B1. apply same_paths_files; [exact SP|]. destruct fn'; auto. cbn in SG. discriminate. }
        rewrite EQ, L1 in OF. injection OF as <-. rewrite L2 in CO. congruence. }
    destruct SO as [SO1 SO2].
    assert (RF : read_field w p var name d i (a_type a) (a_flat a) (a_deferred a) g dff = Some f).
    { destruct g as [g0|]; [|apply L10]. rewrite (SO1 _ eq_refl). destruct dff as [l|]; [rewrite (SO2 _ eq_refl); exact L9|exact L8]. }
    rewrite RF. cbn in ND. inversion ND as [|? ? ND1 ND2]; subst.
    rewrite (IH rs' ND2 (fun v I => SUB v (or_intror I)) F' fn' (done ++ [(var, f)])%list AL').
    + now rewrite <- app_assoc.
    + intros v I. assert (VN : v <> var) by (intros ->; auto).
      assert (match fn with Dims _ => False | _ => True end) as DN.
      { destruct R as [R _]. destruct AL as (_ & _ & K). destruct (a_files a), fn; auto. }
      rewrite (resolve_entry _ _ _ _ _ _ E1 VN DN). apply EN. now right.
    + apply Forall_app. split; [now apply Forall_forall|]. constructor; [exact ST|constructor].
Qed.
