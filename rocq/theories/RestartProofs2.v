From Coq Require Import String List ZArith Bool Arith Lia ZifyBool Sorted.
From Verif Require Import CollModel OutModel OutSpec OutProofs RestartModel RestartSpec RestartProofs.
Import ListNotations.
Local Open Scope string_scope.
Local Open Scope list_scope.
Local Open Scope Z_scope.

Lemma sorted_unique : forall a b : list Z, StronglySorted Z.lt a -> StronglySorted Z.lt b -> (forall i, In i a <-> In i b) -> a = b.
Proof.
  induction a as [|x a IH]; intros [|y b] SA SB H.
  - reflexivity.
  - exfalso. apply (proj2 (H y)). left. reflexivity.
  - exfalso. apply (proj1 (H x)). left. reflexivity.
  - inversion SA as [|? ? SA1 FA]; inversion SB as [|? ? SB1 FB]; subst. rewrite Forall_forall in FA, FB.
    assert (x = y).
    { destruct (proj1 (H x) (or_introl eq_refl)) as [->|I1]; [reflexivity|]. destruct (proj2 (H y) (or_introl eq_refl)) as [->|I2]; [reflexivity|].
      specialize (FA _ I2). specialize (FB _ I1). lia. }
    subst y. f_equal. apply IH; try assumption. intros i. split; intros I.
    + destruct (proj1 (H i) (or_intror I)) as [->|J]; [specialize (FA _ I); lia|exact J].
    + destruct (proj2 (H i) (or_intror I)) as [->|J]; [specialize (FB _ I); lia|exact J].
Qed.
Lemma sorted_nodup : forall a : list Z, StronglySorted Z.lt a -> NoDup a.
Proof.
  induction a as [|x a IH]; intros SA; [constructor|]. inversion SA as [|? ? SA1 FA]; subst. rewrite Forall_forall in FA.
  constructor; [|auto]. intros I. specialize (FA _ I). lia.
Qed.

Lemma filter_flat_map : forall A B (P : B -> bool) (f : A -> list B) l, filter P (flat_map f l) = flat_map (fun a => filter P (f a)) l.
Proof. induction l as [|a l IH]; cbn; [reflexivity|]. rewrite filter_app, IH. reflexivity. Qed.
Lemma map_flat_map : forall A B C (g : B -> C) (f : A -> list B) l, map g (flat_map f l) = flat_map (fun a => map g (f a)) l.
Proof. induction l as [|a l IH]; cbn; [reflexivity|]. rewrite map_app, IH. reflexivity. Qed.
Lemma filter_filter : forall A (P Q : A -> bool) l, filter P (filter Q l) = filter (fun a => Q a && P a) l.
Proof. induction l as [|a l IH]; cbn; [reflexivity|]. destruct (Q a); cbn; [destruct (P a)|]; rewrite IH; reflexivity. Qed.
Lemma flat_map_map : forall A B C (f : B -> list C) (g : A -> B) l, flat_map f (map g l) = flat_map (fun a => f (g a)) l.
Proof. induction l as [|a l IH]; cbn; [reflexivity|]. rewrite IH. reflexivity. Qed.
Lemma flat_map_ext_in : forall A B (f g : A -> list B) l, (forall a, In a l -> f a = g a) -> flat_map f l = flat_map g l.
Proof. induction l as [|a l IH]; cbn; intros H; [reflexivity|]. rewrite (H a (or_introl eq_refl)), IH by auto. reflexivity. Qed.

Section Key.
  Context {X : Type}.
  Lemma assoc_key : forall (out : string -> string) (F : string -> X) l u, In u l -> (forall u', In u' l -> out u' = out u -> u' = u) ->
    assoc (out u) (map (fun u => (out u, F u)) l) = Some (F u).
  Proof.
    induction l as [|a l IH]; cbn; intros u I U; [contradiction|]. destruct (String.eqb_spec (out a) (out u)) as [E|E].
    - rewrite (U a (or_introl eq_refl) E). reflexivity.
    - destruct I as [->|I]; [congruence|]. apply IH; auto.
  Qed.
  Lemma assoc_nokey : forall (out : string -> string) (F : string -> X) l k, (forall u, In u l -> out u <> k) -> assoc k (map (fun u => (out u, F u)) l) = None.
  Proof.
    induction l as [|a l IH]; cbn; intros k U; [reflexivity|]. destruct (String.eqb_spec (out a) k) as [E|E]; [exfalso; apply (U a); auto|]. apply IH. auto.
  Qed.
End Key.

Lemma Forall2_rows : forall A B (F : Z * A -> B) (P : B -> A -> Prop) ids R, length ids = length R ->
  (forall i p, In (i, p) (combine ids R) -> P (F (i, p)) p) -> Forall2 P (map F (combine ids R)) R.
Proof.
  induction ids as [|i ids IH]; intros [|p R] L H; cbn in L; try discriminate; cbn; constructor.
  - apply H. left. reflexivity.
  - apply IH; [lia|]. intros. apply H. right. assumption.
Qed.

Section Session.
  Context {V : Type}.
  Variables (num : V -> Z) (close : Z -> Z -> bool) (warn : Z) (od : bool) (pvars : list (string * tw)).
  Variables (ws : list (Z * dmode * list (wp V))) (f : pfile V).
  Notation log := (expected od None ws).
  Notation eff := (effective od None ws).

  Definition recs (i : Z) : list (wp V) := filter (fun p => w_id p =? i) (records log).

  Lemma values_recs : forall i v, values i v log = map (fun p => w_val p v) (recs i).
  Proof. intros i v. unfold recs, records, values. rewrite filter_flat_map, map_flat_map. reflexivity. Qed.
  Lemma recorded_recs : forall i, recorded_at i log <> [] <-> recs i <> [].
  Proof.
    intros i. unfold recs, records, recorded_at. rewrite filter_flat_map.
    assert (L : length (flat_map (fun tp : Z * list (wp V) => map (fun _ => fst tp) (filter (fun p => w_id p =? i) (snd tp))) log)
              = length (flat_map (fun a : Z * list (wp V) => filter (fun p => w_id p =? i) (snd a)) log)).
    { induction log as [|a l IH]; cbn; [reflexivity|]. rewrite !app_length, map_length, IH. reflexivity. }
    split; intros H C; rewrite C in L; [|symmetry in L]; apply length_zero_iff_nil in L; contradiction.
  Qed.
  Lemma recs_nonempty : forall i, recs i <> [] <-> exists p, In p (records log) /\ w_id p = i.
  Proof.
    intros i. unfold recs. split.
    - intros H. destruct (filter (fun p => w_id p =? i) (records log)) as [|p l] eqn:E; [contradiction|].
      assert (I : In p (filter (fun p => w_id p =? i) (records log))) by (rewrite E; left; reflexivity). apply filter_In in I as [I1 I2]. exists p. split; [exact I1|lia].
    - intros (p & I & E) C. assert (J : In p (filter (fun p => w_id p =? i) (records log))) by (apply filter_In; split; [exact I|lia]). rewrite C in J. exact J.
  Qed.

  Hypothesis GW : Forall good_write ws.
  Hypothesis RS : Forall records_something ws.
  Hypothesis CO : class_ok pvars.
  Hypothesis WR : writes close warn (pfile0 od (written pvars) (written_once pvars)) ws = Some f.
  Hypothesis ND : forall i, NoDup (recorded_at i log).
  Hypothesis OV : own_values num log.
  Hypothesis NE : records log <> [].
  Hypothesis ON : written_once pvars = [] \/ once_complete close od ws.

  Lemma in_written : forall v, In v (written pvars) <-> In (v, WYes) pvars.
  Proof.
    intros v. unfold written. rewrite in_map_iff. split.
    - intros ([u w] & E & I). apply filter_In in I as [I T]. cbn in E. subst u. destruct w; try discriminate. exact I.
    - intros I. exists (v, WYes). split; [reflexivity|]. apply filter_In. auto.
  Qed.
  Lemma in_written_once : forall v, In v (written_once pvars) <-> In (v, WOnce) pvars.
  Proof.
    intros v. unfold written_once. rewrite in_map_iff. split.
    - intros ([u w] & E & I). apply filter_In in I as [I T]. cbn in E. subst u. destruct w; try discriminate. exact I.
    - intros I. exists (v, WOnce). split; [reflexivity|]. apply filter_In. auto.
  Qed.
  Lemma one_tw : forall v w w', In (v, w) pvars -> In (v, w') pvars -> w = w'.
  Proof.
    intros v w w' I I'. destruct CO as (N & _). pose proof (assoc_in _ _ _ _ N I) as A. rewrite (assoc_in _ _ _ _ N I') in A. congruence.
  Qed.

  Lemma matrices : exists ids width, file_ids log ids /\
    forall v, In (v, WYes) pvars -> export_var false f v = Some (map (padded width (fun p => w_val p v)) (map recs ids)).
  Proof.
    assert (EX : forall v, In (v, WYes) pvars -> exists ids width, file_ids log ids /\ (forall i, (length (recs i) <= width)%nat) /\
      (width = O \/ exists i, length (recs i) = width) /\
      export_var false f v = Some (map (padded width (fun p => w_val p v)) (map recs ids))).
    { intros v I. apply in_written in I. destruct (export_all close warn od _ _ ws f v GW WR I ND) as (rows & E & (ids & width & S & M & -> & LE & W)).
      exists ids, width. split; [split; [exact S|]; intros i; rewrite M, recorded_recs; apply recs_nonempty|].
      assert (LV : forall i, length (values i v log) = length (recs i)) by (intros i; rewrite values_recs; apply map_length).
      split; [intros i; rewrite <- LV; apply LE|]. split; [destruct W as [W|(i & _ & W)]; [left; exact W|right; exists i; rewrite <- LV; exact W]|].
      rewrite E. f_equal. rewrite map_map. apply map_ext. intros i. unfold padded. rewrite LV, values_recs, map_map. reflexivity. }
    destruct CO as (_ & _ & _ & _ & _ & _ & IT & _). destruct (EX _ IT) as (ids & width & F & LE & W & _).
    exists ids, width. split; [exact F|]. intros v I. destruct (EX v I) as (ids' & width' & F' & LE' & W' & E).
    assert (ids' = ids). { destruct F as [S1 M1], F' as [S2 M2]. apply sorted_unique; try assumption. intros i. rewrite M1, M2. reflexivity. }
    assert (width' = width).
    { destruct W as [->|(i & <-)], W' as [->|(i' & <-)]; try reflexivity; [specialize (LE i')|specialize (LE' i)|pose proof (LE i'); pose proof (LE' i)]; lia. }
    subst. exact E.
  Qed.

  (** The value of a variable written once. *)
  Definition once_of (i : Z) (v : string) : option V := match appearances close i eff with q :: _ => Some (w_val q v) | [] => None end.

  Lemma columns_once : forall ids, file_ids log ids -> forall v, In (v, WOnce) pvars ->
    exists m, export_once f v = Some m /\ map (fun r => hd None r) m = map (fun i => once_of i v) ids.
  Proof.
    intros ids [S M] v I. apply in_written_once in I. destruct ON as [O|O]; [rewrite O in I; contradiction|].
    destruct (once_export_all close warn od _ _ ws f v GW RS I WR (fun i => proj1 (O i))) as (rows & ids' & E & S' & M' & ->).
    exists (map (fun i => map Some (firstn 1 (map (fun p => w_val p v) (appearances close i eff)))) ids').
    split; [exact E|].
    assert (ids' = ids) as ->. { apply sorted_unique; try assumption. intros i. rewrite M, M', (O i), recorded_recs. apply recs_nonempty. }
    rewrite map_map. apply map_ext. intros i. unfold once_of. destruct (appearances close i eff); reflexivity.
  Qed.

  Section Ids.
    Variables (ids : list Z) (width : nat).
    Hypothesis FI : file_ids log ids.
    Hypothesis MX : forall v, In (v, WYes) pvars -> export_var false f v = Some (map (padded width (fun p => w_val p v)) (map recs ids)).

    Definition mat (v : string) : fvar V := F2 (map (padded width (fun p => w_val p v)) (map recs ids)).
    Definition col (v : string) : fvar V := F1 (map (fun i => once_of i v) ids).
    Definition nc : list (string * fvar V) := map (fun v => (out_name v, mat v)) (written pvars) ++ map (fun v => (v, col v)) (written_once pvars).

    Lemma f_names : f_vars f = written pvars /\ f_vars_once f = written_once pvars.
    Proof.
      assert (G : forall ws0 (f0 f1 : pfile V), writes close warn f0 ws0 = Some f1 -> f_vars f1 = f_vars f0 /\ f_vars_once f1 = f_vars_once f0).
      { clear. induction ws0 as [|[[t m] ps] ws0 IH]; cbn [writes]; intros f0 f1 H; [injection H as <-; auto|].
        destruct (write close warn f0 t m ps) as [f2|] eqn:E; [|discriminate]. apply IH in H as [-> ->]. unfold write in E. cbv zeta in E.
        destruct (_ && _); [|injection E as <-; auto]. destruct ps; [injection E as <-; auto|]. destruct (_ && _); [discriminate|]. injection E as <-. auto. }
      apply G in WR. exact WR.
    Qed.
    Lemma nc_is : nc_file f = Some nc.
    Proof.
      unfold nc_file, nc. destruct f_names as [-> ->]. apply sequence_app.
      - apply sequence_map. intros v I. apply in_written in I. rewrite (MX v I). reflexivity.
      - apply sequence_map. intros v I. apply in_written_once in I. destruct (columns_once ids FI v I) as (m & -> & ->). reflexivity.
    Qed.

    Definition special (v : string) : bool := String.eqb v "depth" || String.eqb v "id".
    Definition item (vw : string * tw) : list (string * fvar V) :=
      match snd vw with
      | WYes => if special (fst vw) then [] else [(fst vw, mat (fst vw))]
      | WOnce => [(fst vw, col (fst vw))]
      | WNo => []
      end.
    Definition tail2 : list (string * fvar V) := [("depth", mat "depth"); ("id", mat "id")].

    Lemma in_names : forall v w, In (v, w) pvars -> In v (map fst pvars).
    Proof. intros v w I. apply (in_map fst) in I. exact I. Qed.
    Lemma not_depth : forall w, In ("depth", w) pvars -> w = WYes.
    Proof. intros w I. destruct CO as (_ & _ & _ & _ & _ & D & _). exact (one_tw _ _ _ I D). Qed.
    Lemma not_id : forall w, In ("id", w) pvars -> w = WYes.
    Proof. intros w I. destruct CO as (_ & _ & _ & _ & _ & _ & _ & D). exact (one_tw _ _ _ I D). Qed.

    Lemma out_cases : forall u, (u = "depth" /\ out_name u = "z") \/ (u = "id" /\ out_name u = "trajectory") \/ (u <> "depth" /\ u <> "id" /\ out_name u = u).
    Proof.
      intros u. unfold out_name. destruct (String.eqb_spec u "depth"); [left; auto|]. destruct (String.eqb_spec u "id"); [right; left; auto|].
      right; right. auto.
    Qed.
    Lemma assoc_z : assoc "z" nc = Some (mat "depth").
    Proof.
      destruct CO as (N & Z1 & Z2 & _ & _ & D & _). apply assoc_app_l. change "z" with (out_name "depth") at 1. apply assoc_key; [apply in_written; exact D|].
      intros u I E. apply in_written in I. destruct (out_cases u) as [[-> _]|[[-> _]|(_ & _ & O)]]; [reflexivity|discriminate E|].
      exfalso. apply Z1. rewrite O in E. cbn in E. subst u. eapply in_names; exact I.
    Qed.
    Lemma assoc_traj : assoc "trajectory" nc = Some (mat "id").
    Proof.
      destruct CO as (N & Z1 & Z2 & _ & _ & _ & _ & D). apply assoc_app_l. change "trajectory" with (out_name "id") at 1. apply assoc_key; [apply in_written; exact D|].
      intros u I E. apply in_written in I. destruct (out_cases u) as [[-> _]|[[-> _]|(_ & _ & O)]]; [discriminate E|reflexivity|].
      exfalso. apply Z2. rewrite O in E. cbn in E. subst u. eapply in_names; exact I.
    Qed.
    Lemma assoc_nc : forall v w, In (v, w) pvars -> assoc v nc = match item (v, w) with [] => None | (_, x) :: _ => Some x end.
    Proof.
      intros v w I. pose proof CO as (N & Z1 & Z2 & _ & _ & D & _ & D').
      assert (VZ : v <> "z") by (intros ->; apply Z1; eapply in_names; exact I). assert (VT : v <> "trajectory") by (intros ->; apply Z2; eapply in_names; exact I).
      unfold nc. cbn [item snd fst]. unfold item. cbn [snd fst].
      assert (NF : w <> WYes \/ special v = true -> assoc v (map (fun v => (out_name v, mat v)) (written pvars)) = None).
      { intros C. apply assoc_nokey. intros u IU E. apply in_written in IU. destruct (out_cases u) as [[-> O]|[[-> O]|(U1 & U2 & O)]].
        - rewrite O in E. congruence.
        - rewrite O in E. congruence.
        - rewrite O in E. subst u. destruct C as [C|C]; [apply C; exact (one_tw _ _ _ I IU)|].
          unfold special in C. apply orb_true_iff in C as [C|C]; apply String.eqb_eq in C; congruence. }
      assert (NS : w <> WOnce -> assoc v (map (fun v => (v, col v)) (written_once pvars)) = None).
      { intros C. apply (assoc_nokey (fun u => u)). intros u IU E. subst u. apply in_written_once in IU. apply C. exact (one_tw _ _ _ I IU). }
      destruct w.
      - destruct (special v) eqn:SP.
        + rewrite assoc_app_r by auto. apply NS. discriminate.
        + unfold special in SP. apply orb_false_iff in SP as [S1 S2]. apply String.eqb_neq in S1, S2.
          apply assoc_app_l. destruct (out_cases v) as [[? _]|[[? _]|(_ & _ & O)]]; [congruence..|]. rewrite <- O at 1. apply assoc_key; [apply in_written; exact I|].
          intros u IU E. destruct (out_cases u) as [[-> O']|[[-> O']|(_ & _ & O')]]; congruence.
      - rewrite assoc_app_r by (apply NF; left; discriminate). apply NS. discriminate.
      - rewrite assoc_app_r by (apply NF; left; discriminate). apply (assoc_key (fun u => u) col); [apply in_written_once; exact I|]. auto.
    Qed.

    Lemma load_is : forall pvs, (forall vw, In vw pvs -> In vw pvars) -> load_vars pvs nc = inl (flat_map item pvs ++ tail2).
    Proof.
      induction pvs as [|[v w] pvs IH]; intros SUB; cbn [load_vars flat_map].
      - rewrite assoc_z, assoc_traj. reflexivity.
      - pose proof (SUB _ (or_introl eq_refl)) as I. rewrite (assoc_nc v w I), IH by (intros; apply SUB; right; assumption). unfold item. cbn [fst snd].
        destruct w; cbn [app].
        + destruct (special v) eqn:SP; cbn [app]; [|reflexivity]. unfold special in SP. apply orb_true_iff in SP as [SP|SP]; apply String.eqb_eq in SP; subst v; reflexivity.
        + destruct (existsb (String.eqb v) internal); reflexivity.
        + reflexivity.
    Qed.

    (** ** The columns *)
    Definition cell (v : string) (p : wp V) : option V :=
      match assoc v pvars with Some WOnce => once_of (w_id p) v | _ => Some (w_val p v) end.
    Notation R t := (records_at log ids t).
    Notation times := (map (padded width (fun p => w_val p "time")) (map recs ids)).

    Lemma recs_in : forall i p, In p (recs i) -> In p (records log) /\ w_id p = i.
    Proof. intros i p I. apply filter_In in I as [I E]. split; [exact I|lia]. Qed.
    Lemma at_time : forall t i, filter (fun p => num (w_val p "time") =? t) (recs i) = filter (fun p => (w_id p =? i) && (w_time p =? t)) (records log).
    Proof.
      intros t i. unfold recs. rewrite filter_filter. apply filter_ext_in. intros p I. destruct (OV p I) as [-> _]. reflexivity.
    Qed.

    Lemma take_mat : forall t v, In (v, WYes) pvars -> take WYes (mat v) (where_rows num 0 t times) = Some (map (cell v) (R t)).
    Proof.
      intros t v I. unfold take, mat. pose proof (where_rows_pick num width (fun p => w_val p "time") (fun p => w_val p v) t (map recs ids) []) as WP.
      cbn [app length] in WP. etransitivity; [exact WP|]. f_equal. rewrite flat_map_map. unfold records_at. rewrite map_flat_map. apply flat_map_ext. intros i. rewrite at_time. apply map_ext. intros p.
      unfold cell. rewrite (assoc_in _ _ _ _ (proj1 CO) I). reflexivity.
    Qed.
    Lemma take_col : forall t v, In (v, WOnce) pvars -> take WOnce (col v) (where_rows num 0 t times) = Some (map (cell v) (R t)).
    Proof.
      intros t v I. unfold take, col.
      assert (E : map (fun i => once_of i v) ids = map (fun l => match l with p :: _ => once_of (w_id p) v | [] => None end) (map recs ids)).
      { rewrite map_map. apply map_ext_in. intros i II. destruct (recs i) as [|p l] eqn:E.
        - exfalso. apply (proj2 (recs_nonempty i)); [|exact E]. apply FI. exact II.
        - assert (J : In p (recs i)) by (rewrite E; left; reflexivity). apply recs_in in J as [_ ->]. reflexivity. }
      rewrite E.
      pose proof (where_rows_pick1 num width (fun p => w_val p "time") (fun l => match l with p :: _ => once_of (w_id p) v | [] => None end) t (map recs ids) []) as WP.
      cbn [app length] in WP. etransitivity; [exact WP|]. f_equal. rewrite flat_map_map. unfold records_at. rewrite map_flat_map. apply flat_map_ext_in. intros i II. rewrite at_time.
      apply map_ext_in. intros p J. apply filter_In in J as [J1 J2]. unfold cell. rewrite (assoc_in _ _ _ _ (proj1 CO) I).
      destruct (recs i) as [|p0 l] eqn:E0.
      - exfalso. assert (K : In p (recs i)) by (apply filter_In; split; [exact J1|lia]). rewrite E0 in K. exact K.
      - assert (K : In p0 (recs i)) by (rewrite E0; left; reflexivity). apply recs_in in K as [_ ->]. f_equal. lia.
    Qed.

    Notation vs := (flat_map item pvars ++ tail2).
    Lemma in_vs : forall v x, In (v, x) vs -> (In (v, WYes) pvars /\ x = mat v) \/ (In (v, WOnce) pvars /\ x = col v).
    Proof.
      intros v x I. apply in_app_or in I as [I|I].
      - apply in_flat_map in I as ([u w] & I1 & I2). unfold item in I2. cbn [fst snd] in I2. destruct w.
        + destruct (special u); [contradiction|]. destruct I2 as [E|[]]. injection E as <- <-. auto.
        + contradiction.
        + destruct I2 as [E|[]]. injection E as <- <-. auto.
      - destruct CO as (_ & _ & _ & _ & _ & D & _ & D'). destruct I as [E|[E|[]]]; injection E as <- <-; auto.
    Qed.
    Lemma vs_has : forall v, In (v, WYes) pvars -> In (v, mat v) vs.
    Proof.
      intros v I. apply in_or_app. destruct (special v) eqn:SP.
      - right. unfold special in SP. apply orb_true_iff in SP as [SP|SP]; apply String.eqb_eq in SP; subst v; cbn; auto.
      - left. apply in_flat_map. exists (v, WYes). split; [exact I|]. unfold item. cbn [fst snd]. rewrite SP. left. reflexivity.
    Qed.
    Lemma vs_has_once : forall v, In (v, WOnce) pvars -> In (v, col v) vs.
    Proof. intros v I. apply in_or_app. left. apply in_flat_map. exists (v, WOnce). split; [exact I|]. left. reflexivity. Qed.
    Lemma vs_nodup : NoDup (map fst vs).
    Proof.
      assert (G : forall pvs, NoDup (map fst pvs) -> (forall vw, In vw pvs -> In vw pvars) -> NoDup (map fst (flat_map item pvs)) /\
        forall v, In v (map fst (flat_map item pvs)) -> In v (map fst pvs) /\ special v = false).
      { induction pvs as [|[v w] pvs IH]; cbn [flat_map map fst]; intros N SUB; [split; [constructor|contradiction]|].
        inversion N as [|? ? N1 N2]; subst. destruct (IH N2 (fun vw I => SUB vw (or_intror I))) as [G1 G2].
        assert (SPV : w = WOnce -> special v = false).
        { intros ->. unfold special. destruct (String.eqb_spec v "depth") as [->|]; [pose proof (not_depth _ (SUB _ (or_introl eq_refl))); discriminate|].
          destruct (String.eqb_spec v "id") as [->|]; [pose proof (not_id _ (SUB _ (or_introl eq_refl))); discriminate|]. reflexivity. }
        assert (ONE : forall (x : fvar V), special v = false -> NoDup (map fst ([(v, x)] ++ flat_map item pvs)) /\
          forall u, In u (map fst ([(v, x)] ++ flat_map item pvs)) -> In u (v :: map fst pvs) /\ special u = false).
        { intros x SP. cbn [app map fst]. split; [constructor; [intros C; apply G2 in C as [C _]; contradiction|exact G1]|].
          intros u [<-|I]; [split; [left; reflexivity|exact SP]|]. apply G2 in I as [I1 I2]. split; [right; exact I1|exact I2]. }
        assert (NONE : NoDup (map fst ([] ++ flat_map item pvs)) /\ forall u, In u (map fst ([] ++ flat_map item pvs)) -> In u (v :: map fst pvs) /\ special u = false).
        { cbn [app]. split; [exact G1|]. intros u I. apply G2 in I as [I1 I2]. split; [right; exact I1|exact I2]. }
        unfold item at 1 3. cbn [fst snd]. destruct w; [destruct (special v) eqn:SP; [exact NONE|apply ONE; reflexivity]|exact NONE|apply ONE; auto]. }
      destruct (G pvars (proj1 CO) (fun _ I => I)) as [G1 G2]. rewrite map_app.
      assert (AP : forall (a : list string), NoDup a -> ~ In "depth" a -> ~ In "id" a -> NoDup (a ++ ["depth"; "id"])).
      { clear. induction a as [|x a IH]; cbn; intros N D I.
        - constructor; [intros [C|[]]; discriminate|]. constructor; [intros []|constructor].
        - inversion N; subst. constructor; [|apply IH; auto]. intros C. apply in_app_or in C as [C|[C|[C|[]]]]; auto. }
      apply AP; [exact G1| |]; intros C; apply G2 in C as [_ C]; discriminate.
    Qed.

    Lemma take_all_is : forall t l, (forall vx, In vx l -> In vx vs) ->
      take_all pvars (where_rows num 0 t times) l = inl (map (fun vx => (fst vx, map (cell (fst vx)) (R t))) l).
    Proof.
      intros t. induction l as [|[v x] l IH]; intros SUB; [reflexivity|]. cbn [take_all map fst].
      destruct (in_vs v x (SUB _ (or_introl eq_refl))) as [[I ->]|[I ->]].
      - rewrite (assoc_in _ _ _ _ (proj1 CO) I), take_mat, IH by (auto; intros; apply SUB; right; assumption). reflexivity.
      - rewrite (assoc_in _ _ _ _ (proj1 CO) I), take_col, IH by (auto; intros; apply SUB; right; assumption). reflexivity.
    Qed.

    Definition kept : list (string * (wp V -> option V)) :=
      map (fun vx => (fst vx, cell (fst vx))) (filter (fun vx : string * fvar V => negb (String.eqb (fst vx) "id")) vs).
    Lemma kept_assoc : forall v w p, In (v, w) pvars -> w <> WNo -> v <> "id" -> assoc v (map (fun nc => (fst nc, snd nc p)) kept) = Some (cell v p).
    Proof.
      intros v w p I W D. unfold kept. rewrite map_map. cbn [fst snd].
      assert (IV : exists x, In (v, x) vs) by (destruct w; [exists (mat v); apply vs_has; exact I|congruence|exists (col v); apply vs_has_once; exact I]).
      destruct IV as (x & IV).
      apply assoc_in.
      - rewrite map_map. cbn [fst].
        assert (SN : forall (P : string * fvar V -> bool) l, NoDup (map fst l) -> NoDup (map fst (filter P l))).
        { clear. induction l as [|a l IH]; cbn; intros N; [constructor|]. inversion N as [|? ? N1 N2]; subst. destruct (P a); cbn; [|auto].
          constructor; [|auto]. intros C. apply N1. apply in_map_iff in C as (b & E & C). apply filter_In in C as [C _]. rewrite <- E. apply in_map, C. }
        apply SN, vs_nodup.
      - apply in_map_iff. exists (v, x). split; [reflexivity|]. apply filter_In. split; [exact IV|]. cbn [fst]. apply negb_true_iff, String.eqb_neq. exact D.
    Qed.
    Lemma kept_cols : forall t, filter (fun nc => negb (String.eqb (fst nc) "id")) (map (fun vx : string * fvar V => (fst vx, map (cell (fst vx)) (R t))) vs)
      = map (fun nc => (fst nc, map (snd nc) (R t))) kept.
    Proof.
      intros t. unfold kept. rewrite map_map. cbn [fst snd]. generalize vs as l. induction l as [|a l IH]; cbn; [reflexivity|].
      destruct (String.eqb (fst a) "id"); cbn; [exact IH|]. rewrite IH. reflexivity.
    Qed.

    Lemma time_rows : exists x r rest, times = (x :: r) :: rest.
    Proof.
      destruct (records log) as [|p0 l] eqn:E; [contradiction|]. destruct FI as [_ M].
      assert (I0 : In (w_id p0) ids) by (apply M; exists p0; split; [rewrite E; left; reflexivity|reflexivity]).
      destruct ids as [|i ids']; [contradiction|]. cbn [map].
      assert (RN : recs i <> []) by (apply recs_nonempty, M; left; reflexivity). unfold padded at 1. destruct (recs i) as [|p l']; [contradiction|].
      cbn. eauto.
    Qed.

    Lemma where_none : forall t rows k, (forall x, In x (finite num rows) -> x <> t) -> where_rows num k t rows = [].
    Proof.
      intros t. induction rows as [|r rows IH]; intros k N; [reflexivity|]. cbn [where_rows]. unfold finite in N. cbn [flat_map] in N.
      rewrite IH by (intros x I; apply N, in_or_app; right; exact I). rewrite app_nil_r.
      assert (W : forall c, where_row num c t r = []); [|rewrite W; reflexivity].
      assert (N1 : forall x, In x (flat_map (fun o : option V => match o with Some v => [num v] | None => [] end) r) -> x <> t)
        by (intros x I; apply N, in_or_app; left; exact I).
      clear -N1. induction r as [|[v|] r IH]; intros c; cbn in *; [reflexivity| |apply IH; exact N1].
      assert (Q : num v <> t) by (apply N1; left; reflexivity). apply Z.eqb_neq in Q. rewrite Q. apply IH. intros x I. apply N1. right. exact I.
    Qed.

    Lemma chosen_is : forall rt t, chosen_time log ids rt t ->
      match restart_time num rt times with Some t => where_rows num 0 t times | None => [] end = where_rows num 0 t times.
    Proof.
      intros rt t C. destruct (match rt with RFun g => match g (finite num times) with None => true | _ => false end | _ => false end) eqn:B.
      { destruct rt as [|t'|g]; try discriminate. cbn [restart_time]. destruct (g (finite num times)) eqn:G; [discriminate|]. symmetry. apply where_none.
        cbn [chosen_time] in C.
        assert (FQ : finite num times = flat_map (fun i => map w_time (filter (fun p => w_id p =? i) (records log))) ids).
        { rewrite finite_padded, flat_map_map. apply flat_map_ext_in. intros i _. apply map_ext_in. intros p J. apply recs_in in J as [J _]. apply (OV p J). }
        rewrite <- FQ, G in C. rewrite FQ. intros x I. apply in_flat_map in I as (i & _ & I). apply in_map_iff in I as (p & <- & I). apply filter_In in I as [I _]. apply C. exact I. }
      replace (restart_time num rt times) with (Some t); [reflexivity|]. symmetry.
      unfold restart_time. destruct rt as [|t'|g]; cbn in C.
      - rewrite finite_padded, flat_map_map.
        assert (ME : forall x, In x (flat_map (fun i => map (fun p => num (w_val p "time")) (recs i)) ids) <-> exists p, In p (records log) /\ w_time p = x).
        { intros x. rewrite in_flat_map. split.
          - intros (i & _ & J). apply in_map_iff in J as (p & <- & J). apply recs_in in J as [J _]. exists p. split; [exact J|]. symmetry. apply (OV p J).
          - intros (p & J & <-). exists (w_id p). split; [apply FI; exists p; auto|]. apply in_map_iff. exists p. split; [apply (OV p J)|].
            apply filter_In. split; [exact J|lia]. }
        destruct C as [(p & J & T) MAX].
        destruct (nanmax_some (flat_map (fun i => map (fun p => num (w_val p "time")) (recs i)) ids)) as (x & EX).
        { intros C. assert (IN : In t []) by (rewrite <- C; apply ME; exists p; auto). exact IN. }
        rewrite EX. apply nanmax_spec in EX as [X1 X2]. apply ME in X1 as (q & Q1 & Q2). specialize (MAX q Q1).
        assert (t <= x) by (apply X2, ME; exists p; auto). f_equal. lia.
      - congruence.
      - assert (FQ : finite num times = flat_map (fun i => map w_time (filter (fun p => w_id p =? i) (records log))) ids).
        { rewrite finite_padded, flat_map_map. apply flat_map_ext_in. intros i _. apply map_ext_in. intros p J. apply recs_in in J as [J _]. apply (OV p J). }
        rewrite FQ in *. destruct (g _); [congruence|discriminate].
    Qed.

    Lemma restart_core : forall (w : world (option V)) (restart : bool) rt t, chosen_time log ids rt t ->
      let pid := if restart then map w_id (R t) else map (fun k => k + w_last w) (arange (length (R t))) in
      let rows := map (fun ip => mkPrec (fst ip) st_Evaluate (map (fun nc => (fst nc, snd nc (snd ip))) kept)) (combine pid (R t)) in
      exists w', from_file num w pvars nc restart rt = (w', ODone) /\ only_adds w w' rows /\ w_last w' = id_offset pid + 1 /\ length pid = length (R t).
    Proof.
      intros w restart rt t C pid rows. unfold from_file. rewrite (load_is pvars (fun _ I => I)).
      pose proof CO as (N & _ & _ & IL & _ & _ & IT & II).
      rewrite (assoc_in _ _ _ _ vs_nodup (vs_has _ IT)). unfold mat at 1.
      pose proof time_rows as (x & r & rest & TR). pose proof (chosen_is rt t C) as CT. pose proof (take_all_is t vs (fun _ I => I)) as TA.
      rewrite TR in *. rewrite CT, TA.
      assert (NDC : NoDup (map fst (map (fun vx : string * fvar V => (fst vx, map (cell (fst vx)) (R t))) vs))) by (rewrite map_map; cbn [fst]; exact vs_nodup).
      assert (ASC : forall v, In (v, WYes) pvars -> assoc v (map (fun vx : string * fvar V => (fst vx, map (cell (fst vx)) (R t))) vs) = Some (map (cell v) (R t))).
      { intros v I. apply assoc_in; [exact NDC|]. apply in_map_iff. exists (v, mat v). split; [reflexivity|apply vs_has; exact I]. }
      rewrite (ASC _ IL), (ASC _ II), kept_cols, map_length.
      assert (RIN : forall p, In p (R t) -> In p (records log)).
      { intros p I. unfold records_at in I. apply in_flat_map in I as (i & _ & I). apply filter_In in I as [I _]. exact I. }
      assert (LP : length pid = length (R t)) by (unfold pid, arange; destruct restart; rewrite ?map_length, ?seq_length; reflexivity).
      assert (FB : forallb (fun nc : string * list (option V) => (length (snd nc) =? length (R t))%nat) (map (fun nc => (fst nc, map (snd nc) (R t))) kept) = true).
      { apply forallb_forall. intros [n c] I. apply in_map_iff in I as (k & E & _). injection E as <- <-. cbn [snd]. rewrite map_length. apply Nat.eqb_refl. }
      assert (DN : forall w1 : world (option V), w_heap w1 = w_heap w -> w_colls w1 = w_colls w ->
        forall po, map (fun k => k + w_last w1) (match po with None => arange (length (R t)) | Some l => l end) = pid ->
        exists w', do_new w1 po (length (R t)) (map (fun nc => (fst nc, map (snd nc) (R t))) kept) = (w', ODone) /\ only_adds w w' rows /\
          w_last w' = id_offset pid + 1 /\ length pid = length (R t)).
      { intros w1 H1 H2 po EP. unfold do_new. rewrite FB. cbn [negb]. rewrite EP, LP, Nat.eqb_refl. cbn [negb]. eexists. split; [reflexivity|].
        rewrite H1, H2. cbn [w_last]. split; [|split; [reflexivity|reflexivity]]. split; [|split].
        - apply iterate_new. exact LP.
        - cbn [w_colls]. rewrite app_length. cbn. lia.
        - intros i L (rr & E). rewrite E. destruct w as [hp cl la]. eapply iterate_old; [exact L|exact E]. }
      destruct restart.
      - assert (SQ : sequence (map (cell "id") (R t)) = Some (map (fun p => w_val p "id") (R t))).
        { apply sequence_map. intros p _. unfold cell. rewrite (assoc_in _ _ _ _ N II). reflexivity. }
        rewrite SQ. apply (DN (mkWorld (w_heap w) (w_colls w) 0)); [reflexivity..|]. cbn [w_last]. unfold pid. rewrite map_map.
        rewrite map_map. apply map_ext_in. intros p I. destruct (OV p (RIN p I)) as [_ ->]. lia.
      - apply (DN (mkWorld (w_heap w) (w_colls w) (w_last w))); reflexivity.
    Qed.

    Lemma rows_values : forall pid t, length pid = length (R t) ->
      Forall2 (fun row p => has_values pvars row p /\ has_once close pvars eff row p)
        (map (fun ip => mkPrec (fst ip) st_Evaluate (map (fun nc => (fst nc, snd nc (snd ip))) kept)) (combine pid (R t))) (R t).
    Proof.
      intros pid t LP. apply Forall2_rows; [exact LP|]. intros i p I. cbn [fst snd]. split; [split; [reflexivity|]|].
      - intros v IV D. cbn [p_vals]. rewrite (kept_assoc v WYes p IV) by (congruence || exact D). unfold cell. rewrite (assoc_in _ _ _ _ (proj1 CO) IV). reflexivity.
      - intros v IV. cbn [p_vals]. assert (D : v <> "id") by (intros ->; apply not_id in IV; discriminate).
        rewrite (kept_assoc v WOnce p IV) by (congruence || exact D). unfold cell. rewrite (assoc_in _ _ _ _ (proj1 CO) IV). unfold once_of.
        apply in_combine_r in I. unfold records_at in I. apply in_flat_map in I as (j & _ & I). apply filter_In in I as [I _].
        destruct ON as [O|O]; [apply in_written_once in IV; rewrite O in IV; contradiction|].
        assert (A : appearances close (w_id p) eff <> []) by (apply O, recorded_recs, recs_nonempty; exists p; auto).
        destruct (appearances close (w_id p) eff) as [|q rest]; [contradiction|]. exists q, rest. auto.
    Qed.
  End Ids.

  Theorem restart_all : exists nc0 ids, nc_file f = Some nc0 /\ file_ids log ids /\
    forall (w : world (option V)) restart rt t, chosen_time log ids rt t ->
    exists w' rows, from_file num w pvars nc0 restart rt = (w', ODone) /\ only_adds w w' rows /\
      Forall2 (fun row p => has_values pvars row p /\ has_once close pvars eff row p) rows (records_at log ids t) /\
      map (@p_id _) rows = (if restart then map w_id (records_at log ids t)
                            else map (fun k => Z.of_nat k + w_last w) (seq 0 (length (records_at log ids t)))) /\
      w_last w' = id_offset (map (@p_id _) rows) + 1.
  Proof.
    destruct matrices as (ids & width & FI & MX). exists (nc ids width), ids. split; [apply nc_is; assumption|]. split; [exact FI|].
    intros w restart rt t C. destruct (restart_core ids width FI MX w restart rt t C) as (w' & E & OA & LA & LP). eexists. eexists. split; [exact E|].
    split; [exact OA|]. split; [apply rows_values; assumption|].
    assert (PI : forall (pid : list Z) (R : list (wp V)), length pid = length R ->
      map (@p_id _) (map (fun ip => mkPrec (fst ip) st_Evaluate (map (fun nc => (fst nc, snd nc (snd ip))) (kept ids width))) (combine pid R)) = pid).
    { clear. intros pid R. rewrite map_map. cbn [p_id]. revert R. induction pid as [|i pid IH]; intros [|p R] L; cbn in *; try discriminate; [reflexivity|]. rewrite IH; [reflexivity|lia]. }
    rewrite !PI by exact LP. split; [|exact LA]. destruct restart; [reflexivity|]. unfold arange. rewrite map_map. reflexivity.
  Qed.
End Session.
