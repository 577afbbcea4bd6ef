From Coq Require Import String List ZArith Bool Arith Lia ZifyBool Sorted Permutation.
From Verif Require Import CollModel OutModel OutSpec OutProofs RestartModel RestartSpec RestartProofs RestartProofs2.
Import ListNotations.
Local Open Scope string_scope.
Local Open Scope list_scope.
Local Open Scope Z_scope.

Lemma offset_next : forall ids, next_id ids (id_offset ids + 1).
Proof.
  assert (G : forall l x, In (list_max_from x l) (x :: l) /\ forall i, In i (x :: l) -> i <= list_max_from x l).
  { induction l as [|y l IH]; intros x.
    - cbn. split; [auto|]. intros i [->|[]]. lia.
    - cbn [list_max_from]. destruct (IH (Z.max x y)) as [I1 I2]. split.
      + destruct I1 as [E|I1]; [|right; right; exact I1]. rewrite <- E. destruct (Z.max_spec x y) as [[_ ->]|[_ ->]]; cbn; auto.
      + intros i I. assert (M : Z.max x y <= list_max_from (Z.max x y) l) by (apply I2; left; reflexivity).
        destruct I as [->|[->|I]]; [lia|lia|]. apply I2. right. exact I. }
  intros [|x l]; unfold id_offset, next_id; (split; [|split]).
  - reflexivity.
  - congruence.
  - intros i [].
  - discriminate.
  - intros _. replace (list_max_from x l + 1 - 1) with (list_max_from x l) by lia. apply G.
  - intros i I. apply G in I. lia.
Qed.

Section L.
  Context {V : Type}.

  Lemma group_perm : forall (ids : list Z) (ps : list (wp V)), NoDup ids -> (forall p, In p ps -> In (w_id p) ids) ->
    Permutation (flat_map (fun i => filter (fun p => w_id p =? i) ps) ids) ps.
  Proof.
    intros ids ps ND. induction ps as [|p ps IH]; intros IN.
    - assert (E : flat_map (fun i => filter (fun p : wp V => w_id p =? i) []) ids = []) by (clear; induction ids; cbn; auto). rewrite E. constructor.
    - assert (I : In (w_id p) ids) by (apply IN; left; reflexivity). apply in_split in I as (a & b & E).
      assert (NA : forall i, In i a \/ In i b -> i <> w_id p).
      { intros i H ->. rewrite E in ND. apply NoDup_remove_2 in ND. apply ND, in_or_app. exact H. }
      rewrite E in IH |- *. rewrite flat_map_app in IH |- *. cbn [flat_map] in IH |- *.
      rewrite (flat_map_ext_in _ _ _ (fun i => filter (fun p => w_id p =? i) ps) a).
      2:{ intros i Hi. cbn [filter]. destruct (Z.eqb_spec (w_id p) i) as [C|_]; [exfalso; apply (NA i); auto|reflexivity]. }
      rewrite (flat_map_ext_in _ _ (fun i => filter (fun p => w_id p =? i) (p :: ps)) (fun i => filter (fun p => w_id p =? i) ps) b).
      2:{ intros i Hi. cbn [filter]. destruct (Z.eqb_spec (w_id p) i) as [C|_]; [exfalso; apply (NA i); auto|reflexivity]. }
      cbn [filter]. rewrite Z.eqb_refl. cbn [app]. symmetry. apply Permutation_cons_app. symmetry. apply IH. intros q Q. rewrite <- E. apply IN. right. exact Q.
  Qed.

  Lemma group_sorted : forall (P : wp V -> bool) (all : list (wp V)) ids, StronglySorted Z.lt ids ->
    (forall i, (length (filter (fun p => (w_id p =? i)%Z && P p) all) <= 1)%nat) ->
    StronglySorted Z.lt (map w_id (flat_map (fun i => filter (fun p => (w_id p =? i) && P p) all) ids)).
  Proof.
    intros P all ids SS ONE. induction SS as [|i ids SS IH F]; cbn [flat_map map]; [constructor|]. rewrite map_app.
    destruct (filter (fun p => (w_id p =? i) && P p) all) as [|p [|q l]] eqn:E; cbn [map app].
    - exact IH.
    - constructor; [exact IH|]. assert (Ip : In p (filter (fun p => (w_id p =? i) && P p) all)) by (rewrite E; left; reflexivity). apply filter_In in Ip as [_ Ip].
      rewrite Forall_forall in F |- *. intros j J. apply in_map_iff in J as (q & <- & J). apply in_flat_map in J as (k & K & J). apply filter_In in J as [_ J].
      specialize (F _ K). lia.
    - specialize (ONE i). rewrite E in ONE. cbn in ONE. lia.
  Qed.

  Variables (num : V -> Z) (od : bool) (ws : list (Z * dmode * list (wp V))).
  Notation log := (expected od None ws).

  (** The last write recorded everything that is there at its time. *)
  Lemma last_records : forall ids pre T ps, file_ids log ids -> (forall i, NoDup (recorded_at i log)) ->
    log = pre ++ [(T, ps)] -> ps <> [] -> (forall p, In p ps -> w_time p = T) -> (forall p, In p (records pre) -> w_time p < T) ->
    chosen_time log ids RLast T /\ Permutation (records_at log ids T) ps /\ StronglySorted Z.lt (map w_id (records_at log ids T)).
  Proof.
    intros ids pre T ps [SS FM] ND E NE TP TE.
    assert (RE : records log = records pre ++ ps) by (rewrite E; unfold records; rewrite flat_map_app; cbn; rewrite app_nil_r; reflexivity).
    assert (RA : forall i, filter (fun p => (w_id p =? i) && (w_time p =? T)) (records log) = filter (fun p => w_id p =? i) ps).
    { intros i. rewrite RE, filter_app.
      assert (Z1 : filter (fun p : wp V => (w_id p =? i) && (w_time p =? T)) (records pre) = []).
      { assert (G : forall l, (forall p : wp V, In p l -> w_time p < T) -> filter (fun p : wp V => (w_id p =? i) && (w_time p =? T)) l = []).
        { induction l as [|p l IHl]; cbn; intros H; [reflexivity|]. assert (w_time p < T) by auto. destruct (Z.eqb_spec (w_time p) T); [lia|].
          rewrite andb_false_r. apply IHl. auto. }
        apply G, TE. }
      rewrite Z1. cbn [app]. apply filter_ext_in. intros p I. rewrite (TP p I), Z.eqb_refl. apply andb_true_r. }
    split; [|split].
    - cbn. destruct ps as [|p ps']; [contradiction|]. split; [exists p; split; [rewrite RE; apply in_or_app; right; left; reflexivity|apply TP; left; reflexivity]|].
      intros q Q. rewrite RE in Q. apply in_app_or in Q as [Q|Q]; [apply TE in Q; lia|rewrite (TP q Q); lia].
    - unfold records_at. rewrite (flat_map_ext _ _ RA). apply group_perm; [apply sorted_nodup; exact SS|].
      intros p I. apply FM. exists p. split; [|reflexivity]. rewrite RE. apply in_or_app. auto.
    - unfold records_at. apply group_sorted; [exact SS|]. intros i. rewrite RA. specialize (ND i). rewrite E in ND. unfold recorded_at in ND.
      rewrite flat_map_app in ND. cbn [flat_map snd fst] in ND. rewrite app_nil_r in ND.
      destruct (filter (fun p => w_id p =? i) ps) as [|p [|q l]]; cbn; [lia..|]. exfalso.
      assert (N2 : NoDup (map (fun _ : wp V => T) (p :: q :: l))).
      { revert ND. generalize (flat_map (fun tp : Z * list (wp V) => map (fun _ => fst tp) (filter (fun p0 => w_id p0 =? i) (snd tp))) pre). clear.
        induction l0 as [|a l0 IHl]; cbn [app]; intros N; [exact N|]. inversion N; auto. }
      cbn in N2. inversion N2 as [|? ? N3 _]. apply N3. left. reflexivity.
  Qed.
End L.

Section M.
  Context {V : Type}.
  Variables (num : V -> Z) (close : Z -> Z -> bool) (warn : Z) (od : bool) (pvars : list (string * tw)).
  Variables (ws : list (Z * dmode * list (wp V))) (f : pfile V).
  Notation log := (expected od None ws).
  Notation eff := (effective od None ws).

  Lemma restart_rows_all : Forall good_write ws -> Forall records_something ws -> class_ok pvars ->
    writes close warn (pfile0 od (written pvars) (written_once pvars)) ws = Some f ->
    (forall i, NoDup (recorded_at i log)) -> own_values num log -> records log <> [] -> written_once pvars = [] \/ once_complete close od ws ->
    exists nc ids, nc_file f = Some nc /\ file_ids log ids /\
    forall (w : world (option V)) (restart : bool) rt t, chosen_time log ids rt t ->
    exists w' rows, from_file num w pvars nc restart rt = (w', ODone) /\ only_adds w w' rows /\
      Forall2 (fun row p => has_values pvars row p /\ has_once close pvars eff row p) rows (records_at log ids t) /\
      map (@p_id _) rows = (if restart then map w_id (records_at log ids t)
                            else map (fun k => w_last w + Z.of_nat k) (seq 0 (length (records_at log ids t)))) /\
      next_id (map (@p_id _) rows) (w_last w').
  Proof.
    intros A B C D E F G H. destruct (restart_all num close warn od pvars ws f A B C D E F G H) as (nc & ids & N & FI & K). exists nc, ids. split; [exact N|]. split; [exact FI|].
    intros w restart rt t CT. destruct (K w restart rt t CT) as (w' & rows & K1 & K2 & K3 & K4 & K5). exists w', rows. split; [exact K1|]. split; [exact K2|]. split; [exact K3|].
    split; [|rewrite K5; apply offset_next]. rewrite K4. destruct restart; [reflexivity|]. apply map_ext. intros k. lia.
  Qed.

  Lemma restart_last_all : Forall good_write ws -> Forall records_something ws -> class_ok pvars ->
    writes close warn (pfile0 od (written pvars) (written_once pvars)) ws = Some f ->
    (forall i, NoDup (recorded_at i log)) -> own_values num log -> written_once pvars = [] \/ once_complete close od ws ->
    forall pre T ps, log = pre ++ [(T, ps)] -> ps <> [] -> (forall p, In p ps -> w_time p = T) -> (forall p, In p (records pre) -> w_time p < T) ->
    exists nc, nc_file f = Some nc /\ forall w : world (option V), exists w' rows ps',
      from_file num w pvars nc true RLast = (w', ODone) /\ only_adds w w' rows /\ Permutation ps' ps /\
      Forall2 (fun row p => p_id row = w_id p /\ has_values pvars row p /\ has_once close pvars eff row p) rows ps' /\
      StronglySorted Z.lt (map (@p_id _) rows).
  Proof.
    intros A B C D E F H pre T ps EL NE TP TE.
    assert (G : records log <> []).
    { intros N. rewrite EL in N. unfold records in N. rewrite flat_map_app in N. cbn in N. rewrite app_nil_r in N. apply app_eq_nil in N as [_ N]. contradiction. }
    destruct (restart_rows_all A B C D E F G H) as (nc & ids & N & FI & K). exists nc. split; [exact N|]. intros w.
    destruct (last_records od ws ids pre T ps FI E EL NE TP TE) as (CT & PE & SO). destruct (K w true RLast T CT) as (w' & rows & K1 & K2 & K3 & K4 & _).
    exists w', rows, (records_at log ids T). split; [exact K1|]. split; [exact K2|]. split; [exact PE|]. split; [|rewrite K4; exact SO].
    clear -K3 K4. revert K4. induction K3 as [|row p rows R [X1 X2] K IH]; intros M; constructor; cbn in M; injection M as M1 M2; auto.
  Qed.
End M.
