(** Proofs for C53: what is on disk after a number of steps. *)
From Coq Require Import String List ZArith Bool Arith Lia ZifyBool Sorted.
From Verif Require Import CollModel OutModel OutSpec OutProofs CrashModel CrashSpec.
Import ListNotations.

Section Disk.
Context {V : Type}.
Variable close : Z -> Z -> bool.
Variable warn_tol : Z.
Notation write := (@write V close warn_tol).
Notation writes := (@writes V close warn_tol).
Notation run_steps := (@run_steps V close warn_tol).
Notation disk := (disk V).

Lemma fname_eqb_eq : forall a b, fname_eqb a b = true <-> a = b.
Proof.
  intros [j|j|] [k|k|]; cbn; rewrite ?Nat.eqb_eq; split; intros H; try discriminate; try congruence; try reflexivity.
Qed.
Lemma contents_app : forall (x y : disk) n, contents (x ++ y) n = match contents x n with Some c => Some c | None => contents y n end.
Proof.
  intros x y n. induction x as [|[m c] x IH]; [reflexivity|]. cbn. destruct (fname_eqb m n); [reflexivity|exact IH].
Qed.
Lemma contents_none : forall (x : disk) n, (forall m c, In (m, c) x -> m <> n) -> contents x n = None.
Proof.
  intros x n. induction x as [|[m c] x IH]; intros H; [reflexivity|]. cbn. destruct (fname_eqb m n) eqn:E.
  - apply fname_eqb_eq in E. exfalso. apply (H m c); [left; reflexivity|exact E].
  - apply IH. intros m' c' I. apply (H m' c'). right. exact I.
Qed.

(** The parts of the steps of one write. *)
Lemma write_steps_parts : forall (f f' : pfile V) t m ps, good_write (t, m, ps) -> write f t m ps = Some f' ->
  exists a b, write_steps f f' = a ++ b ++ save PsetInfo (Info (info_of f')) /\
  ((a = [] /\ f_files f' = f_files f) \/
   (exists d, a = save (Main (length (f_files f))) (Npy d) /\ f_files f' = f_files f ++ [d])) /\
  ((b = [] /\ f_once_list f' = f_once_list f /\ f_once_store f' = f_once_store f) \/
   (exists d, b = save (Once (length (f_files f'))) (Npy d) /\ f_once_list f' = f_once_list f ++ [length (f_files f')] /\
              f_once_store f' = (length (f_files f'), d) :: f_once_store f /\
              (records_something (t, m, ps) -> length (f_files f) < length (f_files f')))).
Proof.
  intros f f' t m ps G W. destruct (write_spec _ _ _ _ _ _ _ G W) as (A1 & A2 & A3 & A4).
  unfold write_steps. eexists. eexists. split; [reflexivity|].
  destruct (skipped f t m) eqn:SK.
  { subst f'. split; left.
    - split; [|reflexivity]. destruct (nth_error (f_files f) (length (f_files f))) eqn:E; [|reflexivity].
      exfalso. assert (H : nth_error (f_files f) (length (f_files f)) <> None) by congruence. apply nth_error_Some in H. lia.
    - split; [|auto]. destruct (nth_error (f_once_list f) (length (f_once_list f))) eqn:E; [|reflexivity].
      exfalso. assert (H : nth_error (f_once_list f) (length (f_once_list f)) <> None) by congruence. apply nth_error_Some in H. lia. }
  destruct A4 as (_ & FL & _ & _ & _ & A5). cbv zeta in A5.
  set (once := match f_vars_once f with [] => [] | _ => filter (first_write close f t) ps end) in *.
  destruct A5 as (_ & OL & OS).
  split.
  - unfold main_files in FL. cbn [map snd filter] in FL. destruct (nonempty (to_record t m ps)); cbn [map] in FL.
    + right. eexists. split; [|exact FL]. rewrite FL. rewrite nth_error_app2 by lia. rewrite Nat.sub_diag. reflexivity.
    + left. rewrite app_nil_r in FL. split; [|exact FL]. rewrite FL.
      destruct (nth_error (f_files f) (length (f_files f))) eqn:E; [|reflexivity].
      exfalso. assert (H : nth_error (f_files f) (length (f_files f)) <> None) by congruence. apply nth_error_Some in H. lia.
  - destruct once as [|o1 orest] eqn:EO; cbn [filter nonempty map app] in OL, OS.
    + left. rewrite app_nil_r in OL. split; [|auto]. rewrite OL.
      destruct (nth_error (f_once_list f) (length (f_once_list f))) eqn:E; [|reflexivity].
      exfalso. assert (H : nth_error (f_once_list f) (length (f_once_list f)) <> None) by congruence. apply nth_error_Some in H. lia.
    + right. eexists. split; [|split; [exact OL|split; [exact OS|]]].
      * rewrite OL, OS, nth_error_app2, Nat.sub_diag by lia. reflexivity.
      * intros RS. rewrite FL, app_length. unfold main_files. cbn [map snd filter].
        assert (NE : nonempty (to_record t m ps) = true).
        { assert (NEq : forall l : list (wp V), l <> [] -> nonempty l = true) by (intros [|? ?]; [congruence|reflexivity]).
          destruct m as [| |bb]; [|apply NEq; exact RS|apply NEq; exact RS].
          cbn [to_record]. assert (O1 : In o1 (filter (first_write close f t) ps)).
          { revert EO. unfold once. destruct (f_vars_once f); intros EO; [discriminate|]. rewrite EO. left. reflexivity. }
          apply filter_In in O1. destruct O1 as [O1 O2]. unfold first_write in O2. rewrite (to_write_active close) in O2.
          apply andb_true_iff in O2. destruct O2 as [O2 _]. apply andb_true_iff in O2. destruct O2 as [O2 _].
          destruct (filter (active t) ps) as [|q l] eqn:FF; [|reflexivity]. exfalso.
          assert (Q : In o1 (filter (active t) ps)) by (apply filter_In; auto). rewrite FF in Q. contradiction. }
        rewrite NE. cbn. lia.
Qed.

(** What a directory holds of the bookkeeping [f]. *)
Definition holds_files (f : pfile V) (d : disk) : Prop :=
  forall k x, nth_error (f_files f) k = Some x -> load_npy d (Main k) = Some x.
Definition holds_once (f : pfile V) (d : disk) : Prop :=
  Forall (fun k => k <= length (f_files f)) (f_once_list f) /\
  forall k, In k (f_once_list f) -> load_npy d (Once k) = load (f_once_store f) k.

Lemma load_npy_app : forall (x y : disk) n, contents x n = None -> load_npy (x ++ y) n = load_npy y n.
Proof. intros x y n H. unfold load_npy. rewrite contents_app, H. reflexivity. Qed.

(** All steps of a write. *)
Lemma whole_write : forall f f' t m ps (d : disk), good_write (t, m, ps) -> write f t m ps = Some f' ->
  holds_files f d ->
  let d' := rev (write_steps f f') ++ d in
  holds_files f' d' /\ (holds_once f d -> holds_once f' d') /\ load_info d' = Some (info_of f').
Proof.
  intros f f' t m ps d G W HF. cbv zeta. destruct (write_steps_parts _ _ _ _ _ G W) as (a & b & E & A & B). rewrite E.
  split; [|split].
  - intros k x K. unfold load_npy. rewrite !rev_app_distr, <- !app_assoc. rewrite contents_app. cbn [save rev app contents fname_eqb].
    rewrite contents_app. assert (NB : contents (rev b) (Main k) = None).
    { destruct B as [(-> & _)|(y & -> & _)]; reflexivity. }
    rewrite NB. rewrite contents_app. destruct A as [(-> & FF)|(y & -> & FF)]; cbn [rev app save contents fname_eqb].
    + rewrite FF in K. apply HF in K. exact K.
    + rewrite FF in K. destruct (length (f_files f) =? k) eqn:EK.
      * apply Nat.eqb_eq in EK. subst k. rewrite nth_error_app2, Nat.sub_diag in K by lia. cbn in K. congruence.
      * apply Nat.eqb_neq in EK. rewrite nth_error_app1 in K; [apply HF in K; exact K|].
        assert (k < length (f_files f ++ [y])) by (apply nth_error_Some; congruence). rewrite app_length in H. cbn in H. lia.
  - intros [HL HO].
    assert (LE : length (f_files f) <= length (f_files f')).
    { destruct A as [(_ & FF)|(y & _ & FF)]; rewrite FF, ?app_length; lia. }
    split.
    + destruct B as [(_ & OL & _)|(y & _ & OL & _)]; rewrite OL.
      * eapply Forall_impl; [|exact HL]. cbn. lia.
      * apply Forall_app. split; [eapply Forall_impl; [|exact HL]; cbn; lia|repeat constructor].
    + intros k K. unfold load_npy. rewrite !rev_app_distr, <- !app_assoc. rewrite contents_app. cbn [save rev app contents fname_eqb].
      rewrite contents_app.
      assert (NA : contents (rev a ++ d) (Once k) = contents d (Once k)).
      { rewrite contents_app. destruct A as [(-> & _)|(y & -> & _)]; reflexivity. }
      rewrite NA. destruct B as [(-> & OL & OS)|(y & -> & OL & OS & _)]; cbn [rev app save contents fname_eqb].
      * rewrite OL in K. rewrite OS. apply HO. exact K.
      * rewrite OS. cbn [load]. rewrite OL in K. destruct (length (f_files f') =? k) eqn:EK; [reflexivity|].
        apply in_app_or in K. destruct K as [K|[K|[]]]; [apply HO; exact K|]. apply Nat.eqb_neq in EK. contradiction.
  - unfold load_info. rewrite !rev_app_distr. reflexivity.
Qed.

Lemma in_rev_firstn : forall A n (l : list A) x, In x (rev (firstn n l)) -> In x l.
Proof.
  intros A n l x I. rewrite <- in_rev in I. revert l I. induction n as [|n IH]; intros [|y l]; cbn; try contradiction.
  intros [->|I]; [left; reflexivity|right; apply IH; exact I].
Qed.

(** Some of the steps of a write, but not those on pset_info. *)
Lemma part_write : forall f f' t m ps (d : disk) j, good_write (t, m, ps) -> write f t m ps = Some f' ->
  j < length (write_steps f f') ->
  let d' := rev (firstn j (write_steps f f')) ++ d in
  (holds_files f d -> holds_files f d') /\ (records_something (t, m, ps) -> holds_once f d -> holds_once f d') /\
  load_info d' = if S j =? length (write_steps f f') then None else load_info d.
Proof.
  intros f f' t m ps d j G W J. cbv zeta. destruct (write_steps_parts _ _ _ _ _ G W) as (a & b & E & A & B).
  set (s := save PsetInfo (Info (info_of f'))) in *.
  assert (LE : length (write_steps f f') = length (a ++ b) + 2) by (rewrite E, !app_length; cbn; lia).
  assert (PART : firstn j (write_steps f f') = firstn j (a ++ b) ++ (if S j =? length (write_steps f f') then [(PsetInfo, Broken)] else [])).
  { rewrite LE. rewrite E, app_assoc. rewrite firstn_app. f_equal. destruct (S j =? length (a ++ b) + 2) eqn:Q.
    - apply Nat.eqb_eq in Q. replace (j - length (a ++ b)) with 1 by lia. reflexivity.
    - apply Nat.eqb_neq in Q. replace (j - length (a ++ b)) with 0 by lia. reflexivity. }
  assert (IN : forall n c, In (n, c) (rev (firstn j (write_steps f f'))) -> In (n, c) (a ++ b) \/ n = PsetInfo).
  { intros n c I. rewrite PART, rev_app_distr in I. apply in_app_or in I. destruct I as [I|I].
    - right. destruct (S j =? _); cbn in I; [destruct I as [I|[]]; congruence|contradiction].
    - left. apply in_rev_firstn in I. exact I. }
  split; [|split].
  - intros HF k x K. rewrite load_npy_app; [apply HF; exact K|]. apply contents_none. intros n c I C. subst n.
    destruct (IN _ _ I) as [Q|Q]; [|discriminate]. apply in_app_or in Q.
    assert (KL : k < length (f_files f)) by (apply nth_error_Some; congruence).
    destruct Q as [Q|Q].
    + destruct A as [(-> & _)|(y & -> & _)]; [contradiction|]. cbn in Q. destruct Q as [Q|[Q|[]]]; inversion Q; lia.
    + destruct B as [(-> & _)|(y & -> & _)]; [contradiction|]. cbn in Q. destruct Q as [Q|[Q|[]]]; inversion Q.
  - intros RS [HL HO]. split; [exact HL|]. intros k K. rewrite load_npy_app; [apply HO; exact K|].
    apply contents_none. intros n c I C. subst n. destruct (IN _ _ I) as [Q|Q]; [|discriminate]. apply in_app_or in Q.
    rewrite Forall_forall in HL. specialize (HL _ K).
    destruct Q as [Q|Q].
    + destruct A as [(-> & _)|(y & -> & _)]; [contradiction|]. cbn in Q. destruct Q as [Q|[Q|[]]]; inversion Q.
    + destruct B as [(-> & _)|(y & -> & _ & _ & GR)]; [contradiction|]. specialize (GR RS).
      cbn in Q. destruct Q as [Q|[Q|[]]]; inversion Q; lia.
  - unfold load_info. rewrite contents_app. rewrite PART, rev_app_distr, contents_app.
    assert (NO : contents (rev (firstn j (a ++ b))) PsetInfo = None).
    { apply contents_none. intros n c I C. subst n. apply in_rev_firstn in I. apply in_app_or in I. destruct I as [Q|Q].
      - destruct A as [(-> & _)|(y & -> & _)]; [contradiction|]. cbn in Q. destruct Q as [Q|[Q|[]]]; inversion Q.
      - destruct B as [(-> & _)|(y & -> & _)]; [contradiction|]. cbn in Q. destruct Q as [Q|[Q|[]]]; inversion Q. }
    rewrite NO. destruct (S j =? length (write_steps f f')); reflexivity.
Qed.

(** A process: the directory after [n] steps. *)
Lemma process_disk : forall ws f l (d : disk) n, Forall good_write ws -> run_steps f ws = Some l -> holds_files f d ->
  let d' := disk_after n l ++ d in
  exists f', writes f (firstn (returned n l) ws) = Some f' /\ holds_files f' d' /\
    (Forall records_something ws -> holds_once f d -> holds_once f' d') /\
    (dies_in_info n l -> load_info d' = None) /\
    (~ dies_in_info n l -> load_info d' = if (returned n l =? 0)%nat then load_info d else Some (info_of f')).
Proof.
  induction ws as [|[[t m] ps] ws IH]; intros f l d n G R HF; cbn [CrashModel.run_steps] in R.
  - inversion R; subst l. cbv zeta. assert (E0 : disk_after n (@nil (list (step V))) = []) by (unfold disk_after; cbn [concat]; rewrite firstn_nil; reflexivity).
    rewrite E0. cbn [returned firstn app]. exists f. cbn [OutModel.writes]. split; [reflexivity|]. split; [exact HF|]. split; [auto|]. split; [intros []|reflexivity].
  - apply Forall_cons_iff in G. destruct G as [G1 G2].
    destruct (write f t m ps) as [f1|] eqn:W; [|discriminate].
    destruct (run_steps f1 ws) as [l1|] eqn:R1; [|discriminate]. inversion R; subst l; clear R.
    set (s := write_steps f f1) in *. cbv zeta. cbn [returned].
    destruct (length s <=? n) eqn:LN.
    + apply Nat.leb_le in LN.
      assert (DE : disk_after n (s :: l1) ++ d = disk_after (n - length s) l1 ++ (rev s ++ d)).
      { unfold disk_after. cbn [concat]. rewrite firstn_app, firstn_all2 by lia. rewrite rev_app_distr, app_assoc. reflexivity. }
      rewrite DE. destruct (whole_write f f1 t m ps d G1 W HF) as (HF1 & HO1 & LI1). fold s in HF1, HO1, LI1.
      destruct (IH f1 l1 (rev s ++ d) (n - length s) G2 R1 HF1) as (f' & WW & HF' & HO' & DI & NI).
      exists f'. cbn [firstn OutModel.writes]. rewrite W. split; [exact WW|]. split; [exact HF'|]. split; [|split].
      * intros RS HO. apply Forall_cons_iff in RS. destruct RS as [RS1 RS2]. apply HO'; [exact RS2|]. apply HO1. exact HO.
      * intros D. apply DI. unfold dies_in_info in *. cbn [returned] in D. rewrite (proj2 (Nat.leb_le _ _) LN) in D. cbn [nth_error] in D.
        destruct (nth_error l1 (returned (n - length s) l1)); [|exact D].
        cbn [firstn concat] in D. rewrite app_length in D. cbn [firstn] in *. lia.
      * intros D. cbn [Nat.eqb]. rewrite NI.
        -- destruct (returned (n - length s) l1 =? 0) eqn:Z0; [|reflexivity]. apply Nat.eqb_eq in Z0. rewrite LI1.
           rewrite Z0 in WW. cbn in WW. inversion WW. reflexivity.
        -- intros D'. apply D. unfold dies_in_info in *. cbn [returned]. rewrite (proj2 (Nat.leb_le _ _) LN). cbn [nth_error].
           destruct (nth_error l1 (returned (n - length s) l1)); [|exact D'].
           cbn [firstn concat]. rewrite app_length. cbn [firstn] in *. lia.
    + apply Nat.leb_gt in LN.
      assert (DE : disk_after n (s :: l1) ++ d = rev (firstn n s) ++ d).
      { unfold disk_after. cbn [concat]. rewrite firstn_app. replace (n - length s) with 0 by lia. cbn [firstn]. rewrite app_nil_r. reflexivity. }
      rewrite DE. destruct (part_write f f1 t m ps d n G1 W LN) as (HF1 & HO1 & LI1). fold s in HF1, HO1, LI1.
      exists f. cbn [firstn OutModel.writes]. split; [reflexivity|]. split; [apply HF1; exact HF|]. split; [|split].
      * intros RS HO. apply Forall_cons_iff in RS. destruct RS as [RS1 RS2]. apply HO1; assumption.
      * unfold dies_in_info. cbn [returned]. rewrite (proj2 (Nat.leb_gt _ _) LN). cbn [nth_error firstn concat]. rewrite app_nil_r.
        intros D. rewrite LI1. replace (S n) with (n + 1) by lia. rewrite D, Nat.eqb_refl. reflexivity.
      * unfold dies_in_info. cbn [returned]. rewrite (proj2 (Nat.leb_gt _ _) LN). cbn [nth_error firstn concat Nat.eqb]. rewrite app_nil_r.
        intros D. rewrite LI1. replace (S n) with (n + 1) by lia. destruct (n + 1 =? length s) eqn:Q; [apply Nat.eqb_eq in Q; contradiction|reflexivity].
Qed.

End Disk.
