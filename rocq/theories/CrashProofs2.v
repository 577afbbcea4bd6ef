(** Proofs for C53: the file made from the directories of all processes. *)
From Coq Require Import String List ZArith Bool Arith Lia ZifyBool Sorted.
From Verif Require Import CollModel OutModel OutSpec OutProofs CrashModel CrashSpec CrashProofs.
Import ListNotations.

Section Joint.
Context {V : Type}.
Variable close : Z -> Z -> bool.
Variable warn_tol : Z.
Notation write := (@write V close warn_tol).
Notation writes := (@writes V close warn_tol).
Notation run_steps := (@run_steps V close warn_tol).
Notation disk := (disk V).
Notation run := (process V * list (list (step V)))%type.

Variable od : bool.
Variable vars once : list string.
Definition made (pl : run) : Prop :=
  Forall good_write (pr_writes (fst pl)) /\ run_steps (pfile0 od vars once) (pr_writes (fst pl)) = Some (snd pl).

Lemma forall_firstn : forall A (P : A -> Prop) n l, Forall P l -> Forall P (firstn n l).
Proof.
  intros A P n. induction n as [|n IH]; intros [|x l] F; cbn; try constructor; inversion F; subst; auto.
Qed.

Lemma run_length : forall ws f l, run_steps f ws = Some l -> length l = length ws.
Proof.
  induction ws as [|[[t m] ps] ws IH]; intros f l R; cbn in R; [inversion R; reflexivity|].
  destruct (write f t m ps) as [f1|]; [|discriminate]. destruct (run_steps f1 ws) eqn:R1; [|discriminate].
  inversion R; subst. cbn. f_equal. eapply IH. exact R1.
Qed.
Lemma returned_le : forall l n, returned (V:=V) n l <= length l.
Proof. induction l as [|s l IH]; intros n; cbn; [lia|]. destruct (_ <=? _); [|lia]. specialize (IH (n - length s)). lia. Qed.

Lemma done_nonempty : forall pl, made pl -> done_by pl = [] <-> returned (pr_dies (fst pl)) (snd pl) = 0.
Proof.
  intros [p l] [_ R]. unfold done_by. cbn [fst snd] in *. pose proof (run_length _ _ _ R) as L.
  pose proof (returned_le l (pr_dies p)) as LE. destruct (returned (pr_dies p) l); [split; reflexivity|].
  split; [|discriminate]. destruct (pr_writes p); cbn in *; [lia|discriminate].
Qed.

(** One process. *)
Lemma one_disk : forall pl, made pl -> exists f,
  writes (pfile0 od vars once) (done_by pl) = Some f /\ holds_files f (left_by pl) /\
  (Forall records_something (pr_writes (fst pl)) -> holds_once f (left_by pl)) /\
  (info_intact pl -> load_info (left_by pl) = Some (info_of f)) /\
  (~ info_intact pl -> load_info (left_by pl) = None).
Proof.
  intros pl M. pose proof M as M0. destruct M as [G R]. destruct (process_disk close warn_tol _ _ _ [] (pr_dies (fst pl)) G R) as (f & W & HF & HO & DI & NI).
  { intros k x K. destruct k; discriminate. }
  rewrite app_nil_r in *. exists f. fold (left_by pl) in *. split; [exact W|]. split; [exact HF|]. split; [|split].
  - intros RS. apply HO; [exact RS|]. split; [constructor|intros k []].
  - intros [DN ND]. rewrite (NI ND). rewrite (done_nonempty pl M0) in DN.
    destruct (returned _ _ =? 0) eqn:E; [apply Nat.eqb_eq in E; contradiction|reflexivity].
  - intros NII. destruct (nth_error (snd pl) (returned (pr_dies (fst pl)) (snd pl))) eqn:NE.
    + destruct (Nat.eq_dec (pr_dies (fst pl) + 1) (length (concat (firstn (S (returned (pr_dies (fst pl)) (snd pl))) (snd pl))))) as [Q|Q].
      * apply DI. unfold dies_in_info. rewrite NE. exact Q.
      * assert (ND : ~ dies_in_info (pr_dies (fst pl)) (snd pl)) by (unfold dies_in_info; rewrite NE; exact Q).
        rewrite (NI ND). destruct (returned _ _ =? 0) eqn:E; [reflexivity|]. exfalso. apply NII. split; [|exact ND].
        intros C. apply (done_nonempty pl M0) in C. apply Nat.eqb_neq in E. contradiction.
    + assert (ND : ~ dies_in_info (pr_dies (fst pl)) (snd pl)) by (unfold dies_in_info; rewrite NE; auto).
      rewrite (NI ND). destruct (returned _ _ =? 0) eqn:E; [reflexivity|]. exfalso. apply NII. split; [|exact ND].
      intros C. apply (done_nonempty pl M0) in C. apply Nat.eqb_neq in E. contradiction.
Qed.

Lemma each_some : forall A B (f : A -> option B) l r, length l = length r ->
  (forall k a b, nth_error l k = Some a -> nth_error r k = Some b -> f a = Some b) -> each f l = Some r.
Proof.
  intros A B f l. induction l as [|a l IH]; intros [|b r] L H; try discriminate; [reflexivity|]. cbn.
  rewrite (H 0 a b eq_refl eq_refl). rewrite (IH r); [reflexivity|cbn in L; lia|]. intros k. exact (H (S k)).
Qed.
Lemma each_map : forall A B C (g : C -> A) (f : A -> option B) l, each f (map g l) = each (fun c => f (g c)) l.
Proof. intros A B C g f l. induction l as [|c l IH]; [reflexivity|]. cbn. rewrite IH. reflexivity. Qed.
Lemma each_none : forall A B (f : A -> option B) l a, In a l -> f a = None -> each f l = None.
Proof.
  intros A B f l a. induction l as [|x l IH]; intros I N; [contradiction|]. cbn. destruct I as [->|I]; [rewrite N; reflexivity|].
  rewrite (IH I N). destruct (f x); reflexivity.
Qed.

(** All processes. *)
Lemma all_disks : forall runs, Forall made runs -> exists fs,
  Forall2 (fun pl f => writes (pfile0 od vars once) (done_by pl) = Some f /\ holds_files f (left_by pl) /\
     (Forall records_something (pr_writes (fst pl)) -> holds_once f (left_by pl)) /\
     (info_intact pl -> load_info (left_by pl) = Some (info_of f))) runs fs.
Proof.
  induction runs as [|pl runs IH]; intros M; [exists []; constructor|]. inversion M as [|? ? M1 M2]; subst.
  destruct (IH M2) as (fs & F). destruct (one_disk pl M1) as (f & A & B & C & D & _). exists (f :: fs). constructor; auto.
Qed.

Lemma infos : forall runs fs,
  Forall2 (fun pl f => writes (pfile0 od vars once) (done_by pl) = Some f /\ holds_files f (left_by pl) /\
     (Forall records_something (pr_writes (fst pl)) -> holds_once f (left_by pl)) /\
     (info_intact pl -> load_info (left_by pl) = Some (info_of f))) runs fs ->
  Forall info_intact runs -> all_infos (map left_by runs) = Some (map info_of fs).
Proof.
  intros runs fs F. unfold all_infos. induction F as [|pl f runs fs H F IH]; intros I; [reflexivity|].
  inversion I; subst. cbn. destruct H as (_ & _ & _ & H). rewrite (H H2), (IH H3). reflexivity.
Qed.

Lemma files_back : forall (f : pfile V) d, holds_files f d -> each (load_npy d) (main_names (info_of f)) = Some (f_files f).
Proof.
  intros f d H. unfold main_names, info_of. cbn [i_files]. apply each_some.
  - rewrite map_length, seq_length. reflexivity.
  - intros k a b A B. assert (K : k < length (f_files f)) by (apply nth_error_Some; congruence).
    rewrite nth_error_map in A. rewrite (nth_error_nth' _ 0) in A by (rewrite seq_length; exact K).
    rewrite seq_nth in A by exact K. cbn in A. inversion A; subst. apply H. exact B.
Qed.
Lemma once_back : forall (f : pfile V) d, holds_once f d ->
  each (load_npy d) (once_names (info_of f)) = load_all (f_once_store f) (f_once_list f).
Proof.
  intros f d [_ H]. unfold once_names, info_of. cbn [i_once]. rewrite each_map. induction (f_once_list f) as [|k l IH]; [reflexivity|].
  cbn. rewrite H by (left; reflexivity). rewrite IH by (intros j J; apply H; right; exact J). reflexivity.
Qed.

Definition related (pl : run) (f : pfile V) : Prop :=
  writes (pfile0 od vars once) (done_by pl) = Some f /\ holds_files f (left_by pl) /\
     (Forall records_something (pr_writes (fst pl)) -> holds_once f (left_by pl)) /\
     (info_intact pl -> load_info (left_by pl) = Some (info_of f)).

Lemma main_back : forall runs fs, Forall2 related runs fs ->
  global_files main_names (map left_by runs) (map info_of fs) = Some (concat (map (@f_files V) fs)).
Proof.
  intros runs fs F. unfold global_files.
  assert (E : each (fun di : disk * info => each (load_npy (fst di)) (main_names (snd di))) (combine (map left_by runs) (map info_of fs)) = Some (map (@f_files V) fs)).
  { induction F as [|pl f runs fs H F IH]; [reflexivity|]. cbn [map combine each fst snd]. destruct H as (_ & H & _).
    rewrite (files_back _ _ H), IH. reflexivity. }
  rewrite E. reflexivity.
Qed.

Lemma fold_max_ge : forall (l : list info) m, (m <= fold_left (fun m i => Z.max m (i_maxid i)) l m)%Z /\
  forall i, In i l -> (i_maxid i <= fold_left (fun m i => Z.max m (i_maxid i)) l m)%Z.
Proof.
  induction l as [|a l IH]; intros m; cbn; [split; [lia|contradiction]|]. destruct (IH (Z.max m (i_maxid a))) as [P Q].
  split; [lia|]. intros i [<-|I]; [lia|apply Q; exact I].
Qed.

Lemma recorded_app : forall i (a b : list (Z * list (wp V))), recorded_at i (a ++ b) = recorded_at i a ++ recorded_at i b.
Proof. intros. unfold recorded_at. apply flat_map_app. Qed.

Lemma joint_nodup : forall (wss : list (list (Z * dmode * list (wp V)))) i,
  apart (map (expected od None) wss) -> (forall ws, In ws wss -> NoDup (recorded_at i (expected od None ws))) ->
  NoDup (recorded_at i (joint_log od wss)).
Proof.
  intros wss i. unfold joint_log. induction wss as [|ws wss IH]; intros A N; cbn [flat_map]; [constructor|].
  destruct A as [A1 A2]. rewrite recorded_app. apply nodup_app_intro.
  - apply N. left. reflexivity.
  - apply IH; [exact A2|]. intros w W. apply N. right. exact W.
  - intros x X Y. assert (NE : recorded_at i (expected od None ws) <> []) by (intros C; rewrite C in X; contradiction).
    clear IH. revert Y. induction wss as [|w wss IH]; cbn [flat_map]; [contradiction|]. rewrite recorded_app.
    rewrite (A1 (expected od None w) i); [|left; reflexivity|exact NE]. cbn [app]. apply IH.
    + intros b j B. apply A1. right. exact B.
    + destruct A2. assumption.
    + intros w' [<-|W']; [apply N; left; reflexivity|]. apply N. right. right. exact W'.
Qed.

Lemma in_combine2 : forall A B (R : A -> B -> Prop) l r a, Forall2 R l r -> In a l -> exists b, In b r /\ R a b.
Proof.
  intros A B R l r a F. induction F as [|x y l r H F IH]; intros I; [contradiction|]. destruct I as [->|I].
  - exists y. split; [left; reflexivity|exact H].
  - destruct (IH I) as (b & P & Q). exists b. split; [right; exact P|exact Q].
Qed.

(** The ordinary variables. *)
Lemma crash_main : forall runs var, Forall made runs -> Forall info_intact runs -> In var vars ->
  apart (map (expected od None) (map done_by runs)) ->
  (forall pl i, In pl runs -> NoDup (recorded_at i (expected od None (done_by pl)))) ->
  exists rows, export_disks false (map left_by runs) var = Some rows /\ exact_matrix var (joint_log od (map done_by runs)) rows.
Proof.
  intros runs var M I IV AP ND. destruct (all_disks runs M) as (fs & F). pose proof F as F0. change (Forall2 related runs fs) in F0.
  unfold export_disks. rewrite (infos _ _ F I), (main_back _ _ F0).
  assert (FL : concat (map (@f_files V) fs) = main_files vars (joint_log od (map done_by runs))).
  { clear -F0 M. unfold joint_log. induction F0 as [|pl f runs fs H F IH]; [reflexivity|]. inversion M as [|? ? M1 M2]; subst.
    cbn [map concat flat_map]. rewrite main_files_app, (IH M2). f_equal. destruct H as (W & _). destruct M1 as [G _].
    destruct (writes_spec _ _ _ _ _ (forall_firstn _ _ _ _ G) W) as (_ & _ & _ & FL & _). exact FL. }
  assert (LOG : forall t sel p, In (t, sel) (joint_log od (map done_by runs)) -> In p sel ->
     (0 <= w_id p <= global_maxid (map info_of fs))%Z /\ In t (flat_map i_times (map info_of fs))).
  { intros t sel p L P. unfold joint_log in L. apply in_flat_map in L. destruct L as (ws & W & L). apply in_map_iff in W.
    destruct W as (pl & <- & PL). destruct (in_combine2 _ _ _ _ _ pl F0 PL) as (f & FI & (W & _)).
    rewrite Forall_forall in M. destruct (M pl PL) as [G _].
    destruct (writes_spec _ _ _ _ _ (forall_firstn _ _ _ _ G) W) as (_ & _ & _ & _ & _ & IN & _).
    cbn [pfile0 f_ondelete f_last] in IN. destruct (IN t sel p L P) as [MX TI].
    pose proof (good_log close warn_tol (done_by pl) od None (forall_firstn _ _ _ _ G)) as GL. rewrite Forall_forall in GL.
    destruct (GL _ L) as [_ NN]. cbn in NN. rewrite Forall_forall in NN. specialize (NN p P).
    destruct (fold_max_ge (map info_of fs) (-1)) as [_ Q]. specialize (Q (info_of f) (in_map _ _ _ FI)). cbn [i_maxid info_of] in Q.
    split; [unfold global_maxid; lia|]. apply in_flat_map. exists (info_of f). split; [apply in_map; exact FI|exact TI]. }
  assert (NDS : forall t sel, In (t, sel) (joint_log od (map done_by runs)) -> NoDup (map w_id sel)).
  { intros t sel L. unfold joint_log in L. apply in_flat_map in L. destruct L as (ws & W & L). apply in_map_iff in W.
    destruct W as (pl & <- & PL). rewrite Forall_forall in M. destruct (M pl PL) as [G _].
    pose proof (good_log close warn_tol (done_by pl) od None (forall_firstn _ _ _ _ G)) as GL. rewrite Forall_forall in GL. apply (GL _ L). }
  rewrite FL. apply (read_log_exact close warn_tol).
  - discriminate.
  - apply good_main; [exact IV|]. apply Forall_forall. intros [t sel] L. cbn [snd]. split; [eapply NDS; exact L|].
    apply Forall_forall. intros p P. destruct (LOG t sel p L P). lia.
  - apply fobs_main. exact IV.
  - apply Forall_forall. intros [t sel] L. cbn [snd]. apply Forall_forall. intros p P. apply (LOG t sel p L P).
  - intros i. rewrite values_length. unfold global_steps. apply NoDup_incl_length.
    + apply joint_nodup; [exact AP|]. intros ws W. apply in_map_iff in W. destruct W as (pl & <- & PL). apply ND. exact PL.
    + intros t T. apply nodup_In. destruct (recorded_at_in close _ i t T) as (sel & p & L & P & _). apply (LOG t sel p L P).
Qed.

(** The 'once' variables of one process. *)
Definition sel_log (sels : list (list (wp V))) : list (Z * list (wp V)) := map (fun sel => (0%Z, sel)) sels.
Lemma once_facts : forall ws f var, Forall good_write ws -> Forall records_something ws -> In var once ->
  writes (pfile0 od vars once) ws = Some f ->
  (forall i, appearances close i (effective od None ws) <> [] -> recorded_at i (expected od None ws) <> []) ->
  exists sels, load_all (f_once_store f) (f_once_list f) = Some (map (file_of once) sels) /\
    (forall sel, In sel sels -> NoDup (map w_id sel)) /\
    (forall sel p, In sel sels -> In p sel -> (0 <= w_id p <= f_maxid f)%Z) /\
    (forall i, recorded_at i (sel_log sels) <> [] <-> appearances close i (effective od None ws) <> []) /\
    (forall i, values i var (sel_log sels) = firstn 1 (map (fun p => w_val p var) (appearances close i (effective od None ws)))).
Proof.
  intros ws f var G RS IV W SUB.
  destruct (once_run close warn_tol ws _ _ var _ G RS (IV : In var (f_vars_once (pfile0 od vars once))) W (once_state0 _ _ _ _)) as (app' & E & (_ & fs & L & (sels & SE & SW) & VA & WR & ND)).
  cbn [app pfile0 f_ondelete f_last] in E.
  destruct (writes_spec _ _ _ _ _ G W) as (_ & _ & VO & _ & _ & IN & _). cbn [pfile0 f_ondelete f_last f_vars f_vars_once] in *.
  rewrite VO in SE.
  assert (WB : forall i, In i (f_written f) -> (0 <= i <= f_maxid f)%Z).
  { intros i I. assert (EX : existsb (Z.eqb i) (f_written f) = true) by (apply existsb_exists; exists i; split; [exact I|apply Z.eqb_refl]).
    rewrite WR in EX. assert (NE : app' i <> []) by (destruct (app' i); [discriminate|discriminate]).
    rewrite E in NE. specialize (SUB i NE). destruct (recorded_at i (expected od None ws)) as [|t ts] eqn:RA; [contradiction|].
    destruct (recorded_at_in close (expected od None ws) i t) as (sel & p & LG & P & Q); [rewrite RA; left; reflexivity|].
    destruct (IN t sel p LG P) as [MX _]. pose proof (good_log close warn_tol ws od None G) as GL. rewrite Forall_forall in GL.
    destruct (GL _ LG) as [_ NN]. cbn in NN. rewrite Forall_forall in NN. specialize (NN p P). lia. }
  assert (SELB : forall sel p, In sel sels -> In p sel -> In (w_id p) (f_written f)).
  { intros sel p S P. rewrite SW. apply in_flat_map. exists sel. split; [exact S|]. apply in_map. exact P. }
  exists sels. split; [rewrite L, SE; reflexivity|]. split; [|split; [|split]].
  - intros sel S. rewrite SW in ND. clear - ND S. induction sels as [|a l IH]; [contradiction|]. cbn in ND.
    destruct S as [<-|S]; [apply nodup_app_parts in ND; apply ND|]. apply IH; [apply nodup_app_parts in ND; apply ND|exact S].
  - intros sel p S P. apply WB. eapply SELB; eassumption.
  - intros i. rewrite <- E. specialize (WR i).
    assert (Q : recorded_at i (sel_log sels) <> [] <-> existsb (Z.eqb i) (f_written f) = true).
    { rewrite existsb_exists, SW. split.
      - intros RA. destruct (recorded_at i (sel_log sels)) as [|t ts] eqn:RE; [contradiction|].
        destruct (recorded_at_in close (sel_log sels) i t) as (sel & p & LG & P & QQ); [rewrite RE; left; reflexivity|].
        exists i. split; [|apply Z.eqb_refl]. unfold sel_log in LG. apply in_map_iff in LG. destruct LG as (sel' & EQ & S). inversion EQ; subst.
        apply in_flat_map. exists sel. split; [exact S|]. apply in_map. exact P.
      - intros (x & X & QQ). apply Z.eqb_eq in QQ. subst x. apply in_flat_map in X. destruct X as (sel & S & X).
        apply in_map_iff in X. destruct X as (p & <- & P). intros C.
        assert (IN0 : In 0%Z (recorded_at (w_id p) (sel_log sels))).
        { unfold recorded_at. apply in_flat_map. exists (0%Z, sel). split; [unfold sel_log; apply in_map; exact S|].
          apply in_map_iff. exists p. split; [reflexivity|]. apply filter_In. split; [exact P|apply Z.eqb_refl]. }
        rewrite C in IN0. contradiction. }
    rewrite Q, WR. destruct (app' i); cbn; split; congruence.
  - intros i. rewrite <- E, <- VA, SE. unfold values, once_values, sel_log.
    rewrite !flat_map_concat_map, !map_map. f_equal. apply map_ext. intros sel. cbn [snd].
    rewrite <- (once_values_file i var once sel IV). unfold once_values. cbn. rewrite app_nil_r. reflexivity.
Qed.

(** The 'once' variables of all processes. *)
Definition app_of (i : Z) (ws : list (Z * dmode * list (wp V))) : list (wp V) := appearances close i (effective od None ws).

Lemma once_joint : forall runs fs var, Forall2 related runs fs -> Forall made runs ->
  Forall (fun pl => Forall records_something (pr_writes (fst pl))) runs -> In var once ->
  (forall pl i, In pl runs -> app_of i (done_by pl) <> [] -> recorded_at i (expected od None (done_by pl)) <> []) ->
  exists selss, 
    global_files once_names (map left_by runs) (map info_of fs) = Some (map (file_of once) (concat selss)) /\
    (forall sel, In sel (concat selss) -> NoDup (map w_id sel)) /\
    (forall sel p, In sel (concat selss) -> In p sel -> (0 <= w_id p <= global_maxid (map info_of fs))%Z) /\
    (forall i, recorded_at i (sel_log (concat selss)) <> [] <-> exists ws, In ws (map done_by runs) /\ app_of i ws <> []) /\
    (forall i, values i var (sel_log (concat selss)) = flat_map (fun ws => firstn 1 (map (fun p => w_val p var) (app_of i ws))) (map done_by runs)).
Proof.
  intros runs fs var F M RS IV SUB.
  assert (X : exists selss,
    each (fun di : disk * info => each (load_npy (fst di)) (once_names (snd di))) (combine (map left_by runs) (map info_of fs)) = Some (map (map (file_of once)) selss) /\
    (forall sel, In sel (concat selss) -> NoDup (map w_id sel)) /\
    (forall sel p, In sel (concat selss) -> In p sel -> exists f, In f fs /\ (0 <= w_id p <= f_maxid f)%Z) /\
    (forall i, recorded_at i (sel_log (concat selss)) <> [] <-> exists ws, In ws (map done_by runs) /\ app_of i ws <> []) /\
    (forall i, values i var (sel_log (concat selss)) = flat_map (fun ws => firstn 1 (map (fun p => w_val p var) (app_of i ws))) (map done_by runs))).
  { induction F as [|pl f runs fs H F IH].
    - exists []. cbn. split; [reflexivity|]. split; [intros ? []|]. split; [intros ? ? []|]. split; [|reflexivity]. intros i. split; [intros C; exfalso; apply C; reflexivity|intros (ws & [] & _)].
    - inversion M as [|? ? M1 M2]; subst. inversion RS as [|? ? R1 R2]; subst.
      destruct (IH M2 R2) as (selss & E & A & B & C & D); [intros pl0 i P; apply SUB; right; exact P|].
      destruct H as (W & _ & HO & _). destruct M1 as [G _].
      destruct (once_facts (done_by pl) f var (forall_firstn _ _ _ _ G) (forall_firstn _ _ _ _ R1) IV W) as (sels & E1 & A1 & B1 & C1 & D1).
      { intros i. apply SUB. left. reflexivity. }
      exists (sels :: selss). cbn [map combine each fst snd concat]. rewrite (once_back _ _ (HO R1)), E1, E. split; [reflexivity|].
      assert (SL : sel_log (sels ++ concat selss) = sel_log sels ++ sel_log (concat selss)) by apply map_app.
      split; [|split; [|split]].
      + intros sel S. apply in_app_or in S. destruct S as [S|S]; [apply A1; exact S|apply A; exact S].
      + intros sel p S P. apply in_app_or in S. destruct S as [S|S].
        * exists f. split; [left; reflexivity|]. apply (B1 sel p S P).
        * destruct (B sel p S P) as (f' & FI & Q). exists f'. split; [right; exact FI|exact Q].
      + intros i. rewrite SL, recorded_app. specialize (C1 i). specialize (C i). fold (app_of i (done_by pl)) in C1. split.
        * intros N. destruct (recorded_at i (sel_log sels)) eqn:RA.
          -- cbn [app] in N. apply C in N. destruct N as (ws & P & Q). exists ws. split; [right; exact P|exact Q].
          -- exists (done_by pl). split; [left; reflexivity|]. apply C1. discriminate.
        * intros (ws & [<-|P] & Q).
          -- apply C1 in Q. destruct (recorded_at i (sel_log sels)); [contradiction|discriminate].
          -- assert (Q' : exists ws, In ws (map done_by runs) /\ app_of i ws <> []) by (exists ws; auto). apply C in Q'.
             destruct (recorded_at i (sel_log sels)); [exact Q'|discriminate].
      + intros i. rewrite SL. unfold values. rewrite flat_map_app. cbn [flat_map]. f_equal; [apply D1|apply D]. }
  destruct X as (selss & E & A & B & C & D). exists selss. unfold global_files. rewrite E.
  split; [rewrite concat_map; reflexivity|]. split; [exact A|]. split; [|split; [exact C|exact D]].
  intros sel p S P. destruct (B sel p S P) as (f & FI & Q). destruct (fold_max_ge (map info_of fs) (-1)) as [_ Z0].
  specialize (Z0 (info_of f) (in_map _ _ _ FI)). cbn [i_maxid info_of] in Z0. unfold global_maxid. lia.
Qed.

Lemma first_of_apart : forall (wss : list (list (Z * dmode * list (wp V)))) i (g : wp V -> V),
  apart (map (expected od None) wss) ->
  (forall ws, In ws wss -> app_of i ws <> [] -> recorded_at i (expected od None ws) <> []) ->
  flat_map (fun ws => firstn 1 (map g (app_of i ws))) wss = firstn 1 (map g (flat_map (app_of i) wss)).
Proof.
  intros wss i g. induction wss as [|ws wss IH]; intros AP SUB; [reflexivity|]. destruct AP as [A1 A2]. cbn [flat_map].
  rewrite map_app, first_first. destruct (app_of i ws) as [|q l] eqn:E.
  - cbn [map firstn app]. apply IH; [exact A2|]. intros w W. apply SUB. right. exact W.
  - cbn [map firstn app]. f_equal.
    assert (NE : recorded_at i (expected od None ws) <> []) by (apply SUB; [left; reflexivity|rewrite E; discriminate]).
    assert (Z0 : forall w, In w wss -> app_of i w = []).
    { intros w W. destruct (app_of i w) eqn:EW; [reflexivity|]. exfalso.
      apply (SUB w); [right; exact W|rewrite EW; discriminate|]. apply A1; [apply in_map; exact W|exact NE]. }
    clear -Z0. induction wss as [|w wss IH]; [reflexivity|]. cbn [flat_map]. rewrite (Z0 w (or_introl eq_refl)). cbn [map firstn app].
    apply IH. intros w' W'. apply Z0. right. exact W'.
Qed.

Lemma crash_once : forall runs var, Forall made runs -> Forall info_intact runs -> In var once ->
  Forall (fun pl => Forall records_something (pr_writes (fst pl))) runs ->
  apart (map (expected od None) (map done_by runs)) ->
  (forall pl i, In pl runs -> app_of i (done_by pl) <> [] -> recorded_at i (expected od None (done_by pl)) <> []) ->
  exists rows, export_disks_once (map left_by runs) var = Some rows /\ exact_vector close od var (map done_by runs) rows.
Proof.
  intros runs var M I IV RS AP SUB. destruct (all_disks runs M) as (fs & F). pose proof F as F0. change (Forall2 related runs fs) in F0.
  destruct (once_joint runs fs var F0 M RS IV SUB) as (selss & E & A & B & C & D).
  unfold export_disks_once. rewrite (infos _ _ F I), E. set (sels := concat selss) in *.
  assert (VL : forall i, values i var (sel_log sels) = firstn 1 (map (fun p => w_val p var) (flat_map (app_of i) (map done_by runs)))).
  { intros i. rewrite D. apply first_of_apart; [exact AP|]. intros ws W. apply in_map_iff in W. destruct W as (pl & <- & PL). apply SUB. exact PL. }
  destruct (read_log_exact close warn_tol true var (map (file_of once) sels) (sel_log sels) (global_maxid (map info_of fs)) 1) as (rows & R & EX).
  - auto.
  - apply Forall_forall. intros g X. apply in_map_iff in X. destruct X as (sel & <- & S).
    unfold good_npy, file_of. cbn. split; [apply A; exact S|]. split.
    + apply Forall_forall. intros i Y. apply in_map_iff in Y. destruct Y as (p & <- & Y). specialize (B sel p S Y). lia.
    + eexists. split; [apply assoc_columns; exact IV|]. rewrite !map_length. reflexivity.
  - unfold fobs, sel_log. rewrite !flat_map_concat_map, !map_map. f_equal. apply map_ext. intros sel. apply zobs_file. exact IV.
  - apply Forall_forall. intros tp X. unfold sel_log in X. apply in_map_iff in X. destruct X as (sel & <- & S). cbn.
    apply Forall_forall. intros p P. apply (B sel p S P).
  - intros i. rewrite VL. rewrite firstn_length. lia.
  - exists rows. split; [exact R|]. destruct EX as (ids & w & SS & II & RR & BB & AT). exists ids. split; [exact SS|].
    assert (III : forall i, In i ids <-> exists ws, In ws (map done_by runs) /\ app_of i ws <> []).
    { intros i. rewrite II. apply C. }
    split; [exact III|]. rewrite RR. apply map_ext_in. intros i IN. rewrite VL.
    assert (NE : flat_map (app_of i) (map done_by runs) <> []).
    { apply III in IN. destruct IN as (ws & P & Q). intros Z0. apply Q. destruct (app_of i ws) as [|q l] eqn:EQ; [reflexivity|].
      exfalso. assert (Y : In q (flat_map (app_of i) (map done_by runs))) by (apply in_flat_map; exists ws; split; [exact P|rewrite EQ; left; reflexivity]).
      rewrite Z0 in Y. contradiction. }
    change (fun ws => appearances close i (effective od None ws)) with (app_of i).
    destruct (flat_map (app_of i) (map done_by runs)) as [|q l] eqn:EQ; [contradiction|]. cbn [map firstn length].
    assert (W1 : w = 1).
    { specialize (BB i). rewrite VL, EQ in BB. cbn in BB. destruct AT as [AT|(j & J & AT)]; [lia|]. rewrite VL in AT.
      rewrite firstn_length in AT. lia. }
    subst w. reflexivity.
Qed.

(** The whole conversion. *)
Lemma each_pairs : forall A B (g : A -> option B) (l : list A), (forall a, In a l -> g a <> None) ->
  exists r, each (fun v => option_map (pair v) (g v)) l = Some r /\ map fst r = l /\ forall a b, In (a, b) r -> g a = Some b.
Proof.
  intros A B g l. induction l as [|a l IH]; intros H; [exists []; repeat split; contradiction|].
  destruct IH as (r & E & F & G); [intros x X; apply H; right; exact X|]. cbn.
  destruct (g a) as [b|] eqn:GA; [|exfalso; apply (H a); [left; reflexivity|exact GA]]. cbn. rewrite E. exists ((a, b) :: r).
  split; [reflexivity|]. split; [cbn; rewrite F; reflexivity|]. intros x y [X|X]; [inversion X; subst; exact GA|apply G; exact X].
Qed.

Lemma convert_first : forall b (ds : list disk) d0 rest i0, ds = d0 :: rest -> load_info d0 = Some i0 ->
  convert b ds = match each (fun v => option_map (pair v) (export_disks b ds v)) (i_vars i0),
                       each (fun v => option_map (pair v) (export_disks_once ds v)) (i_vars_once i0) with
                 | Some x, Some y => Some (x, y) | _, _ => None end.
Proof. intros b ds d0 rest i0 -> L. unfold convert. rewrite L. reflexivity. Qed.

Lemma crash_convert : forall runs, runs <> [] -> Forall made runs -> Forall info_intact runs ->
  apart (map (expected od None) (map done_by runs)) ->
  (forall pl i, In pl runs -> NoDup (recorded_at i (expected od None (done_by pl)))) ->
  (once = [] \/
   Forall (fun pl => Forall records_something (pr_writes (fst pl))) runs /\
   (forall pl i, In pl runs -> app_of i (done_by pl) <> [] -> recorded_at i (expected od None (done_by pl)) <> [])) ->
  exists a b, convert false (map left_by runs) = Some (a, b) /\ map fst a = vars /\ map fst b = once /\
    (forall v rows, In (v, rows) a -> exact_matrix v (joint_log od (map done_by runs)) rows) /\
    (forall v rows, In (v, rows) b -> exact_vector close od v (map done_by runs) rows).
Proof.
  intros runs NE M I AP ND ON.
  assert (D0 : exists d0 ds i0, map left_by runs = d0 :: ds /\ load_info d0 = Some i0 /\ i_vars i0 = vars /\ i_vars_once i0 = once).
  { destruct runs as [|pl0 runs0]; [contradiction|]. inversion M as [|? ? M0 _]; subst. inversion I as [|? ? I0 _]; subst.
    destruct (one_disk pl0 M0) as (f & W & _ & _ & LI & _). exists (left_by pl0), (map left_by runs0), (info_of f).
    split; [reflexivity|]. split; [apply LI; exact I0|].
    destruct M0 as [G _]. destruct (writes_spec _ _ _ _ _ (forall_firstn _ _ _ _ G) W) as (_ & V1 & V2 & _). auto. }
  destruct D0 as (d0 & ds & i0 & ED & LI & V1 & V2). rewrite (convert_first _ _ _ _ _ ED LI), V1, V2.
  destruct (each_pairs _ _ (export_disks false (map left_by runs)) vars) as (a & EA & FA & GA).
  { intros v IV. destruct (crash_main runs v M I IV AP ND) as (rows & E & _). rewrite E. discriminate. }
  destruct (each_pairs _ _ (export_disks_once (map left_by runs)) once) as (b & EB & FB & GB).
  { intros v IV. destruct ON as [ON|[RS SUB]]; [rewrite ON in IV; contradiction|].
    destruct (crash_once runs v M I IV RS AP SUB) as (rows & E & _). rewrite E. discriminate. }
  exists a, b. rewrite EA, EB. split; [reflexivity|]. split; [exact FA|]. split; [exact FB|]. split.
  - intros v rows IN. assert (IV : In v vars) by (rewrite <- FA; apply in_map_iff; exists (v, rows); auto).
    destruct (crash_main runs v M I IV AP ND) as (rows' & E & X). rewrite (GA v rows IN) in E. inversion E; subst. exact X.
  - intros v rows IN. assert (IV : In v once) by (rewrite <- FB; apply in_map_iff; exists (v, rows); auto).
    destruct ON as [ON|[RS SUB]]; [rewrite ON in IV; contradiction|].
    destruct (crash_once runs v M I IV RS AP SUB) as (rows' & E & X). rewrite (GB v rows IN) in E. inversion E; subst. exact X.
Qed.

(** One directory without a readable pset_info is enough to make no file at all. *)
Lemma crash_lost : forall runs pl, Forall made runs -> In pl runs -> ~ info_intact pl -> vars <> [] ->
  convert false (map left_by runs) = None.
Proof.
  intros runs pl M P NI NV. rewrite Forall_forall in M. destruct (one_disk pl (M pl P)) as (f & _ & _ & _ & _ & LN).
  specialize (LN NI).
  assert (AI : all_infos (map left_by runs) = None) by (apply (each_none _ _ _ _ (left_by pl)); [apply in_map; exact P|exact LN]).
  assert (EX : forall v, export_disks false (map left_by runs) v = None) by (intros v; unfold export_disks; rewrite AI; reflexivity).
  unfold convert. destruct (map left_by runs) as [|d0 ds] eqn:ED; [reflexivity|].
  destruct (load_info d0) as [i0|] eqn:L0; [|reflexivity].
  assert (V0 : i_vars i0 = vars).
  { destruct runs as [|pl0 runs0]; [discriminate|]. cbn in ED. inversion ED; subst d0.
    destruct (one_disk pl0 (M pl0 (or_introl eq_refl))) as (f0 & W & _ & _ & LI & LX).
    destruct (M pl0 (or_introl eq_refl)) as [G _].
    destruct (writes_spec _ _ _ _ _ (forall_firstn _ _ _ _ G) W) as (_ & V1 & V2 & _).
    assert (II : load_info (left_by pl0) = Some (info_of f0)).
    { assert (DEC : info_intact pl0 \/ ~ info_intact pl0).
      { unfold info_intact, dies_in_info. destruct (done_by pl0); [right; intros [C _]; contradiction|].
        destruct (nth_error (snd pl0) _); [|left; split; [discriminate|auto]].
        destruct (Nat.eq_dec (pr_dies (fst pl0) + 1) (length (concat (firstn (S (returned (pr_dies (fst pl0)) (snd pl0))) (snd pl0))))) as [Q|Q];
          [right; intros [_ C]; contradiction|left; split; [discriminate|exact Q]]. }
      destruct DEC as [DEC|DEC]; [apply LI; exact DEC|]. rewrite (LX DEC) in L0. discriminate. }
    rewrite II in L0. inversion L0; subst i0. exact V1. }
  rewrite V0. destruct vars as [|v vs]; [contradiction|]. cbn [each]. rewrite EX. reflexivity.
Qed.

(** Nobody dies. *)
Lemma returned_all : forall (l : list (list (step V))) n, length (concat l) <= n -> returned n l = length l.
Proof.
  induction l as [|s l IH]; intros n H; [reflexivity|]. cbn in *. rewrite app_length in H.
  destruct (Nat.leb_spec (length s) n) as [L|L]; [|lia]. f_equal. apply IH. lia.
Qed.
Lemma several_convert : forall runs, runs <> [] ->
  Forall (fun pl => Forall good_write (pr_writes (fst pl)) /\ pr_writes (fst pl) <> [] /\
                    run_steps (pfile0 od vars once) (pr_writes (fst pl)) = Some (snd pl) /\
                    (length (concat (snd pl)) <= pr_dies (fst pl))) runs ->
  apart (map (fun pl => expected od None (pr_writes (fst pl))) runs) ->
  (forall pl i, In pl runs -> NoDup (recorded_at i (expected od None (pr_writes (fst pl))))) ->
  (once = [] \/
   Forall (fun pl => Forall records_something (pr_writes (fst pl))) runs /\
   (forall pl i, In pl runs -> appearances close i (effective od None (pr_writes (fst pl))) <> [] ->
                 recorded_at i (expected od None (pr_writes (fst pl))) <> [])) ->
  exists a b, convert false (map left_by runs) = Some (a, b) /\ map fst a = vars /\ map fst b = once /\
    (forall v rows, In (v, rows) a -> exact_matrix v (joint_log od (map (fun pl => pr_writes (fst pl)) runs)) rows) /\
    (forall v rows, In (v, rows) b -> exact_vector close od v (map (fun pl => pr_writes (fst pl)) runs) rows).
Proof.
  intros runs NE M AP ND ON. rewrite Forall_forall in M.
  assert (RT : forall pl, In pl runs -> returned (pr_dies (fst pl)) (snd pl) = length (pr_writes (fst pl))).
  { intros pl P. destruct (M pl P) as (_ & _ & R & L). rewrite (returned_all _ _ L). eapply run_length. exact R. }
  assert (DN : forall pl, In pl runs -> done_by pl = pr_writes (fst pl)).
  { intros pl P. unfold done_by. rewrite (RT pl P). apply firstn_all. }
  assert (MD : map done_by runs = map (fun pl => pr_writes (fst pl)) runs) by (apply map_ext_in; exact DN).
  rewrite <- MD. apply crash_convert; [exact NE| | | | |].
  - apply Forall_forall. intros pl P. destruct (M pl P) as (G & _ & R & _). split; assumption.
  - apply Forall_forall. intros pl P. destruct (M pl P) as (G & N & R & L). split; [rewrite (DN pl P); exact N|].
    unfold dies_in_info. rewrite (RT pl P), <- (run_length _ _ _ R).
    assert (Z0 : nth_error (snd pl) (length (snd pl)) = None) by (apply nth_error_None; lia). rewrite Z0. auto.
  - rewrite MD, map_map. exact AP.
  - intros pl i P. rewrite (DN pl P). apply ND. exact P.
  - destruct ON as [ON|[RS SUB]]; [left; exact ON|right]. split; [exact RS|]. intros pl i P. unfold app_of. rewrite (DN pl P). apply SUB. exact P.
Qed.
End Joint.
