(** C18-C20: trajectory output. [close] stands for np.isclose and [warn_tol] for the tolerance of the
    warning of toDictionary; they are arbitrary. *)
From Coq Require Import String List ZArith Bool Lia ZifyBool Sorted.
From Verif Require Import CollModel OutModel OutSpec OutProofs.
Import ListNotations.
Open Scope string_scope.
Open Scope Z_scope.

Definition ex_close (a b : Z) : bool := a =? b.
Definition ex_wp (i t d s v : Z) : wp Z := mkWp i t d s (fun n => if (n =? "lon")%string then v else 100 * i).
(** Three writes (particle 4 is released late, 2 is about to be deleted), a write of the deleted particle,
    a repeated regular write and a last one. *)
Definition ex_ws : list (Z * dmode * list (wp Z)) :=
  [ (0, DFalse, [ex_wp 2 0 2 0 20; ex_wp 0 0 2 0 1; ex_wp 4 6 2 0 40]);
    (3, DFalse, [ex_wp 2 3 2 0 23; ex_wp 0 4 2 0 4; ex_wp 4 6 2 0 40]);
    (4, DMask [true; false; false], [ex_wp 2 4 2 op_Delete 24; ex_wp 0 4 2 0 4; ex_wp 4 6 2 0 40]);
    (6, DFalse, [ex_wp 0 6 2 0 6; ex_wp 4 6 2 0 40]);
    (6, DFalse, [ex_wp 0 6 2 0 66; ex_wp 4 6 2 0 66]);
    (9, DFalse, [ex_wp 0 9 2 0 9; ex_wp 4 9 2 0 49]) ].

Lemma ex_ws_good : Forall good_write ex_ws.
Proof.
  unfold ex_ws. repeat (constructor; [repeat split; cbn; repeat constructor; cbn; intuition (try congruence; try lia)|]). constructor.
Qed.

(** Particles 0, 2 and 4 by computation, no other particle is in the examples. *)
Ltac by_value := vm_compute; repeat constructor; cbn; intuition congruence.
Ltac by_id :=
  let i := fresh "i" in
  intros i; destruct (Z.eq_dec i 0); [subst i; by_value|];
  destruct (Z.eq_dec i 2); [subst i; by_value|]; destruct (Z.eq_dec i 4); [subst i; by_value|];
  let E0 := fresh in let E2 := fresh in let E4 := fresh in
  assert (E0 : (0 =? i) = false) by lia; assert (E2 : (2 =? i) = false) by lia; assert (E4 : (4 =? i) = false) by lia;
  repeat match goal with
  | |- context[expected ?a ?b ?c] => let l := eval vm_compute in (expected a b c) in change (expected a b c) with l
  | |- context[effective ?a ?b ?c] => let l := eval vm_compute in (effective a b c) in change (effective a b c) with l
  end;
  unfold recorded_at, appearances; cbn - [Z.eqb];
  repeat (first [rewrite E0 | rewrite E2 | rewrite E4]; cbn - [Z.eqb]);
  first [apply NoDup_nil | congruence].

(** * C18: the exported file contains exactly what was written. *)

(** Missing from the full statement: sessions in which a particle is recorded twice at one and the same
    time that is not the last one written (refuted below), and a temporary directory whose path contains
    "once" (refuted below). *)
Theorem export_exact_partial : forall (V : Type) close warn_tol ondelete vars once ws (f : pfile V) var,
  Forall good_write ws -> writes close warn_tol (pfile0 ondelete vars once) ws = Some f -> In var vars ->
  (forall i, NoDup (recorded_at i (expected ondelete None ws))) ->
  exists rows, export_var false f var = Some rows /\ exact_matrix var (expected ondelete None ws) rows.
Proof. intros V. exact export_all. Qed.
Print Assumptions export_exact_partial.

Example export_exact_partial_case :
  Forall good_write ex_ws /\
  (forall i, NoDup (recorded_at i (expected false None ex_ws))) /\
  exists f, writes ex_close 1 (pfile0 false ["lon"; "id"] []) ex_ws = Some f /\
  export_var false f "lon" =
    Some [ [Some 1; Some 4; Some 6; Some 9]; [Some 20; Some 23; Some 24; None]; [Some 40; Some 49; None; None] ].
Proof.
  split; [exact ex_ws_good|]. split.
  - by_id.
  - eexists. split; vm_compute; reflexivity.
Qed.

(** A run forward and then backward writes one particle at times 0, 1 and 0 again: three records, but
    only two distinct times, and the export raises IndexError. *)
Theorem export_there_and_back_refuted : exists (ws : list (Z * dmode * list (wp Z))) f,
  Forall good_write ws /\ writes ex_close 1 (pfile0 false ["lon"] []) ws = Some f /\
  values 0 "lon" (expected false None ws) = [5; 6; 7] /\ export_var false f "lon" = None.
Proof.
  exists [(0, DFalse, [ex_wp 0 0 1 0 5]); (1, DFalse, [ex_wp 0 1 1 0 6]); (0, DFalse, [ex_wp 0 0 (-1) 0 7])].
  eexists. split; [repeat (constructor; [repeat split; cbn; repeat constructor; cbn; intuition (try congruence; try lia)|]); constructor|].
  split; [vm_compute; reflexivity|]. vm_compute. auto.
Qed.
Print Assumptions export_there_and_back_refuted.

(** With "once" anywhere in the path of the temporary directory only the last record survives. *)
Theorem export_once_in_path_refuted : exists (ws : list (Z * dmode * list (wp Z))) f,
  Forall good_write ws /\ writes ex_close 1 (pfile0 false ["lon"] []) ws = Some f /\
  (forall i, NoDup (recorded_at i (expected false None ws))) /\
  values 0 "lon" (expected false None ws) = [5; 6] /\ export_var true f "lon" = Some [[Some 6]].
Proof.
  exists [(0, DFalse, [ex_wp 0 0 1 0 5]); (1, DFalse, [ex_wp 0 1 1 0 6])].
  eexists. split; [repeat (constructor; [repeat split; cbn; repeat constructor; cbn; intuition (try congruence; try lia)|]); constructor|].
  split; [vm_compute; reflexivity|]. split; [|vm_compute; auto].
  by_id.
Qed.
Print Assumptions export_once_in_path_refuted.

(** * C19: each write records each active particle once. *)

(** The saved files are the records that [expected] lists (empty ones leave no file). Missing from the
    full statement: deletions while the time of the last regular write is the time of the deletion, and
    the user calling write(deleted_only=True) when just the first particle is deleted (refuted below). *)
Theorem writes_recorded_partial : forall (V : Type) close warn_tol ondelete vars once ws (f : pfile V),
  Forall good_write ws -> writes close warn_tol (pfile0 ondelete vars once) ws = Some f ->
  f_files f = map (fun sel => mkNpy (map w_id sel) (map (fun v => (v, map (fun p => w_val p v) sel)) vars))
                  (filter nonempty (map snd (expected ondelete None ws))).
Proof. intros V. exact session_files. Qed.
Print Assumptions writes_recorded_partial.

Example writes_recorded_partial_case :
  Forall good_write ex_ws /\ exists f, writes ex_close 1 (pfile0 false ["lon"] []) ex_ws = Some f /\
  map n_ids (f_files f) = [[2; 0]; [2; 0]; [2]; [0; 4]; [0; 4]].
Proof. split; [exact ex_ws_good|]. eexists. split; vm_compute; reflexivity. Qed.

(** A second write at the same time changes nothing, whatever it is asked to write. *)
Theorem write_same_time : forall (V : Type) close warn_tol (f f1 : pfile V) t ps m ps2,
  f_ondelete f = false -> write close warn_tol f t DFalse ps = Some f1 ->
  write close warn_tol f1 t m ps2 = Some f1.
Proof. intros V. exact same_time_all. Qed.
Print Assumptions write_same_time.

Example write_same_time_case : exists f1,
  write ex_close 1 (pfile0 false ["lon"] []) 0 DFalse [ex_wp 0 0 1 0 5; ex_wp 1 7 1 0 6] = Some f1 /\
  length (f_files f1) = 1%nat /\ write ex_close 1 f1 0 DFalse [ex_wp 0 0 1 0 9] = Some f1.
Proof. eexists. split; [vm_compute; reflexivity|]. vm_compute. auto. Qed.

(** Kernel.remove_deleted passes the vector of the deleted particles: all of them are recorded, once, also
    with write_ondelete, unless the last regular write was at the very same time. *)
Theorem deletion_recorded_partial : forall (V : Type) close warn_tol (f : pfile V) t b ps,
  NoDup (map w_id ps) -> Forall (fun p => 0 <= w_id p) ps -> length b = length ps ->
  pointed b ps <> [] -> (forall p, In p (pointed b ps) -> w_st p = op_Delete) -> f_last f <> Some t ->
  exists f1, write close warn_tol f t (DMask b) ps = Some f1 /\
    f_files f1 = (f_files f ++ [mkNpy (map w_id (pointed b ps))
                                      (map (fun v => (v, map (fun p => w_val p v) (pointed b ps))) (f_vars f))])%list /\
    f_last f1 = f_last f.
Proof. intros V. exact deletion_all. Qed.
Print Assumptions deletion_recorded_partial.

Example deletion_recorded_partial_case : exists f1,
  write ex_close 1 (pfile0 true ["lon"] []) 4 (DMask [false; true]) [ex_wp 0 4 1 0 5; ex_wp 3 4 1 op_Delete 8] = Some f1 /\
  f_files f1 = [mkNpy [3] [("lon", [8])]].
Proof. eexists. split; vm_compute; reflexivity. Qed.

(** dt=0 run: the particle that the kernel deletes is never recorded in that state. *)
Theorem deletion_at_last_write_refuted : exists (f f1 : pfile Z) ps,
  write ex_close 1 (pfile0 false ["lon"] []) 0 DFalse [ex_wp 0 0 0 0 5] = Some f /\
  (exists p, In p (pointed [true] ps) /\ w_st p = op_Delete /\ w_val p "lon" = 6) /\
  write ex_close 1 f 0 (DMask [true]) ps = Some f1 /\ f_files f1 = [mkNpy [0] [("lon", [5])]].
Proof.
  eexists. eexists. exists [ex_wp 0 0 0 op_Delete 6]. split; [vm_compute; reflexivity|].
  split; [eexists; split; [left; reflexivity|vm_compute; auto]|]. split; vm_compute; reflexivity.
Qed.
Print Assumptions deletion_at_last_write_refuted.

(** write(pset, t, deleted_only=True) records nothing when the only deleted particle is the first one. *)
Theorem deleted_first_refuted : exists ps (f1 : pfile Z),
  (exists p, In p ps /\ w_st p = op_Delete) /\
  write ex_close 1 (pfile0 false ["lon"] []) 3 DTrue ps = Some f1 /\ f_files f1 = [].
Proof.
  exists [ex_wp 0 3 1 op_Delete 5; ex_wp 1 3 1 0 6]. eexists.
  split; [eexists; split; [left; reflexivity|reflexivity]|]. split; vm_compute; reflexivity.
Qed.
Print Assumptions deleted_first_refuted.

(** A write does not raise when the particles it records are at the time of the write (or deleted). *)
Theorem write_no_error_partial : forall (V : Type) close warn_tol (f : pfile V) t m ps,
  (forall p, In p (to_record t m ps) -> w_st p = op_Delete \/ Z.abs (t - w_time p) <= warn_tol) ->
  write close warn_tol f t m ps <> None.
Proof. intros V. exact write_total. Qed.
Print Assumptions write_no_error_partial.

Example write_no_error_partial_case :
  forall p, In p (to_record 4 (DMask [false; true]) [ex_wp 0 4 1 0 5; ex_wp 3 9 1 op_Delete 8]) ->
  w_st p = op_Delete \/ Z.abs (4 - w_time p) <= 1.
Proof. cbn. intros p [<-|[]]. left. reflexivity. Qed.

(** A user who writes within half a time step of the particles' time, while another particle is not
    active, gets an IndexError from the code that composes the warning. *)
Theorem write_between_steps_refuted : exists ps t,
  Forall (fun p : wp Z => Z.abs (t - w_time p) <= 4 \/ w_time p = 100) ps /\
  to_record t DFalse ps <> [] /\ write ex_close 1 (pfile0 false ["lon"] []) t DFalse ps = None.
Proof.
  exists [ex_wp 0 0 10 0 5; ex_wp 1 100 10 0 5], 4. split; [repeat constructor; cbn; lia|]. split; [discriminate|].
  vm_compute. reflexivity.
Qed.
Print Assumptions write_between_steps_refuted.

(** * C20: 'once' variables are written exactly once per particle. *)

(** What the files of 'once' variables hold for particle [i]: nothing if it never was active at a write
    that took place, otherwise its value at the first of those, and nothing else. Missing from the full
    statement: writes of deleted particles with nothing to record (name collision, refuted below). *)
Theorem once_written_once_partial : forall (V : Type) close warn_tol ondelete vars once ws (f : pfile V) var,
  Forall good_write ws -> Forall records_something ws -> In var once ->
  writes close warn_tol (pfile0 ondelete vars once) ws = Some f ->
  exists fs, load_all (f_once_store f) (f_once_list f) = Some fs /\
    forall i, once_values i var fs =
              firstn 1 (map (fun p => w_val p var) (appearances close i (effective ondelete None ws))).
Proof. intros V. exact once_all. Qed.
Print Assumptions once_written_once_partial.

Lemma ex_ws_records : Forall records_something ex_ws.
Proof. unfold ex_ws. repeat (constructor; [cbn; auto; discriminate|]). constructor. Qed.

Example once_written_once_partial_case :
  Forall good_write ex_ws /\ Forall records_something ex_ws /\
  exists f fs, writes ex_close 1 (pfile0 false ["lon"] ["x"]) ex_ws = Some f /\
  load_all (f_once_store f) (f_once_list f) = Some fs /\
  map n_ids fs = [[2; 0]; [4]] /\ once_values 4 "x" fs = [400].
Proof.
  split; [exact ex_ws_good|]. split; [exact ex_ws_records|].
  eexists. eexists. split; [vm_compute; reflexivity|]. split; [vm_compute; reflexivity|]. vm_compute. auto.
Qed.

(** The exported vector, when every particle with a 'once' record has an ordinary record. *)
Theorem once_export_partial : forall (V : Type) close warn_tol ondelete vars once ws (f : pfile V) var,
  Forall good_write ws -> Forall records_something ws -> In var once ->
  writes close warn_tol (pfile0 ondelete vars once) ws = Some f ->
  (forall i, appearances close i (effective ondelete None ws) <> [] -> recorded_at i (expected ondelete None ws) <> []) ->
  exists rows ids, export_once f var = Some rows /\ StronglySorted Z.lt ids /\
    (forall i, In i ids <-> appearances close i (effective ondelete None ws) <> []) /\
    rows = map (fun i => map Some (firstn 1 (map (fun p => w_val p var)
                 (appearances close i (effective ondelete None ws))))) ids.
Proof. intros V. exact once_export_all. Qed.
Print Assumptions once_export_partial.

Example once_export_partial_case :
  (forall i, appearances ex_close i (effective false None ex_ws) <> [] -> recorded_at i (expected false None ex_ws) <> []) /\
  exists f, writes ex_close 1 (pfile0 false ["lon"] ["x"]) ex_ws = Some f /\
  export_once f "x" = Some [[Some 0]; [Some 200]; [Some 400]].
Proof.
  split; [|eexists; split; vm_compute; reflexivity].
  by_id.
Qed.

(** The code as released with write_ondelete: the 'once' record holds all active particles while the
    ordinary record holds the deleted ones; export raises IndexError. *)
Theorem once_export_ondelete_refuted : exists (ws : list (Z * dmode * list (wp Z))) f,
  Forall good_write ws /\ Forall records_something ws /\
  writes ex_close 1 (pfile0 true ["lon"] ["x"]) ws = Some f /\ export_once f "x" = None.
Proof.
  exists [(1, DMask [true; false], [ex_wp 0 1 1 op_Delete 5; ex_wp 1 1 1 0 6])]. eexists.
  split; [repeat (constructor; [repeat split; cbn; repeat constructor; cbn; intuition (try congruence; try lia)|]); constructor|].
  split; [repeat constructor; discriminate|]. split; vm_compute; reflexivity.
Qed.
Print Assumptions once_export_ondelete_refuted.

(** A particle deleted between two writes, more than half a time step before the end of the window, has
    an ordinary record but no 'once' record. *)
Theorem once_missing_refuted : exists (ws : list (Z * dmode * list (wp Z))) f,
  Forall good_write ws /\ Forall records_something ws /\
  writes ex_close 1 (pfile0 false ["lon"] ["x"]) ws = Some f /\
  map n_ids (f_files f) = [[0]; [1]] /\ export_once f "x" = Some [[Some 0]].
Proof.
  exists [(0, DFalse, [ex_wp 0 0 1 0 5; ex_wp 1 2 1 0 6]); (8, DMask [false; true], [ex_wp 0 8 1 0 5; ex_wp 1 4 1 op_Delete 6])].
  eexists.
  split; [repeat (constructor; [repeat split; cbn; repeat constructor; cbn; intuition (try congruence; try lia)|]); constructor|].
  split; [repeat constructor; discriminate|]. split; [vm_compute; reflexivity|]. vm_compute. auto.
Qed.
Print Assumptions once_missing_refuted.

(** Two calls write(deleted_only=True) with nothing deleted save their 'once' records under one name: the
    first is lost and the second is read twice. *)
Theorem once_collision_refuted : exists (ws : list (Z * dmode * list (wp Z))) f fs,
  Forall good_write ws /\ writes ex_close 1 (pfile0 false ["lon"] ["x"]) ws = Some f /\
  load_all (f_once_store f) (f_once_list f) = Some fs /\
  once_values 0 "x" fs = [] /\ once_values 1 "x" fs = [100; 100].
Proof.
  exists [(0, DTrue, [ex_wp 0 0 1 0 5; ex_wp 1 2 1 0 6]); (2, DTrue, [ex_wp 0 2 1 0 5; ex_wp 1 2 1 0 6])].
  eexists. eexists.
  split.
  { repeat (constructor; [split; [repeat constructor; cbn; intuition lia|split; [repeat constructor; cbn; lia|]]; right; cbn;
      intros p [<-|[<-|[]]]; discriminate|]). constructor. }
  split; [vm_compute; reflexivity|]. split; [vm_compute; reflexivity|]. vm_compute. auto.
Qed.
Print Assumptions once_collision_refuted.
