(** C42: a set restarted from an output file. [num] reads a stored number; [close] and [warn] are as in C18-C20. *)
From Coq Require Import String List ZArith Bool Lia ZifyBool Sorted Permutation.
From Verif Require Import CollModel OutModel OutSpec RestartModel RestartSpec RestartProofs3.
Import ListNotations.
Local Open Scope string_scope.
Local Open Scope list_scope.
Local Open Scope Z_scope.

(** The example class: 'birth' is written once, 'dt' is not written. *)
Definition ex_class : list (string * tw) :=
  [("lon", WYes); ("lat", WYes); ("depth", WYes); ("time", WYes); ("id", WYes); ("birth", WOnce); ("dt", WNo)].
Definition ex_p (i t v : Z) : wp Z :=
  mkWp i t 4 0 (fun n => if n =? "time" then t else if n =? "id" then i else if n =? "birth" then 1000 + i else if n =? "depth" then 7 else v)%string.
(** Particles 1, 0 and 3 are written at 0, 3 and 6; 3 is deleted after 6, and 1 and 0 are written again at 9. *)
Definition ex_session : list (Z * dmode * list (wp Z)) :=
  [ (0, DFalse, [ex_p 1 0 10; ex_p 0 0 20; ex_p 3 0 30]); (3, DFalse, [ex_p 1 3 11; ex_p 0 3 21; ex_p 3 3 31]);
    (6, DFalse, [ex_p 1 6 12; ex_p 0 6 22; ex_p 3 6 32]); (9, DFalse, [ex_p 1 9 13; ex_p 0 9 23]) ].

Ltac by_value := vm_compute; repeat constructor; cbn; intuition congruence.
Ltac by_id :=
  let i := fresh "i" in
  intros i; destruct (Z.eq_dec i 0); [subst i; by_value|];
  destruct (Z.eq_dec i 1); [subst i; by_value|]; destruct (Z.eq_dec i 3); [subst i; by_value|];
  let E0 := fresh in let E2 := fresh in let E4 := fresh in
  assert (E0 : (0 =? i) = false) by lia; assert (E2 : (1 =? i) = false) by lia; assert (E4 : (3 =? i) = false) by lia;
  repeat match goal with
  | |- context[expected ?a ?b ?c] => let l := eval vm_compute in (expected a b c) in change (expected a b c) with l
  | |- context[effective ?a ?b ?c] => let l := eval vm_compute in (effective a b c) in change (effective a b c) with l
  end;
  unfold recorded_at, appearances; cbn - [Z.eqb];
  repeat (first [rewrite E0 | rewrite E2 | rewrite E4]; cbn - [Z.eqb]);
  first [apply NoDup_nil | tauto].
Ltac good := repeat (constructor; [repeat split; cbn; repeat constructor; cbn; intuition (try congruence; try lia)|]); constructor.

Lemma ex_class_ok : class_ok ex_class.
Proof.
  unfold class_ok. cbn. split; [repeat constructor; cbn; intuition discriminate|]. split; [intuition discriminate|]. split; [intuition discriminate|]. tauto.
Qed.
Ltac own := unfold own_values; match goal with |- context[expected ?a ?b ?c] => let l := eval vm_compute in (records (expected a b c)) in change (records (expected a b c)) with l end;
  cbn [In]; let p := fresh in let I := fresh in intros p I; repeat (destruct I as [<-|I]; [split; reflexivity|]); contradiction.
Lemma ex_session_ok :
  Forall good_write ex_session /\ Forall records_something ex_session /\
  (forall i, NoDup (recorded_at i (expected false None ex_session))) /\ own_values (fun v => v) (expected false None ex_session) /\
  once_complete Z.eqb false ex_session.
Proof.
  split; [unfold ex_session; good|]. split; [repeat constructor|]. split; [by_id|]. split; [own|]. unfold once_complete.
  by_id.
Qed.

(** A set restarted from the file of any session of writes, at any time asked for, holds exactly the particles that have a record with
    that own time, by id, with all the values they were recorded with, and with the value of every variable written once of their first
    appearance. They keep their ids (restart=True) or get the next free ones (restart=False); all the other sets of the process stay
    as they are. Missing from the full statement: sessions in which a particle is recorded twice at one time (C18), and the variables
    that are not written (to_write=False), which cannot be restored and get their initial values. *)
Theorem restart_rows_partial : forall (V : Type) (num : V -> Z) close warn ondelete pvars ws (f : pfile V),
  Forall good_write ws -> Forall records_something ws -> class_ok pvars ->
  writes close warn (pfile0 ondelete (written pvars) (written_once pvars)) ws = Some f ->
  (forall i, NoDup (recorded_at i (expected ondelete None ws))) -> own_values num (expected ondelete None ws) ->
  records (expected ondelete None ws) <> [] -> written_once pvars = [] \/ once_complete close ondelete ws ->
  exists nc ids, nc_file f = Some nc /\ file_ids (expected ondelete None ws) ids /\
  forall (w : world (option V)) (restart : bool) rt t, chosen_time (expected ondelete None ws) ids rt t ->
  exists w' rows, from_file num w pvars nc restart rt = (w', ODone) /\ only_adds w w' rows /\
    Forall2 (fun row p => has_values pvars row p /\ has_once close pvars (effective ondelete None ws) row p)
            rows (records_at (expected ondelete None ws) ids t) /\
    map (@p_id _) rows = (if restart then map w_id (records_at (expected ondelete None ws) ids t)
                          else map (fun k => w_last w + Z.of_nat k) (seq 0 (length (records_at (expected ondelete None ws) ids t)))) /\
    next_id (map (@p_id _) rows) (w_last w').
Proof. intros V. exact restart_rows_all. Qed.
Print Assumptions restart_rows_partial.

(** A process that already holds one set with particles 0 and 1. *)
Definition ex_world : world (option Z) := fst (do_new (mkWorld [] [] 0) None 2 [("lon", [Some 5; Some 6])]).
Example restart_rows_partial_case : exists f nc,
  writes Z.eqb 1 (pfile0 false (written ex_class) (written_once ex_class)) ex_session = Some f /\ nc_file f = Some nc /\
  chosen_time (expected false None ex_session) [0; 1; 3] (RAt 6) 6 /\ records (expected false None ex_session) <> [] /\
  (exists w', from_file (fun v => v) ex_world ex_class nc true (RAt 6) = (w', ODone) /\ w_last w' = 4 /\
     option_map (map (fun r => (p_id r, assoc "lon" (p_vals r), assoc "depth" (p_vals r), assoc "birth" (p_vals r)))) (iterate w' 1) =
       Some [(0, Some (Some 22), Some (Some 7), Some (Some 1000)); (1, Some (Some 12), Some (Some 7), Some (Some 1001));
             (3, Some (Some 32), Some (Some 7), Some (Some 1003))]) /\
  (exists w', from_file (fun v => v) ex_world ex_class nc false (RAt 3) = (w', ODone) /\ w_last w' = 5 /\
     option_map (map (fun r => (p_id r, assoc "lon" (p_vals r)))) (iterate w' 1) = Some [(2, Some (Some 21)); (3, Some (Some 11)); (4, Some (Some 31))]).
Proof.
  eexists. eexists. split; [vm_compute; reflexivity|]. split; [vm_compute; reflexivity|]. split; [reflexivity|]. split; [vm_compute; discriminate|].
  split; (eexists; split; [vm_compute; reflexivity|]; split; vm_compute; reflexivity).
Qed.

(** The default restart is the last write: when the last write recorded some particles at its own time and all earlier records are
    older, the restarted set holds exactly those particles, with their ids, by id. *)
Theorem restart_last_partial : forall (V : Type) (num : V -> Z) close warn ondelete pvars ws (f : pfile V),
  Forall good_write ws -> Forall records_something ws -> class_ok pvars ->
  writes close warn (pfile0 ondelete (written pvars) (written_once pvars)) ws = Some f ->
  (forall i, NoDup (recorded_at i (expected ondelete None ws))) -> own_values num (expected ondelete None ws) ->
  written_once pvars = [] \/ once_complete close ondelete ws ->
  forall pre T ps, expected ondelete None ws = pre ++ [(T, ps)] -> ps <> [] -> (forall p, In p ps -> w_time p = T) ->
  (forall p, In p (records pre) -> w_time p < T) ->
  exists nc, nc_file f = Some nc /\ forall w : world (option V), exists w' rows ps',
    from_file num w pvars nc true RLast = (w', ODone) /\ only_adds w w' rows /\ Permutation ps' ps /\
    Forall2 (fun row p => p_id row = w_id p /\ has_values pvars row p /\ has_once close pvars (effective ondelete None ws) row p) rows ps' /\
    StronglySorted Z.lt (map (@p_id _) rows).
Proof. intros V. exact restart_last_all. Qed.
Print Assumptions restart_last_partial.

Example restart_last_partial_case : exists f nc w' pre ps,
  writes Z.eqb 1 (pfile0 false (written ex_class) (written_once ex_class)) ex_session = Some f /\ nc_file f = Some nc /\
  expected false None ex_session = pre ++ [(9, ps)] /\ ps <> [] /\ (forall p, In p ps -> w_time p = 9) /\ (forall p, In p (records pre) -> w_time p < 9) /\
  from_file (fun v => v) (mkWorld [] [] 0) ex_class nc true RLast = (w', ODone) /\
  option_map (map (fun r => (p_id r, assoc "lon" (p_vals r), assoc "time" (p_vals r)))) (iterate w' 0) =
    Some [(0, Some (Some 23), Some (Some 9)); (1, Some (Some 13), Some (Some 9))].
Proof.
  eexists. eexists. eexists.
  exists [(0, [ex_p 1 0 10; ex_p 0 0 20; ex_p 3 0 30]); (3, [ex_p 1 3 11; ex_p 0 3 21; ex_p 3 3 31]); (6, [ex_p 1 6 12; ex_p 0 6 22; ex_p 3 6 32])].
  exists [ex_p 1 9 13; ex_p 0 9 23].
  split; [vm_compute; reflexivity|]. split; [vm_compute; reflexivity|]. split; [vm_compute; reflexivity|]. split; [discriminate|].
  split; [cbn [In]; intros p I; repeat (destruct I as [<-|I]; [reflexivity|]); contradiction|].
  split; [cbn [In records flat_map snd app]; intros p I; repeat (destruct I as [<-|I]; [reflexivity|]); contradiction|].
  split; vm_compute; reflexivity.
Qed.

(** ** What does not hold *)

(** Ids are not unique across a restart: after the default restart of the session above (particle 3 was deleted) two later releases of one
    particle get ids 2 and 3, and 3 is a different particle of the file. *)
Theorem restart_reuses_ids_refuted : exists f nc w' w'',
  writes Z.eqb 1 (pfile0 false (written ex_class) (written_once ex_class)) ex_session = Some f /\ nc_file f = Some nc /\
  from_file (fun v => v) (mkWorld [] [] 0) ex_class nc true RLast = (w', ODone) /\
  (exists p, In p (records (expected false None ex_session)) /\ w_id p = 3) /\
  step w' (New None 2 [("lon", [Some 50; Some 51])]) = (w'', ODone) /\
  option_map (map (@p_id _)) (iterate w'' 1) = Some [2; 3].
Proof.
  eexists. eexists. eexists. eexists. split; [vm_compute; reflexivity|]. split; [vm_compute; reflexivity|]. split; [vm_compute; reflexivity|].
  split; [exists (ex_p 3 0 30); split; [right; right; left; reflexivity|reflexivity]|]. split; vm_compute; reflexivity.
Qed.
Print Assumptions restart_reuses_ids_refuted.

(** The counter of ids is set back: a set that is alive when another is restarted shares ids with it, and with later releases too. *)
Theorem restart_shares_ids_refuted : exists f nc w w' w'',
  writes Z.eqb 1 (pfile0 false (written ex_class) (written_once ex_class)) ex_session = Some f /\ nc_file f = Some nc /\
  do_new (mkWorld [] [] 0) None 4 [("lon", [Some 5; Some 6; Some 7; Some 8])] = (w, ODone) /\
  from_file (fun v => v) w ex_class nc true RLast = (w', ODone) /\ step w' (New None 1 [("lon", [Some 50])]) = (w'', ODone) /\
  option_map (map (@p_id _)) (iterate w'' 0) = Some [0; 1; 2; 3] /\ option_map (map (@p_id _)) (iterate w'' 1) = Some [0; 1] /\
  option_map (map (@p_id _)) (iterate w'' 2) = Some [2].
Proof.
  eexists. eexists. eexists. eexists. eexists. split; [vm_compute; reflexivity|]. split; [vm_compute; reflexivity|]. split; [vm_compute; reflexivity|].
  split; [vm_compute; reflexivity|]. split; [vm_compute; reflexivity|]. repeat split; vm_compute; reflexivity.
Qed.
Print Assumptions restart_shares_ids_refuted.

(** A particle whose release is within half a time step after the last write is recorded by it, with its release time; this is the
    latest time of the file, and the default restart holds this particle only: all the others are lost. *)
Theorem restart_early_record_refuted : exists (ws : list (Z * dmode * list (wp Z))) f nc w',
  Forall good_write ws /\ (forall i, NoDup (recorded_at i (expected false None ws))) /\
  expected false None ws = [(0, [ex_p 0 0 5; ex_p 1 0 6]); (4, [ex_p 0 4 7; ex_p 1 4 8; ex_p 3 5 9])] /\
  writes Z.eqb 1 (pfile0 false (written ex_class) []) ws = Some f /\ nc_file f = Some nc /\
  from_file (fun v => v) (mkWorld [] [] 0) (filter (is_tw WYes) ex_class) nc true RLast = (w', ODone) /\
  option_map (map (@p_id _)) (iterate w' 0) = Some [3].
Proof.
  exists [(0, DFalse, [ex_p 0 0 5; ex_p 1 0 6; ex_p 3 5 9]); (4, DFalse, [ex_p 0 4 7; ex_p 1 4 8; ex_p 3 5 9])]. eexists. eexists. eexists.
  split; [good|]. split; [by_id|]. split; [vm_compute; reflexivity|]. split; [vm_compute; reflexivity|]. split; [vm_compute; reflexivity|].
  split; vm_compute; reflexivity.
Qed.
Print Assumptions restart_early_record_refuted.

(** A particle recorded by two writes before it is released (output interval shorter than the time step) is restarted twice. *)
Theorem restart_twice_refuted : exists (ws : list (Z * dmode * list (wp Z))) f nc w',
  Forall good_write ws /\ (forall i, NoDup (recorded_at i (expected false None ws))) /\
  (forall w, In w ws -> exists p, snd w = [p] /\ w_id p = 3) /\
  writes Z.eqb 1 (pfile0 false (written ex_class) []) ws = Some f /\ nc_file f = Some nc /\
  from_file (fun v => v) (mkWorld [] [] 0) (filter (is_tw WYes) ex_class) nc true RLast = (w', ODone) /\
  option_map (map (@p_id _)) (iterate w' 0) = Some [3; 3].
Proof.
  exists [(3, DFalse, [ex_p 3 5 9]); (4, DFalse, [ex_p 3 5 9])]. eexists. eexists. eexists.
  split; [good|]. split; [by_id|]. split; [cbn [In]; intros w I; repeat (destruct I as [<-|I]; [eexists; split; reflexivity|]); contradiction|].
  split; [vm_compute; reflexivity|]. split; [vm_compute; reflexivity|].
  split; vm_compute; reflexivity.
Qed.
Print Assumptions restart_twice_refuted.
