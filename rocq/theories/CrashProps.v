(** C53: a process dies while it writes, and output of several processes. *)
From Coq Require Import String List ZArith Bool Arith Lia Sorted.
From Verif Require Import CollModel OutModel OutSpec OutProps CrashModel CrashSpec CrashProofs CrashProofs2.
Import ListNotations.
Open Scope string_scope.
Open Scope Z_scope.

(** Whenever the processes die, unless one dies before its first call of write has returned or while it
    saves pset_info, converting what is left gives, for every variable, exactly the records of the calls
    of write that had returned. *)
Theorem crash_keeps_returned_writes_partial : forall (V : Type) close warn_tol od vars once
    (runs : list (process V * list (list (step V)))),
  runs <> [] ->
  Forall (fun pl => Forall good_write (pr_writes (fst pl)) /\
                    run_steps close warn_tol (pfile0 od vars once) (pr_writes (fst pl)) = Some (snd pl)) runs ->
  Forall info_intact runs ->
  apart (map (expected od None) (map done_by runs)) ->
  (forall pl i, In pl runs -> NoDup (recorded_at i (expected od None (done_by pl)))) ->
  (once = [] \/
   Forall (fun pl => Forall records_something (pr_writes (fst pl))) runs /\
   (forall pl i, In pl runs -> appearances close i (effective od None (done_by pl)) <> [] ->
                 recorded_at i (expected od None (done_by pl)) <> [])) ->
  exists a b, convert false (map left_by runs) = Some (a, b) /\ map fst a = vars /\ map fst b = once /\
    (forall v rows, In (v, rows) a -> exact_matrix v (joint_log od (map done_by runs)) rows) /\
    (forall v rows, In (v, rows) b -> exact_vector close od v (map done_by runs) rows).
Proof. intros V. exact crash_convert. Qed.
Print Assumptions crash_keeps_returned_writes_partial.

(** Two processes: particles 0 and 1 in the first, 2 and 3 in the second. *)
Definition cx_ws0 : list (Z * dmode * list (wp Z)) :=
  [(0, DFalse, [ex_wp 0 0 1 0 5; ex_wp 1 0 1 0 6]); (2, DFalse, [ex_wp 0 2 1 0 7; ex_wp 1 2 1 0 8]);
   (4, DFalse, [ex_wp 0 4 1 0 9; ex_wp 1 4 1 0 10])].
Definition cx_ws1 : list (Z * dmode * list (wp Z)) :=
  [(0, DFalse, [ex_wp 2 0 1 0 15; ex_wp 3 0 1 0 16]); (2, DFalse, [ex_wp 2 2 1 0 17])].
Definition cx_steps (once : list string) (ws : list (Z * dmode * list (wp Z))) :=
  match run_steps ex_close 1 (pfile0 false ["lon"] once) ws with Some l => l | None => [] end.
Definition cx_run once (ws : list (Z * dmode * list (wp Z))) (n : nat) := (mkProcess ws n, cx_steps once ws).

(** The first process makes 14 steps and dies after 12: the data of its third call are saved, pset_info
    is still that of the second one. *)
Example crash_keeps_returned_writes_partial_case :
  map (@length _) (cx_steps ["x"] cx_ws0) = [6; 4; 4]%nat /\
  Forall info_intact [cx_run ["x"] cx_ws0 12%nat; cx_run ["x"] cx_ws1 100%nat] /\
  convert false (map left_by [cx_run ["x"] cx_ws0 12%nat; cx_run ["x"] cx_ws1 100%nat]) =
  Some ([("lon", [[Some 5; Some 7]; [Some 6; Some 8]; [Some 15; Some 17]; [Some 16; None]])],
        [("x", [[Some 0]; [Some 100]; [Some 200]; [Some 300]])]).
Proof.
  split; [vm_compute; reflexivity|]. split; [|vm_compute; reflexivity].
  repeat constructor; vm_compute; intuition discriminate.
Qed.

(** Without a crash the file holds the records of all processes. *)
Theorem several_processes_export_partial : forall (V : Type) close warn_tol od vars once
    (runs : list (process V * list (list (step V)))),
  runs <> [] ->
  Forall (fun pl => Forall good_write (pr_writes (fst pl)) /\ pr_writes (fst pl) <> [] /\
                    run_steps close warn_tol (pfile0 od vars once) (pr_writes (fst pl)) = Some (snd pl) /\
                    (length (concat (snd pl)) <= pr_dies (fst pl))%nat) runs ->
  apart (map (fun pl => expected od None (pr_writes (fst pl))) runs) ->
  (forall pl i, In pl runs -> NoDup (recorded_at i (expected od None (pr_writes (fst pl))))) ->
  (once = [] \/
   Forall (fun pl => Forall records_something (pr_writes (fst pl))) runs /\
   (forall pl i, In pl runs -> appearances close i (effective od None (pr_writes (fst pl))) <> [] ->
                 recorded_at i (expected od None (pr_writes (fst pl))) <> [])) ->
  exists a b, convert false (map left_by runs) = Some (a, b) /\ map fst a = vars /\ map fst b = once /\
    (forall v rows, In (v, rows) a -> exact_matrix v (joint_log od (map (fun pl => pr_writes (fst pl)) runs)) rows) /\
    (forall v rows, In (v, rows) b -> exact_vector close od v (map (fun pl => pr_writes (fst pl)) runs) rows).
Proof. intros V. exact several_convert. Qed.
Print Assumptions several_processes_export_partial.

Example several_processes_export_partial_case :
  convert false (map left_by [cx_run [] cx_ws0 99%nat; cx_run [] cx_ws1 99%nat]) =
  Some ([("lon", [[Some 5; Some 7; Some 9]; [Some 6; Some 8; Some 10]; [Some 15; Some 17; None]; [Some 16; None; None]])], []).
Proof. vm_compute. reflexivity. Qed.

(** One directory whose process died before its first call of write had returned, or while it saved
    pset_info, and no file is made at all, whatever the other processes wrote. *)
Theorem unreadable_directory_stops_conversion : forall (V : Type) close warn_tol od vars once
    (runs : list (process V * list (list (step V)))) pl,
  Forall (fun pl => Forall good_write (pr_writes (fst pl)) /\
                    run_steps close warn_tol (pfile0 od vars once) (pr_writes (fst pl)) = Some (snd pl)) runs ->
  In pl runs -> ~ info_intact pl -> vars <> [] ->
  convert false (map left_by runs) = None.
Proof. intros V. exact crash_lost. Qed.
Print Assumptions unreadable_directory_stops_conversion.

Example unreadable_directory_stops_conversion_case :
  map (fun n => match convert false (map left_by [cx_run ["x"] cx_ws0 n; cx_run ["x"] cx_ws1 100%nat]) with None => true | _ => false end)
      (seq 0 15) =
  [true; true; true; true; true; true; false; false; false; true; false; false; false; true; false].
Proof. vm_compute. reflexivity. Qed.

(** So calls of write that had returned are not always recovered: pset_info is overwritten in place by
    every call, and for a moment the only copy is empty. *)
Theorem returned_writes_lost_refuted : exists (runs : list (process Z * list (list (step Z)))),
  Forall (fun pl => Forall good_write (pr_writes (fst pl)) /\
                    run_steps ex_close 1 (pfile0 false ["lon"] []) (pr_writes (fst pl)) = Some (snd pl)) runs /\
  map (fun pl => length (done_by pl)) runs = [2; 2]%nat /\
  Forall (fun pl => forall k, (k < 2)%nat -> load_npy (left_by pl) (Main k) <> None) runs /\
  convert false (map left_by runs) = None.
Proof.
  exists [cx_run [] cx_ws0 11%nat; cx_run [] cx_ws1 100%nat].
  split.
  { repeat (constructor; [split; [|vm_compute; reflexivity]|]); try constructor; cbn;
      repeat (constructor; [repeat split; cbn; repeat constructor; cbn; intuition (try congruence; try lia)|]); try constructor. }
  split; [vm_compute; reflexivity|]. split; [|vm_compute; reflexivity].
  repeat constructor; intros [|[|k]] K; try lia; vm_compute; discriminate.
Qed.
Print Assumptions returned_writes_lost_refuted.

(** Two processes that record the same particle: each directory alone can be converted, both cannot. *)
Definition cx_ws2 : list (Z * dmode * list (wp Z)) := [(0, DFalse, [ex_wp 0 0 1 0 5]); (2, DFalse, [ex_wp 0 2 1 0 6])].

Theorem shared_particle_refuted : exists (runs : list (process Z * list (list (step Z)))) a b rows,
  Forall (fun pl => Forall good_write (pr_writes (fst pl)) /\
                    run_steps ex_close 1 (pfile0 false ["lon"] []) (pr_writes (fst pl)) = Some (snd pl)) runs /\
  Forall info_intact runs /\ (forall pl i, In pl runs -> NoDup (recorded_at i (expected false None (done_by pl)))) /\
  convert false (map left_by runs) = None /\
  map left_by runs = [a; b] /\ convert false [a] = Some ([("lon", rows)], []) /\ convert false [b] = Some ([("lon", rows)], []).
Proof.
  exists [cx_run [] cx_ws2 99%nat; cx_run [] cx_ws2 99%nat]. do 3 eexists.
  split.
  { repeat (constructor; [split; [|vm_compute; reflexivity]|]); try constructor; cbn;
      repeat (constructor; [repeat split; cbn; repeat constructor; cbn; intuition (try congruence; try lia)|]); try constructor. }
  split; [repeat constructor; vm_compute; intuition discriminate|].
  split; [|split; [vm_compute; reflexivity|split; [reflexivity|split; vm_compute; reflexivity]]].
  assert (H : forall i, NoDup (recorded_at i (expected false None cx_ws2))) by by_id.
  intros pl i [<-|[<-|[]]]; apply H.
Qed.
Print Assumptions shared_particle_refuted.
