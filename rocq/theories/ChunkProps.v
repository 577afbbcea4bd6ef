(** Properties of chunked access: C29. *)
From Coq Require Import List ZArith Bool Lia.
From Verif Require Import IdxModel ChunkModel ChunkSpec ChunkProofs ChunkProofs2 ChunkProofs3.
Import ListNotations.
Open Scope Z_scope.

(** C29, partial (no chunk of size 1 but the last of a dimension, or the field unsplit): with memory that is right for
    the chunks marked as loaded, a read gives the values of the unsplit array at the corners, or asks for a chunk
    needed that is not loaded. *)
Theorem chunk_cell_partial : forall V cs tdim (a : array V) mem flags idx ti first,
  zlen flags = npartitions cs -> memory_right cs tdim a flags mem -> cell_ok cs idx -> times_ok tdim ti first ->
  right_cell cs a flags idx ti first (c_getcell (chunk_info cs) mem flags idx ti first).
Proof. exact @getcell_right. Qed.
Print Assumptions chunk_cell_partial.

(** C29: after any sequence of new data, kernel executions, calls of the C function with any fields, and reads of any
    cells, the same holds for the data last given. *)
Theorem chunk_history_partial : forall V cs tdim nf data es (g : grid V) n idx ti first g' r,
  run cs tdim nf (initial cs data) es = Some g -> no_python es -> step cs tdim nf g (Sample n idx ti first) = Some (g', Some r) ->
  cell_ok cs idx -> times_ok tdim ti first ->
  right_cell cs (latest data es n) (g_flags g) idx ti first r.
Proof. exact @sample_right. Qed.
Print Assumptions chunk_history_partial.

(** C29: repeating the call after each request ends with the values of all the corners, after at most as many
    requests as there are corners. *)
Theorem chunk_progress_partial : forall V cs tdim nf data es (g : grid V) used n idx ti first,
  run cs tdim nf (initial cs data) es = Some g -> no_python es -> g_used g = Some used -> used n = true -> (n < nf)%nat ->
  cell_ok cs idx -> times_ok tdim ti first ->
  rounds cs tdim nf (2 ^ length idx) used g n idx ti first =
    Some (flat_map (fun t => map (fun b => latest data es n (ti + t) (corner cs idx b)) (bits (length idx))) (tsteps first)).
Proof. exact @rounds_right. Qed.
Print Assumptions chunk_progress_partial.

(** A field of 5 by 5 points in chunks of 2; the cell at (1, 3) needs four chunks. *)
Definition two_chunks : chunks := [[2; 2; 1]; [2; 2; 1]].
Definition number (t : Z) (l : list Z) : Z := match l with [y; x] => 100 * t + 10 * y + x | _ => 0 end.
Definition other (t : Z) (l : list Z) : Z := number t l + 1000.
Definition all_fields : nat -> bool := fun _ => true.
Example chunk_case_ok : cell_ok two_chunks [1; 3].
Proof. left. constructor; [|constructor; [|constructor]]; (split; [repeat constructor|]; split; [lia|]; split; [cbn; lia|]; repeat constructor; lia). Qed.
Definition chunk_events : list (event Z) := [Start; Launch all_fields; Sample 0 [0; 0] 0 false; Launch all_fields; Sample 0 [0; 0] 0 false; NewData (fun _ => other); Start; Launch all_fields].
Example chunk_case : exists g, run two_chunks 2 2 (initial two_chunks (fun _ => number)) chunk_events = Some g /\
  rounds two_chunks 2 2 3 all_fields g 1 [1; 3] 0 false = None /\
  rounds two_chunks 2 2 4 all_fields g 1 [1; 3] 0 false = Some [1013; 1014; 1023; 1024; 1113; 1114; 1123; 1124].
Proof. eexists. split; [reflexivity|]. split; vm_compute; reflexivity. Qed.

(** With chunks of size 1 the neighbour is not read: the cell at (0, 0) of a 2 by 3 field. *)
Theorem chunk_size_one_refuted : exists cs g vals fl, Forall (fun c => Forall (fun s => 0 < s) c) cs /\ map zsum cs = [2; 3] /\
  run cs 2 1 (initial cs (fun _ => number)) [Start; Launch all_fields; Sample 0 [0; 0] 0 true; Launch all_fields] = Some g /\
  c_getcell (chunk_info cs) (g_mem g 0) (g_flags g) [0; 0] 0 true = Cell vals fl /\ vals = [0; 0; 10; 10] /\
  flat_map (fun t => map (fun b => number (0 + t) (corner cs [0; 0] b)) (bits 2)) (tsteps true) = [0; 1; 10; 11].
Proof.
  exists [[2]; [1; 1; 1]]. eexists. eexists. eexists. split; [repeat constructor|]. split; [reflexivity|]. split; [reflexivity|].
  split; [vm_compute; reflexivity|]. split; vm_compute; reflexivity.
Qed.
Print Assumptions chunk_size_one_refuted.

(** A field of one row in two chunks: the cell between the chunks is read outside the tables. *)
Theorem chunk_one_row_refuted : exists cs g, map zsum cs = [1; 4] /\
  run cs 2 1 (initial cs (fun _ => number)) [Start; Launch all_fields; Sample 0 [0; 0] 0 true; Launch all_fields; Sample 0 [0; 2] 0 true; Launch all_fields] = Some g /\
  c_getcell (chunk_info cs) (g_mem g 0) (g_flags g) [0; 1] 0 true = CellBad.
Proof. exists [[1]; [2; 2]]. eexists. split; [reflexivity|]. split; [reflexivity|]. vm_compute. reflexivity. Qed.
Print Assumptions chunk_one_row_refuted.

(** After a run in Scipy mode the data are no dask array any more, but the chunk table is kept: a read in JIT mode
    gives other values. *)
Theorem chunk_after_python_refuted : exists cs g vals fl, cell_ok cs [1; 0] /\
  run cs 2 1 (initial cs (fun _ => number)) [Start; Launch all_fields; Python; Start; Launch all_fields] = Some g /\
  c_getcell (chunk_info cs) (g_mem g 0) (g_flags g) [1; 0] 0 true = Cell vals fl /\ vals = [2; 3; 10; 11] /\
  flat_map (fun t => map (fun b => number (0 + t) (corner cs [1; 0] b)) (bits 2)) (tsteps true) = [10; 11; 20; 21].
Proof.
  exists [[4]; [2; 2]]. eexists. eexists. eexists. split.
  - left. constructor; [|constructor; [|constructor]]; (split; [repeat constructor|]; split; [lia|]; split; [cbn; lia|]; repeat constructor; lia).
  - split; [reflexivity|]. split; [vm_compute; reflexivity|]. split; vm_compute; reflexivity.
Qed.
Print Assumptions chunk_after_python_refuted.
