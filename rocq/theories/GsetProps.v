(** C38: Fields on the same grid share it and no others do. *)
From Coq Require Import String List ZArith QArith Qabs Bool Lia.
From Verif Require Import HaloModel GsetModel GsetSpec GsetProofs.
Import ListNotations.
Local Open Scope string_scope.
Local Open Scope list_scope.
Local Open Scope Z_scope.

(** Grids for the examples. *)
Definition vec (l : list Q) : narr := mkNarr [length l] l.
Definition demo (id : nat) (lon time : list Q) (c : chunking) : grid :=
  mkGrid id 0 (vec lon) (vec [0; 10]%Q) (vec [0]%Q) (vec time) (vec time) c false false.
Definition demo_field (id : nat) (lon time : list Q) : field := mkField (demo id lon time ChunkNone) ChunkNone.

Lemma demo_wf id lon time c : wf_grid (demo id lon time c).
Proof. repeat split; unfold wf_arr; cbn; lia. Qed.

(** ** Every field gets a grid with its own axes *)

(** After any sequence of additions, the index of each field points to the grid the field now has, and is the first that
    does.  That grid is the field's own object, or has the same time origin and the same axes as the field's own grid:
    shapes equal, every coordinate within the tolerance. *)
Theorem field_on_its_grid : forall fs gs r, add_fields [] fs = Some (gs, r) ->
  (forall f, In f fs -> wf_grid (f_grid f)) -> objects (map f_grid fs) ->
  length r = length fs /\
  forall k f g i, nth_error fs k = Some f -> nth_error r k = Some (g, i) ->
    nth_error gs i = Some g /\ (forall j x, (j < i)%nat -> nth_error gs j = Some x -> x <> g) /\
    (g = f_grid f \/ (grid_close g (f_grid f) /\ f_chunk f <> ChunkAuto)).
Proof. exact on_its_grid. Qed.
Print Assumptions field_on_its_grid.

Definition three : list field := [demo_field 0 [0; 1; 2]%Q [0; 1]%Q; demo_field 1 [0; 1; 3]%Q [0; 1]%Q; demo_field 2 [0; 1; 2]%Q [0; 1]%Q].
Example three_fields :
  (exists gs r, add_fields [] three = Some (gs, r) /\ map snd r = [0; 1; 0]%nat /\ length gs = 2%nat) /\
  (forall f, In f three -> wf_grid (f_grid f)) /\ objects (map f_grid three).
Proof.
  split; [|split].
  - eexists. eexists. split; [vm_compute; reflexivity|]. split; reflexivity.
  - intros f [<-|[<-|[<-|[]]]]; apply demo_wf.
  - intros g g' [<-|[<-|[<-|[]]]] [<-|[<-|[<-|[]]]]; cbn; intros E; try discriminate E; reflexivity.
Qed.

(** ** Distinct grids are kept distinct *)

(** Two fields with the same index were both on that one grid. *)
Theorem same_index_same_grid : forall fs gs r, add_fields [] fs = Some (gs, r) ->
  (forall f, In f fs -> wf_grid (f_grid f)) -> objects (map f_grid fs) ->
  forall k k' f f' g g' i, nth_error fs k = Some f -> nth_error fs k' = Some f' ->
  nth_error r k = Some (g, i) -> nth_error r k' = Some (g', i) ->
  g = g' /\ (g = f_grid f \/ grid_close g (f_grid f)) /\ (g = f_grid f' \/ grid_close g (f_grid f')).
Proof. exact same_index. Qed.
Print Assumptions same_index_same_grid.

(** The set holds nothing else: every grid of it is the own grid of a field which was given it. *)
Theorem no_other_grids : forall fs gs r, add_fields [] fs = Some (gs, r) ->
  (forall f, In f fs -> wf_grid (f_grid f)) -> objects (map f_grid fs) ->
  forall g, In g gs -> exists k f i, nth_error fs k = Some f /\ nth_error r k = Some (g, i) /\ g = f_grid f.
Proof. exact no_others. Qed.
Print Assumptions no_other_grids.

(** Adding more fields leaves the earlier grids where they were: earlier indices stay valid. *)
Theorem indices_stay_valid : forall fs fs' gs r, add_fields [] (fs ++ fs') = Some (gs, r) ->
  exists gs1 r1 more r2, add_fields [] fs = Some (gs1, r1) /\ gs = gs1 ++ more /\ r = r1 ++ r2.
Proof. exact stay_valid. Qed.
Print Assumptions indices_stay_valid.

(** ** Fields on the same grid share it *)

(** One step: a grid is appended only if no grid of the set is the same object or has the same origin, axes and chunks. *)
Theorem appended_only_if_new : forall gs f gs' g i, add_grid gs f = Some (gs', g, i) ->
  (forall x, In x gs -> wf_grid x) -> wf_grid (f_grid f) -> objects (f_grid f :: gs) -> f_chunk f <> ChunkAuto ->
  gs' = gs \/
  (gs' = gs ++ [f_grid f] /\
   forall x, In x gs -> x <> f_grid f /\ (grid_close x (f_grid f) -> g_chunk x <> g_chunk (f_grid f) \/ ~ dict_ok (g_chunk x))).
Proof. exact only_if_new. Qed.
Print Assumptions appended_only_if_new.

(** Fields whose grids have equal axes, origin and chunks share one grid, whatever their number. *)
Theorem equal_grids_shared : forall f fs, wf_grid (f_grid f) -> dict_ok (g_chunk (f_grid f)) ->
  (forall f', In f' fs -> wf_grid (f_grid f') /\ grid_equal (f_grid f) (f_grid f') /\ f_chunk f' <> ChunkAuto) ->
  objects (map f_grid (f :: fs)) ->
  add_fields [] (f :: fs) = Some ([f_grid f], repeat (f_grid f, 0%nat) (S (length fs))).
Proof. exact shared. Qed.
Print Assumptions equal_grids_shared.

Example two_equal_fields :
  let f := demo_field 0 [0; 1; 2]%Q [0; 1]%Q in let f' := demo_field 1 [0; 2 # 2; 2]%Q [0; 1]%Q in
  wf_grid (f_grid f) /\ dict_ok (g_chunk (f_grid f)) /\ wf_grid (f_grid f') /\ grid_equal (f_grid f) (f_grid f') /\
  f_chunk f' <> ChunkAuto /\ objects (map f_grid [f; f']).
Proof.
  cbv zeta. split; [apply demo_wf|]. split; [exact I|]. split; [apply demo_wf|]. split; [|split; [discriminate|]].
  - split; [reflexivity|]. split; [reflexivity|]. repeat split; repeat constructor.
  - intros g g' [<-|[<-|[]]] [<-|[<-|[]]]; cbn; intros E; try discriminate E; reflexivity.
Qed.

(** ** dimrange is the intersection of the ranges *)

(** Whenever a grid has other than one coordinate in the dimension, a value is in the range returned exactly if it is in the
    range of every such grid.  (The range is empty, its first above its second, if they have nothing in common.) *)
Theorem dimrange_is_intersection : forall d gs lo hi, dimrange d gs = Some (lo, hi) -> (exists g, In g gs /\ limits d g) ->
  forall x, (lo <= x <= hi)%Q <-> forall g, In g gs -> limits d g -> covers d g x.
Proof. exact dimrange_meets. Qed.
Print Assumptions dimrange_is_intersection.

(** If every grid has a single coordinate there, the range is (0, 0). *)
Theorem dimrange_of_single_values : forall d gs, (forall g, In g gs -> ~ limits d g) -> dimrange d gs = Some (0%Q, 0%Q).
Proof. exact dimrange_free. Qed.
Print Assumptions dimrange_of_single_values.

(** It is defined for all sets of grids with one-dimensional coordinates. *)
Theorem dimrange_defined : forall d gs, (forall g, In g gs -> ranged d g) -> exists r, dimrange d gs = Some r.
Proof. exact dimrange_total. Qed.
Print Assumptions dimrange_defined.

Example a_range :
  let gs := map f_grid three in
  dimrange DLon gs = Some (0%Q, 2%Q) /\ (exists g, In g gs /\ limits DLon g) /\ (forall g, In g gs -> ranged DLon g) /\
  (forall g, In g gs -> ~ limits DDepth g).
Proof.
  cbv zeta. split; [reflexivity|]. split; [|split].
  - exists (demo 0 [0; 1; 2]%Q [0; 1]%Q ChunkNone). split; [left; reflexivity|]. unfold limits. discriminate.
  - intros g [<-|[<-|[<-|[]]]]; (split; [discriminate|]); right; eexists; reflexivity.
  - intros g [<-|[<-|[<-|[]]]]; unfold limits; cbn; intros H; apply H; reflexivity.
Qed.

(** ** Where the claim fails *)

(** "Equal" cannot be read as equal: a field whose times are 5000 seconds later than an earlier field's, thirty years after
    the origin, is given the times of the earlier field. *)
Theorem exact_time_axis_refuted : exists f f' gs r g,
  add_fields [] [f; f'] = Some (gs, r) /\ nth_error r 1 = Some (g, 0%nat) /\
  n_data (g_time (f_grid f')) = [946085000; 946171400]%Q /\ n_data (g_time g) = [946080000; 946166400]%Q.
Proof.
  exists (demo_field 0 [0; 1]%Q [946080000; 946166400]%Q), (demo_field 1 [0; 1]%Q [946085000; 946171400]%Q).
  eexists. eexists. eexists. split; [vm_compute; reflexivity|]. split; [reflexivity|]. split; reflexivity.
Qed.
Print Assumptions exact_time_axis_refuted.

(** The mesh and the way of loading are not compared: a field on a flat mesh, loaded at once, is given the spherical grid
    with deferred loading of an earlier field. *)
Theorem mesh_and_loading_refuted : exists f f' gs r g,
  add_fields [] [f; f'] = Some (gs, r) /\ nth_error r 1 = Some (g, 0%nat) /\
  g_spherical (f_grid f') = false /\ g_spherical g = true /\ g_defer (f_grid f') = false /\ g_defer g = true.
Proof.
  exists (mkField (mkGrid 0 0 (vec [0; 1]%Q) (vec [0; 10]%Q) (vec [0]%Q) (vec [0; 1]%Q) (vec [0; 1]%Q) ChunkNone true true) ChunkNone),
         (demo_field 1 [0; 1]%Q [0; 1]%Q).
  eexists. eexists. eexists. split; [vm_compute; reflexivity|]. repeat split; reflexivity.
Qed.
Print Assumptions mesh_and_loading_refuted.

(** With field_chunksize='auto', two fields on one grid object put it in the set twice; FieldSet.add_periodic_halo extends
    each entry of the set, so the coordinates are extended twice, and then raises an AssertionError on data that fitted. *)
Theorem auto_grid_twice_refuted : exists f gs r g lon lon',
  add_fields [] [f; f] = Some (gs, r) /\ gs = [g; g] /\ map snd r = [0; 0]%nat /\ lon = n_data (g_lon g) /\
  (match halo_axis 1 lon with Some l => halo_axis 1 l | None => None end) = Some lon' /\
  forall data, a_x data = Z.of_nat (length lon) -> array_halo true false 1 (Z.of_nat (length lon')) 2 data = None.
Proof.
  exists (mkField (demo 0 [0; 1; 2]%Q [0; 1]%Q ChunkAuto) ChunkAuto).
  eexists. eexists. eexists. eexists. eexists.
  split; [vm_compute; reflexivity|]. split; [reflexivity|]. split; [reflexivity|]. split; [reflexivity|].
  split; [vm_compute; reflexivity|]. intros [y x at_] E. cbn in E. subst x. reflexivity.
Qed.
Print Assumptions auto_grid_twice_refuted.

(** A field with chunk sizes after a field without any raises an exception, even if their coordinates have nothing in
    common. *)
Theorem chunks_after_none_refuted : exists f f',
  n_data (g_lon (f_grid f)) = [0; 1]%Q /\ n_data (g_lon (f_grid f')) = [5; 6; 7]%Q /\ add_fields [] [f; f'] = None /\
  add_fields [] [f'; f] <> None.
Proof.
  exists (demo_field 0 [0; 1]%Q [0; 1]%Q), (mkField (demo 1 [5; 6; 7]%Q [0; 1]%Q (ChunkDict [("lon", 2)])) (ChunkDict [("lon", 2)])).
  split; [reflexivity|]. split; [reflexivity|]. split; [reflexivity|]. vm_compute. discriminate.
Qed.
Print Assumptions chunks_after_none_refuted.
