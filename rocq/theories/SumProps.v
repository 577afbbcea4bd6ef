(** Properties of summed and nested fields: C28. *)
From Coq Require Import List ZArith Bool QArith Permutation Lia.
From Verif Require Import SumModel SumSpec SumProofs.
Import ListNotations.
Open Scope Q_scope.

(** C28: when every component has a value, both modes return the componentwise sum. *)
Theorem summed_value : forall n vs, vs <> [] -> same_shape n vs ->
  exists r, py_summed (map Val vs) = Val r /\ c_summed (map Val vs) = Val r /\ sum_of n vs r.
Proof. exact summed_ok. Qed.
Print Assumptions summed_value.
Example summed_value_case : py_summed (map Val [[1; 2]; [3; 4]; [5; 6]]) = Val [1 + 3 + 5; 2 + 4 + 6] /\ same_shape 2 [[1; 2]; [3; 4]; [5; 6]].
Proof. split; [reflexivity|]. split; [lia|]. cbn. intros v [<-|[<-|[<-|[]]]]; reflexivity. Qed.

(** C28: otherwise the result is the first error. *)
Theorem summed_error : forall outs e, first_error outs e -> py_summed outs = Err e /\ c_summed outs = Err e.
Proof. exact summed_err. Qed.
Print Assumptions summed_error.
Example summed_error_case : first_error [Val [1]; Err ETime; Val [2]; Err EBounds] ETime.
Proof. exists [[1]], [Val [2]; Err EBounds]. reflexivity. Qed.

(** C28: the sum does not depend on the order of the components. *)
Theorem summed_any_order : forall n vs vs' r r', Permutation vs vs' -> sum_of n vs r -> sum_of n vs' r' ->
  length r = length r' /\ forall i, comp i r == comp i r'.
Proof. exact sum_perm. Qed.
Print Assumptions summed_any_order.

(** C28: an expression [f + g + ...] over distinct or repeated fields gives the summed field of these fields in
    order, however it is parenthesised, and changes no summed field that existed before. *)
Theorem addition_components : forall e k h, (length (fleaves e) < k)%nat ->
  exists h' o, feval k h e = Some (h', o) /\ components h' o = map IField (fleaves e) /\
    (length h <= length h')%nat /\ (forall l, (l < length h)%nat -> hget h' l = hget h l) /\
    match o with OField n => e = FLeaf n | OSum l => (length h <= l < length h')%nat | OVector _ => False end.
Proof. exact tree_sum. Qed.
Print Assumptions addition_components.
Example addition_case : exists h o, feval 9 [] (FAdd (FAdd (FLeaf 1) (FLeaf 2)) (FAdd (FLeaf 3) (FAdd (FLeaf 1) (FLeaf 5)))) = Some (h, o) /\
  components h o = [IField 1; IField 2; IField 3; IField 1; IField 5].
Proof. eexists. eexists. split; reflexivity. Qed.

(** C28: two expressions over the same fields sample the same. *)
Theorem summed_any_grouping : forall n val e1 e2 k h1 h2, (0 < n)%nat -> (forall m, length (val m) = n) ->
  Permutation (fleaves e1) (fleaves e2) -> (length (fleaves e1) < k)%nat ->
  exists g1 o1 g2 o2 r1 r2, feval k h1 e1 = Some (g1, o1) /\ feval k h2 e2 = Some (g2, o2) /\
    py_summed (map (outcome_of val) (components g1 o1)) = Val r1 /\ py_summed (map (outcome_of val) (components g2 o2)) = Val r2 /\
    sum_of n (map val (fleaves e1)) r1 /\ forall i, comp i r1 == comp i r2.
Proof. exact grouping. Qed.
Print Assumptions summed_any_grouping.

(** A + with a summed field kept in a variable changes that field; adding a summed field to itself never ends; a
    vector field added to a summed field is dropped and added to a field gives None. *)
Theorem addition_fresh_refuted : exists k h l n h' o, py_add k h (OSum l) (OField n) = Added h' o /\
  components h' (OSum l) <> components h (OSum l).
Proof. exists 5%nat, [[IField 1; IField 2]], 0%nat, 3%nat. eexists. eexists. split; [reflexivity|]. cbn. discriminate. Qed.
Print Assumptions addition_fresh_refuted.
Theorem addition_ends_refuted : forall k h l, (l < length h)%nat -> hget h l <> [] -> py_add k h (OSum l) (OSum l) = AddLoops.
Proof. exact self_sum_loops. Qed.
Print Assumptions addition_ends_refuted.
Example addition_ends_case : py_add 1000 [[IField 1; IField 2]] (OSum 0) (OSum 0) = AddLoops.
Proof. reflexivity. Qed.
Theorem addition_vector_refuted : exists k h l n, py_add k h (OSum l) (OVector n) = Added h (OSum l) /\ components h (OSum l) = [IVector 1; IVector 2] /\
  py_add k h (OField n) (OVector n) = AddNone h.
Proof. exists 5%nat, [[IVector 1; IVector 2]], 0%nat, 3%nat. repeat split; reflexivity. Qed.
Print Assumptions addition_vector_refuted.

(** C28, summed vector fields in JIT mode, partial: the sum when all components have values, the error of the last
    component. Missing: an error of an earlier component, see the refutation. *)
Theorem summed_vector_jit_partial : forall n vs old, vs <> [] -> same_shape n vs -> length old = length vs ->
  exists r, c_summed_vector old (map Val vs) = Val r /\ sum_of n vs r.
Proof. exact summed_vector_ok. Qed.
Print Assumptions summed_vector_jit_partial.
Theorem summed_vector_error_jit_partial : forall outs e old, length old = length (outs ++ [Err e]) ->
  c_summed_vector old (outs ++ [Err e]) = Err e.
Proof. exact summed_vector_last. Qed.
Print Assumptions summed_vector_error_jit_partial.
Example summed_vector_case : exists r, c_summed_vector [[0; 0]; [7; 7]] (map Val [[1; 2]; [3; 4]]) = Val r /\ sum_of 2 [[1; 2]; [3; 4]] r.
Proof. apply summed_vector_jit_partial; [discriminate| |reflexivity]. split; [lia|]. intros v [<-|[<-|[]]]; reflexivity. Qed.
(** The first component is out of bounds: no error, and what its temporaries held is in the sum. *)
Theorem summed_vector_error_refuted : exists outs old r, first_error outs EBounds /\ c_summed_vector old outs = Val r /\ comp 0 r == 103.
Proof.
  exists [Err EBounds; Val [3; 4]], [[100; 200]; [0; 0]]. eexists. split; [exists [], [Val [3; 4]]; reflexivity|]. split; [reflexivity|]. reflexivity.
Qed.
Print Assumptions summed_vector_error_refuted.

(** C28, nested fields: JIT mode returns the first component not out of bounds, and the error exactly when all are. *)
Theorem nested_first_in_bounds_jit : forall outs o err, first_not out_of_bounds outs o -> c_nested outs err = o.
Proof. exact nested_first_jit. Qed.
Print Assumptions nested_first_in_bounds_jit.
Example nested_first_case : first_not out_of_bounds [Err EBounds; Err EBounds; Val [5]; Err ETime] (Val [5]).
Proof. exists [EBounds; EBounds], [Err ETime]. split; [reflexivity|]. split; [cbn; intros e [<-|[<-|[]]]; reflexivity|discriminate]. Qed.
Theorem nested_out_of_bounds_jit : forall outs err, outs <> [] ->
  (c_nested outs err = Err EBounds <-> forall o, In o outs -> o = Err EBounds).
Proof. exact nested_bounds_iff_jit. Qed.
Print Assumptions nested_out_of_bounds_jit.

(** Scipy mode also skips components with a sampling error (coordinates out of range after the search);
    the error when none is left is that of the last component. *)
Theorem nested_first_in_bounds_partial : forall outs o, first_not bounds_or_sampling outs o -> py_nested outs = o.
Proof. exact nested_first. Qed.
Print Assumptions nested_first_in_bounds_partial.
Theorem nested_no_component : forall outs e, all_skipped bounds_or_sampling outs e -> py_nested outs = Err e.
Proof. exact nested_none. Qed.
Print Assumptions nested_no_component.
Theorem nested_out_of_bounds_partial : forall outs, (forall e, In (Err e) outs -> e <> EInterp) -> outs <> [] ->
  (py_nested outs = Err EBounds <-> forall o, In o outs -> o = Err EBounds).
Proof. exact nested_bounds_iff. Qed.
Print Assumptions nested_out_of_bounds_partial.
Example nested_out_of_bounds_case : (forall e, In (Err e) [Err EBounds; @Err sample EBounds] -> e <> EInterp) /\ py_nested [Err EBounds; Err EBounds] = Err EBounds.
Proof. split; [|reflexivity]. intros e [[= <-]|[[= <-]|[]]]; discriminate. Qed.
(** Every non-empty list of outcomes is in one of the two cases. *)
Theorem nested_cases : forall (skip : serr -> Prop) outs, (forall e, skip e \/ ~ skip e) -> outs <> [] ->
  (exists o, first_not skip outs o) \/ (exists e, all_skipped skip outs e).
Proof. exact first_or_all. Qed.
Print Assumptions nested_cases.
(** In Scipy mode a sampling error is skipped, so the outcome can be out-of-bounds although a component was not. *)
Theorem nested_out_of_bounds_refuted : exists outs, py_nested outs = Err EBounds /\ exists o, In o outs /\ o <> Err EBounds.
Proof. exists [Err EInterp; Err EBounds]. split; [reflexivity|]. exists (Err EInterp). split; [left; reflexivity|discriminate]. Qed.
Print Assumptions nested_out_of_bounds_refuted.

(** The modes agree when no component has a sampling error, and not always otherwise. *)
Theorem nested_modes_agree_partial : forall outs err, outs <> [] -> (forall e, In (Err e) outs -> e <> EInterp) ->
  py_nested outs = c_nested outs err.
Proof. exact nested_modes. Qed.
Print Assumptions nested_modes_agree_partial.
Theorem nested_modes_agree_refuted : exists outs, forall err, py_nested outs = Val [1] /\ c_nested outs err = Err EInterp.
Proof. exists [Err EInterp; Val [1]]. split; reflexivity. Qed.
Print Assumptions nested_modes_agree_refuted.
