(** Properties of the kernel loops and of error recovery: C07 - C14. *)
From Coq Require Import List ZArith Bool Lia.
From Verif Require Import CollModel KLoopModel KLoopSpec KLoopProofs KLoopRecProofs KLoopStepProofs
  KLoopRelProofs KLoopMoreProofs KLoopEqProofs KLoopSetProofs.
Import ListNotations.
Open Scope Z_scope.

Notation ids := (map (@q_id _)).

(** ** Concrete material: particles with one variable; a kernel that adds dt to it; a kernel that,
    depending on the variable, also fails, deletes, asks for repetition, or returns a code nobody
    handles; a recovery kernel that resets the variable. *)
Definition ex_plain (e : unit) (p : pcl Z) : unit * kres Z :=
  (e, mkKres st_Success (q_time p) (q_dt p) (q_st p) (q_x p + q_dt p) None).
Definition ex_mixed (e : unit) (p : pcl Z) : unit * kres Z :=
  if q_x p =? 101 then (e, mkKres err_OutOfBounds (q_time p) (q_dt p) (q_st p) 555 None)
  else if q_x p =? 102 then (e, mkKres op_Delete (q_time p) (q_dt p) (q_st p) 102 None)
  else if q_x p =? 103 then (e, mkKres 99 (q_time p) (q_dt p) (q_st p) 555 None)
  else if (q_x p =? 104) && (4 <? q_dt p) then (e, mkKres st_Success (q_time p) (q_dt p / 2) (q_st p) 555 None)
  else ex_plain e p.
Definition ex_handlers (h : Z) (e : unit) (p : pcl Z) : unit * option (pcl Z) :=
  (e, Some (mkPcl (q_id p) (q_time p) (q_dt p) (q_st p) h)).
Definition ex_user (c : Z) : option Z := if c =? err_OutOfBounds then Some 0 else None.
Definition ex_set : list (pcl Z) :=
  [mkPcl 1 0 10 0 0; mkPcl 2 4 10 0 101; mkPcl 3 0 10 0 102; mkPcl 4 40 10 0 0;
   mkPcl 5 3 10 0 103; mkPcl 6 5 8 0 104].

Lemma ex_set_ids : NoDup (ids ex_set).
Proof. repeat constructor; cbn; intuition discriminate. Qed.

(** What the two modes do with it, dt = 10 until 25. *)
Example ex_run :
  py_execute ex_mixed ex_handlers 60 5 0 10 25 ex_user true tt ex_set =
  (tt, [mkPcl 1 25 5 0 25; mkPcl 2 25 1 0 21; mkPcl 4 40 10 0 0; mkPcl 6 25 4 0 124],
   [ECall 1 0 10 0; ECall 1 10 10 0; ECall 1 20 5 0; ECall 2 4 10 6; ECall 3 0 10 3;
    ECall 5 3 10 99; ECall 6 5 8 2; EWriteDeleted [3];
    EHandler 2 6 (RUser 0) (Some 0); EUnhandled 5 99; EWriteDeleted [5];
    ECall 2 4 10 0; ECall 2 14 10 0; ECall 2 24 1 0;
    ECall 6 5 4 0; ECall 6 9 4 0; ECall 6 13 4 0; ECall 6 17 4 0; ECall 6 21 4 0], XDone).
Proof. vm_compute. reflexivity. Qed.

(** * C07: kernel calls tile the execution interval. *)

(** Scipy mode. The tolerance [atol] (np.isclose's 1e-8 s) is any non-negative number of ticks
    smaller than |dt|; with [atol] = 0 the last step ends exactly at the end time.  [lf] is the number
    of loop iterations allowed, any number above the distance to the end. *)
Theorem calls_tile : forall (E X H : Type) (K : E -> pcl X -> E * kres X) (interp : handlers E X H)
    lf rf atol dt endt user out e (ps : list (pcl X)),
  plain_kernel K -> 0 <= atol -> atol < Z.abs dt -> NoDup (ids ps) ->
  Forall (fun p => (Z.to_nat (Z.abs (endt - q_time p)) < lf)%nat) ps ->
  exists e' ps' tr,
    py_execute K interp lf rf atol dt endt user out e ps = (e', ps', tr, XDone) /\
    ids ps' = ids ps /\
    forall p, In p ps -> before_end atol dt endt p -> atol < Z.abs (q_dt p) ->
      exists p', In p' ps' /\ q_id p' = q_id p /\
                 tiled_to_end atol dt endt p p' (calls_of (q_id p) tr).
Proof. intros E X H. exact py_execute_plain. Qed.
Print Assumptions calls_tile.

(** JIT mode (recovery kernels, which are never called here, must not set dt to 0). *)
Theorem calls_tile_jit : forall (E X H : Type) (K : E -> pcl X -> E * kres X) (interp : handlers E X H)
    lf rf atol dt endt user out e (ps : list (pcl X)),
  plain_kernel K -> handlers_keep_dt interp ->
  0 <= atol -> atol < Z.abs dt -> NoDup (ids ps) ->
  Forall (fun p => q_dt p <> 0) ps ->
  Forall (fun p => (Z.to_nat (Z.abs (endt - q_time p)) < lf)%nat) ps ->
  exists s' ps' tr,
    c_execute K interp lf rf atol dt endt user out (None, e) ps = (s', ps', tr, XDone) /\
    ids ps' = ids ps /\
    forall p, In p ps -> before_end atol dt endt p -> atol < Z.abs (q_dt p) ->
      exists p', In p' ps' /\ q_id p' = q_id p /\
                 tiled_to_end atol dt endt p p' (calls_of (q_id p) tr).
Proof. intros E X H. exact c_execute_plain. Qed.
Print Assumptions calls_tile_jit.

Example calls_tile_case :
  plain_kernel ex_plain /\ handlers_keep_dt ex_handlers /\ 0 <= 0 /\ 0 < Z.abs (-10) /\ NoDup (ids ex_set) /\
  Forall (fun p => q_dt p <> 0) ex_set /\
  Forall (fun p => (Z.to_nat (Z.abs (-25 - q_time p)) < 70)%nat) ex_set /\
  before_end 0 (-10) (-25) (mkPcl 1 0 10 0 0) /\
  calls_of 1 (snd (fst (py_execute ex_plain ex_handlers 70 5 0 (-10) (-25) ex_user true tt ex_set)))
  = [(0, -10); (-10, -10); (-20, -5)].
Proof.
  split; [|split; [|split; [|split; [|split; [|split; [|split; [|split]]]]]]].
  - intros e p. cbn. auto.
  - intros h e p e' p1 Q D. inversion Q; subst. exact D.
  - lia.
  - reflexivity.
  - exact ex_set_ids.
  - repeat constructor; cbn; lia.
  - repeat constructor; cbn; lia.
  - right. cbn. lia.
  - vm_compute. reflexivity.
Qed.

(** With kernels that also err, delete, ask for repetition or call update_next_dt, the calls that were
    not undone still tile the way from the particle's time to its final time, without ever passing the
    end time. *)
Theorem completed_calls_tile : forall (E X H : Type) (K : E -> pcl X -> E * kres X)
    (interp : handlers E X H) lf rf atol dt endt user out e ps e' ps' tr r,
  honest_kernel K -> honest_handlers interp -> 0 <= atol -> atol < Z.abs dt -> NoDup (ids ps) ->
  py_execute K interp lf rf atol dt endt user out e ps = (e', ps', tr, r) ->
  forall p', In p' ps' -> exists p, In p ps /\ q_id p = q_id p' /\
    tiles (q_time p) (completed_of (q_id p) tr) (q_time p') /\
    Forall (fun c => 0 < Z.sgn dt * snd c) (completed_of (q_id p) tr) /\
    (0 <= Z.sgn dt * (endt - q_time p) -> 0 <= Z.sgn dt * (endt - q_time p')).
Proof. intros E X H. exact py_execute_honest. Qed.
Print Assumptions completed_calls_tile.

(** The example kernel changes dt only together with Success, which is a request for repetition, so it
    is not [honest]; this variant returns Repeat itself. *)
Definition ex_honest (e : unit) (p : pcl Z) : unit * kres Z :=
  if (q_x p =? 104) && (4 <? q_dt p) then (e, mkKres op_Repeat (q_time p) (q_dt p / 2) (q_st p) 555 None)
  else if q_x p =? 101 then (e, mkKres err_OutOfBounds (q_time p) (q_dt p) (q_st p) 555 None)
  else ex_plain e p.

Example completed_calls_tile_case :
  honest_kernel ex_honest /\ honest_handlers ex_handlers /\ NoDup (ids ex_set) /\
  let '(_, _, tr, r) := py_execute ex_honest ex_handlers 60 5 0 10 25 ex_user true tt ex_set in
  r = XDone /\ calls_of 6 tr = [(5, 8); (5, 4); (9, 4); (13, 4); (17, 4); (21, 4)] /\
  completed_of 6 tr = [(5, 4); (9, 4); (13, 4); (17, 4); (21, 4)].
Proof.
  split; [|split; [|split; [exact ex_set_ids|]]].
  - intros e p. unfold ex_honest, ex_plain. destruct (_ && _); [|destruct (_ =? _)]; cbn; split; auto.
    intros [Q|Q]; discriminate.
  - intros h e p e' p1 Q. inversion Q; subst. reflexivity.
  - vm_compute. auto.
Qed.

(** * C08: particles not strictly before the end time are untouched. *)

Theorem not_started_untouched : forall (E X H : Type) (K : E -> pcl X -> E * kres X)
    (interp : handlers E X H) lf rf atol dt endt user out e ps e' ps' tr r p,
  0 <= atol -> atol < Z.abs dt -> NoDup (ids ps) -> In p ps -> not_before_end dt endt p ->
  py_execute K interp lf rf atol dt endt user out e ps = (e', ps', tr, r) ->
  events_of (q_id p) tr = [] /\
  exists p', In p' ps' /\ q_id p' = q_id p /\ q_time p' = q_time p /\ q_dt p' = q_dt p /\ q_x p' = q_x p.
Proof. intros E X H. exact py_execute_not_before. Qed.
Print Assumptions not_started_untouched.

Theorem not_started_untouched_jit : forall (E X H : Type) (K : E -> pcl X -> E * kres X)
    (interp : handlers E X H) lf rf atol dt endt user out s ps s' ps' tr r p,
  0 <= atol -> NoDup (ids ps) -> In p ps -> q_dt p <> 0 -> not_before_end dt endt p ->
  c_execute K interp lf rf atol dt endt user out s ps = (s', ps', tr, r) ->
  events_of (q_id p) tr = [] /\
  exists p', In p' ps' /\ q_id p' = q_id p /\ q_time p' = q_time p /\ q_dt p' = q_dt p /\ q_x p' = q_x p.
Proof. intros E X H. exact c_execute_not_before. Qed.
Print Assumptions not_started_untouched_jit.

Example not_started_case :
  In (mkPcl 4 40 10 0 0) ex_set /\ not_before_end 10 25 (mkPcl 4 40 10 0 0) /\
  In (mkPcl 4 40 10 0 0)
     (snd (fst (fst (c_execute ex_mixed ex_handlers 60 5 0 10 25 ex_user true (None, tt) ex_set)))).
Proof.
  split; [cbn; tauto|]. split; [left; cbn; lia|]. vm_compute. tauto.
Qed.

(** * C09: a failed or repeated kernel call leaves no trace.
    One pass over one particle is a sequence of calls, each starting from the particle the previous one
    left; the trace shows exactly these calls; a call that is not accepted leaves time and all other
    variables as they were (dt and state excepted). *)
Theorem failed_call_undone : forall (E X H : Type) (K : E -> pcl X -> E * kres X)
    f atol dt endt e p e' p' (tr : list (ev H)),
  py_particle K f atol dt endt e p = Some (e', p', tr) ->
  exists l p1, linked p l p1 /\ Forall2 (shows K (close atol)) tr l /\
    Forall (call_effect K (close atol)) l /\
    q_id p' = q_id p1 /\ q_time p' = q_time p1 /\ q_dt p' = q_dt p1 /\ q_x p' = q_x p1.
Proof. intros E X H. exact py_particle_calls. Qed.
Print Assumptions failed_call_undone.

Theorem failed_call_undone_jit : forall (E X H : Type) (K : E -> pcl X -> E * kres X)
    f atol dt endt g e p g' e' p' (tr : list (ev H)),
  c_particle K f atol dt endt g e p = Some (g', e', p', tr) ->
  exists l p1, linked p l p1 /\ Forall2 (shows K Z.eqb) tr l /\ Forall (call_effect K Z.eqb) l /\
    q_id p' = q_id p1 /\ q_time p' = q_time p1 /\ q_dt p' = q_dt p1 /\ q_x p' = q_x p1.
Proof. intros E X H. exact c_particle_calls. Qed.
Print Assumptions failed_call_undone_jit.

(** Particle 2 of the example: the kernel wrote 555 before failing. *)
Example failed_call_case :
  py_particle ex_mixed 60 0 10 25 tt (mkPcl 2 4 10 1 101)
  = Some (tt, mkPcl 2 4 10 6 101, [ECall (H:=Z) 2 4 10 err_OutOfBounds]).
Proof. vm_compute. reflexivity. Qed.

(** * C10: deleted particles disappear and stay gone.
    Partial: "absent when execute returns" is proved for runs that complete; it fails for runs that
    are stopped, see [deleted_gone_refuted]. *)
Theorem deleted_gone_partial : forall (E X H : Type) (K : E -> pcl X -> E * kres X)
    (interp : handlers E X H) lf rf atol dt endt user out e ps e' ps' tr r,
  NoDup (ids ps) ->
  py_execute K interp lf rf atol dt endt user out e ps = (e', ps', tr, r) ->
  (forall id v a b, tr = a ++ v :: b -> deleting id v -> events_of id b = []) /\
  (exists keep, ids ps' = filter keep (ids ps)) /\
  (r = XDone -> forall id, In id (ids ps') <-> In id (ids ps) /\ ~ deleted_in id tr) /\
  (out = true -> NoDup (written_deleted tr)) /\
  (out = true -> r = XDone ->
     forall id, In id (written_deleted tr) <-> In id (ids ps) /\ deleted_in id tr).
Proof.
  intros E X H K interp lf rf atol dt endt user out e ps e' ps' tr r ND R.
  exact (ex_statement_deletion _ _ _ _ _ _ (py_execute_spec _ _ _ _ _ _ _ _ _ _ _ _ _ _ _ ND R)).
Qed.
Print Assumptions deleted_gone_partial.

Theorem deleted_gone_jit_partial : forall (E X H : Type) (K : E -> pcl X -> E * kres X)
    (interp : handlers E X H) lf rf atol dt endt user out s ps s' ps' tr r,
  NoDup (ids ps) ->
  c_execute K interp lf rf atol dt endt user out s ps = (s', ps', tr, r) ->
  (forall id v a b, tr = a ++ v :: b -> deleting id v -> events_of id b = []) /\
  (exists keep, ids ps' = filter keep (ids ps)) /\
  (r = XDone -> forall id, In id (ids ps') <-> In id (ids ps) /\ ~ deleted_in id tr) /\
  (out = true -> NoDup (written_deleted tr)) /\
  (out = true -> r = XDone ->
     forall id, In id (written_deleted tr) <-> In id (ids ps) /\ deleted_in id tr).
Proof.
  intros E X H K interp lf rf atol dt endt user out s ps s' ps' tr r ND R.
  exact (ex_statement_deletion _ _ _ _ _ _ (c_execute_spec _ _ _ _ _ _ _ _ _ _ _ _ _ _ _ ND R)).
Qed.
Print Assumptions deleted_gone_jit_partial.

(** A particle whose error code has no recovery kernel is marked as deleted; then a later particle
    stops the execution; execute returns with the former still in the set. *)
Definition ex_stop (e : unit) (p : pcl Z) : unit * kres Z :=
  (e, mkKres (if q_id p =? 1 then 99 else op_StopExecution) (q_time p) (q_dt p) (q_st p) (q_x p) None).
Theorem deleted_gone_refuted :
  exists (K : unit -> pcl Z -> unit * kres Z) (interp : handlers unit Z Z) ps ps' tr,
    NoDup (ids ps) /\
    py_execute K interp 10 10 0 10 25 (fun _ => None) true tt ps = (tt, ps', tr, XStop) /\
    deleted_in 1 tr /\ In 1 (ids ps').
Proof.
  exists ex_stop, ex_handlers, [mkPcl 1 0 10 0 0; mkPcl 2 0 10 0 0],
    [mkPcl 1 0 10 3 0; mkPcl 2 0 10 4 0],
    [ECall 1 0 10 99; ECall 2 0 10 4; EUnhandled 1 99].
  split; [repeat constructor; cbn; intuition discriminate|]. split; [vm_compute; reflexivity|].
  split; [|cbn; tauto]. exists (EUnhandled 1 99). split; [cbn; tauto|reflexivity].
Qed.
Print Assumptions deleted_gone_refuted.

(** * C11: errors are dispatched to the right recovery kernel.
    [disciplined] is the protocol: a failed call is followed by exactly one call of the recovery kernel
    in force for its code (or by deletion if there is none), Repeat by another kernel call, nothing
    follows a deletion.  If execute completes, nobody is left in error. *)
Theorem dispatch : forall (E X H : Type) (K : E -> pcl X -> E * kres X)
    (interp : handlers E X H) lf rf atol dt endt user out e ps e' ps' tr r,
  NoDup (ids ps) ->
  py_execute K interp lf rf atol dt endt user out e ps = (e', ps', tr, r) ->
  exists rmap, map_in_force user rmap /\
  (forall id, ~ In id (ids ps) -> events_of id tr = []) /\
  (forall id, In id (ids ps) -> exists b, disciplined rmap Ready (events_of id tr) b /\
     (r = XDone -> (forall c, b <> Failed c) /\ b <> Raised)) /\
  (r = XDone -> Forall (fun p => q_st p = st_Success \/ q_st p = st_Evaluate) ps') /\
  (r = XStop -> exists p, In p ps' /\ q_st p = op_StopExecution) /\
  (r = XRaise -> exists id c h, In (EHandler id c h None) tr).
Proof.
  intros E X H K interp lf rf atol dt endt user out e ps e' ps' tr r ND R.
  destruct (py_execute_spec _ _ _ _ _ _ _ _ _ _ _ _ _ _ _ ND R) as (A & B & C & D & F & G & _).
  exists (recovery_map user). split; [apply recovery_map_in_force|]. split; [exact B|].
  split; [|auto]. intros id I. destruct (C id I) as (b & DB & FB). exists b. split; [exact DB|].
  intros ->. destruct b; cbn [final_ok] in FB; try contradiction; split; discriminate.
Qed.
Print Assumptions dispatch.

Theorem dispatch_jit : forall (E X H : Type) (K : E -> pcl X -> E * kres X)
    (interp : handlers E X H) lf rf atol dt endt user out s ps s' ps' tr r,
  NoDup (ids ps) ->
  c_execute K interp lf rf atol dt endt user out s ps = (s', ps', tr, r) ->
  exists rmap, map_in_force user rmap /\
  (forall id, ~ In id (ids ps) -> events_of id tr = []) /\
  (forall id, In id (ids ps) -> exists b, disciplined rmap Ready (events_of id tr) b /\
     (r = XDone -> (forall c, b <> Failed c) /\ b <> Raised)) /\
  (r = XDone -> Forall (fun p => q_st p = st_Success \/ q_st p = st_Evaluate) ps') /\
  (r = XStop -> exists p, In p ps' /\ q_st p = op_StopExecution) /\
  (r = XRaise -> exists id c h, In (EHandler id c h None) tr).
Proof.
  intros E X H K interp lf rf atol dt endt user out s ps s' ps' tr r ND R.
  destruct (c_execute_spec _ _ _ _ _ _ _ _ _ _ _ _ _ _ _ ND R) as (A & B & C & D & F & G & _).
  exists (recovery_map user). split; [apply recovery_map_in_force|]. split; [exact B|].
  split; [|auto]. intros id I. destruct (C id I) as (b & DB & FB). exists b. split; [exact DB|].
  intros ->. destruct b; cbn [final_ok] in FB; try contradiction; split; discriminate.
Qed.
Print Assumptions dispatch_jit.

(** [ex_run] above meets the hypotheses and shows a handled error, an unhandled one, a deletion and a
    repetition; here is the history of the particle that was handled. *)
Example dispatch_case :
  events_of 2 (snd (fst (py_execute ex_mixed ex_handlers 60 5 0 10 25 ex_user true tt ex_set))) =
  [ECall 2 4 10 err_OutOfBounds; EHandler 2 err_OutOfBounds (RUser 0) (Some st_Success);
   ECall 2 4 10 0; ECall 2 14 10 0; ECall 2 24 1 0].
Proof. vm_compute. reflexivity. Qed.

(** * C12: particles do not influence each other.
    Partial: for runs of the set that complete (a particle that stops or raises ends the run for all,
    see [stop_couples_refuted]) and kernels that do not answer Evaluate.  [concat rs]: every particle ends as it
    would alone (nothing if it is deleted), in the order of the set. *)
Theorem particles_independent_partial : forall (E X H : Type) (K : E -> pcl X -> E * kres X)
    (interp : handlers E X H) lf rf atol dt endt user out e ps e' ps' tr,
  self_contained K interp -> never_evaluate K -> 0 <= atol -> atol < Z.abs dt ->
  py_execute K interp lf rf atol dt endt user out e ps = (e', ps', tr, XDone) ->
  exists rs, Forall2 (fun p r => exists tr1,
                py_execute K interp lf rf atol dt endt user out e [p] = (e, r, tr1, XDone)) ps rs /\
             ps' = concat rs.
Proof. intros E X H. exact execute_split. Qed.
Print Assumptions particles_independent_partial.

Theorem particles_independent_jit_partial : forall (E X H : Type) (K : E -> pcl X -> E * kres X)
    (interp : handlers E X H) lf rf atol dt endt user out e ps s' ps' tr,
  self_contained K interp -> never_evaluate K -> mode_neutral atol K -> handlers_keep_dt interp ->
  0 <= atol -> atol < Z.abs dt -> Forall (fun p => q_dt p <> 0) ps ->
  c_execute K interp lf rf atol dt endt user out (None, e) ps = (s', ps', tr, XDone) ->
  exists rs, Forall2 (fun p r => exists tr1,
                c_execute K interp lf rf atol dt endt user out (None, e) [p]
                = ((None, e), r, tr1, XDone)) ps rs /\
             ps' = concat rs.
Proof. intros E X H. exact c_execute_split. Qed.
Print Assumptions particles_independent_jit_partial.

Lemma ex_never : never_evaluate ex_mixed.
Proof.
  intros e p ST. unfold ex_mixed, ex_plain, signalled.
  destruct (q_x p =? 101); [cbn; discriminate|]. destruct (q_x p =? 102); [cbn; discriminate|].
  destruct (q_x p =? 103); [cbn; discriminate|].
  destruct ((q_x p =? 104) && (4 <? q_dt p)); cbn; rewrite Z.eqb_refl; discriminate.
Qed.

Example particles_independent_case :
  self_contained ex_mixed ex_handlers /\ never_evaluate ex_mixed /\
  snd (py_execute ex_mixed ex_handlers 60 5 0 10 25 ex_user true tt ex_set) = XDone.
Proof.
  split; [split|split].
  - exists (fun p => snd (ex_mixed tt p)). intros [] p. unfold ex_mixed, ex_plain.
    repeat (match goal with |- context [if ?b then _ else _] => destruct b end; try reflexivity).
  - exists (fun h p => Some (mkPcl (q_id p) (q_time p) (q_dt p) (q_st p) h)). reflexivity.
  - exact ex_never.
  - vm_compute. reflexivity.
Qed.

(** Particle 2 stops the execution: particle 1, which alone would recover and reach the end time,
    stays where it failed. *)
Definition ex_stop2 (e : unit) (p : pcl Z) : unit * kres Z :=
  if q_id p =? 1 then ex_mixed e p
  else (e, mkKres op_StopExecution (q_time p) (q_dt p) (q_st p) (q_x p) None).
Theorem stop_couples_refuted :
  exists (K : unit -> pcl Z -> unit * kres Z) (interp : handlers unit Z Z) user p q,
    self_contained K interp /\ never_evaluate K /\
    snd (fst (fst (py_execute K interp 60 10 0 10 25 user true tt [p]))) = [mkPcl 1 25 5 0 25] /\
    snd (fst (fst (py_execute K interp 60 10 0 10 25 user true tt [q; p]))) = [mkPcl 2 0 10 4 0; mkPcl 1 0 10 6 101].
Proof.
  exists ex_stop2, ex_handlers, ex_user, (mkPcl 1 0 10 0 101), (mkPcl 2 0 10 0 0).
  split; [split|split; [|split; vm_compute; reflexivity]].
  - exists (fun p => snd (ex_stop2 tt p)). intros [] p. unfold ex_stop2, ex_mixed, ex_plain.
    repeat (match goal with |- context [if ?b then _ else _] => destruct b end; try reflexivity).
  - exists (fun h p => Some (mkPcl (q_id p) (q_time p) (q_dt p) (q_st p) h)). reflexivity.
  - intros e p ST. unfold ex_stop2. destruct (q_id p =? 1); [|unfold signalled; cbn; discriminate].
    exact (ex_never e p ST).
Qed.
Print Assumptions stop_couples_refuted.

(** * C13: a zero-length run executes the kernel exactly once.
    Partial: for kernels whose call succeeds (or deletes) when dt = 0; it fails as soon as one particle
    needs recovery, see [zero_run_once_refuted]. *)
Theorem zero_run_once_partial : forall (E X H : Type) (K : E -> pcl X -> E * kres X)
    (interp : handlers E X H) lf rf atol endt user out e ps,
  zero_step_succeeds K -> 0 <= atol -> NoDup (ids ps) ->
  exists e' ps' tr,
    py_execute K interp (S lf) rf atol 0 endt user out e ps = (e', ps', tr, XDone) /\
    (forall p, In p ps -> calls_of (q_id p) tr = [(q_time p, 0)]) /\
    (forall p', In p' ps' -> exists p, In p ps /\ q_id p = q_id p' /\ q_time p = q_time p').
Proof. intros E X H. exact py_execute_zero. Qed.
Print Assumptions zero_run_once_partial.

Theorem zero_run_once_jit_partial : forall (E X H : Type) (K : E -> pcl X -> E * kres X)
    (interp : handlers E X H) lf rf atol endt user out e ps,
  zero_step_succeeds K -> (forall e p, k_next (snd (K e p)) = None) -> 0 <= atol -> NoDup (ids ps) ->
  Forall (fun p => q_dt p = 0) ps ->
  exists s' ps' tr,
    c_execute K interp (S lf) rf atol 0 endt user out (None, e) ps = (s', ps', tr, XDone) /\
    (forall p, In p ps -> calls_of (q_id p) tr = [(q_time p, 0)]) /\
    (forall p', In p' ps' -> exists p, In p ps /\ q_id p = q_id p' /\ q_time p = q_time p').
Proof. intros E X H. exact c_execute_zero. Qed.
Print Assumptions zero_run_once_jit_partial.

Example zero_run_case :
  zero_step_succeeds ex_plain /\ (forall e p, k_next (snd (ex_plain e p)) = None) /\
  snd (fst (c_execute ex_plain ex_handlers 1 0 0 0 7 ex_user true (None, tt) [mkPcl 1 7 0 0 5; mkPcl 2 7 0 0 6]))
  = [ECall 1 7 0 0; ECall 2 7 0 0].
Proof.
  split; [|split; [reflexivity|vm_compute; reflexivity]].
  intros e p ST D. cbn. rewrite ST, D. cbn. auto.
Qed.

(** One particle fails once and is recovered: the kernel runs a second time on its neighbour, too (a
    neighbour that succeeded), in both modes. *)
Theorem zero_run_once_refuted :
  exists (K : unit -> pcl Z -> unit * kres Z) (interp : handlers unit Z Z) user ps,
    NoDup (ids ps) /\ Forall (fun p => q_dt p = 0) ps /\
    (let '(_, _, tr, r) := py_execute K interp 10 10 0 0 7 user true tt ps in
     r = XDone /\ calls_of 2 tr = [(7, 0); (7, 0)]) /\
    (let '(_, _, tr, r) := c_execute K interp 10 10 0 0 7 user true (None, tt) ps in
     r = XDone /\ calls_of 2 tr = [(7, 0); (7, 0)]).
Proof.
  exists ex_mixed, ex_handlers, ex_user, [mkPcl 1 7 0 0 101; mkPcl 2 7 0 0 0].
  split; [repeat constructor; cbn; intuition discriminate|]. split; [repeat constructor|].
  split; vm_compute; auto.
Qed.
Print Assumptions zero_run_once_refuted.

(** * C14: JIT and Scipy modes step particles identically.
    Partial: [mode_neutral] excludes kernels that set dt to 0, change it by less than np.isclose's
    tolerance, or call update_next_dt in a call that then fails; see [modes_agree_refuted]. *)
Theorem modes_agree_partial : forall (E X H : Type) (K : E -> pcl X -> E * kres X)
    (interp : handlers E X H) lf rf atol dt endt user out e ps,
  mode_neutral atol K -> handlers_keep_dt interp -> 0 <= atol -> atol < Z.abs dt ->
  Forall (fun p => q_dt p <> 0) ps ->
  c_execute K interp lf rf atol dt endt user out (None, e) ps =
  let '(e', ps', tr, r) := py_execute K interp lf rf atol dt endt user out e ps in
  ((None, e'), ps', tr, r).
Proof. intros E X H. exact execute_modes. Qed.
Print Assumptions modes_agree_partial.

Example modes_agree_case :
  mode_neutral 0 (fun (e : unit) (p : pcl Z) => if (q_x p =? 101) then (e, mkKres err_OutOfBounds (q_time p) (q_dt p) (q_st p) 555 None)
                             else (e, mkKres st_Success (q_time p) (q_dt p) (q_st p) (q_x p + q_dt p) (Some 3))) /\
  handlers_keep_dt ex_handlers /\ Forall (fun p => q_dt p <> 0) ex_set.
Proof.
  split; [|split].
  - intros e p D. destruct (q_x p =? 101); cbn.
    + repeat split; auto. discriminate.
    + repeat split; auto; try discriminate. unfold call_accepted, signalled. cbn. rewrite !Z.eqb_refl. cbn. discriminate.
  - intros h e p e' p1 Q D. inversion Q; subst. exact D.
  - repeat constructor; cbn; lia.
Qed.

(** A kernel calls update_next_dt(2) and then fails: in JIT mode the request stays in a global and is
    applied to the next particle that succeeds. *)
Definition ex_leak (e : unit) (p : pcl Z) : unit * kres Z :=
  if q_x p =? 101 then (e, mkKres err_OutOfBounds (q_time p) (q_dt p) (q_st p) 555 (Some 2))
  else ex_plain e p.
Theorem modes_agree_refuted :
  exists (K : unit -> pcl Z -> unit * kres Z) (interp : handlers unit Z Z) user ps,
    handlers_keep_dt interp /\ Forall (fun p => q_dt p <> 0) ps /\ NoDup (ids ps) /\
    calls_of 2 (snd (fst (py_execute K interp 60 10 0 10 25 user true tt ps)))
      = [(0, 10); (10, 10); (20, 5)] /\
    calls_of 2 (snd (fst (c_execute K interp 60 10 0 10 25 user true (None, tt) ps)))
      = [(0, 10); (10, 2); (12, 2); (14, 2); (16, 2); (18, 2); (20, 2); (22, 2); (24, 1)].
Proof.
  exists ex_leak, ex_handlers, ex_user, [mkPcl 1 0 10 0 101; mkPcl 2 0 10 0 0].
  split; [intros h e p e' p1 Q D; inversion Q; subst; exact D|].
  split; [repeat constructor; cbn; lia|].
  split; [repeat constructor; cbn; intuition discriminate|].
  split; vm_compute; reflexivity.
Qed.
Print Assumptions modes_agree_refuted.
