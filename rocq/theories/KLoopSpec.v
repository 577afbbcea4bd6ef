(** Vocabulary for the properties of the kernel loops (C07-C14): what is read off a trace, and the
    protocol a particle's events must follow.  Nothing here refers to how the loops are written. *)
From Coq Require Import List ZArith Bool.
From Verif Require Import CollModel KLoopModel.
Import ListNotations.
Open Scope Z_scope.

Section Spec.
Context {E X H : Type}.
Notation pcl := (pcl X).
Notation ev := (ev H).

(** ** Reading a trace *)

Definition ev_about (id : Z) (v : ev) : bool :=
  match v with
  | ECall i _ _ _ => i =? id
  | EHandler i _ _ _ => i =? id
  | EUnhandled i _ => i =? id
  | EWriteDeleted _ => false
  end.

(** The events of one particle. *)
Definition events_of (id : Z) (tr : list ev) : list ev := filter (ev_about id) tr.

(** The kernel calls of one particle: (time, dt) pairs. *)
Definition calls_of (id : Z) (tr : list ev) : list (Z * Z) :=
  flat_map (fun v => match v with
                     | ECall i t h _ => if i =? id then [(t, h)] else []
                     | _ => []
                     end) tr.

(** Those of them that were not undone (ended in Success or Delete). *)
Definition completed_of (id : Z) (tr : list ev) : list (Z * Z) :=
  flat_map (fun v => match v with
                     | ECall i t h c =>
                         if (i =? id) && ((c =? st_Success) || (c =? op_Delete)) then [(t, h)] else []
                     | _ => []
                     end) tr.

(** Particles handed to the output file as deleted, in order. *)
Definition written_deleted (tr : list ev) : list Z :=
  flat_map (fun v => match v with EWriteDeleted l => l | _ => [] end) tr.

(** ** C07: tiling *)

(** The steps (time, length) lead from [t] to [t']: each starts where the previous one ended. *)
Fixpoint tiles (t : Z) (steps : list (Z * Z)) (t' : Z) : Prop :=
  match steps with
  | [] => t = t'
  | (tc, h) :: rest => tc = t /\ tiles (t + h) rest t'
  end.

(** The particle is strictly before the end time in the direction of [dt], by more than the
    tolerance. *)
Definition before_end (atol dt endt : Z) (p : pcl) : Prop :=
  (0 < dt /\ q_time p + atol < endt) \/ (dt < 0 /\ endt < q_time p - atol).

(** Not before the end time (not started, or done). *)
Definition not_before_end (dt endt : Z) (p : pcl) : Prop :=
  (0 < dt /\ endt <= q_time p) \/ (dt < 0 /\ q_time p <= endt).

(** [calls] carry [p] to [p'], at the end time up to the tolerance: consecutive, all of the particle's
    own dt in the direction of [dt], except that the last may be shorter. *)
Definition tiled_to_end (atol dt endt : Z) (p p' : pcl) (calls : list (Z * Z)) : Prop :=
  exists front tl hl,
    calls = front ++ [(tl, hl)] /\
    tiles (q_time p) (front ++ [(tl, hl)]) (q_time p') /\
    Forall (fun c => snd c = Z.sgn dt * Z.abs (q_dt p)) front /\
    0 < Z.sgn dt * hl <= Z.abs (q_dt p) /\
    0 <= Z.sgn dt * (endt - q_time p') <= atol.

(** A kernel that neither errs, nor touches time, dt, or state. *)
Definition plain_kernel (K : E -> pcl -> E * kres X) : Prop :=
  forall e p, k_res (snd (K e p)) = st_Success /\ k_time (snd (K e p)) = q_time p /\
              k_dt (snd (K e p)) = q_dt p /\ k_st (snd (K e p)) = q_st p /\
              k_next (snd (K e p)) = None.

(** A kernel that never writes particle.time and, whenever it reports success or deletion, has not
    changed particle.dt either; it may err, delete, ask for repetition, and use update_next_dt. *)
Definition honest_kernel (K : E -> pcl -> E * kres X) : Prop :=
  forall e p, k_time (snd (K e p)) = q_time p /\
              (k_res (snd (K e p)) = st_Success \/ k_res (snd (K e p)) = op_Delete ->
               k_dt (snd (K e p)) = q_dt p).

(** Recovery kernels that never write particle.time. *)
Definition honest_handlers (interp : handlers E X H) : Prop :=
  forall h e p e' p1, interp h e p = (e', Some p1) -> q_time p1 = q_time p.

(** ** C09: what one call did *)

(** The code signalled by a call: the returned one or, if that is Success, the state if the kernel
    assigned it. *)
Definition signalled (prev : Z) (r : kres X) : Z :=
  if k_res r =? st_Success then (if k_st r =? prev then st_Success else k_st r) else k_res r.

(** The call succeeded (possibly deleting the particle). [dt_kept]: dt was left as it was. *)
Definition call_accepted (prev : Z) (dt_kept : bool) (r : kres X) : bool :=
  (signalled prev r =? op_Delete) || ((signalled prev r =? st_Success) && dt_kept).

Record call_record := mkCall {
  c_env : E; c_before : pcl; c_h : Z; c_after : pcl
}.

(** The calls lead from particle [p] to particle [p']. *)
Fixpoint linked (p : pcl) (l : list call_record) (p' : pcl) : Prop :=
  match l with
  | [] => p' = p
  | c :: t => c_before c = p /\ linked (c_after c) t p'
  end.

(** Effect of one call, given when a change of dt is tolerated. *)
Definition call_effect (K : E -> pcl -> E * kres X) (same_dt : Z -> Z -> bool) (c : call_record)
  : Prop :=
  let b := c_before c in
  let r := snd (K (c_env c) (mkPcl (q_id b) (q_time b) (c_h c) (q_st b) (q_x b))) in
  q_id (c_after c) = q_id b /\
  if call_accepted (q_st b) (same_dt (k_dt r) (c_h c)) r
  then q_time (c_after c) = k_time r + k_dt r /\ q_x (c_after c) = k_x r
  else q_time (c_after c) = q_time b /\ q_x (c_after c) = q_x b.

(** Event [v] is the trace of call [c]: same particle, time and dt, and a code that says whether the
    call was accepted. *)
Definition shows (K : E -> pcl -> E * kres X) (same_dt : Z -> Z -> bool) (v : ev) (c : call_record)
  : Prop :=
  let b := c_before c in
  let r := snd (K (c_env c) (mkPcl (q_id b) (q_time b) (c_h c) (q_st b) (q_x b))) in
  exists code, v = ECall (q_id b) (q_time b) (c_h c) code /\
    (call_accepted (q_st b) (same_dt (k_dt r) (c_h c)) r = true <->
     code = st_Success \/ code = op_Delete).

(** ** C10, C11: the protocol of a particle's events *)

Inductive pend := Ready | Failed (c : Z) | HFailed (c : Z) | Gone | Raised.

(** The codes a failed call can carry (everything but Success, Evaluate, Repeat, Delete). *)
Definition after_code (failed : Z -> pend) (c : Z) : pend :=
  if (c =? st_Success) || (c =? st_Evaluate) || (c =? op_Repeat) then Ready
  else if c =? op_Delete then Gone else failed c.

Inductive disc_step (rmap : Z -> option (rkernel H)) : pend -> ev -> pend -> Prop :=
| ds_call i t h c : disc_step rmap Ready (ECall i t h c) (after_code Failed c)
| ds_hcall i t h c c0 : disc_step rmap (HFailed c0) (ECall i t h c) (after_code Failed c)
| ds_handler i c h o :
    rmap c = Some h -> c <> op_StopExecution ->
    disc_step rmap (Failed c) (EHandler i c h (Some o)) (after_code HFailed o)
| ds_hhandler i c h o :
    rmap c = Some h -> c <> op_StopExecution ->
    disc_step rmap (HFailed c) (EHandler i c h (Some o)) (after_code HFailed o)
| ds_raise i c h :
    rmap c = Some h -> c <> op_StopExecution ->
    disc_step rmap (Failed c) (EHandler i c h None) Raised
| ds_hraise i c h :
    rmap c = Some h -> c <> op_StopExecution ->
    disc_step rmap (HFailed c) (EHandler i c h None) Raised
| ds_unhandled i c :
    rmap c = None -> c <> op_StopExecution ->
    disc_step rmap (Failed c) (EUnhandled i c) Gone
| ds_hunhandled i c :
    rmap c = None -> c <> op_StopExecution ->
    disc_step rmap (HFailed c) (EUnhandled i c) Gone.

Inductive disciplined (rmap : Z -> option (rkernel H)) : pend -> list ev -> pend -> Prop :=
| disc_nil a : disciplined rmap a [] a
| disc_cons a v b t c :
    disc_step rmap a v b -> disciplined rmap b t c -> disciplined rmap a (v :: t) c.

(** The recovery map in force, in words: the user's entry for the code; for through-surface errors
    the user's out-of-bounds entry if there is no other; the raising default for the five error
    codes; nothing for any other code. *)
Definition map_in_force (user : Z -> option H) (rmap : Z -> option (rkernel H)) : Prop :=
  (forall c h, user c = Some h -> rmap c = Some (RUser h)) /\
  (forall h, user err_ThroughSurface = None -> user err_OutOfBounds = Some h ->
             rmap err_ThroughSurface = Some (RUser h)) /\
  (user err_ThroughSurface = None -> user err_OutOfBounds = None ->
   rmap err_ThroughSurface = Some RDefault) /\
  (forall c, user c = None -> In c [err_Error; err_Interpolation; err_OutOfBounds; err_TimeExtrapolation] ->
             rmap c = Some RDefault) /\
  (forall c, user c = None ->
             ~ In c [err_Error; err_Interpolation; err_OutOfBounds; err_TimeExtrapolation; err_ThroughSurface] ->
             rmap c = None).

(** Events by which a particle is deleted. *)
Definition deleting (id : Z) (v : ev) : Prop :=
  match v with
  | ECall i _ _ c => i = id /\ c = op_Delete
  | EHandler i _ _ o => i = id /\ o = Some op_Delete
  | EUnhandled i _ => i = id
  | EWriteDeleted _ => False
  end.

Definition deleted_in (id : Z) (tr : list ev) : Prop := exists v, In v tr /\ deleting id v.

(** ** C14: kernels for which the two modes must agree *)

(** dt is either kept exactly or changed by more than the tolerance, never set to 0 (directly or by
    update_next_dt), and update_next_dt is not called in a call that then fails. *)
Definition mode_neutral (atol : Z) (K : E -> pcl -> E * kres X) : Prop :=
  forall e p, q_dt p <> 0 ->
    let r := snd (K e p) in
    (k_dt r = q_dt p \/ close atol (k_dt r) (q_dt p) = false) /\
    k_dt r <> 0 /\ k_next r <> Some 0 /\
    (call_accepted (q_st p) (k_dt r =? q_dt p) r = false -> k_next r = None).

Definition handlers_keep_dt (interp : handlers E X H) : Prop :=
  forall h e p e' p1, interp h e p = (e', Some p1) -> q_dt p <> 0 -> q_dt p1 <> 0.

(** ** C13: kernels whose call with dt = 0 succeeds and that do not write time. *)
Definition zero_step_succeeds (K : E -> pcl -> E * kres X) : Prop :=
  forall e p, q_st p = st_Evaluate -> q_dt p = 0 ->
    let r := snd (K e p) in
    k_time r = q_time p /\ k_dt r = 0 /\
    (signalled (q_st p) r = st_Success \/ signalled (q_st p) r = op_Delete).

(** ** C12: kernels and recovery kernels that only look at their particle *)
Definition self_contained (K : E -> pcl -> E * kres X) (interp : handlers E X H) : Prop :=
  (exists f, forall e p, K e p = (e, f p)) /\
  (exists g, forall h e p, interp h e p = (e, g h p)).

(** The kernel never signals Evaluate, a code that is neither success nor failure. *)
Definition never_evaluate (K : E -> pcl -> E * kres X) : Prop :=
  forall e p, q_st p = st_Evaluate \/ q_st p = op_Repeat ->
              signalled (q_st p) (snd (K e p)) <> st_Evaluate.

End Spec.
