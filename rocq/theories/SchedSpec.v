(** Vocabulary for C15-C17: what is read off the events of pset.execute. *)
From Coq Require Import List ZArith Bool.
From Verif Require Import SchedModel.
Import ListNotations.
Open Scope Z_scope.

(** The window ends, write times, release times and so on, in order. *)
Definition exec_times (tr : list sev) : list Z :=
  flat_map (fun v => match v with SExec t => [t] | _ => [] end) tr.
Definition write_times (tr : list sev) : list Z :=
  flat_map (fun v => match v with SWrite t => [t] | _ => [] end) tr.
Definition release_times (tr : list sev) : list Z :=
  flat_map (fun v => match v with SRelease t => [t] | _ => [] end) tr.
Definition show_times (tr : list sev) : list Z :=
  flat_map (fun v => match v with SShow t => [t] | _ => [] end) tr.
Definition callback_times (tr : list sev) : list Z :=
  flat_map (fun v => match v with SCallback t => [t] | _ => [] end) tr.

(** [ts] leads from [t] to [endt]: each strictly later (in the direction of [dt]) than the one before,
    none beyond [endt], the last equal to [endt]. *)
Fixpoint leads_to (dt t : Z) (ts : list Z) (endt : Z) : Prop :=
  match ts with
  | [] => t = endt
  | t' :: rest => 0 < Z.sgn dt * (t' - t) /\ 0 <= Z.sgn dt * (endt - t') /\ leads_to dt t' rest endt
  end.

(** Strictly ordered in the direction of [dt], starting strictly after [t]; so no time occurs twice. *)
Fixpoint ordered_after (dt t : Z) (ts : list Z) : Prop :=
  match ts with
  | [] => True
  | t' :: rest => 0 < Z.sgn dt * (t' - t) /\ ordered_after dt t' rest
  end.

(** [ts] lists, in order and once each, exactly the times base + k*p (k >= 1, in the direction of [dt])
    that lie strictly after [t0] and not beyond [t1]. *)
Definition all_multiples (dt base p t0 t1 : Z) (ts : list Z) : Prop :=
  ordered_after dt t0 ts /\
  forall t, In t ts <-> (exists k, 1 <= k /\ t = base + Z.sgn dt * (k * p)) /\
                        0 < Z.sgn dt * (t - t0) /\ 0 <= Z.sgn dt * (t1 - t).

(** The forcing-data reader always announces a next reload time strictly ahead. *)
Definition input_ahead {W} (input : W -> Z -> Z -> option (W * option Z)) (dt : Z) : Prop :=
  forall w t d w' n, Z.sgn d = Z.sgn dt -> input w t d = Some (w', Some n) -> 0 < Z.sgn dt * (n - t).

Definition positive (p : option Z) : Prop := match p with Some x => 0 < x | None => True end.
Definition positive_periods (a : args) : Prop :=
  positive (a_repeat a) /\ positive (a_output a) /\ positive (a_movie a) /\ positive (a_callback a).

(** Consecutive execute calls on one set: each starts where the one before ended, moves time in the same
    direction, and completes. [rs] is the set's repeat_starttime before the first of them. *)
Section Chain.
Context {W : Type}.
Variable exec : W -> Z -> Z -> option W.
Variable begin_run : W -> Z -> W.
Variable act : kind -> W -> Z -> Z -> W.
Variable input : W -> Z -> Z -> option (W * option Z).
Variable eps : Z.

(** The end time asked for: [dflt] is the end of the forcing data in the direction of dt. *)
Definition requested (a : args) (start dflt endt : Z) : Prop :=
  match a_runtime a, a_endtime a with
  | Some r, None => 0 <= r /\ endt = start + Z.sgn (a_dt a) * r
  | None, Some e => endt = e
  | None, None => endt = dflt
  | Some _, Some _ => False
  end /\
  (forall x, a_output a = Some x \/ a_movie a = Some x -> 0 <= x).
(** A call that moves time from [start] to [endt]. *)
Definition moves (a : args) (start dflt endt : Z) : Prop :=
  requested a start dflt endt /\ a_runtime a <> Some 0 /\
  eps <= Z.abs (endt - start) /\ 0 < Z.sgn (a_dt a) * (endt - start).

Inductive consecutive (dt r : Z) : option Z -> Z -> Z -> list sev -> Prop :=
| consecutive_nil rs t : consecutive dt r rs t t []
| consecutive_call rs t0 t1 t2 tr tr2 fuel a dflt w w' :
    Z.sgn (a_dt a) = Z.sgn dt -> a_repeat a = Some r -> positive_periods a ->
    moves a t0 dflt t1 ->
    sexecute exec begin_run act input fuel eps a t0 rs dflt w = (w', tr, SDone) ->
    consecutive dt r (rs_after rs t0) t1 t2 tr2 ->
    consecutive dt r rs t0 t2 (tr ++ tr2).
End Chain.

(** The order of what happens at one time: the kernels reach it, then a batch is released, then the output is
    written, shown, the callbacks are called, and forcing data are read. *)
Definition ev_time (e : sev) : Z :=
  match e with SWrite t | SExec t | SRelease t | SShow t | SCallback t | SInput t => t end.
Definition ev_rank (e : sev) : Z :=
  match e with SExec _ => 0 | SRelease _ => 1 | SWrite _ => 2 | SShow _ => 3 | SCallback _ => 4 | SInput _ => 5 end.
Definition before (dt : Z) (e1 e2 : sev) : Prop :=
  0 < Z.sgn dt * (ev_time e2 - ev_time e1) \/ ev_time e1 = ev_time e2 /\ ev_rank e1 < ev_rank e2.

(** [p] is the smallest of the periods that are given, or none is given. *)
Definition smallest (l : list (option Z)) (p : option Z) : Prop :=
  match p with
  | None => forall x, ~ In (Some x) l
  | Some v => In (Some v) l /\ forall x, In (Some x) l -> v <= x
  end.
(** How often the callbacks are to be called. *)
Definition callback_every (a : args) (p : option Z) : Prop :=
  match a_callback a with
  | Some c => p = Some c
  | None => smallest [a_movie a; a_output a; a_repeat a] p
  end.
