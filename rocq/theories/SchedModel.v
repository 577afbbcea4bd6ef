(** Model of the loop of pset.execute: windows, output, releases, callbacks, forcing reloads.

    Source: parcels/particlesets/baseparticleset.py 304-483 (BaseParticleSet.execute).

    Times are integers (ticks); an infinite period or next time is [None].  The tolerance of the
    comparisons with next times (tol = 1e-12 s, 428) is below one tick, so they are equalities; rounding in the repeated addition of
    periods (459-472) is not modelled.  Not modelled: compilation of the kernel (335-347), conversion
    of datetime/timedelta arguments (349-370), progress bar and walltime (429-442, 477-483), contents
    of the animation. The field set is taken to be present (it is dereferenced at 474 anyway). *)
From Coq Require Import List ZArith Bool.
Import ListNotations.
Open Scope Z_scope.

(** The four periodic interrupts, in the order in which they are served (449-472). *)
Inductive kind := KRelease | KOutput | KMovie | KCallback.
Definition kind_eqb (a b : kind) : bool :=
  match a, b with
  | KRelease, KRelease | KOutput, KOutput | KMovie, KMovie | KCallback, KCallback => true
  | _, _ => false
  end.
Definition kinds : list kind := [KRelease; KOutput; KMovie; KCallback].

(** What the loop does, in order. *)
Inductive sev :=
| SWrite (t : Z)        (* output_file.write(self, t) *)
| SExec (t : Z)         (* kernel.execute(self, endtime=t, ...) *)
| SRelease (t : Z)      (* a batch is released at time t *)
| SShow (t : Z)         (* self.show(show_time=t) *)
| SCallback (t : Z)     (* the callbacks are called *)
| SInput (t : Z).       (* fieldset.computeTimeChunk(t, ...) *)

Inductive sstat := SDone | SRaised | SFuel.

Section Sched.
Context {W : Type}.
(** What the parts do to the world: [exec] (kernel.execute up to a time), [act] (release, write, show,
    callbacks) and [input] (computeTimeChunk: time, dt, giving the next input time). [None] is an
    exception that leaves pset.execute. *)
Variable exec : W -> Z -> Z -> option W.                  (* world, window end, dt *)
Variable begin_run : W -> Z -> W.                          (* 403: dt of all particles is set *)
Variable act : kind -> W -> Z -> Z -> W.                  (* world, time, dt *)
Variable input : W -> Z -> Z -> option (W * option Z).    (* world, time, dt *)

Definition upd (f : kind -> option Z) (k : kind) (v : option Z) : kind -> option Z :=
  fun k' => if kind_eqb k k' then v else f k'.

(** 443-446: min (dt > 0) or max of the next times and endtime. *)
Definition closest (dt : Z) (a : option Z) (b : Z) : Z :=
  match a with None => b | Some x => if 0 <? dt then Z.min x b else Z.max x b end.
Definition window_end (dt endt : Z) (nx : kind -> option Z) (nin : option Z) : Z :=
  closest dt (nx KRelease) (closest dt nin (closest dt (nx KOutput)
    (closest dt (nx KMovie) (closest dt (nx KCallback) endt)))).

Definition event_of (out cbs : bool) (k : kind) (t : Z) : list sev :=
  match k with
  | KRelease => [SRelease t]
  | KOutput => if out then [SWrite t] else []
  | KMovie => [SShow t]
  | KCallback => if cbs then [SCallback t] else []
  end.

(** 449-472: serve the interrupts that are due. [out]: there is an output file; [cbs]: there are
    callbacks. *)
Fixpoint serve (dt : Z) (per : kind -> option Z) (out cbs : bool) (t : Z) (ks : list kind)
         (nx : kind -> option Z) (w : W) : (kind -> option Z) * W * list sev :=
  match ks with
  | [] => (nx, w, [])
  | k :: rest =>
      match nx k, per k with
      | Some n, Some p =>
          if t =? n then
            let w1 := match event_of out cbs k t with [] => w | _ => act k w t dt end in
            let '(nx2, w2, tr) := serve dt per out cbs t rest (upd nx k (Some (n + p * Z.sgn dt))) w1 in
            (nx2, w2, event_of out cbs k t ++ tr)
          else serve dt per out cbs t rest nx w
      | _, _ => serve dt per out cbs t rest nx w
      end
  end.

(** 434-476: the while loop. *)
Fixpoint sloop (fuel : nat) (dt endt : Z) (per : kind -> option Z) (out cbs : bool)
         (time : Z) (nx : kind -> option Z) (nin : option Z) (w : W)
  : Z * W * list sev * sstat :=
  if ((time <? endt) && (0 <? dt)) || ((endt <? time) && (dt <? 0)) || (dt =? 0) then
    match fuel with
    | O => (time, w, [], SFuel)
    | S f =>
        let t := window_end dt endt nx nin in
        match exec w t dt with
        | None => (t, w, [SExec t], SRaised)
        | Some w1 =>
            let '(nx2, w2, tr2) := serve dt per out cbs t kinds nx w1 in
            if t =? endt then
              if dt =? 0 then (t, w2, SExec t :: tr2, SDone)
              else let '(t3, w3, tr3, r) := sloop f dt endt per out cbs t nx2 nin w2 in
                   (t3, w3, SExec t :: tr2 ++ tr3, r)
            else
              match input w2 t dt with
              | None => (t, w2, SExec t :: tr2 ++ [SInput t], SRaised)
              | Some (w3, nin') =>
                  if dt =? 0 then (t, w3, SExec t :: tr2 ++ [SInput t], SDone)
                  else let '(t4, w4, tr4, r) := sloop f dt endt per out cbs t nx2 nin' w3 in
                       (t4, w4, SExec t :: tr2 ++ SInput t :: tr4, r)
              end
        end
    end
  else (time, w, [], SDone).

(** The arguments of execute that matter here. [a_callback]: callbackdt; [None] is the default. *)
Record args := mkArgs {
  a_dt : Z;
  a_runtime : option Z;
  a_endtime : option Z;
  a_repeat : option Z;       (* self.repeatdt; 0 counts as absent *)
  a_output : option Z;       (* outputdt; None = infinite *)
  a_movie : option Z;
  a_callback : option Z;
  a_out : bool;              (* an output file is given *)
  a_cbs : bool               (* postIterationCallbacks is given *)
}.

Definition omin (a b : option Z) : option Z :=
  match a, b with Some x, Some y => Some (Z.min x y) | Some x, None => Some x | None, _ => b end.

(** 413-417 *)
Definition callback_period (a : args) : option Z :=
  match a_callback a with
  | Some p => Some p
  | None => omin (a_movie a) (omin (a_output a) (a_repeat a))
  end.

Definition periods (a : args) (k : kind) : option Z :=
  match k with
  | KRelease => match a_repeat a with Some 0 => None | r => r end        (* 419: if self.repeatdt *)
  | KOutput => a_output a
  | KMovie => a_movie a
  | KCallback => callback_period a
  end.

(** 419-425: first next times; [rs] is repeat_starttime. *)
Definition first_next (a : args) (dt start rs : Z) (k : kind) : option Z :=
  match periods a k with
  | None => None
  | Some p =>
      match k with
      | KRelease => Some (rs + (Z.abs (start - rs) / p + 1) * p * Z.sgn dt)
      | _ => Some (if 0 <? dt then start + p else start - p)
      end
  end.

(** 372-377, 388-392: end time; [None]: the arguments are refused. [dflt] is the end of the forcing data in the
    direction of dt. *)
Definition neg (x : option Z) : bool := match x with Some v => v <? 0 | None => false end.
Definition resolve_end (a : args) (start dflt : Z) : option Z :=
  if neg (a_runtime a) || neg (a_output a) || neg (a_movie a) then None else
  match a_runtime a, a_endtime a with
  | Some _, Some _ => None
  | Some r, None => Some (start + r * Z.sgn (a_dt a))
  | None, Some e => Some e
  | None, None => Some dflt
  end.

(** 394-401: dt and end time actually used; [eps] is 1e-5 s. *)
Definition resolve_once (eps : Z) (a : args) (start endt : Z) : Z * Z :=
  if (Z.abs (endt - start) <? eps) || (a_dt a =? 0) || (match a_runtime a with Some 0 => true | _ => false end)
  then (0, start) else (a_dt a, endt).

(** execute, from the moment the start time is known (386-481). *)
Definition sexecute (fuel : nat) (eps : Z) (a : args) (start : Z) (rs : option Z) (dflt : Z) (w : W)
  : W * list sev * sstat :=
  match resolve_end a start dflt with
  | None => (w, [], SRaised)
  | Some endt0 =>
      let rs0 := match rs with Some r => r | None => start end in               (* 386-387 *)
      let '(dt, endt) := resolve_once eps a start endt0 in
      let w0 := begin_run w dt in                                                (* 403 *)
      let w1 := if a_out a then act KOutput w0 start dt else w0 in                 (* 406-407 *)
      let tr1 := if a_out a then [SWrite start] else [] in
      let w2 := match a_movie a with Some (Zpos _) => act KMovie w1 start dt | _ => w1 end in
      let tr2 := match a_movie a with Some (Zpos _) => [SShow start] | _ => [] end in
      match input w2 start (Z.sgn dt) with                                        (* 426 *)
      | None => (w2, tr1 ++ tr2 ++ [SInput start], SRaised)
      | Some (w3, nin) =>
          let '(t, w4, tr4, r) :=
            sloop fuel dt endt (periods a) (a_out a) (a_cbs a) start (first_next a dt start rs0) nin w3 in
          let tr := tr1 ++ tr2 ++ SInput start :: tr4 in
          match r with
          | SDone => if a_out a then (act KOutput w4 t dt, tr ++ [SWrite t], SDone)   (* 480-481 *)
                     else (w4, tr, SDone)
          | _ => (w4, tr, r)
          end
      end
  end.

End Sched.

(** ** Consecutive execute calls on one particle set.
    repeat_starttime is set by the first call that finds it None (386-387) and kept. *)
Definition rs_after (rs : option Z) (start : Z) : option Z :=
  match rs with Some r => Some r | None => Some start end.

(** ** Where released batches start: repeatlon is the collection's own array.
    particlesetsoa.py 144-150 stores collection.data['lon'] itself (no copy). Kernels write into the
    collection's array in place (particlesetsoa data proxies; the C loop gets its pointer); adding
    (particlesets/collectionsoa.py 435, 442, np.concatenate) and removing (557, 645, np.delete, also
    with nothing to remove, as kernel.py 395 does after every pass) give the collection a new array and
    leave repeatlon on the old one. One coordinate is modelled; the others behave alike. *)
Record rset := mkRset {
  r_heap : list (list Z);    (* array objects; a reference is a position in this list *)
  r_live : nat;              (* collection._data['lon'] *)
  r_rep : nat                (* self.repeatlon *)
}.
Definition deref (s : rset) (r : nat) : list Z := nth r (r_heap s) [].
Inductive rop :=
| RKernel (f : list Z -> list Z)   (* a kernel window rewrites the live array in place *)
| RRelease                         (* baseparticleset.py 449-458 *)
| RRemove (keep : nat -> bool).    (* removal of particles: by position *)

Definition rconstruct (xs : list Z) : rset := mkRset [xs] 0 0.

Fixpoint set_nth {A} (n : nat) (v : A) (l : list A) : list A :=
  match n, l with
  | _, [] => []
  | O, _ :: t => v :: t
  | S m, h :: t => h :: set_nth m v t
  end.

Fixpoint keep_from {A} (i : nat) (keep : nat -> bool) (l : list A) : list A :=
  match l with
  | [] => []
  | h :: t => if keep i then h :: keep_from (S i) keep t else keep_from (S i) keep t
  end.

(** One operation; the second component is the list of positions of the batch released by it, if any. *)
Definition rstep (s : rset) (o : rop) : rset * list (list Z) :=
  match o with
  | RKernel f => (mkRset (set_nth (r_live s) (f (deref s (r_live s))) (r_heap s)) (r_live s) (r_rep s), [])
  | RRelease =>
      let batch := deref s (r_rep s) in
      (mkRset (r_heap s ++ [deref s (r_live s) ++ batch]) (length (r_heap s)) (r_rep s), [batch])
  | RRemove keep =>
      (mkRset (r_heap s ++ [keep_from 0 keep (deref s (r_live s))]) (length (r_heap s)) (r_rep s), [])
  end.
Fixpoint rrun (s : rset) (os : list rop) : list (list Z) :=
  match os with
  | [] => []
  | o :: rest => let '(s1, b) := rstep s o in b ++ rrun s1 rest
  end.
