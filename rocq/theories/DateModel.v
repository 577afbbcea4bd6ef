(** Model of dates: time origins, the alignment of the time axes of a FieldSet, dates as arguments.

    Sources: parcels/tools/converters.py 27-98 (TimeConverter), parcels/field.py 223-252 (collect_timeslices),
    parcels/fieldset.py 108-120 (from_data), 39 and 228-236 (time_origin, check_complete), parcels/grid.py 37-55,
    parcels/particlesets/particlesetsoa.py 45-51 and 104-110, parcels/particlesets/baseparticleset.py 349-359.

    A date is the whole number of nanoseconds (numpy) or microseconds (datetime, cftime) since the start of its calendar: the arithmetic of
    calendars belongs to numpy and cftime.  Units of datetime64 coarser than nanoseconds, overflow and rounding to 64-bit
    floats are not modelled; seconds are rationals. *)
From Coq Require Import String List ZArith QArith Bool.
From Verif Require Import IdxModel GsetModel.
Import ListNotations.
Open Scope Z_scope.

(** Values of Python that stand for a time. *)
Inductive pyt :=
| PNum (q : Q)                       (* int or float: seconds *)
| PDate (ns : Z)                     (* numpy.datetime64 *)
| PDelta (ns : Z)                    (* numpy.timedelta64 *)
| PCf (cal : string) (us : Z)        (* cftime.datetime of a calendar *)
| PDatetime (us : Z)                 (* datetime.datetime or datetime.date *)
| PTimedelta (us : Z).               (* datetime.timedelta *)

(** Outcome: a value or an exception.  [DType] stands for the exceptions that numpy and cftime raise when the operands do not
    go together (TypeError, ValueError). *)
Inductive dres (A : Type) := DOk (a : A) | DType | DAssert | DIndex | DNotImplemented | DRuntime.
Arguments DOk {A}. Arguments DType {A}. Arguments DAssert {A}. Arguments DIndex {A}. Arguments DNotImplemented {A}. Arguments DRuntime {A}.

Definition per_s : Q := 1000000000.     (* nanoseconds in a second *)
Definition per_s' : Q := 1000000.       (* microseconds in a second *)

(** converters.py 34-43: the calendar follows from the origin. *)
Inductive calendar := CalNp | CalDelta | CalCf (c : string) | CalNone.
Definition calendar_of (origin : pyt) : calendar :=
  match origin with
  | PDate _ => CalNp
  | PDelta _ => CalDelta
  | PCf c _ => CalCf c
  | PNum _ | PDatetime _ | PTimedelta _ => CalNone
  end.

(** 45-72 reltime.  With a number as the origin (calendar None) the difference is handed back whatever it is: a datetime64
    minus the integer 0 is the same datetime64. *)
Definition reltime (origin time : pyt) : dres pyt :=
  match origin, time with
  | PDate o, PDate t => DOk (PNum (inject_Z (t - o) / per_s))
  | PDelta o, PDelta t => DOk (PNum (inject_Z (t - o) / per_s))
  | PCf c o, PCf c' t => if String.eqb c c' then DOk (PNum (inject_Z (t - o) / per_s')) else DType
  | PNum o, PNum t => DOk (PNum (t - o))
  | PNum o, PDate t => if Qeq_bool o 0 then DOk (PDate t) else DType
  | PNum o, PDelta t => if Qeq_bool o 0 then DOk (PDelta t) else DType
  | _, _ => DType
  end.

(** int(t): towards zero. *)
Definition py_int (t : Q) : Z := Z.quot (Qnum t) (Zpos (Qden t)).
(** timedelta(seconds=t) rounds to microseconds, half to even; here for whole numbers of microseconds, to the nearest otherwise. *)
Definition to_us (t : Q) : Z := (Qnum (t * per_s' + (1 # 2))%Q / Zpos (Qden (t * per_s' + (1 # 2))%Q)).

(** 74-92 fulltime, for one time. *)
Definition fulltime (origin : pyt) (t : Q) : dres pyt :=
  match origin with
  | PDate o => DOk (PDate (o + py_int t * 1000000000))
  | PDelta o => DOk (PDelta (o + py_int t * 1000000000))
  | PCf c o => DOk (PCf c (o + to_us t))
  | PNum o => DOk (PNum (o + t))
  | PDatetime _ | PTimedelta _ => DType                      (* no origin of any reader *)
  end.

(** All elements of a vector, or the first exception. *)
Fixpoint each {A B} (f : A -> dres B) (l : list A) : dres (list B) :=
  match l with
  | [] => DOk []
  | x :: r => match f x with
              | DOk y => match each f r with DOk ys => DOk (y :: ys) | e => e end
              | DType => DType | DAssert => DAssert | DIndex => DIndex | DNotImplemented => DNotImplemented | DRuntime => DRuntime
              end
  end.
(** A difference that is a number of seconds; anything else is no time axis. *)
Definition number (r : dres pyt) : dres Q :=
  match r with
  | DOk (PNum q) => DOk q
  | DOk _ => DType
  | DType => DType | DAssert => DAssert | DIndex => DIndex | DNotImplemented => DNotImplemented | DRuntime => DRuntime
  end.

(** field.py 243-251: origin and relative times of the frames.  247: all differences positive; otherwise 248 looks for the
    first pair that decreases. *)
Fixpoint pairs (l : list Q) : list (Q * Q) :=
  match l with a :: ((b :: _) as r) => (a, b) :: pairs r | _ => [] end.
Definition collect (stamps : list pyt) : dres (pyt * list Q) :=
  match stamps with
  | [] => DIndex
  | s :: _ =>
      match each (fun t => number (reltime s t)) stamps with
      | DOk ts =>
          if forallb (fun '(a, b) => qlt a b) (pairs ts) then DOk (s, ts)
          else if existsb (fun '(a, b) => qlt b a) (pairs ts) then DAssert     (* 249: the message for the user *)
          else DIndex                                                          (* 248: np.where(...)[0][0] of nothing *)
      | DType => DType | DAssert => DAssert | DIndex => DIndex | DNotImplemented => DNotImplemented | DRuntime => DRuntime
      end
  end.

(** What the time axis of a grid (grid.py 37-66) needs: origin, time, time_full and whether the fields are loaded later. *)
Record dgrid := mkDg { d_origin : pyt; d_time : list Q; d_full : list Q; d_defer : bool }.
(** grid.py 51: time_full is time. *)
Definition new_grid (origin : pyt) (ts : list Q) (defer : bool) : dgrid := mkDg origin ts ts defer.

(** fieldset.py 232: the origins are of the same class. *)
Definition same_class (a b : pyt) : bool :=
  match a, b with
  | PNum _, PNum _ | PDate _, PDate _ | PDelta _, PDelta _ | PDatetime _, PDatetime _ | PTimedelta _, PTimedelta _ => true
  | PCf c _, PCf c' _ => String.eqb c c'
  | _, _ => false
  end.

(** fieldset.py 228-236 for one grid. *)
Definition align (fs : pyt) (g : dgrid) : dres dgrid :=
  if Nat.eqb (length (d_time g)) 1 then DOk g
  else if negb (same_class (d_origin g) fs) then DAssert
  else match number (reltime fs (d_origin g)) with
       | DOk s => DOk (mkDg fs (map (fun t => (t + s)%Q) (d_time g))
                            (if d_defer g then map (fun t => (t + s)%Q) (d_full g) else d_full g) (d_defer g))
       | DType => DType | DAssert => DAssert | DIndex => DIndex | DNotImplemented => DNotImplemented | DRuntime => DRuntime
       end.
Definition check_complete (fs : pyt) (gs : list dgrid) : dres (list dgrid) := each (align fs) gs.

(** gridset.dimrange('time_full') (GsetModel): default times of release and of the end of a run. *)
Definition as_grid (g : dgrid) : grid :=
  let v l := mkNarr [length l] l in
  mkGrid 0 0 (v []) (v []) (v []) (v (d_time g)) (v (d_full g)) ChunkNone false (d_defer g).
Definition time_range (gs : list dgrid) : option (Q * Q) := dimrange DTimeFull (map as_grid gs).

(** particlesetsoa.py 45-51, 104-110 for one particle: dates become seconds since the origin, other values are taken as they
    are.  108 tests the truth of a TimeConverter object, which is always true, so 109 is never reached. *)
Definition release_time (fs t : pyt) : dres pyt :=
  let t := match t with PDatetime us => PDate (us * 1000) | t => t end in
  match t with
  | PDate _ | PCf _ _ => reltime fs t
  | t => DOk t
  end.

(** baseparticleset.py 349-359, endtime. *)
Definition end_time (fs t : pyt) : dres pyt :=
  let t1 := match t with
            | PTimedelta _ => DRuntime                                              (* 350-351 *)
            | PDatetime us => DOk (PDate (us * 1000))
            | PCf _ _ => reltime fs t
            | t => DOk t
            end in
  match t1 with
  | DOk (PDate d) => match calendar_of fs with CalNone => DNotImplemented | _ => reltime fs (PDate d) end
  | r => r
  end.
