(** Vocabulary for C52: what times mean as dates, and runs whose times are counted from another origin. *)
From Coq Require Import String List ZArith QArith Bool.
From Verif Require Import CollModel KLoopModel SchedModel SplitSpec IdxSpec TimeModel InterpSpec DateModel.
Import ListNotations.
Open Scope Z_scope.

(** Seconds since the start of the calendar. *)
Definition instant (t : pyt) : Q :=
  match t with
  | PNum q => q
  | PDate ns | PDelta ns => inject_Z ns / 1000000000
  | PCf _ us | PDatetime us | PTimedelta us => inject_Z us / 1000000
  end.

(** Two times of the same calendar. *)
Inductive comparable : pyt -> pyt -> Prop :=
| CNum a b : comparable (PNum a) (PNum b)
| CDate a b : comparable (PDate a) (PDate b)
| CDelta a b : comparable (PDelta a) (PDelta b)
| CCf c a b : comparable (PCf c a) (PCf c b).

(** The date [t] seconds after the origin, and the dates of the frames of a time axis. *)
Definition dated (origin : pyt) (t : Q) : Q := (instant origin + t)%Q.
Definition dates (origin : pyt) (ts : list Q) : list Q := map (dated origin) ts.
Definition same_dates (l l' : list Q) : Prop := Forall2 Qeq l l'.

(** What sampling a series of frames with these dates should give at date [D]: [w i] is the value in frame [i]. *)
Definition by_date (ds : list Q) (w : Z -> Q) (periodic extrapolate : bool) (D : Q) (r : ires) : Prop :=
  if periodic then exists q D', r = IVal q /\ wraps_to ds D D' /\ time_value ds w D' q
  else (first_ ds <= D <= last_ ds -> exists q, r = IVal q /\ time_value ds w D q)%Q /\
       (D < first_ ds -> if extrapolate then exists q, r = IVal q /\ q == w 0%Z else r = IExtrap)%Q /\
       (last_ ds < D -> if extrapolate then exists q, r = IVal q /\ q == w (IdxModel.zlen ds - 1)%Z else r = IExtrap)%Q.

(** ** Times counted from an origin [c] ticks earlier *)
Section Later.
Context {E X H : Type}.
Notation pcl := (pcl X).

Definition later (c : Z) (p : pcl) : pcl := mkPcl (q_id p) (q_time p + c) (q_dt p) (q_st p) (q_x p).
Definition later_res (c : Z) (r : kres X) : kres X := mkKres (k_res r) (k_time r + c) (k_dt r) (k_st r) (k_x r) (k_next r).

(** [K'] does to a particle at time t + c what [K] does to it at time t. *)
Definition same_kernel (c : Z) (K K' : E -> pcl -> E * kres X) : Prop :=
  forall e p, K' e (later c p) = (fst (K e p), later_res c (snd (K e p))).
Definition same_handlers (c : Z) (I I' : handlers E X H) : Prop :=
  forall h e p, I' h e (later c p) = (fst (I h e p), option_map (later c) (snd (I h e p))).
(** Recovery kernels leave the particle as it is, ready to go on, or deleted. *)
Definition settles (I : handlers E X H) : Prop :=
  forall h e p e' p1, I h e p = (e', Some p1) -> In (q_st p1) [st_Success; st_Evaluate; op_Delete].
Definition same_batches (c : Z) (b b' : Z -> list pcl) : Prop := forall t, b' (t + c) = map (later c) (b t).
Definition same_forcing (c : Z) (n n' : Z -> option Z) : Prop := forall t, n' (t + c) = option_map (Z.add c) (n t).
End Later.

Definition later_event (c : Z) (e : sev) : sev :=
  match e with
  | SWrite t => SWrite (t + c) | SExec t => SExec (t + c) | SRelease t => SRelease (t + c)
  | SShow t => SShow (t + c) | SCallback t => SCallback (t + c) | SInput t => SInput (t + c)
  end.
Definition later_args (c : Z) (a : args) : args :=
  mkArgs (a_dt a) (a_runtime a) (option_map (Z.add c) (a_endtime a)) (a_repeat a) (a_output a) (a_movie a) (a_callback a) (a_out a) (a_cbs a).
