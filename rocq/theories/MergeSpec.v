(** Vocabulary for C44: kernels called one after the other. *)
From Coq Require Import String List ZArith QArith Bool.
From Verif Require Import GenModel.
Import ListNotations.
Local Open Scope string_scope.
Local Open Scope list_scope.

Section Spec.
Variable libm : string -> list Q -> option Q.
Variable fsample : string -> Q -> Q -> Q -> Q -> sample.
Variable vfsample : string -> Q -> Q -> Q -> Q -> vsample.
Variable aint : string -> bool.
Variable consts : leaf -> Q.

(** A function body run from [s] ends with [o]. *)
Definition ends (body : list stmt) (s : pst) (o : pout) : Prop :=
  o <> OFuel /\ exists n, pexec libm fsample vfsample aint consts n body s = o.

(** The start of a call at [time] on a particle with variables [att]. *)
Definition called (time : pval) (att : string -> pval) : pst :=
  mkPst (fun x => if String.eqb x "time" then Some time else None) att false false.

(** What the caller sees of a call: the particle's variables, and how the call ended. *)
Inductive seen : Type :=
| Falls (att : string -> pval)                (* it reached the end of the function *)
| Returns (c : Z) (att : string -> pval)      (* it returned a code *)
| Fails (c : Z) (att : string -> pval)        (* sampling failed with this code *)
| Raises.                                     (* another exception *)
Definition see (o : pout) : option seen :=
  match o with
  | ONext s => Some (Falls (p_att s))
  | OReturn c s => Some (Returns c (p_att s))
  | OErr c s => Some (Fails c (p_att s))
  | ORaise => Some Raises
  | OBreak _ | OFuel => None
  end.

(** Functions called one after the other on the same particle, at the same time; a function that returns or fails ends
    the sequence.  Each call has its own locals. *)
Inductive in_order (time : pval) : list (list stmt) -> (string -> pval) -> seen -> Prop :=
| in_order_nil att : in_order time [] att (Falls att)
| in_order_next b bs att s r :
    ends b (called time att) (ONext s) -> in_order time bs (p_att s) r -> in_order time (b :: bs) att r
| in_order_stop b bs att o r :
    ends b (called time att) o -> see o = Some r -> (forall a, r <> Falls a) -> in_order time (b :: bs) att r.

End Spec.

(** ** Functions that keep to their own locals: every local is assigned before it is read, the argument [time] is not
    assigned, and no [break] stands outside a loop (Python refuses it). *)
Definition inb (x : string) (l : list string) : bool := existsb (String.eqb x) l.
Fixpoint reads (known : list string) (e : expr) : bool :=
  match e with
  | ELeaf (LVar x) => inb x known
  | EField _ t z y x => reads known t && reads known z && reads known y && reads known x
  | EUn _ a | ECall1 _ a => reads known a
  | EBin _ a b | ECmp _ a b | ELog _ a b | ECall2 _ a b => reads known a && reads known b
  | _ => true
  end.
Definition add_targets (ts : list target) (known : list string) : list string :=
  fold_left (fun k t => match t with TVar x => x :: k | TAttr _ => k end) ts known.

(** The locals known to be assigned after the statement; [None]: one may be read before it is assigned. *)
Fixpoint settle (known : list string) (s : stmt) {struct s} : option (list string) :=
  let fix settle_all (known : list string) (ss : list stmt) {struct ss} : option (list string) :=
    match ss with
    | [] => Some known
    | i :: r => match settle known i with Some k => settle_all k r | None => None end
    end in
  match s with
  | SAssign t e => if reads known e then Some (add_targets [t] known) else None
  | SAug t _ e => if reads known e && reads known (ELeaf (target_leaf t)) then Some (add_targets [t] known) else None
  | STuple ts es => if forallb (reads known) es then Some (add_targets ts known) else None
  | SVec ts _ t z y x =>
      if reads known t && reads known z && reads known y && reads known x then Some (add_targets ts known) else None
  | SIf c b o =>
      if reads known c then
        match settle_all known b, settle_all known o with
        | Some kb, Some ko => Some (filter (fun x => inb x ko) kb)
        | _, _ => None
        end
      else None
  | SWhile c b => if reads known c then match settle_all known b with Some _ => Some known | None => None end else None
  | SBreak | SPass | SReturn _ | SDelete => Some known
  end.
Fixpoint settle_all (known : list string) (ss : list stmt) : option (list string) :=
  match ss with
  | [] => Some known
  | i :: r => match settle known i with Some k => settle_all k r | None => None end
  end.

Definition target_is (x : string) (t : target) : bool := match t with TVar y => String.eqb x y | TAttr _ => false end.
Fixpoint sets (x : string) (s : stmt) : bool :=
  match s with
  | SAssign t _ | SAug t _ _ => target_is x t
  | STuple ts _ | SVec ts _ _ _ _ _ => existsb (target_is x) ts
  | SIf _ b o => existsb (sets x) b || existsb (sets x) o
  | SWhile _ b => existsb (sets x) b
  | _ => false
  end.
Fixpoint loose_break (s : stmt) : bool :=
  match s with
  | SBreak => true
  | SIf _ b o => existsb loose_break b || existsb loose_break o
  | _ => false
  end.

Definition own_locals (body : list stmt) : Prop :=
  settle_all ["time"] body <> None /\ existsb (sets "time") body = false /\ existsb loose_break body = false.

(** ** What the loops make of a call: its code and the particle's variables (kernel.py 309-318: a change of the state
    counts as the code of a call that succeeds). [prev]: the state before the call. *)
Definition code_of (prev : pval) (r : seen) : option (Z * (string -> pval)) :=
  let adj c att := if ((c =? py_code KSuccess)%Z && negb (Qeq_bool (pnum (att "state")) (pnum prev)))%bool
                   then trunc (pnum (att "state")) else c in
  match r with
  | Falls att => Some (adj (py_code KSuccess) att, att)
  | Returns c att => Some (adj c att, att)
  | Fails c att => Some (c, att)
  | Raises => None
  end.
