(** Model of the translation of kernels to C: the Python kernel language and its meaning, the
    generator (IntrinsicTransformer, TupleSplitter, KernelGenerator), and the meaning of the C code it
    writes.

    Source: parcels/compilation/codegenerator.py (IntrinsicTransformer 228-384, TupleSplitter 387-404,
    KernelGenerator 407-935), parcels/kernel.py 314-337 (result of a kernel call in Scipy mode),
    codegenerator.py 1038-1042 (the same in JIT mode), parcels/include/index_search.h 49-52,
    parcels/tools/statuscodes.py 10-29, parcels/particle.py 218-219.

    Numbers are exact (integers and rationals): rounding, the 32 bit range of a C int and the narrower
    type of type_coord and float are not modelled, nor are infinities and NaN (a division by zero has
    no value in C and raises in Python).  Not modelled: lists and subscripts of local arrays, print,
    custom C functions, random numbers, min and max, applyConversion. *)
From Coq Require Import String List ZArith QArith Qround Bool Arith.
Import ListNotations.
Open Scope Z_scope.

(** * Status codes *)

(** The attributes of StateCode, OperationCode and ErrorCode. *)
Inductive code : Set :=
| KSuccess | KEvaluate | KRepeat | KDelete | KStopExecution | KError | KErrorInterpolation
| KErrorOutOfBounds | KErrorThroughSurface | KErrorTimeExtrapolation.

(** statuscodes.py 10-29. *)
Definition py_code (k : code) : Z :=
  match k with
  | KSuccess => 0 | KEvaluate => 1 | KRepeat => 2 | KDelete => 3 | KStopExecution => 4
  | KError => 5 | KErrorInterpolation => 51 | KErrorOutOfBounds => 6 | KErrorThroughSurface => 61
  | KErrorTimeExtrapolation => 7
  end.

(** index_search.h 49-52: the enumerators of StatusCode. *)
Inductive csym : Set :=
| SUCCESS | EVALUATE | REPEAT | DELETE | STOP_EXECUTION | ERROR | ERROR_INTERPOLATION
| ERROR_OUT_OF_BOUNDS | ERROR_THROUGH_SURFACE | ERROR_TIME_EXTRAPOLATION.

Definition c_sym (s : csym) : Z :=
  match s with
  | SUCCESS => 0 | EVALUATE => 1 | REPEAT => 2 | DELETE => 3 | STOP_EXECUTION => 4
  | ERROR => 5 | ERROR_INTERPOLATION => 51 | ERROR_OUT_OF_BOUNDS => 6 | ERROR_THROUGH_SURFACE => 61
  | ERROR_TIME_EXTRAPOLATION => 7
  end.

(** StatusCodeNode.symbol_map, codegenerator.py 182-186. *)
Definition symbol_map (k : code) : csym :=
  match k with
  | KSuccess => SUCCESS | KEvaluate => EVALUATE | KRepeat => REPEAT | KDelete => DELETE
  | KStopExecution => STOP_EXECUTION | KError => ERROR | KErrorInterpolation => ERROR_INTERPOLATION
  | KErrorOutOfBounds => ERROR_OUT_OF_BOUNDS | KErrorThroughSurface => ERROR_THROUGH_SURFACE
  | KErrorTimeExtrapolation => ERROR_TIME_EXTRAPOLATION
  end.

(** * The kernel language (Python) *)

(** Numeric literals: an int or a float (decimal) literal; both are written without a sign. *)
Inductive num : Set := NInt (z : Z) | NFlt (q : Q).

(** What a kernel can name: local variables (and the argument [time]), [particle.a],
    [fieldset.c] for a constant, [math.pi] and the like. *)
Inductive leaf : Set :=
| LVar (x : string) | LAttr (a : string) | LConst (c : string) | LMath (m : string).

Inductive uop : Set := UAdd | USub | UNot.
Inductive bop : Set := BAdd | BSub | BMul | BDiv | BMod | BPow | BXor.
Inductive cmp : Set := CEq | CNe | CLt | CLe | CGt | CGe.
Inductive lop : Set := LAnd | LOr.

(** Expressions.  [EField f t z y x] is [fieldset.f[t, z, y, x]]; [fieldset.f[particle]] is
    [EField f] of time and the particle's depth, lat and lon (428-435).  A BoolOp with several values
    is left-nested here: it has the same value and the generator writes the same text for it (658-663).
    A comparison has one operator (601-603 assert it).  Calls take one or two arguments. *)
Inductive expr : Set :=
| ENum (n : num)
| EBool (b : bool)
| ELeaf (l : leaf)
| ECode (k : code)
| EField (f : string) (t z y x : expr)
| EUn (o : uop) (a : expr)
| EBin (o : bop) (a b : expr)
| ECmp (o : cmp) (a b : expr)
| ELog (o : lop) (a b : expr)
| ECall1 (f : string) (a : expr)
| ECall2 (f : string) (a b : expr).

Inductive target : Set := TVar (x : string) | TAttr (a : string).

(** Statements.  [STuple] is a tuple assignment of a tuple of expressions, [SVec] of a vector field
    ([u, v = fieldset.UV[t, z, y, x]]), [SDelete] is [particle.delete()]. *)
Inductive stmt : Set :=
| SAssign (t : target) (e : expr)
| SAug (t : target) (o : bop) (e : expr)
| STuple (ts : list target) (es : list expr)
| SVec (ts : list target) (f : string) (t z y x : expr)
| SIf (c : expr) (b o : list stmt)
| SWhile (c : expr) (b : list stmt)
| SBreak
| SPass
| SReturn (k : code)
| SDelete.

(** * The C code *)

Inductive cop : Set :=
| O_or | O_and | O_eq | O_ne | O_lt | O_le | O_gt | O_ge | O_add | O_sub | O_mul | O_div | O_mod.

(** Identifiers (and [particles->a[pnum]], taken as one name). *)
Inductive cname : Set :=
| NLeaf (l : leaf) | NTmp (n : nat) | NSym (s : csym) | NFun (f : string).

(** Tokens of a C expression. *)
Inductive tok : Set :=
| KNum (n : num) | KId (n : cname) | KOp (o : cop) | KNot | KLP | KRP | KComma.

(** Syntax trees of C expressions. *)
Inductive cexpr : Set :=
| XNum (n : num)
| XId (n : cname)
| XPos (a : cexpr) | XNeg (a : cexpr) | XNot (a : cexpr)
| XBin (o : cop) (a b : cexpr)
| XCall1 (f : cname) (a : cexpr)
| XCall2 (f : cname) (a b : cexpr).

(** C statements: the cgen objects the generator builds. *)
Inductive cstmt : Set :=
| ZEval (f : string) (t z y x : list tok) (tmps : list nat)
    (* visit_FieldEvalNode / SummedFieldEvalNode / NestedFieldEvalNode: sample, convert, check *)
| ZVecEval (f : string) (t z y x : list tok) (tmps : list (list nat))
| ZAssign (t : target) (e : list tok)
| ZAug (t : target) (o : bop) (e : list tok)
| ZIf (c : list tok) (b o : list cstmt)
| ZDo (b : list cstmt) (c : list tok)          (* do b while (c); *)
| ZBreak
| ZEmpty
| ZReturn (s : csym)
| ZBlock (b : list cstmt).

(** ** Parsing (the compiler's reading of the text) *)

(** Precedence of the binary operators, C11 6.5.5-6.5.14 (the bitwise levels are left out). *)
Definition prec (o : cop) : nat :=
  match o with
  | O_or => 0 | O_and => 1
  | O_eq | O_ne => 2
  | O_lt | O_le | O_gt | O_ge => 3
  | O_add | O_sub => 4
  | O_mul | O_div | O_mod => 5
  end.

(** Recursive descent.  [pexp n l ts] reads an expression of level [l] or above; [ploop] the
    operators of level [l] that follow. *)
Fixpoint pexp (fuel l : nat) (ts : list tok) : option (cexpr * list tok) :=
  match fuel with
  | O => None
  | S n =>
      if (l <=? 5)%nat then
        match pexp n (S l) ts with
        | Some (a, r) => ploop n l a r
        | None => None
        end
      else
        match ts with
        | KOp O_add :: r =>
            match pexp n 6 r with Some (a, r') => Some (XPos a, r') | None => None end
        | KOp O_sub :: r =>
            match pexp n 6 r with Some (a, r') => Some (XNeg a, r') | None => None end
        | KNot :: r =>
            match pexp n 6 r with Some (a, r') => Some (XNot a, r') | None => None end
        | KNum k :: r => Some (XNum k, r)
        | KId f :: KLP :: r =>
            match pexp n 0 r with
            | Some (a, KRP :: r') => Some (XCall1 f a, r')
            | Some (a, KComma :: r') =>
                match pexp n 0 r' with
                | Some (b, KRP :: r'') => Some (XCall2 f a b, r'')
                | _ => None
                end
            | _ => None
            end
        | KId x :: r => Some (XId x, r)
        | KLP :: r =>
            match pexp n 0 r with Some (a, KRP :: r') => Some (a, r') | _ => None end
        | _ => None
        end
  end
with ploop (fuel l : nat) (a : cexpr) (ts : list tok) : option (cexpr * list tok) :=
  match fuel with
  | O => None
  | S n =>
      match ts with
      | KOp o :: r =>
          if (prec o =? l)%nat then
            match pexp n (S l) r with
            | Some (b, r') => ploop n l (XBin o a b) r'
            | None => None
            end
          else Some (a, ts)
      | _ => Some (a, ts)
      end
  end.

Definition cparse (ts : list tok) : option cexpr :=
  match pexp (9 * length ts + 8) 0 ts with
  | Some (t, []) => Some t
  | _ => None
  end.

(** * The generator *)

Section Generator.
(** Number of component fields (1 for a plain or nested field), and for a vector field the number of
    velocity components (2 or 3). *)
Variable ncomp : string -> nat.
Variable vdim : string -> nat.

(** Expressions after IntrinsicTransformer: field evaluations are replaced by a Name made of the
    names of the temporaries joined with '+' (287, 305, 325). *)
Inductive texpr : Set :=
| RNum (n : num) | RBool (b : bool) | RLeaf (l : leaf) | RCode (s : csym)
| RTmps (ns : list nat)
| RUn (o : uop) (a : texpr)
| RBin (o : bop) (a b : texpr)
| RCmp (o : cmp) (a b : texpr)
| RLog (o : lop) (a b : texpr)
| RCall1 (f : string) (a : texpr)
| RCall2 (f : string) (a b : texpr).

(** A node of the statement stack: FieldEvalNode and the like (60-147). *)
Inductive call : Set :=
| QField (f : string) (t z y x : texpr) (tmps : list nat)
| QVec (f : string) (t z y x : texpr) (tmps : list (list nat)).

(** IntrinsicTransformer on expressions: the counter of temporaries is threaded through, the new
    stack entries are returned in the order they are pushed (280-334). *)
Fixpoint hoist (n : nat) (e : expr) : texpr * list call * nat :=
  match e with
  | ENum k => (RNum k, [], n)
  | EBool b => (RBool b, [], n)
  | ELeaf l => (RLeaf l, [], n)
  | ECode k => (RCode (symbol_map k), [], n)
  | EField f t z y x =>
      let '(t', c1, n1) := hoist n t in
      let '(z', c2, n2) := hoist n1 z in
      let '(y', c3, n3) := hoist n2 y in
      let '(x', c4, n4) := hoist n3 x in
      let tmps := seq n4 (ncomp f) in
      (RTmps tmps, c1 ++ c2 ++ c3 ++ c4 ++ [QField f t' z' y' x' tmps], (n4 + ncomp f)%nat)
  | EUn o a => let '(a', c, n1) := hoist n a in (RUn o a', c, n1)
  | EBin o a b =>
      let '(a', c1, n1) := hoist n a in
      let '(b', c2, n2) := hoist n1 b in (RBin o a' b', c1 ++ c2, n2)
  | ECmp o a b =>
      let '(a', c1, n1) := hoist n a in
      let '(b', c2, n2) := hoist n1 b in (RCmp o a' b', c1 ++ c2, n2)
  | ELog o a b =>
      let '(a', c1, n1) := hoist n a in
      let '(b', c2, n2) := hoist n1 b in (RLog o a' b', c1 ++ c2, n2)
  | ECall1 f a => let '(a', c, n1) := hoist n a in (RCall1 f a', c, n1)
  | ECall2 f a b =>
      let '(a', c1, n1) := hoist n a in
      let '(b', c2, n2) := hoist n1 b in (RCall2 f a' b', c1 ++ c2, n2)
  end.

Fixpoint hoist_list (n : nat) (es : list expr) : list texpr * list call * nat :=
  match es with
  | [] => ([], [], n)
  | e :: r =>
      let '(e', c1, n1) := hoist n e in
      let '(r', c2, n2) := hoist_list n1 r in (e' :: r', c1 ++ c2, n2)
  end.

(** Statements after IntrinsicTransformer. *)
Inductive tstmt : Set :=
| YCall (q : call)
| YAssign (t : target) (e : texpr)
| YAug (t : target) (o : bop) (e : texpr)
| YTuple (ts : list target) (es : list texpr)
| YIf (c : texpr) (b o : list tstmt)
| YWhile (c : texpr) (b : list tstmt)
| YBreak | YPass | YReturn (s : csym) | YDelete.

(** Temporaries of a vector field sample (294-301, 311-320): one list per velocity component, each
    with one temporary per component field. *)
Definition vtmps (n : nat) (f : string) : list (list nat) :=
  map (fun i => seq (n + i * ncomp f) (ncomp f)) (seq 0 (vdim f)).

(** IntrinsicTransformer on statements: only assignments empty the stack (334-356); what a test or
    another statement pushes stays on it until the next assignment is met. *)
Fixpoint trans1 (s : stmt) (n : nat) (stack : list call) {struct s} : list tstmt * nat * list call :=
  let fix trans_in (ss : list stmt) (n : nat) (stack : list call) : list tstmt * nat * list call :=
    match ss with
    | [] => ([], n, stack)
    | s :: r =>
        let '(l1, n1, k1) := trans1 s n stack in
        let '(l2, n2, k2) := trans_in r n1 k1 in (l1 ++ l2, n2, k2)
    end in
  match s with
  | SAssign t e =>
      let '(e', c, n1) := hoist n e in
      (map YCall (stack ++ c) ++ [YAssign t e'], n1, [])
  | SAug t o e =>
      let '(e', c, n1) := hoist n e in
      (map YCall (stack ++ c) ++ [YAug t o e'], n1, [])
  | STuple ts es =>
      let '(es', c, n1) := hoist_list n es in
      (map YCall (stack ++ c) ++ [YTuple ts es'], n1, [])
  | SVec ts f t z y x =>
      let '(t', c1, n1) := hoist n t in
      let '(z', c2, n2) := hoist n1 z in
      let '(y', c3, n3) := hoist n2 y in
      let '(x', c4, n4) := hoist n3 x in
      let tmps := vtmps n4 f in
      (map YCall (stack ++ c1 ++ c2 ++ c3 ++ c4 ++ [QVec f t' z' y' x' tmps])
         ++ [YTuple ts (map RTmps tmps)], (n4 + vdim f * ncomp f)%nat, [])
  | SIf c b o =>
      let '(c', k, n1) := hoist n c in
      let '(b', n2, k2) := trans_in b n1 (stack ++ k) in
      let '(o', n3, k3) := trans_in o n2 k2 in ([YIf c' b' o'], n3, k3)
  | SWhile c b =>
      let '(c', k, n1) := hoist n c in
      let '(b', n2, k2) := trans_in b n1 (stack ++ k) in ([YWhile c' b'], n2, k2)
  | SBreak => ([YBreak], n, stack)
  | SPass => ([YPass], n, stack)
  | SReturn k => ([YReturn (symbol_map k)], n, stack)
  | SDelete => ([YDelete], n, stack)
  end.

Fixpoint trans (ss : list stmt) (n : nat) (stack : list call) : list tstmt * nat * list call :=
  match ss with
  | [] => ([], n, stack)
  | s :: r =>
      let '(l1, n1, k1) := trans1 s n stack in
      let '(l2, n2, k2) := trans r n1 k1 in (l1 ++ l2, n2, k2)
  end.

(** TupleSplitter (391-404): a tuple assignment becomes as many assignments; [None] is the
    AttributeError for different lengths. *)
Definition split_tuple (ts : list target) (es : list texpr) : option (list tstmt) :=
  if (length ts =? length es)%nat
  then Some (map (fun te => YAssign (fst te) (snd te)) (combine ts es))
  else None.

Fixpoint split1 (s : tstmt) : option (list tstmt) :=
  let fix split_in (ss : list tstmt) : option (list tstmt) :=
    match ss with
    | [] => Some []
    | s :: r =>
        match split1 s, split_in r with
        | Some a, Some b => Some (a ++ b)
        | _, _ => None
        end
    end in
  match s with
  | YTuple ts es => split_tuple ts es
  | YIf c b o =>
      match split_in b, split_in o with
      | Some b', Some o' => Some [YIf c b' o']
      | _, _ => None
      end
  | YWhile c b =>
      match split_in b with Some b' => Some [YWhile c b'] | None => None end
  | _ => Some [s]
  end.

Fixpoint split (ss : list tstmt) : option (list tstmt) :=
  match ss with
  | [] => Some []
  | s :: r =>
      match split1 s, split r with
      | Some a, Some b => Some (a ++ b)
      | _, _ => None
      end
  end.

(** Operators (647-692). *)
Definition bop_tok (o : bop) : cop :=
  match o with
  | BAdd => O_add | BSub => O_sub | BMul => O_mul | BDiv => O_div | BMod => O_mod
  | BPow | BXor => O_add                 (* not used: see gen *)
  end.
Definition cmp_tok (o : cmp) : cop :=
  match o with
  | CEq => O_eq | CNe => O_ne | CLt => O_lt | CLe => O_le | CGt => O_gt | CGe => O_ge
  end.
Definition lop_tok (o : lop) : cop := match o with LAnd => O_and | LOr => O_or end.
Definition uop_tok (o : uop) : tok :=
  match o with UAdd => KOp O_add | USub => KOp O_sub | UNot => KNot end.

(** '+'.join of the temporaries. *)
Fixpoint join_tmps (ns : list nat) : list tok :=
  match ns with
  | [] => []
  | [n] => [KId (NTmp n)]
  | n :: r => KId (NTmp n) :: KOp O_add :: join_tmps r
  end.

(** KernelGenerator on expressions: visit_Num 655, visit_Name 523 and NameConstant 532, visit_Compare
    597, visit_UnaryOp 628, visit_BinOp 633 (BitXor is rejected: [None]), visit_BoolOp 658, visit_Call
    472 (function calls). *)
Fixpoint gen (e : texpr) : option (list tok) :=
  match e with
  | RNum k => Some [KNum k]
  | RBool b => Some [KNum (NInt (if b then 1 else 0))]
  | RLeaf l => Some [KId (NLeaf l)]
  | RCode s => Some [KId (NSym s)]
  | RTmps ns => Some (join_tmps ns)
  | RUn o a =>
      match gen a with
      | Some ta => Some (uop_tok o :: KLP :: ta ++ [KRP])                       (* "%s(%s)" *)
      | None => None
      end
  | RBin o a b =>
      match gen a, gen b with
      | Some ta, Some tb =>
          match o with
          | BXor => None                                                        (* 637-639 *)
          | BPow => Some (KId (NFun "pow") :: KLP :: ta ++ KComma :: tb ++ [KRP])   (* 641 *)
          | _ => Some (KLP :: ta ++ KOp (bop_tok o) :: tb ++ [KRP])             (* 643 *)
          end
      | _, _ => None
      end
  | RCmp o a b =>
      match gen a, gen b with
      | Some ta, Some tb => Some (ta ++ KOp (cmp_tok o) :: tb)                  (* 603-604 *)
      | _, _ => None
      end
  | RLog o a b =>
      match gen a, gen b with
      | Some ta, Some tb => Some (ta ++ KOp (lop_tok o) :: tb)                  (* 662-663 *)
      | _, _ => None
      end
  | RCall1 f a =>
      match gen a with
      | Some ta => Some (KId (NFun f) :: KLP :: ta ++ [KRP])                    (* 515 *)
      | None => None
      end
  | RCall2 f a b =>
      match gen a, gen b with
      | Some ta, Some tb => Some (KId (NFun f) :: KLP :: ta ++ KComma :: tb ++ [KRP])
      | _, _ => None
      end
  end.

(** Occurrences of 'parcels_tmpvar' in the text of an expression (587). *)
Fixpoint count_tmps (ts : list tok) : nat :=
  match ts with
  | [] => O
  | KId (NTmp _) :: r => S (count_tmps r)
  | _ :: r => count_tmps r
  end.

Definition gen_call (q : call) : option cstmt :=
  match q with
  | QField f t z y x tmps =>
      match gen t, gen z, gen y, gen x with
      | Some t', Some z', Some y', Some x' => Some (ZEval f t' z' y' x' tmps)
      | _, _, _, _ => None
      end
  | QVec f t z y x tmps =>
      match gen t, gen z, gen y, gen x with
      | Some t', Some z', Some y', Some x' => Some (ZVecEval f t' z' y' x' tmps)
      | _, _, _, _ => None
      end
  end.

(** KernelGenerator on statements (541-580, 582-595, 694-716, 897-899). *)
Fixpoint gen1 (s : tstmt) : option cstmt :=
  let fix gen_in (ss : list tstmt) : option (list cstmt) :=
    match ss with
    | [] => Some []
    | s :: r =>
        match gen1 s, gen_in r with
        | Some a, Some b => Some (a :: b)
        | _, _ => None
        end
    end in
  match s with
  | YCall q => gen_call q
  | YAssign t e => match gen e with Some ts => Some (ZAssign t ts) | None => None end
  | YAug t o e =>
      match o with
      | BPow | BXor => None             (* "x pow= y" does not compile; '^' has no ccode *)
      | _ => match gen e with Some ts => Some (ZAug t o ts) | None => None end
      end
  | YTuple _ _ => None                  (* removed by TupleSplitter *)
  | YIf c b o =>
      match gen c, gen_in b, gen_in o with
      | Some tc, Some b', Some o' =>
          let k := count_tmps tc in                                             (* 587 *)
          Some (ZBlock [ZBlock (firstn k b'); ZIf tc (skipn k b') o'])         (* 588-592 *)
      | _, _, _ => None
      end
  | YWhile c b =>
      match gen c, gen_in b with
      | Some tc, Some b' => Some (ZDo b' tc)                                    (* 700-701 *)
      | _, _ => None
      end
  | YBreak => Some ZBreak
  | YPass => Some ZEmpty
  | YReturn s => Some (ZReturn s)
  | YDelete => Some (ZReturn DELETE)                                            (* 365 *)
  end.

Fixpoint gen_list (ss : list tstmt) : option (list cstmt) :=
  match ss with
  | [] => Some []
  | s :: r =>
      match gen1 s, gen_list r with
      | Some a, Some b => Some (a :: b)
      | _, _ => None
      end
  end.

(** KernelGenerator.generate (419-426) and visit_FunctionDef (441-470): the body of the C function;
    what is left on the statement stack is lost. *)
Definition compile (body : list stmt) : option (list cstmt) :=
  let '(l, _, _) := trans body 0 [] in
  match split l with
  | Some l' =>
      match gen_list l' with
      | Some b => Some (b ++ [ZReturn SUCCESS])
      | None => None
      end
  | None => None
  end.

End Generator.

(** * Meaning *)

(** Python numbers: ints (True and False are 1 and 0) and floats. *)
Inductive pval : Set := PI (z : Z) | PF (q : Q).
Definition pnum (v : pval) : Q := match v with PI z => inject_Z z | PF q => q end.
Definition ptruth (v : pval) : bool := negb (Qeq_bool (pnum v) 0).

(** C numbers: int and floating point. *)
Inductive cval : Set := CI (z : Z) | CR (q : Q).
Definition cnum (v : cval) : Q := match v with CI z => inject_Z z | CR q => q end.
Definition ctruth (v : cval) : bool := negb (Qeq_bool (cnum v) 0).

Definition b2z (b : bool) : Z := if b then 1 else 0.

Definition cmp_eval (o : cmp) (a b : Q) : bool :=
  match o with
  | CEq => Qeq_bool a b
  | CNe => negb (Qeq_bool a b)
  | CLt => negb (Qle_bool b a)
  | CLe => Qle_bool a b
  | CGt => negb (Qle_bool a b)
  | CGe => Qle_bool b a
  end.

(** Truncation towards zero: conversion of a floating point value to int, in C and by numpy. *)
Definition trunc (q : Q) : Z := Z.quot (Qnum q) (Zpos (Qden q)).

Section Meaning.
(** The functions of the math library (the C library and Python's math module are taken to compute
    the same functions); [None] outside the domain. *)
Variable libm : string -> list Q -> option Q.

Definition mpow (a b : Q) : option Q :=
  let b' := Qred b in
  if Pos.eqb (Qden b') 1 then
    if Qeq_bool a 0 && (Qnum b' <? 0) then None else Some (Qpower a (Qnum b'))
  else libm "pow" [Qred a; b'].

Definition fun1 (f : string) (a : Q) : option Q := libm f [Qred a].
Definition fun2 (f : string) (a b : Q) : option Q :=
  if String.eqb f "pow" then mpow a b else libm f [Qred a; Qred b].

(** Sampling: the values of the component fields at (t, z, y, x), or an error code; for a vector
    field the list of values for each velocity component.  The same in both modes: see C26 and C28 for
    how far that is so. *)
Inductive sample : Type := Sampled (vs : list Q) | SampleErr (c : Z).
Inductive vsample : Type := VSampled (vs : list (list Q)) | VSampleErr (c : Z).
Variable fsample : string -> Q -> Q -> Q -> Q -> sample.
Variable vfsample : string -> Q -> Q -> Q -> Q -> vsample.

Definition qsum (l : list Q) : Q := fold_right Qplus 0%Q l.

(** ** Python *)

Inductive pres (A : Type) : Type := PV (v : A) | PErr (c : Z) | PRaise.
Arguments PV {A} v. Arguments PErr {A} c. Arguments PRaise {A}.

Definition pbind {A B} (r : pres A) (k : A -> pres B) : pres B :=
  match r with PV v => k v | PErr c => PErr c | PRaise => PRaise end.

Definition of_opt {A} (o : option A) : pres A := match o with Some v => PV v | None => PRaise end.

(** Arithmetic of Python numbers. *)
Definition parith (o : bop) (a b : pval) : pres pval :=
  match o with
  | BAdd => PV (match a, b with PI x, PI y => PI (x + y) | _, _ => PF (pnum a + pnum b)%Q end)
  | BSub => PV (match a, b with PI x, PI y => PI (x - y) | _, _ => PF (pnum a - pnum b)%Q end)
  | BMul => PV (match a, b with PI x, PI y => PI (x * y) | _, _ => PF (pnum a * pnum b)%Q end)
  | BDiv => if Qeq_bool (pnum b) 0 then PRaise else PV (PF (pnum a / pnum b)%Q)
  | BMod =>
      if Qeq_bool (pnum b) 0 then PRaise
      else PV (match a, b with
               | PI x, PI y => PI (x mod y)
               | _, _ => PF (pnum a - pnum b * inject_Z (Qfloor (pnum a / pnum b)))%Q
               end)
  | BPow =>
      match a, b with
      | PI x, PI y => if 0 <=? y then PV (PI (x ^ y))
                      else match mpow (inject_Z x) (inject_Z y) with
                           | Some q => PV (PF q) | None => PRaise end
      | _, _ => match mpow (pnum a) (pnum b) with Some q => PV (PF q) | None => PRaise end
      end
  | BXor => match a, b with PI x, PI y => PV (PI (Z.lxor x y)) | _, _ => PRaise end
  end.

Definition pneg (o : uop) (a : pval) : pval :=
  match o with
  | UAdd => a
  | USub => match a with PI x => PI (- x) | PF q => PF (- q)%Q end
  | UNot => PI (b2z (negb (ptruth a)))
  end.

(** Value of an expression; [env l] is the value of a name, [None] if it is not bound. *)
Section PEval.
Variable env : leaf -> option pval.

Fixpoint peval (e : expr) : pres pval :=
  match e with
  | ENum (NInt z) => PV (PI z)
  | ENum (NFlt q) => PV (PF q)
  | EBool b => PV (PI (b2z b))
  | ELeaf l => of_opt (env l)
  | ECode k => PV (PI (py_code k))
  | EField f t z y x =>
      pbind (peval t) (fun vt => pbind (peval z) (fun vz =>
      pbind (peval y) (fun vy => pbind (peval x) (fun vx =>
      match fsample f (Qred (pnum vt)) (Qred (pnum vz)) (Qred (pnum vy)) (Qred (pnum vx)) with
      | Sampled vs => PV (PF (qsum vs))
      | SampleErr c => PErr c
      end))))
  | EUn o a => pbind (peval a) (fun v => PV (pneg o v))
  | EBin o a b => pbind (peval a) (fun va => pbind (peval b) (fun vb => parith o va vb))
  | ECmp o a b =>
      pbind (peval a) (fun va => pbind (peval b) (fun vb =>
      PV (PI (b2z (cmp_eval o (pnum va) (pnum vb))))))
  | ELog LAnd a b => pbind (peval a) (fun va => if ptruth va then peval b else PV va)
  | ELog LOr a b => pbind (peval a) (fun va => if ptruth va then PV va else peval b)
  | ECall1 f a =>
      pbind (peval a) (fun va =>
      match fun1 f (pnum va) with Some q => PV (PF q) | None => PRaise end)
  | ECall2 f a b =>
      pbind (peval a) (fun va => pbind (peval b) (fun vb =>
      match fun2 f (pnum va) (pnum vb) with Some q => PV (PF q) | None => PRaise end))
  end.

Fixpoint peval_list (es : list expr) : pres (list pval) :=
  match es with
  | [] => PV []
  | e :: r => pbind (peval e) (fun v => pbind (peval_list r) (fun vs => PV (v :: vs)))
  end.
End PEval.

(** Particle variables have a type: int (true) or floating point. *)
Variable aint : string -> bool.
(** Constants of the fieldset and of the math module. *)
Variable consts : leaf -> Q.

(** State of a Python kernel call.  [p_del] and [p_odd] are not part of the program's state; they
    record what happened: [particle.delete()] has been called; a loop was left without being entered,
    or the kernel went on to do something after deleting the particle. *)
Record pst := mkPst {
  p_loc : string -> option pval; p_att : string -> pval; p_del : bool; p_odd : bool }.

Definition upd {A} (f : string -> A) (x : string) (v : A) : string -> A :=
  fun y => if String.eqb y x then v else f y.

Definition penv (s : pst) (l : leaf) : option pval :=
  match l with
  | LVar x => p_loc s x
  | LAttr a => Some (p_att s a)
  | _ => Some (PF (consts l))
  end.

(** Writing a particle variable converts to its type (numpy array assignment). *)
Definition pstore (a : string) (v : pval) : pval :=
  if aint a then PI (trunc (pnum v)) else PF (pnum v).

Definition passign (s : pst) (t : target) (v : pval) : pst :=
  match t with
  | TVar x => mkPst (upd (p_loc s) x (Some v)) (p_att s) (p_del s) (p_odd s || p_del s)
  | TAttr a => mkPst (p_loc s) (upd (p_att s) a (pstore a v)) (p_del s) (p_odd s || p_del s)
  end.

Definition passigns (s : pst) (ts : list target) (vs : list pval) : pst :=
  fold_left (fun s tv => passign s (fst tv) (snd tv)) (combine ts vs) s.

Definition podd (s : pst) (b : bool) : pst := mkPst (p_loc s) (p_att s) (p_del s) (p_odd s || b).
Definition pdelete (s : pst) : pst :=
  mkPst (p_loc s) (upd (p_att s) "state" (PI (py_code KDelete))) true (p_odd s).

Definition target_leaf (t : target) : leaf := match t with TVar x => LVar x | TAttr a => LAttr a end.

(** How a statement list ends. *)
Inductive pout : Type :=
| ONext (s : pst) | OBreak (s : pst) | OReturn (c : Z) (s : pst) | OErr (c : Z) (s : pst)
| ORaise | OFuel.

Definition pgive {A} (r : pres A) (s : pst) (k : A -> pout) : pout :=
  match r with
  | PV v => k v
  | PErr c => OErr c (podd s (p_del s))
  | PRaise => ORaise
  end.

(** Execution of Python statements; the fuel bounds the length of the run. *)
Fixpoint pexec (fuel : nat) (ss : list stmt) (s : pst) : pout :=
  match fuel with
  | O => OFuel
  | S n =>
      match ss with
      | [] => ONext s
      | i :: r =>
          let o :=
            match i with
            | SAssign t e => pgive (peval (penv s) e) s (fun v => ONext (passign s t v))
            | SAug t o e =>
                pgive (pbind (peval (penv s) (ELeaf (target_leaf t))) (fun a =>
                       pbind (peval (penv s) e) (fun b => parith o a b))) s
                  (fun v => ONext (passign s t v))
            | STuple ts es =>
                pgive (peval_list (penv s) es) s (fun vs =>
                  if (length ts =? length vs)%nat then ONext (passigns s ts vs) else ORaise)
            | SVec ts f t z y x =>
                pgive (pbind (peval (penv s) t) (fun vt => pbind (peval (penv s) z) (fun vz =>
                       pbind (peval (penv s) y) (fun vy => pbind (peval (penv s) x) (fun vx =>
                       match vfsample f (Qred (pnum vt)) (Qred (pnum vz)) (Qred (pnum vy))
                                        (Qred (pnum vx)) with
                       | VSampled vs => PV (map (fun l => PF (qsum l)) vs)
                       | VSampleErr c => PErr c
                       end))))) s (fun vs =>
                  if (length ts =? length vs)%nat then ONext (passigns s ts vs) else ORaise)
            | SIf c b o =>
                pgive (peval (penv s) c) s (fun v => pexec n (if ptruth v then b else o) s)
            | SWhile c b => pwhile n true c b s
            | SBreak => OBreak s
            | SPass => ONext s
            | SReturn k => OReturn (py_code k) (podd s (p_del s))
            | SDelete => ONext (pdelete s)
            end in
          match o with ONext s' => pexec n r s' | _ => o end
      end
  end
with pwhile (fuel : nat) (first : bool) (c : expr) (b : list stmt) (s : pst) : pout :=
  match fuel with
  | O => OFuel
  | S n =>
      pgive (peval (penv s) c) s (fun v =>
        if ptruth v then
          match pexec n b s with
          | ONext s' => pwhile n false c b s'
          | OBreak s' => ONext s'
          | o => o
          end
        else ONext (podd s first))
  end.

(** kernel.py 315-337: the result of the call is the returned code (None is Success), the particle's
    state if that changed, or the code of the exception. *)
Definition presult (prev : pval) (o : pout) : option (Z * pst) :=
  let adj c s := if (c =? py_code KSuccess) && negb (Qeq_bool (pnum (p_att s "state")) (pnum prev))
                 then (trunc (pnum (p_att s "state")), s) else (c, s) in
  match o with
  | ONext s => Some (adj (py_code KSuccess) s)
  | OReturn c s => Some (adj c s)
  | OErr c s => Some (c, s)
  | OBreak _ | ORaise | OFuel => None
  end.

(** ** C *)

Record cst := mkCst { c_loc : string -> cval; c_att : string -> cval; c_tmp : nat -> cval }.

Definition cenv (s : cst) (x : cname) : option cval :=
  match x with
  | NLeaf (LVar v) => Some (c_loc s v)
  | NLeaf (LAttr a) => Some (c_att s a)
  | NLeaf l => Some (CR (consts l))
  | NTmp n => Some (c_tmp s n)
  | NSym k => Some (CI (c_sym k))
  | NFun _ => None
  end.

Definition carith (o : cop) (a b : cval) : option cval :=
  match o with
  | O_add => Some (match a, b with CI x, CI y => CI (x + y) | _, _ => CR (cnum a + cnum b)%Q end)
  | O_sub => Some (match a, b with CI x, CI y => CI (x - y) | _, _ => CR (cnum a - cnum b)%Q end)
  | O_mul => Some (match a, b with CI x, CI y => CI (x * y) | _, _ => CR (cnum a * cnum b)%Q end)
  | O_div =>
      if Qeq_bool (cnum b) 0 then None
      else Some (match a, b with CI x, CI y => CI (Z.quot x y) | _, _ => CR (cnum a / cnum b)%Q end)
  | O_mod =>
      match a, b with
      | CI x, CI y => if y =? 0 then None else Some (CI (Z.rem x y))
      | _, _ => None                                     (* does not compile *)
      end
  | O_eq => Some (CI (b2z (cmp_eval CEq (cnum a) (cnum b))))
  | O_ne => Some (CI (b2z (cmp_eval CNe (cnum a) (cnum b))))
  | O_lt => Some (CI (b2z (cmp_eval CLt (cnum a) (cnum b))))
  | O_le => Some (CI (b2z (cmp_eval CLe (cnum a) (cnum b))))
  | O_gt => Some (CI (b2z (cmp_eval CGt (cnum a) (cnum b))))
  | O_ge => Some (CI (b2z (cmp_eval CGe (cnum a) (cnum b))))
  | O_and | O_or => None                                 (* see ceval *)
  end.

Section CEval.
Variable env : cname -> option cval.

Fixpoint ceval (e : cexpr) : option cval :=
  match e with
  | XNum (NInt z) => Some (CI z)
  | XNum (NFlt q) => Some (CR q)
  | XId x => env x
  | XPos a => ceval a
  | XNeg a =>
      match ceval a with
      | Some (CI x) => Some (CI (- x)) | Some (CR q) => Some (CR (- q)%Q) | None => None
      end
  | XNot a => match ceval a with Some v => Some (CI (b2z (negb (ctruth v)))) | None => None end
  | XBin O_and a b =>
      match ceval a with
      | Some va =>
          if ctruth va
          then match ceval b with Some vb => Some (CI (b2z (ctruth vb))) | None => None end
          else Some (CI 0)
      | None => None
      end
  | XBin O_or a b =>
      match ceval a with
      | Some va =>
          if ctruth va then Some (CI 1)
          else match ceval b with Some vb => Some (CI (b2z (ctruth vb))) | None => None end
      | None => None
      end
  | XBin o a b =>
      match ceval a, ceval b with Some va, Some vb => carith o va vb | _, _ => None end
  | XCall1 (NFun f) a =>
      match ceval a with
      | Some va => match fun1 f (cnum va) with Some q => Some (CR q) | None => None end
      | None => None
      end
  | XCall2 (NFun f) a b =>
      match ceval a, ceval b with
      | Some va, Some vb => match fun2 f (cnum va) (cnum vb) with Some q => Some (CR q) | None => None end
      | _, _ => None
      end
  | XCall1 _ _ | XCall2 _ _ _ => None
  end.
End CEval.

(** The value of C text: read by the compiler, then evaluated. *)
Definition cvalue (s : cst) (ts : list tok) : option cval :=
  match cparse ts with Some e => ceval (cenv s) e | None => None end.

Definition cstore (a : string) (v : cval) : cval :=
  if aint a then CI (trunc (cnum v)) else CR (cnum v).

(** Locals are declared [type_coord] (466), particle variables with their own type. *)
Definition cassign (s : cst) (t : target) (v : cval) : cst :=
  match t with
  | TVar x => mkCst (upd (c_loc s) x (CR (cnum v))) (c_att s) (c_tmp s)
  | TAttr a => mkCst (c_loc s) (upd (c_att s) a (cstore a v)) (c_tmp s)
  end.

Definition set_tmp (s : cst) (n : nat) (q : Q) : cst :=
  mkCst (c_loc s) (c_att s) (fun m => if (m =? n)%nat then CR q else c_tmp s m).
Definition set_tmps (s : cst) (ns : list nat) (qs : list Q) : cst :=
  fold_left (fun s nq => set_tmp s (fst nq) (snd nq)) (combine ns qs) s.

Inductive cout : Type :=
| CNext (s : cst) | CBreak (s : cst) | CReturn (c : Z) (s : cst) | CStuck | CFuel.

(** [ZEval]: err = temporal_interpolation(...); tmp *= ...; CHECKSTATUS(err). *)
Definition ceval_field (s : cst) (f : string) (t z y x : list tok) (tmps : list nat) : cout :=
  match cvalue s t, cvalue s z, cvalue s y, cvalue s x with
  | Some vt, Some vz, Some vy, Some vx =>
      match fsample f (Qred (cnum vt)) (Qred (cnum vz)) (Qred (cnum vy)) (Qred (cnum vx)) with
      | Sampled vs => CNext (set_tmps s tmps vs)
      | SampleErr c => CReturn c s
      end
  | _, _, _, _ => CStuck
  end.

Definition ceval_vec (s : cst) (f : string) (t z y x : list tok) (tmps : list (list nat)) : cout :=
  match cvalue s t, cvalue s z, cvalue s y, cvalue s x with
  | Some vt, Some vz, Some vy, Some vx =>
      match vfsample f (Qred (cnum vt)) (Qred (cnum vz)) (Qred (cnum vy)) (Qred (cnum vx)) with
      | VSampled vs => CNext (set_tmps s (concat tmps) (concat vs))
      | VSampleErr c => CReturn c s
      end
  | _, _, _, _ => CStuck
  end.

Definition cgive (r : option cval) (k : cval -> cout) : cout :=
  match r with Some v => k v | None => CStuck end.

Fixpoint cexec (fuel : nat) (ss : list cstmt) (s : cst) : cout :=
  match fuel with
  | O => CFuel
  | S n =>
      match ss with
      | [] => CNext s
      | i :: r =>
          let o :=
            match i with
            | ZEval f t z y x tmps => ceval_field s f t z y x tmps
            | ZVecEval f t z y x tmps => ceval_vec s f t z y x tmps
            | ZAssign t e => cgive (cvalue s e) (fun v => CNext (cassign s t v))
            | ZAug t o e =>
                cgive (match cenv s (NLeaf (target_leaf t)), cvalue s e with
                       | Some a, Some b => carith (bop_tok o) a b
                       | _, _ => None
                       end) (fun v => CNext (cassign s t v))
            | ZIf c b o => cgive (cvalue s c) (fun v => cexec n (if ctruth v then b else o) s)
            | ZDo b c =>
                match cexec n b s with
                | CNext s' =>
                    cgive (cvalue s' c) (fun v =>
                      if ctruth v then cexec n [ZDo b c] s' else CNext s')
                | CBreak s' => CNext s'
                | o => o
                end
            | ZBreak => CBreak s
            | ZEmpty => CNext s
            | ZReturn k => CReturn (c_sym k) s
            | ZBlock b => cexec n b s
            end in
          match o with CNext s' => cexec n r s' | _ => o end
      end
  end.

(** codegenerator.py 1041-1042: the returned code, or the particle's state if that changed. *)
Definition cresult (prev : cval) (o : cout) : option (Z * cst) :=
  match o with
  | CReturn c s =>
      Some (if (c =? c_sym SUCCESS) && negb (Qeq_bool (cnum (c_att s "state")) (cnum prev))
            then trunc (cnum (c_att s "state")) else c, s)
  | _ => None
  end.

End Meaning.

Arguments PV {A} v. Arguments PErr {A} c. Arguments PRaise {A}.
