(** Specification vocabulary for the translation of kernels to C (C32, C33): the grammar of C
    expressions, when a Python state and a C state are the same, and the kernels the positive theorems
    are about. *)
From Coq Require Import String List ZArith QArith Bool Arith.
From Verif Require Import GenModel.
Import ListNotations.
Open Scope Z_scope.

(** * The grammar of C expressions (C11 6.5) *)

(** [phrase l ts t]: the tokens [ts] form an expression of level [l] whose syntax tree is [t].
    Levels: 0 logical-OR, 1 logical-AND, 2 equality, 3 relational, 4 additive, 5 multiplicative,
    6 unary, postfix and primary.  Binary operators associate to the left. *)
Inductive phrase : nat -> list tok -> cexpr -> Prop :=
| ph_up l ts a : (l < 6)%nat -> phrase (S l) ts a -> phrase l ts a
| ph_or ts1 ts2 a b :
    phrase 0 ts1 a -> phrase 1 ts2 b -> phrase 0 (ts1 ++ KOp O_or :: ts2) (XBin O_or a b)
| ph_and ts1 ts2 a b :
    phrase 1 ts1 a -> phrase 2 ts2 b -> phrase 1 (ts1 ++ KOp O_and :: ts2) (XBin O_and a b)
| ph_eq o ts1 ts2 a b :
    In o [O_eq; O_ne] ->
    phrase 2 ts1 a -> phrase 3 ts2 b -> phrase 2 (ts1 ++ KOp o :: ts2) (XBin o a b)
| ph_rel o ts1 ts2 a b :
    In o [O_lt; O_le; O_gt; O_ge] ->
    phrase 3 ts1 a -> phrase 4 ts2 b -> phrase 3 (ts1 ++ KOp o :: ts2) (XBin o a b)
| ph_add o ts1 ts2 a b :
    In o [O_add; O_sub] ->
    phrase 4 ts1 a -> phrase 5 ts2 b -> phrase 4 (ts1 ++ KOp o :: ts2) (XBin o a b)
| ph_mul o ts1 ts2 a b :
    In o [O_mul; O_div; O_mod] ->
    phrase 5 ts1 a -> phrase 6 ts2 b -> phrase 5 (ts1 ++ KOp o :: ts2) (XBin o a b)
| ph_pos ts a : phrase 6 ts a -> phrase 6 (KOp O_add :: ts) (XPos a)
| ph_neg ts a : phrase 6 ts a -> phrase 6 (KOp O_sub :: ts) (XNeg a)
| ph_not ts a : phrase 6 ts a -> phrase 6 (KNot :: ts) (XNot a)
| ph_num k : phrase 6 [KNum k] (XNum k)
| ph_id x : phrase 6 [KId x] (XId x)
| ph_call1 f ts a : phrase 0 ts a -> phrase 6 (KId f :: KLP :: ts ++ [KRP]) (XCall1 f a)
| ph_call2 f ts1 ts2 a b :
    phrase 0 ts1 a -> phrase 0 ts2 b ->
    phrase 6 (KId f :: KLP :: ts1 ++ KComma :: ts2 ++ [KRP]) (XCall2 f a b)
| ph_par ts a : phrase 0 ts a -> phrase 6 (KLP :: ts ++ [KRP]) a.

Section Spec.
Variable ncomp : string -> nat.
Variable vdim : string -> nat.
Variable aint : string -> bool.

(** * Expressions that survive the translation *)

(** How tightly the text written for an expression binds in C.  The generator puts parentheses around
    arithmetic (except that the temporaries of a summed field are joined with bare '+' signs) and the
    operand of a unary operator, but none around comparisons, [and] and [or]. *)
Definition level (e : expr) : nat :=
  match e with
  | EField f _ _ _ _ => if (ncomp f =? 1)%nat then 6 else 4
  | ECmp (CEq | CNe) _ _ => 2
  | ECmp _ _ _ => 3
  | ELog LAnd _ _ => 1
  | ELog LOr _ _ => 0
  | _ => 6
  end.

(** The C type of the text written for an expression is an integer type: int literals, truth values,
    int variables of the particle, and arithmetic on them.  Local variables are floating point. *)
Fixpoint cint (e : expr) : bool :=
  match e with
  | ENum (NInt _) | EBool _ | ECode _ | ECmp _ _ _ | ELog _ _ _ | EUn UNot _ => true
  | ELeaf (LAttr a) => aint a
  | EUn _ a => cint a
  | EBin (BAdd | BSub | BMul | BDiv | BMod) a b => cint a && cint b
  | _ => false
  end.

(** Truth-valued expressions. *)
Fixpoint boolean (e : expr) : bool :=
  match e with
  | EBool _ | ECmp _ _ _ | EUn UNot _ => true
  | ELog _ a b => boolean a && boolean b
  | _ => false
  end.

(** [a and b] and [a or b] have the value of one of the operands in Python, but 0 or 1 in C; used as a
    number (not as a condition) the operands have to be truth values. *)
Definition valued (e : expr) : bool :=
  match e with ELog _ _ _ => boolean e | _ => true end.

Fixpoint hasfield (e : expr) : bool :=
  match e with
  | EField _ _ _ _ _ => true
  | EUn _ a | ECall1 _ a => hasfield a
  | EBin _ a b | ECmp _ a b | ELog _ a b | ECall2 _ a b => hasfield a || hasfield b
  | _ => false
  end.

(** The expressions the theorem is about: the missing parentheses do not matter, no integer is divided
    by an integer, ['%'] is used on integers only, and no field is sampled in the second operand of
    [and] or [or] (where Python may not sample it but C always does). *)
Fixpoint fits (e : expr) : bool :=
  match e with
  | ENum _ | EBool _ | ELeaf _ | ECode _ => true
  | EField f t z y x =>
      (1 <=? ncomp f)%nat
      && (fits t && valued t) && (fits z && valued z) && (fits y && valued y) && (fits x && valued x)
  | EUn UNot a => fits a
  | EUn _ a => fits a && valued a
  | EBin o a b =>
      (fits a && valued a) && (fits b && valued b)
      && match o with
         | BXor => false
         | BPow => true
         | BAdd | BSub => (4 <=? level a)%nat && (5 <=? level b)%nat
         | BMul => (5 <=? level a)%nat && (6 <=? level b)%nat
         | BDiv => (5 <=? level a)%nat && (6 <=? level b)%nat && negb (cint a && cint b)
         | BMod => (5 <=? level a)%nat && (6 <=? level b)%nat && (cint a && cint b)
         end
  | ECmp o a b =>
      (fits a && valued a) && (fits b && valued b)
      && match o with
         | CEq | CNe => (2 <=? level a)%nat && (3 <=? level b)%nat
         | _ => (3 <=? level a)%nat && (4 <=? level b)%nat
         end
  | ELog LAnd a b =>
      fits a && fits b && (1 <=? level a)%nat && (1 <=? level b)%nat && negb (hasfield b)
  | ELog LOr a b => fits a && fits b && negb (hasfield b)
  | ECall1 _ a => fits a && valued a
  | ECall2 _ a b => (fits a && valued a) && (fits b && valued b)
  end.

Fixpoint nomod (e : expr) : bool :=
  match e with
  | EBin BMod _ _ => false
  | EField _ t z y x => nomod t && nomod z && nomod y && nomod x
  | EUn _ a | ECall1 _ a => nomod a
  | EBin _ a b | ECmp _ a b | ELog _ a b | ECall2 _ a b => nomod a && nomod b
  | _ => true
  end.

Section WithSamples.
Variable libm : string -> list Q -> option Q.
Variable fsample : string -> Q -> Q -> Q -> Q -> sample.
Variable vfsample : string -> Q -> Q -> Q -> Q -> vsample.

(** Every ['%'] has a first operand that is not negative and a positive second one. *)
Fixpoint mods_ok (env : leaf -> option pval) (e : expr) : Prop :=
  match e with
  | EField _ t z y x => mods_ok env t /\ mods_ok env z /\ mods_ok env y /\ mods_ok env x
  | EUn _ a | ECall1 _ a => mods_ok env a
  | EBin o a b =>
      mods_ok env a /\ mods_ok env b /\
      (o = BMod -> forall x y,
         peval libm fsample env a = PV (PI x) -> peval libm fsample env b = PV (PI y) ->
         0 <= x /\ 0 < y)
  | ECmp _ a b | ELog _ a b | ECall2 _ a b => mods_ok env a /\ mods_ok env b
  | _ => True
  end.

(** Samples have as many values as there are component fields, and an error is not Success. *)
Definition samples_ok : Prop :=
  (forall f t z y x vs, fsample f t z y x = Sampled vs -> length vs = ncomp f) /\
  (forall f t z y x c, fsample f t z y x = SampleErr c -> c <> 0) /\
  (forall f t z y x vs, vfsample f t z y x = VSampled vs ->
     length vs = vdim f /\ Forall (fun l => length l = ncomp f) vs) /\
  (forall f t z y x c, vfsample f t z y x = VSampleErr c -> c <> 0).
End WithSamples.

(** * When a Python state and a C state are the same *)

Definition same (v : pval) (w : cval) : Prop :=
  match w with CI z => v = PI z | CR q => (q == pnum v)%Q end.

Definition is_ci (w : cval) : bool := match w with CI _ => true | CR _ => false end.

(** Every bound local has its value, every particle variable has its value and type. *)
Definition agree (p : pst) (c : cst) : Prop :=
  (forall x v, p_loc p x = Some v -> exists q, c_loc c x = CR q /\ (q == pnum v)%Q) /\
  (forall a, same (p_att p a) (c_att c a) /\ is_ci (c_att c a) = aint a).

(** Same particle variables except [a]. *)
Definition agree_but (a0 : string) (p : pst) (c : cst) : Prop :=
  forall a, a <> a0 -> same (p_att p a) (c_att c a).

(** * Statements that survive the translation *)

Definition assigning (s : stmt) : bool :=
  match s with SAssign _ _ | SAug _ _ _ | STuple _ _ | SVec _ _ _ _ _ _ => true | _ => false end.

(** Text of the expression outside field samples mentions the target. *)
Fixpoint mentions (t : target) (e : expr) : bool :=
  match e with
  | ELeaf l =>
      match t, l with
      | TVar x, LVar y => String.eqb x y
      | TAttr x, LAttr y => String.eqb x y
      | _, _ => false
      end
  | EUn _ a | ECall1 _ a => mentions t a
  | EBin _ a b | ECmp _ a b | ELog _ a b | ECall2 _ a b => mentions t a || mentions t b
  | _ => false
  end.

(** No target of a tuple assignment is used by the expressions to its right. *)
Fixpoint untangled (ts : list target) (es : list expr) : bool :=
  match ts, es with
  | t :: ts', _ :: es' => forallb (fun e => negb (mentions t e)) es' && untangled ts' es'
  | _, _ => true
  end.

(** Fields sampled in a test: plain or nested ones only, and not one inside the coordinates of
    another. *)
Fixpoint plainfields (e : expr) : bool :=
  match e with
  | EField f t z y x =>
      (ncomp f =? 1)%nat && negb (hasfield t || hasfield z || hasfield y || hasfield x)
  | EUn _ a | ECall1 _ a => plainfields a
  | EBin _ a b | ECmp _ a b | ELog _ a b | ECall2 _ a b => plainfields a && plainfields b
  | _ => true
  end.

Definition efits (e : expr) : bool := fits e && nomod e.
Definition vfits (e : expr) : bool := efits e && valued e.

Fixpoint sfits (s : stmt) : bool :=
  match s with
  | SAssign t e => vfits e
  | SAug t o e =>
      vfits e
      && match o with
         | BAdd | BSub | BMul => true
         | BDiv => negb (cint (ELeaf (target_leaf t)) && cint e)
         | _ => false
         end
  | STuple ts es => (length ts =? length es)%nat && forallb vfits es && untangled ts es
  | SVec ts f t z y x =>
      (length ts =? vdim f)%nat && (1 <=? ncomp f)%nat && vfits t && vfits z && vfits y && vfits x
  | SIf c b o =>
      efits c && forallb sfits b && forallb sfits o
      && (negb (hasfield c)
          || plainfields c && match b with s1 :: _ => assigning s1 | [] => false end)
  | SWhile c b => efits c && forallb sfits b && negb (hasfield c)
  | SBreak | SPass | SReturn _ | SDelete => true
  end.

End Spec.

(** No loop, no [particle.delete()]. *)
Fixpoint straight (s : stmt) : bool :=
  match s with
  | SIf _ b o => forallb straight b && forallb straight o
  | SWhile _ _ | SDelete => false
  | _ => true
  end.
