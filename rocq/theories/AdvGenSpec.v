(** When a kernel program does in Scipy mode and in JIT mode what the model over the reals says. *)
From Coq Require Import String List ZArith QArith Qreals Reals Bool Arith.
From Verif Require Import GenModel GenSpec AdvModel.
Import ListNotations.
Local Open Scope string_scope.

(** The samples of fieldset.UV (and UVW) of the kernel program are those of the model.  For a summed field the
    values of the components are added. *)
Section Spec.
Variables (ncomp vdim : string -> nat).
Variable aint : string -> bool.
Variable libm : string -> list Q -> option Q.
Variable fsample : string -> Q -> Q -> Q -> Q -> sample.
Variable vfsample : string -> Q -> Q -> Q -> Q -> vsample.
Variable consts : leaf -> Q.

Definition reads2 (UV : R -> R -> R -> R -> option (R * R)) : Prop := forall t z y x : Q,
  UV (Q2R t) (Q2R z) (Q2R y) (Q2R x) =
  match vfsample "UV" (Qred t) (Qred z) (Qred y) (Qred x) with
  | VSampled vs => Some (Q2R (qsum (nth 0 vs [])), Q2R (qsum (nth 1 vs [])))
  | VSampleErr _ => None
  end.

Definition reads3 (UVW : R -> R -> R -> R -> option (R * R * R)) : Prop := forall t z y x : Q,
  UVW (Q2R t) (Q2R z) (Q2R y) (Q2R x) =
  match vfsample "UVW" (Qred t) (Qred z) (Qred y) (Qred x) with
  | VSampled vs => Some (Q2R (qsum (nth 0 vs [])), Q2R (qsum (nth 1 vs [])), Q2R (qsum (nth 2 vs [])))
  | VSampleErr _ => None
  end.

(** The kernel call ends as the model says; particle variables other than the position are not touched. *)
Definition py_as (o : aout) (att : string -> pval) (out : option (Z * pst)) : Prop :=
  match o with
  | ADone A => exists s, out = Some (0%Z, s) /\
      Q2R (pnum (p_att s "lon")) = a_lon A /\ Q2R (pnum (p_att s "lat")) = a_lat A /\
      Q2R (pnum (p_att s "depth")) = a_depth A /\
      forall a, a <> "lon" -> a <> "lat" -> a <> "depth" -> p_att s a = att a
  | AFail _ => exists c s, out = Some (c, s) /\ c <> 0%Z /\ p_att s = att
  | ARepeat _ => False
  end.

(** The C function ends in the same way. *)
Definition c_as (o : aout) (att : string -> cval) (out : option (Z * cst)) : Prop :=
  match o with
  | ADone A => exists s, out = Some (0%Z, s) /\
      Q2R (cnum (c_att s "lon")) = a_lon A /\ Q2R (cnum (c_att s "lat")) = a_lat A /\
      Q2R (cnum (c_att s "depth")) = a_depth A /\
      forall a, a <> "lon" -> a <> "lat" -> a <> "depth" -> (cnum (c_att s a) == cnum (att a))%Q
  | AFail _ => exists c s, out = Some (c, s) /\ c <> 0%Z /\ forall a, (cnum (c_att s a) == cnum (att a))%Q
  | ARepeat _ => False
  end.

(** A particle with floating point coordinates. *)
Definition coords (p : pst) (t x y z h : Q) : Prop :=
  p_loc p "time" = Some (PF t) /\ p_att p "lon" = PF x /\ p_att p "lat" = PF y /\ p_att p "depth" = PF z /\
  p_att p "dt" = PF h.

Definition both_modes (body : list stmt) (p : pst) (c : cst) (o : aout) : Prop :=
  py_as o (p_att p) (presult (p_att p "state") (pexec libm fsample vfsample aint consts 30 body p)) /\
  exists zs m0, compile ncomp vdim body = Some zs /\
    forall m, (m0 <= m)%nat ->
      c_as o (c_att c) (cresult (c_att c "state") (cexec libm fsample vfsample aint consts m zs c)).

Definition runnable (f : string) (n : nat) (p : pst) (c : cst) : Prop :=
  samples_ok ncomp vdim fsample vfsample /\ (1 <= ncomp f)%nat /\ vdim f = n /\
  aint "lon" = false /\ aint "lat" = false /\ aint "depth" = false /\ aint "dt" = false /\
  agree aint p c /\ p_del p = false /\ p_odd p = false /\
  ~ (pnum (p_att p "state") == inject_Z (py_code KDelete))%Q.

End Spec.
