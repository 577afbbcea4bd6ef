(** Model of the unit converters, over the real numbers, and of the C text they write.

    Source: parcels/tools/converters.py 123-221 (UnitConverter, Geographic, GeographicPolar, GeographicSquare,
    GeographicPolarSquare, unitconverters_map), parcels/field.py 116-121 (choice), 1102, 1636-1640 (Scipy mode),
    1111-1112 and codegenerator.py 795-797, 809-818 (JIT mode: [var *= text]).
    Rounding is not modelled; [cos] and [pi] are the exact ones, in both modes. *)
From Coq Require Import String List ZArith QArith Qreals Reals Bool.
From Verif Require Import GenModel.
Import ListNotations.
Local Open Scope string_scope.
Open Scope R_scope.

(** The real number pi (GenModel uses the name PI for integers). *)
Notation pi := Rtrigo1.PI.

Inductive converter : Set := NoConversion | Geographic | GeographicPolar | GeographicSquare | GeographicPolarSquare.

(** to_target, 129-209 (x and z are not used by any of them). *)
Definition to_target (u : converter) (value y : R) : R :=
  match u with
  | NoConversion => value
  | Geographic => value / 1000 / (1852 / 1000) / 60
  | GeographicPolar => value / 1000 / (1852 / 1000) / 60 / cos (y * pi / 180)
  | GeographicSquare => value / (1000 * (1852 / 1000) * 60) ^ 2
  | GeographicPolarSquare => value / (1000 * (1852 / 1000) * 60 * cos (y * pi / 180)) ^ 2
  end.

(** to_source. *)
Definition to_source (u : converter) (value y : R) : R :=
  match u with
  | NoConversion => value
  | Geographic => value * 1000 * (1852 / 1000) * 60
  | GeographicPolar => value * 1000 * (1852 / 1000) * 60 * cos (y * pi / 180)
  | GeographicSquare => value * (1000 * (1852 / 1000) * 60) ^ 2
  | GeographicPolarSquare => value * (1000 * (1852 / 1000) * 60 * cos (y * pi / 180)) ^ 2
  end.

(** unitconverters_map 215-217 and field.py 116-121; None is the ValueError for an unsupported mesh. *)
Definition converter_for (mesh fieldtype : string) : option converter :=
  let known :=
    if String.eqb fieldtype "U" then Some GeographicPolar
    else if String.eqb fieldtype "V" then Some Geographic
    else if String.eqb fieldtype "Kh_zonal" then Some GeographicPolarSquare
    else if String.eqb fieldtype "Kh_meridional" then Some GeographicSquare
    else None in
  match known with
  | None => Some NoConversion
  | Some u => if String.eqb mesh "flat" then Some NoConversion
              else if String.eqb mesh "spherical" then Some u else None
  end.

(** * The C text *)

Definition k_flt (q : Q) : tok := KNum (NFlt q).
Definition M_PI : cname := NLeaf (LMath "M_PI").
Definition k_cos : tok := KId (NFun "cos").
Definition k_pow : tok := KId (NFun "pow").

(** "1000. * 1.852 * 60." *)
Definition t_mile : list tok := [k_flt 1000; KOp O_mul; k_flt (1852#1000); KOp O_mul; k_flt 60].
(** "1000. * 1.852 * 60. * cos(%s * M_PI / 180)" *)
Definition t_polar (y : list tok) : list tok :=
  t_mile ++ [KOp O_mul; k_cos; KLP] ++ y ++ [KOp O_mul; KId M_PI; KOp O_div; KNum (NInt 180); KRP].
(** "1.0 / ( ... )" *)
Definition t_over (ts : list tok) : list tok := [k_flt 1; KOp O_div; KLP] ++ ts ++ [KRP].
Definition t_paren (ts : list tok) : list tok := [KLP] ++ ts ++ [KRP].
(** "pow( ..., 2)" *)
Definition t_square (ts : list tok) : list tok := [k_pow; KLP] ++ ts ++ [KComma; KNum (NInt 2); KRP].

(** ccode_to_target: 133, 153, 173, 191, 211 ([y] is the text of the latitude argument). *)
Definition ccode_to_target (u : converter) (y : list tok) : list tok :=
  match u with
  | NoConversion => [k_flt 1]
  | Geographic => t_paren (t_over t_mile)
  | GeographicPolar => t_paren (t_over (t_polar y))
  | GeographicSquare => t_square (t_over t_mile)
  | GeographicPolarSquare => t_square (t_over (t_polar y))
  end.

(** ccode_to_source: 139, 156, 176, 194, 214. *)
Definition ccode_to_source (u : converter) (y : list tok) : list tok :=
  match u with
  | NoConversion => [k_flt 1]
  | Geographic => t_paren t_mile
  | GeographicPolar => t_paren (t_polar y)
  | GeographicSquare => t_square (t_paren t_mile)
  | GeographicPolarSquare => t_square (t_paren (t_polar y))
  end.

(** ** Value of a C expression over the reals: int or double.  Calls of other functions, and what has no value
    (division by zero), give None. *)
Inductive rv : Type := RI (z : Z) | RR (r : R).
Definition rnum (v : rv) : R := match v with RI z => IZR z | RR r => r end.
Definition rbool (b : bool) : rv := RI (if b then 1 else 0).
Definition rtruth (v : rv) : bool := if Req_EM_T (rnum v) 0 then false else true.

Definition rarith (o : cop) (a b : rv) : option rv :=
  match o with
  | O_add => Some (match a, b with RI x, RI y => RI (x + y) | _, _ => RR (rnum a + rnum b) end)
  | O_sub => Some (match a, b with RI x, RI y => RI (x - y) | _, _ => RR (rnum a - rnum b) end)
  | O_mul => Some (match a, b with RI x, RI y => RI (x * y) | _, _ => RR (rnum a * rnum b) end)
  | O_div =>
      if Req_EM_T (rnum b) 0 then None
      else Some (match a, b with RI x, RI y => RI (Z.quot x y) | _, _ => RR (rnum a / rnum b) end)
  | O_mod =>
      match a, b with RI x, RI y => if Z.eqb y 0 then None else Some (RI (Z.rem x y)) | _, _ => None end
  | O_eq => Some (rbool (if Req_EM_T (rnum a) (rnum b) then true else false))
  | O_ne => Some (rbool (if Req_EM_T (rnum a) (rnum b) then false else true))
  | O_lt => Some (rbool (if Rlt_dec (rnum a) (rnum b) then true else false))
  | O_le => Some (rbool (if Rle_dec (rnum a) (rnum b) then true else false))
  | O_gt => Some (rbool (if Rlt_dec (rnum b) (rnum a) then true else false))
  | O_ge => Some (rbool (if Rle_dec (rnum b) (rnum a) then true else false))
  | O_and => Some (rbool (rtruth a && rtruth b))
  | O_or => Some (rbool (rtruth a || rtruth b))
  end.

Section RVal.
Variable env : cname -> option rv.
Fixpoint rval (e : cexpr) : option rv :=
  match e with
  | XNum (NInt z) => Some (RI z)
  | XNum (NFlt q) => Some (RR (Q2R q))
  | XId x => env x
  | XPos a => rval a
  | XNeg a => match rval a with Some (RI z) => Some (RI (- z)) | Some (RR r) => Some (RR (- r)) | None => None end
  | XNot a => match rval a with Some v => Some (rbool (negb (rtruth v))) | None => None end
  | XBin o a b => match rval a, rval b with Some x, Some y => rarith o x y | _, _ => None end
  | XCall1 (NFun f) a =>
      match rval a with
      | Some v => if String.eqb f "cos" then Some (RR (cos (rnum v))) else None
      | None => None
      end
  | XCall2 (NFun f) a b =>
      match rval a, rval b with
      | Some v, Some (RI n) =>
          if String.eqb f "pow" && Z.leb 0 n then Some (RR (rnum v ^ Z.to_nat n)) else None
      | _, _ => None
      end
  | XCall1 _ _ | XCall2 _ _ _ => None
  end.
End RVal.

(** The value of the text in C. *)
Definition text_num (env : cname -> option rv) (ts : list tok) : option R :=
  match cparse ts with
  | Some e => match rval env e with Some v => Some (rnum v) | None => None end
  | None => None
  end.
