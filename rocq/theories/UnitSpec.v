(** Specification for C36: degrees, minutes of arc and nautical miles. *)
From Coq Require Import String List Reals.
From Verif Require Import GenModel UnitModel.
Local Open Scope string_scope.
Open Scope R_scope.

(** A latitude strictly between the poles. *)
Definition between_poles (y : R) : Prop := -90 < y < 90.

(** One minute of arc (a sixtieth of a degree) of latitude is a nautical mile, 1852 metres; one of longitude is
    shorter by the cosine of the latitude. *)
Definition metres_of_lat (degrees : R) : R := (degrees * 60) * 1852.
Definition metres_of_lon (degrees y : R) : R := (degrees * 60) * 1852 * cos (y * pi / 180).

(** Size, in the units of the data, of one unit of what is sampled: fields of velocity along a meridian are sampled
    in degrees of latitude per second, and so on; data on a flat mesh, and other fields, are left as they are. *)
Definition size_of (mesh fieldtype : string) (y : R) : R :=
  if String.eqb mesh "flat" then 1
  else if String.eqb fieldtype "U" then metres_of_lon 1 y
  else if String.eqb fieldtype "V" then metres_of_lat 1
  else if String.eqb fieldtype "Kh_zonal" then metres_of_lon 1 y * metres_of_lon 1 y
  else if String.eqb fieldtype "Kh_meridional" then metres_of_lat 1 * metres_of_lat 1
  else 1.

(** C knows pi. *)
Definition knows_pi (env : cname -> option rv) : Prop := env M_PI = Some (RR pi).
