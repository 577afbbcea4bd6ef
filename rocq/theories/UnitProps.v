(** C36: unit conversion. *)
From Coq Require Import String List Reals.
From Verif Require Import GenModel GenSpec UnitModel UnitSpec UnitProofs.
Import ListNotations.
Local Open Scope string_scope.
Open Scope R_scope.

(** C36: converting a value to degrees and back, or back and forth, returns it. *)
Theorem conversion_round_trip : forall u value y, between_poles y ->
  to_source u (to_target u value y) y = value /\ to_target u (to_source u value y) y = value.
Proof. exact round_trip. Qed.
Print Assumptions conversion_round_trip.

(** C36: a displacement in metres becomes the arc of that length: a nautical mile is a minute of latitude. *)
Theorem meridional_arc : forall metres y, metres_of_lat (to_target Geographic metres y) = metres.
Proof. exact lat_arc. Qed.
Print Assumptions meridional_arc.

Theorem zonal_arc : forall metres y, between_poles y ->
  metres_of_lon (to_target GeographicPolar metres y) y = metres.
Proof. exact lon_arc. Qed.
Print Assumptions zonal_arc.

(** C36: every field gets the conversion its type and mesh call for; both known meshes are accepted. *)
Theorem units_of_field : forall mesh name u value y, between_poles y ->
  converter_for mesh name = Some u -> to_target u value y = value / size_of mesh name y.
Proof. exact field_units. Qed.
Print Assumptions units_of_field.

Theorem known_meshes_accepted : forall mesh name, mesh = "flat" \/ mesh = "spherical" ->
  converter_for mesh name <> None.
Proof. exact converter_exists. Qed.
Print Assumptions known_meshes_accepted.

Example units_of_field_case :
  converter_for "spherical" "U" = Some GeographicPolar /\ converter_for "spherical" "Kh_meridional" = Some GeographicSquare /\
  converter_for "flat" "U" = Some NoConversion /\ converter_for "spherical" "T" = Some NoConversion /\
  to_target GeographicPolar 1852 60 = 2 / 60.
Proof. repeat (split; [reflexivity|]). exact (proj2 (proj2 (proj2 (proj2 (proj2 (proj2 (proj2 case_ok))))))). Qed.

(** C36: the text written for JIT mode, read as C, has a value, and multiplying by it is the conversion of Scipy mode;
    for every latitude argument whose text binds at least as tightly as a product.  Missing: latitude arguments that are
    bare samples of summed fields, comparisons, [and] or [or], see the refutation. *)
Theorem jit_factor_partial : forall ncomp aint e n te calls n' u env y,
  fits ncomp aint e = true -> (5 <= level ncomp e)%nat -> hoist ncomp n e = (te, calls, n') ->
  exists ts, gen te = Some ts /\
    (text_num env ts = Some y -> knows_pi env -> between_poles y ->
     (exists k, text_num env (ccode_to_target u ts) = Some k /\ forall x, x * k = to_target u x y) /\
     (exists k, text_num env (ccode_to_source u ts) = Some k /\ forall x, x * k = to_source u x y)).
Proof. exact c_factor_expr. Qed.
Print Assumptions jit_factor_partial.

(** [particle.lat] meets the hypotheses. *)
Example jit_factor_partial_case :
  fits two_parts (fun _ => false) (ELeaf (LAttr "lat")) = true /\
  (5 <= level two_parts (ELeaf (LAttr "lat")))%nat /\
  hoist two_parts 0 (ELeaf (LAttr "lat")) = (RLeaf (LAttr "lat"), [], 0%nat) /\
  gen (RLeaf (LAttr "lat")) = Some [KId (NLeaf (LAttr "lat"))] /\
  text_num case_env [KId (NLeaf (LAttr "lat"))] = Some 60 /\ knows_pi case_env /\ between_poles 60 /\
  to_target GeographicPolar 1852 60 = 2 / 60.
Proof. exact case_ok. Qed.

(** C36 is false in general: with a sample of a sum of two fields as latitude, the text is
    [cos(tmp0+tmp1 * M_PI / 180)], and eastward velocities can even change sign. *)
Theorem summed_latitude_refuted :
  exists te calls n' ts y k,
    hoist two_parts 0 lat_of_sum = (te, calls, n') /\ gen te = Some ts /\
    text_num sum_env ts = Some y /\ knows_pi sum_env /\ between_poles y /\
    text_num sum_env (ccode_to_target GeographicPolar ts) = Some k /\
    1 * k < 0 < to_target GeographicPolar 1 y.
Proof. exact summed_lat. Qed.
Print Assumptions summed_latitude_refuted.
