(** Vocabulary for C46: diffusion. *)
From Coq Require Import Reals List.
From Verif Require Import AdvModel DiffModel.
Import ListNotations.
Open Scope R_scope.

(** An average of functions of a random number: linear, 1 for the constant 1.  Every distribution with the moments below
    has one. *)
Record average (E : (R -> R) -> R) : Prop := {
  av_ext : forall f g, (forall w, f w = g w) -> E f = E g;
  av_lin : forall a b f g, E (fun w => a * f w + b * g w) = a * E f + b * E g;
  av_one : E (fun _ => 1) = 1 }.
(** Mean 0 and variance [s]. *)
Definition centred (E : (R -> R) -> R) (s : R) : Prop := average E /\ E (fun w => w) = 0 /\ E (fun w => w ^ 2) = s.
(** The third and fourth moments of a normal distribution. *)
Definition normal4 (E : (R -> R) -> R) (s : R) : Prop :=
  centred E s /\ E (fun w => w ^ 3) = 0 /\ E (fun w => w ^ 4) = 3 * s ^ 2.

(** How far a kernel moves a particle. *)
Definition east (p : apart) (o : aout) : R := match o with ADone q => a_lon q - a_lon p | _ => 0 end.
Definition north (p : apart) (o : aout) : R := match o with ADone q => a_lat q - a_lat p | _ => 0 end.
(** It moves it horizontally and changes nothing else. *)
Definition moves (p : apart) (o : aout) : Prop :=
  exists q, o = ADone q /\ a_depth q = a_depth p /\ a_time q = a_time p /\ a_dt q = a_dt p /\ a_next q = a_next p.

(** Mean and variance of the two displacements over both increments, drawn one independently of the other. *)
Definition mean2 (Ex Ey : (R -> R) -> R) (f : R -> R -> R) : R := Ex (fun a => Ey (fun b => f a b)).
Definition statistics (Ex Ey : (R -> R) -> R) (p : apart) (kernel : R -> R -> apart -> aout)
  (mx my vx vy : R) : Prop :=
  (forall a b, moves p (kernel a b p)) /\
  mean2 Ex Ey (fun a b => east p (kernel a b p)) = mx /\
  mean2 Ex Ey (fun a b => north p (kernel a b p)) = my /\
  mean2 Ex Ey (fun a b => (east p (kernel a b p) - mx) ^ 2) = vx /\
  mean2 Ex Ey (fun a b => (north p (kernel a b p) - my) ^ 2) = vy /\
  mean2 Ex Ey (fun a b => (east p (kernel a b p) - mx) * (north p (kernel a b p) - my)) = 0.

(** The samples at the particle: velocity (u, v), diffusivities kx and ky, and the diffusivities [dres] away. *)
Definition surroundings (U V Kx Ky : R -> R -> R -> R -> option R) (dres : R) (p : apart)
  (u v kx ky kxp kxm kyp kym : R) : Prop :=
  dres <> 0 /\
  U (a_time p) (a_depth p) (a_lat p) (a_lon p) = Some u /\ V (a_time p) (a_depth p) (a_lat p) (a_lon p) = Some v /\
  Kx (a_time p) (a_depth p) (a_lat p) (a_lon p) = Some kx /\ Ky (a_time p) (a_depth p) (a_lat p) (a_lon p) = Some ky /\
  0 <= kx /\ 0 <= ky /\
  Kx (a_time p) (a_depth p) (a_lat p) (a_lon p + dres) = Some kxp /\ Kx (a_time p) (a_depth p) (a_lat p) (a_lon p - dres) = Some kxm /\
  Ky (a_time p) (a_depth p) (a_lat p + dres) (a_lon p) = Some kyp /\ Ky (a_time p) (a_depth p) (a_lat p - dres) (a_lon p) = Some kym.

(** The slope from both sides. *)
Definition slope (kp km dres : R) : R := (kp - km) / (2 * dres).
