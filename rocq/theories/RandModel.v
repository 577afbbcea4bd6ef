(** Model of the random numbers, over the real numbers.

    Source: parcels/include/random.h 14-107 (ParcelsRandom calls these functions in Scipy mode, rng.py 131-182; the
    generated C code in JIT mode, codegenerator.py 167-182).

    Numbers are real: the rounding of float arithmetic is not modelled ((float)RAND_MAX is RAND_MAX, so that
    2 * rand() / RAND_MAX - 1 is never 0).  The C library's rand() is a step [rnd] of a generator with a state [G], which
    srand sets; all that is known of it is that it gives integers from 0 to RAND_MAX. *)
From Coq Require Import Reals ZArith Lra.
Open Scope R_scope.

(** C's fmod for a positive second argument: truncation towards zero. *)
Definition truncR (x : R) : R := if Rle_dec 0 x then IZR (Int_part x) else - IZR (Int_part (- x)).
Definition fmod (x y : R) : R := x - truncR (x / y) * y.

Section Random.
Variable G : Type.
Variable rnd : G -> Z * G.
Variable RAND_MAX : Z.

Definition RM : R := IZR RAND_MAX.

(** parcels_random, 19-22 *)
Definition random (g : G) : R * G := let '(r, g) := rnd g in (IZR r / RM, g).

(** parcels_uniform, 24-27.  With high = low the divisor is infinite and the result is low. *)
Definition uniform (low high : R) (g : G) : R * G :=
  let '(r, g) := rnd g in
  (if Req_EM_T high low then low else IZR r / (RM / (high - low)) + low, g).

(** parcels_randint, 29-32.  With high = low the remainder is undefined (the process is killed on most machines). *)
Definition randint (low high : Z) (g : G) : option (Z * G) :=
  if (high - low =? 0)%Z then None else
  let '(r, g) := rnd g in Some ((Z.rem r (high - low) + low)%Z, g).

(** One turn of the loop of parcels_normalvariate, 43-44: x1 and x2. *)
Definition pair (g : G) : (R * R) * G :=
  let '(r1, g) := rnd g in
  let '(r2, g) := rnd g in
  ((2 * IZR r1 / RM - 1, 2 * IZR r2 / RM - 1), g).
(** The loop, 42-46. *)
Fixpoint polar (fuel : nat) (g : G) : option ((R * R) * G) :=
  match fuel with
  | O => None
  | S n =>
      let '((x1, x2), g) := pair g in
      let w := x1 * x1 + x2 * x2 in
      if Rle_dec 1 w then polar n g else Some ((x1, x2), g)
  end.
(** parcels_normalvariate, 34-51 *)
Definition normalvariate (fuel : nat) (loc scale : R) (g : G) : option (R * G) :=
  match polar fuel g with
  | None => None
  | Some ((x1, x2), g) =>
      let w := x1 * x1 + x2 * x2 in
      let w := sqrt ((-2 * ln w) / w) in
      let y1 := x1 * w in
      Some (loc + y1 * scale, g)
  end.

(** parcels_expovariate, 53-59 *)
Definition expovariate (lamb : R) (g : G) : R * G :=
  let '(r, g) := rnd g in
  let u := IZR r / (RM + 1) in
  (- ln (1 - u) / lamb, g).

(** parcels_vonmisesvariate: the loop, 83-89; gives z. *)
Fixpoint circle (fuel : nat) (r : R) (g : G) : option (R * G) :=
  match fuel with
  | O => None
  | S n =>
      let '(u1, g) := random g in
      let z := cos (PI * u1) in
      let d := z / (r + z) in
      let '(u2, g) := random g in
      if Rle_dec (1 - d * d) u2 then
        if Rlt_dec ((1 - d) * exp d) u2 then circle n r g else Some (z, g)
      else Some (z, g)
  end.
(** FLT_EPSILON *)
Definition flt_epsilon : R := / 8388608.
(** 61-107 *)
Definition vonmisesvariate (fuel : nat) (mu kappa : R) (g : G) : option (R * G) :=
  if Rle_dec kappa (1 / 1000000) then let '(u, g) := random g in Some (2 * PI * u, g) else
  let s := 1 / 2 / kappa in
  if Rle_dec (Rabs s) (flt_epsilon * Rabs s) then Some (mu, g) else
  let r := s + sqrt (1 + s * s) in
  match circle fuel r g with
  | None => None
  | Some (z, g) =>
      let q := 1 / r in
      let f := (q + z) / (1 + q * z) in
      let '(u3, g) := random g in
      let theta := if Rlt_dec (1 / 2) u3 then fmod (mu + acos f) (2 * PI) else fmod (mu - acos f) (2 * PI) in
      let theta := if Rlt_dec theta 0 then 2 * PI + theta else theta in
      Some (theta, g)
  end.
End Random.
