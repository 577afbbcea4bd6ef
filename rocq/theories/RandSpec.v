(** Vocabulary for C45: random numbers. *)
From Coq Require Import Reals ZArith List.
From Verif Require Import RandModel.
Import ListNotations.
Open Scope R_scope.

(** What the C standard says of rand(). *)
Definition rand_ok {G} (rnd : G -> Z * G) (RAND_MAX : Z) : Prop :=
  (0 < RAND_MAX)%Z /\ forall g, (0 <= fst (rnd g) <= RAND_MAX)%Z.

(** The same generator with the numbers turned over: r becomes RAND_MAX - r. *)
Definition turned {G} (rnd : G -> Z * G) (RAND_MAX : Z) (g : G) : Z * G :=
  let '(r, g) := rnd g in ((RAND_MAX - r)%Z, g).

(** The generator that gives [r] and stops. *)
Definition only (r : Z) (g : unit) : Z * unit := (r, g).

(** All numbers that rand() can give. *)
Definition all_rand (RAND_MAX : Z) : list Z := map Z.of_nat (seq 0 (Z.to_nat (RAND_MAX + 1))).
(** randint (low, high) gives [v] when rand() gives [r]. *)
Definition gives (low high v : Z) (r : Z) : bool :=
  match randint unit (only r) low high tt with Some (x, _) => Z.eqb x v | None => false end.

(** Best and Fisher's parameter of the concentration. *)
Definition sharp (kappa : R) : R := 1 / 2 / kappa + sqrt (1 + 1 / 2 / kappa * (1 / 2 / kappa)).
