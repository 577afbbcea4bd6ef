(** C45: random numbers. *)
From Coq Require Import Reals ZArith List.
From Verif Require Import RandModel RandSpec RandProofs.
Import ListNotations.
Open Scope R_scope.

(** C45, uniform numbers: between the two ends in whatever order they are given, and below [t] for the share of the
    numbers of rand() that lie below that share of RAND_MAX. *)
Theorem uniform_within : forall G (rnd : G -> Z * G) M, rand_ok rnd M -> forall low high g,
  0 <= fst (random G rnd M g) <= 1 /\ Rmin low high <= fst (uniform G rnd M low high g) <= Rmax low high.
Proof. exact (fun G rnd M ok low high g => conj (random_in G rnd M ok g) (uniform_in G rnd M ok low high g)). Qed.
Print Assumptions uniform_within.

Theorem uniform_distribution : forall G (rnd : G -> Z * G) M, rand_ok rnd M -> forall low high g t, low < high ->
  (fst (uniform G rnd M low high g) <= t <-> IZR (fst (rnd g)) <= (t - low) / (high - low) * IZR M).
Proof. exact uniform_below. Qed.
Print Assumptions uniform_distribution.

(** C45, integers: from low up to and without high, each as often as the others, but for one. *)
Theorem randint_within : forall G (rnd : G -> Z * G) M, rand_ok rnd M -> forall low high g, (low < high)%Z ->
  exists v g', randint G rnd low high g = Some (v, g') /\ (low <= v < high)%Z /\ (v - low = fst (rnd g) mod (high - low))%Z.
Proof. exact randint_in. Qed.
Print Assumptions randint_within.

Theorem randint_even : forall M low high v, (0 < M)%Z -> (low <= v < high)%Z ->
  let c := Z.of_nat (length (filter (gives low high v) (all_rand M))) in
  ((c - 1) * (high - low) < M + 1 < (c + 1) * (high - low))%Z.
Proof. exact randint_even_closed. Qed.
Print Assumptions randint_even.

(** The documentation says "between low and high": with the ends the other way round the numbers are above both. *)
Theorem randint_swapped_refuted : randint unit (only 3) 5 0 tt = Some (8%Z, tt).
Proof. exact swapped. Qed.
Print Assumptions randint_swapped_refuted.

(** C45, normal numbers: as far above loc as below it when the numbers of rand() are turned over. *)
Theorem normal_symmetric : forall G (rnd : G -> Z * G) M, rand_ok rnd M -> forall fuel loc scale g v g',
  normalvariate G rnd M fuel loc scale g = Some (v, g') ->
  normalvariate G (turned rnd M) M fuel loc scale g = Some (2 * loc - v, g').
Proof. exact normal_turned. Qed.
Print Assumptions normal_symmetric.

(** The number is loc + scale * y1 for the pair (y1, y2) of the polar method: in the direction of the accepted point
    (x1, x2) of the unit disc, at a distance d with exp (-d^2/2) = x1^2 + x2^2. *)
Theorem normal_polar_method : forall G (rnd : G -> Z * G) M, rand_ok rnd M -> forall fuel loc scale g v g', Z.Odd M ->
  normalvariate G rnd M fuel loc scale g = Some (v, g') ->
  exists x1 x2 y1 y2 k, polar G rnd M fuel g = Some ((x1, x2), g') /\
    2 / (IZR M * IZR M) <= x1 * x1 + x2 * x2 < 1 /\
    v = loc + scale * y1 /\ 0 < k /\ y1 = k * x1 /\ y2 = k * x2 /\ exp (- (y1 * y1 + y2 * y2) / 2) = x1 * x1 + x2 * x2.
Proof. exact normal_polar. Qed.
Print Assumptions normal_polar_method.

(** Hence no number is further from loc than sqrt (2 ln (RAND_MAX^2 / 2)) times scale. *)
Theorem normal_bounded : forall G (rnd : G -> Z * G) M, rand_ok rnd M -> forall fuel loc scale g v g', Z.Odd M ->
  normalvariate G rnd M fuel loc scale g = Some (v, g') ->
  (v - loc) * (v - loc) <= scale * scale * (2 * ln (IZR M * IZR M / 2)).
Proof. exact normal_bound. Qed.
Print Assumptions normal_bounded.

Example normal_case : rand_ok lcg 2147483647 /\ Z.Odd 2147483647 /\
  exists v g', normalvariate Z lcg 2147483647 1 0 1 1073741824%Z = Some (v, g').
Proof. exact (conj lcg_ok (conj odd_max lcg_accepts)). Qed.

(** C45, exponential numbers: defined, not negative, bounded, and below [t] for a share 1 - exp (-lamb t) of the
    numbers of rand(). *)
Theorem exponential_within : forall G (rnd : G -> Z * G) M, rand_ok rnd M -> forall lamb g, 0 < lamb ->
  0 <= fst (expovariate G rnd M lamb g) <= ln (IZR M + 1) / lamb.
Proof. exact expo_in. Qed.
Print Assumptions exponential_within.

Theorem exponential_distribution : forall G (rnd : G -> Z * G) M, rand_ok rnd M -> forall lamb g t, 0 < lamb ->
  (fst (expovariate G rnd M lamb g) <= t <-> IZR (fst (rnd g)) <= (1 - exp (- lamb * t)) * (IZR M + 1)).
Proof. exact expo_below. Qed.
Print Assumptions exponential_distribution.

(** C45, angles: from 0 to 2 pi, on the side of mu that the last number decides, at an angle from mu whose cosine is
    that of Best and Fisher's method. *)
Theorem mises_within : forall G (rnd : G -> Z * G) M, rand_ok rnd M -> forall fuel mu kappa g v g',
  vonmisesvariate G rnd M fuel mu kappa g = Some (v, g') -> 0 <= v <= 2 * PI.
Proof. exact mises_in. Qed.
Print Assumptions mises_within.

Theorem mises_angle : forall G (rnd : G -> Z * G) M, forall fuel mu kappa g v g', 1 / 1000000 < kappa ->
  vonmisesvariate G rnd M fuel mu kappa g = Some (v, g') ->
  exists z g1 a (k : Z), circle G rnd M fuel (sharp kappa) g = Some (z, g1) /\
    0 <= a <= PI /\ cos a = (1 + sharp kappa * z) / (sharp kappa + z) /\
    (let '(u3, g2) := random G rnd M g1 in g' = g2 /\ v = (if Rlt_dec (1 / 2) u3 then mu + a else mu - a) - IZR k * (2 * PI)) /\
    cos (v - mu) = cos a.
Proof. exact mises_cos. Qed.
Print Assumptions mises_angle.

Example mises_case : exists v g', vonmisesvariate Z lcg 2147483647 1 1 2 0%Z = Some (v, g').
Proof. exact lcg_circle. Qed.
