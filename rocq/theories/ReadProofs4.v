(** Proofs for C55: the statements of ReadProps. *)
From Coq Require Import List Arith Bool QArith Lia.
From Verif Require Import ReadModel ReadSpec ReadProofs ReadProofs2 ReadProofs3.
Import ListNotations.
Open Scope nat_scope.

Lemma array_at g l (tr : bool) vmin vmax a : fits l g -> dims a = turn tr (shape_of l (g_t g) (g_z g) (g_y g) (g_x g)) ->
  exists d, init_data g tr vmin vmax false a = Some d /\ dims d = data_shape g /\
    (forall t z y x, is_node g t z y x -> kept vmin vmax (get a (turn tr (place_of l t z (row g y) x))) (node g d t z y x)).
Proof.
  intros F D. assert (D' : dims (if tr then transpose a else a) = shape_of l (g_t g) (g_z g) (g_y g) (g_x g)).
  { destruct tr; cbn in *; rewrite D; [apply rev_involutive|reflexivity]. }
  destruct (init_at g l tr vmin vmax a F D') as (d & E & DD & N). exists d. split; [exact E|]. split; [exact DD|]. intros t z y x I.
  specialize (N t z y x I). destruct tr; exact N.
Qed.
Lemma array_added_at g l (tr : bool) vmin vmax a : fits l g -> dims a = turn tr (shape_of l (g_t g) (g_z g) (g_y g) (g_x g)) -> 0 < g_t g ->
  exists d, init_data g tr vmin vmax true a = Some d /\ dims d = data_shape (one_more g) /\
    (forall t z y x, is_node (one_more g) t z y x ->
       kept vmin vmax (get a (turn tr (place_of l (if t =? g_t g then 0 else t) z (row g y) x))) (node g d t z y x)).
Proof.
  intros F D P. assert (D' : dims (if tr then transpose a else a) = shape_of l (g_t g) (g_z g) (g_y g) (g_x g)).
  { destruct tr; cbn in *; rewrite D; [apply rev_involutive|reflexivity]. }
  destruct (init_added_at g l tr vmin vmax a F D' P) as (d & E & DD & N). exists d. split; [exact E|]. split; [exact DD|]. intros t z y x I.
  specialize (N t z y x I). destruct tr; exact N.
Qed.

Lemma deferred_kept s g vmin vmax factor fs src other : grid_for g s -> g_t g = 2 -> reads s fs src ->
  (forall j, dims (other j) = [1; length (i_depth s); length (i_lat s); length (i_lon s)]) ->
  (factor = None \/ (vmin = None /\ vmax = None /\ exists f, factor = Some f /\ ~ (f == 0)%Q)) ->
  forall l j k, j + 1 < length (frames fs) -> reaches (length (frames fs)) j l k ->
  exists d, deferred g s vmin vmax factor src other j l = Some (k, d) /\ k + 1 < length (frames fs) /\ dims d = data_shape g /\
    forall t z y x lo a i, is_node g t z y x -> nth_error (frames fs) (k + t) = Some (lo, a, i) ->
      kept_scaled factor vmin vmax (in_file s lo a i z (row g y) x) (node g d t z y x).
Proof.
  intros GF GT R O H l j k L RE. destruct (deferred_at s g vmin vmax factor fs src other GF GT R O l j k L RE) as (d & E & LK & DD & N).
  exists d. split; [exact E|]. split; [exact LK|]. split; [exact DD|]. intros t z y x lo a i I F. rewrite (N t z y x lo a i I F). apply rescale_kept. exact H.
Qed.

(** The other way to read the files: any factor and limits. *)
Lemma same_both_ways s g g' vmin vmax factor fs src other : grid_for g s -> g_t g = 2 -> g_t g' = length (frames fs) ->
  g_z g' = g_z g -> g_y g' = g_y g -> g_x g' = g_x g -> g_flipped g' = g_flipped g ->
  reads s fs src -> series_ok s fs ->
  (forall j, dims (other j) = [1; length (i_depth s); length (i_lat s); length (i_lon s)]) ->
  (factor = None \/ (vmin = None /\ vmax = None /\ exists f, factor = Some f /\ ~ (f == 0)%Q)) ->
  forall l j k, j + 1 < length (frames fs) -> reaches (length (frames fs)) j l k ->
  exists d e, deferred g s vmin vmax factor src other j l = Some (k, d) /\ immediate g' s vmin vmax factor false (files_of fs) = Some e /\
    forall t z y x, is_node g t z y x -> node g d t z y x = node g' e (k + t) z y x.
Proof.
  intros GF GT GT' EZ EY EX EF R SO O H l j k L RE.
  destruct (deferred_kept s g vmin vmax factor fs src other GF GT R O H l j k L RE) as (d & E & LK & DD & N).
  assert (GF' : grid_for g' s) by (unfold grid_for in *; rewrite EZ, EY, EX; exact GF).
  assert (D1 : 0 < length (i_depth s)) by (destruct GF as (Q1 & _ & _ & P & _); lia).
  destruct (immediate_at s D1 g' vmin vmax factor fs SO GF' GT') as (e & E' & DD' & N').
  exists d, e. split; [exact E|]. split; [exact E'|]. intros t z y x I. destruct I as (T & Z0 & Y & X).
  destruct (nth_error (frames fs) (k + t)) as [[[lo a] i]|] eqn:F; [|apply nth_error_None in F; lia].
  assert (RR : row g' y = row g y) by (unfold row; rewrite EF, EY; reflexivity).
  apply (kept_scaled_unique factor vmin vmax (in_file s lo a i z (row g y) x)).
  - apply N; [|exact F]. repeat split; assumption.
  - rewrite <- RR. apply N'; [|exact F]. repeat split; rewrite ?EZ, ?EY, ?EX; try assumption. lia.
Qed.

Lemma flip_orders lon lat : lat <> [] -> let c := Lines lon lat in
  (grid_lat c 0 0 <= grid_lat c (length lat - 1) 0)%Q.
Proof.
  intros NE c. unfold c, grid_lat, flipped. destruct lat as [|l0 r]; [contradiction|].
  destruct (Nat.ltb_spec 1 (length (l0 :: r))) as [L|L]; cbn [andb].
  2:{ cbn in L. destruct r; [|cbn in L; lia]. cbn. apply Qle_refl. }
  assert (LA : nth (length (l0 :: r) - 1) (l0 :: r) 0%Q = last (l0 :: r) 0%Q).
  { clear. induction r as [|b r IH] using rev_ind; [reflexivity|]. rewrite app_comm_cons, last_last, app_length.
    rewrite app_nth2 by (cbn; lia). replace (length (l0 :: r) + length [b] - 1 - length (l0 :: r)) with 0 by (cbn [length]; lia). reflexivity. }
  destruct (Qle_bool l0 (last (l0 :: r) 0%Q)) eqn:E; cbn [negb].
  - apply Qle_bool_iff in E. rewrite LA. exact E.
  - assert (GT : (last (l0 :: r) 0%Q <= l0)%Q).
    { destruct (Qlt_le_dec l0 (last (l0 :: r) 0%Q)) as [Q1|Q1]; [|exact Q1]. apply Qlt_le_weak, Qle_bool_iff in Q1. rewrite Q1 in E. discriminate. }
    rewrite !rev_nth by (cbn [length]; lia).
    replace (length (l0 :: r) - 1) with (length (l0 :: r) - 1) by reflexivity. rewrite LA.
    replace (length (l0 :: r) - S (length (l0 :: r) - 1)) with 0 by (cbn [length]; lia). exact GT.
Qed.

(** What is accepted. *)
Lemma accepted_shape {A : Type} g (tr : bool) (a d : arr A) : reshape g tr a = Some d ->
  dims d = [g_t g; g_z g; g_y g; g_x g] \/ dims d = [g_t g; g_y g; g_x g].
Proof.
  unfold reshape. intros H.
  destruct (g_flipped g && _); [discriminate|].
  match type of H with match ?o with _ => _ end = _ => destruct o as [b|]; [|discriminate] end.
  destruct (ndim b =? 4).
  - unfold same in H. destruct (list_eq_dec _ _ _) as [E|]; [|discriminate]. injection H as <-. left. exact E.
  - unfold same in H. destruct (list_eq_dec _ _ _) as [E|]; [|discriminate]. injection H as <-. right. exact E.
Qed.
