(** Proofs about the search on curvilinear grids: positions that are found. *)
From Coq Require Import List ZArith Bool QArith Reals Lia Lra Psatz ZifyBool.
From Verif Require Import CurvModel CurvSpec CurvProofs.
Import ListNotations.
Open Scope R_scope.

Lemma in_nodes : forall g j i, (0 <= j < v_ydim g)%Z -> (0 <= i < v_xdim g)%Z -> In (j, i) (nodes g).
Proof.
  intros g j i Hj Hi. unfold nodes. apply in_flat_map. exists (Z.to_nat j). split; [apply in_seq; lia|].
  apply in_map_iff. exists (Z.to_nat i). split; [f_equal; lia|apply in_seq; lia].
Qed.
Lemma fold_min_le : forall (f : Z -> Z -> R) l r, fold_left (fun r ji => Rmin r (f (fst ji) (snd ji))) l r <= r /\
  forall j i, In (j, i) l -> fold_left (fun r ji => Rmin r (f (fst ji) (snd ji))) l r <= f j i.
Proof.
  intros f l. induction l as [|[j0 i0] l IH]; intros r; cbn [fold_left]; [split; [lra|intros j i []]|].
  destruct (IH (Rmin r (f (fst (j0, i0)) (snd (j0, i0))))) as [H1 H2]. cbn [fst snd] in *. split.
  - pose proof (Rmin_l r (f j0 i0)). lra.
  - intros j i [E|E]; [injection E as <- <-; pose proof (Rmin_r r (f j0 i0)); lra|apply H2; exact E].
Qed.
Lemma fold_max_ge : forall (f : Z -> Z -> R) l r, r <= fold_left (fun r ji => Rmax r (f (fst ji) (snd ji))) l r /\
  forall j i, In (j, i) l -> f j i <= fold_left (fun r ji => Rmax r (f (fst ji) (snd ji))) l r.
Proof.
  intros f l. induction l as [|[j0 i0] l IH]; intros r; cbn [fold_left]; [split; [lra|intros j i []]|].
  destruct (IH (Rmax r (f (fst (j0, i0)) (snd (j0, i0))))) as [H1 H2]. cbn [fst snd] in *. split.
  - pose proof (Rmax_l r (f j0 i0)). lra.
  - intros j i [E|E]; [injection E as <- <-; pose proof (Rmax_r r (f j0 i0)); lra|apply H2; exact E].
Qed.
Lemma all_min_le : forall g f j i, (0 <= j < v_ydim g)%Z -> (0 <= i < v_xdim g)%Z -> all_min g f <= f j i.
Proof. intros g f j i Hj Hi. apply fold_min_le. apply in_nodes; assumption. Qed.
Lemma all_max_ge : forall g f j i, (0 <= j < v_ydim g)%Z -> (0 <= i < v_xdim g)%Z -> f j i <= all_max g f.
Proof. intros g f j i Hj Hi. apply fold_max_ge. apply in_nodes; assumption. Qed.

(** * A cell is convex *)
Lemma conv_le : forall lo a b s, 0 <= s <= 1 -> lo <= a -> lo <= b -> lo <= (1 - s) * a + s * b.
Proof. intros lo a b s S A B. assert (0 <= (1 - s) * (a - lo)) by (apply Rmult_le_pos; lra). assert (0 <= s * (b - lo)) by (apply Rmult_le_pos; lra). lra. Qed.
Lemma conv_ge : forall hi a b s, 0 <= s <= 1 -> a <= hi -> b <= hi -> (1 - s) * a + s * b <= hi.
Proof. intros hi a b s S A B. pose proof (conv_le (- hi) (- a) (- b) s S ltac:(lra) ltac:(lra)). lra. Qed.
Lemma bil_conv : forall p0 p1 p2 p3 s t, bil (p0, p1, p2, p3) s t = (1 - t) * ((1 - s) * p0 + s * p1) + t * ((1 - s) * p3 + s * p2).
Proof. intros. unfold bil. ring. Qed.
Lemma bil_between : forall lo hi p0 p1 p2 p3 s t, unit_ s -> unit_ t ->
  lo <= p0 <= hi -> lo <= p1 <= hi -> lo <= p2 <= hi -> lo <= p3 <= hi -> lo <= bil (p0, p1, p2, p3) s t <= hi.
Proof.
  intros lo hi p0 p1 p2 p3 s t S T H0 H1 H2 H3. rewrite bil_conv. unfold unit_ in *.
  split; [apply conv_le; [exact T| |]; apply conv_le; tauto|apply conv_ge; [exact T| |]; apply conv_ge; tauto].
Qed.
Lemma cell_between : forall g f j i s t, is_cell g j i -> unit_ s -> unit_ t ->
  all_min g f <= bil (cell f j i) s t <= all_max g f.
Proof.
  intros g f j i s t (H1 & H2 & H3 & H4) S T. unfold cell.
  apply bil_between; try assumption; (split; [apply all_min_le; lia|apply all_max_ge; lia]).
Qed.

(** * The longitudes the code works with are those of the cell around the position *)
Lemma turns_same : forall p q r, turns p q -> turns p r -> Rabs (q - r) < 360 -> q = r.
Proof.
  intros p q r [k ->] [l ->] H.
  replace (p + 360 * IZR k - (p + 360 * IZR l)) with (360 * IZR (k - l)) in H by (rewrite minus_IZR; ring).
  assert (k - l = 0)%Z.
  { apply Rabs_def2 in H as [Ha Hb]. assert (IZR (k - l) < 1) by lra. assert (-1 < IZR (k - l)) by lra.
    apply (lt_IZR _ 1) in H. apply (lt_IZR (-1)) in H0. lia. }
  replace k with l by lia. reflexivity.
Qed.
Lemma Rabs_split : forall r h, Rabs r <= h <-> - h <= r <= h.
Proof. intros r h. split; [intros H; unfold Rabs in H; destruct (Rcase_abs r); lra|apply Rabs_le]. Qed.
Lemma Rabs_split_lt : forall r h, Rabs r < h <-> - h < r < h.
Proof. intros r h. split; [intros H; apply Rabs_def2 in H; lra|intros H; apply Rabs_def1; lra]. Qed.

Lemma bil_within : forall h p0 p1 p2 p3 s t, unit_ s -> unit_ t ->
  Rabs (p1 - p0) < h -> Rabs (p2 - p0) < h -> Rabs (p3 - p0) < h -> Rabs (bil (p0, p1, p2, p3) s t - p0) < h.
Proof.
  intros h p0 p1 p2 p3 s t S T H1 H2 H3.
  set (k := Rmax (Rabs (p1 - p0)) (Rmax (Rabs (p2 - p0)) (Rabs (p3 - p0)))).
  assert (K : k < h) by (unfold k; repeat apply Rmax_lub_lt; assumption).
  assert (K1 : Rabs (p1 - p0) <= k) by apply Rmax_l.
  assert (K2 : Rabs (p2 - p0) <= k) by (eapply Rle_trans; [apply Rmax_l|apply Rmax_r]).
  assert (K3 : Rabs (p3 - p0) <= k) by (eapply Rle_trans; [apply Rmax_r|apply Rmax_r]).
  clearbody k. assert (K0 : 0 <= k) by (pose proof (Rabs_pos (p1 - p0)); lra).
  apply Rabs_split in K1, K2, K3.
  pose proof (bil_between (p0 - k) (p0 + k) p0 p1 p2 p3 s t S T ltac:(lra) ltac:(lra) ltac:(lra) ltac:(lra)).
  apply Rabs_split_lt. lra.
Qed.

Lemma near_is : forall m g x j i q s t, is_cell g j i -> same_turn g x -> unrolled g j i q -> narrow_cell g q ->
  bil q s t = x -> unit_ s -> unit_ t -> near_quad m g x (cell (v_lon g) j i) = q.
Proof.
  intros m g x j i q s t (H1 & H2 & H3 & H4) W U N E S T. unfold unrolled, narrow_cell, near_quad, same_turn in *.
  destruct (v_spherical g); [|symmetry; exact U].
  destruct (W eq_refl) as (w & Hx & Hw). unfold cell in *. destruct q as [[[q0 q1] q2] q3].
  destruct U as (T0 & T1 & T2 & T3 & _). destruct (N eq_refl) as (N1 & N2 & N3).
  pose proof (Hw j i ltac:(lia) ltac:(lia)) as P0. pose proof (Hw j (i + 1)%Z ltac:(lia) ltac:(lia)) as P1.
  pose proof (Hw (j + 1)%Z (i + 1)%Z ltac:(lia) ltac:(lia)) as P2. pose proof (Hw (j + 1)%Z i ltac:(lia) ltac:(lia)) as P3.
  pose proof (bil_within 135 q0 q1 q2 q3 s t S T N1 N2 N3) as D. rewrite E in D. apply Rabs_split_lt in D.
  assert (R0 : Rabs (near0 x (v_lon g j i) - x) <= 225) by (apply near0_range; apply Rabs_split; lra).
  apply Rabs_split in R0.
  assert (E0 : near0 x (v_lon g j i) = q0).
  { eapply turns_same; [apply near0_turns|exact T0|]. apply Rabs_split_lt. lra. }
  cbv zeta. 
  assert (G : forall p q', w <= p <= w + 360 -> turns p q' -> Rabs (q' - q0) < 135 -> near1 m q0 p = q').
  { intros p q' P TQ NQ. eapply turns_same; [apply near1_turns|exact TQ|].
    assert (R : Rabs (near1 m q0 p - q0) <= 180).
    { apply near1_range. rewrite <- E0. apply (near_window w); assumption. }
    apply Rabs_split in R. apply Rabs_split_lt in NQ. apply Rabs_split_lt. lra. }
  rewrite E0. rewrite (G _ q1 P1 T1 N1), (G _ q2 P2 T2 N2), (G _ q3 P3 T3 N3). reflexivity.
Qed.

Lemma not_outside : forall g x y j i q s t, is_cell g j i -> lon_range g x -> point_of g j i q x y s t -> unit_ s -> unit_ t ->
  curv_outside g x y = false.
Proof.
  intros g x y j i q s t IC L (U & Ex & Ey) S T. unfold curv_outside. cbv zeta.
  pose proof (cell_between g (v_lat g) j i s t IC S T) as BY. rewrite Ey in BY.
  replace (rlt y (all_min g (v_lat g))) with false by (symmetry; apply rlt_false; tauto).
  replace (rlt (all_max g (v_lat g)) y) with false by (symmetry; apply rlt_false; tauto).
  rewrite !orb_false_r. destruct L as [L|[L|[(a & b & c & d & Ha & Hb & Hc & Hd & HL)|(HL1 & HL2)]]].
  - unfold unrolled in U. rewrite L in U. subst q. pose proof (cell_between g (v_lon g) j i s t IC S T) as BX. rewrite Ex in BX.
    replace (rlt x (all_min g (v_lon g))) with false by (symmetry; apply rlt_false; tauto).
    replace (rlt (all_max g (v_lon g)) x) with false by (symmetry; apply rlt_false; tauto).
    rewrite andb_false_r. reflexivity.
  - rewrite L. reflexivity.
  - pose proof (all_min_le g (v_lon g) a b Ha Hb). pose proof (all_max_ge g (v_lon g) c d Hc Hd).
    replace (rlt x (all_min g (v_lon g))) with false by (symmetry; apply rlt_false; lra).
    replace (rlt (all_max g (v_lon g)) x) with false by (symmetry; apply rlt_false; lra).
    rewrite andb_false_r. reflexivity.
  - replace (rlt (v_lon g 0 0) (v_lon g 0 (v_xdim g - 1))) with false by (symmetry; apply rlt_false; lra).
    replace (rlt x (v_lon g 0 0) && rlt (v_lon g 0 (v_xdim g - 1)) x) with false.
    + rewrite andb_false_r. reflexivity.
    + symmetry. apply andb_false_iff. destruct HL2; [right|left]; apply rlt_false; lra.
Qed.

Lemma max_iter_S : max_iter = S (Z.to_nat 999999).
Proof. unfold max_iter. rewrite <- Z2Nat.inj_succ by lia. apply (f_equal Z.to_nat). reflexivity. Qed.

(** One pass in a cell of the grid. *)
Lemma loop_step : forall m g x y k eta0 xi yi s t i' j', is_cell g yi xi -> local m g x y eta0 xi yi = HFound s t i' j' ->
  curv_loop m g x y (S k) eta0 xi yi =
    if rlt s 0 && rlt t 0 && (xi =? 0)%Z && (yi =? 0)%Z then HOut
    else if off s t then
      let '(xi', yi') := reconnect (sphere_flag m g) (v_xdim g) (v_ydim g) (move s xi) (move t yi) in
      curv_loop m g x y k t xi' yi'
    else HFound (clamp s) (clamp t) xi yi.
Proof.
  intros m g x y k eta0 xi yi s t i' j' (H1 & H2 & H3 & H4) E. cbn [curv_loop]. rewrite E.
  destruct (rlt s 0 && rlt t 0 && (xi =? 0)%Z && (yi =? 0)%Z); [reflexivity|].
  replace (xi =? v_xdim g - 1)%Z with false by lia. rewrite andb_false_r. cbn [andb].
  destruct (off s t) eqn:O; [reflexivity|].
  apply off_false in O as [O1 O2]. rewrite !move_stay by assumption. rewrite reconnect_id by assumption. reflexivity.
Qed.

Theorem curv_start : forall m g x y j i q s t, is_cell g j i -> same_turn g x -> lon_range g x ->
  point_of g j i q x y s t -> unit_ s -> unit_ t -> narrow_cell g q ->
  0 < area q (cell (v_lat g) j i) s t -> sides_ok q (cell (v_lat g) j i) -> / 10 ^ 12 <= Rabs (along_s q t) ->
  curv_search m g x y i j = HFound s t i j.
Proof.
  intros m g x y j i q s t IC W L P S T N A SO WD. pose proof P as (U & Ex & Ey). unfold curv_search.
  rewrite (not_outside g x y j i q s t IC L P S T). rewrite max_iter_S.
  assert (LO : local m g x y (-1) i j = HFound s t i j).
  { unfold local. rewrite !corners_in by exact IC. cbv zeta. rewrite (near_is m g x j i q s t IC W U N Ex S T).
    rewrite (new_eta_exact m q _ x y s t (-1) Ex Ey A SO).
    destruct (new_xsi_some q (cell (v_lat g) j i) x y t WD) as [s' E]. rewrite E.
    pose proof (new_xsi_lon _ _ _ _ _ _ WD E) as X. rewrite <- Ex in X. apply bil_inj_s in X.
    - subst s'. reflexivity.
    - intros Z. rewrite Z, Rabs_R0 in WD. lra. }
  rewrite (loop_step m g x y _ (-1) i j s t i j IC LO). unfold unit_ in *.
  replace (rlt s 0) with false by (symmetry; apply rlt_false; lra). cbn [andb].
  pose proof tol_pos. rewrite on_off by lra. rewrite !clamp_id by lra. reflexivity.
Qed.

(** * Affine images of rectangular grids *)
Lemma mono_le : forall n u i k, mono n u -> (0 <= i)%Z -> (i + Z.of_nat k < n)%Z -> u i <= u (i + Z.of_nat k)%Z.
Proof.
  intros n u i k M H0 H1. induction k as [|k IH]; [replace (i + Z.of_nat 0)%Z with i by lia; lra|].
  specialize (IH ltac:(lia)). pose proof (M (i + Z.of_nat k)%Z ltac:(lia) ltac:(lia)) as L.
  replace (i + Z.of_nat (S k))%Z with (i + Z.of_nat k + 1)%Z by lia. lra.
Qed.
Lemma mono_le' : forall n u i j, mono n u -> (0 <= i <= j)%Z -> (j < n)%Z -> u i <= u j.
Proof.
  intros n u i j M H0 H1. pose proof (mono_le n u i (Z.to_nat (j - i)) M ltac:(lia) ltac:(lia)) as L.
  replace (i + Z.of_nat (Z.to_nat (j - i)))%Z with j in L by lia. exact L.
Qed.
Lemma find_cell : forall n u U, mono n u -> (2 <= n)%Z -> between n u U ->
  exists i, (0 <= i)%Z /\ (i + 1 < n)%Z /\ u i <= U <= u (i + 1)%Z.
Proof.
  intros n u U M Hn [B1 B2].
  assert (G : forall k, (1 <= Z.of_nat k < n)%Z -> U <= u (Z.of_nat k) -> exists i, (0 <= i)%Z /\ (i + 1 < n)%Z /\ u i <= U <= u (i + 1)%Z).
  { induction k as [|k IH]; intros Hk HU; [lia|].
    destruct (Rle_dec U (u (Z.of_nat k))) as [C|C].
    - destruct (Z.eq_dec (Z.of_nat k) 0) as [Z0|Z0].
      + exists 0%Z. rewrite Z0 in C. replace (Z.of_nat (S k)) with 1%Z in HU by lia. split; [lia|]. split; [lia|]. cbn. lra.
      + apply IH; [lia|exact C].
    - exists (Z.of_nat k). split; [lia|]. split; [lia|]. replace (Z.of_nat k + 1)%Z with (Z.of_nat (S k)) by lia. lra. }
  apply (G (Z.to_nat (n - 1))); [lia|]. replace (Z.of_nat (Z.to_nat (n - 1))) with (n - 1)%Z by lia. exact B2.
Qed.

Definition rel (u : Z -> R) (i : Z) (U : R) : R := (U - u i) / (u (i + 1)%Z - u i).
Lemma rel_eq : forall n u i U, mono n u -> (0 <= i)%Z -> (i + 1 < n)%Z -> U = u i + rel u i U * (u (i + 1)%Z - u i).
Proof. intros n u i U M H0 H1. pose proof (M i H0 H1). unfold rel. field. lra. Qed.

Lemma near_id : forall m g x j i, is_cell g j i -> half_turn g x -> near_quad m g x (cell (v_lon g) j i) = cell (v_lon g) j i.
Proof.
  intros m g x j i (H1 & H2 & H3 & H4) W. unfold near_quad, half_turn in *. destruct (v_spherical g); [|reflexivity].
  destruct (W eq_refl) as (w & Hx & Hw). unfold cell.
  pose proof (Hw j i ltac:(lia) ltac:(lia)) as P0. pose proof (Hw j (i + 1)%Z ltac:(lia) ltac:(lia)) as P1.
  pose proof (Hw (j + 1)%Z (i + 1)%Z ltac:(lia) ltac:(lia)) as P2. pose proof (Hw (j + 1)%Z i ltac:(lia) ltac:(lia)) as P3.
  assert (E0 : near0 x (v_lon g j i) = v_lon g j i) by (unfold near0; cbv zeta; rb; lra).
  cbv zeta. rewrite E0.
  assert (G : forall p q, w <= p <= w + 180 -> w <= q <= w + 180 -> near1 m p q = q).
  { intros p q Hp Hq. destruct m; unfold near1; cbv zeta; rb; lra. }
  rewrite !G by assumption. reflexivity.
Qed.

Section Lattice.
Variables (m : mode) (g : curv) (A : affine) (u v : Z -> R) (U V : R).
Hypothesis LA : lattice g A u v.
Hypothesis HT : half_turn g (to_x A U V).
Let x := to_x A U V.
Let y := to_y A U V.

Lemma lat_quads : forall j i, is_cell g j i ->
  cell (v_lon g) j i = (to_x A (u i) (v j), to_x A (u (i + 1)%Z) (v j), to_x A (u (i + 1)%Z) (v (j + 1)%Z), to_x A (u i) (v (j + 1)%Z)) /\
  cell (v_lat g) j i = (to_y A (u i) (v j), to_y A (u (i + 1)%Z) (v j), to_y A (u (i + 1)%Z) (v (j + 1)%Z), to_y A (u i) (v (j + 1)%Z)).
Proof.
  intros j i (H1 & H2 & H3 & H4). destruct LA as (_ & _ & _ & _ & _ & N & _). unfold cell.
  destruct (N j i ltac:(lia) ltac:(lia)) as [-> ->]. destruct (N j (i + 1)%Z ltac:(lia) ltac:(lia)) as [-> ->].
  destruct (N (j + 1)%Z (i + 1)%Z ltac:(lia) ltac:(lia)) as [-> ->]. destruct (N (j + 1)%Z i ltac:(lia) ltac:(lia)) as [-> ->]. split; reflexivity.
Qed.

Lemma lat_eta : forall j i eta0, is_cell g j i ->
  new_eta m (cell (v_lon g) j i) (cell (v_lat g) j i) x y eta0 = Some (rel v j V).
Proof.
  intros j i eta0 IC. destruct (lat_quads j i IC) as [-> ->]. destruct IC as (H1 & H2 & H3 & H4).
  destruct LA as (_ & _ & _ & Mu & Mv & _ & D & _). pose proof (Mu i H1 H2) as Du. pose proof (Mv j H3 H4) as Dv.
  unfold new_eta. cbv zeta.
  match goal with |- context [Rabs ?e] => replace e with 0 end.
  2: { unfold q_aa, c2, c3, to_x, to_y. ring. }
  rewrite Rabs_R0. replace (rlt 0 small) with true by (symmetry; apply rlt_true; apply small_pos).
  match goal with |- context [req ?e 0] => replace e with
    ((m_xu A * m_yv A - m_xv A * m_yu A) * ((u (i + 1)%Z - u i) * (v (j + 1)%Z - v j))) end.
  2: { unfold q_bb, c0, c1, c2, c3, x, y, to_x, to_y. ring. }
  assert (P : 0 < (u (i + 1)%Z - u i) * (v (j + 1)%Z - v j)) by (apply Rmult_lt_0_compat; lra).
  assert (NZ : (m_xu A * m_yv A - m_xv A * m_yu A) * ((u (i + 1)%Z - u i) * (v (j + 1)%Z - v j)) <> 0).
  { apply Rmult_integral_contrapositive_currified; [exact D|lra]. }
  destruct (req _ 0) eqn:G; [apply req_true in G; contradiction|]. f_equal.
  unfold q_cc, c0, c1, x, y, to_x, to_y, rel. field. repeat split; try lra; try exact D.
Qed.

Lemma lat_xsi : forall j i, is_cell g j i ->
  new_xsi (cell (v_lon g) j i) (cell (v_lat g) j i) x y (rel v j V) = Some (rel u i U).
Proof.
  intros j i IC. destruct (lat_quads j i IC) as [-> ->]. destruct IC as (H1 & H2 & H3 & H4).
  destruct LA as (_ & _ & _ & Mu & Mv & _ & D & F). pose proof (Mu i H1 H2) as Du. pose proof (Mv j H3 H4) as Dv.
  unfold new_xsi.
  match goal with |- context [Rabs ?e] => replace e with (m_xu A * (u (i + 1)%Z - u i)) end.
  2: { unfold c1, c3, to_x. ring. }
  destruct F as [F|[F1 F2]].
  - specialize (F i H1 H2). replace (rlt _ small) with false by (symmetry; apply rlt_false; exact F). f_equal.
    assert (NX : m_xu A <> 0). { intros Z. rewrite Z, Rmult_0_l, Rabs_R0 in F. lra. }
    unfold c0, c1, c2, c3, x, y, to_x, to_y, rel. field. repeat split; try lra; try exact NX.
    all: try (intros Z; apply NX; nra).
  - rewrite F1, Rmult_0_l, Rabs_R0. replace (rlt 0 small) with true by (symmetry; apply rlt_true; apply small_pos).
    assert (NY : m_yu A <> 0). { intros Z. apply D. rewrite F1, Z. ring. }
    assert (E1 : to_y A (u (i + 1)%Z) (v j) - to_y A (u i) (v j) = m_yu A * (u (i + 1)%Z - u i)) by (unfold to_y; ring).
    assert (E2 : to_y A (u (i + 1)%Z) (v (j + 1)%Z) - to_y A (u i) (v (j + 1)%Z) = m_yu A * (u (i + 1)%Z - u i)) by (unfold to_y; ring).
    rewrite E1, E2. assert (NZ : m_yu A * (u (i + 1)%Z - u i) <> 0) by (apply Rmult_integral_contrapositive_currified; [exact NY|lra]).
    destruct (req (m_yu A * (u (i + 1)%Z - u i)) 0) eqn:G; [apply req_true in G; contradiction|]. cbn [orb]. f_equal.
    unfold y, to_y, rel. rewrite F2. field. split; [lra|exact NY].
Qed.

Lemma lat_local : forall j i eta0, is_cell g j i -> local m g x y eta0 i j = HFound (rel u i U) (rel v j V) i j.
Proof.
  intros j i eta0 IC. unfold local. rewrite !corners_in by exact IC. cbv zeta. rewrite (near_id m g x j i IC HT).
  rewrite (lat_eta j i eta0 IC), (lat_xsi j i IC). reflexivity.
Qed.

Lemma rel_low : forall n w i W k, mono n w -> (0 <= i)%Z -> (i + 1 < n)%Z -> (0 <= k)%Z -> (k + 1 < n)%Z -> w k <= W <= w (k + 1)%Z ->
  rel w i W < - tol -> (k < i)%Z.
Proof.
  intros n w i W k M H0 H1 K0 K1 HW L. pose proof tol_pos. pose proof (rel_eq n w i W M H0 H1) as E. pose proof (M i H0 H1) as D.
  assert (W < w i) by nra. destruct (Z.lt_ge_cases k i) as [C|C]; [exact C|].
  pose proof (mono_le' n w i k M ltac:(lia) ltac:(lia)). lra.
Qed.
Lemma rel_high : forall n w i W k, mono n w -> (0 <= i)%Z -> (i + 1 < n)%Z -> (0 <= k)%Z -> (k + 1 < n)%Z -> w k <= W <= w (k + 1)%Z ->
  1 + tol < rel w i W -> (i < k)%Z.
Proof.
  intros n w i W k M H0 H1 K0 K1 HW L. pose proof tol_pos. pose proof (rel_eq n w i W M H0 H1) as E. pose proof (M i H0 H1) as D.
  assert (w (i + 1)%Z < W) by nra. destruct (Z.lt_ge_cases i k) as [C|C]; [exact C|].
  pose proof (mono_le' n w (k + 1) (i + 1) M ltac:(lia) ltac:(lia)). lra.
Qed.
Lemma move_toward : forall n w i W k, mono n w -> (0 <= i)%Z -> (i + 1 < n)%Z -> (0 <= k)%Z -> (k + 1 < n)%Z -> w k <= W <= w (k + 1)%Z ->
  (0 <= move (rel w i W) i)%Z /\ (move (rel w i W) i + 1 < n)%Z /\ (Z.abs (move (rel w i W) i - k) <= Z.abs (i - k))%Z /\
  (rel w i W < - tol \/ 1 + tol < rel w i W -> (Z.abs (move (rel w i W) i - k) < Z.abs (i - k))%Z).
Proof.
  intros n w i W k M H0 H1 K0 K1 HW. pose proof tol_pos. unfold move. rb.
  - pose proof (rel_low n w i W k M H0 H1 K0 K1 HW E). repeat split; try lia.
  - pose proof (rel_high n w i W k M H0 H1 K0 K1 HW E0). repeat split; try lia.
  - repeat split; try lia. intros [?|?]; lra.
Qed.
Lemma rel_tol_cell : forall n w i W, mono n w -> (0 <= i)%Z -> (i + 1 < n)%Z -> - tol <= rel w i W <= 1 + tol ->
  in_cell_tol n w W i (clamp (rel w i W)).
Proof.
  intros n w i W M H0 H1 T. split; [exact H0|]. split; [exact H1|]. split; [apply clamp_unit|].
  exists (rel w i W). split; [apply clamp_tol; exact T|]. split; [apply (rel_eq n); assumption|]. apply clamp_id.
Qed.

Lemma lat_loop : forall k eta0 i j is js, is_cell g j i -> is_cell g js is ->
  u is <= U <= u (is + 1)%Z -> v js <= V <= v (js + 1)%Z -> (Z.abs (i - is) + Z.abs (j - js) < Z.of_nat k)%Z ->
  exists xsi eta xi yi, curv_loop m g x y k eta0 i j = HFound xsi eta xi yi /\
    in_cell_tol (v_xdim g) u U xi xsi /\ in_cell_tol (v_ydim g) v V yi eta.
Proof.
  induction k as [|k IH]; intros eta0 i j is js IC ICs HU HV K; [lia|].
  pose proof LA as (_ & _ & _ & Mu & Mv & _). pose proof IC as (H1 & H2 & H3 & H4). pose proof ICs as (G1 & G2 & G3 & G4).
  rewrite (loop_step m g x y k eta0 i j _ _ i j IC (lat_local j i eta0 IC)).
  destruct (rlt (rel u i U) 0 && rlt (rel v j V) 0 && (i =? 0)%Z && (j =? 0)%Z) eqn:C.
  - exfalso. apply andb_true_iff in C as [C C4]. apply andb_true_iff in C as [C C3]. apply andb_true_iff in C as [C1 C2].
    apply rlt_true in C1. apply Z.eqb_eq in C3. subst i. pose proof (rel_eq _ u 0 U Mu H1 H2) as E. pose proof (Mu 0%Z H1 H2) as D.
    pose proof (mono_le' _ u 0 is Mu ltac:(lia) ltac:(lia)). nra.
  - destruct (off (rel u i U) (rel v j V)) eqn:O.
    + destruct (move_toward _ u i U is Mu H1 H2 G1 G2 HU) as (A1 & A2 & A3 & A4).
      destruct (move_toward _ v j V js Mv H3 H4 G3 G4 HV) as (B1 & B2 & B3 & B4).
      rewrite reconnect_id by assumption.
      apply (IH _ _ _ is js); [unfold is_cell; lia|exact ICs|exact HU|exact HV|].
      unfold off in O. apply orb_true_iff in O as [O|O]; [apply orb_true_iff in O as [O|O]; [apply orb_true_iff in O as [O|O]|]|];
        apply rlt_true in O.
      * specialize (A4 (or_introl O)). lia.
      * specialize (A4 (or_intror O)). lia.
      * specialize (B4 (or_introl O)). lia.
      * specialize (B4 (or_intror O)). lia.
    + apply off_false in O as [O1 O2]. do 4 eexists. split; [reflexivity|].
      split; apply rel_tol_cell; assumption.
Qed.

Lemma lat_point : forall j i, is_cell g j i -> u i <= U <= u (i + 1)%Z -> v j <= V <= v (j + 1)%Z ->
  exists q, q = cell (v_lon g) j i /\ bil q (rel u i U) (rel v j V) = x /\ bil (cell (v_lat g) j i) (rel u i U) (rel v j V) = y /\
    unit_ (rel u i U) /\ unit_ (rel v j V).
Proof.
  intros j i IC HU HV. exists (cell (v_lon g) j i). split; [reflexivity|]. destruct (lat_quads j i IC) as [-> ->].
  destruct IC as (H1 & H2 & H3 & H4).
  pose proof LA as (_ & _ & _ & Mu & Mv & _). pose proof (Mu i H1 H2) as Du. pose proof (Mv j H3 H4) as Dv.
  split; [unfold bil, x, to_x, rel; field; lra|]. split; [unfold bil, y, to_y, rel; field; lra|].
  assert (G : forall a b c, a < b -> a <= c <= b -> 0 <= (c - a) / (b - a) <= 1).
  { intros a b c AB AC. assert (P : 0 < / (b - a)) by (apply Rinv_0_lt_compat; lra). unfold Rdiv. split; [apply Rmult_le_pos; lra|].
    apply (Rmult_le_reg_r (b - a)); [lra|]. rewrite Rmult_assoc, Rinv_l by lra. lra. }
  split; apply G; assumption.
Qed.

Theorem lattice_found : forall xi0 yi0, is_cell g yi0 xi0 -> between (v_xdim g) u U -> between (v_ydim g) v V ->
  exists xsi eta xi yi, curv_search m g x y xi0 yi0 = HFound xsi eta xi yi /\
    in_cell_tol (v_xdim g) u U xi xsi /\ in_cell_tol (v_ydim g) v V yi eta.
Proof.
  intros xi0 yi0 IC BU BV. pose proof LA as (Dx & Dy & Dn & Mu & Mv & _).
  destruct (find_cell _ u U Mu Dx BU) as (is & G1 & G2 & HU). destruct (find_cell _ v V Mv Dy BV) as (js & G3 & G4 & HV).
  assert (ICs : is_cell g js is) by (unfold is_cell; auto).
  destruct (lat_point js is ICs HU HV) as (q & -> & Ex & Ey & S & T).
  assert (OUT : curv_outside g x y = false).
  { unfold curv_outside. cbv zeta.
    pose proof (cell_between g (v_lat g) js is _ _ ICs S T) as BY. rewrite Ey in BY.
    pose proof (cell_between g (v_lon g) js is _ _ ICs S T) as BX. rewrite Ex in BX.
    replace (rlt y (all_min g (v_lat g))) with false by (symmetry; apply rlt_false; tauto).
    replace (rlt (all_max g (v_lat g)) y) with false by (symmetry; apply rlt_false; tauto).
    replace (rlt x (all_min g (v_lon g))) with false by (symmetry; apply rlt_false; tauto).
    replace (rlt (all_max g (v_lon g)) x) with false by (symmetry; apply rlt_false; tauto).
    rewrite andb_false_r. reflexivity. }
  unfold curv_search. rewrite OUT. pose proof IC as (H1 & H2 & H3 & H4).
  apply (lat_loop max_iter (-1) xi0 yi0 is js IC ICs HU HV).
  unfold max_iter. rewrite Z2Nat.id by lia. lia.
Qed.

(** Whatever is found is right. *)
Theorem lattice_sound : forall xi0 yi0 xsi eta xi yi, (0 <= xi0)%Z -> (0 <= yi0)%Z ->
  curv_search m g x y xi0 yi0 = HFound xsi eta xi yi ->
  in_cell_tol (v_xdim g) u U xi xsi /\ in_cell_tol (v_ydim g) v V yi eta.
Proof.
  intros xi0 yi0 xsi eta xi yi H0 H1 E. pose proof LA as (Dx & Dy & Dn & Mu & Mv & _).
  destruct (search_found _ _ _ _ _ _ _ _ _ _ Dx Dy H0 H1 E) as (IC & s & t & eta0 & S & T & -> & -> & NE & NX). cbv zeta in NE, NX.
  rewrite (near_id m g x yi xi IC HT) in NE, NX. rewrite (lat_eta yi xi eta0 IC) in NE. injection NE as <-.
  rewrite (lat_xsi yi xi IC) in NX. injection NX as <-. destruct IC as (G1 & G2 & G3 & G4).
  split; apply rel_tol_cell; assumption.
Qed.

Lemma beyond_not : forall n w W i r, beyond n w W -> mono n w -> ~ in_cell_tol n w W i r.
Proof.
  intros n w W i r B M (H0 & H1 & HR & s & HS & HW & _). pose proof (M i H0 H1) as D.
  apply Rabs_split in HS. destruct (B i H0 H1) as [L|L]; nra.
Qed.

(** Outside, the search goes over the cells until it gives up, or leaves the array. *)
Theorem lattice_outside : forall xi0 yi0, is_cell g yi0 xi0 -> beyond (v_xdim g) u U \/ beyond (v_ydim g) v V ->
  curv_search m g x y xi0 yi0 = HOut \/ curv_search m g x y xi0 yi0 = HBad.
Proof.
  intros xi0 yi0 IC B. pose proof LA as (Dx & Dy & Dn & Mu & Mv & _). pose proof IC as (H1 & H2 & H3 & H4).
  destruct (curv_search m g x y xi0 yi0) as [s t xi yi| | |] eqn:E; [| left; reflexivity | right; reflexivity |].
  - exfalso. destruct (lattice_sound xi0 yi0 s t xi yi H1 H3 E) as [C1 C2].
    destruct B as [B|B]; [exact (beyond_not _ _ _ _ _ B Mu C1)|exact (beyond_not _ _ _ _ _ B Mv C2)].
  - exfalso. unfold curv_search in E. destruct (curv_outside g x y); [discriminate|].
    assert (G : forall k eta0 i j, (0 <= i)%Z -> (0 <= j)%Z -> curv_loop m g x y k eta0 i j <> HUndef).
    { induction k as [|k IH]; intros eta0 i j Hi Hj.
      - cbn [curv_loop]. destruct (local m g x y eta0 i j) as [s t a b| | |] eqn:L; try discriminate.
        + destruct (_ && _); [discriminate|]. destruct (_ && _); [discriminate|]. destruct (reconnect _ _ _ _ _). discriminate.
        + unfold local in L. destruct (corners m g (v_lon g) j i) as [p|] eqn:C1; [|discriminate].
          destruct (corners m g (v_lat g) j i) as [b|] eqn:C2; [|discriminate].
          destruct (corners_some _ _ _ _ _ _ Hi Hj C1) as [ICx ->]. destruct (corners_some _ _ _ _ _ _ Hi Hj C2) as [_ ->].
          rewrite (near_id m g x j i ICx HT) in L. rewrite (lat_eta j i eta0 ICx), (lat_xsi j i ICx) in L. discriminate.
      - cbn [curv_loop]. destruct (local m g x y eta0 i j) as [s t a b| | |] eqn:L; try discriminate.
        + destruct (_ && _); [discriminate|]. destruct (_ && _); [discriminate|].
          destruct (reconnect _ _ _ _ _) as [i' j'] eqn:R. destruct (off s t); [|discriminate].
          pose proof (reconnect_in (sphere_flag m g) (v_xdim g) (v_ydim g) (move s i) (move t j) Dx Dy (move_ge s i Hi)) as Q.
          rewrite R in Q. apply IH; tauto.
        + unfold local in L. destruct (corners m g (v_lon g) j i) as [p|] eqn:C1; [|discriminate].
          destruct (corners m g (v_lat g) j i) as [b|] eqn:C2; [|discriminate].
          destruct (corners_some _ _ _ _ _ _ Hi Hj C1) as [ICx ->]. destruct (corners_some _ _ _ _ _ _ Hi Hj C2) as [_ ->].
          rewrite (near_id m g x j i ICx HT) in L. rewrite (lat_eta j i eta0 ICx), (lat_xsi j i ICx) in L. discriminate. }
    exact (G _ _ _ _ H1 H3 E).
Qed.
End Lattice.

(** On a flat mesh compiled code never leaves the array. *)
Lemma flat_jit_ok : forall g x y k eta0 i j, (2 <= v_xdim g)%Z -> (2 <= v_ydim g)%Z -> v_spherical g = false -> is_cell g j i ->
  curv_loop Jit g x y k eta0 i j <> HBad.
Proof.
  intros g x y k. induction k as [|k IH]; intros eta0 i j Dx Dy F IC; cbn [curv_loop];
    (destruct (local Jit g x y eta0 i j) as [s t a b| | |] eqn:L; try discriminate;
      [|unfold local in L; rewrite !corners_in in L by exact IC; cbv zeta in L;
        destruct (new_eta _ _ _ _ _ _); [|discriminate]; destruct (new_xsi _ _ _ _ _); discriminate]);
    (destruct (_ && _); [discriminate|]); (destruct (_ && _); [discriminate|]);
    destruct (reconnect _ _ _ _ _) as [i' j'] eqn:R; [discriminate|].
  destruct (off s t); [|discriminate]. destruct IC as (H1 & H2 & H3 & H4).
  pose proof (reconnect_in (sphere_flag Jit g) (v_xdim g) (v_ydim g) (move s i) (move t j) Dx Dy (move_ge s i H1)) as Q.
  rewrite R in Q. destruct Q as (Q1 & Q2 & Q3 & Q4). apply IH; try assumption. unfold is_cell. cbn in Q4. specialize (Q4 F). lia.
Qed.

Theorem lattice_outside_jit : forall g A u v U V xi0 yi0, lattice g A u v -> v_spherical g = false -> is_cell g yi0 xi0 ->
  beyond (v_xdim g) u U \/ beyond (v_ydim g) v V -> curv_search Jit g (to_x A U V) (to_y A U V) xi0 yi0 = HOut.
Proof.
  intros g A u v U V xi0 yi0 LA F IC B.
  assert (HT : half_turn g (to_x A U V)) by (intros E; congruence).
  destruct (lattice_outside Jit g A u v U V LA HT xi0 yi0 IC B) as [E|E]; [exact E|].
  exfalso. unfold curv_search in E. destruct (curv_outside g _ _); [discriminate|].
  destruct LA as (Dx & Dy & _). exact (flat_jit_ok _ _ _ _ _ _ _ Dx Dy F IC E).
Qed.

Lemma outside_false : forall g x y j1 i1 j2 i2 j3 i3 j4 i4,
  (0 <= j1 < v_ydim g)%Z -> (0 <= i1 < v_xdim g)%Z -> (0 <= j2 < v_ydim g)%Z -> (0 <= i2 < v_xdim g)%Z ->
  (0 <= j3 < v_ydim g)%Z -> (0 <= i3 < v_xdim g)%Z -> (0 <= j4 < v_ydim g)%Z -> (0 <= i4 < v_xdim g)%Z ->
  v_lon g j1 i1 <= x <= v_lon g j2 i2 -> v_lat g j3 i3 <= y <= v_lat g j4 i4 -> curv_outside g x y = false.
Proof.
  intros g x y j1 i1 j2 i2 j3 i3 j4 i4 A1 A2 A3 A4 A5 A6 A7 A8 X Y. unfold curv_outside. cbv zeta.
  pose proof (all_min_le g (v_lon g) j1 i1 A1 A2). pose proof (all_max_ge g (v_lon g) j2 i2 A3 A4).
  pose proof (all_min_le g (v_lat g) j3 i3 A5 A6). pose proof (all_max_ge g (v_lat g) j4 i4 A7 A8).
  replace (rlt y (all_min g (v_lat g))) with false by (symmetry; apply rlt_false; lra).
  replace (rlt (all_max g (v_lat g)) y) with false by (symmetry; apply rlt_false; lra).
  replace (rlt x (all_min g (v_lon g))) with false by (symmetry; apply rlt_false; lra).
  replace (rlt (all_max g (v_lon g)) x) with false by (symmetry; apply rlt_false; lra).
  rewrite andb_false_r. reflexivity.
Qed.

(** * Samples *)
Lemma sample_is : forall m g f x y xi0 yi0 xsi eta xi yi, curv_search m g x y xi0 yi0 = HFound xsi eta xi yi -> is_cell g yi xi ->
  curv_linear m g f x y xi0 yi0 = Some (bil (cell f yi xi) xsi eta).
Proof. intros m g f x y xi0 yi0 xsi eta xi yi E IC. unfold curv_linear. rewrite E, corners_in by exact IC. reflexivity. Qed.

Theorem sample_between : forall m g f x y xi0 yi0 r lo hi,
  (2 <= v_xdim g)%Z -> (2 <= v_ydim g)%Z -> (0 <= xi0)%Z -> (0 <= yi0)%Z ->
  (forall j i, (0 <= j < v_ydim g)%Z -> (0 <= i < v_xdim g)%Z -> lo <= f j i <= hi) ->
  curv_linear m g f x y xi0 yi0 = Some r -> lo <= r <= hi.
Proof.
  intros m g f x y xi0 yi0 r lo hi Dx Dy H0 H1 B E.
  destruct (curv_search m g x y xi0 yi0) as [xsi eta xi yi| | |] eqn:S; try (unfold curv_linear in E; rewrite S in E; discriminate).
  destruct (search_found _ _ _ _ _ _ _ _ _ _ Dx Dy H0 H1 S) as (IC & s & t & e & _ & _ & -> & -> & _).
  rewrite (sample_is _ _ f _ _ _ _ _ _ _ _ S IC) in E. injection E as <-. destruct IC as (G1 & G2 & G3 & G4).
  unfold cell. apply bil_between; try apply clamp_unit; apply B; lia.
Qed.

Theorem sample_linear : forall m g A u v U V xi0 yi0 f a bu bv, lattice g A u v -> half_turn g (to_x A U V) -> is_cell g yi0 xi0 ->
  between (v_xdim g) u U -> between (v_ydim g) v V ->
  (forall j i, (0 <= j < v_ydim g)%Z -> (0 <= i < v_xdim g)%Z -> f j i = a + bu * u i + bv * v j) ->
  exists r xi yi, curv_linear m g f (to_x A U V) (to_y A U V) xi0 yi0 = Some r /\ is_cell g yi xi /\
    Rabs (r - (a + bu * U + bv * V)) <= / 10 ^ 10 * (Rabs bu * (u (xi + 1)%Z - u xi) + Rabs bv * (v (yi + 1)%Z - v yi)).
Proof.
  intros m g A u v U V xi0 yi0 f a bu bv LA HT IC BU BV F.
  destruct (lattice_found m g A u v U V LA HT xi0 yi0 IC BU BV) as (xsi & eta & xi & yi & E & CU & CV).
  destruct LA as (_ & _ & _ & Mu & Mv & _).
  destruct CU as (G1 & G2 & _ & s & S1 & S2 & _). destruct CV as (G3 & G4 & _ & t & T1 & T2 & _).
  assert (ICf : is_cell g yi xi) by (unfold is_cell; auto).
  exists (bil (cell f yi xi) xsi eta), xi, yi. split; [apply (sample_is _ _ _ _ _ _ _ _ _ _ _ E ICf)|]. split; [exact ICf|].
  pose proof (Mu xi G1 G2) as Du. pose proof (Mv yi G3 G4) as Dv.
  assert (Q : bil (cell f yi xi) xsi eta - (a + bu * U + bv * V) =
              bu * ((xsi - s) * (u (xi + 1)%Z - u xi)) + bv * ((eta - t) * (v (yi + 1)%Z - v yi))).
  { unfold cell. rewrite !F by lia. rewrite S2, T2. unfold bil. ring. }
  rewrite Q. eapply Rle_trans; [apply Rabs_triang|]. rewrite !Rabs_mult.
  rewrite (Rabs_pos_eq (u (xi + 1)%Z - u xi)), (Rabs_pos_eq (v (yi + 1)%Z - v yi)) by lra.
  rewrite (Rabs_minus_sym xsi s), (Rabs_minus_sym eta t).
  pose proof (Rabs_pos bu). pose proof (Rabs_pos bv).
  assert (P1 : 0 <= Rabs bu * ((/ 10 ^ 10 - Rabs (s - xsi)) * (u (xi + 1)%Z - u xi))) by (repeat apply Rmult_le_pos; lra).
  assert (P2 : 0 <= Rabs bv * ((/ 10 ^ 10 - Rabs (t - eta)) * (v (yi + 1)%Z - v yi))) by (repeat apply Rmult_le_pos; lra).
  lra.
Qed.
