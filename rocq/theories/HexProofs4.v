(** Proofs for C54: neighbours, JIT, levels that decrease, examples. *)
From Coq Require Import List ZArith Reals Bool Lra Lia.
From Verif Require Import UnitModel UnitSpec UnitProofs CGridModel CGridSpec CGridProofs HexModel HexSpec HexProofs HexProofs2 HexProofs3.
Import ListNotations.
Open Scope R_scope.

(** ** Neighbours *)
Lemma next_x m d c c' xi yi zi eta zet : sw c' = se c -> nw c' = ne c ->
  normal_x m (cell3_of d c' (xi + 1) yi zi) 0 eta zet = normal_x m (cell3_of d c xi yi zi) 1 eta zet /\
  snd (place c' 0 eta) = snd (place c 1 eta) /\ fst (place c' 0 eta) = fst (place c 1 eta).
Proof.
  intros A B.
  assert (L : snd (place c' 0 eta) = snd (place c 1 eta)) by (unfold place, blend; cbn; rewrite A, B; ring).
  split; [|split; [exact L|unfold place, blend; cbn; rewrite A, B; ring]].
  unfold normal_x. cbn [base cell3_of]. rewrite L. generalize (snd (place c 1 eta)). intros lat.
  unfold line_y, line_z, place3, minus3. rewrite !metres3_is. unfold cross3, cell3_of, level_of, depth_of, place, blend. cbn. rewrite A, B.
  generalize (jac_lon m lat) (jac_lat m). intros k1 k2. apply tuple3; ring.
Qed.
Lemma next_y m d c c' xi yi zi xsi zet : sw c' = nw c -> se c' = ne c ->
  normal_y m (cell3_of d c' xi (yi + 1) zi) xsi 0 zet = normal_y m (cell3_of d c xi yi zi) xsi 1 zet /\
  snd (place c' xsi 0) = snd (place c xsi 1) /\ fst (place c' xsi 0) = fst (place c xsi 1).
Proof.
  intros A B.
  assert (L : snd (place c' xsi 0) = snd (place c xsi 1)) by (unfold place, blend; cbn; rewrite A, B; ring).
  split; [|split; [exact L|unfold place, blend; cbn; rewrite A, B; ring]].
  unfold normal_y. cbn [base cell3_of]. rewrite L. generalize (snd (place c xsi 1)). intros lat.
  unfold line_x, line_z, place3, minus3. rewrite !metres3_is. unfold cross3, cell3_of, level_of, depth_of, place, blend. cbn. rewrite A, B.
  generalize (jac_lon m lat) (jac_lat m). intros k1 k2. apply tuple3; ring.
Qed.
Lemma next_z m d c xi yi zi xsi eta :
  normal_z m (cell3_of d c xi yi (zi + 1)) xsi eta 0 = normal_z m (cell3_of d c xi yi zi) xsi eta 1.
Proof.
  unfold normal_z. cbn [base cell3_of]. unfold line_x, line_y, place3, minus3. rewrite !metres3_is.
  generalize (jac_lon m (snd (place c xsi eta))) (jac_lat m). intros k1 k2.
  unfold cross3, cell3_of, level_of, depth_of, place, blend. cbn. apply tuple3; ring.
Qed.

Section Shared.
Variables (m : mesh) (g : hgrid) (d : Z -> Z -> Z -> R) (U V W : Z -> Z -> Z -> R).
Definition good (c : cell) (xi yi zi : Z) : Prop :=
  same_cell m (cell_of g xi yi) c /\ convex c /\ thick (cell3_of d c xi yi zi) /\ away m (snd (place c (1/2) (1/2))).
Lemma good_faces c xi yi zi xsi eta zet : good c xi yi zi -> unit_cube xsi eta zet -> away m (snd (place c xsi eta)) ->
  exists uvw, py_uvw m g (Fixed d) U V W xsi eta zet xi yi zi (fst (place c xsi eta)) = Some uvw /\
    crosses_faces3 m (cell3_of d c xi yi zi) xsi eta zet uvw (face_values U V W xi yi zi).
Proof. intros (A & B & C & D) S AW. apply (py_faces3 m g (Fixed d)); assumption. Qed.

Lemma shared_x c c' xi yi zi eta zet : good c xi yi zi -> good c' (xi + 1) yi zi -> sw c' = se c -> nw c' = ne c ->
  0 <= eta <= 1 -> 0 <= zet <= 1 -> away m (snd (place c 1 eta)) ->
  exists a b, py_uvw m g (Fixed d) U V W 1 eta zet xi yi zi (fst (place c 1 eta)) = Some a /\
    py_uvw m g (Fixed d) U V W 0 eta zet (xi + 1) yi zi (fst (place c 1 eta)) = Some b /\
    let n := normal_x m (cell3_of d c xi yi zi) 1 eta zet in
    let lat := snd (place c 1 eta) in
    along3 (in_metres3 m lat a) n = U zi (yi + 1)%Z (xi + 1)%Z /\ along3 (in_metres3 m lat b) n = U zi (yi + 1)%Z (xi + 1)%Z.
Proof.
  intros G G' P Q E Z0 A. destruct (next_x m d c c' xi yi zi eta zet P Q) as (N & LA & LO).
  destruct (good_faces c xi yi zi 1 eta zet G) as (a & EA & FA); [repeat split; lra|exact A|].
  destruct (good_faces c' (xi + 1) yi zi 0 eta zet G') as (b & EB & FB); [repeat split; lra|rewrite LA; exact A|].
  exists a, b. rewrite LO in EB. split; [exact EA|]. split; [exact EB|]. cbv zeta.
  rewrite s_of_is in FA, FB. unfold s_of in FA, FB. cbn [s_e s_w s_s s_n s_l s_u] in FA, FB.
  destruct FA as (_ & FA & _), FB as (FB & _). cbn [base cell3_of s_w s_e] in FA, FB. rewrite N, LA in FB.
  split; [apply FA; reflexivity|apply FB; reflexivity].
Qed.
Lemma shared_y c c' xi yi zi xsi zet : good c xi yi zi -> good c' xi (yi + 1) zi -> sw c' = nw c -> se c' = ne c ->
  0 <= xsi <= 1 -> 0 <= zet <= 1 -> away m (snd (place c xsi 1)) ->
  exists a b, py_uvw m g (Fixed d) U V W xsi 1 zet xi yi zi (fst (place c xsi 1)) = Some a /\
    py_uvw m g (Fixed d) U V W xsi 0 zet xi (yi + 1) zi (fst (place c xsi 1)) = Some b /\
    let n := normal_y m (cell3_of d c xi yi zi) xsi 1 zet in
    let lat := snd (place c xsi 1) in
    along3 (in_metres3 m lat a) n = V zi (yi + 1)%Z (xi + 1)%Z /\ along3 (in_metres3 m lat b) n = V zi (yi + 1)%Z (xi + 1)%Z.
Proof.
  intros G G' P Q E Z0 A. destruct (next_y m d c c' xi yi zi xsi zet P Q) as (N & LA & LO).
  destruct (good_faces c xi yi zi xsi 1 zet G) as (a & EA & FA); [repeat split; lra|exact A|].
  destruct (good_faces c' xi (yi + 1) zi xsi 0 zet G') as (b & EB & FB); [repeat split; lra|rewrite LA; exact A|].
  exists a, b. rewrite LO in EB. split; [exact EA|]. split; [exact EB|]. cbv zeta.
  rewrite s_of_is in FA, FB. unfold s_of in FA, FB.
  destruct FA as (_ & _ & _ & FA & _), FB as (_ & _ & FB & _). cbn [base cell3_of s_s s_n] in FA, FB. rewrite N, LA in FB.
  split; [apply FA; reflexivity|apply FB; reflexivity].
Qed.
Lemma shared_z c xi yi zi xsi eta : good c xi yi zi -> good c xi yi (zi + 1) ->
  0 <= xsi <= 1 -> 0 <= eta <= 1 -> away m (snd (place c xsi eta)) ->
  exists a b, py_uvw m g (Fixed d) U V W xsi eta 1 xi yi zi (fst (place c xsi eta)) = Some a /\
    py_uvw m g (Fixed d) U V W xsi eta 0 xi yi (zi + 1) (fst (place c xsi eta)) = Some b /\
    let n := normal_z m (cell3_of d c xi yi zi) xsi eta 1 in
    let lat := snd (place c xsi eta) in
    along3 (in_metres3 m lat a) n = W (zi + 1)%Z (yi + 1)%Z (xi + 1)%Z /\ along3 (in_metres3 m lat b) n = W (zi + 1)%Z (yi + 1)%Z (xi + 1)%Z.
Proof.
  intros G G' E Z0 A.
  destruct (good_faces c xi yi zi xsi eta 1 G) as (a & EA & FA); [repeat split; lra|exact A|].
  destruct (good_faces c xi yi (zi + 1) xsi eta 0 G') as (b & EB & FB); [repeat split; lra|exact A|].
  exists a, b. split; [exact EA|]. split; [exact EB|]. cbv zeta.
  rewrite s_of_is in FA, FB. unfold s_of in FA, FB.
  destruct FA as (_ & _ & _ & _ & _ & FA), FB as (_ & _ & _ & _ & FB & _). cbn [base cell3_of s_l s_u] in FA, FB. rewrite next_z in FB.
  split; [apply FA; reflexivity|apply FB; reflexivity].
Qed.
End Shared.

(** ** JIT *)
Lemma c_faces3 m g l U V W ti xi yi zi c xsi eta zet :
  let h := cell3_of (seen_c l ti) c xi yi zi in
  same_cell m (cell_of g xi yi) c -> (m = Flat -> narrow c) -> convex c -> thick h -> unit_cube xsi eta zet ->
  away m (snd (place c xsi eta)) -> away m (snd (place c (1/2) (1/2))) ->
  exists uvw, c_uvw m g l U V W ti xsi eta zet xi yi zi = Some uvw /\
    crosses_faces3 m h xsi eta zet uvw (face_values U V W xi yi zi).
Proof.
  intros h SC NR C T (S1 & S2 & _) A AH. rewrite (c_uvw_is _ _ _ _ _ _ _ _ _ _ _ _ _ c SC NR).
  apply faces3; try assumption. split; assumption.
Qed.
Lemma c_uniform g l U V W ti xi yi zi xsi eta zet v :
  let c := cell_of g xi yi in
  let h := cell3_of (seen_c l ti) c xi yi zi in
  convex c -> narrow c -> thick h -> planar c (lower h) -> planar c (upper h) -> unit_cube xsi eta zet ->
  flows_through h v (face_values U V W xi yi zi) ->
  c_uvw Flat g l U V W ti xsi eta zet xi yi zi = Some v.
Proof.
  intros c h C NR T LO UP S FT. rewrite (c_uvw_is Flat g l U V W ti xsi eta zet xi yi zi c eq_refl (fun _ => NR)).
  apply uniform_here; assumption.
Qed.
Lemma py_box g d U V W xi yi zi x0 x1 y0 y1 z0 z1 xsi eta zet :
  let s := face_values U V W xi yi zi in
  x0 < x1 -> y0 < y1 -> z0 < z1 -> cell3_of d (cell_of g xi yi) xi yi zi = box x0 x1 y0 y1 z0 z1 ->
  unit_cube xsi eta zet -> balanced (x1 - x0) (y1 - y0) (z1 - z0) s ->
  py_uvw Flat g (Fixed d) U V W xsi eta zet xi yi zi (blend x0 x1 xsi) =
  Some (blend (s_w s) (s_e s) xsi, blend (s_s s) (s_n s) eta, blend (s_l s) (s_u s) zet).
Proof.
  intros s A B C E (S1 & S2 & _) BL. assert (EC : cell_of g xi yi = rectangle x0 x1 y0 y1) by (apply (f_equal base) in E; exact E).
  replace (blend x0 x1 xsi) with (fst (place (cell_of g xi yi) xsi eta)) by (rewrite EC; unfold place, blend; cbn; ring).
  rewrite (py_uvw_is Flat g (Fixed d) U V W xsi eta zet xi yi zi (cell_of g xi yi) eq_refl (conj S1 S2)). cbn [seen]. rewrite E.
  apply box_balanced; try assumption. split; assumption.
Qed.

(** ** Levels upside down *)
Definition neg8 (p : oct) : oct := Oct (- o0 p) (- o1 p) (- o2 p) (- o3 p) (- o4 p) (- o5 p) (- o6 p) (- o7 p).
Definition neg_z (j : jacM) : jacM := JacM (xx j) (xe j) (xz j) (yx j) (ye j) (yz j) (- zx j) (- ze j) (- zz j).
Lemma neg_dot p d : dot8 (neg8 p) d = - dot8 p d.
Proof. unfold dot8, neg8. cbn. ring. Qed.
Lemma neg_jacM m px py pz xsi eta zet : py_jacM m px py (neg8 pz) xsi eta zet = neg_z (py_jacM m px py pz xsi eta zet).
Proof. unfold py_jacM, neg_z. cbn. rewrite !neg_dot. reflexivity. Qed.
Lemma neg_face j o : face3D (neg_z j) o = face3D j o.
Proof. destruct j as [a1 a2 a3 a4 a5 a6 a7 a8 a9], o; unfold face3D, neg_z; cbn [xx xe xz yx ye yz zx ze zz]; f_equal; ring. Qed.
Lemma neg_jac j : jacobian3D (neg_z j) = - jacobian3D j.
Proof. destruct j as [a1 a2 a3 a4 a5 a6 a7 a8 a9]; unfold jacobian3D, neg_z; cbn [xx xe xz yx ye yz zx ze zz]; ring. Qed.
Lemma neg_half p : half_left (neg8 p) = neg8 (half_left p) /\ half_front (neg8 p) = neg8 (half_front p) /\ half_lower (neg8 p) = neg8 (half_lower p).
Proof. unfold half_left, half_front, half_lower, neg8. cbn. repeat split; apply oct_eq; field. Qed.
Lemma div_neg a j : j <> 0 -> a / - j = - (a / j).
Proof. intros. field. assumption. Qed.

Lemma upside_down m px py pz u0 u1 v0 v1 w0 w1 xsi eta zet :
  uvw_of (py_jacM m) px py (neg8 pz) u0 u1 v0 v1 w0 w1 xsi eta zet =
  option_map (fun '(u, v, w) => (- u, - v, w)) (uvw_of (py_jacM m) px py pz u0 u1 v0 v1 w0 w1 xsi eta zet).
Proof.
  unfold uvw_of. destruct (neg_half pz) as (-> & -> & ->). rewrite !neg_jacM, !neg_face, neg_jac. cbv zeta.
  set (J := jacobian3D _).
  repeat match goal with |- context [Req_EM_T (face3D ?a ?b) 0] => destruct (Req_EM_T (face3D a b) 0); [reflexivity|] end.
  destruct (Req_EM_T J 0) as [E|E], (Req_EM_T (- J) 0) as [E'|E']; [reflexivity|exfalso; lra|exfalso; lra|].
  cbn [option_map]. f_equal. rewrite !(div_neg _ _ E), !(dot8_comm _ (neg8 pz)), !neg_dot, !(dot8_comm pz).
  apply tuple3; ring.
Qed.

Definition rev_level (l : level) : level := Level (- z_sw l) (- z_se l) (- z_ne l) (- z_nw l).
Lemma py_upside_down m g d U V W xsi eta zet xi yi zi x :
  py_uvw m g (Fixed (fun k j i => - d k j i)) U V W xsi eta zet xi yi zi x =
  option_map (fun '(u, v, w) => (- u, - v, w)) (py_uvw m g (Fixed d) U V W xsi eta zet xi yi zi x).
Proof.
  unfold py_uvw. destruct (Rlt_dec _ _); [|reflexivity]. rewrite <- upside_down. reflexivity.
Qed.
Lemma c_upside_down m g d U V W ti xsi eta zet xi yi zi :
  c_uvw m g (Fixed (fun k j i => - d k j i)) U V W ti xsi eta zet xi yi zi =
  option_map (fun '(u, v, w) => (- u, - v, w)) (c_uvw m g (Fixed d) U V W ti xsi eta zet xi yi zi).
Proof.
  unfold c_uvw, c_uvw_cell. rewrite !(uvw_jm_ext (c_jacM m) (py_jacM m)) by (intros; apply c_jacM_is). rewrite <- upside_down. reflexivity.
Qed.

(** ** Examples and witnesses *)
Definition steps (k j i : Z) : R := 10 * IZR k.
Definition none3 (k j i : Z) : R := 0.
Definition bottom (k j i : Z) : R := if Z.eqb k 0 then 1 else 0.
Definition one3 (k j i : Z) : R := 1.
Lemma box_cell d z0 z1 : (forall j i, d 0%Z j i = z0) -> (forall j i, d 1%Z j i = z1) ->
  cell3_of d (cell_of tall 0 0) 0 0 0 = box 0 10 0 60 z0 z1.
Proof. intros A B. rewrite tall_cell. unfold cell3_of, box, level_of, flat_level. cbn [Z.add]. rewrite !A, !B. reflexivity. Qed.
Lemma tall_narrow : narrow (cell_of tall 0 0).
Proof. rewrite tall_cell. apply (tall_case Flat). Qed.
Lemma middle : fst (place (cell_of tall 0 0) (1/2) (1/2)) = 5.
Proof. rewrite tall_cell. unfold place, blend. cbn. lra. Qed.

Lemma bottom_value z1 : 0 < z1 ->
  uvw_here Flat (box 0 10 0 60 0 z1) (face_values none3 none3 bottom 0 0 0) (1/2) (1/2) (1/2) = Some (5 / z1, 30 / z1, 1).
Proof.
  intros P. rewrite box_here by (try lra; split; lra). rewrite s_of_is. unfold s_of, none3, bottom, quad_of. cbn. f_equal. apply tuple3; field; lra.
Qed.

Definition moving (t k j i : Z) : R := 10 * IZR (k * (t + 1)).
Lemma moving_modes :
  let times t := IZR t in let D (f : Z -> Z -> Z -> R) (t : Z) := f in
  (forall t, (t = 0 \/ t = 1)%Z -> thick (cell3_of (moving t) (cell_of tall 0 0) 0 0 0)) /\
  py_uvw_at times 2 Flat tall (Moving moving) (D none3) (D none3) (D bottom) 1 1 (1/2) (1/2) (1/2) 0 0 0 5 = Some (1/2, 3, 1) /\
  c_uvw_at times 2 Flat tall (Moving moving) (D none3) (D none3) (D bottom) 1 1 (1/2) (1/2) (1/2) 0 0 0 = Some (1/4, 3/2, 1).
Proof.
  intros times D. split; [|split].
  - intros t [-> | ->]; unfold thick, cell3_of, level_of, moving; cbn; lra.
  - unfold py_uvw_at. cbn [Z.ltb Z.sub Z.add Z.opp Z.compare Z.pos_sub Pos.compare Pos.compare_cont andb Pos.pred_double].
    rewrite <- middle. rewrite (py_uvw_is Flat tall (Moving moving) _ _ _ (1/2) (1/2) (1/2) 0 0 0 (cell_of tall 0 0) eq_refl ltac:(split; lra)).
    cbn [seen]. rewrite (box_cell (moving 0) 0 10) by (intros; unfold moving; cbn; ring). unfold D.
    rewrite bottom_value by lra. f_equal. apply tuple3; lra.
  - unfold c_uvw_at. cbn [Z.ltb Z.sub Z.add Z.opp Z.compare Z.pos_sub Pos.compare Pos.compare_cont andb Pos.pred_double].
    rewrite (c_uvw_is Flat tall (Moving moving) _ _ _ 1 (1/2) (1/2) (1/2) 0 0 0 (cell_of tall 0 0) eq_refl (fun _ => tall_narrow)).
    cbn [seen_c]. rewrite (box_cell (moving 1) 0 20) by (intros; unfold moving; cbn; ring). unfold D.
    rewrite bottom_value by lra. f_equal. apply tuple3; lra.
Qed.

Lemma leak : py_uvw Flat tall (Fixed steps) none3 none3 bottom (1/2) (1/2) (1/2) 0 0 0 5 = Some (1/2, 3, 1).
Proof.
  rewrite <- middle. rewrite (py_uvw_is Flat tall (Fixed steps) _ _ _ (1/2) (1/2) (1/2) 0 0 0 (cell_of tall 0 0) eq_refl ltac:(split; lra)).
  cbn [seen]. rewrite (box_cell steps 0 10) by (intros; unfold steps; cbn; ring).
  rewrite bottom_value by lra. f_equal. apply tuple3; lra.
Qed.

Lemma steps_case m : cell3_of steps (rectangle 0 10 0 60) 0 0 0 = box 0 10 0 60 0 10 /\
  same_cell m (cell_of tall 0 0) (rectangle 0 10 0 60) /\ convex (rectangle 0 10 0 60) /\ narrow (rectangle 0 10 0 60) /\
  thick (cell3_of steps (rectangle 0 10 0 60) 0 0 0) /\
  away m (snd (place (rectangle 0 10 0 60) 1 (1/2))) /\ away m (snd (place (rectangle 0 10 0 60) (1/2) (1/2))).
Proof.
  destruct (tall_case m) as (A & B & C & _ & D). split; [rewrite <- tall_cell; apply box_cell; intros; unfold steps; cbn; ring|].
  split; [exact A|]. split; [exact B|]. split; [exact C|]. split; [|split; [exact D|]].
  - unfold thick, cell3_of, level_of, steps. cbn. lra.
  - destruct m; [exact I|]. unfold away, between_poles, place, blend. cbn. lra.
Qed.

Lemma east_balanced : balanced 10 60 10 (face_values one3 none3 none3 0 0 0).
Proof. rewrite s_of_is. unfold balanced, s_of, one3, none3. cbn. ring. Qed.
Lemma east_flow x e z : unit_cube x e z ->
  py_uvw Flat tall (Fixed steps) one3 none3 none3 x e z 0 0 0 (blend 0 10 x) = Some (1, 0, 0).
Proof.
  intros S. rewrite (py_box tall steps one3 none3 none3 0 0 0 0 10 0 60 0 10 x e z); try lra; try assumption.
  - rewrite s_of_is. unfold s_of, one3, none3, blend. cbn. f_equal. apply tuple3; ring.
  - apply box_cell; intros; unfold steps; cbn; ring.
  - replace (10 - 0) with 10 by ring. replace (60 - 0) with 60 by ring. apply east_balanced.
Qed.
Lemma reversed x e z : unit_cube x e z ->
  py_uvw Flat tall (Fixed (fun k j i => - steps k j i)) one3 none3 none3 x e z 0 0 0 (blend 0 10 x) = Some (-1, 0, 0) /\
  c_uvw Flat tall (Fixed (fun k j i => - steps k j i)) one3 none3 none3 0 x e z 0 0 0 = Some (-1, 0, 0).
Proof.
  intros S. rewrite py_upside_down, c_upside_down.
  rewrite (modes3 Flat tall steps one3 none3 none3 0 x e z 0 0 0 (cell_of tall 0 0) eq_refl (fun _ => tall_narrow) ltac:(split; apply S)).
  replace (fst (place (cell_of tall 0 0) x e)) with (blend 0 10 x) by (rewrite tall_cell; unfold place, blend; cbn; ring).
  rewrite (east_flow x e z S). cbn. split; f_equal; apply tuple3; ring.
Qed.

Definition by_row (k j i : Z) : R := IZR j.
Lemma mitgcm_ignored : exists uvw,
  py_uvw Flat tall (Fixed steps) by_row none3 none3 0 (1/2) (1/2) 0 0 0 0 = Some uvw /\
  let n := normal_x Flat (cell3_of steps (cell_of tall 0 0) 0 0 0) 0 (1/2) (1/2) in
  along3 uvw n = 1 /\ west_value Mitgcm (by_row 0) 0 0 = 0.
Proof.
  destruct (steps_case Flat) as (B & SC & C & N & T & A & AH).
  destruct (py_faces3 Flat tall (Fixed steps) by_row none3 none3 0 0 0 (rectangle 0 10 0 60) 0 (1/2) (1/2)) as (r & E & F);
    try assumption; try exact I; [repeat split; lra|].
  exists r. replace (fst (place (rectangle 0 10 0 60) 0 (1 / 2))) with 0 in E by (unfold place, blend; cbn; ring). split; [exact E|].
  cbv zeta. rewrite s_of_is in F. destruct F as (F & _). rewrite metres_flat in F. rewrite tall_cell. split.
  - refine (eq_trans (F eq_refl) _). unfold s_of, by_row. cbn. reflexivity.
  - unfold west_value, east_value, by_row. cbn. reflexivity.
Qed.

(** A level that slopes by 3/4 below a flat one, and a flow in three directions. *)
Definition slope (k j i : Z) : R := if Z.eqb k 0 then 15 / 2 * IZR i else 100.
Definition south3 (k j i : Z) : R := 2.
Definition up3 (k j i : Z) : R := if Z.eqb k 0 then 9 / 5 else 3.
Lemma norm3_scaled a b c r : 0 < r -> a * a + b * b + c * c = r * r -> norm3 (a, b, c) = r.
Proof. intros P E. unfold norm3, dot3. rewrite E. apply sqrt_square. lra. Qed.
Lemma slope_case :
  let c := cell_of tall 0 0 in
  let h := cell3_of slope c 0 0 0 in
  convex c /\ narrow c /\ thick h /\ planar c (lower h) /\ planar c (upper h) /\
  flows_through h (1, 2, 3) (face_values one3 south3 up3 0 0 0).
Proof.
  intros c h. unfold h, c. split; [rewrite tall_cell; apply rect_convex; lra|]. split; [apply tall_narrow|].
  split; [unfold thick, cell3_of, level_of, slope; cbn; lra|]. rewrite tall_cell.
  split; [exists 0, (3/4), 0; unfold cell3_of, level_of, slope, rectangle; cbn; lra|].
  split; [exists 100, 0, 0; unfold cell3_of, level_of, slope, rectangle; cbn; lra|].
  intros x e z (X & E & Z0). unfold crosses_faces3. rewrite metres_flat, s_of_is.
  set (T := 100 - 15/2 * x). assert (P : 0 < T) by (unfold T; lra).
  assert (NX : normal_x Flat (cell3_of slope (rectangle 0 10 0 60) 0 0 0) x e z = (60 * T, 0, 0)).
  { unfold normal_x, line_y, line_z, place3, in_metres3, in_metres, minus3, cross3, cell3_of, level_of, depth_of, slope, rectangle, place, blend.
    cbn. apply tuple3; unfold T; field. }
  assert (NY : normal_y Flat (cell3_of slope (rectangle 0 10 0 60) 0 0 0) x e z = (0, 10 * T, 0)).
  { unfold normal_y, line_x, line_z, place3, in_metres3, in_metres, minus3, cross3, cell3_of, level_of, depth_of, slope, rectangle, place, blend.
    cbn. apply tuple3; unfold T; field. }
  assert (NZ : normal_z Flat (cell3_of slope (rectangle 0 10 0 60) 0 0 0) x e z = (- 450 * (1 - z), 0, 600)).
  { unfold normal_z, line_x, line_y, place3, in_metres3, in_metres, minus3, cross3, cell3_of, level_of, depth_of, slope, rectangle, place, blend.
    cbn. apply tuple3; field. }
  rewrite NX, NY, NZ. unfold along3, s_of, one3, south3, up3. cbn [s_w s_e s_s s_n s_l s_u Z.eqb Z.add].
  rewrite (norm3_scaled (60 * T) 0 0 (60 * T)) by (nra || lra). rewrite (norm3_scaled 0 (10 * T) 0 (10 * T)) by (nra || lra).
  unfold dot3. repeat split; intros ->.
  - field. lra.
  - field. lra.
  - field. lra.
  - field. lra.
  - rewrite (norm3_scaled _ 0 600 750) by lra. field.
  - rewrite (norm3_scaled _ 0 600 600) by lra. field.
Qed.

(** Moving levels between two times in JIT mode. *)
Lemma c_moving_at times tdim m g d U V W ti time xi yi zi c xsi eta zet :
  same_cell m (cell_of g xi yi) c -> (m = Flat -> narrow c) -> convex c -> unit_cube xsi eta zet ->
  away m (snd (place c xsi eta)) -> away m (snd (place c (1/2) (1/2))) ->
  thick (cell3_of (d ti) c xi yi zi) -> thick (cell3_of (d (ti + 1)%Z) c xi yi zi) ->
  (ti < tdim - 1)%Z -> times ti < times (ti + 1)%Z -> times ti <= time ->
  exists a b, crosses_faces3 m (cell3_of (d ti) c xi yi zi) xsi eta zet a (face_values (U ti) (V ti) (W ti) xi yi zi) /\
    crosses_faces3 m (cell3_of (d (ti + 1)%Z) c xi yi zi) xsi eta zet b (face_values (U (ti + 1)%Z) (V (ti + 1)%Z) (W (ti + 1)%Z) xi yi zi) /\
    c_uvw_at times tdim m g (Moving d) U V W ti time xsi eta zet xi yi zi =
    Some (let w := (time - times ti) / (times (ti + 1)%Z - times ti) in
          let '(a1, a2, a3) := a in let '(b1, b2, b3) := b in
          ((1 - w) * a1 + w * b1, (1 - w) * a2 + w * b2, (1 - w) * a3 + w * b3)).
Proof.
  intros SC NR C S A AH T0 T1 TI TT LE.
  destruct (c_faces3 m g (Moving d) (U ti) (V ti) (W ti) ti xi yi zi c xsi eta zet SC NR C T0 S A AH) as (a & EA & FA).
  destruct (c_faces3 m g (Moving d) (U (ti + 1)%Z) (V (ti + 1)%Z) (W (ti + 1)%Z) (ti + 1) xi yi zi c xsi eta zet SC NR C T1 S A AH) as (b & EB & FB).
  exists a, b. split; [exact FA|]. split; [exact FB|]. unfold c_uvw_at. rewrite EA, EB.
  replace (Z.ltb ti (tdim - 1)) with true by (symmetry; apply Z.ltb_lt; exact TI). cbn [andb].
  destruct a as [[a1 a2] a3], b as [[b1 b2] b3]. destruct (Rlt_dec (times ti) time) as [L|L].
  - unfold blend3. f_equal. cbv zeta. apply tuple3; ring.
  - replace time with (times ti) by lra. f_equal. cbv zeta. replace (times ti - times ti) with 0 by ring.
    unfold Rdiv. rewrite Rmult_0_l. apply tuple3; ring.
Qed.
