(** Proofs for C47: the path through a cell. *)
From Coq Require Import Reals ZArith List Lra Lia Bool.
From Verif Require Import UnitModel UnitSpec UnitProofs CGridModel CGridSpec CGridProofs AdvModel AnaModel AnaSpec AnaProofs AnaProofs2.
Import ListNotations.
Open Scope R_scope.

(** ** The time *)
Lemma first_after_found o step : forall n k, 0 < step -> (k + n = 10)%nat -> o < 9 * step -> (k = 0%nat /\ 0 <= o \/ (1 <= k)%nat /\ INR (k - 1) * step <= o) ->
  exists j, (1 <= j <= 9)%nat /\ first_after o step k n = Some (INR j * step) /\ INR (j - 1) * step <= o < INR j * step.
Proof.
  induction n as [|n IH]; intros k P K L B.
  - exfalso. assert (k = 10%nat) by lia. subst k. destruct B as [(B & _)|(_ & B)]; [discriminate|].
    replace (INR (10 - 1)) with 9 in B by (simpl; ring). lra.
  - cbn [first_after]. destruct (Rlt_dec o (INR k * step)) as [G|G].
    + destruct B as [(B & O)|(B & O)]; [subst k; cbn [INR] in G; lra|]. exists k. split; [|split; [reflexivity|lra]].
      split; [exact B|]. destruct (Nat.le_gt_cases k 9); [assumption|]. exfalso. assert (k = 10%nat) by lia. subst k.
      replace (INR (10 - 1)) with 9 in O by (simpl; ring). lra.
    + apply IH; [exact P|lia|exact L|]. right. split; [lia|]. replace (S k - 1)%nat with k by lia. lra.
Qed.

Lemma frames_ok f ti time dt : in_time f ti time -> 0 < dt ->
  exists T, frames f ti time dt = Some (weight f ti time, T) /\ 0 < T <= dt /\ (T = dt \/ ninth f ti time T).
Proof.
  intros I D. unfold frames, weight. destruct (fl_tdim f <=? 1)%Z eqn:E.
  - exists dt. split; [reflexivity|]. split; [lra|left; reflexivity].
  - apply Z.leb_gt in E. destruct (I E) as (I1 & I2). destruct (fl_tdim f <=? ti + 1)%Z eqn:E2; [apply Z.leb_le in E2; lia|].
    set (t0 := fl_times f ti) in *. set (t1 := fl_times f (ti + 1)%Z) in *.
    replace (INR (I_s - 1)) with 9 by (simpl; ring).
    destruct (first_after_found (time - t0) ((t1 - t0) / 9) I_s 0) as (j & J & F & B); [lra|reflexivity|lra|left; split; [reflexivity|lra]|].
    rewrite F. eexists. split; [reflexivity|].
    destruct (Rle_dec dt (INR j * ((t1 - t0) / 9))) as [L|L].
    + rewrite Rmin_left by exact L. split; [lra|left; reflexivity].
    + rewrite Rmin_right by lra. split; [lra|]. right. split; [lia|]. exists j. split; [exact J|]. fold t0 t1.
      split; [field|]. lra.
Qed.

(** ** A path from a solution *)
Lemma path_deriv F0 F1 r a c vol t : derivable_pt_lim (fun u => blend a c (sol F0 F1 r (u / vol))) t
  ((c - a) * (flow_at F0 F1 (sol F0 F1 r (t / vol)) / vol)).
Proof.
  assert (D : derivable_pt_lim (fun u => sol F0 F1 r (u / vol)) t (flow_at F0 F1 (sol F0 F1 r (t / vol)) * (1 * / vol))).
  { apply (derivable_pt_lim_comp (fun u => u * / vol) (sol F0 F1 r)); [|apply sol_deriv].
    assert (D1 : derivable_pt_lim (fun u => / vol * u) t (/ vol * 1)) by (apply derivable_pt_lim_scal, derivable_pt_lim_id).
    replace (1 * / vol) with (/ vol * 1) by ring. intros e He. destruct (D1 e He) as (d & Hd). exists d. intros h H1 H2.
    specialize (Hd h H1 H2). rewrite (Rmult_comm (t + h)), (Rmult_comm t). exact Hd. }
  assert (D2 : derivable_pt_lim (fun u => a + (c - a) * sol F0 F1 r (u / vol)) t (0 + (c - a) * (flow_at F0 F1 (sol F0 F1 r (t / vol)) * (1 * / vol)))).
  { apply derivable_pt_lim_plus; [apply derivable_pt_lim_const|].
    apply (derivable_pt_lim_scal (fun u => sol F0 F1 r (u / vol))). exact D. }
  replace ((c - a) * (flow_at F0 F1 (sol F0 F1 r (t / vol)) / vol)) with (0 + (c - a) * (flow_at F0 F1 (sol F0 F1 r (t / vol)) * (1 * / vol))) by (unfold Rdiv; ring).
  intros e He. destruct (D2 e He) as (d & Hd). exists d. intros h H1 H2. specialize (Hd h H1 H2).
  unfold blend. match goal with |- Rabs ((?u - ?w) / h - _) < e => match type of Hd with Rabs ((?u' - ?w') / h - _) < e =>
    replace u with u' by ring; replace w with w' by ring end end. exact Hd.
Qed.

Lemma flow_scale a c k r : flow_at (a * k) (c * k) r = flow_at a c r * k.
Proof. unfold flow_at. ring. Qed.
Lemma unblend a c r : a < c -> (blend a c r - a) / (c - a) = r.
Proof. intros H. unfold blend. field. lra. Qed.
Lemma blend_in a c r : a < c -> 0 <= r <= 1 -> a <= blend a c r <= c.
Proof. intros. unfold blend. nra. Qed.
Lemma blend_0 a c : blend a c 0 = a.
Proof. unfold blend. ring. Qed.
Lemma blend_1 a c : blend a c 1 = c.
Proof. unfold blend. ring. Qed.

(** ** On a flat mesh *)
Lemma exact_flat f lon lat ti w p :
  fl_mesh f = Flat -> fl_grid f = Rectilinear lon lat -> 0 < a_dt p -> in_time f ti (a_time p) ->
  let v := shift f w in
  let b := box_of f lon lat v in
  let tau := weight f ti (a_time p) in
  solid (fl_withW f) b -> located (fl_withW f) b v p -> clear_box f ti tau v b ->
  exists p' X Y Z, analytical f ti w p = ADone p' /\
    0 < a_dt p' <= a_dt p /\
    trajectory (velocity f ti tau (level f (s_zi v)) v b) p (a_dt p') X Y Z /\
    (forall t, 0 <= t <= a_dt p' -> inside (fl_withW f) b (X t) (Y t) (Z t)) /\
    (a_lon p' = X (a_dt p') /\ a_lat p' = Y (a_dt p') /\ a_depth p' = Z (a_dt p')) /\
    (a_time p' = a_time p /\ a_next p' = a_next p) /\
    (a_dt p' = a_dt p \/ ninth f ti (a_time p) (a_dt p') \/ on_face (fl_withW f) b (a_lon p') (a_lat p') (a_depth p')).
Proof.
  intros M G DT IT v b tau S L C.
  destruct (frames_ok f ti (a_time p) (a_dt p) IT DT) as (ds & FR & DS & DE).
  assert (P : plain (fl_mesh f) b p) by (rewrite M; exact I).
  destruct (core f lon lat ti v p G S P w tau ds DT FR (proj1 DS) eq_refl L C) as (s & s0 & s1 & sin & send & sval).
  cbv zeta in *. fold b in sval, sin, send, s1.
  set (dz := thickness f b) in *.
  set (U := frozen f ti tau (fl_U f) (level f (s_zi v))) in *. set (V := frozen f ti tau (fl_V f) (level f (s_zi v))) in *.
  set (W := frozen f ti tau (fl_W f)) in *.
  set (floor := width (fl_mesh f) b (a_lat p) * height (fl_mesh f) b) in *.
  set (A0 := west_value Nemo U (s_xi v) (s_yi v)) in *. set (A1 := east_value Nemo U (s_xi v) (s_yi v)) in *.
  set (B0 := south_value Nemo V (s_xi v) (s_yi v)) in *. set (B1 := north_value Nemo V (s_xi v) (s_yi v)) in *.
  set (C0 := W (s_zi v) (s_yi v + 1)%Z (s_xi v + 1)%Z) in *. set (C1 := W (s_zi v + 1)%Z (s_yi v + 1)%Z (s_xi v + 1)%Z) in *.
  set (sx := sol (A0 * height (fl_mesh f) b * dz) (A1 * height (fl_mesh f) b * dz) (s_xsi v)) in *.
  set (sy := sol (B0 * width (fl_mesh f) b (b_y0 b) * dz) (B1 * width (fl_mesh f) b (b_y1 b) * dz) (s_eta v)) in *.
  set (sz := sol (C0 * floor) (C1 * floor) (s_zeta v)) in *.
  set (vol := floor * dz) in *.
  pose proof S as (Sx & Sy & Sz). destruct L as (Lx & Ly & Lz).
  assert (W_is : forall y, width (fl_mesh f) b y = b_x1 b - b_x0 b) by (intros; rewrite M; reflexivity).
  assert (H_is : height (fl_mesh f) b = b_y1 b - b_y0 b) by (rewrite M; reflexivity).
  assert (F_is : floor = (b_x1 b - b_x0 b) * (b_y1 b - b_y0 b)) by (unfold floor; rewrite W_is, H_is; reflexivity).
  assert (Fp : 0 < floor) by (rewrite F_is; apply Rmult_lt_0_compat; lra).
  assert (Dz : 0 < dz) by (unfold dz, thickness; destruct (fl_withW f); [specialize (Sz eq_refl); lra|lra]).
  assert (Vp : 0 < vol) by (apply Rmult_lt_0_compat; assumption).
  assert (TV : s * vol / vol = s) by (field; lra).
  exists (mkA (blend (b_x0 b) (b_x1 b) (sx s)) (blend (b_y0 b) (b_y1 b) (sy s))
      (if fl_withW f then blend (b_z0 b) (b_z1 b) (sz s) else a_depth p) (a_time p) (s * vol) (a_next p)).
  exists (fun t => blend (b_x0 b) (b_x1 b) (sx (t / vol))), (fun t => blend (b_y0 b) (b_y1 b) (sy (t / vol))),
    (fun t => if fl_withW f then blend (b_z0 b) (b_z1 b) (sz (t / vol)) else a_depth p).
  cbn [a_lon a_lat a_depth a_time a_dt a_next]. rewrite !TV.
  assert (Rg : forall t, 0 <= t <= s * vol -> 0 <= t / vol <= s).
  { intros t Ht. split; [apply Rmult_le_pos; [lra|left; apply Rinv_0_lt_compat; exact Vp]|].
    apply Rmult_le_reg_r with vol; [exact Vp|]. replace (t / vol * vol) with t by (field; lra). lra. }
  split; [exact sval|]. split; [split; [apply Rmult_lt_0_compat; assumption|lra]|]. split; [|split; [|split; [|split]]].
  - assert (Z0 : 0 / vol = 0) by (field; lra).
    split; [rewrite Z0; unfold sx; rewrite sol_0; symmetry; exact Lx|].
    split; [rewrite Z0; unfold sy; rewrite sol_0; symmetry; exact Ly|].
    split; [rewrite Z0; destruct (fl_withW f); [unfold sz; rewrite sol_0; symmetry; apply Lz; reflexivity|reflexivity]|].
    intros t Ht. do 3 eexists. split; [apply (velocity_is f lon lat ti v p G S P); right; exact M|].
    fold b. fold U V W. fold A0 A1 B0 B1 C0 C1. cbv beta. rewrite !unblend by assumption. split; [|split].
    + match goal with |- derivable_pt_lim _ _ ?d => replace d with
        ((b_x1 b - b_x0 b) * (flow_at (A0 * height (fl_mesh f) b * dz) (A1 * height (fl_mesh f) b * dz) (sx (t / vol)) / vol)) end.
      * apply path_deriv.
      * rewrite !flow_scale. unfold vol. rewrite F_is, W_is, H_is. field. lra.
    + match goal with |- derivable_pt_lim _ _ ?d => replace d with
        ((b_y1 b - b_y0 b) * (flow_at (B0 * width (fl_mesh f) b (b_y0 b) * dz) (B1 * width (fl_mesh f) b (b_y1 b) * dz) (sy (t / vol)) / vol)) end.
      * apply path_deriv.
      * rewrite !W_is, !flow_scale. unfold vol. rewrite F_is, H_is. field. lra.
    + clear send sval sin. destruct (fl_withW f) eqn:HW; [|apply derivable_pt_lim_const]. specialize (Sz eq_refl).
      rewrite unblend by exact Sz.
      match goal with |- derivable_pt_lim _ _ ?d => replace d with
        ((b_z1 b - b_z0 b) * (flow_at (C0 * floor) (C1 * floor) (sz (t / vol)) / vol)) end.
      * apply path_deriv.
      * rewrite flow_scale. unfold vol, dz, thickness. rewrite HW. field. lra.
  - intros t Ht. destruct (sin (t / vol) (Rg t Ht)) as (i1 & i2 & i3).
    split; [apply blend_in; assumption|]. split; [apply blend_in; assumption|].
    intros HW. rewrite HW. apply blend_in; [apply Sz; exact HW|apply i3; exact HW].
  - split; [reflexivity|]. split; reflexivity.
  - split; reflexivity.
  - destruct send as [e|[e|[e|[e|[e|(HW & [e|e])]]]]].
    + rewrite e. destruct DE as [DE|DE]; [left; exact DE|right; left; exact DE].
    + right; right. left. rewrite e. apply blend_0.
    + right; right. right. left. rewrite e. apply blend_1.
    + right; right. right. right. left. rewrite e. apply blend_0.
    + right; right. right. right. right. left. rewrite e. apply blend_1.
    + right; right. do 4 right. split; [exact HW|]. left. rewrite HW, e. apply blend_0.
    + right; right. do 4 right. split; [exact HW|]. right. rewrite HW, e. apply blend_1.
Qed.

(** There is one path only. *)
Lemma path_unique f lon lat ti w tau k p T X Y Z X2 Y2 Z2 :
  fl_mesh f = Flat -> fl_grid f = Rectilinear lon lat -> let b := box_of f lon lat w in solid (fl_withW f) b -> 0 <= T ->
  trajectory (velocity f ti tau k w b) p T X Y Z -> trajectory (velocity f ti tau k w b) p T X2 Y2 Z2 ->
  X T = X2 T /\ Y T = Y2 T /\ Z T = Z2 T.
Proof.
  intros M G b S HT (x0 & y0 & z0 & D) (x2 & y2 & z2 & D2).
  assert (P : plain (fl_mesh f) b p) by (rewrite M; exact I). pose proof S as (Sx & Sy & Sz).
  assert (W_is : forall y, width (fl_mesh f) b y = b_x1 b - b_x0 b) by (intros; rewrite M; reflexivity).
  assert (H_is : height (fl_mesh f) b = b_y1 b - b_y0 b) by (rewrite M; reflexivity).
  assert (VI : exists a0 a1 c0 c1 e0 e1, forall x y z, velocity f ti tau k w b x y z = Some (a0 + a1 * x, c0 + c1 * y, e0 + e1 * z)).
  { set (U := frozen f ti tau (fl_U f) k). set (V := frozen f ti tau (fl_V f) k). set (W := frozen f ti tau (fl_W f)).
    set (A0 := west_value Nemo U (s_xi w) (s_yi w)). set (A1 := east_value Nemo U (s_xi w) (s_yi w)).
    set (B0 := south_value Nemo V (s_xi w) (s_yi w)). set (B1 := north_value Nemo V (s_xi w) (s_yi w)).
    set (C0 := W (s_zi w) (s_yi w + 1)%Z (s_xi w + 1)%Z). set (C1 := W (s_zi w + 1)%Z (s_yi w + 1)%Z (s_xi w + 1)%Z).
    exists (A0 - (A1 - A0) * b_x0 b / (b_x1 b - b_x0 b)), ((A1 - A0) / (b_x1 b - b_x0 b)),
      (B0 - (B1 - B0) * b_y0 b / (b_y1 b - b_y0 b)), ((B1 - B0) / (b_y1 b - b_y0 b)),
      (if fl_withW f then C0 - (C1 - C0) * b_z0 b / (b_z1 b - b_z0 b) else 0), (if fl_withW f then (C1 - C0) / (b_z1 b - b_z0 b) else 0).
    intros x y z. unfold b. rewrite (velocity_is f lon lat ti w p G S P) by (right; exact M).
    fold b U V W A0 A1 B0 B1 C0 C1. rewrite !W_is, H_is. apply f_equal. apply f_equal2; [apply f_equal2|].
    - unfold flow_at. field. lra.
    - unfold flow_at. field. lra.
    - destruct (fl_withW f); [specialize (Sz eq_refl); unfold flow_at; field; lra|ring]. }
  destruct VI as (a0 & a1 & c0 & c1 & e0 & e1 & VI).
  assert (DD : forall X Y Z, (forall t, 0 <= t <= T -> exists u v w0, velocity f ti tau k w b (X t) (Y t) (Z t) = Some (u, v, w0) /\
    derivable_pt_lim X t u /\ derivable_pt_lim Y t v /\ derivable_pt_lim Z t w0) -> forall t, 0 <= t <= T ->
    derivable_pt_lim X t (a0 + a1 * X t) /\ derivable_pt_lim Y t (c0 + c1 * Y t) /\ derivable_pt_lim Z t (e0 + e1 * Z t)).
  { intros X' Y' Z' H t Ht. destruct (H t Ht) as (u & v & w0 & E & d1 & d2 & d3). rewrite VI in E. injection E as <- <- <-.
    split; [exact d1|split; [exact d2|exact d3]]. }
  split; [|split].
  - apply (linear_unique a0 a1); [exact HT|congruence|intros; apply (DD X Y Z D); assumption|intros; apply (DD X2 Y2 Z2 D2); assumption].
  - apply (linear_unique c0 c1); [exact HT|congruence|intros; apply (DD X Y Z D); assumption|intros; apply (DD X2 Y2 Z2 D2); assumption].
  - apply (linear_unique e0 e1); [exact HT|congruence|intros; apply (DD X Y Z D); assumption|intros; apply (DD X2 Y2 Z2 D2); assumption].
Qed.

(** ** On a spherical mesh: the line, with a clock that runs at the speed of the first latitude *)
Lemma exact_line f lon lat ti w p :
  fl_withW f = false -> fl_grid f = Rectilinear lon lat -> 0 < a_dt p -> in_time f ti (a_time p) ->
  let v := shift f w in
  let b := box_of f lon lat v in
  let tau := weight f ti (a_time p) in
  solid false b -> plain (fl_mesh f) b p -> located false b v p -> clear_box f ti tau v b ->
  exists p' s X Y, analytical f ti w p = ADone p' /\ 0 < s /\ (X 0 = a_lon p /\ Y 0 = a_lat p) /\
    (forall t, 0 <= t <= s -> inside false b (X t) (Y t) 0 /\
       exists u v', velocity f ti tau 0 v b (X t) (Y t) 0 = Some (u, v', 0) /\
         let area := width (fl_mesh f) b (Y t) * height (fl_mesh f) b in
         derivable_pt_lim X t (u * area) /\ derivable_pt_lim Y t (v' * area)) /\
    (a_lon p' = X s /\ a_lat p' = Y s /\ a_depth p' = a_depth p /\ a_time p' = a_time p /\ a_next p' = a_next p) /\
    a_dt p' = s * (width (fl_mesh f) b (a_lat p) * height (fl_mesh f) b) /\
    0 < a_dt p' <= a_dt p /\
    (a_dt p' = a_dt p \/ ninth f ti (a_time p) (a_dt p') \/ on_face false b (a_lon p') (a_lat p') (a_depth p')).
Proof.
  intros HW G DT IT v b tau S P L C.
  destruct (frames_ok f ti (a_time p) (a_dt p) IT DT) as (ds & FR & DS & DE).
  assert (S' : solid (fl_withW f) b) by (rewrite HW; exact S).
  assert (L' : located (fl_withW f) b v p) by (rewrite HW; exact L).
  destruct (core f lon lat ti v p G S' P w tau ds DT FR (proj1 DS) eq_refl L' C) as (s & s0 & s1 & sin & send & sval).
  cbv zeta in *. fold b in sval, sin, send, s1. unfold thickness in *. unfold level in *. rewrite HW in *.
  set (U := frozen f ti tau (fl_U f) 0) in *. set (V := frozen f ti tau (fl_V f) 0) in *.
  set (A0 := west_value Nemo U (s_xi v) (s_yi v)) in *. set (A1 := east_value Nemo U (s_xi v) (s_yi v)) in *.
  set (B0 := south_value Nemo V (s_xi v) (s_yi v)) in *. set (B1 := north_value Nemo V (s_xi v) (s_yi v)) in *.
  set (floor := width (fl_mesh f) b (a_lat p) * height (fl_mesh f) b) in *.
  clear S' L'. assert (S' : solid (fl_withW f) b) by (rewrite HW; exact S).
  pose proof S as (Sx & Sy & _). pose proof L as (Lx & Ly & _).
  set (sx := sol (A0 * height (fl_mesh f) b * 1) (A1 * height (fl_mesh f) b * 1) (s_xsi v)) in *.
  set (sy := sol (B0 * width (fl_mesh f) b (b_y0 b) * 1) (B1 * width (fl_mesh f) b (b_y1 b) * 1) (s_eta v)) in *.
  rewrite (Rmult_1_r floor) in *.
  eexists _, s, (fun t => blend (b_x0 b) (b_x1 b) (sx t)), (fun t => blend (b_y0 b) (b_y1 b) (sy t)).
  split; [exact sval|]. cbn [a_lon a_lat a_depth a_time a_dt a_next]. split; [exact s0|].
  split; [split; [unfold sx; rewrite sol_0; symmetry; exact Lx|unfold sy; rewrite sol_0; symmetry; exact Ly]|].
  assert (Fp : 0 < floor).
  { destruct (sin 0) as (_ & i2 & _); [lra|]. unfold sy in i2. rewrite sol_0 in i2.
    apply Rmult_lt_0_compat; [|apply (height_pos f lon lat v p S' P)].
    apply (width_pos f lon lat v p S' P). apply (away_in f lon lat v p P). fold b. rewrite Ly. apply blend_in; assumption. }
  split; [|split; [|split; [|split]]].
  - intros t Ht. destruct (sin t Ht) as (i1 & i2 & _).
    pose proof (blend_in _ _ _ Sx i1) as Xi. pose proof (blend_in _ _ _ Sy i2) as Yi.
    split; [split; [exact Xi|split; [exact Yi|discriminate]]|].
    set (yt := blend (b_y0 b) (b_y1 b) (sy t)) in *.
    assert (Wp : 0 < width (fl_mesh f) b yt) by (apply (width_pos f lon lat v p S' P), (away_in f lon lat v p P); exact Yi).
    pose proof (height_pos f lon lat v p S' P) as Hp. fold b in Hp.
    do 2 eexists. split.
    + unfold b. rewrite (velocity_is f lon lat ti v p G S' P) by (left; assumption). rewrite HW. reflexivity.
    + fold b U V A0 A1 B0 B1. rewrite unblend by exact Sx. replace ((yt - b_y0 b) / (b_y1 b - b_y0 b)) with (sy t) by (unfold yt; rewrite unblend by exact Sy; reflexivity). split.
      * match goal with |- derivable_pt_lim _ _ ?d => replace d with
          ((b_x1 b - b_x0 b) * (flow_at (A0 * height (fl_mesh f) b * 1) (A1 * height (fl_mesh f) b * 1) (sx (t / 1)) / 1)) end.
        -- pose proof (path_deriv (A0 * height (fl_mesh f) b * 1) (A1 * height (fl_mesh f) b * 1) (s_xsi v) (b_x0 b) (b_x1 b) 1 t) as D.
           fold sx in D. intros e He. destruct (D e He) as (d & Hd). exists d. intros h h1 h2. specialize (Hd h h1 h2).
           replace ((t + h) / 1) with (t + h) in Hd by field. replace (t / 1) with t in * by field. exact Hd.
        -- replace (t / 1) with t by field. rewrite !flow_scale. field. split; lra.
      * match goal with |- derivable_pt_lim _ _ ?d => replace d with
          ((b_y1 b - b_y0 b) * (flow_at (B0 * width (fl_mesh f) b (b_y0 b) * 1) (B1 * width (fl_mesh f) b (b_y1 b) * 1) (sy (t / 1)) / 1)) end.
        -- pose proof (path_deriv (B0 * width (fl_mesh f) b (b_y0 b) * 1) (B1 * width (fl_mesh f) b (b_y1 b) * 1) (s_eta v) (b_y0 b) (b_y1 b) 1 t) as D.
           fold sy in D. intros e He. destruct (D e He) as (d & Hd). exists d. intros h h1 h2. specialize (Hd h h1 h2).
           replace ((t + h) / 1) with (t + h) in Hd by field. replace (t / 1) with t in * by field. exact Hd.
        -- replace (t / 1) with t by field. unfold flow_at. field. split; lra.
  - repeat split.
  - reflexivity.
  - split; [apply Rmult_lt_0_compat; assumption|lra].
  - destruct send as [e|[e|[e|[e|[e|(Q & _)]]]]]; [..|discriminate].
    + rewrite e. destruct DE as [DE|DE]; [left; exact DE|right; left; exact DE].
    + right; right. left. rewrite e. apply blend_0.
    + right; right. right. left. rewrite e. apply blend_1.
    + right; right. right. right. left. rewrite e. apply blend_0.
    + right; right. right. right. right. left. rewrite e. apply blend_1.
Qed.
