(** Proofs for C47: the choice of the cell at a face. *)
From Coq Require Import Reals ZArith List Lra Lia Bool.
From Verif Require Import UnitModel UnitSpec CGridModel CGridSpec AdvModel AnaModel AnaSpec AnaProofs4.
Import ListNotations.
Open Scope R_scope.

Lemma at_1_dec r : r = 1 \/ tol <= Rabs (r - 1) -> (if Rlt_dec (Rabs (r - 1)) tol then true else false) = true <-> r = 1.
Proof.
  intros H. destruct (Rlt_dec (Rabs (r - 1)) tol) as [L | L]; split; intros Q; try discriminate; try reflexivity.
  - destruct H as [-> | H]; [reflexivity|lra].
  - subst r. exfalso. apply L. rewrite Rminus_eq_0, Rabs_R0. unfold tol. lra.
Qed.

Lemma blend_ends a b : blend a b 0 = a /\ blend a b 1 = b.
Proof. unfold blend. split; ring. Qed.

Lemma next_cell f lon lat w p :
  located (fl_withW f) (box_of f lon lat w) w p ->
  (forall r, In r [s_xsi w; s_eta w; s_zeta w] -> r = 1 \/ tol <= Rabs (r - 1)) ->
  let v := shift f w in
  let k := level f (s_zi w) in
  located (fl_withW f) (box_of f lon lat v) v p /\
  moved_on (s_xsi w = 1 /\ 0 < fl_U f 0%Z k (s_yi w + 1)%Z (s_xi w + 1)%Z) (s_xi w) (s_xi v) (s_xsi w) (s_xsi v) /\
  moved_on (s_eta w = 1 /\ 0 < fl_V f 0%Z k (s_yi w + 1)%Z (s_xi v + 1)%Z) (s_yi w) (s_yi v) (s_eta w) (s_eta v) /\
  moved_on (fl_withW f = true /\ s_zeta w = 1 /\ 0 < fl_W f 0%Z k (s_yi v + 1)%Z (s_xi v + 1)%Z) (s_zi w) (s_zi v) (s_zeta w) (s_zeta v).
Proof.
  intros (LX & LY & LZ) AT. cbv zeta.
  pose proof (at_1_dec (s_xsi w) (AT _ (or_introl eq_refl))) as AX.
  pose proof (at_1_dec (s_eta w) (AT _ (or_intror (or_introl eq_refl)))) as AY.
  pose proof (at_1_dec (s_zeta w) (AT _ (or_intror (or_intror (or_introl eq_refl))))) as AZ. clear AT.
  destruct w as [xsi eta zeta xi yi zi]. cbn [s_xsi s_eta s_zeta s_xi s_yi s_zi box_of b_x0 b_x1 b_y0 b_y1 b_z0 b_z1] in *.
  unfold shift, moved_on, located. cbv zeta. cbn [s_xsi s_eta s_zeta s_xi s_yi s_zi].
  destruct (if Rlt_dec (Rabs (xsi - 1)) tol then true else false); cbn [andb];
  [destruct (Rlt_dec 0 (fl_U f 0%Z (level f zi) (yi + 1)%Z (xi + 1)%Z)) as [UX | UX]|]; cbn [s_xsi s_eta s_zeta s_xi s_yi s_zi];
  (destruct (if Rlt_dec (Rabs (eta - 1)) tol then true else false); cbn [andb];
   [match goal with |- context [fl_V f 0%Z ?k ?j ?i] => destruct (Rlt_dec 0 (fl_V f 0%Z k j i)) as [UY | UY] end|]); cbn [s_xsi s_eta s_zeta s_xi s_yi s_zi];
  (destruct (fl_withW f); cbn [andb]; [destruct (if Rlt_dec (Rabs (zeta - 1)) tol then true else false); cbn [andb];
     [match goal with |- context [Rlt_dec 0 (fl_W f 0%Z ?k ?j ?i)] => destruct (Rlt_dec 0 (fl_W f 0%Z k j i)) as [UZ | UZ] end|]|]);
  cbn [s_xsi s_eta s_zeta s_xi s_yi s_zi box_of b_x0 b_x1 b_y0 b_y1 b_z0 b_z1];
  try (assert (xsi = 1) by (apply AX; reflexivity); subst xsi);
  try (assert (eta = 1) by (apply AY; reflexivity); subst eta);
  try (assert (zeta = 1) by (apply AZ; reflexivity); subst zeta);
  rewrite ?(proj1 (blend_ends _ _)); rewrite ?(proj2 (blend_ends _ _)) in *;
  try (assert (xsi <> 1) by (intros Q; apply AX in Q; discriminate));
  try (assert (eta <> 1) by (intros Q; apply AY in Q; discriminate));
  try (assert (zeta <> 1) by (intros Q; apply AZ in Q; discriminate));
  repeat match goal with |- _ /\ _ => split end; intros; try split; try tauto; try discriminate; try assumption; try (apply LZ; reflexivity);
  match goal with H : false = true /\ _ |- _ => destruct H; discriminate end.
Qed.

(** On the east face of the first cell, with the flow going east. *)
Lemma next_cell_met :
  let f := zonal 1 (fun _ => 1) in let w := here 1 (1/2) in
  located false (box_of f (fun i => 1 * IZR i) (fun j => 1 * IZR j) w) w (part 1 (1/2) 10) /\
  (forall r, In r [s_xsi w; s_eta w; s_zeta w] -> r = 1 \/ tol <= Rabs (r - 1)) /\
  (s_xsi w = 1 /\ 0 < fl_U f 0%Z (level f (s_zi w)) (s_yi w + 1)%Z (s_xi w + 1)%Z) /\
  shift f w = mkFound 0 (1/2) 0 1 0 0.
Proof.
  cbv zeta. split; [|split; [|split]].
  - unfold located, box_of, here, part, blend. cbn. split; [lra|]. split; [lra|discriminate].
  - intros r [<-|[<-|[<-|[]]]]; [left; reflexivity|right|right]; cbn [here s_eta s_zeta]; rewrite Rabs_left by lra; unfold tol; lra.
  - split; [reflexivity|]. cbn. lra.
  - unfold shift, here, zonal, cells. cbn [s_xsi s_eta s_zeta s_xi s_yi s_zi fl_U fl_V fl_W fl_withW andb].
    destruct (Rlt_dec (Rabs (1 - 1)) tol) as [A | A]; [|exfalso; apply A; rewrite Rminus_eq_0, Rabs_R0; unfold tol; lra].
    destruct (Rlt_dec 0 1); [|lra]. cbn [andb s_xsi s_eta s_zeta s_xi s_yi s_zi].
    destruct (Rlt_dec (Rabs (1 / 2 - 1)) tol) as [B | B]; [exfalso; rewrite Rabs_left in B by lra; unfold tol in B; lra|]. reflexivity.
Qed.
