(** Concrete cases that meet the hypotheses of the theorems about advection. *)
From Coq Require Import String List ZArith QArith Qreals Reals Lra Lia Psatz Bool Arith.
From Verif Require Import GenModel GenSpec AdvModel AdvSpec AdvProofs AdvGenModel AdvGenSpec.
Import ListNotations.
Open Scope R_scope.

Definition xa (dt : R) : apart := mkA 1 1 1 0 dt None.

(** A uniform flow. *)
Lemma uniform_path : path (fun _ _ _ => (2, -3)) (xa (-5)) (fun s => 1 + 2 * s) (fun s => 1 + -3 * s).
Proof.
  split; [cbn; ring|]. split; [cbn; ring|]. intros s _. cbn [fst snd]. split.
  - apply (deriv_eq _ _ (0 + 2 * 1)); [ring|].
    apply (derivable_pt_lim_plus (fun _ => 1) (fun s => 2 * s)); [apply derivable_pt_lim_const|].
    apply (derivable_pt_lim_scal (fun s => s)). apply derivable_pt_lim_id.
  - apply (deriv_eq _ _ (0 + -3 * 1)); [ring|].
    apply (derivable_pt_lim_plus (fun _ => 1) (fun s => -3 * s)); [apply derivable_pt_lim_const|].
    apply (derivable_pt_lim_scal (fun s => s)). apply derivable_pt_lim_id.
Qed.

(** Flows given in the box of 100 around the origin only. *)
Definition boxed {A} (vel : A) (z y x : R) : option A :=
  if Rle_dec (Rabs x) 100 then if Rle_dec (Rabs y) 100 then if Rle_dec (Rabs z) 100 then Some vel else None else None else None.

Lemma boxed_in {A} (vel : A) z y x : -100 <= x <= 100 -> -100 <= y <= 100 -> -100 <= z <= 100 -> boxed vel z y x = Some vel.
Proof.
  intros X Y Z. unfold boxed.
  destruct (Rle_dec (Rabs x) 100) as [?|N]; [|exfalso; apply N, Rabs_le; lra].
  destruct (Rle_dec (Rabs y) 100) as [?|N]; [|exfalso; apply N, Rabs_le; lra].
  destruct (Rle_dec (Rabs z) 100) as [?|N]; [|exfalso; apply N, Rabs_le; lra]. reflexivity.
Qed.

Lemma abs_le x b : Rabs x <= b -> - b <= x <= b.
Proof. intros H. unfold Rabs in H. destruct (Rcase_abs x); lra. Qed.

(** (1 + t, t^3): accelerating flow. *)
Definition acc_u : list R := [1; 1].
Definition acc_v : list R := [0; 0; 0; 1].
Definition acc_UV (t z y x : R) : option (R * R) := boxed (poly acc_u t, poly acc_v t) z y x.

Lemma acc_field : field_is acc_UV (fun t _ _ => (poly acc_u t, poly acc_v t)) (xa (1/2)) 2.
Proof.
  split; [lra|]. intros t y x D X Y. unfold during in D. cbn [xa a_lon a_lat a_time a_dt a_depth] in *.
  rewrite (Rabs_right (1/2)) in X, Y by lra. apply abs_le in X, Y.
  rewrite Rmin_left, Rmax_right in D by lra.
  split; [apply boxed_in; lra|]. cbn [fst snd poly acc_u acc_v]. 
  split; apply Rabs_le; [lra|]. assert (0 <= t * t <= 1) by nra. nra.
Qed.

Lemma acc_path : path (fun t _ _ => (poly acc_u t, poly acc_v t)) (xa (1/2))
  (fun s => 1 + integ_from 0 acc_u s) (fun s => 1 + integ_from 0 acc_v s).
Proof.
  split; [cbn; field|]. split; [cbn; field|]. intros s _. cbn [fst snd]. split.
  - apply (deriv_eq _ _ (0 + poly_from 0 acc_u s)); [unfold poly_from; cbn; ring|].
    apply (derivable_pt_lim_plus (fun _ => 1) (integ_from 0 acc_u)); [apply derivable_pt_lim_const|apply integ_deriv].
  - apply (deriv_eq _ _ (0 + poly_from 0 acc_v s)); [unfold poly_from; cbn; ring|].
    apply (derivable_pt_lim_plus (fun _ => 1) (integ_from 0 acc_v)); [apply derivable_pt_lim_const|apply integ_deriv].
Qed.

(** Solid body rotation. *)
Definition rot : lin2 := mkLin 0 (-1) 1 0 0 0.
Definition rot_UV (t z y x : R) : option (R * R) := boxed (lin_vel rot t y x) z y x.
Definition xr : apart := mkA 1 0 0 0 (1/2) None.

Lemma rot_field : field_is rot_UV (lin_vel rot) xr 2.
Proof.
  split; [lra|]. intros t y x D X Y. cbn [xr a_lon a_lat a_time a_dt a_depth] in *.
  rewrite (Rabs_right (1/2)) in X, Y by lra. apply abs_le in X, Y.
  split; [apply boxed_in; lra|]. unfold lin_vel. cbn [fst snd rot l_a l_b l_c l_d l_e l_f].
  split; apply Rabs_le; lra.
Qed.

Lemma rot_path : path (lin_vel rot) xr cos sin.
Proof.
  split; [cbn; apply cos_0|]. split; [cbn; apply sin_0|]. intros s _. unfold lin_vel. cbn [fst snd rot l_a l_b l_c l_d l_e l_f]. split.
  - apply (deriv_eq _ _ (- sin s)); [ring|apply derivable_pt_lim_cos].
  - apply (deriv_eq _ _ (cos s)); [ring|apply derivable_pt_lim_sin].
Qed.

Lemma rot_samples : samples_are rot_UV (lin_vel rot) xr.
Proof.
  intros t y x w. unfold rot_UV, boxed. do 3 (destruct (Rle_dec _ _); [|discriminate]). congruence.
Qed.

(** Rotation with upwelling w = z. *)
Definition swirl : lin3 := mkLin3 (0, -1, 0, 0) (1, 0, 0, 0) (0, 0, 1, 0).
Definition swirl_UVW (t z y x : R) : option (R * R * R) := boxed (lin3_vel swirl t z y x) z y x.
Definition xs : apart := mkA 1 0 1 0 (1/2) None.

Lemma swirl_field : field3_is swirl_UVW (lin3_vel swirl) xs 2.
Proof.
  split; [lra|]. intros t z y x D X Y Z. cbn [xs a_lon a_lat a_time a_dt a_depth] in *.
  rewrite (Rabs_right (1/2)) in X, Y, Z by lra. apply abs_le in X, Y, Z.
  split; [apply boxed_in; lra|]. unfold lin3_vel. cbn [fst snd swirl m_x m_y m_z row3 cst3].
  split; [|split]; apply Rabs_le; lra.
Qed.

Lemma swirl_path : path3 (lin3_vel swirl) xs cos sin exp.
Proof.
  split; [cbn; apply cos_0|]. split; [cbn; apply sin_0|]. split; [cbn; apply exp_0|].
  intros s _. unfold lin3_vel. cbn [fst snd swirl m_x m_y m_z row3 cst3]. split; [|split].
  - apply (deriv_eq _ _ (- sin s)); [ring|apply derivable_pt_lim_cos].
  - apply (deriv_eq _ _ (cos s)); [ring|apply derivable_pt_lim_sin].
  - apply (deriv_eq _ _ (exp s)); [ring|apply derivable_pt_lim_exp].
Qed.

Definition acc3_UVW (t z y x : R) : option (R * R * R) := boxed (poly acc_u t, poly acc_v t, poly [2] t) z y x.
Lemma acc3_field : field3_is acc3_UVW (fun t _ _ _ => (poly acc_u t, poly acc_v t, poly [2] t)) (xa (1/2)) 2.
Proof.
  split; [lra|]. intros t z y x D X Y Z. unfold during in D. cbn [xa a_lon a_lat a_time a_dt a_depth] in *.
  rewrite (Rabs_right (1/2)) in X, Y, Z by lra. apply abs_le in X, Y, Z.
  rewrite Rmin_left, Rmax_right in D by lra.
  split; [apply boxed_in; lra|]. cbn [fst snd poly acc_u acc_v]. 
  split; [|split]; apply Rabs_le; [lra| |lra]. assert (0 <= t * t <= 1) by nra. nra.
Qed.
Lemma acc3_path : path3 (fun t _ _ _ => (poly acc_u t, poly acc_v t, poly [2] t)) (xa (1/2))
  (fun s => 1 + integ_from 0 acc_u s) (fun s => 1 + integ_from 0 acc_v s) (fun s => 1 + integ_from 0 [2] s).
Proof.
  destruct acc_path as (X & Y & D). split; [exact X|]. split; [exact Y|]. split; [cbn; field|].
  intros s Hs. destruct (D s Hs). cbn [fst snd] in *. split; [assumption|]. split; [assumption|].
  apply (deriv_eq _ _ (0 + poly_from 0 [2] s)); [unfold poly_from; cbn; ring|].
  apply (derivable_pt_lim_plus (fun _ => 1) (integ_from 0 [2])); [apply derivable_pt_lim_const|apply integ_deriv].
Qed.

(** * A kernel program *)

Definition gx_ncomp (_ : string) : nat := 1.
Definition gx_vdim (f : string) : nat := if String.eqb f "UVW" then 3 else 2.
Definition gx_aint (a : string) : bool := String.eqb a "state".
Definition gx_libm (_ : string) (_ : list Q) : option Q := None.
Definition gx_fsample (_ : string) (_ _ _ _ : Q) : sample := SampleErr 6.
Definition gx_vfsample (f : string) (t z y x : Q) : vsample :=
  if String.eqb f "UVW" then VSampled [[(- y)%Q]; [x]; [z]] else VSampled [[(- y)%Q]; [x]].
Definition gx_consts (_ : leaf) : Q := 0%Q.
Definition gx_att (a : string) : pval :=
  if String.eqb a "state" then PI 1 else if String.eqb a "lon" then PF 1 else if String.eqb a "dt" then PF (1#2) else PF 2.
Definition gx_catt (a : string) : cval :=
  if String.eqb a "state" then CI 1 else if String.eqb a "lon" then CR 1 else if String.eqb a "dt" then CR (1#2) else CR 2.
Definition gx_p : pst := mkPst (fun x => if String.eqb x "time" then Some (PF 3) else None) gx_att false false.
Definition gx_c : cst := mkCst (fun x => if String.eqb x "time" then CR 3 else CR 0) gx_catt (fun _ => CR 0).

Lemma gx_runnable f n : gx_vdim f = n -> runnable gx_ncomp gx_vdim gx_aint gx_fsample gx_vfsample f n gx_p gx_c.
Proof.
  intros Hn. unfold runnable, samples_ok, agree. repeat match goal with |- _ /\ _ => split end; try reflexivity; try exact Hn.
  - intros f0 t z y x vs H. discriminate H.
  - intros f0 t z y x c H. injection H as <-. discriminate.
  - intros f0 t z y x vs H. unfold gx_vfsample, gx_vdim in *.
    destruct (String.eqb f0 "UVW"); injection H as <-; split; try reflexivity; repeat constructor.
  - intros f0 t z y x c H. unfold gx_vfsample in H. destruct (String.eqb f0 "UVW"); discriminate H.
  - intros x v H. cbn [gx_p gx_c p_loc c_loc] in *. destruct (String.eqb x "time"); [|discriminate H].
    injection H as <-. exists 3%Q. split; reflexivity.
  - intros a. cbn [gx_p gx_c p_att c_att]. unfold gx_att, gx_catt, gx_aint.
    destruct (String.eqb a "state"); [split; reflexivity|]. destruct (String.eqb a "lon"); [split; reflexivity|].
    destruct (String.eqb a "dt"); split; reflexivity.
  - discriminate.
Qed.

Lemma gx_reads : reads2 gx_vfsample (fun t z y x => Some (- y, x)).
Proof.
  intros t z y x. cbn [gx_vfsample String.eqb Ascii.eqb Bool.eqb nth]. unfold gx_vfsample. cbn.
  f_equal. f_equal; rewrite Q2R_plus, RMicromega.Q2R_0, Rplus_0_r.
  - rewrite Q2R_opp. f_equal. apply Qeq_eqR. symmetry. apply Qred_correct.
  - apply Qeq_eqR. symmetry. apply Qred_correct.
Qed.

Lemma gx_reads3 : reads3 gx_vfsample (fun t z y x => Some (- y, x, z)).
Proof.
  intros t z y x. unfold gx_vfsample. cbn.
  f_equal. f_equal; [f_equal|]; rewrite Q2R_plus, RMicromega.Q2R_0, Rplus_0_r.
  - rewrite Q2R_opp. f_equal. apply Qeq_eqR. symmetry. apply Qred_correct.
  - apply Qeq_eqR. symmetry. apply Qred_correct.
  - apply Qeq_eqR. symmetry. apply Qred_correct.
Qed.

Lemma gx_coords : coords gx_p 3 1 2 2 (1#2).
Proof. repeat split. Qed.

(** * RK45 *)

Lemma rot_stages : exists ks, stages (fun t z y x => Some (lin_vel rot t y x)) xr fehlberg [] = Some ks.
Proof. eexists. reflexivity. Qed.
Lemma rot_all : samples_are (fun t z y x => Some (lin_vel rot t y x)) (lin_vel rot) xr.
Proof. intros t y x w H. congruence. Qed.
Lemma acc_samples : samples_are acc_UV (fun t _ _ => (poly acc_u t, poly acc_v t)) (xa (1/2)).
Proof.
  intros t y x w. unfold acc_UV, boxed. do 3 (destruct (Rle_dec _ _); [|discriminate]). congruence.
Qed.
