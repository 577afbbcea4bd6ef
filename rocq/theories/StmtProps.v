(** C33: kernel statements mean the same in C as in Python. *)
From Coq Require Import String List ZArith QArith Bool Arith Lia.
From Verif Require Import GenModel GenSpec GenProofs8 GenExamples.
Import ListNotations.
Open Scope Z_scope.

(** C33: for every kernel body whose statements fit (see GenSpec), every particle and every run: if the Python kernel ends
    with code [res], C is generated for it, the C function ends with the same code, and all variables of the particle have the
    same values (if the particle was deleted, all but the state, which C sets only in the loop around the kernels).
    Missing: bodies that do not fit, runs that leave a loop without entering it, and statements after [particle.delete()]
    (these are what [p_odd] records); see the refutations. *)
Theorem kernel_partial :
  forall ncomp vdim aint libm fsample vfsample consts body n p c res p',
  samples_ok ncomp vdim fsample vfsample ->
  forallb (sfits ncomp vdim aint) body = true ->
  agree aint p c -> p_del p = false ->
  ~ (pnum (p_att p "state") == inject_Z (py_code KDelete))%Q ->
  presult (p_att p "state") (pexec libm fsample vfsample aint consts n body p) = Some (res, p') ->
  p_odd p' = false ->
  exists zs m0 c', compile ncomp vdim body = Some zs /\
    (forall m, (m0 <= m)%nat ->
       cresult (c_att c "state") (cexec libm fsample vfsample aint consts m zs c) = Some (res, c')) /\
    (if p_del p' then agree_but "state" p' c' else agree aint p' c').
Proof. exact kernel_closed. Qed.
Print Assumptions kernel_partial.

(** A kernel with a vector field, a loop with a break, a sample in a test and a tuple assignment meets the hypotheses. *)
Example kernel_partial_case :
  samples_ok ex_ncomp ex_vdim ex_fsample ex_vfsample /\
  forallb (sfits ex_ncomp ex_vdim ex_aint) kx_body = true /\
  agree ex_aint ex_p ex_c /\ p_del ex_p = false /\
  ~ (pnum (p_att ex_p "state") == inject_Z (py_code KDelete))%Q /\
  (exists p', presult (p_att ex_p "state") (pexec ex_libm ex_fsample ex_vfsample ex_aint ex_consts 60 kx_body ex_p) = Some (0, p') /\
              p_odd p' = false) /\
  py_kernel kx_body = Some (0, (25#2)%Q, 2%Q) /\ c_kernel kx_body = Some (0, (25#2)%Q, 2%Q).
Proof. exact kx_ok. Qed.

(** C33 for kernels without loops and deletions: nothing about the run is assumed. *)
Theorem kernel_straight_partial :
  forall ncomp vdim aint libm fsample vfsample consts body n p c res p',
  samples_ok ncomp vdim fsample vfsample ->
  forallb (sfits ncomp vdim aint) body = true -> forallb straight body = true ->
  agree aint p c -> p_del p = false -> p_odd p = false ->
  ~ (pnum (p_att p "state") == inject_Z (py_code KDelete))%Q ->
  presult (p_att p "state") (pexec libm fsample vfsample aint consts n body p) = Some (res, p') ->
  exists zs m0 c', compile ncomp vdim body = Some zs /\
    (forall m, (m0 <= m)%nat ->
       cresult (c_att c "state") (cexec libm fsample vfsample aint consts m zs c) = Some (res, c')) /\
    agree aint p' c'.
Proof. exact straight_closed. Qed.
Print Assumptions kernel_straight_partial.

Example kernel_straight_case : forallb (sfits ex_ncomp ex_vdim ex_aint) sx_body = true /\ forallb straight sx_body = true /\
  py_kernel sx_body = Some (0, 2%Q, 3%Q) /\ c_kernel sx_body = Some (0, 2%Q, 3%Q).
Proof. exact sx_ok. Qed.

(** The flags in the Python state only record: runs from states that differ in them alone do the same. *)
Theorem flags_only_record : forall aint libm fsample vfsample consts n ss p q,
  p_loc p = p_loc q -> p_att p = p_att q ->
  match pexec libm fsample vfsample aint consts n ss p, pexec libm fsample vfsample aint consts n ss q with
  | ONext p', ONext q' | OBreak p', OBreak q' => p_loc p' = p_loc q' /\ p_att p' = p_att q'
  | OReturn k p', OReturn k' q' | OErr k p', OErr k' q' => k = k' /\ p_loc p' = p_loc q' /\ p_att p' = p_att q'
  | ORaise, ORaise | OFuel, OFuel => True
  | _, _ => False
  end.
Proof. exact (fun aint libm fsample vfsample consts n ss p q E1 E2 =>
  proj1 (ghost aint libm fsample vfsample consts n) ss p q (conj E1 E2)). Qed.
Print Assumptions flags_only_record.

(** C33 is false in general (kernels started at lon 5/2, lat 1; result code, lon, lat).
    [while particle.lon < 0: particle.lon = 7]: the body runs once in C. *)
Theorem while_not_entered_refuted : py_kernel x_while = Some (0, (5#2)%Q, 1%Q) /\ c_kernel x_while = Some (0, 7%Q, 1%Q).
Proof. exact x_while_ok. Qed.
Print Assumptions while_not_entered_refuted.

(** [particle.lon, particle.lat = particle.lat, particle.lon]. *)
Theorem swap_refuted : py_kernel x_swap = Some (0, 1%Q, (5#2)%Q) /\ c_kernel x_swap = Some (0, 1%Q, 1%Q).
Proof. exact x_swap_ok. Qed.
Print Assumptions swap_refuted.

(** [if fieldset.P[...] > 100: particle.delete()] deletes every particle in C. *)
Theorem delete_on_sample_refuted : py_kernel x_delete = Some (0, (5#2)%Q, 1%Q) /\ c_kernel x_delete = Some (3, (5#2)%Q, 1%Q).
Proof. exact x_delete_ok. Qed.
Print Assumptions delete_on_sample_refuted.

(** [if fieldset.S[...] > 100: particle.lat = 5; particle.lon = 6] with a summed field: the first assignment is always done. *)
Theorem summed_field_in_test_refuted : py_kernel x_summed = Some (0, (5#2)%Q, 1%Q) /\ c_kernel x_summed = Some (0, (5#2)%Q, 5%Q).
Proof. exact x_summed_ok. Qed.
Print Assumptions summed_field_in_test_refuted.

(** [particle.delete(); particle.lon = 9]. *)
Theorem after_delete_refuted : py_kernel x_after = Some (3, 9%Q, 1%Q) /\ c_kernel x_after = Some (3, (5#2)%Q, 1%Q).
Proof. exact x_after_ok. Qed.
Print Assumptions after_delete_refuted.

(** [while fieldset.P[...] > 3: particle.lon -= 1]: the test uses the sample before the move. *)
Theorem sample_in_while_refuted : py_kernel x_wfield = Some (0, (3#2)%Q, 1%Q) /\ c_kernel x_wfield = Some (0, (1#2)%Q, 1%Q).
Proof. exact x_wfield_ok. Qed.
Print Assumptions sample_in_while_refuted.

(** [if fieldset.P[...] > 0: pass else: particle.lon = 4]: the test uses a temporary not yet set. *)
Theorem sample_before_pass_refuted : py_kernel x_pass = Some (0, (5#2)%Q, 1%Q) /\ c_kernel x_pass = Some (0, 4%Q, 1%Q).
Proof. exact x_pass_ok. Qed.
Print Assumptions sample_before_pass_refuted.

(** [particle.lon **= 2] is written "lon pow= 2". *)
Theorem power_assignment_refuted : py_kernel x_pow = Some (0, (25#4)%Q, 1%Q) /\ compile ex_ncomp ex_vdim x_pow = None.
Proof. exact x_pow_ok. Qed.
Print Assumptions power_assignment_refuted.
