(** C32: kernel expressions mean the same in C as in Python. *)
From Coq Require Import String List ZArith QArith Bool Arith Lia.
From Verif Require Import GenModel GenSpec GenProofs GenProofs2 GenProofs3 GenExamples.
Import ListNotations.
Open Scope Z_scope.

(** C32, reading C: the parser of the model accepts exactly the C expressions of the grammar, with the tree the grammar gives. *)
Theorem c_text_read_as_grammar : forall ts t, cparse ts = Some t <-> phrase 0 ts t.
Proof. exact cparse_spec. Qed.
Print Assumptions c_text_read_as_grammar.

Theorem c_text_unambiguous : forall ts t t', phrase 0 ts t -> phrase 0 ts t' -> t = t'.
Proof. exact phrase_unique0. Qed.
Print Assumptions c_text_unambiguous.

(** C32: for every expression that fits (see GenSpec), in every state: text is generated; the samples written before it run,
    change no variable, and if one fails the C function returns the error Python raises; afterwards the text has the truth
    value of the Python expression, and its value.  Missing: the expressions that do not fit, see the refutations below. *)
Theorem expression_partial :
  forall ncomp vdim aint libm fsample vfsample consts e n te calls n' p c,
  samples_ok ncomp vdim fsample vfsample ->
  fits ncomp aint e = true ->
  mods_ok libm fsample (penv consts p) e ->
  hoist ncomp n e = (te, calls, n') ->
  agree aint p c ->
  exists zs ts, gen_list (map YCall calls) = Some zs /\ gen te = Some ts /\
    match peval libm fsample (penv consts p) e with
    | PV v => exists c' w,
        (exists m0, forall m, (m0 <= m)%nat -> cexec libm fsample vfsample aint consts m zs c = CNext c') /\
        c_loc c' = c_loc c /\ c_att c' = c_att c /\
        cvalue libm consts c' ts = Some w /\ ctruth w = ptruth v /\ (valued e = true -> (cnum w == pnum v)%Q)
    | PErr k => exists c',
        (exists m0, forall m, (m0 <= m)%nat -> cexec libm fsample vfsample aint consts m zs c = CReturn k c') /\
        c_loc c' = c_loc c /\ c_att c' = c_att c
    | PRaise => True
    end.
Proof. exact expression_closed. Qed.
Print Assumptions expression_partial.

(** A comparison of sums, products and samples, under [and] and [not], meets the hypotheses. *)
Example expression_partial_case :
  samples_ok ex_ncomp ex_vdim ex_fsample ex_vfsample /\
  fits ex_ncomp ex_aint ex_good = true /\
  mods_ok ex_libm ex_fsample (penv ex_consts ex_p) ex_good /\
  agree ex_aint ex_p ex_c /\
  peval ex_libm ex_fsample (penv ex_consts ex_p) ex_good = PV (PI 1) /\
  py_means ex_good = Some 1%Q /\ c_means ex_good = Some 1%Q.
Proof. exact ex_good_ok. Qed.

(** Operators are kept apart: the text of two operands is never regrouped. *)
Theorem subtraction_groups_left : forall a b c,
  py_means (EBin BSub (EBin BSub (ex_num a) (ex_num b)) (ex_num c)) = Some (inject_Z (a - b - c)) /\
  c_means (EBin BSub (EBin BSub (ex_num a) (ex_num b)) (ex_num c)) = Some (inject_Z (a - b - c)) /\
  py_means (EBin BSub (ex_num a) (EBin BSub (ex_num b) (ex_num c))) = Some (inject_Z (a - (b - c))) /\
  c_means (EBin BSub (ex_num a) (EBin BSub (ex_num b) (ex_num c))) = Some (inject_Z (a - (b - c))).
Proof. exact ex_sub_groups. Qed.
Print Assumptions subtraction_groups_left.

(** C32 is false in general.  [(a or b) and c] is written [a||b && c]. *)
Theorem or_under_and_refuted : py_means ex_or_and = Some 0%Q /\ c_means ex_or_and = Some 1%Q.
Proof. exact ex_or_and_ok. Qed.
Print Assumptions or_under_and_refuted.

(** [1 + (2 < 3)] is written [(1+2 < 3)]. *)
Theorem comparison_in_sum_refuted : py_means ex_cmp_sum = Some 2%Q /\ c_means ex_cmp_sum = Some 0%Q.
Proof. exact ex_cmp_sum_ok. Qed.
Print Assumptions comparison_in_sum_refuted.

(** [3 > (2 > 1)] is written [3 > 2 > 1]. *)
Theorem comparison_in_comparison_refuted : py_means ex_cmp_cmp = Some 1%Q /\ c_means ex_cmp_cmp = Some 0%Q.
Proof. exact ex_cmp_cmp_ok. Qed.
Print Assumptions comparison_in_comparison_refuted.

(** [1/2] is an integer division in C. *)
Theorem integer_division_refuted : py_means ex_half = Some (1#2)%Q /\ c_means ex_half = Some 0%Q.
Proof. exact ex_half_ok. Qed.
Print Assumptions integer_division_refuted.

(** [-1 % 3] is 2 in Python and -1 in C; [5.5 % 2] does not compile. *)
Theorem remainder_refuted :
  py_means ex_rem = Some 2%Q /\ c_means ex_rem = Some (-1#1)%Q /\
  py_means ex_frem = Some (3#2)%Q /\ c_means ex_frem = None.
Proof. exact ex_rem_ok. Qed.
Print Assumptions remainder_refuted.

(** [2 * fieldset.S[...]] for the sum of two fields with values 3 and 4 is written [(2*tmp0+tmp1)]. *)
Theorem summed_field_in_product_refuted : py_means ex_summed = Some 14%Q /\ c_means ex_summed = Some 10%Q.
Proof. exact ex_summed_ok. Qed.
Print Assumptions summed_field_in_product_refuted.

(** [2 and 3] is 3 in Python and 1 in C. *)
Theorem and_as_number_refuted : py_means ex_and = Some 3%Q /\ c_means ex_and = Some 1%Q.
Proof. exact ex_and_ok. Qed.
Print Assumptions and_as_number_refuted.

(** [False and fieldset.bad[...] > 0]: Python does not sample the field, C does and fails. *)
Theorem short_circuit_sample_refuted :
  peval ex_libm ex_fsample (penv ex_consts ex_p) ex_short = PV (PI 0) /\
  exists te calls n zs c', hoist ex_ncomp 0 ex_short = (te, calls, n) /\ gen_list (map YCall calls) = Some zs /\
    forall m, (2 <= m)%nat -> cexec ex_libm ex_fsample ex_vfsample ex_aint ex_consts m zs ex_c = CReturn 6 c'.
Proof. exact ex_short_ok. Qed.
Print Assumptions short_circuit_sample_refuted.
