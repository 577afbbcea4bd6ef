(** C44: adding kernels. *)
From Coq Require Import String List ZArith QArith Bool Arith.
From Verif Require Import GenModel GenSpec GenExamples MergeModel MergeSpec MergeProofs MergeProofs2 MergeExamples.
Import ListNotations.
Open Scope Z_scope.
Local Open Scope list_scope.

(** C44: calling the sum of any kernels that keep to their own locals (MergeSpec) is calling the kernels one after the
    other, each with locals of its own: the same end, the same code and the same variables of the particle.  A kernel that
    returns or fails ends the whole.  Conversely, if the sum's call ends, so do the calls of the kernels. *)
Theorem sum_in_order :
  forall libm fsample vfsample aint consts k ks,
  Forall (fun k => own_locals (k_body k)) (k :: ks) -> forall time att r,
  in_order libm fsample vfsample aint consts time (map k_body (k :: ks)) att r <->
  exists o, ends libm fsample vfsample aint consts (k_body (plus k ks)) (called time att) o /\ see o = Some r.
Proof. exact sum_closed. Qed.
Print Assumptions sum_in_order.

(** Three kernels, two of which use a local [u]: at time 0 all are run, at time 1 the second returns and the third is not run. *)
Example sum_in_order_case :
  Forall (fun k => own_locals (k_body k)) [mk1; mk2; mk3] /\
  exists r0 r1,
  ex_order (PI 0) (map k_body [mk1; mk2; mk3]) ex_att r0 /\ view (Some r0) = Some (-1, (5#2)%Q, 3%Q) /\
  ex_order (PI 1) (map k_body [mk1; mk2; mk3]) ex_att r1 /\ view (Some r1) = Some (0, 6%Q, 1%Q).
Proof. exact (conj ex_own ex_sum). Qed.

(** There is at most one such result. *)
Theorem in_order_deterministic :
  forall libm fsample vfsample aint consts time bs att r r',
  in_order libm fsample vfsample aint consts time bs att r -> in_order libm fsample vfsample aint consts time bs att r' -> r = r'.
Proof. exact in_order_fun. Qed.
Print Assumptions in_order_deterministic.

(** C44 in C, for kernels that fit (C33) without loops and deletions: the C function of the sum gives the code and the
    variables that the Python kernels give one after the other.
    Missing: kernels with loops and deletions, for which the run decides (kernel_partial of C33). *)
Theorem sum_compiled_partial :
  forall ncomp vdim aint libm fsample vfsample consts k ks,
  samples_ok ncomp vdim fsample vfsample ->
  Forall (fun k => own_locals (k_body k) /\ forallb (sfits ncomp vdim aint) (k_body k) = true /\ forallb straight (k_body k) = true) (k :: ks) ->
  forall time att c r res att',
  agree aint (called time att) c -> ~ (pnum (att "state"%string) == inject_Z (py_code KDelete))%Q ->
  in_order libm fsample vfsample aint consts time (map k_body (k :: ks)) att r -> code_of (att "state"%string) r = Some (res, att') ->
  exists zs m0 c', compile ncomp vdim (k_body (plus k ks)) = Some zs /\
    (forall m, (m0 <= m)%nat -> cresult (c_att c "state"%string) (cexec libm fsample vfsample aint consts m zs c) = Some (res, c')) /\
    forall a, same (att' a) (c_att c' a).
Proof. exact compiled_closed. Qed.
Print Assumptions sum_compiled_partial.

Example sum_compiled_case :
  samples_ok ex_ncomp ex_vdim ex_fsample ex_vfsample /\
  Forall (fun k => own_locals (k_body k) /\ forallb (sfits ex_ncomp ex_vdim ex_aint) (k_body k) = true /\ forallb straight (k_body k) = true) [mk1; mk2; mk3] /\
  agree ex_aint (called (PI 1) ex_att) ex_ctime /\ ~ (pnum (ex_att "state"%string) == inject_Z (py_code KDelete))%Q /\
  exists r att', ex_order (PI 1) (map k_body [mk1; mk2; mk3]) ex_att r /\ code_of (ex_att "state"%string) r = Some (0, att') /\
    Qred (pnum (att' "lon"%string)) = 6%Q /\ Qred (pnum (att' "lat"%string)) = 1%Q.
Proof. exact ex_compiled. Qed.

(** The C function of a sum declares every local of its kernels exactly once, however many of the kernels use the name;
    left out are the names in [kernel_vars] and the names of arrays. [av]: arrays of all the kernels made before. *)
Theorem sum_declares :
  forall av k ks,
  let '(_, (_, plain)) := generate av (plus k ks) in
  NoDup plain /\
  forall x, In x plain <->
    (exists k', In k' (k :: ks) /\ In x (k_vars k')) /\
    ~ In x kernel_vars /\ ~ In x av /\ ~ (exists k', In k' (k :: ks) /\ In x (k_arrays k')).
Proof. exact sum_declared. Qed.
Print Assumptions sum_declares.

(** The names of a kernel are its arguments and every name that a statement of it assigns. *)
Theorem kernel_names :
  forall body, NoDup (k_vars (of_body body)) /\
  forall x, In x (k_vars (of_body body)) <-> In x arguments \/ existsb (sets x) body = true.
Proof. exact vars_closed. Qed.
Print Assumptions kernel_names.

Example sum_declares_case : generate [] (plus mk1 [mk2; mk3]) = ([], ([], ["u"%string])).
Proof. exact (proj1 ex_declared). Qed.

(** C44 fails for kernels that read a local they have not set: [particle.lon = u] raises when it is called after [u = 4],
    in the sum it finds the [u] of the other kernel. *)
Theorem left_over_local_refuted :
  ex_order (PI 0) (map k_body [lk1; lk2]) ex_att Raises /\
  exists o, ex_ends (k_body (plus lk1 [lk2])) (called (PI 0) ex_att) o /\ view (see o) = Some (-1, 4%Q, 1%Q).
Proof. exact ex_left. Qed.
Print Assumptions left_over_local_refuted.

(** A local called [tol] is never declared in C. *)
Theorem reserved_local_refuted : generate [] (of_body [SAssign (TVar "tol"%string) (ex_num 4)]) = ([], ([], [])).
Proof. exact (proj1 (proj2 ex_declared)). Qed.
Print Assumptions reserved_local_refuted.

(** After a kernel with an array [u], no later kernel of the process has a local [u] declared. *)
Theorem array_of_earlier_kernel_refuted :
  generate_all [] [mkKernel [] ["particle"; "fieldset"; "time"; "u"]%string ["u"%string]; mk1] = [(["u"%string], []); ([], [])].
Proof. exact (proj1 (proj2 (proj2 ex_declared))). Qed.
Print Assumptions array_of_earlier_kernel_refuted.

(** Two kernels with an array [u] each: the sum declares it twice. *)
Theorem array_in_both_refuted :
  generate [] (plus (mkKernel [] ["u"%string] ["u"%string]) [mkKernel [] ["u"%string] ["u"%string]]) =
  (["u"; "u"]%string, (["u"; "u"]%string, [])).
Proof. exact (proj2 (proj2 (proj2 ex_declared))). Qed.
Print Assumptions array_in_both_refuted.
