(** Cases for C44. *)
From Coq Require Import String List ZArith QArith Bool Arith Lia.
From Verif Require Import GenModel GenSpec GenExamples MergeModel MergeSpec MergeProofs MergeProofs2.
Import ListNotations.
Open Scope Z_scope.
Local Open Scope string_scope.
Local Open Scope list_scope.

Notation ex_ends := (ends ex_libm ex_fsample ex_vfsample ex_aint ex_consts).
Notation ex_order := (in_order ex_libm ex_fsample ex_vfsample ex_aint ex_consts).

(** [u = fieldset.P[...]; particle.lon = particle.lon + u * time], [u = particle.lon; if u > 5: return 0],
    [particle.lat = 3]: both use a local [u]. *)
Definition var (x : string) : expr := ELeaf (LVar x).
Definition mk1 : kernel := of_body [SAssign (TVar "u") (here "P"); SAssign (TAttr "lon") (EBin BAdd lon (EBin BMul (var "u") (var "time")))].
Definition mk2 : kernel := of_body [SAssign (TVar "u") lon; SIf (ECmp CGt (var "u") (ex_num 5)) [SReturn KSuccess] []].
Definition mk3 : kernel := of_body [SAssign (TAttr "lat") (ex_num 3)].

Lemma ex_own : Forall (fun k => own_locals (k_body k)) [mk1; mk2; mk3].
Proof. repeat constructor; vm_compute; discriminate. Qed.

Lemma ex_ends_n : forall n b s, pexec ex_libm ex_fsample ex_vfsample ex_aint ex_consts n b s <> OFuel ->
  ex_ends b s (pexec ex_libm ex_fsample ex_vfsample ex_aint ex_consts n b s).
Proof. intros n b s N. split; [exact N|]. exists n. reflexivity. Qed.

(** At time 0 the second does not return, at time 1 it does: the third is not called. *)
Definition view (r : option seen) : option (Z * Q * Q) :=
  match r with
  | Some (Falls a) => Some (-1, Qred (pnum (a "lon")), Qred (pnum (a "lat")))
  | Some (Returns c a) => Some (c, Qred (pnum (a "lon")), Qred (pnum (a "lat")))
  | _ => None
  end.
Lemma ex_sum : exists r0 r1,
  ex_order (PI 0) (map k_body [mk1; mk2; mk3]) ex_att r0 /\ view (Some r0) = Some (-1, (5#2)%Q, 3%Q) /\
  ex_order (PI 1) (map k_body [mk1; mk2; mk3]) ex_att r1 /\ view (Some r1) = Some (0, 6%Q, 1%Q).
Proof.
  destruct (see (pexec ex_libm ex_fsample ex_vfsample ex_aint ex_consts 20 (k_body (plus mk1 [mk2; mk3])) (called (PI 0) ex_att))) as [r0|] eqn:E0; [|vm_compute in E0; discriminate].
  destruct (see (pexec ex_libm ex_fsample ex_vfsample ex_aint ex_consts 20 (k_body (plus mk1 [mk2; mk3])) (called (PI 1) ex_att))) as [r1|] eqn:E1; [|vm_compute in E1; discriminate].
  exists r0, r1. split; [|split; [rewrite <- E0; vm_compute; reflexivity|split; [|rewrite <- E1; vm_compute; reflexivity]]].
  - apply (sum_closed ex_libm ex_fsample ex_vfsample ex_aint ex_consts mk1 [mk2; mk3] ex_own). eexists. split; [|exact E0].
    apply ex_ends_n. intros Q. rewrite Q in E0. discriminate E0.
  - apply (sum_closed ex_libm ex_fsample ex_vfsample ex_aint ex_consts mk1 [mk2; mk3] ex_own). eexists. split; [|exact E1].
    apply ex_ends_n. intros Q. rewrite Q in E1. discriminate E1.
Qed.

(** In C. *)
Definition ex_ctime : cst := mkCst (fun _ => CR 1) ex_catt (fun _ => CR 0).
Lemma ex_compiled :
  samples_ok ex_ncomp ex_vdim ex_fsample ex_vfsample /\
  Forall (fun k => own_locals (k_body k) /\ forallb (sfits ex_ncomp ex_vdim ex_aint) (k_body k) = true /\ forallb straight (k_body k) = true) [mk1; mk2; mk3] /\
  agree ex_aint (called (PI 1) ex_att) ex_ctime /\ ~ (pnum (ex_att "state") == inject_Z (py_code KDelete))%Q /\
  exists r att', ex_order (PI 1) (map k_body [mk1; mk2; mk3]) ex_att r /\ code_of (ex_att "state") r = Some (0, att') /\
    Qred (pnum (att' "lon")) = 6%Q /\ Qred (pnum (att' "lat")) = 1%Q.
Proof.
  split; [exact ex_samples|]. split; [|split; [|split]].
  - repeat constructor; try (vm_compute; discriminate).
  - split.
    + intros x v H. cbn in H. destruct (String.eqb x "time"); [|discriminate]. injection H as <-. exists 1%Q. split; reflexivity.
    + apply ex_agree.
  - vm_compute. discriminate.
  - destruct ex_sum as (r0 & r1 & _ & _ & O & V). destruct r1 as [a|c a|c a|]; try discriminate V; cbn in V.
    exists (Returns c a), a. split; [exact O|]. injection V as -> V1 V2. split; [|split; assumption].
    cbn [code_of]. change ((0 =? py_code KSuccess)%Z) with true. cbn [andb].
    assert (Q : a "state" = PI 1).
    { apply (proj1 (sum_closed ex_libm ex_fsample ex_vfsample ex_aint ex_consts mk1 [mk2; mk3] ex_own (PI 1) ex_att (Returns 0 a))) in O as (o & E & S).
      assert (X : ex_ends (k_body (plus mk1 [mk2; mk3])) (called (PI 1) ex_att) (pexec ex_libm ex_fsample ex_vfsample ex_aint ex_consts 20 (k_body (plus mk1 [mk2; mk3])) (called (PI 1) ex_att))).
      { apply ex_ends_n. vm_compute. discriminate. }
      rewrite (ends_fun _ _ _ _ _ _ _ _ _ E X) in S. vm_compute in S. injection S as <-. reflexivity. }
    rewrite Q. reflexivity.
Qed.

(** [u = 4] then [particle.lon = u]: alone, the second fails. *)
Definition lk1 : kernel := of_body [SAssign (TVar "u") (ex_num 4)].
Definition lk2 : kernel := of_body [SAssign (TAttr "lon") (var "u")].
Lemma ex_left : ex_order (PI 0) (map k_body [lk1; lk2]) ex_att Raises /\
  exists o, ex_ends (k_body (plus lk1 [lk2])) (called (PI 0) ex_att) o /\ view (see o) = Some (-1, 4%Q, 1%Q).
Proof.
  split.
  - eapply in_order_next; [split; [discriminate|exists 5%nat; reflexivity]|].
    eapply in_order_stop; [split; [|exists 5%nat; reflexivity]; discriminate|reflexivity|discriminate].
  - eexists. split; [apply (ex_ends_n 5); vm_compute; discriminate|vm_compute; reflexivity].
Qed.

(** Declarations. *)
Lemma ex_declared :
  generate [] (plus mk1 [mk2; mk3]) = ([], ([], ["u"])) /\
  generate [] (of_body [SAssign (TVar "tol") (ex_num 4)]) = ([], ([], [])) /\
  generate_all [] [mkKernel [] ["particle"; "fieldset"; "time"; "u"] ["u"]; mk1] = [(["u"], []); ([], [])] /\
  generate [] (plus (mkKernel [] ["u"] ["u"]) [mkKernel [] ["u"] ["u"]]) = (["u"; "u"], (["u"; "u"], [])).
Proof. repeat split. Qed.
