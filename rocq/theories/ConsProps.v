(** C50: a particle set is what its arguments say. *)
From Coq Require Import String List ZArith QArith Bool Permutation.
From Verif Require Import ConsModel ConsSpec ConsProofs ConsProofs2.
Import ListNotations.
Open Scope string_scope.

(** A particle class has the variables of its bases and its own, each once, those of 64 bits first. *)
Theorem particle_type_variables : forall wide bodies vars, ptype wide bodies = Ok vars -> (forall b, In b bodies -> NoDup (map v_name b)) ->
  Permutation vars (base_vars wide ++ concat bodies) /\ NoDup (map v_name vars) /\ ~ In "z" (map v_name vars) /\
  exists a b, vars = (a ++ b)%list /\ (forall v, In v a -> v_64 v = true) /\ (forall v, In v b -> v_64 v = false).
Proof. exact ptype_vars. Qed.
Print Assumptions particle_type_variables.

(** It is refused with an AttributeError exactly when a name is used twice or is z. *)
Theorem particle_type_allowed : forall wide bodies, (forall b, In b bodies -> NoDup (map v_name b)) ->
  ((exists vars, ptype wide bodies = Ok vars) <-> NoDup (map v_name (base_vars wide ++ concat bodies)) /\ ~ In "z" (map v_name (concat bodies))) /\
  (forall e, ptype wide bodies = Err e -> e = AttributeError).
Proof. exact ptype_ok_iff. Qed.
Print Assumptions particle_type_allowed.

(** Every variable of every particle of a set starts with the value the arguments and the class say. *)
Theorem set_has_what_was_asked : forall wide bodies vars lastID a l d, ptype wide bodies = Ok vars -> (forall b, In b bodies -> NoDup (map v_name b)) ->
  proper a -> copies_back a vars -> make_set vars lastID a = Ok (l, d) ->
  map fst d = map v_name vars /\ (forall m c, In (m, c) d -> length c = count_of a) /\
  forall m i, In m (map v_name vars) -> (i < count_of a)%nat ->
    exists c, value_of d m i = Some c /\ starts_as vars lastID a i m c /\ forall c', starts_as vars lastID a i m c' -> c' = c.
Proof.
  exact (fun wide bodies vars lastID a l d T NB P CB E =>
    let ND := proj1 (proj2 (ptype_vars wide bodies vars T NB)) in
    match set_as_asked vars lastID a l d ND (ptype_base wide bodies vars T NB) P CB E with
    | conj A (conj B C) => conj A (conj B (fun m i I IL => match C m i I IL with
        ex_intro _ c (conj V W) => ex_intro _ c (conj V (conj W (fun c1 W1 => starts_unique vars lastID a i m c1 c ND P IL W1 W))) end))
    end).
Qed.
Print Assumptions set_has_what_was_asked.

(** A set is made exactly when its arguments are complete; the ids of the next set start after the largest of this one. *)
Theorem set_is_made : forall wide bodies vars lastID a, ptype wide bodies = Ok vars -> (forall b, In b bodies -> NoDup (map v_name b)) -> proper a ->
  ((exists d, make_set vars lastID a = Ok ((offset lastID a + 1)%Z, d)) <-> complete vars a).
Proof. exact (fun wide bodies vars lastID a T NB => set_made_iff vars lastID a (proj1 (proj2 (ptype_vars wide bodies vars T NB))) (ptype_base wide bodies vars T NB)). Qed.
Print Assumptions set_is_made.

(** With MPI, the sets of the processes together hold the particles of the set of one process, each once and with all its values, and all
    processes go on with the same lastID. *)
Theorem processes_share_the_set : forall wide bodies vars lastID a l d size labels, ptype wide bodies = Ok vars -> (forall b, In b bodies -> NoDup (map v_name b)) ->
  proper a -> copies_back a vars -> make_set vars lastID a = Ok (l, d) -> a_parts a <> Already ->
  length (labels_of a labels) = count_of a -> (forall x, In x (labels_of a labels) -> (0 <= x < Z.of_nat size)%Z) -> (1 < size)%nat -> (size <= count_of a)%nat ->
  exists parts, length parts = size /\
    (forall r p, nth_error parts r = Some p -> exists dr, make_part (Z.of_nat size) labels vars lastID a (Z.of_nat r) = Ok (l, dr) /\
       (forall m c, In (m, c) dr -> length c = length p) /\ p = particles dr (length p)) /\
    (forall r p i, nth_error parts r = Some p -> nth_error (labels_of a labels) i = Some (Z.of_nat r) -> forall x, nth_error (particles d (count_of a)) i = Some x -> In x p) /\
    Permutation (concat parts) (particles d (count_of a)).
Proof. exact (fun wide bodies vars lastID a l d size labels T NB => parts_make_set vars lastID a l d size labels (proj1 (proj2 (ptype_vars wide bodies vars T NB))) (ptype_base wide bodies vars T NB)). Qed.
Print Assumptions processes_share_the_set.

(** A class with an age, a copy of the start longitude and a sampled temperature; three particles of one time, with ages. *)
Definition data_of (r : res (Z * data)) : data := match r with Ok (_, d) => d | Err _ => [] end.
Definition ex_temp (t z y x : Q) : option Q := if Qle_bool 0 z then Some (20 - z + x * (1 # 10)) else None.
Definition ex_body : list vdecl := [mkVar "age" false (IConst (Val 7)); mkVar "lon0" false (ICopy "lon"); mkVar "temp" false (ISample ex_temp); mkVar "temp0" false (ICopy "temp")].
Definition ex_args : cargs := mkCargs [1; 2; 3] [10; 20; 30] (Some [0; 5; 6]) 0 (Some [100]) None [("age", [4; 5; 6])] (Given [1; 0; 1]%Z).
Definition ex_vars : list vdecl := Eval vm_compute in match ptype false [ex_body] with Ok v => v | Err _ => [] end.
Example ex_type : ptype false [ex_body] = Ok ex_vars /\ length ex_vars = 17%nat. Proof. split; reflexivity. Qed.
Example ex_proper : proper ex_args.
Proof. repeat split; cbn; [repeat constructor; cbn; tauto|intros n H; intuition (subst; discriminate)]. Qed.
Example ex_copies : copies_back ex_args ex_vars.
Proof. apply copies_check_back. vm_compute. reflexivity. Qed.
Example ex_set : exists d, make_set ex_vars 12 ex_args = Ok (15%Z, d) /\
  value_of d "temp0" 1 = Some (Val (20 - 5 + 2 * (1 # 10))) /\ value_of d "age" 1 = Some (Val 5) /\ value_of d "id" 1 = Some (Val 13) /\ value_of d "time" 1 = Some (Val 100).
Proof. exists (data_of (make_set ex_vars 12 ex_args)). vm_compute. repeat split. Qed.
Example ex_labels : a_parts ex_args <> Already /\ length (labels_of ex_args []) = count_of ex_args /\ (forall x, In x (labels_of ex_args []) -> (0 <= x < Z.of_nat 2)%Z).
Proof. split; [discriminate|]. split; [reflexivity|]. intros x H. cbn in H. intuition (subst; cbn; easy). Qed.

(** Not so: a copy of a variable that comes later in the order of the class holds what was in memory. The order is not that of declaration: a
    64-bit variable comes before one of 32 bits declared before it. *)
Theorem copy_of_a_later_variable_refuted : exists bodies vars a d l, ptype false bodies = Ok vars /\ (forall b, In b bodies -> NoDup (map v_name b)) /\ proper a /\
  (exists b pre v w post, bodies = [b] /\ b = (pre ++ v :: w :: post)%list /\ v_init w = ICopy (v_name v) /\ make_set vars 0 a = Ok (l, d) /\
    value_of d (v_name v) 0 = Some (Val 20) /\ value_of d (v_name w) 0 = Some Junk).
Proof.
  set (v := mkVar "temp" false (ISample (fun _ _ _ _ => Some 20))). set (w := mkVar "temp0" true (ICopy "temp")). set (a := mkCargs [1] [1] None 0 (Some [0]) None [] Auto).
  set (vars := match ptype false [[v; w]] with Ok l => l | Err _ => [] end). exists [[v; w]], vars, a, (data_of (make_set vars 0 a)), 1%Z. split; [reflexivity|].
  split; [intros b [<-|[]]; repeat constructor; cbn; intuition discriminate|]. split; [repeat split; cbn; [constructor|tauto]|].
  exists [v; w], [], v, w, []. split; [reflexivity|]. split; [reflexivity|]. split; [reflexivity|]. vm_compute. repeat split.
Qed.
Print Assumptions copy_of_a_later_variable_refuted.

(** Not so: a copy of a name that is no variable is refused. It starts as 0. *)
Theorem copy_of_an_unknown_name_refuted : exists vars a d l, ptype false [[mkVar "start" false (ICopy "longitude")]] = Ok vars /\ proper a /\
  make_set vars 0 a = Ok (l, d) /\ ~ In "longitude" (map v_name vars) /\ a_lon a = [5] /\ value_of d "start" 0 = Some (Val 0).
Proof.
  set (a := mkCargs [5] [1] None 0 None None [] Auto). set (vars := match ptype false [[mkVar "start" false (ICopy "longitude")]] with Ok l => l | Err _ => [] end).
  exists vars, a, (data_of (make_set vars 0 a)), 1%Z. split; [reflexivity|]. split; [repeat split; cbn; [constructor|tauto]|]. split; [vm_compute; reflexivity|].
  split; [vm_compute; intuition discriminate|]. split; [reflexivity|vm_compute; reflexivity].
Qed.
Print Assumptions copy_of_an_unknown_name_refuted.

(** Not so: explicit ids that are not one per particle are refused. One id is given to all particles. *)
Theorem one_id_for_all_refuted : exists vars a d l, ptype false [] = Ok vars /\ a_pid a = Some [3%Z] /\ count_of a = 2%nat /\ make_set vars 0 a = Ok (l, d) /\
  value_of d "id" 0 = Some (Val 3) /\ value_of d "id" 1 = Some (Val 3).
Proof.
  set (a := mkCargs [5; 6] [1; 1] None 0 None (Some [3%Z]) [] Auto). set (vars := match ptype false [] with Ok l => l | Err _ => [] end).
  exists vars, a, (data_of (make_set vars 0 a)), 4%Z. repeat (split; [vm_compute; reflexivity|]). vm_compute. reflexivity.
Qed.
Print Assumptions one_id_for_all_refuted.

(** Not so: labels that name no process are refused. A particle with a negative label is in no set. *)
Theorem negative_label_refuted : exists vars a size l d, ptype false [] = Ok vars /\ proper a /\ a_parts a = Given [0; (-1); 1]%Z /\ (1 < size)%Z /\ make_set vars 0 a = Ok (l, d) /\
  (forall rank, (0 <= rank < size)%Z -> exists dr, make_part size [] vars 0 a rank = Ok (l, dr) /\ column dr "lon" <> None /\
     forall c, column dr "lon" = Some c -> ~ In (Val 6) c) /\ value_of d "lon" 1 = Some (Val 6).
Proof.
  set (a := mkCargs [5; 6; 7] [1; 1; 1] None 0 None None [] (Given [0; (-1); 1]%Z)). set (vars := match ptype false [] with Ok l => l | Err _ => [] end).
  exists vars, a, 2%Z, 3%Z, (data_of (make_set vars 0 a)). split; [reflexivity|]. split; [repeat split; cbn; [constructor|tauto]|].
  split; [reflexivity|]. split; [reflexivity|]. split; [vm_compute; reflexivity|]. split; [|vm_compute; reflexivity].
  intros rank H. exists (data_of (make_part 2 [] vars 0 a rank)). assert (C : rank = 0%Z \/ rank = 1%Z) by Lia.lia.
  destruct C as [-> | ->]; (split; [vm_compute; reflexivity|]); (split; [vm_compute; discriminate|]); intros c; vm_compute; intros E; inversion E; cbn; intuition discriminate.
Qed.
Print Assumptions negative_label_refuted.
