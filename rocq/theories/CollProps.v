(** Properties of particle sets: C01 - C06. *)
From Coq Require Import String List ZArith Bool Arith Sorting.Sorted Lia.
From Verif Require Import CollModel CollSpec CollProofs.
Import ListNotations.
Open Scope Z_scope.

(** ** Concrete material used to show that hypotheses are satisfiable. *)
Definition ex_names : list string := ["lon"%string; "time"%string].
Definition ex_cols (a b : Z) : list (string * list Z) :=
  [("lon"%string, [a; b]); ("time"%string, [a * 100; b * 100])].
Definition ex_ops : list (op Z) :=
  [New None 2 (ex_cols 10 20); New None 2 (ex_cols 30 40)].

Lemma ex_guarded : forall o, allowed ex_names
    (mkSpec [Some [mkPrec 0 1 [("lon"%string, 10); ("time"%string, 1000)];
                   mkPrec 1 1 [("lon"%string, 20); ("time"%string, 2000)]];
             Some [mkPrec 2 1 [("lon"%string, 30); ("time"%string, 3000)];
                   mkPrec 3 1 [("lon"%string, 40); ("time"%string, 4000)]]] 4) o ->
  guarded ex_names spec0 (ex_ops ++ [o]).
Proof.
  intros o AL. simpl. split; auto. intros s1 r1 S1. split; auto. intros s2 r2 S2. split; auto.
  assert (NL : forall ids m m', next_last ids m -> next_last ids m' -> m = m').
  { unfold next_last. intros ids m m' [(-> & ->)|(A & B)] [(E & ->)|(A' & B')]; auto; subst; try contradiction.
    apply B in A'. apply B' in A. lia. }
  assert (BF : forall a b c d n1 n2 rows, built_from [a; b] [(n1, [c; d]); (n2, [c * 100; d * 100])] rows ->
     rows = [mkPrec a 1 [(n1, c); (n2, c * 100)]; mkPrec b 1 [(n1, d); (n2, d * 100)]]).
  { intros a b c d n1 n2 rows (L & H). destruct rows as [|r1' [|r2' [|]]]; try discriminate.
    assert (H0 := H 0%nat r1' eq_refl). assert (H1 := H 1%nat r2' eq_refl).
    destruct r1' as [i1 st1 v1], r2' as [i2 st2 v2]. cbn [fst snd nth_error p_vals p_id p_state] in H0, H1.
    destruct H0 as (A0 & -> & F0), H1 as (A1 & -> & F1). injection A0 as <-. injection A1 as <-.
    repeat match goal with
           | F : Forall2 _ (_ :: _) _ |- _ => inversion F; clear F; subst
           | F : Forall2 _ [] _ |- _ => inversion F; clear F; subst
           | y : (string * Z)%type |- _ => destruct y
           | E : _ /\ _ |- _ => destruct E
           end.
    cbn [fst snd nth_error p_vals] in *. unfold st_Evaluate. congruence. }
  destruct S1 as [(_ & -> & rows & B1 & E1 & N1)|(C & _)].
  2:{ exfalso; apply C. split; auto. intros nc [<-|[<-|[]]]; auto. }
  destruct S2 as [(_ & -> & rows2 & B2 & E2 & N2)|(C & _)].
  2:{ exfalso; apply C. split; auto. intros nc [<-|[<-|[]]]; auto. }
  simpl in B1, N1. apply (BF 0 1) in B1. assert (L1 : s_last s1 = 2).
  { eapply NL; [exact N1|]. right. simpl. split; auto. intros x [<-|[<-|[]]]; lia. }
  simpl in B2, N2. rewrite L1 in B2, N2. apply (BF 2 3) in B2. assert (L2 : s_last s2 = 4).
  { eapply NL; [exact N2|]. right. simpl. split; auto. intros x [<-|[<-|[]]]; lia. }
  destruct s2 as [sets2 last2]. simpl in *. subst. rewrite E1. simpl. exact AL.
Qed.

(** * C01: identities are never handed out twice.
    Partial: the full statement ranges over all sessions; it fails after an empty set was created
    (see [ids_unique_refuted]), so here every construction creates at least one particle (with any
    explicitly requested id offsets distinct and non-negative). *)
Theorem ids_unique_partial : forall (V : Type) (ops : list (op V)),
  Forall fresh_request ops -> NoDup (handed_out world0 ops).
Proof. intros. exact (proj1 (handed_out_fresh ops world0 H)). Qed.
Print Assumptions ids_unique_partial.

Example ids_unique_case :
  Forall fresh_request (ex_ops ++ [Add 0 1; RemoveIndex 0 0; New (Some [5; 3]) 2 (ex_cols 1 2)]) /\
  handed_out world0 (ex_ops ++ [Add 0 1; RemoveIndex 0 0; New (Some [5; 3]) 2 (ex_cols 1 2)])
  = [0; 1; 2; 3; 9; 7].
Proof.
  split; [|vm_compute; reflexivity].
  repeat (apply Forall_cons || apply Forall_nil); simpl; try lia; auto.
  split; [discriminate|]. split.
  - repeat constructor; simpl; intuition discriminate.
  - intros x [<-|[<-|[]]]; lia.
Qed.

(** Creating an empty set resets the counter: the next set reuses identities. *)
Theorem ids_unique_refuted : exists ops : list (op Z), ~ NoDup (handed_out world0 ops).
Proof.
  exists [New None 2 (ex_cols 10 20); New None 0 [("lon"%string, []); ("time"%string, [])];
          New None 2 (ex_cols 30 40)].
  vm_compute. intros C. inversion C; subst. apply H1. right; left; reflexivity.
Qed.
Print Assumptions ids_unique_refuted.

(** * C02 (and the history part of C03 - C05): every allowed session behaves as if each set were a
    list of whole records; in particular the variables of a particle are never mixed with those of
    another particle. *)
Theorem session_refines_records : forall (V : Type) names (ops : list (op V)),
  NoDup names -> guarded names spec0 ops ->
  exists s, spec_run spec0 ops s (snd (run world0 ops)) /\ observed (fst (run world0 ops)) s.
Proof. exact (@history_refines). Qed.
Print Assumptions session_refines_records.

Example session_refines_case : NoDup ex_names /\ guarded ex_names spec0 (ex_ops ++ [Add 0 1]).
Proof.
  split. { repeat constructor; simpl; intuition discriminate. }
  apply ex_guarded. simpl. split; [discriminate|]. split; [discriminate|].
  intros lj H. discriminate.
Qed.

(** * C03: adding a set appends (or prepends) each particle of the other set exactly once, in order,
    and leaves the other set as it was. *)
Theorem add_exactly_once : forall (V : Type) names ops i j (w : world V) li lj,
  session names ops (Add i j) w -> iterate w i = Some li -> iterate w j = Some lj ->
  exists l, step w (Add i j) = (fst (step w (Add i j)), ODone) /\
    iterate (fst (step w (Add i j))) i = Some l /\
    (l = li ++ lj \/ l = lj ++ li) /\
    set_len (fst (step w (Add i j))) i = Some (Z.of_nat (length li + length lj)) /\
    (i <> j -> iterate (fst (step w (Add i j))) j = Some lj).
Proof. exact (@session_add). Qed.
Print Assumptions add_exactly_once.

Example add_exactly_once_case :
  session ex_names ex_ops (Add 0 1) (fst (run world0 ex_ops)) /\
  iterate (fst (run world0 ex_ops)) 0 =
    Some [mkPrec 0 1 [("lon"%string, 10); ("time"%string, 1000)];
          mkPrec 1 1 [("lon"%string, 20); ("time"%string, 2000)]].
Proof.
  split; [|reflexivity]. destruct session_refines_case. split; auto.
Qed.

(** * C04: removal removes exactly the named particles and keeps the others in order. *)
Theorem remove_positions_exact : forall (V : Type) names ops i ks ps (w : world V) l,
  session names ops (RemoveIndices i ks) w -> iterate w i = Some l ->
  Forall2 (means_position (length l)) ks ps ->
  exists l', step w (RemoveIndices i ks) = (fst (step w (RemoveIndices i ks)), ODone) /\
    iterate (fst (step w (RemoveIndices i ks))) i = Some l' /\ removed_exactly l ps l' /\
    set_len (fst (step w (RemoveIndices i ks))) i = Some (Z.of_nat (length l')).
Proof. exact (@session_remove). Qed.
Print Assumptions remove_positions_exact.

Theorem remove_mask_exact : forall (V : Type) names ops i bs (w : world V) l,
  session names ops (RemoveBool i bs) w -> iterate w i = Some l -> length bs = length l ->
  exists l' ps, step w (RemoveBool i bs) = (fst (step w (RemoveBool i bs)), ODone) /\
    (forall p, In p ps <-> nth_error bs p = Some true) /\
    iterate (fst (step w (RemoveBool i bs))) i = Some l' /\ removed_exactly l ps l' /\
    set_len (fst (step w (RemoveBool i bs))) i = Some (Z.of_nat (length l')).
Proof. exact (@session_remove_bool). Qed.
Print Assumptions remove_mask_exact.

Theorem remove_id_exact : forall (V : Type) names ops i x (w : world V) l,
  session names ops (RemoveID i x) w -> iterate w i = Some l ->
  let w' := fst (step w (RemoveID i x)) in
  (exists p l', first_with_id l x p /\ snd (step w (RemoveID i x)) = ODone /\
     iterate w' i = Some l' /\ removed_exactly l [p] l' /\ set_len w' i = Some (Z.of_nat (length l'))) \/
  (~ has_id l x /\ w' = w /\ exists e, snd (step w (RemoveID i x)) = ORaise e).
Proof. exact (@session_remove_id). Qed.
Print Assumptions remove_id_exact.

Example remove_case :
  session ex_names ex_ops (RemoveIndices 0 [-1]) (fst (run world0 ex_ops)) /\
  session ex_names ex_ops (RemoveBool 0 [true; false]) (fst (run world0 ex_ops)) /\
  session ex_names ex_ops (RemoveID 1 3) (fst (run world0 ex_ops)) /\
  Forall2 (means_position 2) [-1] [1%nat].
Proof.
  assert (ND := proj1 session_refines_case).
  split; [|split; [|split]].
  - split; auto. split; auto. apply ex_guarded. simpl. split; [discriminate|].
    intros l ps _ F. inversion F; subst. inversion H3; subst. repeat constructor. intros [].
  - split; auto. split; auto. apply ex_guarded. simpl. discriminate.
  - split; auto. split; auto. apply ex_guarded. simpl. discriminate.
  - repeat constructor; simpl; lia.
Qed.

(** Naming a position twice makes the set forget one more particle than was removed: [len] and
    iteration lose a particle that is still stored. *)
Theorem remove_positions_twice_refuted : exists (w : world Z) l l',
  iterate w 0 = Some l /\ length l = 2%nat /\
  snd (step w (RemoveIndices 0 [0; 0])) = ODone /\
  iterate (fst (step w (RemoveIndices 0 [0; 0]))) 0 = Some l' /\ l' = [] /\
  ~ removed_exactly l [0%nat; 0%nat] l'.
Proof.
  exists (fst (run world0 ex_ops)). eexists. eexists.
  split; [reflexivity|]. split; [reflexivity|]. split; [reflexivity|]. split; [reflexivity|].
  split; [reflexivity|].
  intros (pos & _ & P & E). destruct pos; [|discriminate].
  assert (H : In 1%nat []) by (apply P; split; [simpl; lia|intros [C|[C|[]]]; discriminate]).
  contradiction.
Qed.
Print Assumptions remove_positions_twice_refuted.

(** * C05: lookup by identity. *)
Theorem lookup_by_id_exact : forall (V : Type) names ops i x (w : world V) l,
  session names ops (GetID i x) w -> iterate w i = Some l ->
  fst (step w (GetID i x)) = w /\
  ((exists p, first_with_id l x p /\ snd (step w (GetID i x)) = OIndex p) \/
   (~ has_id l x /\ exists e, snd (step w (GetID i x)) = ORaise e)).
Proof. exact (@session_lookup). Qed.
Print Assumptions lookup_by_id_exact.

(** Partial: lookups of at most one id, or on sets whose ids are not increasing. *)
Theorem lookup_many_partial : forall (V : Type) names ops i xs (w : world V) l,
  session names ops (GetIDs i xs) w -> iterate w i = Some l ->
  exists ps, snd (step w (GetIDs i xs)) = OIndices ps /\ positions_of l xs ps.
Proof. exact (@session_lookup_many). Qed.
Print Assumptions lookup_many_partial.

Example lookup_case :
  session ex_names ex_ops (GetID 1 3) (fst (run world0 ex_ops)) /\
  session ex_names ex_ops (GetIDs 1 [3]) (fst (run world0 ex_ops)) /\
  snd (step (fst (run world0 ex_ops)) (GetID 1 3)) = OIndex 1.
Proof.
  assert (ND := proj1 session_refines_case). split; [|split; [|reflexivity]].
  - split; auto. split; auto. apply ex_guarded. simpl. discriminate.
  - split; auto. split; auto. apply ex_guarded. simpl. split; [discriminate|]. split; [left; auto|].
    intros l H. injection H as <-. repeat constructor; simpl; intuition discriminate.
Qed.

(** A freshly created set never finds two or more of its own ids at once: the call raises. *)
Theorem lookup_many_refuted : forall (V : Type) n cols xs, NoDup (map fst cols) ->
  (forall nc : string * list V, In nc cols -> length (snd nc) = n) -> (2 <= length xs)%nat ->
  (forall x, In x xs -> 0 <= x < Z.of_nat n) ->
  exists e, snd (run world0 [New None n cols; GetIDs 0 xs]) = [ODone; ORaise e].
Proof. exact (@new_then_multi_raises). Qed.
Print Assumptions lookup_many_refuted.

Example lookup_many_refuted_case : 
  snd (run world0 [New None 2 (ex_cols 10 20); GetIDs 0 [0; 1]]) = [ODone; ORaise EIndex].
Proof. reflexivity. Qed.

(** With some ids absent it can also silently miss a particle that is there. *)
Theorem lookup_many_misses_refuted : exists (ops : list (op Z)) xs l,
  iterate (fst (run world0 ops)) 0 = Some l /\ has_id l 30 /\ In 30 xs /\
  snd (step (fst (run world0 ops)) (GetIDs 0 xs)) = OIndices [].
Proof.
  exists [New (Some [10; 20; 30]) 3 []], [5; 15; 30]. eexists. split; [reflexivity|].
  split; [|split; [simpl; tauto|reflexivity]].
  exists (mkPrec 30 1 []); split; [simpl; tauto|reflexivity].
Qed.
Print Assumptions lookup_many_misses_refuted.

(** After adding a set with decreasing ids into an empty set, a particle that is there is not found. *)
Theorem lookup_after_add_to_empty_refuted : exists (ops : list (op Z)) l x,
  iterate (fst (run world0 ops)) 0 = Some l /\ has_id l x /\
  exists e, snd (step (fst (run world0 ops)) (GetID 0 x)) = ORaise e.
Proof.
  exists [New None 0 []; New (Some [2; 1; 0]) 3 []; Add 0 1]. eexists. exists 2.
  split; [reflexivity|]. split.
  - exists (mkPrec 2 1 []); split; [simpl; tauto|reflexivity].
  - exists EValue. reflexivity.
Qed.
Print Assumptions lookup_after_add_to_empty_refuted.

(** * C06: an operation on one set does not change what is observed of any other set. *)
Theorem other_sets_untouched : forall (V : Type) names ops o (w : world V), session names ops o w ->
  exists s, spec_run spec0 ops s (snd (run world0 ops)) /\ observed w s /\
    forall k rows, live s k rows -> k <> target w o ->
      iterate (fst (step w o)) k = Some rows /\
      set_len (fst (step w o)) k = Some (Z.of_nat (length rows)).
Proof. exact (@session_frame). Qed.
Print Assumptions other_sets_untouched.

Example other_sets_untouched_case :
  session ex_names ex_ops (SetVar 0 "lon"%string 1 99) (fst (run world0 ex_ops)).
Proof.
  assert (ND := proj1 session_refines_case). split; auto. split; auto.
  apply ex_guarded. simpl. discriminate.
Qed.

(** Adding a set into an empty set makes the two share their storage: writing to one changes the
    other. *)
Theorem add_to_empty_shares_storage_refuted : exists (ops : list (op Z)) rows rows',
  let w := fst (run world0 ops) in
  iterate w 1 = Some rows /\
  iterate (fst (step w (SetVar 0 "lon"%string 0 99))) 1 = Some rows' /\ rows <> rows'.
Proof.
  exists [New None 0 [("lon"%string, [])]; New None 1 [("lon"%string, [7])]; Add 0 1].
  eexists. eexists. cbv zeta. split; [reflexivity|]. split; [reflexivity|]. discriminate.
Qed.
Print Assumptions add_to_empty_shares_storage_refuted.
