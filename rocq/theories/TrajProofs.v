(** Proofs for C51: the writes of a run. *)
From Coq Require Import String List ZArith Bool Lia ZifyBool Permutation.
From Verif Require Import CollModel KLoopModel KLoopSpec SchedModel SchedSpec SchedProofs SplitSpec SplitProofs3 OutModel OutSpec OutProofs TrajModel TrajSpec.
Import ListNotations.
Open Scope Z_scope.

(** ** The same run without the record of the writes *)

Section Map.
Context {W1 W2 : Type} (f : W1 -> W2).
Variables (exec1 : W1 -> Z -> Z -> option W1) (exec2 : W2 -> Z -> Z -> option W2).
Variables (b1 : W1 -> Z -> W1) (b2 : W2 -> Z -> W2).
Variables (act1 : kind -> W1 -> Z -> Z -> W1) (act2 : kind -> W2 -> Z -> Z -> W2).
Variables (in1 : W1 -> Z -> Z -> option (W1 * option Z)) (in2 : W2 -> Z -> Z -> option (W2 * option Z)).
Hypothesis HE : forall w t d, exec2 (f w) t d = option_map f (exec1 w t d).
Hypothesis HB : forall w d, b2 (f w) d = f (b1 w d).
Hypothesis HA : forall k w t d, act2 k (f w) t d = f (act1 k w t d).
Hypothesis HI : forall w t d, in2 (f w) t d = option_map (fun '(w, n) => (f w, n)) (in1 w t d).

Lemma serve_map : forall dt per out cbs t ks nx w nx' w' tr,
  serve act1 dt per out cbs t ks nx w = (nx', w', tr) -> serve act2 dt per out cbs t ks nx (f w) = (nx', f w', tr).
Proof.
  induction ks as [|k ks IH]; intros nx w nx' w' tr Q; cbn [serve] in *; [inversion Q; subst; reflexivity|].
  destruct (nx k) as [n|]; [|apply IH; exact Q]. destruct (per k) as [p|]; [|apply IH; exact Q].
  destruct (t =? n); [|apply IH; exact Q].
  destruct (serve act1 _ _ _ _ _ _ _ _) as [[nx2 w2] tr2] eqn:S1. inversion Q; subst.
  apply IH in S1. replace (match event_of out cbs k t with [] => f w | _ => act2 k (f w) t dt end)
    with (f (match event_of out cbs k t with [] => w | _ => act1 k w t dt end)) by (destruct (event_of out cbs k t); [reflexivity|symmetry; apply HA]).
  rewrite S1. reflexivity.
Qed.

Lemma sloop_map : forall fuel dt endt per out cbs time nx nin w t w' tr r,
  sloop exec1 act1 in1 fuel dt endt per out cbs time nx nin w = (t, w', tr, r) ->
  sloop exec2 act2 in2 fuel dt endt per out cbs time nx nin (f w) = (t, f w', tr, r).
Proof.
  induction fuel as [|n IH]; intros dt endt per out cbs time nx nin w t w' tr r Q; cbn [sloop] in *;
    (destruct (((time <? endt) && (0 <? dt)) || ((endt <? time) && (dt <? 0)) || (dt =? 0)); [|inversion Q; subst; reflexivity]).
  - inversion Q; subst. reflexivity.
  - rewrite HE. destruct (exec1 w _ dt) as [w1|]; cbn [option_map]; [|inversion Q; subst; reflexivity].
    destruct (serve act1 _ _ _ _ _ _ _ _) as [[nx2 w2] tr2] eqn:S1. apply serve_map in S1. rewrite S1.
    destruct (_ =? endt).
    + destruct (dt =? 0); [inversion Q; subst; reflexivity|].
      destruct (sloop exec1 _ _ _ _ _ _ _ _ _ _ _ _) as [[[t3 w3] tr3] r3] eqn:L. apply IH in L. rewrite L. inversion Q; subst; reflexivity.
    + rewrite HI. destruct (in1 w2 _ dt) as [[w3 n3]|]; cbn [option_map]; [|inversion Q; subst; reflexivity].
      destruct (dt =? 0); [inversion Q; subst; reflexivity|].
      destruct (sloop exec1 _ _ _ _ _ _ _ _ _ _ _ _) as [[[t4 w4] tr4] r4] eqn:L. apply IH in L. rewrite L. inversion Q; subst; reflexivity.
Qed.

Lemma sexecute_map : forall fuel eps a start rs dflt w w' tr r,
  sexecute exec1 b1 act1 in1 fuel eps a start rs dflt w = (w', tr, r) ->
  sexecute exec2 b2 act2 in2 fuel eps a start rs dflt (f w) = (f w', tr, r).
Proof.
  intros fuel eps a start rs dflt w w' tr r Q. unfold sexecute in *. destruct (resolve_end a start dflt) as [endt0|]; [|inversion Q; subst; reflexivity].
  cbn zeta in *. destruct (resolve_once eps a start endt0) as [dt endt]. rewrite HB.
  replace (if a_out a then act2 KOutput (f (b1 w dt)) start dt else f (b1 w dt)) with (f (if a_out a then act1 KOutput (b1 w dt) start dt else b1 w dt))
    by (destruct (a_out a); [symmetry; apply HA|reflexivity]).
  set (w1 := if a_out a then _ else _) in *.
  replace (match a_movie a with Some (Z.pos _) => act2 KMovie (f w1) start dt | _ => f w1 end)
    with (f (match a_movie a with Some (Z.pos _) => act1 KMovie w1 start dt | _ => w1 end))
    by (destruct (a_movie a) as [[| |]|]; try reflexivity; symmetry; apply HA).
  set (w2 := match a_movie a with Some (Z.pos _) => act1 KMovie w1 start dt | _ => w1 end) in *.
  rewrite HI. destruct (in1 w2 start (Z.sgn dt)) as [[w3 nin]|]; cbn [option_map]; [|inversion Q; subst; reflexivity].
  destruct (sloop exec1 _ _ _ _ _ _ _ _ _ _ _ _) as [[[t w4] tr4] r4] eqn:L. apply sloop_map in L. rewrite L.
  destruct r4; [|inversion Q; subst; reflexivity..]. destruct (a_out a); inversion Q; subst; [rewrite HA|]; reflexivity.
Qed.
End Map.

Section Exec.
Context {E X H : Type}.
Notation pcl := (pcl X).
Notation ev := (ev H).
Variable interp : handlers E X H.
Notation ids := (map (@q_id X)).

Lemma wrounds_same : forall fuel {S} (run_pass : S -> list pcl -> option (S * list pcl * list ev)) ge pe rmap out endt s ps,
  exists s' tr, rounds interp fuel run_pass ge pe rmap out s ps =
    (s', fst (fst (wrounds interp fuel run_pass ge pe rmap out endt s ps)), tr, snd (wrounds interp fuel run_pass ge pe rmap out endt s ps)).
Proof.
  induction fuel as [|n IH]; intros S rp ge pe rmap out endt s ps; cbn [rounds wrounds]; destruct (negb (existsb in_error ps)); cbn [fst snd]; eauto.
  destruct (recover interp rmap (ge s) ps) as [[[e1 ps1] tr1] []]; cbn [fst snd]; eauto.
  unfold remove_deleted. destruct (rp (pe s e1) _) as [[[s3 ps3] tr3]|]; cbn [fst snd]; eauto.
  destruct (IH S rp ge pe rmap out endt s3 ps3) as (s' & tr & ->).
  destruct (wrounds _ _ _ _ _ _ _ _ _ ps3) as [[ps4 log] r]. cbn [fst snd]. eauto.
Qed.

Lemma wexecute_same : forall {S} fuel (run_pass : S -> list pcl -> option (S * list pcl * list ev)) ge pe user out endt s ps,
  completed (execute interp fuel run_pass ge pe user out s ps) =
  match wexecute interp fuel run_pass ge pe user out endt s ps with (ps', _, XDone) => Some ps' | _ => None end.
Proof.
  intros S fuel rp ge pe user out endt s ps. unfold execute, wexecute. destruct (rp s _) as [[[s1 ps1] tr1]|]; [|reflexivity].
  unfold remove_deleted. destruct (wrounds_same fuel rp ge pe (recovery_map user) out endt s1 (filter (fun p => negb (is_deleted p)) ps1)) as (s' & tr & ->).
  destruct (wrounds _ _ _ _ _ _ _ _ _ _) as [[ps4 log] r]. cbn [fst snd completed]. reflexivity.
Qed.

Lemma mode_same : forall jit K lf rf atol user out e ps t dt,
  mode_exec jit K interp lf rf atol user out e ps t dt =
  match mode_wexecute interp jit K lf rf atol dt t user out e ps with (ps', _, XDone) => Some ps' | _ => None end.
Proof.
  intros. unfold mode_exec, mode_wexecute. destruct jit; [unfold jit_exec, c_execute|unfold scipy_exec, py_execute]; apply wexecute_same.
Qed.

(** ** What one call of kernel.execute hands to the file *)

(** The deletion requests of one window. *)
Inductive deletions (t : Z) : list Z -> list (wcall X) -> list Z -> Prop :=
| del_nil js : deletions t js [] js
| del_cons (qs : list pcl) log js : deletions t (ids (filter (fun p => negb (is_deleted p)) qs)) log js ->
    deletions t (ids qs) ((t, DMask (map is_deleted qs), qs) :: log) js.

Lemma hand_over_deletions : forall t qs log js, deletions t (ids (filter (fun p => negb (is_deleted p)) qs)) log js ->
  deletions t (ids qs) (hand_over true t qs ++ log) js.
Proof.
  intros t qs log js D. unfold hand_over. rewrite andb_true_r. destruct (existsb is_deleted qs) eqn:B.
  - cbn [app]. constructor. exact D.
  - cbn [app]. assert (Q : filter (fun p => negb (is_deleted p)) qs = qs).
    { clear D. induction qs as [|q qs IH]; [reflexivity|]. cbn [existsb filter] in *. destruct (is_deleted q); [discriminate|].
      cbn [negb]. f_equal. apply IH. exact B. }
    rewrite Q in D. exact D.
Qed.

Lemma recover_ids : forall rmap ps e e1 ps1 tr r, recover interp rmap e ps = (e1, ps1, tr, r) -> ids ps1 = ids ps.
Proof.
  induction ps as [|p t IH]; intros e e1 ps1 tr r Q; cbn [recover] in Q; [inversion Q; reflexivity|].
  destruct (negb (in_error p)).
  { destruct (recover interp rmap e t) as [[[a b] c] d] eqn:R. inversion Q; subst. cbn [map]. f_equal. eapply IH, R. }
  destruct (q_st p =? op_StopExecution); [inversion Q; subst; reflexivity|].
  destruct (q_st p =? op_Repeat).
  { destruct (recover interp rmap e t) as [[[a b] c] d] eqn:R. inversion Q; subst. cbn [map set_st q_id]. f_equal. eapply IH, R. }
  destruct (q_st p =? op_Delete).
  { destruct (recover interp rmap e t) as [[[a b] c] d] eqn:R. inversion Q; subst. cbn [map]. f_equal. eapply IH, R. }
  destruct (rmap (q_st p)) as [h|].
  - destruct (run_rkernel interp h e (set_st p st_Success)) as [e2 [p1|]]; [|inversion Q; subst; reflexivity].
    destruct (recover interp rmap e2 t) as [[[a b] c] d] eqn:R. inversion Q; subst. cbn [map q_id]. f_equal. eapply IH, R.
  - destruct (recover interp rmap e t) as [[[a b] c] d] eqn:R. inversion Q; subst. cbn [map set_st q_id]. f_equal. eapply IH, R.
Qed.

Lemma pass_ids : forall {S} (one : S -> pcl -> option (S * pcl * list ev)),
  (forall s p s' p' tr, one s p = Some (s', p', tr) -> q_id p' = q_id p) ->
  forall ps s s' ps' tr, pass one s ps = Some (s', ps', tr) -> ids ps' = ids ps.
Proof.
  intros S one HO. induction ps as [|p t IH]; intros s s' ps' tr P; cbn [pass] in P; [inversion P; reflexivity|].
  destruct (one s p) as [[[s1 p1] tr1]|] eqn:O; [|discriminate]. destruct (pass one s1 t) as [[[s2 ps2] tr2]|] eqn:P2; [|discriminate].
  inversion P; subst. cbn [map]. f_equal; [eapply HO, O|eapply IH, P2].
Qed.

Lemma py_particle_id : forall (K : E -> pcl -> E * kres X) f atol dt endt e p e' p' tr, py_particle (H:=H) K f atol dt endt e p = Some (e', p', tr) -> q_id p' = q_id p.
Proof.
  intros K. assert (L : forall f atol dt endt e p dp e' p' tr, py_loop (H:=H) K f atol dt endt e p dp = Some (e', p', tr) -> q_id p' = q_id p).
  { induction f as [|f IH]; intros atol dt endt e p dp e' p' tr Q; [discriminate|]. cbn [py_loop] in Q.
    destruct (_ || _ || _); [|inversion Q; subst; reflexivity]. cbv zeta in Q. destruct (K e _) as [e1 r].
    match type of Q with context [if ?b then _ else _] => match b with _ || _ => destruct b end end.
    - destruct (close0 atol dt); [inversion Q; subst; reflexivity|].
      match type of Q with context [py_loop K f atol dt endt ?a ?b ?c] => destruct (py_loop (H:=H) K f atol dt endt a b c) as [[[a2 b2] c2]|] eqn:L2 end; [|discriminate].
      apply IH in L2. inversion Q; subst. exact L2.
    - inversion Q; subst. reflexivity. }
  intros f atol dt endt e p e' p' tr Q. unfold py_particle in Q. cbv zeta in Q.
  destruct (_ && _); [inversion Q; subst; destruct (_ <=? _); reflexivity|eapply L, Q].
Qed.

Lemma c_one_id : forall (K : E -> pcl -> E * kres X) f atol dt endt s p s' p' tr, c_one (H:=H) K f atol dt endt s p = Some (s', p', tr) -> q_id p' = q_id p.
Proof.
  intros K. assert (L : forall f atol dt endt g e p dp g' e' p' tr, c_loop (H:=H) K f atol dt endt g e p dp = Some (g', e', p', tr) -> q_id p' = q_id p).
  { induction f as [|f IH]; intros atol dt endt g e p dp g' e' p' tr Q; [discriminate|]. cbn [c_loop] in Q.
    destruct (_ || _ || _); [|inversion Q; subst; reflexivity]. cbv zeta in Q. destruct (K e _) as [e1 r].
    match type of Q with context [if ?b then _ else _] => match b with _ || _ => destruct b end end.
    - match type of Q with context [if ?b =? 0 then _ else _] => destruct (b =? 0) end; [inversion Q; subst; reflexivity|].
      match type of Q with context [c_loop K f atol dt endt ?g ?a ?b ?c] => destruct (c_loop (H:=H) K f atol dt endt g a b c) as [[[[a1 a2] b2] c2]|] eqn:L2 end; [|discriminate].
      apply IH in L2. inversion Q; subst. exact L2.
    - inversion Q; subst. reflexivity. }
  intros f atol dt endt s p s' p' tr Q. unfold c_one, c_particle in Q. cbv zeta in Q.
  destruct (_ && _).
  - inversion Q; subst; destruct (_ <=? _); reflexivity.
  - destruct (c_loop _ _ _ _ _ _ _ _ _) as [[[[g e1] p1] tr1]|] eqn:C; [|discriminate]. apply L in C. inversion Q; subst. exact C.
Qed.

Section Rounds.
Context {S : Type}.
Variable run_pass : S -> list pcl -> option (S * list pcl * list ev).
Hypothesis RP : forall s ps s' ps' tr, run_pass s ps = Some (s', ps', tr) -> ids ps' = ids ps.

Lemma wrounds_deletions : forall fuel ge pe rmap t s ps ps' log,
  wrounds interp fuel run_pass ge pe rmap true t s ps = (ps', log, XDone) -> deletions t (ids ps) log (ids ps').
Proof.
  induction fuel as [|n IH]; intros ge pe rmap t s ps ps' log Q; cbn [wrounds] in Q; destruct (negb (existsb in_error ps));
    try (inversion Q; subst; constructor).
  destruct (recover interp rmap (ge s) ps) as [[[e1 ps1] tr1] []] eqn:R; try discriminate. apply recover_ids in R. rewrite <- R.
  destruct (run_pass (pe s e1) _) as [[[s3 ps3] tr3]|] eqn:P; [|discriminate]. apply RP in P.
  destruct (wrounds _ _ _ _ _ _ _ _ _ ps3) as [[ps4 log2] r] eqn:W. inversion Q; subst. apply IH in W. rewrite P in W.
  apply hand_over_deletions. exact W.
Qed.

Lemma wexecute_deletions : forall fuel ge pe user t s ps ps' log,
  wexecute interp fuel run_pass ge pe user true t s ps = (ps', log, XDone) -> deletions t (ids ps) log (ids ps').
Proof.
  intros fuel ge pe user t s ps ps' log Q. unfold wexecute in Q. destruct (run_pass s _) as [[[s1 ps1] tr1]|] eqn:P; [|discriminate].
  apply RP in P. rewrite map_map in P. cbn [set_st q_id] in P. change (map (fun x => q_id x) ps) with (ids ps) in P.
  destruct (wrounds _ _ _ _ _ _ _ _ _ _) as [[ps3 log2] r] eqn:W. inversion Q; subst. apply wrounds_deletions in W.
  rewrite <- P. apply hand_over_deletions. exact W.
Qed.
End Rounds.

Lemma mode_deletions : forall jit K lf rf atol user e ps t dt ps' log,
  mode_wexecute interp jit K lf rf atol dt t user true e ps = (ps', log, XDone) -> deletions t (ids ps) log (ids ps').
Proof.
  intros jit K lf rf atol user e ps t dt ps' log Q. unfold mode_wexecute in Q. destruct jit; eapply wexecute_deletions; try exact Q.
  - intros s qs s' qs' tr. apply pass_ids. apply c_one_id.
  - intros s qs s' qs' tr. apply pass_ids. apply py_particle_id.
Qed.
End Exec.
