(** Proofs for C33: the recorded flags, kernels without loops and deletions, examples. *)
From Coq Require Import String List ZArith QArith Bool Arith Lia.
From Verif Require Import GenModel GenSpec GenProofs GenProofs2 GenProofs3 GenProofs4 GenProofs5 GenProofs6 GenProofs7 GenExamples.
Import ListNotations.
Open Scope Z_scope.

Lemma kernel_closed :
  forall ncomp vdim aint libm fsample vfsample consts body n p c res p',
  samples_ok ncomp vdim fsample vfsample ->
  forallb (sfits ncomp vdim aint) body = true ->
  agree aint p c -> p_del p = false ->
  ~ (pnum (p_att p "state") == inject_Z (py_code KDelete))%Q ->
  presult (p_att p "state") (pexec libm fsample vfsample aint consts n body p) = Some (res, p') ->
  p_odd p' = false ->
  exists zs m0 c', compile ncomp vdim body = Some zs /\
    (forall m, (m0 <= m)%nat ->
       cresult (c_att c "state") (cexec libm fsample vfsample aint consts m zs c) = Some (res, c')) /\
    (if p_del p' then agree_but "state" p' c' else agree aint p' c').
Proof.
  intros ncomp vdim aint libm fsample vfsample consts body n p c res p' HS F A D Nd Hr Ho.
  destruct (kernel_case ncomp vdim aint libm fsample vfsample consts HS body n p c res p' F A D Nd Hr Ho)
    as (zs & co & c' & C & R & Hc & Ag).
  destruct (runs_all _ _ _ _ _ _ _ _ R) as (m0 & Hm). exists zs, m0, c'. split; [exact C|]. split; [|exact Ag].
  intros m Hle. rewrite (Hm m Hle). exact Hc.
Qed.

(** * The flags record, they do not influence *)

Section Ghost.
Variable aint : string -> bool.
Variable libm : string -> list Q -> option Q.
Variable fsample : string -> Q -> Q -> Q -> Q -> sample.
Variable vfsample : string -> Q -> Q -> Q -> Q -> vsample.
Variable consts : leaf -> Q.
Notation pex := (pexec libm fsample vfsample aint consts).
Notation pex1' := (pex1 aint libm fsample vfsample consts).
Notation pwh := (pwhile libm fsample vfsample aint consts).
Notation pe := (penv consts).

Definition twin (p q : pst) : Prop := p_loc p = p_loc q /\ p_att p = p_att q.

Definition twins (o o' : pout) : Prop :=
  match o, o' with
  | ONext p, ONext q | OBreak p, OBreak q => twin p q
  | OReturn c p, OReturn d q | OErr c p, OErr d q => c = d /\ twin p q
  | ORaise, ORaise | OFuel, OFuel => True
  | _, _ => False
  end.

Lemma twin_env p q : twin p q -> pe p = pe q.
Proof. intros [E1 E2]. unfold penv. rewrite E1, E2. reflexivity. Qed.

Lemma twin_assign p q t v : twin p q -> twin (passign aint p t v) (passign aint q t v).
Proof. intros [E1 E2]. destruct t; split; cbn; rewrite ?E1, ?E2; reflexivity. Qed.

Lemma twin_assigns ts : forall vs p q, twin p q -> twin (passigns aint p ts vs) (passigns aint q ts vs).
Proof.
  unfold passigns. induction ts as [|t ts IH]; intros vs p q T; [exact T|]. destruct vs as [|v vs]; [exact T|].
  cbn [combine fold_left fst snd]. apply IH. apply twin_assign. exact T.
Qed.

Lemma twin_give {A} (r : pres A) p q k k' : twin p q -> (forall v, twins (k v) (k' v)) -> twins (pgive r p k) (pgive r q k').
Proof. intros T H. destruct r; cbn [pgive]; [apply H|split; [reflexivity|exact T]|exact I]. Qed.

Lemma ghost n :
  (forall ss p q, twin p q -> twins (pex n ss p) (pex n ss q)) /\
  (forall f f' c b p q, twin p q -> twins (pwh n f c b p) (pwh n f' c b q)).
Proof.
  induction n as [|n [IH IHw]]; [split; intros; exact I|]. split.
  - intros ss p q T. destruct ss as [|i r]; [exact T|]. rewrite !pex_cons.
    assert (X : twins (pex1' n i p) (pex1' n i q)).
    { pose proof (twin_env p q T) as E. destruct i; cbn [pex1]; unfold aug_value, vec_value; rewrite ?E.
      - apply twin_give; [exact T|]. intros v. apply twin_assign. exact T.
      - apply twin_give; [exact T|]. intros v. apply twin_assign. exact T.
      - apply twin_give; [exact T|]. intros v. destruct (_ =? _)%nat; [apply twin_assigns; exact T|exact I].
      - apply twin_give; [exact T|]. intros v. destruct (_ =? _)%nat; [apply twin_assigns; exact T|exact I].
      - apply twin_give; [exact T|]. intros v. apply IH. exact T.
      - apply IHw. exact T.
      - exact T.
      - exact T.
      - split; [reflexivity|exact T].
      - destruct T as [E1 E2]. split; cbn; rewrite ?E1, ?E2; reflexivity. }
    destruct (pex1' n i p), (pex1' n i q); try contradiction X; try exact X. apply IH. exact X.
  - intros f f' c b p q T. rewrite !pwh_step, (twin_env p q T). apply twin_give; [exact T|]. intros v.
    destruct (ptruth v); [|exact T]. pose proof (IH b p q T) as X.
    destruct (pex n b p), (pex n b q); try contradiction X; try exact X. apply IHw. exact X.
Qed.

(** * Without loops and deletions *)

Definition unmarked (o : pout) : Prop :=
  match o with
  | ONext p | OBreak p | OReturn _ p | OErr _ p => p_del p = false /\ p_odd p = false
  | _ => True
  end.

Lemma passigns_unmarked ts : forall vs p, p_del p = false -> p_odd p = false ->
  p_del (passigns aint p ts vs) = false /\ p_odd (passigns aint p ts vs) = false.
Proof.
  unfold passigns. induction ts as [|t ts IH]; intros vs p D O; [auto|]. destruct vs as [|v vs]; [auto|].
  cbn [combine fold_left fst snd]. apply IH; destruct t; cbn; rewrite ?D, ?O; reflexivity.
Qed.

Lemma straight_unmarked n : forall ss p, forallb straight ss = true -> p_del p = false -> p_odd p = false ->
  unmarked (pex n ss p).
Proof.
  induction n as [|n IH]; intros ss p F D O; [exact I|]. destruct ss as [|i r]; [cbn; auto|].
  cbn [forallb] in F. apply andb_true_iff in F as [F1 F2]. rewrite pex_cons.
  assert (Er : p_del (podd p (p_del p)) = false /\ p_odd (podd p (p_del p)) = false) by (cbn; rewrite D, O; auto).
  assert (X : unmarked (pex1' n i p)).
  { destruct i; cbn [pex1 straight] in *; try discriminate F1.
    - destruct (peval _ _ _ _); cbn [pgive]; [|exact Er|exact I]. destruct t; cbn; rewrite D, O; auto.
    - destruct (aug_value _ _ _ _ _ _ _); cbn [pgive]; [|exact Er|exact I]. destruct t; cbn; rewrite D, O; auto.
    - destruct (peval_list _ _ _ _); cbn [pgive]; [|exact Er|exact I]. destruct (_ =? _)%nat; [|exact I].
      apply passigns_unmarked; assumption.
    - destruct (vec_value _ _ _ _ _ _ _ _ _ _); cbn [pgive]; [|exact Er|exact I]. destruct (_ =? _)%nat; [|exact I].
      apply passigns_unmarked; assumption.
    - apply andb_true_iff in F1 as [Fb Fo]. destruct (peval _ _ _ _); cbn [pgive]; [|exact Er|exact I].
      apply IH; [destruct (ptruth v); assumption|exact D|exact O].
    - cbn; auto.
    - cbn; auto.
    - exact Er. }
  destruct (pex1' n i p) as [q|q|k q|k q| |]; try exact X. destruct X as [Dq Oq]. apply IH; assumption.
Qed.
End Ghost.

Lemma straight_closed :
  forall ncomp vdim aint libm fsample vfsample consts body n p c res p',
  samples_ok ncomp vdim fsample vfsample ->
  forallb (sfits ncomp vdim aint) body = true -> forallb straight body = true ->
  agree aint p c -> p_del p = false -> p_odd p = false ->
  ~ (pnum (p_att p "state") == inject_Z (py_code KDelete))%Q ->
  presult (p_att p "state") (pexec libm fsample vfsample aint consts n body p) = Some (res, p') ->
  exists zs m0 c', compile ncomp vdim body = Some zs /\
    (forall m, (m0 <= m)%nat ->
       cresult (c_att c "state") (cexec libm fsample vfsample aint consts m zs c) = Some (res, c')) /\
    agree aint p' c'.
Proof.
  intros ncomp vdim aint libm fsample vfsample consts body n p c res p' HS F St A D O Nd Hr.
  pose proof (straight_unmarked aint libm fsample vfsample consts n body p St D O) as U.
  assert (U' : p_del p' = false /\ p_odd p' = false).
  { unfold presult in Hr. destruct (pexec _ _ _ _ _ n body p) as [q|q|j q|j q| |]; try discriminate Hr; cbn in U.
    - destruct (_ && _); injection Hr as _ <-; exact U.
    - destruct (_ && _); injection Hr as _ <-; exact U.
    - injection Hr as _ <-; exact U. }
  destruct U' as [D' O'].
  destruct (kernel_closed ncomp vdim aint libm fsample vfsample consts body n p c res p' HS F A D Nd Hr O')
    as (zs & m0 & c' & C & R & Ag).
  rewrite D' in Ag. exists zs, m0, c'. auto.
Qed.

(** * Examples *)

(** Result and new position, by Python and by C, for a kernel started at lon 5/2, lat 1. *)
Definition py_kernel (body : list stmt) : option (Z * Q * Q) :=
  match presult (p_att ex_p "state") (pexec ex_libm ex_fsample ex_vfsample ex_aint ex_consts 60 body ex_p) with
  | Some (r, s) => Some (r, Qred (pnum (p_att s "lon")), Qred (pnum (p_att s "lat")))
  | None => None
  end.
Definition c_kernel (body : list stmt) : option (Z * Q * Q) :=
  match compile ex_ncomp ex_vdim body with
  | Some zs =>
      match cresult (c_att ex_c "state") (cexec ex_libm ex_fsample ex_vfsample ex_aint ex_consts 60 zs ex_c) with
      | Some (r, s) => Some (r, Qred (cnum (c_att s "lon")), Qred (cnum (c_att s "lat")))
      | None => None
      end
  | None => None
  end.

Definition t_lon := TAttr "lon".
Definition t_lat := TAttr "lat".
Definition var (x : string) := ELeaf (LVar x).

(** u, v = UV[...]; k = 0; while k < 3: particle.lon += u * 2; k = k + 1; if k == 2: break
    if P[...] > 4: a, particle.lat = k, v + 1 else: particle.delete() *)
Definition kx_body : list stmt :=
  [SVec [TVar "u"; TVar "v"] "UV" (ex_num 0) (ex_num 0) lat lon;
   SAssign (TVar "k") (ex_num 0);
   SWhile (ECmp CLt (var "k") (ex_num 3))
     [SAug t_lon BAdd (EBin BMul (var "u") (ex_num 2));
      SAssign (TVar "k") (EBin BAdd (var "k") (ex_num 1));
      SIf (ECmp CEq (var "k") (ex_num 2)) [SBreak] []];
   SIf (ECmp CGt (here "P") (ex_num 4))
     [STuple [TVar "a"; t_lat] [var "k"; EBin BAdd (var "v") (ex_num 1)]]
     [SDelete]].

Lemma kx_ok :
  samples_ok ex_ncomp ex_vdim ex_fsample ex_vfsample /\
  forallb (sfits ex_ncomp ex_vdim ex_aint) kx_body = true /\
  agree ex_aint ex_p ex_c /\ p_del ex_p = false /\
  ~ (pnum (p_att ex_p "state") == inject_Z (py_code KDelete))%Q /\
  (exists p', presult (p_att ex_p "state") (pexec ex_libm ex_fsample ex_vfsample ex_aint ex_consts 60 kx_body ex_p) = Some (0, p') /\
              p_odd p' = false) /\
  py_kernel kx_body = Some (0, (25#2)%Q, 2%Q) /\ c_kernel kx_body = Some (0, (25#2)%Q, 2%Q).
Proof.
  split; [exact ex_samples|]. split; [reflexivity|]. split; [exact ex_agree|]. split; [reflexivity|].
  split; [discriminate|]. split; [|split; vm_compute; reflexivity].
  destruct (presult (p_att ex_p "state") (pexec ex_libm ex_fsample ex_vfsample ex_aint ex_consts 60 kx_body ex_p)) as [[r s]|] eqn:E.
  - exists s. assert (E1 : option_map fst (Some (r, s)) = Some 0) by (rewrite <- E; vm_compute; reflexivity).
    injection E1 as ->. split; [reflexivity|].
    assert (E2 : option_map (fun x => p_odd (snd x)) (Some (0, s)) = Some false) by (rewrite <- E; vm_compute; reflexivity).
    injection E2 as E2. exact E2.
  - exfalso. assert (E1 : option_map fst (@None (Z * pst)) = Some 0) by (rewrite <- E; vm_compute; reflexivity). discriminate E1.
Qed.

(** particle.lon = lat + 1; if P > 0: particle.lat = 3 *)
Definition sx_body : list stmt :=
  [SAssign t_lon (EBin BAdd lat (ex_num 1)); SIf (ECmp CGt (here "P") (ex_num 0)) [SAssign t_lat (ex_num 3)] []; SReturn KSuccess].
Lemma sx_ok : forallb (sfits ex_ncomp ex_vdim ex_aint) sx_body = true /\ forallb straight sx_body = true /\
  py_kernel sx_body = Some (0, 2%Q, 3%Q) /\ c_kernel sx_body = Some (0, 2%Q, 3%Q).
Proof. repeat split; vm_compute; reflexivity. Qed.

Definition x_while := [SWhile (ECmp CLt lon (ex_num 0)) [SAssign t_lon (ex_num 7)]].
Lemma x_while_ok : py_kernel x_while = Some (0, (5#2)%Q, 1%Q) /\ c_kernel x_while = Some (0, 7%Q, 1%Q).
Proof. split; vm_compute; reflexivity. Qed.

Definition x_swap := [STuple [t_lon; t_lat] [lat; lon]].
Lemma x_swap_ok : py_kernel x_swap = Some (0, 1%Q, (5#2)%Q) /\ c_kernel x_swap = Some (0, 1%Q, 1%Q).
Proof. split; vm_compute; reflexivity. Qed.

Definition x_delete := [SIf (ECmp CGt (here "P") (ex_num 100)) [SDelete] []].
Lemma x_delete_ok : py_kernel x_delete = Some (0, (5#2)%Q, 1%Q) /\ c_kernel x_delete = Some (3, (5#2)%Q, 1%Q).
Proof. split; vm_compute; reflexivity. Qed.

Definition x_summed := [SIf (ECmp CGt (here "S") (ex_num 100)) [SAssign t_lat (ex_num 5); SAssign t_lon (ex_num 6)] []].
Lemma x_summed_ok : py_kernel x_summed = Some (0, (5#2)%Q, 1%Q) /\ c_kernel x_summed = Some (0, (5#2)%Q, 5%Q).
Proof. split; vm_compute; reflexivity. Qed.

Definition x_after := [SDelete; SAssign t_lon (ex_num 9)].
Lemma x_after_ok : py_kernel x_after = Some (3, 9%Q, 1%Q) /\ c_kernel x_after = Some (3, (5#2)%Q, 1%Q).
Proof. split; vm_compute; reflexivity. Qed.

Definition x_wfield := [SWhile (ECmp CGt (here "P") (ex_num 3)) [SAug t_lon BSub (ex_num 1)]].
Lemma x_wfield_ok : py_kernel x_wfield = Some (0, (3#2)%Q, 1%Q) /\ c_kernel x_wfield = Some (0, (1#2)%Q, 1%Q).
Proof. split; vm_compute; reflexivity. Qed.

Definition x_pass := [SIf (ECmp CGt (here "P") (ex_num 0)) [SPass] [SAssign t_lon (ex_num 4)]].
Lemma x_pass_ok : py_kernel x_pass = Some (0, (5#2)%Q, 1%Q) /\ c_kernel x_pass = Some (0, 4%Q, 1%Q).
Proof. split; vm_compute; reflexivity. Qed.

Definition x_pow := [SAug t_lon BPow (ex_num 2)].
Lemma x_pow_ok : py_kernel x_pow = Some (0, (25#4)%Q, 1%Q) /\ compile ex_ncomp ex_vdim x_pow = None.
Proof. split; vm_compute; reflexivity. Qed.
