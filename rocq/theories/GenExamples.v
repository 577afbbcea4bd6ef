(** Examples for C32 and C33, and the closed form of the expression theorem. *)
From Coq Require Import String List ZArith QArith Bool Arith Lia.
From Verif Require Import GenModel GenSpec GenProofs GenProofs2 GenProofs3.
Import ListNotations.
Open Scope Z_scope.
Local Open Scope string_scope.

Lemma phrase_unique0 : forall ts t t', phrase 0 ts t -> phrase 0 ts t' -> t = t'.
Proof. intros ts t t' H1 H2. apply cparse_spec in H1, H2. congruence. Qed.

Lemma runs_all aint libm fsample vfsample consts zs c o :
  runs aint libm fsample vfsample consts zs c o ->
  exists m0, forall m, (m0 <= m)%nat -> cexec libm fsample vfsample aint consts m zs c = o.
Proof. intros [Ho [n H]]. exists n. intros m Hm. apply (exec_mono _ _ _ _ _ _ _ _ _ H Ho m Hm). Qed.

Lemma expression_closed :
  forall ncomp vdim aint libm fsample vfsample consts e n te calls n' p c,
  samples_ok ncomp vdim fsample vfsample ->
  fits ncomp aint e = true ->
  mods_ok libm fsample (penv consts p) e ->
  hoist ncomp n e = (te, calls, n') ->
  agree aint p c ->
  exists zs ts, gen_list (map YCall calls) = Some zs /\ gen te = Some ts /\
    match peval libm fsample (penv consts p) e with
    | PV v => exists c' w,
        (exists m0, forall m, (m0 <= m)%nat -> cexec libm fsample vfsample aint consts m zs c = CNext c') /\
        c_loc c' = c_loc c /\ c_att c' = c_att c /\
        cvalue libm consts c' ts = Some w /\ ctruth w = ptruth v /\ (valued e = true -> (cnum w == pnum v)%Q)
    | PErr k => exists c',
        (exists m0, forall m, (m0 <= m)%nat -> cexec libm fsample vfsample aint consts m zs c = CReturn k c') /\
        c_loc c' = c_loc c /\ c_att c' = c_att c
    | PRaise => True
    end.
Proof.
  intros ncomp vdim aint libm fsample vfsample consts e n te calls n' p c HS F M H A.
  destruct (expression_case ncomp vdim aint libm fsample vfsample consts HS e n te calls n' p c F H A M)
    as (zs & ts & G & Hg & C).
  exists zs, ts. split; [exact G|]. split; [exact Hg|].
  destruct (peval libm fsample (penv consts p) e) as [v|k|]; [| |exact I].
  - destruct C as (c' & w & R & (K1 & K2 & _) & Ew & T & V). exists c', w.
    split; [apply runs_all; exact R|]. repeat (split; [assumption|]). exact V.
  - destruct C as (c' & R & (K1 & K2 & _)). exists c'.
    split; [apply runs_all; exact R|]. split; assumption.
Qed.

(** * Examples *)

Definition ex_ncomp (f : string) : nat := if String.eqb f "S" then 2 else 1.
Definition ex_vdim (f : string) : nat := 2.
Definition ex_aint (a : string) : bool := String.eqb a "state".
Definition ex_libm (f : string) (l : list Q) : option Q := match l with [q] => Some (q * q)%Q | _ => None end.
Definition ex_fsample (f : string) (t z y x : Q) : sample :=
  if String.eqb f "S" then Sampled [3%Q; 4%Q]
  else if String.eqb f "bad" then SampleErr 6
  else Sampled [Qred (x + y)].
Definition ex_vfsample (f : string) (t z y x : Q) : vsample := if String.eqb f "S" then VSampled [[x; x]; [y; y]] else VSampled [[x]; [y]].
Definition ex_consts (l : leaf) : Q := 7%Q.

Definition ex_att (a : string) : pval :=
  if String.eqb a "state" then PI 1
  else if String.eqb a "lon" then PF (5#2) else if String.eqb a "lat" then PF 1 else PF 0.
Definition ex_catt (a : string) : cval :=
  if String.eqb a "state" then CI 1
  else if String.eqb a "lon" then CR (5#2) else if String.eqb a "lat" then CR 1 else CR 0.
Definition ex_p : pst := mkPst (fun _ => None) ex_att false false.
Definition ex_c : cst := mkCst (fun _ => CR 0) ex_catt (fun _ => CR 0).

Definition ex_num (z : Z) : expr := ENum (NInt z).
Definition lon : expr := ELeaf (LAttr "lon").
Definition lat : expr := ELeaf (LAttr "lat").
Definition here (f : string) : expr := EField f (ex_num 0) (ex_num 0) lat lon.

(** The value Python gives, and the one C computes after the samples (none if something goes wrong). *)
Definition py_means (e : expr) : option Q :=
  match peval ex_libm ex_fsample (penv ex_consts ex_p) e with PV v => Some (Qred (pnum v)) | _ => None end.
Definition c_means (e : expr) : option Q :=
  let '(te, calls, _) := hoist ex_ncomp 0 e in
  match gen_list (map YCall calls), gen te with
  | Some zs, Some ts =>
      match cexec ex_libm ex_fsample ex_vfsample ex_aint ex_consts 10 zs ex_c with
      | CNext c' => match cvalue ex_libm ex_consts c' ts with Some w => Some (Qred (cnum w)) | None => None end
      | _ => None
      end
  | _, _ => None
  end.

Lemma ex_samples : samples_ok ex_ncomp ex_vdim ex_fsample ex_vfsample.
Proof.
  unfold ex_fsample, ex_vfsample, ex_ncomp, ex_vdim. split; [|split; [|split]].
  - intros f t z y x vs H. destruct (f =? "S"); [injection H as <-; reflexivity|].
    destruct (f =? "bad"); [discriminate|]. injection H as <-. reflexivity.
  - intros f t z y x c H. destruct (f =? "S"); [discriminate|].
    destruct (f =? "bad"); [injection H as <-; discriminate|discriminate].
  - intros f t z y x vs H. destruct (f =? "S"); injection H as <-; (split; [reflexivity|repeat constructor]).
  - intros f t z y x c H. destruct (f =? "S"); discriminate.
Qed.

Lemma ex_agree : agree ex_aint ex_p ex_c.
Proof.
  split; [intros x v H; discriminate H|]. intros a. cbn [ex_p ex_c p_att c_att]. unfold ex_att, ex_catt, ex_aint.
  destruct (a =? "state"); [split; reflexivity|]. destruct (a =? "lon"); [split; reflexivity|].
  destruct (a =? "lat"); split; reflexivity.
Qed.

(** (lon + lat * 2) - P[lat, lon] > 0 and not (lon < lat - 1) *)
Definition ex_good : expr :=
  ELog LAnd
    (ECmp CGt (EBin BSub (EBin BAdd lon (EBin BMul lat (ex_num 2))) (here "P")) (ex_num 0))
    (EUn UNot (ECmp CLt lon (EBin BSub lat (ex_num 1)))).

Lemma ex_good_ok :
  samples_ok ex_ncomp ex_vdim ex_fsample ex_vfsample /\
  fits ex_ncomp ex_aint ex_good = true /\
  mods_ok ex_libm ex_fsample (penv ex_consts ex_p) ex_good /\
  agree ex_aint ex_p ex_c /\
  peval ex_libm ex_fsample (penv ex_consts ex_p) ex_good = PV (PI 1) /\
  py_means ex_good = Some 1%Q /\ c_means ex_good = Some 1%Q.
Proof.
  split; [exact ex_samples|]. split; [reflexivity|]. split; [cbn; repeat split; discriminate|].
  split; [exact ex_agree|]. repeat split; vm_compute; reflexivity.
Qed.

Lemma ex_sub_groups : forall a b c,
  py_means (EBin BSub (EBin BSub (ex_num a) (ex_num b)) (ex_num c)) = Some (inject_Z (a - b - c)) /\
  c_means (EBin BSub (EBin BSub (ex_num a) (ex_num b)) (ex_num c)) = Some (inject_Z (a - b - c)) /\
  py_means (EBin BSub (ex_num a) (EBin BSub (ex_num b) (ex_num c))) = Some (inject_Z (a - (b - c))) /\
  c_means (EBin BSub (ex_num a) (EBin BSub (ex_num b) (ex_num c))) = Some (inject_Z (a - (b - c))).
Proof.
  intros a b c. rewrite <- (Qred_inject (a - b - c)), <- (Qred_inject (a - (b - c))).
  split; [reflexivity|]. split; [reflexivity|]. split; reflexivity.
Qed.

Definition ex_or_and := ELog LAnd (ELog LOr (ex_num 1) (ex_num 1)) (ex_num 0).
Lemma ex_or_and_ok : py_means ex_or_and = Some 0%Q /\ c_means ex_or_and = Some 1%Q.
Proof. split; vm_compute; reflexivity. Qed.

Definition ex_cmp_sum := EBin BAdd (ex_num 1) (ECmp CLt (ex_num 2) (ex_num 3)).
Lemma ex_cmp_sum_ok : py_means ex_cmp_sum = Some 2%Q /\ c_means ex_cmp_sum = Some 0%Q.
Proof. split; vm_compute; reflexivity. Qed.

Definition ex_cmp_cmp := ECmp CGt (ex_num 3) (ECmp CGt (ex_num 2) (ex_num 1)).
Lemma ex_cmp_cmp_ok : py_means ex_cmp_cmp = Some 1%Q /\ c_means ex_cmp_cmp = Some 0%Q.
Proof. split; vm_compute; reflexivity. Qed.

Definition ex_half := EBin BDiv (ex_num 1) (ex_num 2).
Lemma ex_half_ok : py_means ex_half = Some (1#2)%Q /\ c_means ex_half = Some 0%Q.
Proof. split; vm_compute; reflexivity. Qed.

Definition ex_rem := EBin BMod (EUn USub (ex_num 1)) (ex_num 3).
Definition ex_frem := EBin BMod (ENum (NFlt (11#2))) (ex_num 2).
Lemma ex_rem_ok :
  py_means ex_rem = Some 2%Q /\ c_means ex_rem = Some (-1#1)%Q /\
  py_means ex_frem = Some (3#2)%Q /\ c_means ex_frem = None.
Proof. repeat split; vm_compute; reflexivity. Qed.

Definition ex_summed := EBin BMul (ex_num 2) (here "S").
Lemma ex_summed_ok : py_means ex_summed = Some 14%Q /\ c_means ex_summed = Some 10%Q.
Proof. split; vm_compute; reflexivity. Qed.

Definition ex_and := ELog LAnd (ex_num 2) (ex_num 3).
Lemma ex_and_ok : py_means ex_and = Some 3%Q /\ c_means ex_and = Some 1%Q.
Proof. split; vm_compute; reflexivity. Qed.

Definition ex_short := ELog LAnd (EBool false) (ECmp CGt (here "bad") (ex_num 0)).
Lemma ex_short_ok :
  peval ex_libm ex_fsample (penv ex_consts ex_p) ex_short = PV (PI 0) /\
  exists te calls n zs c', hoist ex_ncomp 0 ex_short = (te, calls, n) /\ gen_list (map YCall calls) = Some zs /\
    forall m, (2 <= m)%nat -> cexec ex_libm ex_fsample ex_vfsample ex_aint ex_consts m zs ex_c = CReturn 6 c'.
Proof.
  split; [reflexivity|]. do 3 eexists. exists [ZEval "bad" [KNum (NInt 0)] [KNum (NInt 0)]
    [KId (NLeaf (LAttr "lat"))] [KId (NLeaf (LAttr "lon"))] [0%nat]], ex_c.
  split; [reflexivity|]. split; [reflexivity|]. intros m Hm. destruct m as [|[|m]]; [lia|lia|]. reflexivity.
Qed.
