(** The diffusion kernels in both modes. *)
From Coq Require Import String List ZArith QArith Qround Qreals Reals Bool Arith Lia Lra.
From Verif Require Import GenModel GenSpec GenProofs8 AdvModel AdvSpec AdvGenModel AdvGenSpec AdvGenProofs DiffModel DiffGenModel DiffGenSpec DiffGenProofs.
Import ListNotations.
Local Open Scope string_scope.

Lemma em_both ncomp vdim aint consts libm fsample vfsample root U V Kx Ky dres dWx dWy p c t x y z h nx :
  diffusable ncomp vdim aint consts libm fsample vfsample root U V Kx Ky dres dWx dWy p c -> coords p t x y z h ->
  both_modes ncomp vdim aint libm fsample vfsample consts em_body p c
    (em root U V Kx Ky (Q2R dres) (Q2R dWx) (Q2R dWy) (mkA (Q2R x) (Q2R y) (Q2R z) (Q2R t) (Q2R h) nx)).
Proof.
  intros (HS & N1 & N2 & N3 & N4 & I1 & I2 & I3 & I4 & A & D & O & Nd & R1 & R2 & R3 & R4 & P1 & P2 & RR & Cd & Dz & W1 & W2)
    (Ct & Cx & Cy & Cz & Ch).
  assert (P : py_as (em root U V Kx Ky (Q2R dres) (Q2R dWx) (Q2R dWy) (mkA (Q2R x) (Q2R y) (Q2R z) (Q2R t) (Q2R h) nx)) (p_att p)
                (presult (p_att p "state") (pexec libm fsample vfsample aint consts 30 em_body p))).
  { destruct p as [loc att del odd]. destruct HS as (_ & H2 & _ & _). eapply em_py; eauto. }
  split; [exact P|]. apply to_c with (p := p); auto.
  cbn -[Nat.leb vfits]. unfold vfits, efits. cbn -[Nat.leb]. rewrite ?N1, ?N2. apply Nat.leb_le in N3, N4. rewrite ?N3, ?N4. try destruct (ncomp "U" =? 1)%nat; try destruct (ncomp "V" =? 1)%nat; reflexivity.
Qed.

Lemma m1_both ncomp vdim aint consts libm fsample vfsample root U V Kx Ky dres dWx dWy p c t x y z h nx :
  diffusable ncomp vdim aint consts libm fsample vfsample root U V Kx Ky dres dWx dWy p c -> coords p t x y z h ->
  both_modes ncomp vdim aint libm fsample vfsample consts m1_body p c
    (m1 root U V Kx Ky (Q2R dres) (Q2R dWx) (Q2R dWy) (mkA (Q2R x) (Q2R y) (Q2R z) (Q2R t) (Q2R h) nx)).
Proof.
  intros (HS & N1 & N2 & N3 & N4 & I1 & I2 & I3 & I4 & A & D & O & Nd & R1 & R2 & R3 & R4 & P1 & P2 & RR & Cd & Dz & W1 & W2)
    (Ct & Cx & Cy & Cz & Ch).
  assert (P : py_as (m1 root U V Kx Ky (Q2R dres) (Q2R dWx) (Q2R dWy) (mkA (Q2R x) (Q2R y) (Q2R z) (Q2R t) (Q2R h) nx)) (p_att p)
                (presult (p_att p "state") (pexec libm fsample vfsample aint consts 30 m1_body p))).
  { destruct p as [loc att del odd]. destruct HS as (_ & H2 & _ & _). eapply m1_py; eauto. }
  split; [exact P|]. apply to_c with (p := p); auto.
  cbn -[Nat.leb vfits]. unfold vfits, efits. cbn -[Nat.leb]. rewrite ?N1, ?N2. apply Nat.leb_le in N3, N4. rewrite ?N3, ?N4. try destruct (ncomp "U" =? 1)%nat; try destruct (ncomp "V" =? 1)%nat; reflexivity.
Qed.

Lemma unif_both ncomp vdim aint consts libm fsample vfsample root U V Kx Ky dres dWx dWy p c t x y z h nx :
  diffusable ncomp vdim aint consts libm fsample vfsample root U V Kx Ky dres dWx dWy p c -> coords p t x y z h ->
  both_modes ncomp vdim aint libm fsample vfsample consts unif_body p c
    (unif root Kx Ky (Q2R dWx) (Q2R dWy) (mkA (Q2R x) (Q2R y) (Q2R z) (Q2R t) (Q2R h) nx)).
Proof.
  intros (HS & N1 & N2 & N3 & N4 & I1 & I2 & I3 & I4 & A & D & O & Nd & R1 & R2 & R3 & R4 & P1 & P2 & RR & Cd & Dz & W1 & W2)
    (Ct & Cx & Cy & Cz & Ch).
  assert (P : py_as (unif root Kx Ky (Q2R dWx) (Q2R dWy) (mkA (Q2R x) (Q2R y) (Q2R z) (Q2R t) (Q2R h) nx)) (p_att p)
                (presult (p_att p "state") (pexec libm fsample vfsample aint consts 30 unif_body p))).
  { destruct p as [loc att del odd]. destruct HS as (_ & H2 & _ & _). eapply unif_py; eauto. }
  split; [exact P|]. apply to_c with (p := p); auto.
  cbn -[Nat.leb vfits]. unfold vfits, efits. cbn -[Nat.leb]. rewrite ?N1, ?N2. apply Nat.leb_le in N3, N4. rewrite ?N3, ?N4. try destruct (ncomp "U" =? 1)%nat; try destruct (ncomp "V" =? 1)%nat; reflexivity.
Qed.

(** ** A case: Kh_zonal = 1, Kh_meridional = 2, dres = 1/10, square roots to six digits. *)
Definition dx_fsample (f : string) (t z y x : Q) : sample :=
  if String.eqb f "Kh_zonal" then Sampled [1%Q] else if String.eqb f "Kh_meridional" then Sampled [2%Q] else
  if String.eqb f "U" then Sampled [y] else Sampled [x].
Definition dx_consts (l : leaf) : Q := (1 # 10)%Q.
Definition dx_libm (f : string) (l : list Q) : option Q :=
  match l with [q] => Some (Z.sqrt (Qfloor (q * 1000000000000)) # 1000000) | _ => None end.
Definition dx_root (r : R) : R := (IZR (Z.sqrt (Int_part (r * 1000000000000))) / 1000000)%R.
Definition dx_att (a : string) : pval :=
  if String.eqb a "state" then PI 1 else if String.eqb a "lon" then PF 1 else if String.eqb a "dt" then PF (1#2) else PF 2.
Definition dx_catt (a : string) : cval :=
  if String.eqb a "state" then CI 1 else if String.eqb a "lon" then CR 1 else if String.eqb a "dt" then CR (1#2) else CR 2.
Definition dx_aint (a : string) : bool := String.eqb a "state".
Definition dx_p : pst :=
  mkPst (fun x => if String.eqb x "time" then Some (PF 3) else if String.eqb x "dWx" then Some (PF (1#3)) else
                  if String.eqb x "dWy" then Some (PF (-1#7)) else None) dx_att false false.
Definition dx_c : cst :=
  mkCst (fun x => if String.eqb x "time" then CR 3 else if String.eqb x "dWx" then CR (1#3) else
                  if String.eqb x "dWy" then CR (-1#7) else CR 0) dx_catt (fun _ => CR 0).

Lemma floor_Q2R q : Int_part (Q2R q) = Qfloor q.
Proof.
  destruct (base_Int_part (Q2R q)) as [A B].
  pose proof (Qlt_Rlt _ _ (Qlt_floor q)) as H. replace (Q2R (inject_Z (Qfloor q + 1))) with (IZR (Qfloor q) + 1)%R in H
    by (rewrite inject_Z_plus, Q2R_plus; unfold Q2R; cbn; field).
  pose proof (Qle_Rle _ _ (Qfloor_le q)) as L. replace (Q2R (inject_Z (Qfloor q))) with (IZR (Qfloor q)) in L by (unfold Q2R; cbn; field).
  assert (X : (IZR (Int_part (Q2R q)) < IZR (Qfloor q + 1))%R) by (rewrite plus_IZR; lra). apply lt_IZR in X.
  assert (Y : (IZR (Qfloor q) < IZR (Int_part (Q2R q) + 1))%R) by (rewrite plus_IZR; lra). apply lt_IZR in Y. lia.
Qed.
Lemma dx_roots : roots dx_libm dx_root.
Proof.
  intros q _. cbn. eexists. split; [reflexivity|]. unfold dx_root.
  replace (Q2R q * 1000000000000)%R with (Q2R (Qred q * 1000000000000)%Q).
  - rewrite floor_Q2R. reflexivity.
  - rewrite Q2R_mult. rewrite (Qeq_eqR _ _ (Qred_correct q)). f_equal. unfold Q2R. cbn. field.
Qed.
Lemma dx_case : diffusable (fun _ => 1%nat) (fun _ => 2%nat) dx_aint dx_consts dx_libm dx_fsample (fun _ _ _ _ _ => VSampleErr 6)
  dx_root (fun t z y x => Some y) (fun t z y x => Some x) (fun _ _ _ _ => Some 1%R) (fun _ _ _ _ => Some 2%R)
  (1 # 10) (1 # 3) (-1 # 7) dx_p dx_c /\ coords dx_p 3 1 2 2 (1 # 2).
Proof.
  assert (Q1 : forall q, Q2R (qsum [Qred q]) = Q2R q).
  { intros q. cbn. rewrite Q2R_plus, (Qeq_eqR _ _ (Qred_correct q)). unfold Q2R at 2. cbn. lra. }
  split; [|repeat split].
  split. { repeat split; try discriminate.
    - intros f t z y x vs H. unfold dx_fsample in H. repeat destruct (String.eqb _ _); injection H as <-; reflexivity.
    - intros f t z y x c H. unfold dx_fsample in H. repeat destruct (String.eqb _ _); discriminate H.
    - intros f t z y x c H. injection H as <-. discriminate. }
  do 4 (split; [reflexivity || apply le_n|]). do 4 (split; [reflexivity|]).
  split. { split.
    - intros x v H. cbn [dx_p dx_c p_loc c_loc] in *.
      repeat match goal with H : context[String.eqb ?a ?b] |- _ => destruct (String.eqb a b) end; try discriminate H; injection H as <-; eexists; (split; [reflexivity|cbn; reflexivity]).
    - intros a. cbn [dx_p dx_c p_att c_att]. unfold dx_att, dx_catt, dx_aint.
      repeat match goal with |- context[String.eqb ?a ?b] => destruct (String.eqb a b) end; repeat split; cbn; try reflexivity; try discriminate; eauto. }
  split; [reflexivity|]. split; [reflexivity|]. split; [discriminate|].
  split; [intros t z y x; cbn [dx_fsample String.eqb Ascii.eqb Bool.eqb]; rewrite Q1; reflexivity|].
  split; [intros t z y x; cbn [dx_fsample String.eqb Ascii.eqb Bool.eqb]; rewrite Q1; reflexivity|].
  split; [intros t z y x; cbn; f_equal; unfold Q2R; cbn; lra|].
  split; [intros t z y x; cbn; f_equal; unfold Q2R; cbn; lra|].
  split; [intros t z y x k H; injection H as <-; lra|]. split; [intros t z y x k H; injection H as <-; lra|].
  split; [exact dx_roots|]. split; [reflexivity|]. split; [discriminate|]. split; reflexivity.
Qed.

(** Kh_zonal as the sum of two fields: 2 * (1 + 1) in Python, 2 * 1 + 1 in C. *)
Definition dy_fsample (f : string) (t z y x : Q) : sample := if String.eqb f "Kh_zonal" then Sampled [1%Q; 1%Q] else Sampled [1%Q].
Definition dy_ncomp (f : string) : nat := if String.eqb f "Kh_zonal" then 2 else 1.
Definition lon_py (o : option (Z * pst)) : option Q := match o with Some (0%Z, s) => Some (Qred (pnum (p_att s "lon"))) | _ => None end.
Definition lon_c (o : option (Z * cst)) : option Q := match o with Some (0%Z, s) => Some (Qred (cnum (c_att s "lon"))) | _ => None end.
Lemma dy_py : lon_py (presult (PI 1) (pexec dx_libm dy_fsample (fun _ _ _ _ _ => VSampleErr 6) dx_aint dx_consts 30 unif_body dx_p)) = Some (5 # 3)%Q.
Proof. vm_compute. reflexivity. Qed.
Definition run_c : option Q :=
  match compile dy_ncomp (fun _ => 2%nat) unif_body with
  | Some zs => lon_c (cresult (CI 1) (cexec dx_libm dy_fsample (fun _ _ _ _ _ => VSampleErr 6) dx_aint dx_consts 30 zs dx_c))
  | None => None
  end.
Lemma run_c_is : run_c = Some (31547 # 20000)%Q.
Proof. vm_compute. reflexivity. Qed.
Lemma dy_c : exists zs, compile dy_ncomp (fun _ => 2%nat) unif_body = Some zs /\
  lon_c (cresult (CI 1) (cexec dx_libm dy_fsample (fun _ _ _ _ _ => VSampleErr 6) dx_aint dx_consts 30 zs dx_c)) = Some (31547 # 20000)%Q.
Proof.
  pose proof run_c_is as H. unfold run_c in H. destruct (compile dy_ncomp (fun _ => 2%nat) unif_body) as [zs|]; [|discriminate H].
  exists zs. split; [reflexivity|exact H].
Qed.
