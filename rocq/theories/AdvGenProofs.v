(** The advection kernels in both modes compute what the model over the reals says. *)
From Coq Require Import String List ZArith QArith Qreals Reals Bool Arith Lia Lra.
From Verif Require Import GenModel GenSpec GenProofs8 AdvModel AdvSpec AdvGenModel AdvGenSpec.
Import ListNotations.
Local Open Scope string_scope.

Section Link.
Variable libm : string -> list Q -> option Q.
Variable fsample : string -> Q -> Q -> Q -> Q -> sample.
Variable vfsample : string -> Q -> Q -> Q -> Q -> vsample.
Variable aint : string -> bool.
Variable consts : leaf -> Q.
Variable UV : R -> R -> R -> R -> option (R * R).

Hypothesis HR : reads2 vfsample UV.
Hypothesis Hlen : forall t z y x vs, vfsample "UV" t z y x = VSampled vs -> length vs = 2%nat.
Hypothesis Iatt : aint "lon" = false /\ aint "lat" = false /\ aint "depth" = false.


Hypothesis Herr : forall t z y x c, vfsample "UV" t z y x = VSampleErr c -> c <> 0%Z.

Lemma presult_next prev loc att del odd : Qeq_bool (pnum (att "state")) (pnum prev) = true ->
  presult prev (ONext (mkPst loc att del odd)) = Some (0%Z, mkPst loc att del odd).
Proof. intros E. unfold presult. cbn [p_att]. rewrite E. reflexivity. Qed.

Lemma qhalf : Q2R (1 # 2) = (1 / 2)%R. Proof. unfold Q2R. cbn. lra. Qed.
Lemma q2 : Q2R (inject_Z 2) = 2%R. Proof. unfold Q2R. cbn. lra. Qed.
Lemma q6 : Q2R 6 = 6%R. Proof. unfold Q2R. cbn. lra. Qed.
Lemma qdiv6 a : Q2R (a / 6) = (Q2R a / 6)%R.
Proof. rewrite Q2R_div by discriminate. rewrite q6. reflexivity. Qed.

Ltac push := rewrite ?qdiv6, ?Q2R_plus, ?Q2R_mult, ?qdiv6, ?Q2R_plus, ?Q2R_mult, ?qhalf, ?q2.

(** One sample, in the model over the reals and in the program. *)
Ltac one_sample :=
  match goal with
  | |- context[vfsample "UV" (Qred ?t) (Qred ?z) (Qred ?y) (Qred ?x)] =>
      let H := fresh "H" in let E := fresh "E" in let L := fresh "L" in
      pose proof (HR t z y x) as H;
      destruct (vfsample "UV" (Qred t) (Qred z) (Qred y) (Qred x)) as [vs|c] eqn:E;
      [ pose proof (Hlen _ _ _ _ _ E) as L;
        destruct vs as [|? [|? [|? ?]]]; try discriminate L; clear L; cbn [nth] in H
      | pose proof (Herr _ _ _ _ _ E) as L ];
      match goal with
      | |- context[sampled _ (UV ?t' ?z' ?y' ?x') _] =>
          replace (UV t' z' y' x') with (UV (Q2R t) (Q2R z) (Q2R y) (Q2R x)) by (f_equal; push; reflexivity)
      end; rewrite H; clear H; cbn [sampled]
  end.

Ltac done_ok :=
  eexists; split; [apply presult_next; apply Qeq_bool_iff; reflexivity|]; cbn [p_att];
  unfold upd, pstore; cbn; destruct Iatt as (Ia & Ib & Ic); rewrite ?Ia, ?Ib, ?Ic; cbn [pnum].


Ltac finish_done Hz :=
  done_ok; split; [push; reflexivity|]; split; [push; reflexivity|]; split; [rewrite ?Hz; cbn [pnum]; push; reflexivity|];
  intros a N1 N2 N3; apply String.eqb_neq in N1, N2, N3; rewrite ?N1, ?N2, ?N3; reflexivity.
Ltac finish_err :=
  eexists; eexists; split; [reflexivity|]; split; [assumption|]; reflexivity.
Ltac look Hx Hy Hz Hh Ht :=
  repeat (progress (rewrite ?Hx, ?Hy, ?Hz, ?Hh, ?Ht); cbn -[qsum Qplus Qmult Qdiv presult sampled py_as Q2R]).
Ltac step Hx Hy Hz Hh Ht :=
  one_sample; [cbn -[qsum Qplus Qmult Qdiv presult sampled py_as Q2R]; look Hx Hy Hz Hh Ht|finish_err].

Lemma ee_py att loc del odd x y z t h nx :
  att "lon" = PF x -> att "lat" = PF y -> att "depth" = PF z -> att "dt" = PF h -> loc "time" = Some (PF t) ->
  py_as (ee UV (mkA (Q2R x) (Q2R y) (Q2R z) (Q2R t) (Q2R h) nx)) att
    (presult (att "state") (pexec libm fsample vfsample aint consts 30 ee_body (mkPst loc att del odd))).
Proof.
  intros Hx Hy Hz Hh Ht. unfold ee_body, ee. cbn [a_lon a_lat a_depth a_time a_dt a_next].
  cbn -[presult sampled py_as]. look Hx Hy Hz Hh Ht.
  step Hx Hy Hz Hh Ht. finish_done Hz.
Qed.

Lemma rk4_py att loc del odd x y z t h nx :
  att "lon" = PF x -> att "lat" = PF y -> att "depth" = PF z -> att "dt" = PF h -> loc "time" = Some (PF t) ->
  py_as (rk4 UV (mkA (Q2R x) (Q2R y) (Q2R z) (Q2R t) (Q2R h) nx)) att
    (presult (att "state") (pexec libm fsample vfsample aint consts 30 rk4_body (mkPst loc att del odd))).
Proof.
  intros Hx Hy Hz Hh Ht. unfold rk4_body, rk4. cbn [a_lon a_lat a_depth a_time a_dt a_next].
  cbn -[presult sampled py_as]. look Hx Hy Hz Hh Ht.
  do 4 step Hx Hy Hz Hh Ht. finish_done Hz.
Qed.
End Link.

Section Link3.
Variable libm : string -> list Q -> option Q.
Variable fsample : string -> Q -> Q -> Q -> Q -> sample.
Variable vfsample : string -> Q -> Q -> Q -> Q -> vsample.
Variable aint : string -> bool.
Variable consts : leaf -> Q.
Variable UVW : R -> R -> R -> R -> option (R * R * R).

Hypothesis HR : reads3 vfsample UVW.
Hypothesis Hlen : forall t z y x vs, vfsample "UVW" t z y x = VSampled vs -> length vs = 3%nat.
Hypothesis Iatt : aint "lon" = false /\ aint "lat" = false /\ aint "depth" = false.
Hypothesis Herr : forall t z y x c, vfsample "UVW" t z y x = VSampleErr c -> c <> 0%Z.

Ltac push := rewrite ?qdiv6, ?Q2R_plus, ?Q2R_mult, ?qdiv6, ?Q2R_plus, ?Q2R_mult, ?qhalf, ?q2.
Ltac one_sample3 :=
  match goal with
  | |- context[vfsample "UVW" (Qred ?t) (Qred ?z) (Qred ?y) (Qred ?x)] =>
      let H := fresh "H" in let E := fresh "E" in let L := fresh "L" in
      pose proof (HR t z y x) as H;
      destruct (vfsample "UVW" (Qred t) (Qred z) (Qred y) (Qred x)) as [vs|c] eqn:E;
      [ pose proof (Hlen _ _ _ _ _ E) as L;
        destruct vs as [|? [|? [|? [|? ?]]]]; try discriminate L; clear L; cbn [nth] in H
      | pose proof (Herr _ _ _ _ _ E) as L ];
      match goal with
      | |- context[sampled _ (UVW ?t' ?z' ?y' ?x') _] =>
          replace (UVW t' z' y' x') with (UVW (Q2R t) (Q2R z) (Q2R y) (Q2R x)) by (f_equal; push; reflexivity)
      end; rewrite H; clear H; cbn [sampled]
  end.
Ltac done_ok :=
  eexists; split; [apply presult_next; apply Qeq_bool_iff; reflexivity|]; cbn [p_att];
  unfold upd, pstore; cbn; destruct Iatt as (Ia & Ib & Ic); rewrite ?Ia, ?Ib, ?Ic; cbn [pnum].
Ltac finish_done Hz :=
  done_ok; split; [push; reflexivity|]; split; [push; reflexivity|]; split; [rewrite ?Hz; cbn [pnum]; push; reflexivity|];
  intros a N1 N2 N3; apply String.eqb_neq in N1, N2, N3; rewrite ?N1, ?N2, ?N3; reflexivity.
Ltac finish_err :=
  eexists; eexists; split; [reflexivity|]; split; [assumption|]; reflexivity.
Ltac look Hx Hy Hz Hh Ht :=
  repeat (progress (rewrite ?Hx, ?Hy, ?Hz, ?Hh, ?Ht); cbn -[qsum Qplus Qmult Qdiv presult sampled py_as Q2R]).
Ltac step Hx Hy Hz Hh Ht :=
  one_sample3; [cbn -[qsum Qplus Qmult Qdiv presult sampled py_as Q2R]; look Hx Hy Hz Hh Ht|finish_err].

Lemma rk3_py att loc del odd x y z t h nx :
  att "lon" = PF x -> att "lat" = PF y -> att "depth" = PF z -> att "dt" = PF h -> loc "time" = Some (PF t) ->
  py_as (rk4_3d UVW (mkA (Q2R x) (Q2R y) (Q2R z) (Q2R t) (Q2R h) nx)) att
    (presult (att "state") (pexec libm fsample vfsample aint consts 30 rk4_3d_body (mkPst loc att del odd))).
Proof.
  intros Hx Hy Hz Hh Ht. unfold rk4_3d_body, rk4_3d. cbn [a_lon a_lat a_depth a_time a_dt a_next].
  cbn -[presult sampled py_as]. look Hx Hy Hz Hh Ht.
  do 4 step Hx Hy Hz Hh Ht. finish_done Hz.
Qed.
End Link3.

(** * Both modes *)

Lemma same_num v w : same v w -> (cnum w == pnum v)%Q.
Proof. destruct w as [z|q]; cbn; [intros ->; reflexivity|auto]. Qed.

Section Both.
Variables (ncomp vdim : string -> nat).
Variable aint : string -> bool.
Variable libm : string -> list Q -> option Q.
Variable fsample : string -> Q -> Q -> Q -> Q -> sample.
Variable vfsample : string -> Q -> Q -> Q -> Q -> vsample.
Variable consts : leaf -> Q.

Lemma to_c body p c o :
  samples_ok ncomp vdim fsample vfsample ->
  forallb (sfits ncomp vdim aint) body = true -> forallb straight body = true ->
  agree aint p c -> p_del p = false -> p_odd p = false ->
  ~ (pnum (p_att p "state") == inject_Z (py_code KDelete))%Q ->
  py_as o (p_att p) (presult (p_att p "state") (pexec libm fsample vfsample aint consts 30 body p)) ->
  exists zs m0, compile ncomp vdim body = Some zs /\
    forall m, (m0 <= m)%nat ->
      c_as o (c_att c) (cresult (c_att c "state") (cexec libm fsample vfsample aint consts m zs c)).
Proof.
  intros HS F St A D O Nd P. unfold py_as in P. destruct o as [B|B|B]; [| contradiction |].
  - destruct P as (s & E & X & Y & Z & K).
    destruct (straight_closed ncomp vdim aint libm fsample vfsample consts body 30 p c 0%Z s HS F St A D O Nd E)
      as (zs & m0 & c' & C & Rn & Ag).
    exists zs, m0. split; [exact C|]. intros m Hm. exists c'. split; [apply Rn; exact Hm|].
    destruct Ag as [_ Ag]. destruct A as [_ A].
    assert (Eq : forall a, (cnum (c_att c' a) == pnum (p_att s a))%Q) by (intros a; apply same_num, Ag).
    split; [rewrite <- X; apply Qeq_eqR, Eq|]. split; [rewrite <- Y; apply Qeq_eqR, Eq|].
    split; [rewrite <- Z; apply Qeq_eqR, Eq|].
    intros a N1 N2 N3. rewrite (Eq a), (K a N1 N2 N3). symmetry. apply same_num, A.
  - destruct P as (k & s & E & Nk & K).
    destruct (straight_closed ncomp vdim aint libm fsample vfsample consts body 30 p c k s HS F St A D O Nd E)
      as (zs & m0 & c' & C & Rn & Ag).
    exists zs, m0. split; [exact C|]. intros m Hm. exists k, c'. split; [apply Rn; exact Hm|]. split; [exact Nk|].
    destruct Ag as [_ Ag]. destruct A as [_ A]. intros a.
    rewrite (same_num _ _ (proj1 (Ag a))), K. symmetry. apply same_num, A.
Qed.

Lemma ee_both UV p c t x y z h nx :
  runnable ncomp vdim aint fsample vfsample "UV" 2 p c -> reads2 vfsample UV -> coords p t x y z h ->
  both_modes ncomp vdim aint libm fsample vfsample consts ee_body p c (ee UV (mkA (Q2R x) (Q2R y) (Q2R z) (Q2R t) (Q2R h) nx)).
Proof.
  intros (HS & N & V & I1 & I2 & I3 & I4 & A & D & O & Nd) HR (Ct & Cx & Cy & Cz & Ch).
  assert (P : py_as (ee UV (mkA (Q2R x) (Q2R y) (Q2R z) (Q2R t) (Q2R h) nx)) (p_att p)
                (presult (p_att p "state") (pexec libm fsample vfsample aint consts 30 ee_body p))).
  { destruct p as [loc att del odd]. destruct HS as (_ & _ & H3 & H4).
    apply ee_py; auto.
    - intros t0 z0 y0 x0 vs E. rewrite <- V. apply (H3 _ _ _ _ _ _ E).
    - intros t0 z0 y0 x0 k E. apply (H4 _ _ _ _ _ _ E). }
  split; [exact P|]. apply to_c with (p := p); auto.
  cbn -[Nat.leb]. rewrite V. apply Nat.leb_le in N. rewrite !N. reflexivity.
Qed.

Lemma rk4_both UV p c t x y z h nx :
  runnable ncomp vdim aint fsample vfsample "UV" 2 p c -> reads2 vfsample UV -> coords p t x y z h ->
  both_modes ncomp vdim aint libm fsample vfsample consts rk4_body p c (rk4 UV (mkA (Q2R x) (Q2R y) (Q2R z) (Q2R t) (Q2R h) nx)).
Proof.
  intros (HS & N & V & I1 & I2 & I3 & I4 & A & D & O & Nd) HR (Ct & Cx & Cy & Cz & Ch).
  assert (P : py_as (rk4 UV (mkA (Q2R x) (Q2R y) (Q2R z) (Q2R t) (Q2R h) nx)) (p_att p)
                (presult (p_att p "state") (pexec libm fsample vfsample aint consts 30 rk4_body p))).
  { destruct p as [loc att del odd]. destruct HS as (_ & _ & H3 & H4).
    apply rk4_py; auto.
    - intros t0 z0 y0 x0 vs E. rewrite <- V. apply (H3 _ _ _ _ _ _ E).
    - intros t0 z0 y0 x0 k E. apply (H4 _ _ _ _ _ _ E). }
  split; [exact P|]. apply to_c with (p := p); auto.
  cbn -[Nat.leb]. rewrite V. apply Nat.leb_le in N. rewrite !N. reflexivity.
Qed.

Lemma rk3_both UVW p c t x y z h nx :
  runnable ncomp vdim aint fsample vfsample "UVW" 3 p c -> reads3 vfsample UVW -> coords p t x y z h ->
  both_modes ncomp vdim aint libm fsample vfsample consts rk4_3d_body p c (rk4_3d UVW (mkA (Q2R x) (Q2R y) (Q2R z) (Q2R t) (Q2R h) nx)).
Proof.
  intros (HS & N & V & I1 & I2 & I3 & I4 & A & D & O & Nd) HR (Ct & Cx & Cy & Cz & Ch).
  assert (P : py_as (rk4_3d UVW (mkA (Q2R x) (Q2R y) (Q2R z) (Q2R t) (Q2R h) nx)) (p_att p)
                (presult (p_att p "state") (pexec libm fsample vfsample aint consts 30 rk4_3d_body p))).
  { destruct p as [loc att del odd]. destruct HS as (_ & _ & H3 & H4).
    apply rk3_py; auto.
    - intros t0 z0 y0 x0 vs E. rewrite <- V. apply (H3 _ _ _ _ _ _ E).
    - intros t0 z0 y0 x0 k E. apply (H4 _ _ _ _ _ _ E). }
  split; [exact P|]. apply to_c with (p := p); auto.
  cbn -[Nat.leb]. rewrite V. apply Nat.leb_le in N. rewrite !N. reflexivity.
Qed.
End Both.
