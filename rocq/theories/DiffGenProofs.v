(** The diffusion kernels in both modes compute what the model over the reals says. *)
From Coq Require Import String List ZArith QArith Qreals Reals Bool Arith Lia Lra.
From Verif Require Import GenModel GenSpec GenProofs8 AdvModel AdvSpec AdvGenModel AdvGenSpec AdvGenProofs DiffModel DiffGenModel DiffGenSpec.
Import ListNotations.
Local Open Scope string_scope.

Section Link.
Variables (ncomp vdim : string -> nat).
Variable aint : string -> bool.
Variable consts : leaf -> Q.
Variable libm : string -> list Q -> option Q.
Variable fsample : string -> Q -> Q -> Q -> Q -> sample.
Variable vfsample : string -> Q -> Q -> Q -> Q -> vsample.
Variable root : R -> R.
Variables U V Kx Ky : R -> R -> R -> R -> option R.
Variables dres dWx dWy : Q.

Hypothesis Herr : forall f t z y x c, fsample f t z y x = SampleErr c -> c <> 0%Z.
Hypothesis Iatt : aint "lon" = false /\ aint "lat" = false /\ aint "depth" = false.
Hypothesis RU : reads1 fsample "U" U.
Hypothesis RV : reads1 fsample "V" V.
Hypothesis RX : reads1 fsample "Kh_zonal" Kx.
Hypothesis RY : reads1 fsample "Kh_meridional" Ky.
Hypothesis NX : nonnegative Kx.
Hypothesis NY : nonnegative Ky.
Hypothesis RR : roots libm root.
Hypothesis Cd : consts (LConst "dres") = dres.
Hypothesis Nd : ~ (dres == 0)%Q.

Lemma twice_dres : ~ (inject_Z 2 * dres == 0)%Q.
Proof. intros H. apply Qmult_integral in H. destruct H as [H|H]; [discriminate H|exact (Nd H)]. Qed.
Lemma twice_dres_R : (2 * Q2R dres <> 0)%R.
Proof.
  intros H. apply twice_dres. apply eqR_Qeq. rewrite Q2R_mult, q2, H. unfold Q2R. cbn. lra.
Qed.
Lemma qslope a b : Q2R ((a - b) / (inject_Z 2 * dres)) = ((Q2R a - Q2R b) / (2 * Q2R dres))%R.
Proof. rewrite Q2R_div by exact twice_dres. rewrite Q2R_minus, Q2R_mult, q2. reflexivity. Qed.
Lemma mpow2 q : mpow libm q (inject_Z 2) = Some (Qpower q 2).
Proof. unfold mpow. change (Qred (inject_Z 2)) with (2 # 1)%Q. cbn. rewrite andb_false_r. reflexivity. Qed.
Lemma qpow2 q : Q2R (Qpower q 2) = (Q2R q * Q2R q)%R.
Proof. change (Qpower q 2) with (q * q)%Q. apply Q2R_mult. Qed.
Lemma over_is p a k : over p a (2 * Q2R dres) k = k (a / (2 * Q2R dres))%R.
Proof. unfold over. destruct (Req_EM_T (2 * Q2R dres) 0); [destruct (twice_dres_R e)|reflexivity]. Qed.

Ltac push := repeat first [rewrite qslope | rewrite qpow2 | rewrite Q2R_minus | rewrite Q2R_plus | rewrite Q2R_mult | rewrite qhalf | rewrite q2].
Ltac calm := cbn -[qsum Qplus Qminus Qmult Qdiv Qpower mpow presult sampled rooted over py_as Q2R Qeq_bool Qred inject_Z fun1].

Ltac sample_of f F HR :=
  match goal with
  | |- context[fsample f (Qred ?t) (Qred ?z) (Qred ?y) (Qred ?x)] =>
      let H := fresh "H" in let E := fresh "E" in let L := fresh "L" in
      pose proof (HR t z y x) as H;
      destruct (fsample f (Qred t) (Qred z) (Qred y) (Qred x)) as [?vs|?c] eqn:E;
      [ | pose proof (Herr _ _ _ _ _ _ E) as L ];
      match goal with
      | |- context[sampled _ (F ?t' ?z' ?y' ?x') _] =>
          replace (F t' z' y' x') with (F (Q2R t) (Q2R z) (Q2R y) (Q2R x)) by (f_equal; push; reflexivity)
      end; rewrite H; cbn [sampled]
  end.
Ltac look A := repeat (progress (rewrite ?Cd, ?mpow2; A); calm).
Ltac finish_err := eexists; eexists; split; [reflexivity|]; split; [assumption|]; reflexivity.
Ltac one f F HR A := sample_of f F HR; [calm; look A|finish_err].
Ltac quotient A :=
  try match goal with |- context[Qeq_bool (inject_Z 2 * dres)%Q 0%Q] =>
    let B := fresh "B" in
    destruct (Qeq_bool (inject_Z 2 * dres)%Q 0%Q) eqn:B; [apply Qeq_bool_iff in B; destruct (twice_dres B)|clear B]
  end; rewrite over_is; calm; look A.
Ltac square_root N A :=
  match goal with
  | H : ?F _ _ _ _ = Some (Q2R ?k) |- context[fun1 libm "sqrt" (inject_Z 2 * ?k)%Q] =>
      let P := fresh "P" in let r := fresh "r" in let Er := fresh "Er" in let Hr := fresh "Hr" in
      pose proof (N _ _ _ _ _ H) as P;
      destruct (RR (inject_Z 2 * k)%Q) as (r & Er & Hr);
      [apply Rle_Qle; rewrite Q2R_mult, q2; unfold Q2R at 1; cbn; lra|];
      change (fun1 libm "sqrt" (inject_Z 2 * k)%Q) with (libm "sqrt" [Qred (inject_Z 2 * k)%Q]);
      rewrite Er; rewrite Q2R_mult, q2 in Hr;
      unfold rooted at 1; destruct (Rle_dec 0 (2 * Q2R k)%R); [|lra];
      rewrite <- Hr; clear Hr P Er; calm; look A
  end.

Ltac done_ok :=
  eexists; split; [apply presult_next; apply Qeq_bool_iff; reflexivity|]; cbn [p_att];
  unfold upd, pstore; cbn -[qsum Qplus Qminus Qmult Qdiv Qpower Q2R inject_Z]; destruct Iatt as (Ia & Ib & Ic); rewrite ?Ia, ?Ib, ?Ic; cbn [pnum].
Ltac finish_done Hz :=
  done_ok; split; [push; reflexivity|]; split; [push; reflexivity|]; split; [rewrite ?Hz; cbn [pnum]; push; reflexivity|];
  intros a N1 N2 N3; apply String.eqb_neq in N1, N2, N3; rewrite ?N1, ?N2, ?N3; reflexivity.

Lemma unif_py att loc del odd x y z t h nx :
  att "lon" = PF x -> att "lat" = PF y -> att "depth" = PF z -> att "dt" = PF h -> loc "time" = Some (PF t) ->
  loc "dWx" = Some (PF dWx) -> loc "dWy" = Some (PF dWy) ->
  py_as (unif root Kx Ky (Q2R dWx) (Q2R dWy) (mkA (Q2R x) (Q2R y) (Q2R z) (Q2R t) (Q2R h) nx)) att
    (presult (att "state") (pexec libm fsample vfsample aint consts 30 unif_body (mkPst loc att del odd))).
Proof.
  intros Hx Hy Hz Hh Ht W1 W2. unfold unif_body, unif. cbn [a_lon a_lat a_depth a_time a_dt a_next].
  calm. look ltac:(rewrite ?Hx, ?Hy, ?Hz, ?Hh, ?Ht, ?W1, ?W2).
  one "Kh_zonal" Kx RX ltac:(rewrite ?Hx, ?Hy, ?Hz, ?Hh, ?Ht, ?W1, ?W2).
  square_root NX ltac:(rewrite ?Hx, ?Hy, ?Hz, ?Hh, ?Ht, ?W1, ?W2).
  one "Kh_meridional" Ky RY ltac:(rewrite ?Hx, ?Hy, ?Hz, ?Hh, ?Ht, ?W1, ?W2).
  square_root NY ltac:(rewrite ?Hx, ?Hy, ?Hz, ?Hh, ?Ht, ?W1, ?W2).
  finish_done Hz.
Qed.

Lemma em_py att loc del odd x y z t h nx :
  att "lon" = PF x -> att "lat" = PF y -> att "depth" = PF z -> att "dt" = PF h -> loc "time" = Some (PF t) ->
  loc "dWx" = Some (PF dWx) -> loc "dWy" = Some (PF dWy) ->
  py_as (em root U V Kx Ky (Q2R dres) (Q2R dWx) (Q2R dWy) (mkA (Q2R x) (Q2R y) (Q2R z) (Q2R t) (Q2R h) nx)) att
    (presult (att "state") (pexec libm fsample vfsample aint consts 30 em_body (mkPst loc att del odd))).
Proof.
  intros Hx Hy Hz Hh Ht W1 W2. unfold em_body, em. cbn [a_lon a_lat a_depth a_time a_dt a_next].
  calm. look ltac:(rewrite ?Hx, ?Hy, ?Hz, ?Hh, ?Ht, ?W1, ?W2).
  one "Kh_zonal" Kx RX ltac:(rewrite ?Hx, ?Hy, ?Hz, ?Hh, ?Ht, ?W1, ?W2).
  one "Kh_zonal" Kx RX ltac:(rewrite ?Hx, ?Hy, ?Hz, ?Hh, ?Ht, ?W1, ?W2).
  quotient ltac:(rewrite ?Hx, ?Hy, ?Hz, ?Hh, ?Ht, ?W1, ?W2).
  one "U" U RU ltac:(rewrite ?Hx, ?Hy, ?Hz, ?Hh, ?Ht, ?W1, ?W2).
  one "Kh_zonal" Kx RX ltac:(rewrite ?Hx, ?Hy, ?Hz, ?Hh, ?Ht, ?W1, ?W2).
  square_root NX ltac:(rewrite ?Hx, ?Hy, ?Hz, ?Hh, ?Ht, ?W1, ?W2).
  one "Kh_meridional" Ky RY ltac:(rewrite ?Hx, ?Hy, ?Hz, ?Hh, ?Ht, ?W1, ?W2).
  one "Kh_meridional" Ky RY ltac:(rewrite ?Hx, ?Hy, ?Hz, ?Hh, ?Ht, ?W1, ?W2).
  quotient ltac:(rewrite ?Hx, ?Hy, ?Hz, ?Hh, ?Ht, ?W1, ?W2).
  one "V" V RV ltac:(rewrite ?Hx, ?Hy, ?Hz, ?Hh, ?Ht, ?W1, ?W2).
  one "Kh_meridional" Ky RY ltac:(rewrite ?Hx, ?Hy, ?Hz, ?Hh, ?Ht, ?W1, ?W2).
  square_root NY ltac:(rewrite ?Hx, ?Hy, ?Hz, ?Hh, ?Ht, ?W1, ?W2).
  finish_done Hz.
Qed.

Lemma m1_py att loc del odd x y z t h nx :
  att "lon" = PF x -> att "lat" = PF y -> att "depth" = PF z -> att "dt" = PF h -> loc "time" = Some (PF t) ->
  loc "dWx" = Some (PF dWx) -> loc "dWy" = Some (PF dWy) ->
  py_as (m1 root U V Kx Ky (Q2R dres) (Q2R dWx) (Q2R dWy) (mkA (Q2R x) (Q2R y) (Q2R z) (Q2R t) (Q2R h) nx)) att
    (presult (att "state") (pexec libm fsample vfsample aint consts 30 m1_body (mkPst loc att del odd))).
Proof.
  intros Hx Hy Hz Hh Ht W1 W2. unfold m1_body, m1. cbn [a_lon a_lat a_depth a_time a_dt a_next].
  calm. look ltac:(rewrite ?Hx, ?Hy, ?Hz, ?Hh, ?Ht, ?W1, ?W2).
  one "Kh_zonal" Kx RX ltac:(rewrite ?Hx, ?Hy, ?Hz, ?Hh, ?Ht, ?W1, ?W2).
  one "Kh_zonal" Kx RX ltac:(rewrite ?Hx, ?Hy, ?Hz, ?Hh, ?Ht, ?W1, ?W2).
  quotient ltac:(rewrite ?Hx, ?Hy, ?Hz, ?Hh, ?Ht, ?W1, ?W2).
  one "U" U RU ltac:(rewrite ?Hx, ?Hy, ?Hz, ?Hh, ?Ht, ?W1, ?W2).
  one "Kh_zonal" Kx RX ltac:(rewrite ?Hx, ?Hy, ?Hz, ?Hh, ?Ht, ?W1, ?W2).
  square_root NX ltac:(rewrite ?Hx, ?Hy, ?Hz, ?Hh, ?Ht, ?W1, ?W2).
  one "Kh_meridional" Ky RY ltac:(rewrite ?Hx, ?Hy, ?Hz, ?Hh, ?Ht, ?W1, ?W2).
  one "Kh_meridional" Ky RY ltac:(rewrite ?Hx, ?Hy, ?Hz, ?Hh, ?Ht, ?W1, ?W2).
  quotient ltac:(rewrite ?Hx, ?Hy, ?Hz, ?Hh, ?Ht, ?W1, ?W2).
  one "V" V RV ltac:(rewrite ?Hx, ?Hy, ?Hz, ?Hh, ?Ht, ?W1, ?W2).
  one "Kh_meridional" Ky RY ltac:(rewrite ?Hx, ?Hy, ?Hz, ?Hh, ?Ht, ?W1, ?W2).
  square_root NY ltac:(rewrite ?Hx, ?Hy, ?Hz, ?Hh, ?Ht, ?W1, ?W2).
  finish_done Hz.
Qed.
End Link.
