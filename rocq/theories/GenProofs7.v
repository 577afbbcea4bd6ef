(** Proofs for C33: simulation of Python runs by C runs. *)
From Coq Require Import String List ZArith QArith Bool Arith Lia.
From Verif Require Import GenModel GenSpec GenProofs GenProofs2 GenProofs3 GenProofs4 GenProofs5 GenProofs6.
Import ListNotations.
Open Scope Z_scope.

Lemma concat_seqs m d : forall k j, concat (map (fun i => seq (k + i * m) m) (seq j d)) = seq (k + j * m) (d * m).
Proof.
  induction d as [|d IH]; intros k j; [reflexivity|]. cbn [seq map concat]. rewrite IH.
  replace (S d * m)%nat with (m + d * m)%nat by lia. rewrite seq_app. f_equal. f_equal. lia.
Qed.

Lemma Forall2_length {A B} (R : A -> B -> Prop) X Y : Forall2 R X Y -> length X = length Y.
Proof. induction 1; cbn; congruence. Qed.

Lemma Forall2_split {A B} (R : A -> B -> Prop) (X : list (list A)) (Y : list (list B)) :
  Forall2 (fun a b => length a = length b) X Y -> Forall2 R (concat X) (concat Y) -> Forall2 (Forall2 R) X Y.
Proof.
  induction 1 as [|a b X Y L F IH]; intros H; [constructor|]. cbn [concat] in H.
  apply Forall2_app_inv_l in H as (l1 & l2 & H1 & H2 & E).
  assert (L1 : length l1 = length b) by (rewrite <- L; symmetry; apply (Forall2_length _ _ _ H1)).
  assert (E1 : l1 = b /\ l2 = concat Y).
  { clear - E L1. revert b L1 E. induction l1 as [|x l1 IH]; intros b L1 E; destruct b as [|y b]; try discriminate L1.
    - split; [reflexivity|symmetry; exact E].
    - cbn in E. injection E as E0 E. subst y. destruct (IH b ltac:(cbn in L1; lia) E) as [-> ->]. auto. }
  destruct E1 as [-> ->]. constructor; auto.
Qed.

Section Sim.
Variable ncomp : string -> nat.
Variable vdim : string -> nat.
Variable aint : string -> bool.
Variable libm : string -> list Q -> option Q.
Variable fsample : string -> Q -> Q -> Q -> Q -> sample.
Variable vfsample : string -> Q -> Q -> Q -> Q -> vsample.
Variable consts : leaf -> Q.
Hypothesis HS : samples_ok ncomp vdim fsample vfsample.

Notation pev := (peval libm fsample).
Notation pe := (penv consts).
Notation ce := (cenv consts).
Notation agr := (agree aint).
Notation cval_of := (cvalue libm consts).
Notation run := (runs aint libm fsample vfsample consts).
Notation ex1 := (exec1 aint libm fsample vfsample consts).
Notation pex := (pexec libm fsample vfsample aint consts).
Notation pex1' := (pex1 aint libm fsample vfsample consts).
Notation pwh := (pwhile libm fsample vfsample aint consts).
Notation vfit := (vfits ncomp aint).
Notation efit := (efits ncomp aint).
Notation sc := (scode ncomp vdim aint).
Notation lc := (lcode ncomp vdim aint).
Notation rel := (related aint).

Lemma runs_single i c o n : ex1 n i c = o -> o <> CFuel -> run [i] c o.
Proof.
  intros H Ho. destruct o as [s|s|k s| |].
  - apply (runs_step _ _ _ _ _ _ _ _ s _ n H). apply runs_nil.
  - apply (runs_stop _ _ _ _ _ _ _ _ _ n H Ho I).
  - apply (runs_stop _ _ _ _ _ _ _ _ _ n H Ho I).
  - apply (runs_stop _ _ _ _ _ _ _ _ _ n H Ho I).
  - congruence.
Qed.

Lemma runs_if ts w zb zo c o : cval_of c ts = Some w -> run (if ctruth w then zb else zo) c o ->
  run [ZIf ts zb zo] c o.
Proof.
  intros Ew [Ho [n R]]. apply (runs_single _ _ _ n); [|exact Ho]. cbn [exec1]. rewrite Ew. exact R.
Qed.

(** A do-while loop, by the result of its body. *)
Lemma runs_do zb ts c o : run zb c o -> ends o -> (forall c', o <> CBreak c') -> run [ZDo zb ts] c o.
Proof.
  intros [Ho [n R]] E Hb. apply (runs_single _ _ _ n); [|exact Ho]. cbn [exec1]. rewrite R.
  destruct o; [destruct E|exfalso; exact (Hb s eq_refl)| | |]; reflexivity.
Qed.

Lemma runs_do_break zb ts c c' : run zb c (CBreak c') -> run [ZDo zb ts] c (CNext c').
Proof. intros [_ [n R]]. apply (runs_single _ _ _ n); [|discriminate]. cbn [exec1]. rewrite R. reflexivity. Qed.

Lemma runs_do_next zb ts c c' w o : run zb c (CNext c') -> cval_of c' ts = Some w ->
  (if ctruth w then run [ZDo zb ts] c' o else o = CNext c') -> run [ZDo zb ts] c o.
Proof.
  intros [_ [n R]] Ew H. destruct (ctruth w) eqn:T.
  - destruct H as [Ho [m H]]. apply (runs_single _ _ _ (Nat.max n m)); [|exact Ho]. cbn [exec1].
    rewrite (exec_mono _ _ _ _ _ _ _ _ _ R ltac:(discriminate) (Nat.max n m) ltac:(lia)), Ew. cbn [cgive]. rewrite T.
    apply (exec_mono _ _ _ _ _ _ _ _ _ H Ho). lia.
  - subst o. apply (runs_single _ _ _ n); [|discriminate]. cbn [exec1]. rewrite R, Ew. cbn [cgive]. rewrite T. reflexivity.
Qed.

(** ** Simple statements *)

Lemma rel_err p k c' : p_del p = false -> agr p c' -> k <> 0 -> rel (OErr k (podd p (p_del p))) (CReturn k c').
Proof. intros D A Hk. cbn. split; [exact D|]. split; [exact Hk|]. exists c'. split; [reflexivity|exact A]. Qed.

Lemma passign_del p t v : p_del (passign aint p t v) = p_del p. Proof. destruct t; reflexivity. Qed.

Lemma aug_plain t o e : aug_ok aint t o e = true -> plain_op o = true /\ o <> BMod.
Proof. destruct o; cbn; intros H; try discriminate H; split; (reflexivity || discriminate). Qed.

Lemma vec_run f t z y x k k1 k2 k3 k4 rt rz ry rx ct cz cy cx tt tz ty tx zt zz zy zx :
  (1 <= ncomp f)%nat ->
  vfit t = true -> vfit z = true -> vfit y = true -> vfit x = true ->
  hoist ncomp k t = (rt, ct, k1) -> hoist ncomp k1 z = (rz, cz, k2) ->
  hoist ncomp k2 y = (ry, cy, k3) -> hoist ncomp k3 x = (rx, cx, k4) ->
  gen rt = Some tt -> gen rz = Some tz -> gen ry = Some ty -> gen rx = Some tx ->
  calls_code ct = Some zt -> calls_code cz = Some zz -> calls_code cy = Some zy -> calls_code cx = Some zx ->
  forall p c, agr p c ->
  match vec_value libm fsample vfsample consts p f t z y x with
  | PV vs => exists c', run ((zt ++ zz ++ zy ++ zx) ++ [ZVecEval f tt tz ty tx (vtmps ncomp vdim k4 f)]) c (CNext c') /\
      agr p c' /\ length vs = vdim f /\
      Forall2 (fun toks v => exists w, cval_of c' toks = Some w /\ (cnum w == pnum v)%Q)
        (map join_tmps (vtmps ncomp vdim k4 f)) vs
  | PErr j => exists c', run ((zt ++ zz ++ zy ++ zx) ++ [ZVecEval f tt tz ty tx (vtmps ncomp vdim k4 f)]) c (CReturn j c') /\
      agr p c' /\ j <> 0
  | PRaise => True
  end.
Proof.
  intros Hn Ft Fz Fy Fx Et Ez Ey Ex Gt Gz Gy Gx Ct Cz Cy Cx p c A.
  assert (V : forall e, vfit e = true -> efit e = true /\ valued e = true) by (intros e H; apply andb_true_iff in H; exact H).
  destruct (V t Ft) as [Ft1 Vt]. destruct (V z Fz) as [Fz1 Vz]. destruct (V y Fy) as [Fy1 Vy]. destruct (V x Fx) as [Fx1 Vx].
  destruct (efit_split ncomp aint libm fsample t Ft1) as [Ft2 Mt]. destruct (efit_split ncomp aint libm fsample z Fz1) as [Fz2 Mz].
  destruct (efit_split ncomp aint libm fsample y Fy1) as [Fy2 My]. destruct (efit_split ncomp aint libm fsample x Fx1) as [Fx2 Mx].
  destruct (run_calls ncomp vdim aint libm fsample vfsample consts HS t _ _ _ _ Ft2 Et) as (zt' & Ct' & St).
  destruct (run_calls ncomp vdim aint libm fsample vfsample consts HS z _ _ _ _ Fz2 Ez) as (zz' & Cz' & Sz).
  destruct (run_calls ncomp vdim aint libm fsample vfsample consts HS y _ _ _ _ Fy2 Ey) as (zy' & Cy' & Sy).
  destruct (run_calls ncomp vdim aint libm fsample vfsample consts HS x _ _ _ _ Fx2 Ex) as (zx' & Cx' & Sx).
  rewrite Ct in Ct'. injection Ct' as <-. rewrite Cz in Cz'. injection Cz' as <-.
  rewrite Cy in Cy'. injection Cy' as <-. rewrite Cx in Cx'. injection Cx' as <-.
  pose proof (hoist_used _ _ _ _ _ _ Et) as U1. pose proof (hoist_used _ _ _ _ _ _ Ez) as U2.
  pose proof (hoist_used _ _ _ _ _ _ Ey) as U3. pose proof (hoist_used _ _ _ _ _ _ Ex) as U4.
  pose proof (coords_run ncomp aint libm fsample vfsample consts t z y x k k1 k2 k3 k4 zt zz zy zx U1 U2 U3 U4 St Sz Sy Sx
                p c A (Mt _) (Mz _) (My _) (Mx _)) as C.
  unfold vec_value.
  destruct (pev (pe p) t) as [vt|j|] eqn:Vt'; cbn [pbind] in C |- *; [| |exact I].
  2:{ destruct C as (c' & R & K & Hj). exists c'. split; [apply runs_app_stop; [exact R|exact I]|].
      split; [apply (keeps_agree aint _ _ _ _ _ K A)|exact Hj]. }
  destruct (pev (pe p) z) as [vz|j|] eqn:Vz'; cbn [pbind] in C |- *; [| |exact I].
  2:{ destruct C as (c' & R & K & Hj). exists c'. split; [apply runs_app_stop; [exact R|exact I]|].
      split; [apply (keeps_agree aint _ _ _ _ _ K A)|exact Hj]. }
  destruct (pev (pe p) y) as [vy|j|] eqn:Vy'; cbn [pbind] in C |- *; [| |exact I].
  2:{ destruct C as (c' & R & K & Hj). exists c'. split; [apply runs_app_stop; [exact R|exact I]|].
      split; [apply (keeps_agree aint _ _ _ _ _ K A)|exact Hj]. }
  destruct (pev (pe p) x) as [vx|j|] eqn:Vx'; cbn [pbind] in C |- *; [| |exact I].
  2:{ destruct C as (c' & R & K & Hj). exists c'. split; [apply runs_app_stop; [exact R|exact I]|].
      split; [apply (keeps_agree aint _ _ _ _ _ K A)|exact Hj]. }
  destruct C as (_ & _ & _ & _ & c' & R & K & T1 & T2 & T3 & T4).
  pose proof (keeps_agree aint _ _ _ _ _ K A) as A'.
  destruct (text_value ncomp aint libm fsample consts t _ _ _ _ tt p c' vt Ft2 Et Gt A' T1 (Mt _) Vt') as (wt & Wt & _ & W1).
  destruct (text_value ncomp aint libm fsample consts z _ _ _ _ tz p c' vz Fz2 Ez Gz A' T2 (Mz _) Vz') as (wz & Wz & _ & W2).
  destruct (text_value ncomp aint libm fsample consts y _ _ _ _ ty p c' vy Fy2 Ey Gy A' T3 (My _) Vy') as (wy & Wy & _ & W3).
  destruct (text_value ncomp aint libm fsample consts x _ _ _ _ tx p c' vx Fx2 Ex Gx A' T4 (Mx _) Vx') as (wx & Wx & _ & W4).
  destruct (W1 Vt) as [S1 _]. destruct (W2 Vz) as [S2 _]. destruct (W3 Vy) as [S3 _]. destruct (W4 Vx) as [S4 _].
  set (ev := ZVecEval f tt tz ty tx (vtmps ncomp vdim k4 f)).
  assert (Ev : ex1 0 ev c' =
    match vfsample f (Qred (pnum vt)) (Qred (pnum vz)) (Qred (pnum vy)) (Qred (pnum vx)) with
    | VSampled vs => CNext (set_tmps c' (concat (vtmps ncomp vdim k4 f)) (concat vs))
    | VSampleErr k => CReturn k c'
    end).
  { cbn [exec1 ev]. unfold ceval_vec. rewrite Wt, Wz, Wy, Wx.
    rewrite (num_red _ _ S1), (num_red _ _ S2), (num_red _ _ S3), (num_red _ _ S4). reflexivity. }
  destruct HS as (_ & _ & H3 & H4).
  destruct (vfsample f _ _ _ _) as [vs|j] eqn:Es.
  - destruct (H3 _ _ _ _ _ _ Es) as [Ld Lc].
    assert (Ec : concat (vtmps ncomp vdim k4 f) = seq k4 (vdim f * ncomp f)).
    { unfold vtmps. rewrite concat_seqs. f_equal. lia. }
    assert (Lcc : length (concat vs) = (vdim f * ncomp f)%nat).
    { rewrite <- Ld. clear - Lc. induction Lc as [|l vs H Lc IH]; [reflexivity|]. cbn [concat length].
      rewrite app_length, IH, H. lia. }
    exists (set_tmps c' (concat (vtmps ncomp vdim k4 f)) (concat vs)).
    assert (Ks : keeps k4 (k4 + vdim f * ncomp f) c' (set_tmps c' (concat (vtmps ncomp vdim k4 f)) (concat vs))).
    { rewrite Ec. apply set_tmps_keeps. intros m Hm. apply seq_in_range. exact Hm. }
    split; [apply (runs_app _ _ _ _ _ _ _ c c' _ R); apply (runs_single ev c' _ 0 Ev); discriminate|].
    split; [apply (keeps_agree aint _ _ _ _ _ Ks A')|].
    split; [rewrite map_length; exact Ld|].
    assert (F0 : Forall2 (fun n q => ce (set_tmps c' (concat (vtmps ncomp vdim k4 f)) (concat vs)) (NTmp n) = Some (CR q))
                   (concat (vtmps ncomp vdim k4 f)) (concat vs)).
    { apply set_tmps_state; rewrite Ec; [apply seq_NoDup|rewrite Lcc, seq_length; reflexivity]. }
    apply Forall2_split in F0.
    2:{ unfold vtmps. clear - Ld Lc. rewrite <- Ld. clear Ld. generalize 0%nat as j.
        induction Lc as [|l vs H Lc IH]; intros j; cbn [length seq map]; constructor; [rewrite seq_length; auto|apply IH]. }
    remember (set_tmps c' (concat (vtmps ncomp vdim k4 f)) (concat vs)) as c2 eqn:Ec2. clear Ec2 Ks.
    unfold vtmps in *. revert F0. clear - Hn Lc. generalize (seq 0 (vdim f)) as l. intros l F0. revert l F0.
    induction vs as [|q vs IH]; intros l F0.
    + inversion F0 as [E|]. destruct l; [constructor|discriminate E].
    + destruct l as [|i l]; inversion F0 as [|a b a' b' F1 F2]; subst. cbn [map]. constructor.
      * destruct (join_ok libm (ncomp f) (k4 + i * ncomp f) Hn) as (tr & P & Sem).
        destruct (Sem (ce c2) q F1) as (r & Er & Eq). exists (CR r). split; [|exact Eq].
        unfold cvalue. rewrite (cparse_complete _ tr); [exact Er|].
        apply phrase_lower with (l := if (ncomp f =? 1)%nat then 6%nat else 4%nat); [exact P|lia].
      * inversion Lc; subst. apply IH; assumption.
  - exists c'. split; [apply (runs_app _ _ _ _ _ _ _ c c' _ R); apply (runs_single ev c' _ 0 Ev); discriminate|].
    split; [exact A'|]. exact (H4 _ _ _ _ _ _ Es).
Qed.

(** * Simulation *)

Definition simL (n : nat) : Prop := forall ss k zs k' p c, lc ss k zs k' -> p_del p = false -> agr p c ->
  clean (pex n ss p) -> exists co, run zs c co /\ rel (pex n ss p) co.

Definition simW (n : nat) : Prop := forall first cnd b k te ts zb k2 p c,
  efit cnd = true -> hasfield cnd = false -> hoist ncomp k cnd = (te, [], k) -> gen te = Some ts ->
  lc b k zb k2 -> p_del p = false -> agr p c -> clean (pwh n first cnd b p) ->
  exists w co, cval_of c ts = Some w /\
    (if ctruth w then run [ZDo zb ts] c co else first = false /\ co = CNext c) /\
    rel (pwh n first cnd b p) co.

Definition simS (n : nat) : Prop := forall s k zs k' p c, sc s k zs k' -> p_del p = false -> agr p c ->
  clean (pex1' n s p) -> exists co, run zs c co /\ rel (pex1' n s p) co.

Lemma sim_stmt n : simL n -> simW n -> simS n.
Proof.
  intros HL HW s k zs k' p c C D A Cl. inversion C; subst; cbn [pex1] in *.
  - destruct (andb_prop _ _ H) as [F V].
    pose proof (code_run ncomp vdim aint libm fsample vfsample consts HS e k te cs k' ts zs0 F H0 H1 H2 p c A) as X.
    destruct (pev (pe p) e) as [v|j|]; cbn [pgive] in *; [| |destruct Cl].
    + destruct X as (c' & w & R & A' & Ew & _ & Vw). destruct (Vw V) as [Sw _].
      exists (CNext (cassign aint c' t w)). split.
      * apply (runs_app _ _ _ _ _ _ _ c c' _ R). apply (runs_single _ _ _ 0); [|discriminate].
        cbn [exec1]. rewrite Ew. reflexivity.
      * cbn [related]. rewrite passign_del, D. eexists. split; [reflexivity|].
        apply agree_assign; [exact A'|apply same_num; exact Sw].
    + destruct X as (c' & R & A' & Hj). exists (CReturn j c').
      split; [apply runs_app_stop; [exact R|exact I]|apply rel_err; assumption].
  - destruct (andb_prop _ _ H) as [F V].
    pose proof (code_run ncomp vdim aint libm fsample vfsample consts HS e k te cs k' ts zs0 F H1 H2 H3 p c A) as X.
    unfold aug_value in *. cbn [peval] in *.
    destruct (pe p (target_leaf t)) as [va|] eqn:Ea; cbn [of_opt pbind pgive] in *; [|destruct Cl].
    destruct (pev (pe p) e) as [v|j|]; cbn [pbind pgive] in *; [| |destruct Cl].
    + destruct (parith libm o va v) as [r|j|] eqn:Er; cbn [pgive] in *; [| |destruct Cl].
      * destruct X as (c' & w & R & A' & Ew & _ & Vw). destruct (Vw V) as [Sw Cw].
        destruct (proj1 (agree_leaf aint consts p c' A') (target_leaf t) va Ea) as (wa & Ewa & Sa & Ca).
        destruct (aug_plain t o e H0) as [Po Nm].
        destruct (arith_ok libm o va v r wa w Po Sa Sw) as (w' & Ew' & Sw' & _).
        -- intros ->. rewrite Ca, Cw. cbn [aug_ok] in H0. apply negb_true_iff in H0.
           destruct t; exact H0.
        -- intros E. contradiction.
        -- exact Er.
        -- exists (CNext (cassign aint c' t w')). split.
           ++ apply (runs_app _ _ _ _ _ _ _ c c' _ R). apply (runs_single _ _ _ 0); [|discriminate].
              cbn [exec1]. rewrite Ewa, Ew, Ew'. reflexivity.
           ++ cbn [related]. rewrite passign_del, D. eexists. split; [reflexivity|].
              apply agree_assign; [exact A'|apply same_num; exact Sw'].
      * exfalso. destruct (aug_plain t o e H0) as [Po Nm].
        destruct o; cbn in Er; try discriminate Er; try discriminate Po; try contradiction.
        destruct (Qeq_bool _ _); discriminate.
    + destruct X as (c' & R & A' & Hj). exists (CReturn j c').
      split; [apply runs_app_stop; [exact R|exact I]|apply rel_err; assumption].
  - destruct (list_run ncomp vdim aint libm fsample vfsample consts HS es k tes cs k' tss zs0 H0 H2 H3 H4) as (_ & X).
    specialize (X p c A).
    destruct (peval_list libm fsample (pe p) es) as [vs|j|]; cbn [pgive] in *; [| |destruct Cl].
    + destruct (length ts =? length vs)%nat eqn:L; [|destruct Cl]. apply Nat.eqb_eq in L.
      destruct X as (c' & R & K & Hv). pose proof (keeps_agree aint _ _ _ _ _ K A) as A'.
      specialize (Hv c' k' (Nat.le_refl _) (keeps_refl _ _ _)).
      destruct (assigns_run aint libm fsample vfsample consts ts tss vs p c' A') as (c2 & R2 & A2).
      * rewrite (Forall2_length _ _ _ Hv). symmetry. exact L.
      * exact Hv.
      * apply (untangled_apart ncomp ts es k tes cs k' tss H1 H2 H3).
      * exists (CNext c2). split; [apply (runs_app _ _ _ _ _ _ _ c c' _ R R2)|].
        cbn [related]. destruct (passigns_flags aint ts vs p) as (-> & _ & _). rewrite D. exists c2. auto.
    + destruct X as (c' & R & K & Hj). exists (CReturn j c').
      split; [apply runs_app_stop; [exact R|exact I]|apply rel_err; try assumption].
      apply (keeps_agree aint _ _ _ _ _ K A).
  - pose proof (vec_run f t z y x k k1 k2 k3 k4 rt rz ry rx ct cz cy cx tt tz ty tx zt zz zy zx
                  H0 H1 H2 H3 H4 H5 H6 H7 H8 H9 H10 H11 H12 H13 H14 H15 H16 p c A) as X.
    destruct (vec_value libm fsample vfsample consts p f t z y x) as [vs|j|]; cbn [pgive] in *; [| |destruct Cl].
    + destruct (length ts =? length vs)%nat eqn:L; [|destruct Cl]. apply Nat.eqb_eq in L.
      destruct X as (c' & R & A' & Lv & Hv).
      destruct (assigns_run aint libm fsample vfsample consts ts (map join_tmps (vtmps ncomp vdim k4 f)) vs p c' A') as (c2 & R2 & A2).
      * rewrite map_length, vtmps_len. congruence.
      * exact Hv.
      * apply apart_tmps.
      * exists (CNext c2). split; [rewrite app_assoc; apply (runs_app _ _ _ _ _ _ _ c c' _ R R2)|].
        cbn [related]. destruct (passigns_flags aint ts vs p) as (-> & _ & _). rewrite D. exists c2. auto.
    + destruct X as (c' & R & A' & Hj). exists (CReturn j c').
      split; [rewrite app_assoc; apply runs_app_stop; [exact R|exact I]|apply rel_err; assumption].
  - pose proof (code_run ncomp vdim aint libm fsample vfsample consts HS c0 k te cs k1 ts zc H H0 H1 H2 p c A) as X.
    destruct (pev (pe p) c0) as [v|j|]; cbn [pgive] in *; [| |destruct Cl].
    + destruct X as (c' & w & R & A' & Ew & Tw & _).
      assert (Y : exists co, run (if ctruth w then zb else zo) c' co /\ rel (pex n (if ptruth v then b else o) p) co).
      { rewrite Tw. destruct (ptruth v); [apply (HL b k1 zb k2 p c')|apply (HL o k2 zo k' p c')]; assumption. }
      destruct Y as (co & R2 & Rel). exists co. split; [|exact Rel].
      apply runs_block. apply (runs_app _ _ _ _ _ [ZBlock zc] [ZIf ts zb zo] c c').
      * apply runs_block. exact R.
      * apply (runs_if ts w); assumption.
    + destruct X as (c' & R & A' & Hj). exists (CReturn j c').
      split; [|apply rel_err; assumption]. apply runs_block.
      apply (runs_app_stop _ _ _ _ _ [ZBlock zc] [ZIf ts zb zo]); [apply runs_block; exact R|exact I].
  - destruct (HW true c0 b k te ts zb k' p c H H0 H1 H2 H3 D A Cl) as (w & co & Ew & R & Rel).
    exists co. split; [|exact Rel]. destruct (ctruth w); [exact R|destruct R; discriminate].
  - exists (CBreak c). split; [apply (runs_single _ _ _ 0); [reflexivity|discriminate]|].
    cbn [related]. rewrite D. exists c. auto.
  - exists (CNext c). split; [apply (runs_single _ _ _ 0); [reflexivity|discriminate]|].
    cbn [related]. rewrite D. exists c. auto.
  - exists (CReturn (c_sym (symbol_map r)) c). split; [apply (runs_single _ _ _ 0); [reflexivity|discriminate]|].
    cbn [related]. split; [exact D|]. exists c. split; [destruct r; reflexivity|exact A].
  - exists (CReturn 3 c). split; [apply (runs_single _ _ _ 0); [reflexivity|discriminate]|].
    cbn. split; [reflexivity|]. exists c. split; [reflexivity|]. intros a Ha. cbn [pdelete p_att]. unfold upd.
    destruct (String.eqb a "state") eqn:E; [apply String.eqb_eq in E; contradiction|]. apply (proj2 A a).
Qed.

Lemma rel_ends o co : rel o co -> clean o -> (forall q, o <> ONext q) -> ends co.
Proof.
  intros R C N. destruct o as [q|q|k q|k q| |]; cbn [related] in R.
  - exfalso. exact (N q eq_refl).
  - destruct (p_del q); [destruct R as (_ & c' & -> & _)|destruct R as (c' & -> & _)]; exact I.
  - destruct R as (_ & c' & -> & _). exact I.
  - destruct R as (_ & _ & c' & -> & _). exact I.
  - destruct C.
  - destruct C.
Qed.

(** Once the particle is deleted the rest of the Python run does not matter. *)
Lemma gone_still q o co : gone q co -> still q o -> rel o co.
Proof.
  intros (St & c' & -> & Ab) S. destruct o as [r|r|k r|k r| |]; cbn in S; try contradiction;
    destruct S as [D Eq]; cbn [related]; rewrite D; (split; [rewrite Eq; exact St|]); exists c'; (split; [reflexivity|]);
    intros a Ha; rewrite Eq; apply Ab; exact Ha.
Qed.

Lemma sim_all n : simL n /\ simW n.
Proof.
  induction n as [|n [HL HW]]; [unfold simL, simW; split; intros; cbn in *; contradiction|].
  pose proof (sim_stmt n HL HW) as HSt. split.
  - intros ss k zs k' p c C D A Cl. inversion C; subst.
    + exists (CNext c). split; [apply runs_nil|]. cbn [pexec related]. rewrite D. exists c. auto.
    + rewrite pex_cons in *.
      assert (C1 : clean (pex1' n s p)).
      { destruct (pex1' n s p) eqn:E; try exact Cl. cbn. apply (proj1 (odd_mono _ _ _ _ _ n) r s0 Cl). }
      destruct (HSt s k z1 k1 p c H D A C1) as (co & R1 & Rel1).
      destruct (pex1' n s p) as [q|q|j q|j q| |] eqn:E.
      * cbn [related] in Rel1. destruct (p_del q) eqn:Dq.
        -- exists co. split; [apply (runs_app_stop _ _ _ _ _ z1 z2 c co R1); destruct Rel1 as (_ & c' & -> & _); exact I|].
           apply (gone_still q); [exact Rel1|]. apply (proj1 (del_keep _ _ _ _ _ n)); [exact Dq|apply (proj1 Rel1)|exact Cl].
        -- destruct Rel1 as (c' & -> & A'). destruct (HL r k1 z2 k' q c' H0 Dq A' Cl) as (co & R2 & Rel2).
           exists co. split; [apply (runs_app _ _ _ _ _ z1 z2 c c' co R1 R2)|exact Rel2].
      * exists co. split; [|exact Rel1]. apply runs_app_stop; [exact R1|]. apply (rel_ends _ _ Rel1 C1). discriminate.
      * exists co. split; [|exact Rel1]. apply runs_app_stop; [exact R1|]. apply (rel_ends _ _ Rel1 C1). discriminate.
      * exists co. split; [|exact Rel1]. apply runs_app_stop; [exact R1|]. apply (rel_ends _ _ Rel1 C1). discriminate.
      * destruct Cl.
      * destruct Cl.
  - intros first cnd b k te ts zb k2 p c F Nf H G Cb D A Cl. rewrite pwh_step in *.
    pose proof (code_run ncomp vdim aint libm fsample vfsample consts HS cnd k te [] k ts [] F H G eq_refl p c A) as X.
    destruct (pev (pe p) cnd) as [v|j|] eqn:Ev; cbn [pgive] in *; [| |destruct Cl].
    2:{ exfalso. exact (nofield_noerr libm fsample cnd (pe p) j Nf Ev). }
    destruct X as (c' & w & R & A' & Ew & Tw & _).
    assert (c' = c) by (pose proof (runs_det _ _ _ _ _ _ _ _ _ R (runs_nil _ _ _ _ _ c)) as E; injection E as ->; reflexivity).
    subst c'. exists w. rewrite Tw. destruct (ptruth v).
    + assert (C1 : clean (pex n b p)).
      { destruct (pex n b p) eqn:E; try exact Cl. cbn. apply (proj2 (odd_mono _ _ _ _ _ n) false cnd b s Cl). }
      destruct (HL b k zb k2 p c Cb D A C1) as (co & R1 & Rel1).
      destruct (pex n b p) as [q|q|j q|j q| |] eqn:E.
      * cbn [related] in Rel1. destruct (p_del q) eqn:Dq.
        -- exists co. split; [exact Ew|]. split.
           ++ apply runs_do; [exact R1| |]; destruct Rel1 as (_ & c' & -> & _); [exact I|discriminate].
           ++ apply (gone_still q); [exact Rel1|]. apply (proj2 (del_keep _ _ _ _ _ n)); [exact Dq|apply (proj1 Rel1)|exact Cl].
        -- destruct Rel1 as (c' & -> & A1).
           destruct (HW false cnd b k te ts zb k2 q c' F Nf H G Cb Dq A1 Cl) as (w' & co & Ew' & R2 & Rel2).
           exists co. split; [exact Ew|]. split; [|exact Rel2].
           apply (runs_do_next zb ts c c' w' co R1 Ew'). destruct (ctruth w'); [exact R2|exact (proj2 R2)].
      * cbn [related] in Rel1 |- *. destruct (p_del q) eqn:Dq.
        -- exists co. split; [exact Ew|]. split; [|exact Rel1].
           apply runs_do; [exact R1| |]; destruct Rel1 as (_ & c' & -> & _); [exact I|discriminate].
        -- destruct Rel1 as (c' & -> & A1). exists (CNext c'). split; [exact Ew|].
           split; [apply runs_do_break; exact R1|]. exists c'. auto.
      * exists co. split; [exact Ew|]. split; [|exact Rel1].
        destruct Rel1 as (_ & c' & -> & _). apply runs_do; [exact R1|exact I|discriminate].
      * exists co. split; [exact Ew|]. split; [|exact Rel1].
        destruct Rel1 as (_ & _ & c' & -> & _). apply runs_do; [exact R1|exact I|discriminate].
      * destruct Cl.
      * destruct Cl.
    + cbn in Cl. apply orb_false_iff in Cl as [_ Cl]. exists (CNext c). split; [exact Ew|].
      split; [split; [exact Cl|reflexivity]|]. cbn [related podd p_del]. rewrite D. exists c.
      split; [reflexivity|]. exact A.
Qed.

(** * Kernels *)

Lemma kernel_case body n p c res p' :
  forallb (sfits ncomp vdim aint) body = true -> agr p c -> p_del p = false ->
  ~ (pnum (p_att p "state") == inject_Z (py_code KDelete))%Q ->
  presult (p_att p "state") (pex n body p) = Some (res, p') -> p_odd p' = false ->
  exists zs co c', compile ncomp vdim body = Some zs /\ run zs c co /\
    cresult (c_att c "state") co = Some (res, c') /\
    (if p_del p' then agree_but "state" p' c' else agr p' c').
Proof.
  intros F A D Nd Hr Ho.
  destruct (body_code ncomp vdim aint libm fsample vfsample consts HS body F) as (zs & k & C).
  exists (zs ++ [ZReturn SUCCESS]).
  assert (Cl : clean (pex n body p)).
  { unfold presult in Hr. destruct (pex n body p) as [q|q|j q|j q| |]; try discriminate Hr; cbn.
    - destruct (_ && _); injection Hr as _ <-; exact Ho.
    - destruct (_ && _); injection Hr as _ <-; exact Ho.
    - injection Hr as _ <-. exact Ho. }
  destruct (proj1 (sim_all n) body 0%nat zs k p c C D A Cl) as (co & R & Rel).
  assert (Sp : forall q c', agr q c' -> Qeq_bool (cnum (c_att c' "state")) (cnum (c_att c "state")) =
                                        Qeq_bool (pnum (p_att q "state")) (pnum (p_att p "state")) /\
                                        trunc (cnum (c_att c' "state")) = trunc (pnum (p_att q "state"))).
  { intros q c' A'. pose proof (same_num _ _ (proj1 (proj2 A "state"%string))) as E1.
    pose proof (same_num _ _ (proj1 (proj2 A' "state"%string))) as E2. split; [apply Qeq_bool_morph; assumption|apply trunc_morph; exact E2]. }
  unfold presult in Hr. destruct (pex n body p) as [q|q|j q|j q| |]; try discriminate Hr; cbn [related] in Rel.
  - destruct (p_del q) eqn:Dq.
    + destruct Rel as (St & c' & -> & Ab). rewrite St in Hr.
      assert (E : Qeq_bool (pnum (PI 3)) (pnum (p_att p "state")) = false).
      { apply not_true_is_false. intros T. apply Qeq_bool_iff in T. apply Nd. cbn in *. symmetry. exact T. }
      rewrite E in Hr. cbn in Hr. injection Hr as <- <-.
      exists (CReturn 3 c'), c'. split; [apply (code_compile _ _ _ _ _ _ C)|].
      split; [apply runs_app_stop; [exact R|exact I]|]. split; [reflexivity|]. rewrite Dq. exact Ab.
    + destruct Rel as (c' & -> & A'). destruct (Sp q c' A') as [E1 E2].
      exists (CReturn 0 c'), c'. split; [apply (code_compile _ _ _ _ _ _ C)|].
      split; [apply (runs_app _ _ _ _ _ _ _ c c' _ R); apply (runs_single _ _ _ 0); [reflexivity|discriminate]|].
      cbn [cresult]. cbn [c_sym]. rewrite E1, E2. change (py_code KSuccess) with 0 in Hr.
      destruct ((0 =? 0) && _); injection Hr as <- <-; (split; [reflexivity|]); rewrite Dq; exact A'.
  - destruct Rel as (Dq & c' & -> & A'). destruct (Sp q c' A') as [E1 E2].
    exists (CReturn j c'), c'. split; [apply (code_compile _ _ _ _ _ _ C)|].
    split; [apply runs_app_stop; [exact R|exact I]|].
    cbn [cresult]. cbn [c_sym]. rewrite E1, E2. change (py_code KSuccess) with 0 in Hr.
    destruct ((j =? 0) && _); injection Hr as <- <-; (split; [reflexivity|]); rewrite Dq; exact A'.
  - destruct Rel as (Dq & Hj & c' & -> & A'). injection Hr as <- <-.
    exists (CReturn j c'), c'. split; [apply (code_compile _ _ _ _ _ _ C)|].
    split; [apply runs_app_stop; [exact R|exact I]|]. cbn [cresult c_sym].
    destruct (j =? 0) eqn:Ej; [apply Z.eqb_eq in Ej; contradiction|]. cbn [andb].
    split; [reflexivity|]. rewrite Dq. exact A'.
Qed.
End Sim.
