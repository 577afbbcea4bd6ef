(** Proofs for C33: the code written for a statement. *)
From Coq Require Import String List ZArith QArith Bool Arith Lia.
From Verif Require Import GenModel GenSpec GenProofs GenProofs2 GenProofs3 GenProofs4.
Import ListNotations.
Open Scope Z_scope.

Section StmtInd.
Variable P : stmt -> Prop.
Hypothesis Hassign : forall t e, P (SAssign t e).
Hypothesis Haug : forall t o e, P (SAug t o e).
Hypothesis Htuple : forall ts es, P (STuple ts es).
Hypothesis Hvec : forall ts f t z y x, P (SVec ts f t z y x).
Hypothesis Hif : forall c b o, Forall P b -> Forall P o -> P (SIf c b o).
Hypothesis Hwhile : forall c b, Forall P b -> P (SWhile c b).
Hypothesis Hbreak : P SBreak.
Hypothesis Hpass : P SPass.
Hypothesis Hreturn : forall k, P (SReturn k).
Hypothesis Hdelete : P SDelete.

Fixpoint stmt_ind' (s : stmt) : P s :=
  let fix all (l : list stmt) : Forall P l :=
    match l with
    | [] => Forall_nil P
    | s :: r => Forall_cons s (stmt_ind' s) (all r)
    end in
  match s with
  | SAssign t e => Hassign t e
  | SAug t o e => Haug t o e
  | STuple ts es => Htuple ts es
  | SVec ts f t z y x => Hvec ts f t z y x
  | SIf c b o => Hif c b o (all b) (all o)
  | SWhile c b => Hwhile c b (all b)
  | SBreak => Hbreak
  | SPass => Hpass
  | SReturn k => Hreturn k
  | SDelete => Hdelete
  end.
End StmtInd.

Section Code.
Variable ncomp : string -> nat.
Variable vdim : string -> nat.
Variable aint : string -> bool.

Notation vfit := (vfits ncomp aint).
Notation efit := (efits ncomp aint).

Definition assigns (ts : list target) (tss : list (list tok)) : list cstmt :=
  map (fun p => ZAssign (fst p) (snd p)) (combine ts tss).

Definition aug_ok (t : target) (o : bop) (e : expr) : bool :=
  match o with
  | BAdd | BSub | BMul => true
  | BDiv => negb (cint aint (ELeaf (target_leaf t)) && cint aint e)
  | _ => false
  end.

Definition starts_assigning (b : list stmt) : bool :=
  match b with s1 :: _ => assigning s1 | [] => false end.

(** The code of a statement, when the stack of samples is empty before it. *)
Inductive scode : stmt -> nat -> list cstmt -> nat -> Prop :=
| sc_assign t e k te cs k' ts zs :
    vfit e = true -> hoist ncomp k e = (te, cs, k') -> gen te = Some ts -> calls_code cs = Some zs ->
    scode (SAssign t e) k (zs ++ [ZAssign t ts]) k'
| sc_aug t o e k te cs k' ts zs :
    vfit e = true -> aug_ok t o e = true ->
    hoist ncomp k e = (te, cs, k') -> gen te = Some ts -> calls_code cs = Some zs ->
    scode (SAug t o e) k (zs ++ [ZAug t o ts]) k'
| sc_tuple ts es k tes cs k' tss zs :
    length ts = length es -> forallb vfit es = true -> untangled ts es = true ->
    hoist_list ncomp k es = (tes, cs, k') -> Forall2 (fun te t => gen te = Some t) tes tss ->
    calls_code cs = Some zs ->
    scode (STuple ts es) k (zs ++ assigns ts tss) k'
| sc_vec ts f t z y x k k1 k2 k3 k4 rt rz ry rx ct cz cy cx tt tz ty tx zt zz zy zx :
    length ts = vdim f -> (1 <= ncomp f)%nat ->
    vfit t = true -> vfit z = true -> vfit y = true -> vfit x = true ->
    hoist ncomp k t = (rt, ct, k1) -> hoist ncomp k1 z = (rz, cz, k2) ->
    hoist ncomp k2 y = (ry, cy, k3) -> hoist ncomp k3 x = (rx, cx, k4) ->
    gen rt = Some tt -> gen rz = Some tz -> gen ry = Some ty -> gen rx = Some tx ->
    calls_code ct = Some zt -> calls_code cz = Some zz -> calls_code cy = Some zy ->
    calls_code cx = Some zx ->
    scode (SVec ts f t z y x) k
      ((zt ++ zz ++ zy ++ zx) ++ [ZVecEval f tt tz ty tx (vtmps ncomp vdim k4 f)]
         ++ assigns ts (map join_tmps (vtmps ncomp vdim k4 f))) (k4 + vdim f * ncomp f)
| sc_if c b o k te cs k1 ts zc zb k2 zo k3 :
    efit c = true -> hoist ncomp k c = (te, cs, k1) -> gen te = Some ts -> calls_code cs = Some zc ->
    count_tmps ts = length cs -> (cs = [] \/ starts_assigning b = true) ->
    lcode b k1 zb k2 -> lcode o k2 zo k3 ->
    scode (SIf c b o) k [ZBlock [ZBlock zc; ZIf ts zb zo]] k3
| sc_while c b k te ts zb k2 :
    efit c = true -> hasfield c = false -> hoist ncomp k c = (te, [], k) -> gen te = Some ts ->
    lcode b k zb k2 -> scode (SWhile c b) k [ZDo zb ts] k2
| sc_break k : scode SBreak k [ZBreak] k
| sc_pass k : scode SPass k [ZEmpty] k
| sc_return r k : scode (SReturn r) k [ZReturn (symbol_map r)] k
| sc_delete k : scode SDelete k [ZReturn DELETE] k
with lcode : list stmt -> nat -> list cstmt -> nat -> Prop :=
| lc_nil k : lcode [] k [] k
| lc_cons s r k z1 k1 z2 k2 : scode s k z1 k1 -> lcode r k1 z2 k2 -> lcode (s :: r) k (z1 ++ z2) k2.

Scheme scode_mut := Minimality for scode Sort Prop
  with lcode_mut := Minimality for lcode Sort Prop.
Combined Scheme code_ind from scode_mut, lcode_mut.

(** * The generator writes this code *)

Definition sg (l : list tstmt) (zs : list cstmt) : Prop :=
  exists l', split l = Some l' /\ gen_list l' = Some zs.

Lemma split_app l1 : forall l2 a b, split l1 = Some a -> split l2 = Some b -> split (l1 ++ l2) = Some (a ++ b).
Proof.
  induction l1 as [|s l1 IH]; intros l2 a b H1 H2.
  - injection H1 as <-. exact H2.
  - cbn [split app] in *. destruct (split1 s); [|discriminate].
    destruct (split l1) as [z|] eqn:E; [|discriminate]. injection H1 as <-.
    rewrite (IH l2 z b eq_refl H2), app_assoc. reflexivity.
Qed.

Lemma sg_app l1 l2 z1 z2 : sg l1 z1 -> sg l2 z2 -> sg (l1 ++ l2) (z1 ++ z2).
Proof.
  intros (a & A1 & A2) (b & B1 & B2). exists (a ++ b). split; [apply split_app; assumption|].
  apply gen_list_app; assumption.
Qed.

Lemma sg_calls cs zs : calls_code cs = Some zs -> sg (map YCall cs) zs.
Proof.
  intros H. exists (map YCall cs). split; [|exact H]. clear.
  induction cs as [|q cs IH]; [reflexivity|]. cbn [map split split1]. rewrite IH. reflexivity.
Qed.

Lemma sg_nil : sg [] []. Proof. exists []. split; reflexivity. Qed.

Lemma sg_tuple ts tes tss : length ts = length tes -> Forall2 (fun te t => gen te = Some t) tes tss ->
  sg [YTuple ts tes] (assigns ts tss).
Proof.
  intros L F. exists (map (fun te => YAssign (fst te) (snd te)) (combine ts tes)). split.
  - cbn [split split1]. unfold split_tuple. rewrite L, Nat.eqb_refl, app_nil_r. reflexivity.
  - clear L. revert ts. induction F as [|te t tes tss H F IH]; intros ts.
    + destruct ts; reflexivity.
    + destruct ts as [|x ts]; [reflexivity|]. unfold assigns. cbn [combine map gen_list gen1 fst snd].
      rewrite H, IH. reflexivity.
Qed.

Lemma calls_len cs : forall zs, calls_code cs = Some zs -> length zs = length cs.
Proof.
  unfold calls_code. induction cs as [|q cs IH]; intros zs H; cbn [map gen_list] in H.
  - injection H as <-. reflexivity.
  - destruct (gen1 (YCall q)); [|discriminate]. destruct (gen_list (map YCall cs)) eqn:E; [|discriminate].
    injection H as <-. cbn. rewrite (IH l eq_refl). reflexivity.
Qed.

Lemma trans1_if c b o n st : trans1 ncomp vdim (SIf c b o) n st =
  let '(c', k, n1) := hoist ncomp n c in
  let '(b', n2, k2) := trans ncomp vdim b n1 (st ++ k) in
  let '(o', n3, k3) := trans ncomp vdim o n2 k2 in ([YIf c' b' o'], n3, k3).
Proof. reflexivity. Qed.

Lemma trans1_while c b n st : trans1 ncomp vdim (SWhile c b) n st =
  let '(c', k, n1) := hoist ncomp n c in
  let '(b', n2, k2) := trans ncomp vdim b n1 (st ++ k) in ([YWhile c' b'], n2, k2).
Proof. reflexivity. Qed.

Lemma split1_if c b o : split1 (YIf c b o) =
  match split b, split o with Some b', Some o' => Some [YIf c b' o'] | _, _ => None end.
Proof. reflexivity. Qed.

Lemma split1_while c b : split1 (YWhile c b) =
  match split b with Some b' => Some [YWhile c b'] | None => None end.
Proof. reflexivity. Qed.

Lemma gen1_if c b o : gen1 (YIf c b o) =
  match gen c, gen_list b, gen_list o with
  | Some tc, Some b', Some o' =>
      Some (ZBlock [ZBlock (firstn (count_tmps tc) b'); ZIf tc (skipn (count_tmps tc) b') o'])
  | _, _, _ => None
  end.
Proof. reflexivity. Qed.

Lemma gen1_while c b : gen1 (YWhile c b) =
  match gen c, gen_list b with Some tc, Some b' => Some (ZDo b' tc) | _, _ => None end.
Proof. reflexivity. Qed.

(** An assignment writes first the samples that are on the stack. *)
Lemma trans1_stack s k l k' r st : assigning s = true -> trans1 ncomp vdim s k [] = (l, k', r) ->
  trans1 ncomp vdim s k st = (map YCall st ++ l, k', r).
Proof.
  intros A H. destruct s; try discriminate A; cbn [trans1] in *.
  - destruct (hoist ncomp k e) as [[te cs] n1]. injection H as <- <- <-.
    rewrite map_app, <- app_assoc. reflexivity.
  - destruct (hoist ncomp k e) as [[te cs] n1]. injection H as <- <- <-.
    rewrite map_app, <- app_assoc. reflexivity.
  - destruct (hoist_list ncomp k es) as [[te cs] n1]. injection H as <- <- <-.
    rewrite map_app, <- app_assoc. reflexivity.
  - destruct (hoist ncomp k t) as [[rt ct] n1]. destruct (hoist ncomp n1 z) as [[rz cz] n2].
    destruct (hoist ncomp n2 y) as [[ry cy] n3]. destruct (hoist ncomp n3 x) as [[rx cx] n4].
    injection H as <- <- <-. cbn [app]. rewrite (map_app YCall st), <- app_assoc. reflexivity.
Qed.

Lemma trans_stack b k l k' r st : (st = [] \/ starts_assigning b = true) ->
  trans ncomp vdim b k [] = (l, k', r) -> trans ncomp vdim b k st = (map YCall st ++ l, k', r).
Proof.
  intros [-> | A] H; [exact H|]. destruct b as [|s b]; [discriminate A|]. cbn [starts_assigning] in A.
  cbn [trans] in *. destruct (trans1 ncomp vdim s k []) as [[l1 n1] k1] eqn:E.
  rewrite (trans1_stack s k l1 n1 k1 st A E).
  destruct (trans ncomp vdim b n1 k1) as [[l2 n2] k2]. injection H as <- <- <-.
  rewrite app_assoc. reflexivity.
Qed.

Lemma vtmps_len k f : length (vtmps ncomp vdim k f) = vdim f.
Proof. unfold vtmps. rewrite map_length, seq_length. reflexivity. Qed.

Lemma code_trans :
  (forall s k zs k', scode s k zs k' -> exists l, trans1 ncomp vdim s k [] = (l, k', []) /\ sg l zs) /\
  (forall ss k zs k', lcode ss k zs k' -> exists l, trans ncomp vdim ss k [] = (l, k', []) /\ sg l zs).
Proof.
  apply (code_ind (fun s k zs k' => exists l, trans1 ncomp vdim s k [] = (l, k', []) /\ sg l zs)
                  (fun ss k zs k' => exists l, trans ncomp vdim ss k [] = (l, k', []) /\ sg l zs)).
  - intros t e k te cs k' ts zs F H Hg Hc. exists (map YCall cs ++ [YAssign t te]).
    split; [cbn [trans1]; rewrite H; reflexivity|]. apply sg_app; [apply sg_calls; exact Hc|].
    exists [YAssign t te]. split; [reflexivity|]. cbn [gen_list gen1]. rewrite Hg. reflexivity.
  - intros t o e k te cs k' ts zs F Fo H Hg Hc. exists (map YCall cs ++ [YAug t o te]).
    split; [cbn [trans1]; rewrite H; reflexivity|]. apply sg_app; [apply sg_calls; exact Hc|].
    exists [YAug t o te]. split; [reflexivity|]. cbn [gen_list gen1]. rewrite Hg.
    destruct o; try discriminate Fo; reflexivity.
  - intros ts es k tes cs k' tss zs L F U H Hg Hc. exists (map YCall cs ++ [YTuple ts tes]).
    split; [cbn [trans1]; rewrite H; reflexivity|]. apply sg_app; [apply sg_calls; exact Hc|].
    apply sg_tuple; [|exact Hg]. rewrite L. clear - H. revert k tes cs k' H.
    induction es as [|e es IH]; intros k tes cs k' H; cbn [hoist_list] in H.
    + injection H as <- <- <-. reflexivity.
    + destruct (hoist ncomp k e) as [[? ?] n1]. destruct (hoist_list ncomp n1 es) as [[? ?] n2] eqn:E.
      injection H as <- <- <-. cbn. rewrite (IH _ _ _ _ E). reflexivity.
  - intros ts f t z y x k k1 k2 k3 k4 rt rz ry rx ct cz cy cx tt tz ty tx zt zz zy zx
      L Hn Ft Fz Fy Fx Et Ez Ey Ex Gt Gz Gy Gx Ct Cz Cy Cx.
    eexists. split; [cbn [trans1]; rewrite Et, Ez, Ey, Ex; reflexivity|].
    rewrite (app_assoc (zt ++ zz ++ zy ++ zx)). apply sg_app.
    + apply sg_calls. cbn [app]. rewrite <- !app_assoc. repeat (apply calls_app; [assumption|]).
      unfold calls_code. cbn [map gen_list gen1 gen_call]. rewrite Gt, Gz, Gy, Gx. reflexivity.
    + apply sg_tuple; [rewrite map_length, vtmps_len; exact L|].
      generalize (vtmps ncomp vdim k4 f). induction l; constructor; [reflexivity|assumption].
  - intros c b o k te cs k1 ts zc zb k2 zo k3 F H Hg Hc Hk Hs _ (lb & Tb & b' & Sb & Gb) _ (lo & To & o' & So & Go).
    exists [YIf te (map YCall cs ++ lb) lo]. split.
    + rewrite trans1_if, H. cbn [app]. rewrite (trans_stack b k1 lb k2 [] cs Hs Tb), To. reflexivity.
    + destruct (sg_calls cs zc Hc) as (q & Sq & Gq).
      exists [YIf te (q ++ b') o']. split.
      * cbn [split]. rewrite split1_if, (split_app _ _ _ _ Sq Sb), So. reflexivity.
      * cbn [gen_list]. rewrite gen1_if, Hg, (gen_list_app _ _ _ _ Gq Gb), Go, Hk, <- (calls_len cs zc Hc).
        rewrite firstn_app, Nat.sub_diag, firstn_all, skipn_app, Nat.sub_diag, skipn_all.
        cbn [firstn skipn app]. rewrite app_nil_r. reflexivity.
  - intros c b k te ts zb k2 F Nf H Hg _ (lb & Tb & b' & Sb & Gb).
    exists [YWhile te lb]. split.
    + rewrite trans1_while, H. cbn [app]. rewrite Tb. reflexivity.
    + exists [YWhile te b']. split; [cbn [split]; rewrite split1_while, Sb; reflexivity|].
      cbn [gen_list]. rewrite gen1_while, Hg, Gb. reflexivity.
  - intros k. eexists. split; [reflexivity|]. eexists. split; reflexivity.
  - intros k. eexists. split; [reflexivity|]. eexists. split; reflexivity.
  - intros r k. eexists. split; [reflexivity|]. eexists. split; reflexivity.
  - intros k. eexists. split; [reflexivity|]. eexists. split; reflexivity.
  - intros k. exists []. split; [reflexivity|apply sg_nil].
  - intros s r k z1 k1 z2 k2 _ (l1 & T1 & S1) _ (l2 & T2 & S2). exists (l1 ++ l2).
    split; [cbn [trans]; rewrite T1, T2; reflexivity|apply sg_app; assumption].
Qed.

Lemma code_compile body zs k : lcode body 0 zs k -> compile ncomp vdim body = Some (zs ++ [ZReturn SUCCESS]).
Proof.
  intros H. destruct (proj2 code_trans _ _ _ _ H) as (l & T & l' & S & G).
  unfold compile. rewrite T, S, G. reflexivity.
Qed.

(** * Statements that fit have such code *)

Lemma count_app a : forall b, count_tmps (a ++ b) = (count_tmps a + count_tmps b)%nat.
Proof.
  induction a as [|x a IH]; intros b; [reflexivity|]. cbn [app count_tmps].
  destruct x as [|[]| | | | |]; cbn; rewrite ?IH; reflexivity.
Qed.

(** The text of a test holds as many temporaries as there are samples. *)
Lemma count_calls e : forall n te cs n' ts, plainfields ncomp e = true -> hoist ncomp n e = (te, cs, n') ->
  gen te = Some ts -> count_tmps ts = length cs.
Proof.
  induction e as [k|b|l|k|f t IHt z IHz y IHy x IHx|o a IH|o a IHa b IHb|o a IHa b IHb|o a IHa b IHb
                 |f a IH|f a IHa b IHb]; intros n te cs n' ts F H G; cbn [hoist plainfields] in *;
    try (apply andb_true_iff in F as [Fa Fb]);
    repeat match type of H with
    | context [let '(_, _) := hoist ?nc ?k ?a in _] =>
        let E := fresh "E" in destruct (hoist nc k a) as [[? ?] ?] eqn:E
    end; injection H as <- <- <-; cbn [gen] in G.
  - injection G as <-. reflexivity.
  - injection G as <-. reflexivity.
  - injection G as <-. reflexivity.
  - injection G as <-. reflexivity.
  - apply negb_true_iff in Fb. apply orb_false_iff in Fb as [Fb F4]. apply orb_false_iff in Fb as [Fb F3].
    apply orb_false_iff in Fb as [F1 F2]. apply Nat.eqb_eq in Fa. rewrite Fa in *. injection G as <-.
    destruct (nofield_nil ncomp t _ _ _ _ F1 E) as [-> ->]. destruct (nofield_nil ncomp z _ _ _ _ F2 E0) as [-> ->].
    destruct (nofield_nil ncomp y _ _ _ _ F3 E1) as [-> ->]. destruct (nofield_nil ncomp x _ _ _ _ F4 E2) as [-> ->].
    reflexivity.
  - destruct (gen t) as [ta|] eqn:Ga; [|discriminate]. injection G as <-.
    rewrite <- (IH _ _ _ _ _ F E Ga). destruct o; cbn [uop_tok count_tmps]; rewrite count_app; cbn; lia.
  - destruct (gen t) as [ta|] eqn:Ga; [|discriminate]. destruct (gen t0) as [tb|] eqn:Gb; [|destruct o; discriminate].
    pose proof (IHa _ _ _ _ _ Fa E Ga) as C1. pose proof (IHb _ _ _ _ _ Fb E0 Gb) as C2. rewrite app_length.
    destruct o; try discriminate G; injection G as <-; cbn [count_tmps bop_tok]; rewrite ?count_app; cbn [count_tmps];
      rewrite ?count_app; cbn; lia.
  - destruct (gen t) as [ta|] eqn:Ga; [|discriminate]. destruct (gen t0) as [tb|] eqn:Gb; [|discriminate].
    pose proof (IHa _ _ _ _ _ Fa E Ga) as C1. pose proof (IHb _ _ _ _ _ Fb E0 Gb) as C2. rewrite app_length.
    injection G as <-. rewrite count_app. cbn. lia.
  - destruct (gen t) as [ta|] eqn:Ga; [|discriminate]. destruct (gen t0) as [tb|] eqn:Gb; [|discriminate].
    pose proof (IHa _ _ _ _ _ Fa E Ga) as C1. pose proof (IHb _ _ _ _ _ Fb E0 Gb) as C2. rewrite app_length.
    injection G as <-. rewrite count_app. cbn. lia.
  - destruct (gen t) as [ta|] eqn:Ga; [|discriminate]. injection G as <-.
    rewrite <- (IH _ _ _ _ _ F E Ga). cbn [count_tmps]. rewrite count_app. cbn. lia.
  - destruct (gen t) as [ta|] eqn:Ga; [|discriminate]. destruct (gen t0) as [tb|] eqn:Gb; [|discriminate].
    pose proof (IHa _ _ _ _ _ Fa E Ga) as C1. pose proof (IHb _ _ _ _ _ Fb E0 Gb) as C2. rewrite app_length.
    injection G as <-. cbn [count_tmps]. rewrite count_app. cbn [count_tmps]. rewrite count_app. cbn. lia.
Qed.

Lemma nofield_plain e : hasfield e = false -> plainfields ncomp e = true.
Proof.
  induction e; intros H; cbn [hasfield plainfields] in *; try reflexivity; try discriminate; auto;
    apply orb_false_iff in H as [H1 H2]; rewrite IHe1, IHe2; auto.
Qed.

Section Exists.
Variable libm : string -> list Q -> option Q.
Variable fsample : string -> Q -> Q -> Q -> Q -> sample.
Variable vfsample : string -> Q -> Q -> Q -> Q -> vsample.
Variable consts : leaf -> Q.
Hypothesis HS : samples_ok ncomp vdim fsample vfsample.

Lemma expr_code e k : efit e = true -> exists te cs k' ts zs,
  hoist ncomp k e = (te, cs, k') /\ gen te = Some ts /\ calls_code cs = Some zs.
Proof.
  intros F. apply andb_true_iff in F as [F _]. destruct (hoist ncomp k e) as [[te cs] k'] eqn:E.
  destruct (gen_ok ncomp aint libm fsample e k te cs k' F E) as (ts & t & G & _).
  destruct (run_calls ncomp vdim aint libm fsample vfsample consts HS e k te cs k' F E) as (zs & C & _).
  exists te, cs, k', ts, zs. auto.
Qed.

Lemma vfit_e e : vfit e = true -> efit e = true.
Proof. intros H. apply andb_true_iff in H as [H _]. exact H. Qed.

Lemma exprs_code es : forall k, forallb vfit es = true -> exists tes cs k' tss zs,
  hoist_list ncomp k es = (tes, cs, k') /\ Forall2 (fun te t => gen te = Some t) tes tss /\ calls_code cs = Some zs.
Proof.
  induction es as [|e es IH]; intros k F.
  - exists [], [], k, [], []. repeat split. constructor.
  - cbn [forallb] in F. apply andb_true_iff in F as [F1 F2].
    destruct (expr_code e k (vfit_e e F1)) as (te & cs & k1 & ts & zs & H & G & C).
    destruct (IH k1 F2) as (tes & cs2 & k2 & tss & zs2 & H2 & G2 & C2).
    exists (te :: tes), (cs ++ cs2), k2, (ts :: tss), (zs ++ zs2).
    split; [cbn [hoist_list]; rewrite H, H2; reflexivity|].
    split; [constructor; assumption|apply calls_app; assumption].
Qed.

Lemma list_code b : Forall (fun s => sfits ncomp vdim aint s = true -> forall k, exists zs k', scode s k zs k') b ->
  forallb (sfits ncomp vdim aint) b = true -> forall k, exists zs k', lcode b k zs k'.
Proof.
  induction 1 as [|s b H _ IH]; intros F k; [exists [], k; constructor|].
  cbn [forallb] in F. apply andb_true_iff in F as [F1 F2].
  destruct (H F1 k) as (z1 & k1 & C1). destruct (IH F2 k1) as (z2 & k2 & C2).
  exists (z1 ++ z2), k2. econstructor; eassumption.
Qed.

Lemma sfits_code s : sfits ncomp vdim aint s = true -> forall k, exists zs k', scode s k zs k'.
Proof.
  induction s as [t e|t o e|ts es|ts f t z y x|c b o IHb IHo|c b IHb| | |r|] using stmt_ind';
    intros F k; cbn [sfits] in F.
  - destruct (expr_code e k (vfit_e e F)) as (te & cs & k' & ts & zs & H & G & C).
    exists (zs ++ [ZAssign t ts]), k'. econstructor; eassumption.
  - apply andb_true_iff in F as [F Fo].
    destruct (expr_code e k (vfit_e e F)) as (te & cs & k' & ts & zs & H & G & C).
    exists (zs ++ [ZAug t o ts]), k'. econstructor; eassumption.
  - apply andb_true_iff in F as [F U]. apply andb_true_iff in F as [L F]. apply Nat.eqb_eq in L.
    destruct (exprs_code es k F) as (tes & cs & k' & tss & zs & H & G & C).
    exists (zs ++ assigns ts tss), k'. econstructor; eassumption.
  - apply andb_true_iff in F as [F Fx]. apply andb_true_iff in F as [F Fy]. apply andb_true_iff in F as [F Fz].
    apply andb_true_iff in F as [F Ft]. apply andb_true_iff in F as [L Hn].
    apply Nat.eqb_eq in L. apply Nat.leb_le in Hn.
    destruct (expr_code t k (vfit_e t Ft)) as (rt & ct & k1 & tt & zt & H1 & G1 & C1).
    destruct (expr_code z k1 (vfit_e z Fz)) as (rz & cz & k2 & tz & zz & H2 & G2 & C2).
    destruct (expr_code y k2 (vfit_e y Fy)) as (ry & cy & k3 & ty & zy & H3 & G3 & C3).
    destruct (expr_code x k3 (vfit_e x Fx)) as (rx & cx & k4 & tx & zx & H4 & G4 & C4).
    do 2 eexists. econstructor; eassumption.
  - apply andb_true_iff in F as [F Fs]. apply andb_true_iff in F as [F Fo]. apply andb_true_iff in F as [Fc Fb].
    destruct (expr_code c k Fc) as (te & cs & k1 & ts & zc & H & G & C).
    destruct (list_code b IHb Fb k1) as (zb & k2 & Cb). destruct (list_code o IHo Fo k2) as (zo & k3 & Co).
    exists [ZBlock [ZBlock zc; ZIf ts zb zo]], k3.
    apply orb_true_iff in Fs as [Nf | Fs].
    + apply negb_true_iff in Nf. apply (sc_if c b o k te cs k1 ts zc zb k2 zo k3); try assumption.
      * apply (count_calls c k te cs k1 ts (nofield_plain c Nf) H G).
      * left. destruct (nofield_nil ncomp c _ _ _ _ Nf H). assumption.
    + apply andb_true_iff in Fs as [Pf Fs]. apply (sc_if c b o k te cs k1 ts zc zb k2 zo k3); try assumption.
      * apply (count_calls c k te cs k1 ts Pf H G).
      * right. exact Fs.
  - apply andb_true_iff in F as [F Nf]. apply andb_true_iff in F as [Fc Fb]. apply negb_true_iff in Nf.
    destruct (expr_code c k Fc) as (te & cs & k1 & ts & zc & H & G & C).
    destruct (nofield_nil ncomp c _ _ _ _ Nf H) as [-> ->].
    destruct (list_code b IHb Fb k) as (zb & k2 & Cb).
    exists [ZDo zb ts], k2. apply (sc_while c b k te ts zb k2); assumption.
  - do 2 eexists. constructor.
  - do 2 eexists. constructor.
  - do 2 eexists. constructor.
  - do 2 eexists. constructor.
Qed.

Lemma body_code b : forallb (sfits ncomp vdim aint) b = true -> exists zs k, lcode b 0 zs k.
Proof.
  intros F. apply list_code; [|exact F]. clear F. induction b; constructor; [intros; apply sfits_code; assumption|assumption].
Qed.
End Exists.
End Code.
