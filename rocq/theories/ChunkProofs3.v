From Coq Require Import List ZArith Bool Arith Lia.
From Verif Require Import IdxModel ChunkModel ChunkSpec ChunkProofs ChunkProofs2.
Import ListNotations.
Open Scope Z_scope.

Lemma where_length : forall a b l, length (where_ a b l) = length l.
Proof. intros. apply map_length. Qed.
Lemma rd_map : forall A B (f : A -> B) l i, rd (map f l) i = match rd l i with Some a => Some (f a) | None => None end.
Proof. intros. unfold rd. destruct (i <? 0); [reflexivity|]. rewrite nth_error_map. destruct (nth_error l (Z.to_nat i)); reflexivity. Qed.
Lemma rd_where : forall a b l i, rd (where_ a b l) i = match rd l i with Some f => Some (if f =? a then b else f) | None => None end.
Proof. intros. apply rd_map. Qed.

Section values.
Context {V : Type}.
Implicit Types (a : array V) (mem : memory V) (g : grid V).

(** Reading a cell keeps what is loaded, whatever the arguments. *)
Definition kept (flags fl : list Z) : Prop :=
  length fl = length flags /\ forall bid f, rd flags bid = Some f ->
    exists f', rd fl bid = Some f' /\ ((2 <= f /\ (f' = f \/ f' = 2)) \/ (f < 2 /\ (f' = f \/ f' = 1))).
Lemma kept_refl : forall flags, kept flags flags.
Proof. intros flags. split; [reflexivity|]. intros bid f R. exists f. split; [exact R|]. destruct (Z_le_gt_dec 2 f); [left|right]; split; auto; lia. Qed.
Lemma kept_trans : forall x y z, kept x y -> kept y z -> kept x z.
Proof.
  intros x y z [L1 H1] [L2 H2]. split; [congruence|]. intros bid f R. destruct (H1 bid f R) as (f1 & R1 & C1). destruct (H2 bid f1 R1) as (f2 & R2 & C2).
  exists f2. split; [exact R2|]. destruct C1 as [[A B]|[A B]], C2 as [[C D]|[C D]]; [left|right|left|right]; split; try lia.
Qed.
Lemma touch_kept : forall flags bid b fl, c_touch flags bid = Some (b, fl) -> kept flags fl.
Proof.
  intros flags bid b fl H. unfold c_touch in H. destruct (rd flags bid) as [f|] eqn:R; [|discriminate]. pose proof (rd_range _ _ _ _ R) as RR.
  destruct (Z.ltb_spec f 2); injection H as <- <-; (split; [apply wr_length|]); intros bid' f' R';
    (destruct (Z.eq_dec bid bid') as [<-|N]; [rewrite rd_wr_same by exact RR|rewrite rd_wr_other by exact N]); eexists; (split; [first [reflexivity|exact R']|]);
    first [assert (f' = f) by congruence; subst f'|idtac]; try (right; split; [lia|right; reflexivity]); try (left; split; [lia|right; reflexivity]);
    (destruct (Z_le_gt_dec 2 f'); [left|right]; split; [lia|left; reflexivity| lia|left; reflexivity]).
Qed.
Definition res_flags (flags : list Z) (r : cellres V) : list Z := match r with Repeat f => f | Cell _ f => f | CellBad => flags end.
Lemma multi_kept : forall info mem idx ti l acc flags, kept flags (res_flags flags (c_multi info mem idx ti l acc flags)).
Proof.
  intros info mem idx ti. induction l as [|[t b] l IH]; intros acc flags; cbn [c_multi]; [apply kept_refl|].
  destruct (c_getblock info (zadd idx b)) as [axes|]; [|apply kept_refl].
  destruct (c_touch flags (c_bid axes)) as [[[|] fl]|] eqn:T; [..|apply kept_refl]; pose proof (touch_kept _ _ _ _ T) as K; [|exact K].
  destruct (all_dims axes) as [dims|]; [|apply kept_refl]. destruct (c_read mem (c_bid axes) (ti + t) dims (map x_local axes)) as [v|]; [|apply kept_refl].
  specialize (IH (acc ++ [v]) fl). destruct (c_multi info mem idx ti l (acc ++ [v]) fl); cbn in *; try (eapply kept_trans; eassumption). apply kept_refl.
Qed.
Lemma single_kept : forall mem bid dims locs ti l acc flags, kept flags (res_flags flags (c_single mem bid dims locs ti l acc flags)).
Proof.
  intros mem bid dims locs ti. induction l as [|[t b] l IH]; intros acc flags; cbn [c_single]; [apply kept_refl|].
  destruct (c_read mem bid (ti + t) dims (shifted dims locs b)); [apply IH|apply kept_refl].
Qed.
Lemma getcell_kept : forall info mem flags idx ti first, kept flags (res_flags flags (c_getcell info mem flags idx ti first)).
Proof.
  intros info mem flags idx ti first. unfold c_getcell. destruct (c_getblock info idx) as [axes|]; [|apply kept_refl].
  destruct (c_touch flags (c_bid axes)) as [[[|] fl]|] eqn:T; [..|apply kept_refl]; pose proof (touch_kept _ _ _ _ T) as K; [|exact K].
  destruct (all_dims axes) as [dims|]; [|apply kept_refl]. destruct (straddles dims (map x_local axes)).
  - pose proof (multi_kept info mem idx ti (todo first (length idx)) [] fl) as H. destruct (c_multi info mem idx ti (todo first (length idx)) [] fl); cbn in *; try (eapply kept_trans; eassumption). apply kept_refl.
  - pose proof (single_kept mem (c_bid axes) dims (map x_local axes) ti (todo first (length idx)) [] fl) as H. destruct (c_single mem (c_bid axes) dims (map x_local axes) ti (todo first (length idx)) [] fl); cbn in *; try (eapply kept_trans; eassumption). apply kept_refl.
Qed.

(** ** Invariant *)
Definition flag_ok (f : Z) : Prop := f = 0 \/ f = 1 \/ f = 2 \/ f = 3.
Definition mem_valid (cs : chunks) (tdim : Z) (a : array V) (flags : list Z) (mem : memory V) : Prop :=
  forall bid f d, rd flags bid = Some f -> 2 <= f -> rd mem bid = Some (Some d) -> d = block_values cs tdim a bid.
Record ginv (cs : chunks) (tdim : Z) (nf : nat) (g : grid V) : Prop := {
  i_len : length (g_flags g) = Z.to_nat (npartitions cs);
  i_flag : Forall flag_ok (g_flags g);
  i_dask : forall n, (n < nf)%nat -> g_dask g n = true;
  i_mlen : forall n, length (g_mem g n) = Z.to_nat (npartitions cs);
  i_valid : forall n, (n < nf)%nat -> mem_valid cs tdim (g_data g n) (g_flags g) (g_mem g n);
  i_used : forall used n, g_used g = Some used -> used n = true -> (n < nf)%nat ->
    forall bid, loaded (g_flags g) bid -> exists d, rd (g_mem g n) bid = Some (Some d)
}.

Lemma flag_rd : forall l i f, Forall flag_ok l -> rd l i = Some f -> flag_ok f.
Proof. intros l i f F R. unfold rd in R. destruct (i <? 0); [discriminate|]. rewrite Forall_forall in F. apply F, (nth_error_In _ _ R). Qed.
Lemma Forall_where : forall x b l, flag_ok b -> Forall flag_ok l -> Forall flag_ok (where_ x b l).
Proof. intros x b l B F. unfold where_. rewrite Forall_map. eapply Forall_impl; [|exact F]. intros f H. cbn. destruct (f =? x); assumption. Qed.

Lemma initial_inv : forall cs tdim nf data, ginv cs tdim nf (initial cs data).
Proof.
  intros cs tdim nf data. unfold initial. constructor; cbn.
  - apply repeat_length.
  - rewrite Forall_forall. intros f F. apply repeat_spec in F. left. exact F.
  - reflexivity.
  - intros _. apply repeat_length.
  - intros n _ bid f d R F _. exfalso. unfold rd in R. destruct (bid <? 0); [discriminate|]. apply nth_error_In, repeat_spec in R. lia.
  - discriminate.
Qed.

Lemma load_blocks_length : forall cs tdim a flags mem bid, length flags = length mem -> length (load_blocks cs tdim a bid flags mem) = length mem.
Proof. intros cs tdim a. induction flags as [|f flags IH]; intros [|m mem] bid L; cbn in *; try discriminate; [reflexivity|]. f_equal. apply IH. congruence. Qed.
Lemma load_blocks_rd : forall cs tdim a flags mem bid i f m, rd flags i = Some f -> rd mem i = Some m ->
  rd (load_blocks cs tdim a bid flags mem) i = Some (load_block cs tdim a (bid + i) f m).
Proof.
  intros cs tdim a. induction flags as [|f0 flags IH]; intros mem bid i f m RF RM.
  - pose proof (rd_range _ _ _ _ RF). unfold zlen in H. cbn in H. lia.
  - destruct mem as [|m0 mem]; [pose proof (rd_range _ _ _ _ RM) as H; unfold zlen in H; cbn in H; lia|]. cbn [load_blocks].
    pose proof (rd_range _ _ _ _ RF) as R. destruct (Z.eq_dec i 0) as [->|N].
    + rewrite rd_cons_0 in *. injection RF as ->. injection RM as ->. rewrite Z.add_0_r. reflexivity.
    + rewrite rd_cons_S in * by lia. rewrite (IH mem (bid + 1) (i - 1) f m RF RM). f_equal. f_equal. lia.
Qed.

(** The loop of a launch over the fields. *)
Record linv (cs : chunks) (tdim : Z) (nf done : nat) (used : nat -> bool) (g0 g : grid V) : Prop := {
  l_flags : g_flags g = g_flags g0; l_data : g_data g = g_data g0; l_dask : g_dask g = g_dask g0;
  l_mlen : forall n, length (g_mem g n) = Z.to_nat (npartitions cs);
  l_valid : forall n bid f d, (n < nf)%nat -> rd (g_flags g) bid = Some f -> 1 <= f -> rd (g_mem g n) bid = Some (Some d) ->
      ((n < done)%nat \/ 2 <= f) -> d = block_values cs tdim (g_data g n) bid;
  l_used : forall n, used n = true -> (n < done)%nat -> forall bid f, rd (g_flags g) bid = Some f -> 1 <= f -> exists d, rd (g_mem g n) bid = Some (Some d)
}.

Lemma launch_loop : forall cs tdim nf used g0 k, ginv cs tdim nf g0 -> (k <= nf)%nat ->
  linv cs tdim nf k used g0 (fold_left (fun g n => if used n then chunk_data cs tdim g n else drop_data g n) (seq 0 k) g0).
Proof.
  intros cs tdim nf used g0 k I. induction k as [|k IH]; intros K.
  - cbn. constructor; try reflexivity.
    + apply I.
    + intros n bid f d NN R F M [H|H]; [lia|]. exact (i_valid _ _ _ _ I n NN bid f d R H M).
    + intros n _ H. lia.
  - rewrite seq_S, fold_left_app. cbn [fold_left plus]. specialize (IH ltac:(lia)).
    set (g := fold_left (fun g n => if used n then chunk_data cs tdim g n else drop_data g n) (seq 0 k) g0) in *. clearbody g.
    destruct IH as [LF LD LK LM LV LU].
    assert (LEN : forall n, length (g_flags g) = length (g_mem g n)) by (intros n; rewrite LF, LM; apply I).
    assert (FO : Forall flag_ok (g_flags g)) by (rewrite LF; apply I).
    destruct (used k) eqn:U.
    + unfold chunk_data. rewrite LK, (i_dask _ _ _ _ I k) by lia. constructor; cbn; try assumption; try congruence.
      * intros n. unfold upd. destruct (Nat.eqb_spec n k) as [->|N]; [|apply LM]. rewrite load_blocks_length by apply LEN. apply LM.
      * intros n bid f d NN R F M H. unfold upd in M. destruct (Nat.eqb_spec n k) as [->|N].
        -- destruct (rd_some _ (g_mem g k) bid) as [m Rm]; [pose proof (rd_range _ _ _ _ R) as RR; unfold zlen in *; rewrite <- LEN; exact RR|].
           rewrite (load_blocks_rd _ _ _ _ _ 0 bid f m R Rm) in M. cbn [Z.add] in M. unfold load_block in M.
           destruct (Z.eqb_spec f 1) as [->|N1]; [injection M as <-; reflexivity|].
           pose proof (flag_rd _ _ _ FO R) as [X|[X|[X|X]]]; [lia|lia|..]; subst f; cbn in M;
             (destruct m as [d'|]; injection M as <-; [|reflexivity]; apply (LV k bid _ d' NN R); [lia|exact Rm|right; lia]).
        -- apply (LV n bid f d NN R F M). destruct H as [H|H]; [left; lia|right; exact H].
      * intros n UN H bid f R F. unfold upd. destruct (Nat.eqb_spec n k) as [->|N].
        -- destruct (rd_some _ (g_mem g k) bid) as [m Rm]; [pose proof (rd_range _ _ _ _ R) as RR; unfold zlen in *; rewrite <- LEN; exact RR|].
           rewrite (load_blocks_rd _ _ _ _ _ 0 bid f m R Rm). unfold load_block.
           pose proof (flag_rd _ _ _ FO R) as [X|[X|[X|X]]]; subst f; [lia|..]; cbn; [eexists; reflexivity|..]; destruct m; eexists; reflexivity.
        -- apply (LU n UN) with (f := f); [lia|exact R|exact F].
    + unfold drop_data. constructor; cbn; try assumption.
      * intros n. unfold upd. destruct (Nat.eqb_spec n k) as [->|N]; [rewrite map_length|]; apply LM.
      * intros n bid f d NN R F M H. unfold upd in M. destruct (Nat.eqb_spec n k) as [->|N].
        -- rewrite rd_map in M. destruct (rd (g_mem g k) bid); discriminate.
        -- apply (LV n bid f d NN R F M). destruct H as [H|H]; [left; lia|right; exact H].
      * intros n UN H bid f R F. unfold upd. destruct (Nat.eqb_spec n k) as [->|N]; [congruence|]. apply (LU n UN) with (f := f); [lia|exact R|exact F].
Qed.

Lemma step_inv : forall cs tdim nf g e g' r, e <> Python -> ginv cs tdim nf g -> step cs tdim nf g e = Some (g', r) -> ginv cs tdim nf g'.
Proof.
  intros cs tdim nf g e g' r NP I H. destruct e as [data| |used|n idx ti first|]; cbn [step] in H; [..|contradiction].
  - injection H as <- <-. constructor; cbn.
    + rewrite !where_length. apply I.
    + apply Forall_where; [left; reflexivity|]. apply Forall_where; [right; left; reflexivity|]. apply I.
    + apply I.
    + apply I.
    + intros n _ bid f d R F M. exfalso. rewrite !rd_where in R. destruct (rd (g_flags g) bid) as [f0|] eqn:R0; [|discriminate].
      injection R as R. pose proof (flag_rd _ _ _ (i_flag _ _ _ _ I) R0) as [X|[X|[X|X]]]; subst f0; cbn in R; lia.
    + discriminate.
  - injection H as <- <-. constructor; cbn.
    + rewrite where_length. apply I.
    + apply Forall_where; [right; right; right; reflexivity|]. apply I.
    + apply I.
    + apply I.
    + intros n NN bid f d R F M. rewrite rd_where in R. destruct (rd (g_flags g) bid) as [f0|] eqn:R0; [|discriminate]. injection R as R.
      apply (i_valid _ _ _ _ I n NN bid f0 d R0); [|exact M]. destruct (Z.eqb_spec f0 2); lia.
    + discriminate.
  - injection H as <- <-. unfold launch. pose proof (launch_loop cs tdim nf used g nf I (Nat.le_refl _)) as L.
    set (g1 := fold_left (fun g n => if used n then chunk_data cs tdim g n else drop_data g n) (seq 0 nf) g) in *. clearbody g1.
    destruct L as [LF LD LK LM LV LU]. assert (FO : Forall flag_ok (g_flags g1)) by (rewrite LF; apply I).
    constructor; cbn.
    + rewrite where_length, LF. apply I.
    + apply Forall_where; [right; right; left; reflexivity|exact FO].
    + rewrite LK. apply I.
    + exact LM.
    + intros n NN bid f d R F M. rewrite rd_where in R. destruct (rd (g_flags g1) bid) as [f0|] eqn:R0; [|discriminate]. injection R as R.
      apply (LV n bid f0 d NN R0); [|exact M|left; exact NN]. destruct (Z.eqb_spec f0 1); lia.
    + intros u n [= <-] U N bid (f & R & F). rewrite rd_where in R. destruct (rd (g_flags g1) bid) as [f0|] eqn:R0; [|discriminate]. injection R as R.
      apply (LU n U N bid f0 R0). destruct (Z.eqb_spec f0 1); lia.
  - destruct (g_used g) as [used|] eqn:GU; [|discriminate]. destruct (used n && (n <? nf)%nat) eqn:UN; [|discriminate]. injection H as <- <-.
    pose proof (getcell_kept (chunk_info cs) (g_mem g n) (g_flags g) idx ti first) as K. unfold res_flags in K.
    set (fl := match c_getcell (chunk_info cs) (g_mem g n) (g_flags g) idx ti first with Repeat f => f | Cell _ f => f | CellBad => g_flags g end) in *.
    destruct K as [KL KF].
    assert (BACK : forall bid f, rd fl bid = Some f -> exists f0, rd (g_flags g) bid = Some f0 /\ ((2 <= f0 /\ (f = f0 \/ f = 2)) \/ (f0 < 2 /\ (f = f0 \/ f = 1)))).
    { intros bid f R. destruct (rd_some _ (g_flags g) bid) as [f0 R0]; [pose proof (rd_range _ _ _ _ R) as X; unfold zlen in *; rewrite <- KL; exact X|].
      destruct (KF bid f0 R0) as (f' & R' & C). exists f0. split; [exact R0|]. assert (f' = f) by congruence. subst f'. exact C. }
    constructor; cbn.
    + fold fl. rewrite KL. apply I.
    + fold fl. rewrite Forall_forall. intros f F. apply In_nth_error in F. destruct F as (k & F).
      assert (R : rd fl (Z.of_nat k) = Some f) by (unfold rd; destruct (Z.ltb_spec (Z.of_nat k) 0); [lia|]; rewrite Nat2Z.id; exact F).
      destruct (BACK _ _ R) as (f0 & R0 & C). pose proof (flag_rd _ _ _ (i_flag _ _ _ _ I) R0) as FO. unfold flag_ok in *. lia.
    + apply I.
    + apply I.
    + fold fl. intros m NN bid f d R F M. destruct (BACK _ _ R) as (f0 & R0 & C). apply (i_valid _ _ _ _ I m NN bid f0 d R0); [lia|exact M].
    + fold fl. intros u m U UM N bid (f & R & F). destruct (BACK _ _ R) as (f0 & R0 & C). apply (i_used _ _ _ _ I u m (eq_trans GU U) UM N). exists f0. split; [exact R0|lia].
Qed.

Lemma run_inv : forall cs tdim nf es g g', no_python es -> ginv cs tdim nf g -> run cs tdim nf g es = Some g' -> ginv cs tdim nf g' /\ g_data g' = latest (g_data g) es.
Proof.
  intros cs tdim nf. induction es as [|e es IH]; intros g g' NP I R; cbn [run] in R.
  - injection R as <-. split; [exact I|reflexivity].
  - destruct (step cs tdim nf g e) as [[g1 r]|] eqn:ST; [|discriminate].
    assert (NE : e <> Python) by (intros ->; apply NP; left; reflexivity).
    destruct (IH g1 g' (fun X => NP (or_intror X)) (step_inv _ _ _ _ _ _ _ NE I ST) R) as [I' D]. split; [exact I'|]. rewrite D.
    destruct e as [data| |used|n idx ti first|]; cbn [step] in ST; [..|contradiction]; cbn [latest].
    + injection ST as <- <-. reflexivity.
    + injection ST as <- <-. reflexivity.
    + injection ST as <- <-. cbn. rewrite (l_data _ _ _ _ _ _ _ (launch_loop cs tdim nf used g nf I (Nat.le_refl _))). reflexivity.
    + destruct (g_used g) as [used|]; [|discriminate]. destruct (used n && (n <? nf)%nat); [|discriminate]. injection ST as <- <-. reflexivity.
Qed.
Lemma inv_memory : forall cs tdim nf g used n, ginv cs tdim nf g -> g_used g = Some used -> used n = true -> (n < nf)%nat ->
  memory_right cs tdim (g_data g n) (g_flags g) (g_mem g n).
Proof.
  intros cs tdim nf g used n I U UN N bid R L. destruct (i_used _ _ _ _ I used n U UN N bid L) as [d M]. rewrite M. do 2 f_equal.
  destruct L as (f & RF & F). exact (i_valid _ _ _ _ I n N bid f d RF F M).
Qed.
Lemma inv_len : forall cs tdim nf g, ginv cs tdim nf g -> 0 <= npartitions cs -> zlen (g_flags g) = npartitions cs.
Proof. intros cs tdim nf g I P. unfold zlen. rewrite (i_len _ _ _ _ I). lia. Qed.
Lemma cell_partitions : forall cs idx, cell_ok cs idx -> 0 <= npartitions cs.
Proof.
  intros cs idx OK. pose proof (cell_axis_ok _ _ OK) as AX. assert (IN0 : Forall2 inside cs idx) by (clear - AX; induction AX; constructor; [apply axis_inside; assumption|assumption]).
  destruct (getblock_ok _ _ IN0) as (axes & _ & A). destruct (bid_ok _ _ _ A). lia.
Qed.

Theorem sample_right : forall cs tdim nf data es g n idx ti first g' r,
  run cs tdim nf (initial cs data) es = Some g -> no_python es -> step cs tdim nf g (Sample n idx ti first) = Some (g', Some r) ->
  cell_ok cs idx -> times_ok tdim ti first ->
  right_cell cs (latest data es n) (g_flags g) idx ti first r.
Proof.
  intros cs tdim nf data es g n idx ti first g' r R NP ST OK T.
  destruct (run_inv _ _ _ _ _ _ NP (initial_inv cs tdim nf data) R) as [I D]. cbn [step] in ST.
  destruct (g_used g) as [used|] eqn:U; [|discriminate]. destruct (used n && (n <? nf)%nat) eqn:UN; [|discriminate]. injection ST as _ <-.
  apply andb_prop in UN. destruct UN as [UN N]. apply Nat.ltb_lt in N.
  change (latest data es) with (latest (g_data (initial cs data)) es). rewrite <- D.
  apply (getcell_right cs tdim); [apply (inv_len _ _ _ _ I), (cell_partitions _ _ OK)|apply (inv_memory cs tdim nf g used n I U UN N)|exact OK|exact T].
Qed.

(** ** Progress *)
Definition bid_of (cs : chunks) (idx b : list Z) : Z := match c_getblock (chunk_info cs) (corner cs idx b) with Some ax => c_bid ax | None => -1 end.
Definition missing (cs : chunks) (idx : list Z) (flags : list Z) : nat :=
  length (filter (fun b => match rd flags (bid_of cs idx b) with Some f => f <? 2 | None => true end) (bits (length idx))).
Lemma filter_le : forall A (p q : A -> bool) l, (forall x, In x l -> q x = true -> p x = true) -> (length (filter q l) <= length (filter p l))%nat.
Proof.
  induction l as [|x l IH]; intros H; [reflexivity|]. cbn. assert (IHl := IH (fun y Y => H y (or_intror Y))). specialize (H x (or_introl eq_refl)).
  destruct (q x), (p x); cbn; try (specialize (H eq_refl); discriminate); lia.
Qed.
Lemma filter_lt : forall A (p q : A -> bool) l x, (forall y, In y l -> q y = true -> p y = true) -> In x l -> p x = true -> q x = false -> (length (filter q l) < length (filter p l))%nat.
Proof.
  induction l as [|y l IH]; intros x H I P Q; [contradiction|]. cbn. pose proof (filter_le _ p q l (fun z Z => H z (or_intror Z))) as LE.
  destruct I as [->|I].
  - rewrite P, Q. cbn. lia.
  - specialize (IH x (fun z Z => H z (or_intror Z)) I P Q). specialize (H y (or_introl eq_refl)). destruct (q y), (p y); cbn; try (specialize (H eq_refl); discriminate); lia.
Qed.
Lemma rounds_ok : forall cs tdim nf used n idx ti first k g, ginv cs tdim nf g -> g_used g = Some used -> used n = true -> (n < nf)%nat ->
  cell_ok cs idx -> times_ok tdim ti first -> (missing cs idx (g_flags g) <= k)%nat ->
  rounds cs tdim nf k used g n idx ti first = Some (flat_map (fun t => map (fun b => g_data g n (ti + t) (corner cs idx b)) (bits (length idx))) (tsteps first)).
Proof.
  intros cs tdim nf used n idx ti first. induction k as [k IH] using lt_wf_ind. intros g I U UN N OK T MS.
  pose proof (cell_partitions _ _ OK) as NPOS.
  pose proof (getcell_right cs tdim (g_data g n) (g_mem g n) (g_flags g) idx ti first (inv_len _ _ _ _ I NPOS) (inv_memory cs tdim nf g used n I U UN N) OK T) as RC.
  assert (ST : step cs tdim nf g (Sample n idx ti first) = Some (mkGrid (res_flags (g_flags g) (c_getcell (chunk_info cs) (g_mem g n) (g_flags g) idx ti first)) (g_data g) (g_dask g) (g_mem g) (g_used g),
     Some (c_getcell (chunk_info cs) (g_mem g n) (g_flags g) idx ti first))).
  { cbn [step]. rewrite U, UN. apply Nat.ltb_lt in N. rewrite N. reflexivity. }
  pose proof (getcell_kept (chunk_info cs) (g_mem g n) (g_flags g) idx ti first) as K.
  pose proof (step_inv cs tdim nf g (Sample n idx ti first) _ _ ltac:(discriminate) I ST) as I1.
  destruct (c_getcell (chunk_info cs) (g_mem g n) (g_flags g) idx ti first) as [fl|vals fl|] eqn:GC; [| |contradiction].
  - cbn [res_flags] in *. destruct RC as (LL & bid & ND & NL & R1 & REST).
    set (g1 := mkGrid fl (g_data g) (g_dask g) (g_mem g) (g_used g)) in *.
    pose proof (step_inv cs tdim nf g1 (Launch used) _ _ ltac:(discriminate) I1 eq_refl) as I2.
    pose proof (launch_loop cs tdim nf used g1 nf I1 (Nat.le_refl _)) as LLP.
    assert (FL2 : g_flags (launch cs tdim nf used g1) = where_ 1 2 fl) by (unfold launch; cbn; rewrite (l_flags _ _ _ _ _ _ _ LLP); reflexivity).
    assert (DL2 : g_data (launch cs tdim nf used g1) = g_data g) by (unfold launch; cbn; rewrite (l_data _ _ _ _ _ _ _ LLP); reflexivity).
    assert (DEC : (missing cs idx (where_ 1 2 fl) < missing cs idx (g_flags g))%nat).
    { apply needed_iff in ND. destruct ND as (b & axes & B & A & EB).
      assert (BO : bid_of cs idx b = bid).
      { unfold bid_of. pose proof (corner_inside cs idx b (cell_axis_ok _ _ OK) B) as CI. destruct (getblock_ok _ _ CI) as (ax & -> & A2). rewrite (axes_inj _ _ _ _ CI A2 A). exact EB. }
      unfold missing. apply (filter_lt _ _ _ _ b).
      - intros b' B' H. rewrite rd_where in H. destruct (rd (g_flags g) (bid_of cs idx b')) as [f0|] eqn:R0; [|reflexivity].
        destruct K as [_ KF]. destruct (KF _ _ R0) as (f' & R' & C). rewrite R' in H. apply Z.ltb_lt in H. apply Z.ltb_lt.
        destruct (Z.eqb_spec f' 1); lia.
      - exact B.
      - rewrite BO. destruct (rd (g_flags g) bid) as [f0|] eqn:R0; [|reflexivity]. apply Z.ltb_lt. destruct (Z_lt_ge_dec f0 2); [assumption|]. exfalso. apply NL. exists f0. split; [exact R0|lia].
      - rewrite BO, rd_where, R1. reflexivity. }
    destruct k as [|k]; [lia|]. cbn [rounds]. rewrite ST. cbn [step]. rewrite <- DL2.
    apply (IH k (Nat.lt_succ_diag_r k)); try assumption; [reflexivity|]. rewrite FL2. lia.
  - destruct RC as (EV & _). destruct k; cbn [rounds]; rewrite ST, EV; reflexivity.
Qed.
Lemma filter_length : forall A (p : A -> bool) l, (length (filter p l) <= length l)%nat.
Proof. induction l as [|x l IH]; cbn; [lia|]. destruct (p x); cbn; lia. Qed.
Lemma bits_length : forall n, length (bits n) = (2 ^ n)%nat.
Proof. induction n as [|n IH]; [reflexivity|]. cbn [bits]. rewrite app_length, !map_length, IH. cbn. lia. Qed.
Theorem rounds_right : forall cs tdim nf data es g used n idx ti first,
  run cs tdim nf (initial cs data) es = Some g -> no_python es -> g_used g = Some used -> used n = true -> (n < nf)%nat ->
  cell_ok cs idx -> times_ok tdim ti first ->
  rounds cs tdim nf (2 ^ length idx) used g n idx ti first =
    Some (flat_map (fun t => map (fun b => latest data es n (ti + t) (corner cs idx b)) (bits (length idx))) (tsteps first)).
Proof.
  intros cs tdim nf data es g used n idx ti first R NP U UN N OK T.
  destruct (run_inv _ _ _ _ _ _ NP (initial_inv cs tdim nf data) R) as [I D].
  change (latest data es) with (latest (g_data (initial cs data)) es). rewrite <- D.
  apply rounds_ok; try assumption. unfold missing. eapply Nat.le_trans; [apply filter_length|]. rewrite bits_length. lia.
Qed.
End values.
