From Coq Require Import List ZArith Bool Arith Lia.
From Verif Require Import IdxModel ChunkModel ChunkSpec ChunkProofs.
Import ListNotations.
Open Scope Z_scope.

Lemma bits_in : forall n b, In b (bits n) -> length b = n /\ Forall (fun x => x = 0 \/ x = 1) b.
Proof.
  induction n as [|n IH]; intros b H; cbn in H.
  - destruct H as [<-|[]]. split; [reflexivity|constructor].
  - apply in_app_or in H. destruct H as [H|H]; apply in_map_iff in H; destruct H as (b' & <- & B); destruct (IH b' B) as [L F]; (split; [cbn; congruence|constructor; auto]).
Qed.
Lemma bits_zero : forall n, In (repeat 0 n) (bits n).
Proof. induction n as [|n IH]; cbn; [left; reflexivity|]. apply in_or_app. left. apply in_map, IH. Qed.
Lemma zadd_zero : forall l, zadd l (repeat 0 (length l)) = l.
Proof. induction l as [|x l IH]; cbn; [reflexivity|]. rewrite IH. f_equal. lia. Qed.

(** The condition on one dimension. *)
Definition axis_ok (c : list Z) (i : Z) : Prop :=
  Forall (fun s => 0 < s) c /\ 0 <= i /\ ((i + 1 < zsum c /\ Forall (fun s => 2 <= s) (removelast c)) \/ (c = [1] /\ i = 0)).
Lemma cell_axis_ok : forall cs idx, cell_ok cs idx -> Forall2 axis_ok cs idx.
Proof.
  intros cs idx [F|F]; induction F as [|c i cs idx H F IH]; constructor; try exact IH.
  - destruct H as (P & I & U & R). split; [exact P|]. split; [exact I|]. left. split; assumption.
  - destruct H as (n & -> & I & [U|[-> ->]]).
    + split; [constructor; [lia|constructor]|]. split; [exact I|]. left. split; [cbn; lia|constructor].
    + split; [constructor; [lia|constructor]|]. split; [lia|]. right. split; reflexivity.
Qed.
Lemma axis_inside : forall c i, axis_ok c i -> inside c i.
Proof. intros c i (P & I & [[U _]|[-> ->]]); split; try assumption; cbn; lia. Qed.
Lemma corner_inside1 : forall c i x, axis_ok c i -> x = 0 \/ x = 1 -> inside c (if zsum c =? 1 then i else i + x).
Proof.
  intros c i x (P & I & [[U R]|[-> ->]]) X; split; try assumption.
  - destruct (Z.eqb_spec (zsum c) 1); lia.
  - cbn. lia.
Qed.
Lemma corner_inside : forall cs idx b, Forall2 axis_ok cs idx -> In b (bits (length idx)) -> Forall2 inside cs (corner cs idx b).
Proof.
  intros cs idx b F B. apply bits_in in B. destruct B as [L X]. revert b L X. induction F as [|c i cs idx H F IH]; intros [|x b] L X; cbn in L; try discriminate; cbn [corner]; constructor.
  - apply corner_inside1; [exact H|]. inversion X; assumption.
  - apply IH; [congruence|]. inversion X; assumption.
Qed.
Lemma corner_zero : forall cs idx, length cs = length idx -> corner cs idx (repeat 0 (length idx)) = idx.
Proof.
  induction cs as [|c cs IH]; intros [|i idx] L; cbn in L; try discriminate; [reflexivity|]. cbn [length repeat corner]. rewrite IH by congruence.
  f_equal. destruct (zsum c =? 1); lia.
Qed.
Lemma corner_split : forall cs idx b, split_ok cs idx -> corner cs idx b = zadd idx b.
Proof.
  intros cs idx b F. revert b. induction F as [|c i cs idx H F IH]; intros [|x b]; cbn [corner zadd]; try reflexivity.
  rewrite IH. destruct H as (_ & I & U & _). destruct (Z.eqb_spec (zsum c) 1); [lia|reflexivity].
Qed.

Lemma holds_axes : forall cs blk idx, holds cs blk idx -> exists axes, axes_of cs idx axes /\ map x_block axes = blk.
Proof.
  induction 1 as [|c cs b blk i idx l C H IH]; [exists []; split; [constructor|reflexivity]|].
  destruct IH as (axes & A & E). pose proof C as C0. destruct C0 as (s & _ & N & _). exists (mkAxis (zlen c) b l (Some s) :: axes).
  split; [constructor; assumption|]. cbn. congruence.
Qed.
Lemma axes_holds : forall cs idx axes, axes_of cs idx axes -> holds cs (map x_block axes) idx.
Proof. induction 1; cbn; econstructor; eassumption. Qed.
Lemma needed_iff : forall cs idx bid, needed cs idx bid <-> exists b axes, In b (bits (length idx)) /\ axes_of cs (corner cs idx b) axes /\ c_bid axes = bid.
Proof.
  intros cs idx bid. split.
  - intros (R & b & B & H). destruct (holds_axes _ _ _ H) as (axes & A & E). exists b, axes. split; [exact B|]. split; [exact A|].
    destruct (bid_ok _ _ _ A) as [R' UR]. apply (unravel_inj (shape cs)); [exact (axes_pos _ _ _ A)|exact R'|exact R|congruence].
  - intros (b & axes & B & A & <-). destruct (bid_ok _ _ _ A) as [R UR]. split; [exact R|]. exists b. split; [exact B|]. rewrite UR. apply axes_holds, A.
Qed.

(** ** One chunk *)
Lemma last_chunk : forall c j s, nth_error c j = Some s -> (S j = length c /\ zsum c = zsum (firstn j c) + s) \/ In s (removelast c).
Proof.
  induction c as [|x c IH]; intros j s H; [destruct j; discriminate|]. destruct j as [|j]; cbn in H.
  - injection H as ->. destruct c as [|y c]; [left; cbn; lia|right; left; reflexivity].
  - destruct (IH j s H) as [[L E]|I].
    + left. split; [cbn; lia|]. cbn [firstn]. unfold zsum in *. cbn [fold_right]. lia.
    + right. destruct c as [|y c]; [contradiction|]. right. exact I.
Qed.
Lemma chunk_shift : forall c i b l d x, axis_ok c i -> chunk_of c i b l -> nth_error c (Z.to_nat b) = Some d ->
  (l =? d - 1) && (1 <? d) = false -> x = 0 \/ x = 1 ->
  chunk_of c (if zsum c =? 1 then i else i + x) b (l + x * (if d =? 1 then 0 else 1)).
Proof.
  intros c i b l d x (P & I & K) (s & B & N & L & E) ND ST X. rewrite N in ND. injection ND as ->.
  destruct K as [[U R]|[-> ->]].
  - assert (D : 2 <= d).
    { destruct (last_chunk _ _ _ N) as [[_ Z]|IN]; [lia|]. rewrite Forall_forall in R. apply R, IN. }
    assert (l <> d - 1). { intros ->. rewrite Z.eqb_refl in ST. cbn in ST. apply Z.ltb_ge in ST. lia. }
    destruct (Z.eqb_spec (zsum c) 1); [lia|]. destruct (Z.eqb_spec d 1); [lia|].
    exists d. split; [exact B|]. split; [exact N|]. split; lia.
  - change (zsum [1]) with 1. cbn [Z.eqb Pos.eqb]. assert (Z.to_nat b = 0%nat) by (destruct (Z.to_nat b) as [|[|?]]; [reflexivity|discriminate N|discriminate N]).
    rewrite H in *. cbn in N. injection N as <-. cbn [Z.eqb Pos.eqb]. exists 1. split; [exact B|]. rewrite H. split; [reflexivity|]. lia.
Qed.
Lemma single_axes : forall cs idx axes b, Forall2 axis_ok cs idx -> axes_of cs idx axes ->
  straddles (block_dims cs (map x_block axes)) (map x_local axes) = false -> length b = length idx -> Forall (fun x => x = 0 \/ x = 1) b ->
  exists axes', axes_of cs (corner cs idx b) axes' /\ map x_block axes' = map x_block axes /\ map x_shape axes' = map x_shape axes /\
    map x_local axes' = shifted (block_dims cs (map x_block axes)) (map x_local axes) b.
Proof.
  intros cs idx axes b F A. revert b F. induction A as [|c cs i idx bl l d axes C N A IH]; intros [|x b] F ST L X; cbn in L; try discriminate.
  - exists []. repeat split. constructor.
  - inversion F as [|? ? ? ? AX F']; subst. inversion X as [|? ? X1 X2]; subst. cbn [map x_block x_local block_dims straddles] in ST.
    assert (ND : nth (Z.to_nat bl) c 0 = d) by (apply nth_error_nth; exact N). rewrite ND in ST. apply orb_false_elim in ST. destruct ST as [S1 S2].
    destruct (IH b F' S2 ltac:(congruence) X2) as (ax' & A' & E1 & E2 & E3).
    exists (mkAxis (zlen c) bl (l + x * (if d =? 1 then 0 else 1)) (Some d) :: ax'). split.
    + cbn [corner]. constructor; [apply chunk_shift; assumption|exact N|exact A'].
    + cbn [map x_block x_shape x_local block_dims shifted]. rewrite ND. split; [congruence|]. split; congruence.
Qed.
Lemma bid_ext : forall l l', map x_block l = map x_block l' -> map x_shape l = map x_shape l' -> c_bid l = c_bid l'.
Proof.
  intros l l' B S. unfold c_bid. generalize 0. revert l' B S. induction l as [|x l IH]; intros [|y l'] B S z; try discriminate; [reflexivity|].
  cbn in *. injection B as B1 B2. injection S as S1 S2. rewrite B1, S1. apply IH; assumption.
Qed.
Lemma straddles_unsplit : forall cs idx axes, unsplit_ok cs idx -> axes_of cs idx axes -> straddles (block_dims cs (map x_block axes)) (map x_local axes) = false.
Proof.
  intros cs idx axes F A. revert F. induction A as [|c cs i idx b l d axes C N A IH]; intros F; [reflexivity|].
  inversion F as [|? ? ? ? (n & -> & I & H) F']; subst. cbn [map x_block x_local block_dims straddles]. rewrite (IH F'), orb_false_r.
  destruct C as (s & B & NS & L & E). destruct (Z.to_nat b) as [|[|?]] eqn:EB; cbn in N, NS; try discriminate. injection N as ->. injection NS as ->. cbn in E. cbn [nth].
  destruct (Z.eqb_spec l (s - 1)); [|reflexivity]. destruct (Z.ltb_spec 1 s); [|reflexivity]. lia.
Qed.

Lemma todo_in : forall first n t b, In (t, b) (todo first n) -> In b (bits n) /\ (t = 0 \/ first = false /\ t = 1).
Proof.
  intros first n t b H. unfold todo in H. apply in_flat_map in H. destruct H as (t' & T & H). apply in_map_iff in H. destruct H as (b' & [= <- <-] & B).
  split; [exact B|]. destruct first; cbn in T; [destruct T as [<-|[]]; auto|destruct T as [<-|[<-|[]]]; auto].
Qed.
Lemma todo_all : forall first n b, In b (bits n) -> In (0, b) (todo first n).
Proof. intros first n b B. unfold todo. apply in_flat_map. exists 0. split; [destruct first; left; reflexivity|]. apply in_map, B. Qed.
Lemma todo_map : forall {V} (f : Z -> list Z -> V) first n, map (fun tb => f (fst tb) (snd tb)) (todo first n) = flat_map (fun t => map (f t) (bits n)) (tsteps first).
Proof.
  intros V f first n. unfold todo. induction (tsteps first) as [|t l IH]; [reflexivity|]. cbn [flat_map]. rewrite map_app, IH, map_map. reflexivity.
Qed.

Section values.
Context {V : Type}.
Implicit Types (a : array V) (mem : memory V).

Lemma single_ok : forall (val : Z * list Z -> V) mem bid dims locs ti flags l acc,
  (forall t b, In (t, b) l -> c_read mem bid (ti + t) dims (shifted dims locs b) = Some (val (t, b))) ->
  c_single mem bid dims locs ti l acc flags = Cell (acc ++ map val l) flags.
Proof.
  intros val mem bid dims locs ti flags. induction l as [|[t b] l IH]; intros acc H; cbn [c_single map].
  - rewrite app_nil_r. reflexivity.
  - rewrite (H t b (or_introl eq_refl)), IH by (intros t' b' X; apply H; right; exact X). rewrite <- app_assoc. reflexivity.
Qed.

Theorem getcell_right : forall cs tdim a mem flags idx ti first,
  zlen flags = npartitions cs -> memory_right cs tdim a flags mem -> cell_ok cs idx -> times_ok tdim ti first ->
  right_cell cs a flags idx ti first (c_getcell (chunk_info cs) mem flags idx ti first).
Proof.
  intros cs tdim a mem flags idx ti first LF M OK [T0 T1].
  pose proof (cell_axis_ok _ _ OK) as AX.
  assert (IN0 : Forall2 inside cs idx) by (clear - AX; induction AX; constructor; [apply axis_inside; assumption|assumption]).
  destruct (getblock_ok _ _ IN0) as (axes & G & A). destruct (bid_ok _ _ _ A) as [BR UR].
  assert (LEN : length cs = length idx) by (clear - AX; induction AX; cbn; congruence).
  assert (NB : needed cs idx (c_bid axes)).
  { apply needed_iff. exists (repeat 0 (length idx)), axes. split; [apply bits_zero|]. split; [rewrite corner_zero by exact LEN; exact A|reflexivity]. }
  assert (TT : forall t b, In (t, b) (todo first (length idx)) -> 0 <= ti + t < tdim).
  { intros t b X. destruct (todo_in _ _ _ _ X) as [_ [->|[-> ->]]]; [|lia]. destruct first; lia. }
  unfold c_getcell. rewrite G. destruct (loaded_dec flags (c_bid axes)) as [L|L].
  - rewrite (touch_loaded _ _ L). destruct (axes_block _ _ _ A) as (AD & _). rewrite AD.
    pose proof (memory_right_wr _ _ _ _ _ _ L M) as M'.
    assert (L' : loaded (wr flags (c_bid axes) 2) (c_bid axes)) by (apply (loaded_wr2 flags _ _ L), L).
    destruct (straddles (block_dims cs (map x_block axes)) (map x_local axes)) eqn:ST.
    + destruct OK as [OK|OK]; [|rewrite (straddles_unsplit _ _ _ OK A) in ST; discriminate].
      assert (NI : forall bid, needed cs idx bid <-> exists t b axes, In (t, b) (todo first (length idx)) /\ axes_of cs (zadd idx b) axes /\ c_bid axes = bid).
      { intros bid. rewrite needed_iff. split.
        - intros (b & ax & B & Ab & E). exists 0, b, ax. split; [apply todo_all, B|]. rewrite corner_split in Ab by exact OK. split; assumption.
        - intros (t & b & ax & B & Ab & E). exists b, ax. split; [apply (todo_in _ _ _ _ B)|]. rewrite corner_split by exact OK. split; assumption. }
      assert (LF' : zlen (wr flags (c_bid axes) 2) = npartitions cs) by (unfold zlen; rewrite wr_length; exact LF).
      pose proof (multi_ok cs tdim a mem idx ti (todo first (length idx)) [] (wr flags (c_bid axes) 2) LF' M') as H.
      assert (HH : forall t b, In (t, b) (todo first (length idx)) -> 0 <= ti + t < tdim /\ Forall2 inside cs (zadd idx b)).
      { intros t b X. split; [apply (TT t b X)|]. rewrite <- (corner_split cs idx b OK). apply corner_inside; [exact AX|]. apply (todo_in _ _ _ _ X). }
      specialize (H HH). destruct (c_multi (chunk_info cs) mem idx ti (todo first (length idx)) [] (wr flags (c_bid axes) 2)) as [fl|vals fl|]; [..|contradiction].
      * destruct H as (LL & bid & ND & NL & R1 & REST). cbn. split; [rewrite LL; apply wr_length|]. exists bid. split; [apply NI, ND|].
        split; [intros X; apply NL, (loaded_wr2 flags _ bid L), X|]. split; [exact R1|]. intros bid' f N R.
        destruct (Z.eq_dec bid' (c_bid axes)) as [->|N'].
        -- right. destruct L as (f0 & R0 & F0). assert (f = f0) by congruence. subst f0. split; [exact NB|]. split; [exact F0|].
           assert (RW : rd (wr flags (c_bid axes) 2) (c_bid axes) = Some 2) by (apply rd_wr_same, (rd_range _ _ _ _ R)).
           destruct (REST _ 2 N RW) as [Y|(_ & _ & Y)]; exact Y.
        -- assert (RW : rd (wr flags (c_bid axes) 2) bid' = Some f) by (rewrite rd_wr_other by congruence; exact R).
           destruct (REST bid' f N RW) as [Y|(ND' & F2 & Y)]; [left; exact Y|right]. split; [apply NI, ND'|]. split; assumption.
      * destruct H as (EV & LL & REST). cbn. split.
        -- rewrite EV. cbn [app]. unfold expected. rewrite (todo_map (fun t b => a (ti + t) (zadd idx b)) first (length idx)). apply flat_map_ext. intros t. apply map_ext. intros b. rewrite corner_split by exact OK. reflexivity.
        -- split; [rewrite LL; apply wr_length|]. intros bid f R. destruct (Z.eq_dec bid (c_bid axes)) as [->|N'].
           ++ assert (RW : rd (wr flags (c_bid axes) 2) (c_bid axes) = Some 2) by (apply rd_wr_same, (rd_range _ _ _ _ R)).
              destruct (REST _ 2 RW) as [Y _]. split; [|intros X; exfalso; apply X, NB]. intros _. destruct L as (f0 & R0 & F0). split; [congruence|apply Y, NI, NB].
           ++ assert (RW : rd (wr flags (c_bid axes) 2) bid = Some f) by (rewrite rd_wr_other by congruence; exact R).
              destruct (REST bid f RW) as [Y1 Y2]. split; [intros X; apply Y1, NI, X|]. intros X. apply Y2. intros Z. apply X, NI, Z.
    + assert (SA : forall b, In b (bits (length idx)) -> exists axes', axes_of cs (corner cs idx b) axes' /\ map x_block axes' = map x_block axes /\ c_bid axes' = c_bid axes /\
        map x_local axes' = shifted (block_dims cs (map x_block axes)) (map x_local axes) b).
      { intros b B. destruct (bits_in _ _ B) as [BL BX]. destruct (single_axes cs idx axes b AX A ST BL BX) as (ax' & A' & E1 & E2 & E3). exists ax'. split; [exact A'|]. split; [exact E1|]. split; [apply bid_ext; assumption|exact E3]. }
      rewrite (single_ok (fun tb => a (ti + fst tb) (corner cs idx (snd tb)))).
      * cbn [right_cell app]. split; [apply (todo_map (fun t b => a (ti + t) (corner cs idx b)))|]. split; [apply wr_length|].
        assert (NI : forall bid, needed cs idx bid -> bid = c_bid axes).
        { intros bid X. apply needed_iff in X. destruct X as (b & ax & B & Ab & <-). destruct (SA b B) as (ax' & A' & _ & E & _). rewrite <- E. f_equal.
          apply (axes_inj cs (corner cs idx b)); [apply corner_inside; assumption|assumption|assumption]. }
        intros bid f R. split.
        -- intros X. apply NI in X. subst bid. destruct L as (f0 & R0 & F0). split; [congruence|]. apply rd_wr_same, (rd_range _ _ _ _ R).
        -- intros X. rewrite rd_wr_other; [exact R|]. intros <-. apply X, NB.
      * intros t b X. destruct (todo_in _ _ _ _ X) as [B _]. destruct (SA b B) as (ax' & A' & E1 & E2 & E3). rewrite <- E3. rewrite <- E1, <- E2. cbn [fst snd].
        apply (read_ok cs tdim a (wr flags (c_bid axes) 2) mem (corner cs idx b) ax' (ti + t) M' A'); [rewrite E2; exact L'|apply (TT t b X)].
  - rewrite (touch_missing flags (c_bid axes)) by (rewrite ?LF; assumption). cbn. split; [apply wr_length|]. exists (c_bid axes). split; [exact NB|]. split; [exact L|].
    split; [apply rd_wr_same; rewrite LF; exact BR|]. intros bid' f N R. left. rewrite rd_wr_other by congruence. exact R.
Qed.
End values.
