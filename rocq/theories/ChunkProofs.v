From Coq Require Import List ZArith Bool Arith Lia.
From Verif Require Import IdxModel ChunkModel ChunkSpec.
Import ListNotations.
Open Scope Z_scope.

(** ** Lists *)
Lemma zlen_app : forall A (l m : list A), zlen (l ++ m) = zlen l + zlen m.
Proof. intros. unfold zlen. rewrite app_length. lia. Qed.
Lemma zlen_cons' : forall A (a : A) l, zlen (a :: l) = zlen l + 1.
Proof. intros. unfold zlen. cbn [length]. lia. Qed.
Lemma zlen_pos : forall A (l : list A), 0 <= zlen l.
Proof. intros. unfold zlen. lia. Qed.
Lemma rd_range : forall A (l : list A) i a, rd l i = Some a -> 0 <= i < zlen l.
Proof.
  intros A l i a H. unfold rd in H. destruct (i <? 0) eqn:E; [discriminate|]. apply Z.ltb_ge in E.
  assert (X : (Z.to_nat i < length l)%nat) by (apply nth_error_Some; congruence). unfold zlen. lia.
Qed.
Lemma rd_some : forall A (l : list A) i, 0 <= i < zlen l -> exists a, rd l i = Some a.
Proof.
  intros A l i H. unfold rd. destruct (i <? 0) eqn:E; [apply Z.ltb_lt in E; lia|].
  destruct (nth_error l (Z.to_nat i)) eqn:N; [eexists; reflexivity|]. apply nth_error_None in N. unfold zlen in H. lia.
Qed.
Lemma rd_app_r : forall A (l m : list A) i, zlen l <= i -> rd (l ++ m) i = rd m (i - zlen l).
Proof.
  intros A l m i H. unfold rd. pose proof (zlen_pos _ l). destruct (i <? 0) eqn:E; [apply Z.ltb_lt in E; lia|].
  destruct (i - zlen l <? 0) eqn:F; [apply Z.ltb_lt in F; lia|]. unfold zlen in *. rewrite nth_error_app2 by lia. f_equal. lia.
Qed.
Lemma rd_app_l : forall A (l m : list A) i, i < zlen l -> rd (l ++ m) i = rd l i.
Proof. intros A l m i H. unfold rd. destruct (i <? 0) eqn:E; [reflexivity|]. apply Z.ltb_ge in E. unfold zlen in *. rewrite nth_error_app1 by lia. reflexivity. Qed.
Lemma rd_cons_0 : forall A (a : A) l, rd (a :: l) 0 = Some a.
Proof. reflexivity. Qed.
Lemma rd_cons_S : forall A (a : A) l i, 0 < i -> rd (a :: l) i = rd l (i - 1).
Proof.
  intros A a l i H. change (a :: l) with ([a] ++ l). rewrite rd_app_r by (cbn; lia). reflexivity.
Qed.
Lemma wr_length : forall A (l : list A) i a, length (wr l i a) = length l.
Proof.
  intros A l i a. unfold wr. destruct (i <? 0); [reflexivity|]. rewrite app_length, firstn_length.
  pose proof (skipn_length (Z.to_nat i) l). destruct (skipn (Z.to_nat i) l); cbn [length] in *; lia.
Qed.
Lemma rd_wr_same : forall A (l : list A) i a, 0 <= i < zlen l -> rd (wr l i a) i = Some a.
Proof.
  intros A l i a H. unfold rd, wr, zlen in *. destruct (i <? 0) eqn:E; [apply Z.ltb_lt in E; lia|].
  rewrite nth_error_app2; rewrite firstn_length; [|lia]. replace (_ - _)%nat with 0%nat by lia.
  pose proof (skipn_length (Z.to_nat i) l). destruct (skipn (Z.to_nat i) l); cbn in *; [lia|reflexivity].
Qed.
Lemma rd_wr_other : forall A (l : list A) i j a, i <> j -> rd (wr l i a) j = rd l j.
Proof.
  intros A l i j a N. unfold rd. destruct (j <? 0) eqn:J; [reflexivity|]. apply Z.ltb_ge in J. unfold wr. destruct (i <? 0) eqn:E; [reflexivity|].
  apply Z.ltb_ge in E. assert (NN : Z.to_nat i <> Z.to_nat j) by lia. revert NN. generalize (Z.to_nat i) (Z.to_nat j). clear. intros i j N.
  revert i j N. induction l as [|x l IH]; intros [|i] [|j] N; try reflexivity; try contradiction.
  cbn [firstn skipn app nth_error]. apply IH. congruence.
Qed.

(** ** Sums *)
Lemma zsum_app : forall l m, zsum (l ++ m) = zsum l + zsum m.
Proof. unfold zsum. induction l as [|x l IH]; intros m; cbn [app fold_right]; [lia|]. rewrite IH. lia. Qed.
Lemma zsum_pos : forall l, Forall (fun s => 0 < s) l -> 0 <= zsum l.
Proof. unfold zsum. induction 1; cbn [fold_right]; lia. Qed.
Lemma firstn_S_nth : forall A (l : list A) n s, nth_error l n = Some s -> firstn (S n) l = firstn n l ++ [s].
Proof.
  induction l as [|x l IH]; intros [|n] s H; cbn in *; try discriminate; [congruence|]. f_equal. apply IH, H.
Qed.
Lemma prefix_le : forall c n m, Forall (fun s => 0 < s) c -> (n <= m)%nat -> zsum (firstn n c) <= zsum (firstn m c).
Proof.
  intros c n m P. revert n m. induction P as [|x c Px P IH]; intros [|n] [|m] L; cbn [firstn]; try lia.
  - cbn. pose proof (zsum_pos (firstn m c)) as H. assert (0 <= zsum (firstn m c)); [|cbn in *; unfold zsum in *; lia].
    apply H. clear - P. revert m. induction P; intros [|m]; cbn; constructor; auto.
  - specialize (IH n m ltac:(lia)). unfold zsum in *. cbn [fold_right]. lia.
Qed.
Lemma chunk_of_inj : forall c i j l j' l', Forall (fun s => 0 < s) c -> chunk_of c i j l -> chunk_of c i j' l' -> j = j' /\ l = l'.
Proof.
  intros c i j l j' l' P (s & J & N & L & E) (s' & J' & N' & L' & E').
  assert (H : ~ j < j').
  { intros X. pose proof (prefix_le c (S (Z.to_nat j)) (Z.to_nat j') P ltac:(lia)) as Y. rewrite (firstn_S_nth _ _ _ _ N), zsum_app in Y. cbn in Y. lia. }
  assert (H' : ~ j' < j).
  { intros X. pose proof (prefix_le c (S (Z.to_nat j')) (Z.to_nat j) P ltac:(lia)) as Y. rewrite (firstn_S_nth _ _ _ _ N'), zsum_app in Y. cbn in Y. lia. }
  assert (j = j') by lia. subst j'. split; [reflexivity|]. lia.
Qed.
Lemma chunk_of_bound : forall c i j l, chunk_of c i j l -> 0 <= j < zlen c.
Proof. intros c i j l (s & J & N & _). assert (Z.to_nat j < length c)%nat by (apply nth_error_Some; congruence). unfold zlen. lia. Qed.

(** ** The lookup *)
Lemma find_ok : forall c2 info pre c1 post idx, info = pre ++ (c1 ++ c2) ++ post ->
  Forall (fun s => 0 < s) (c1 ++ c2) -> zsum c1 <= idx -> idx < zsum (c1 ++ c2) ->
  exists b, c_find info (zlen pre) (length c2) (zlen c1) (zsum c1) idx = Some (b, zsum (firstn (Z.to_nat b) (c1 ++ c2))) /\
    chunk_of (c1 ++ c2) idx b (idx - zsum (firstn (Z.to_nat b) (c1 ++ c2))).
Proof.
  induction c2 as [|c c2 IH]; intros info pre c1 post idx I P L U.
  - rewrite app_nil_r in U. lia.
  - cbn [length c_find]. subst info. pose proof (zlen_pos _ c1) as ZC. rewrite rd_app_r by lia. replace (zlen pre + zlen c1 - zlen pre) with (zlen c1) by lia.
    rewrite rd_app_l by (rewrite zlen_app, zlen_cons'; pose proof (zlen_pos _ c2); lia).
    rewrite rd_app_r by lia. rewrite Z.sub_diag, rd_cons_0.
    destruct (Z.ltb_spec idx (zsum c1 + c)) as [H|H].
    + exists (zlen c1). assert (F : firstn (Z.to_nat (zlen c1)) (c1 ++ c :: c2) = c1).
      { unfold zlen. rewrite Nat2Z.id, firstn_app, Nat.sub_diag, firstn_all. cbn. apply app_nil_r. }
      rewrite F. split; [reflexivity|]. exists c. split; [apply zlen_pos|]. split.
      * unfold zlen. rewrite Nat2Z.id, nth_error_app2, Nat.sub_diag by lia. reflexivity.
      * rewrite F. lia.
    + destruct (IH (pre ++ (c1 ++ c :: c2) ++ post) pre (c1 ++ [c]) post idx) as (b & B & C).
      * rewrite <- !app_assoc. reflexivity.
      * rewrite <- app_assoc. exact P.
      * rewrite zsum_app. cbn. lia.
      * rewrite <- app_assoc. exact U.
      * exists b. assert (EQ : (c1 ++ [c]) ++ c2 = c1 ++ c :: c2) by (rewrite <- app_assoc; reflexivity). rewrite EQ in B, C. split; [|exact C].
        rewrite <- B. f_equal; [rewrite zlen_app; reflexivity|rewrite zsum_app; cbn; lia].
Qed.

(** What the C axes must be. *)
Inductive axes_of : chunks -> list Z -> list axis -> Prop :=
  | axes_nil : axes_of [] [] []
  | axes_cons : forall c cs i idx b l d axes, chunk_of c i b l -> nth_error c (Z.to_nat b) = Some d -> axes_of cs idx axes ->
      axes_of (c :: cs) (i :: idx) (mkAxis (zlen c) b l (Some d) :: axes).

Lemma zlen_shape : forall cs, zlen (shape cs) = zlen cs.
Proof. intros. unfold shape, zlen. rewrite map_length. reflexivity. Qed.

Definition inside (c : list Z) (i : Z) : Prop := Forall (fun s => 0 < s) c /\ 0 <= i < zsum c.

Lemma axes_ok : forall cs2 idx cs1, Forall2 inside cs2 idx ->
  exists axes, c_axes (chunk_info (cs1 ++ cs2)) (zlen (cs1 ++ cs2)) (zlen cs1) (zlen (concat cs1)) idx = Some axes /\ axes_of cs2 idx axes.
Proof.
  induction cs2 as [|c cs2 IH]; intros idx cs1 F; inversion F as [|c' i cs' idx' [P [L U]] F' E1 E2]; subst; clear F.
  - exists []. split; [reflexivity|constructor].
  - cbn [c_axes].
    assert (R : rd (chunk_info (cs1 ++ c :: cs2)) (1 + zlen cs1) = Some (zlen c)).
    { unfold chunk_info. rewrite rd_cons_S by (pose proof (zlen_pos _ cs1); lia). replace (1 + zlen cs1 - 1) with (zlen cs1) by lia.
      rewrite rd_app_l by (rewrite zlen_shape, zlen_app, zlen_cons'; pose proof (zlen_pos _ cs2); lia).
      unfold shape. rewrite map_app, rd_app_r by (unfold zlen; rewrite map_length; lia).
      replace (zlen cs1 - zlen (map zlen cs1)) with 0 by (unfold zlen; rewrite map_length; lia). reflexivity. }
    rewrite R.
    set (pre := (zlen (cs1 ++ c :: cs2) :: shape (cs1 ++ c :: cs2)) ++ concat cs1).
    assert (I : chunk_info (cs1 ++ c :: cs2) = pre ++ ([] ++ c) ++ concat cs2).
    { unfold pre, chunk_info. rewrite concat_app. cbn [concat app]. rewrite <- app_assoc. reflexivity. }
    assert (ZP : zlen pre = 1 + zlen (cs1 ++ c :: cs2) + zlen (concat cs1)).
    { unfold pre. rewrite zlen_app, zlen_cons', zlen_shape. lia. }
    destruct (find_ok c (chunk_info (cs1 ++ c :: cs2)) pre [] (concat cs2) i I P ltac:(cbn; lia) U) as (b & B & C).
    cbn [app] in B, C. change (zlen (@nil Z)) with 0 in B. change (zsum []) with 0 in B. rewrite <- ZP.
    replace (Z.to_nat (zlen c)) with (length c) by (unfold zlen; lia). rewrite B.
    destruct (IH idx' (cs1 ++ [c]) F') as (axes & A & AO).
    assert (EQ : (cs1 ++ [c]) ++ cs2 = cs1 ++ c :: cs2) by (rewrite <- app_assoc; reflexivity).
    assert (EZ : zlen (cs1 ++ [c]) = zlen cs1 + 1) by (rewrite zlen_app; reflexivity).
    assert (EC : zlen (concat (cs1 ++ [c])) = zlen (concat cs1) + zlen c) by (rewrite concat_app, zlen_app; cbn [concat]; rewrite app_nil_r; reflexivity).
    rewrite EQ, EZ, EC in A. rewrite A. eexists. split; [reflexivity|].
    assert (D : exists d, nth_error c (Z.to_nat b) = Some d) by (destruct C as (s & _ & N & _); exists s; exact N). destruct D as [d D].
    replace (rd (chunk_info (cs1 ++ c :: cs2)) (zlen pre + b)) with (Some d).
    + constructor; assumption.
    + pose proof (chunk_of_bound _ _ _ _ C). rewrite I, rd_app_r by lia. cbn [app]. rewrite rd_app_l by lia.
      replace (zlen pre + b - zlen pre) with b by lia. unfold rd. destruct (Z.ltb_spec b 0); [lia|]. symmetry. exact D.
Qed.
Lemma getblock_ok : forall cs idx, Forall2 inside cs idx -> exists axes, c_getblock (chunk_info cs) idx = Some axes /\ axes_of cs idx axes.
Proof. intros cs idx F. destruct (axes_ok cs idx [] F) as (axes & A & B). exists axes. split; [exact A|exact B]. Qed.

Lemma axes_inj : forall cs idx axes axes', Forall2 inside cs idx -> axes_of cs idx axes -> axes_of cs idx axes' -> axes = axes'.
Proof.
  intros cs idx axes axes' F A. revert axes' F. induction A as [|c cs i idx b l d axes C N A IH]; intros axes' F A'.
  - inversion A'. reflexivity.
  - inversion A' as [|c' cs' i' idx' b' l' d' ax' C' N' A'']; subst. inversion F as [|? ? ? ? [PF _] F']; subst.
    destruct (chunk_of_inj c i b l b' l' PF C C') as [EB EL]. subst b' l'. rewrite N in N'. injection N' as <-. f_equal. apply IH; assumption.
Qed.

(** ** Numbering *)
Lemma zprod_pos : forall l, Forall (fun s => 0 < s) l -> 0 < zprod l.
Proof. unfold zprod. induction 1; cbn [fold_right]; [lia|]. apply Z.mul_pos_pos; assumption. Qed.
Lemma bid_acc : forall l a, fold_left (fun a x => a * x_shape x + x_block x) l a = a * zprod (map x_shape l) + c_bid l.
Proof.
  induction l as [|x l IH]; intros a; unfold c_bid; cbn [fold_left map zprod fold_right]; [lia|].
  rewrite IH. rewrite (IH (0 * x_shape x + x_block x)). unfold zprod. cbn [fold_right]. ring.
Qed.
Lemma axes_shape : forall cs idx axes, axes_of cs idx axes -> map x_shape axes = shape cs.
Proof. induction 1; cbn; [reflexivity|]. f_equal. assumption. Qed.
Lemma axes_pos : forall cs idx axes, axes_of cs idx axes -> Forall (fun s => 0 < s) (shape cs).
Proof. induction 1 as [|c cs i idx b l d axes C N A IH]; [constructor|]. unfold shape in *. cbn [map]. constructor; [|exact IH]. pose proof (chunk_of_bound _ _ _ _ C). lia. Qed.
Lemma bid_ok : forall cs idx axes, axes_of cs idx axes -> 0 <= c_bid axes < npartitions cs /\ unravel (shape cs) (c_bid axes) = map x_block axes.
Proof.
  induction 1 as [|c cs i idx b l d axes C N A IH]; [split; [cbn; lia|reflexivity]|].
  destruct IH as [R UR]. pose proof (chunk_of_bound _ _ _ _ C) as B. pose proof (zprod_pos _ (axes_pos _ _ _ A)) as PP.
  assert (E : c_bid (mkAxis (zlen c) b l (Some d) :: axes) = b * zprod (shape cs) + c_bid axes).
  { unfold c_bid at 1. cbn [fold_left x_shape x_block]. rewrite bid_acc, (axes_shape _ _ _ A). ring. }
  unfold npartitions in *. split.
  - rewrite E. change (zprod (shape (c :: cs))) with (zlen c * zprod (shape cs)). split; [apply Z.add_nonneg_nonneg; [apply Z.mul_nonneg_nonneg|]; lia|].
    assert (b * zprod (shape cs) <= (zlen c - 1) * zprod (shape cs)) by (apply Z.mul_le_mono_nonneg_r; lia). lia.
  - unfold shape in *. cbn [map unravel x_block]. rewrite E. f_equal.
    + rewrite Z.div_add_l by lia. rewrite Z.div_small by lia. lia.
    + rewrite Z.add_comm, Z.mod_add, Z.mod_small by lia. exact UR.
Qed.
Lemma unravel_inj : forall sh b b', Forall (fun s => 0 < s) sh -> 0 <= b < zprod sh -> 0 <= b' < zprod sh -> unravel sh b = unravel sh b' -> b = b'.
Proof.
  induction sh as [|s sh IH]; intros b b' P R R' E; cbn [unravel] in E; [cbn in *; lia|].
  inversion P as [|? ? P1 P2]; subst. injection E as E1 E2. pose proof (zprod_pos _ P2) as PP.
  pose proof (Z.mod_pos_bound b (zprod sh) PP). pose proof (Z.mod_pos_bound b' (zprod sh) PP).
  assert (M : b mod zprod sh = b' mod zprod sh) by (apply IH; assumption).
  rewrite (Z.div_mod b (zprod sh)), (Z.div_mod b' (zprod sh)) by lia. congruence.
Qed.

(** ** Memory *)
Lemma zseq_nth : forall n i, 0 <= i < n -> nth_error (zseq n) (Z.to_nat i) = Some i.
Proof.
  intros n i H. unfold zseq. rewrite nth_error_map. assert (N : nth_error (seq 0 (Z.to_nat n)) (Z.to_nat i) = Some (Z.to_nat i)).
  { rewrite (nth_error_nth' _ 0%nat) by (rewrite seq_length; lia). rewrite seq_nth by lia. reflexivity. }
  rewrite N. cbn. f_equal. lia.
Qed.
Lemma flat_map_nth : forall A B (f : A -> list B) n l k m a, (forall x, In x l -> length (f x) = n) -> nth_error l k = Some a -> (m < n)%nat ->
  nth_error (flat_map f l) (k * n + m) = nth_error (f a) m.
Proof.
  induction l as [|x l IH]; intros k m a H N M; [destruct k; discriminate|]. cbn [flat_map].
  destruct k as [|k]; cbn in N.
  - injection N as ->. rewrite nth_error_app1; [f_equal; lia|]. rewrite H by (left; reflexivity). lia.
  - rewrite nth_error_app2 by (rewrite H by (left; reflexivity); lia). rewrite H by (left; reflexivity).
    replace (S k * n + m - n)%nat with (k * n + m)%nat by lia. apply IH; [|exact N|exact M]. intros y Y. apply H. right. exact Y.
Qed.
Lemma flat_map_len : forall A B (f : A -> list B) n l, (forall x, In x l -> length (f x) = n) -> length (flat_map f l) = (length l * n)%nat.
Proof.
  induction l as [|x l IH]; intros H; [reflexivity|]. cbn [flat_map length]. rewrite app_length, H, IH by (try (left; reflexivity); intros y Y; apply H; right; exact Y). lia.
Qed.
Section values.
Context {V : Type}.
Implicit Types (a : array V) (mem : memory V).

Lemma row_major_length : forall dims (f : list Z -> V), Forall (fun d => 0 < d) dims -> length (row_major dims f) = Z.to_nat (zprod dims).
Proof.
  induction dims as [|d ds IH]; intros f P; [reflexivity|]. inversion P as [|? ? P1 P2]; subst. cbn [row_major].
  rewrite (flat_map_len _ _ _ (Z.to_nat (zprod ds))) by (intros x _; apply IH; exact P2). unfold zseq. rewrite map_length, seq_length.
  unfold zprod. cbn [fold_right]. pose proof (zprod_pos ds P2). unfold zprod in *. rewrite Z2Nat.inj_mul by lia. reflexivity.
Qed.
(** offset by Horner *)
Lemma offset_acc : forall l t, c_offset t l = t * zprod (map fst l) + c_offset 0 l.
Proof.
  induction l as [|[d i] l IH]; intros t; cbn [c_offset map fst]; [unfold zprod; cbn; lia|].
  rewrite IH. rewrite (IH (0 * d + i)). unfold zprod. cbn [fold_right]. ring.
Qed.
Lemma row_major_nth : forall dims locs (f : list Z -> V), Forall2 (fun d i => 0 <= i < d) dims locs ->
  0 <= c_offset 0 (combine dims locs) < zprod dims /\ rd (row_major dims f) (c_offset 0 (combine dims locs)) = Some (f locs).
Proof.
  induction dims as [|d ds IH]; intros locs f F; inversion F as [|d' i ds' locs' Hd F']; subst; clear F.
  - split; [cbn; lia|reflexivity].
  - destruct (IH locs' (fun l => f (i :: l)) F') as [R E]. cbn [combine c_offset]. rewrite offset_acc.
    assert (ML : map fst (combine ds locs') = ds). { clear - F'. induction F'; cbn; [reflexivity|]. f_equal. assumption. }
    rewrite ML. set (o := c_offset 0 (combine ds locs')) in *.
    assert (PD : Forall (fun d => 0 < d) ds). { clear - F'. induction F'; constructor; [lia|assumption]. }
    assert (PP : 0 < zprod ds) by (apply zprod_pos; exact PD).
    assert (ZP : zprod (d :: ds) = d * zprod ds) by reflexivity. rewrite ZP. replace (0 * d + i) with i by lia.
    split; [nia|]. unfold rd. destruct (Z.ltb_spec (i * zprod ds + o) 0) as [X|_]; [nia|]. cbn [row_major].
    replace (Z.to_nat (i * zprod ds + o)) with (Z.to_nat i * Z.to_nat (zprod ds) + Z.to_nat o)%nat by nia.
    rewrite (flat_map_nth _ _ _ (Z.to_nat (zprod ds)) _ _ _ i).
    + unfold rd in E. destruct (Z.ltb_spec o 0); [lia|]. exact E.
    + intros x _. apply row_major_length. exact PD.
    + apply zseq_nth. exact Hd.
    + lia.
Qed.
Lemma slab_read : forall dims origin tdim a t locs, Forall2 (fun d i => 0 <= i < d) dims locs -> 0 <= t < tdim ->
  rd (slab dims origin tdim a) (c_offset t (combine dims locs)) = Some (a t (zadd origin locs)).
Proof.
  intros dims origin tdim a t locs F T. unfold slab.
  destruct (row_major_nth (tdim :: dims) (t :: locs) (fun l => match l with t0 :: idx => a t0 (zadd origin idx) | [] => a 0 [] end)) as [_ E].
  - constructor; [lia|exact F].
  - cbn [combine c_offset] in E. replace (0 * tdim + t) with t in E by lia. exact E.
Qed.

Lemma axes_block : forall cs idx axes, axes_of cs idx axes ->
  all_dims axes = Some (block_dims cs (map x_block axes)) /\ length idx = length axes /\ length cs = length axes /\
  Forall2 (fun d i => 0 <= i < d) (block_dims cs (map x_block axes)) (map x_local axes) /\
  zadd (block_origin cs (map x_block axes)) (map x_local axes) = idx.
Proof.
  induction 1 as [|c cs i idx b l d axes C N A IH]; [repeat split; constructor|].
  destruct IH as (AD & L1 & L2 & F & Z). cbn [all_dims x_dim map x_block block_dims block_origin x_local zadd length].
  destruct C as (s & B & NS & L & E). rewrite N in NS. injection NS as <-.
  assert (ND : nth (Z.to_nat b) c 0 = d) by (apply nth_error_nth; exact N).
  rewrite AD, ND. split; [reflexivity|]. split; [congruence|]. split; [congruence|]. split.
  - constructor; [exact L|exact F].
  - f_equal; [lia|exact Z].
Qed.
Lemma read_ok : forall cs tdim a flags mem idx axes t, memory_right cs tdim a flags mem -> axes_of cs idx axes -> loaded flags (c_bid axes) ->
  0 <= t < tdim -> c_read mem (c_bid axes) t (block_dims cs (map x_block axes)) (map x_local axes) = Some (a t idx).
Proof.
  intros cs tdim a flags mem idx axes t M A L T. destruct (bid_ok _ _ _ A) as [R UR]. unfold c_read. rewrite (M _ R L).
  unfold block_values. rewrite UR. destruct (axes_block _ _ _ A) as (_ & _ & _ & F & Z). rewrite slab_read by assumption. rewrite Z. reflexivity.
Qed.

(** ** Flags *)
Definition marked (S : Z -> Prop) (flags fl : list Z) : Prop :=
  length fl = length flags /\ forall bid f, rd flags bid = Some f -> (S bid -> 2 <= f /\ rd fl bid = Some 2) /\ (~ S bid -> rd fl bid = Some f).

Lemma touch_loaded : forall flags bid, loaded flags bid -> c_touch flags bid = Some (true, wr flags bid 2).
Proof. intros flags bid (f & R & F). unfold c_touch. rewrite R. destruct (Z.ltb_spec f 2); [lia|reflexivity]. Qed.
Lemma touch_missing : forall flags bid, 0 <= bid < zlen flags -> ~ loaded flags bid -> c_touch flags bid = Some (false, wr flags bid 1).
Proof.
  intros flags bid H N. destruct (rd_some _ flags bid H) as [f R]. unfold c_touch. rewrite R. destruct (Z.ltb_spec f 2); [reflexivity|].
  exfalso. apply N. exists f. split; assumption.
Qed.
Lemma loaded_dec : forall flags bid, loaded flags bid \/ ~ loaded flags bid.
Proof.
  intros flags bid. unfold loaded. destruct (rd flags bid) as [f|]; [|right; intros (f & H & _); discriminate].
  destruct (Z_le_gt_dec 2 f) as [H|H]; [left; exists f; auto|right; intros (g & [= <-] & G); lia].
Qed.
Lemma loaded_wr2 : forall flags b bid, loaded flags b -> (loaded (wr flags b 2) bid <-> loaded flags bid).
Proof.
  intros flags b bid (f & R & F). destruct (Z.eq_dec b bid) as [->|N].
  - split; intros _; [exists f; auto|]. exists 2. split; [apply rd_wr_same, (rd_range _ _ _ _ R)|lia].
  - unfold loaded. rewrite rd_wr_other by exact N. reflexivity.
Qed.
Lemma memory_right_wr : forall cs tdim a flags mem b, loaded flags b -> memory_right cs tdim a flags mem -> memory_right cs tdim a (wr flags b 2) mem.
Proof. intros cs tdim a flags mem b L M bid R X. apply M; [exact R|]. apply (loaded_wr2 flags b bid L), X. Qed.

(** ** Several chunks *)
Definition expected (cs : chunks) (a : array V) (idx : list Z) (ti : Z) (l : list (Z * list Z)) : list V :=
  map (fun tb => a (ti + fst tb) (zadd idx (snd tb))) l.

Lemma multi_ok : forall cs tdim a mem idx ti l acc flags,
  zlen flags = npartitions cs -> memory_right cs tdim a flags mem ->
  (forall t b, In (t, b) l -> 0 <= ti + t < tdim /\ Forall2 inside cs (zadd idx b)) ->
  match c_multi (chunk_info cs) mem idx ti l acc flags with
  | CellBad => False
  | Cell vals fl => vals = acc ++ expected cs a idx ti l /\ length fl = length flags /\
      forall bid f, rd flags bid = Some f ->
        ((exists t b axes, In (t, b) l /\ axes_of cs (zadd idx b) axes /\ c_bid axes = bid) -> 2 <= f /\ rd fl bid = Some 2) /\
        (~ (exists t b axes, In (t, b) l /\ axes_of cs (zadd idx b) axes /\ c_bid axes = bid) -> rd fl bid = Some f)
  | Repeat fl => length fl = length flags /\ exists bid, (exists t b axes, In (t, b) l /\ axes_of cs (zadd idx b) axes /\ c_bid axes = bid) /\
      ~ loaded flags bid /\ rd fl bid = Some 1 /\
      forall bid' f, bid' <> bid -> rd flags bid' = Some f -> rd fl bid' = Some f \/
        ((exists t b axes, In (t, b) l /\ axes_of cs (zadd idx b) axes /\ c_bid axes = bid') /\ 2 <= f /\ rd fl bid' = Some 2)
  end.
Proof.
  intros cs tdim a mem idx ti l. induction l as [|[t b] l IH]; intros acc flags LF M H.
  - cbn [c_multi]. split; [symmetry; apply app_nil_r|]. split; [reflexivity|]. intros bid f R. split; [intros (t & b & axes & [] & _)|auto].
  - cbn [c_multi]. destruct (H t b (or_introl eq_refl)) as [T F]. destruct (getblock_ok _ _ F) as (axes & G & A). rewrite G.
    destruct (bid_ok _ _ _ A) as [BR UR]. set (b0 := c_bid axes) in *.
    destruct (loaded_dec flags b0) as [L|L].
    + rewrite (touch_loaded _ _ L). destruct (axes_block _ _ _ A) as (AD & _). rewrite AD.
      rewrite (read_ok cs tdim a flags mem _ _ _ M A L T : c_read mem b0 (ti + t) _ _ = _).
      assert (LF' : zlen (wr flags b0 2) = npartitions cs) by (unfold zlen; rewrite wr_length; exact LF).
      specialize (IH (acc ++ [a (ti + t) (zadd idx b)]) (wr flags b0 2) LF' (memory_right_wr _ _ _ _ _ _ L M) (fun t' b' X => H t' b' (or_intror X))).
      destruct (c_multi (chunk_info cs) mem idx ti l (acc ++ [a (ti + t) (zadd idx b)]) (wr flags b0 2)) as [fl|vals fl|]; [..|contradiction].
      * destruct IH as (LL & bid & (t1 & b1 & ax1 & I1 & A1 & E1) & NL & R1 & REST). split; [rewrite LL; apply wr_length|]. exists bid.
        split; [exists t1, b1, ax1; split; [right; exact I1|]; split; assumption|].
        assert (NB : bid <> b0). { intros ->. apply NL. apply (loaded_wr2 flags b0 b0 L), L. }
        split; [intros X; apply NL, (loaded_wr2 flags b0 bid L), X|]. split; [exact R1|].
        intros bid' f N R. destruct (Z.eq_dec bid' b0) as [->|NB'].
        -- right. destruct L as (f0 & R0 & F0). assert (f = f0) by congruence. subst f0. split; [exists t, b, axes; split; [left; reflexivity|]; split; [exact A|reflexivity]|].
           split; [exact F0|]. assert (RW : rd (wr flags b0 2) b0 = Some 2) by (apply rd_wr_same, (rd_range _ _ _ _ R)).
           destruct (REST b0 2 N RW) as [Y|(_ & _ & Y)]; exact Y.
        -- assert (RW : rd (wr flags b0 2) bid' = Some f) by (rewrite rd_wr_other by congruence; exact R).
           destruct (REST bid' f N RW) as [Y|((t2 & b2 & ax2 & I2 & A2 & E2) & F2 & Y)]; [left; exact Y|right].
           split; [exists t2, b2, ax2; split; [right; exact I2|]; split; assumption|]. split; assumption.
      * destruct IH as (EV & LL & REST). split; [rewrite EV, <- app_assoc; reflexivity|]. split; [rewrite LL; apply wr_length|].
        intros bid f R. destruct (Z.eq_dec bid b0) as [->|NB].
        -- destruct L as (f0 & R0 & F0). assert (f = f0) by congruence. subst f0.
           assert (RW : rd (wr flags b0 2) b0 = Some 2) by (apply rd_wr_same, (rd_range _ _ _ _ R)).
           destruct (REST b0 2 RW) as [Y1 Y2].
           assert (X : rd fl b0 = Some 2).
           { (* either needed again or untouched *)
             destruct (rd_some _ fl b0) as [g Rg]; [unfold zlen; rewrite LL, wr_length; apply (rd_range _ _ _ _ R)|].
             rewrite Rg. f_equal. destruct (Z.eq_dec g 2) as [|NG]; [assumption|]. exfalso.
             assert (NN : ~ (exists t b axes, In (t, b) l /\ axes_of cs (zadd idx b) axes /\ c_bid axes = b0)).
             { intros Y. destruct (Y1 Y) as [_ Z]. congruence. }
             specialize (Y2 NN). congruence. }
           split; [intros _; split; [exact F0|exact X]|]. intros NN. exfalso. apply NN. exists t, b, axes. split; [left; reflexivity|]. split; [exact A|reflexivity].
        -- assert (RW : rd (wr flags b0 2) bid = Some f) by (rewrite rd_wr_other by congruence; exact R).
           destruct (REST bid f RW) as [Y1 Y2]. split.
           ++ intros (t1 & b1 & ax1 & [I1|I1] & A1 & E1).
              ** injection I1 as <- <-. exfalso. apply NB. rewrite <- E1. unfold b0.
                 rewrite (axes_inj _ _ _ _ F A A1). reflexivity.
              ** apply Y1. exists t1, b1, ax1. split; [exact I1|]. split; assumption.
           ++ intros NN. apply Y2. intros (t1 & b1 & ax1 & I1 & A1 & E1). apply NN. exists t1, b1, ax1. split; [right; exact I1|]. split; assumption.
    + rewrite (touch_missing flags b0) by (rewrite ?LF; assumption). split; [apply wr_length|]. exists b0.
      split; [exists t, b, axes; split; [left; reflexivity|]; split; [exact A|reflexivity]|]. split; [exact L|].
      split; [apply rd_wr_same; rewrite LF; exact BR|]. intros bid' f N R. left. rewrite rd_wr_other by congruence. exact R.
Qed.
End values.
