(** Proofs for C55. *)
From Coq Require Import List Arith Bool QArith Lia.
From Verif Require Import ReadModel ReadSpec.
Import ListNotations.
Open Scope nat_scope.

Definition plain (g : gdims) : gdims := Gdims (g_t g) (g_z g) (g_y g) (g_x g) false.
Definition final_dims (g : gdims) : list nat := if g_z g =? 1 then [g_t g; g_y g; g_x g] else [g_t g; g_z g; g_y g; g_x g].

Lemma same_refl l : same l l = true.
Proof. unfold same. destruct (list_eq_dec Nat.eq_dec l l); [reflexivity|contradiction]. Qed.
Global Arguments same : simpl never.
Lemma reshape_plain {A : Type} g l (a : arr A) : fits l g -> dims a = shape_of l (g_t g) (g_z g) (g_y g) (g_x g) ->
  exists d, reshape (plain g) false a = Some d /\ dims d = final_dims g /\
    (forall t z y x, is_node g t z y x -> node g d t z y x = get a (place_of l t z y x)).
Proof.
  destruct g as [nt nz ny nx fl], a as [ds f]. unfold plain, final_dims, is_node, node, fits. cbn [g_t g_z g_y g_x g_flipped dims get].
  intros F ->. unfold reshape. cbn [g_t g_z g_y g_x g_flipped dims andb].
  destruct (Nat.eqb_spec nx 1), (Nat.eqb_spec ny 1), (Nat.eqb_spec nt 1), (Nat.eqb_spec nz 1); subst;
    destruct l; cbn [shape_of place_of] in *; try (exfalso; intuition congruence); try (match type of F with _ /\ _ => destruct F as [? ?] end); subst;
    unfold squeeze, ndim; cbn;
    repeat match goal with N : ?n <> 1 |- _ => let E := fresh in assert (E : Nat.eqb n 1 = false) by (apply Nat.eqb_neq; exact N); clear N;
             repeat (progress (rewrite ?E; cbn)) end;
    rewrite ?same_refl; eexists; (split; [reflexivity|]); (split; [reflexivity|]);
    intros t z y x (T & Z0 & Y & X); cbn;
    repeat match goal with H : ?v < 1 |- _ => apply Nat.lt_1_r in H; subst v end;
    repeat match goal with E : Nat.eqb ?n 1 = false |- _ => repeat (progress (rewrite ?E; cbn)); clear E end; try reflexivity.
Qed.

Lemma flip_at {A : Type} l nt nz ny nx (a : arr A) t z y x : dims a = shape_of l nt nz ny nx ->
  get (flip_lat a) (place_of l t z y x) = get a (place_of l t z (ny - 1 - y) x).
Proof. destruct a as [ds f]. cbn [dims]. intros ->. destruct l; reflexivity. Qed.

Lemma reshape_at {A : Type} g l (tr : bool) (a : arr A) : fits l g -> dims (if tr then transpose a else a) = shape_of l (g_t g) (g_z g) (g_y g) (g_x g) ->
  exists d, reshape g tr a = Some d /\ dims d = final_dims g /\
    (forall t z y x, is_node g t z y x -> node g d t z y x = get (if tr then transpose a else a) (place_of l t z (row g y) x)).
Proof.
  intros F D. set (b := if tr then transpose a else a) in *.
  assert (ND : (ndim b <? 2) = false) by (unfold ndim; rewrite D; destruct l; reflexivity).
  set (c := if g_flipped g then flip_lat b else b).
  assert (DC : dims c = shape_of l (g_t g) (g_z g) (g_y g) (g_x g)) by (unfold c; destruct (g_flipped g); exact D).
  assert (E : reshape g tr a = reshape (plain g) false c).
  { unfold reshape. cbn [plain g_t g_z g_y g_x g_flipped andb]. fold b. rewrite ND, andb_false_r. reflexivity. }
  destruct (reshape_plain g l c F DC) as (d & E1 & E2 & E3). exists d. split; [rewrite E; exact E1|]. split; [exact E2|].
  intros t z y x N. rewrite (E3 t z y x N). unfold c, row. destruct (g_flipped g); [|reflexivity].
  apply (flip_at l _ _ _ _ _ _ _ _ _ D).
Qed.

(** ** Missing values and limits *)
Lemma kept_zero vmin vmax : below vmax (above vmin zero) = zero.
Proof. unfold below, above, zero. destruct vmin as [m|]; [destruct (Qle_bool m 0)|]; (destruct vmax as [m'|]; [|reflexivity]); destruct (Qle_bool 0 m'); reflexivity. Qed.
Lemma clean_kept vmin vmax v : kept vmin vmax v (clean vmin vmax v).
Proof.
  unfold kept, clean. split.
  - intros q -> (A & B). cbn [not_nan]. unfold above, below.
    destruct vmin as [m|]; [replace (Qle_bool m q) with true by (symmetry; apply Qle_bool_iff, A; reflexivity)|];
      (destruct vmax as [m'|]; [|reflexivity]); replace (Qle_bool q m') with true by (symmetry; apply Qle_bool_iff, B; reflexivity); reflexivity.
  - intros H. destruct v as [q|]; cbn [not_nan]; [|apply kept_zero].
    specialize (H q eq_refl).
    destruct (match vmin with Some m => Qle_bool m q | None => true end) eqn:E1.
    + assert (EA : above vmin (Some q) = Some q) by (unfold above; destruct vmin; [rewrite E1|]; reflexivity). rewrite EA.
      destruct vmax as [m'|].
      * unfold below. destruct (Qle_bool q m') eqn:E2; [|reflexivity]. exfalso. apply H. split.
        -- intros m ->. apply Qle_bool_iff. exact E1.
        -- intros m [= <-]. apply Qle_bool_iff. exact E2.
      * exfalso. apply H. split; [|intros; discriminate]. intros m ->. apply Qle_bool_iff. exact E1.
    + destruct vmin as [m|]; [|discriminate]. unfold above. rewrite E1. exact (kept_zero None vmax).
Qed.
Lemma kept_unique vmin vmax v w w' : kept vmin vmax v w -> kept vmin vmax v w' -> w = w'.
Proof.
  intros (A & B) (A' & B'). destruct v as [q|].
  - destruct (Qlt_le_dec q (match vmin with Some m => m | None => q end)) as [L|L].
    + assert (N : forall q', Some q = Some q' -> ~ within vmin vmax q').
      { intros q' [= <-] (P & _). destruct vmin as [m|]; [|apply (Qlt_irrefl q L)]. apply (Qlt_not_le _ _ L). apply P. reflexivity. }
      rewrite (B N), (B' N). reflexivity.
    + destruct (Qlt_le_dec (match vmax with Some m => m | None => q end) q) as [L'|L'].
      * assert (N : forall q', Some q = Some q' -> ~ within vmin vmax q').
        { intros q' [= <-] (_ & P). destruct vmax as [m|]; [|apply (Qlt_irrefl q L')]. apply (Qlt_not_le _ _ L'). apply P. reflexivity. }
        rewrite (B N), (B' N). reflexivity.
      * assert (W : within vmin vmax q).
        { split; intros m ->; assumption. }
        rewrite (A q eq_refl W), (A' q eq_refl W). reflexivity.
  - rewrite B, B'; [reflexivity| |]; intros; discriminate.
Qed.

Lemma node_map {A B : Type} (f : A -> B) g a t z y x : node g (amap f a) t z y x = f (node g a t z y x).
Proof. unfold node, amap. cbn. destruct (g_z g =? 1); reflexivity. Qed.

(** ** From an array *)
Lemma init_at g l (tr : bool) vmin vmax a : fits l g -> dims (if tr then transpose a else a) = shape_of l (g_t g) (g_z g) (g_y g) (g_x g) ->
  exists d, init_data g tr vmin vmax false a = Some d /\ dims d = final_dims g /\
    (forall t z y x, is_node g t z y x -> kept vmin vmax (get (if tr then transpose a else a) (place_of l t z (row g y) x)) (node g d t z y x)).
Proof.
  intros F D. destruct (reshape_at g l tr a F D) as (d & E & DD & N). unfold init_data. rewrite E. eexists. split; [reflexivity|].
  split; [exact DD|]. intros t z y x I. rewrite node_map, (N t z y x I). apply clean_kept.
Qed.
Definition longer (g : gdims) : gdims := Gdims (S (g_t g)) (g_z g) (g_y g) (g_x g) (g_flipped g).
Lemma init_added_at g l (tr : bool) vmin vmax a : fits l g -> dims (if tr then transpose a else a) = shape_of l (g_t g) (g_z g) (g_y g) (g_x g) -> 0 < g_t g ->
  exists d, init_data g tr vmin vmax true a = Some d /\ dims d = final_dims (longer g) /\
    (forall t z y x, is_node (longer g) t z y x ->
      kept vmin vmax (get (if tr then transpose a else a) (place_of l (if t =? g_t g then 0 else t) z (row g y) x)) (node g d t z y x)).
Proof.
  intros F D P. destruct (init_at g l tr vmin vmax a F D) as (d & E & DD & N). unfold init_data in *. destruct (reshape g tr a) as [e|]; [|discriminate].
  injection E as E. set (c := amap (clean vmin vmax) e) in *. clearbody c. subst c.
  unfold concat2, first_frame, final_dims in *. rewrite DD. cbn [longer g_t g_z g_y g_x].
  assert (M : min 1 (g_t g) = 1) by lia.
  destruct (g_z g =? 1) eqn:EZ; cbn [dims get]; rewrite M, same_refl; (eexists; split; [reflexivity|]); (split; [cbn [dims]; f_equal; lia|]).
  all: intros t z y x (T & Z0 & Y & X); cbn [longer g_t g_z g_y g_x] in *; unfold node; rewrite EZ; cbn [get];
    destruct (Nat.ltb_spec t (g_t g)) as [L|L].
  - destruct (Nat.eqb_spec t (g_t g)); [lia|]. specialize (N t z y x (conj L (conj Z0 (conj Y X)))). unfold node in N. rewrite EZ in N. exact N.
  - destruct (Nat.eqb_spec t (g_t g)); [|lia]. replace (t - g_t g) with 0 by lia.
    specialize (N 0 z y x (conj P (conj Z0 (conj Y X)))). unfold node in N. rewrite EZ in N. exact N.
  - destruct (Nat.eqb_spec t (g_t g)); [lia|]. specialize (N t z y x (conj L (conj Z0 (conj Y X)))). unfold node in N. rewrite EZ in N. exact N.
  - destruct (Nat.eqb_spec t (g_t g)); [|lia]. replace (t - g_t g) with 0 by lia.
    specialize (N 0 z y x (conj P (conj Z0 (conj Y X)))). unfold node in N. rewrite EZ in N. exact N.
Qed.

(** ** Files *)
Lemma range_many l d : Forall (fun k => k < d) l -> in_range (Many l) d = true.
Proof. intros F. cbn. apply forallb_forall. intros k I. apply Nat.ltb_lt. rewrite Forall_forall in F. apply F. exact I. Qed.
Lemma seq_range n : Forall (fun k => k < n) (seq 0 n).
Proof. apply Forall_forall. intros k I. apply in_seq in I. lia. Qed.
Lemma range_many' l d : Forall (fun k => k < d) l -> forallb (fun k => k <? d) l = true.
Proof. exact (range_many l d). Qed.

Section File.
Variables (s : subset) (l : layout) (n : nat) (a : arr value).
Hypothesis OK : file_ok s l n a.
Hypothesis D1 : 0 < length (i_depth s).
Let nz := length (i_depth s).
Let ny := length (i_lat s).
Let nx := length (i_lon s).

Lemma file_data_at : exists d, file_data s n a = Some d /\ dims d = [n; nz; ny; nx] /\
  (forall i z y x, i < n -> z < nz -> get d [i; z; y; x] = in_file s l a i z y x).
Proof.
  destruct OK as (mz & my & mx & D & LA & LO & K). destruct a as [ds f]. cbn [dims] in D. subst ds.
  unfold file_data, apply_indices, in_file. destruct l; cbn [shape_of place_of dims] in *.
  - unfold select, ndim. cbn [length dims combine forallb fst snd time_sel]. rewrite !range_many by (try assumption; apply seq_range). cbn.
    rewrite seq_length. eexists. split; [reflexivity|]. split; [reflexivity|]. intros i z y x I Z0. cbn. rewrite seq_nth by exact I. reflexivity.
  - rewrite K in *. cbn [Nat.ltb Nat.leb]. unfold select, ndim. cbn [length dims combine forallb fst snd time_sel].
    rewrite !range_many by (try assumption; apply seq_range). cbn. rewrite seq_length. unfold add_second. cbn. rewrite Nat.eqb_refl.
    eexists. split; [reflexivity|]. split; [unfold nz; rewrite K; reflexivity|]. intros i z y x I Z0. cbn. rewrite seq_nth by exact I. reflexivity.
  - destruct K as (-> & K & DP). replace (1 <? length (i_depth s)) with true by (symmetry; apply Nat.ltb_lt; exact K).
    unfold select, ndim. cbn [length dims combine forallb fst snd]. rewrite !range_many by assumption. cbn.
    eexists. split; [reflexivity|]. split; [reflexivity|]. intros i z y x I Z0. reflexivity.
  - destruct K as (-> & K). unfold select, ndim. cbn [length dims combine forallb fst snd]. rewrite !range_many by assumption. cbn.
    eexists. split; [reflexivity|]. split; [unfold nz; rewrite K; reflexivity|]. intros i z y x I Z0. reflexivity.
Qed.

Lemma time_one k i : means k i n -> time_sel (Some k) n = One i.
Proof.
  intros (I & [-> | [-> ->]]); cbn [time_sel].
  - destruct (Z.ltb_spec (Z.of_nat i) 0); [lia|]. rewrite Nat2Z.id. reflexivity.
  - destruct (Z.ltb_spec (-1) 0); [|lia]. f_equal. lia.
Qed.
Lemma frame_data_at g k i : g_z g = nz -> means k i n -> exists d, frame_data g s k a = Some d /\ dims d = [1; nz; ny; nx] /\
  (forall z y x, z < nz -> get d [0; z; y; x] = in_file s l a i z y x).
Proof.
  intros GZ M. destruct OK as (mz & my & mx & D & LA & LO & K). destruct a as [ds f]. cbn [dims] in D. subst ds.
  pose proof (time_one k i M) as TO. destruct M as (IN & _).
  assert (RO : in_range (One i) n = true) by (cbn; apply Nat.ltb_lt; exact IN).
  unfold frame_data, apply_indices, in_file. destruct l; cbn [shape_of place_of dims] in *.
  - unfold select, ndim. rewrite TO. cbn [length dims combine forallb fst snd]. rewrite RO, !range_many by assumption. cbn -[Nat.ltb].
    rewrite GZ. fold nz. destruct (Nat.ltb_spec 1 nz).
    + eexists. split; [reflexivity|]. split; [reflexivity|]. intros z y x Z0. reflexivity.
    + unfold add_second. cbn. rewrite Nat.eqb_refl. assert (E : nz = 1) by (unfold nz in *; lia).
      eexists. split; [reflexivity|]. fold nz. cbn. rewrite E. split; [reflexivity|]. intros z y x Z0. replace z with 0 by lia. reflexivity.
  - rewrite K in *. cbn [Nat.ltb Nat.leb]. unfold select, ndim. rewrite TO. cbn [length dims combine forallb fst snd].
    rewrite RO, !range_many by assumption. cbn.
    eexists. split; [reflexivity|]. split; [unfold nz; rewrite K; reflexivity|]. intros z y x Z0. reflexivity.
  - destruct K as (-> & K & DP). assert (K' : (1 <? length (i_depth s)) = true) by (apply Nat.ltb_lt; exact K). rewrite K'.
    unfold select, ndim. cbn [length dims combine forallb fst snd]. rewrite !range_many by assumption. cbn -[Nat.ltb].
    rewrite GZ. unfold nz at 1. rewrite K'. eexists. split; [reflexivity|]. split; [reflexivity|]. intros z y x Z0. reflexivity.
  - destruct K as (-> & K). unfold select, ndim. cbn [length dims combine forallb fst snd]. rewrite !range_many by assumption. cbn.
    eexists. split; [reflexivity|]. split; [unfold nz; rewrite K; reflexivity|]. intros z y x Z0. reflexivity.
Qed.
End File.
