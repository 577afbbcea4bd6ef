(** Proofs for C55: runs with deferred loading, coordinates. *)
From Coq Require Import List Arith Bool QArith Lia.
From Verif Require Import ReadModel ReadSpec ReadProofs ReadProofs2.
Import ListNotations.
Open Scope nat_scope.

Section Deferred.
Variables (s : subset) (g : gdims) (vmin vmax factor : option Q) (fs : series) (src : nat -> Z * arr value) (other : nat -> arr value).
Hypothesis GF : grid_for g s.
Hypothesis GT : g_t g = 2.
Hypothesis R : reads s fs src.
Hypothesis O : forall j, dims (other j) = [1; length (i_depth s); length (i_lat s); length (i_lon s)].

Definition window (j : nat) (d : arr value) : Prop :=
  j + 1 < length (frames fs) /\ dims d = final_dims g /\
  (forall f, nth_error (frames fs) j = Some f -> in_memory s g vmin vmax factor d 0 f) /\
  (forall f, nth_error (frames fs) (j + 1) = Some f -> in_memory s g vmin vmax factor d 1 f).

Lemma frame_there j : j < length (frames fs) -> exists f, nth_error (frames fs) j = Some f.
Proof. intros L. destruct (nth_error (frames fs) j) eqn:E; [eexists; reflexivity|]. apply nth_error_None in E. lia. Qed.
Lemma src_reads j f : nth_error (frames fs) j = Some f -> exists n, readable s f n (fst (src j)) /\ src j = (fst (src j), snd (fst f)).
Proof.
  destruct f as [[l a] i]. intros E. destruct (R j l a i E) as (A & n & FO & M). exists n. split; [split; assumption|].
  cbn. rewrite <- A. apply surjective_pairing.
Qed.
Lemma depth_pos : 0 < length (i_depth s).
Proof. destruct GF as (E & _ & _ & P & _). rewrite <- E. exact P. Qed.

Lemma first_window j : j + 1 < length (frames fs) -> exists d, first_load g s vmin vmax factor (src j) (src (j + 1)) = Some d /\ window j d.
Proof.
  intros L. destruct (frame_there j ltac:(lia)) as (f0 & E0). destruct (frame_there (j + 1) L) as (f1 & E1).
  destruct (src_reads j f0 E0) as (n0 & R0 & S0). destruct (src_reads (j + 1) f1 E1) as (n1 & R1 & S1).
  destruct (first_load_at s depth_pos g vmin vmax factor GF GT f0 n0 _ f1 n1 _ R0 R1) as (d & E & DD & M0 & M1).
  exists d. rewrite S0, S1. split; [exact E|]. split; [exact L|]. split; [exact DD|].
  split; intros f F; [rewrite E0 in F|rewrite E1 in F]; injection F as <-; assumption.
Qed.
Lemma move_on j d : window j d -> j + 2 < length (frames fs) ->
  exists d', move g s vmin vmax factor src other true (j, d) = Some (j + 1, d') /\ window (j + 1) d'.
Proof.
  intros (_ & DD & W0 & W1) L. destruct (frame_there j ltac:(lia)) as (f0 & E0). destruct (frame_there (j + 1) ltac:(lia)) as (f1 & E1).
  destruct (frame_there (j + 2) L) as (f2 & E2). destruct (src_reads (j + 2) f2 E2) as (n2 & R2 & S2).
  destruct (next_load_at s depth_pos g vmin vmax factor GF GT d (other j) f0 f1 f2 n2 _ DD (O j) (W0 f0 E0) (W1 f1 E1) R2) as (d' & E & DD' & M0 & M1).
  exists d'. unfold move. rewrite S2. rewrite E. split; [reflexivity|]. split; [lia|]. split; [exact DD'|].
  replace (j + 1 + 1) with (j + 2) by lia. split; intros f F; [rewrite E1 in F|rewrite E2 in F]; injection F as <-; assumption.
Qed.
Lemma move_back j d : window j d -> 0 < j ->
  exists d', move g s vmin vmax factor src other false (j, d) = Some (j - 1, d') /\ window (j - 1) d'.
Proof.
  intros (L & DD & W0 & W1) P. destruct (frame_there j ltac:(lia)) as (f0 & E0). destruct (frame_there (j + 1) ltac:(lia)) as (f1 & E1).
  destruct (frame_there (j - 1) ltac:(lia)) as (f2 & E2). destruct (src_reads (j - 1) f2 E2) as (n2 & R2 & S2).
  destruct (back_load_at s depth_pos g vmin vmax factor GF GT d (other j) f0 f1 f2 n2 _ DD (O j) (W0 f0 E0) (W1 f1 E1) R2) as (d' & E & DD' & M0 & M1).
  exists d'. unfold move. rewrite S2. rewrite E. split; [reflexivity|]. split; [lia|]. split; [exact DD'|].
  replace (j - 1 + 1) with j by lia. split; intros f F; [rewrite E2 in F|rewrite E0 in F]; injection F as <-; assumption.
Qed.
Lemma moves_window l : forall j d k, window j d -> reaches (length (frames fs)) j l k ->
  exists d', moves g s vmin vmax factor src other l (j, d) = Some (k, d') /\ window k d'.
Proof.
  induction l as [|on l IH]; intros j d k W RE.
  - cbn in RE. subst k. exists d. split; [reflexivity|exact W].
  - destruct on; cbn [reaches] in RE; destruct RE as [L RE].
    + destruct (move_on j d W L) as (d1 & E & W1). destruct (IH _ _ _ W1 RE) as (d' & E' & W'). exists d'. cbn [moves]. rewrite E. split; assumption.
    + destruct (move_back j d W L) as (d1 & E & W1). destruct (IH _ _ _ W1 RE) as (d' & E' & W'). exists d'. cbn [moves]. rewrite E. split; assumption.
Qed.
Lemma deferred_window l j k : j + 1 < length (frames fs) -> reaches (length (frames fs)) j l k ->
  exists d, deferred g s vmin vmax factor src other j l = Some (k, d) /\ window k d.
Proof.
  intros L RE. destruct (first_window j L) as (d & E & W). unfold deferred. rewrite E. apply moves_window; assumption.
Qed.

Lemma deferred_at l j k : j + 1 < length (frames fs) -> reaches (length (frames fs)) j l k ->
  exists d, deferred g s vmin vmax factor src other j l = Some (k, d) /\ k + 1 < length (frames fs) /\ dims d = final_dims g /\
    forall t z y x lo a i, is_node g t z y x -> nth_error (frames fs) (k + t) = Some (lo, a, i) ->
      node g d t z y x = rescale factor vmin vmax (in_file s lo a i z (row g y) x).
Proof.
  intros L RE. destruct (deferred_window l j k L RE) as (d & E & LK & DD & W0 & W1). exists d. split; [exact E|]. split; [exact LK|]. split; [exact DD|].
  intros t z y x lo a i (T & Z0 & Y & X) F. destruct t as [|[|t]].
  - rewrite Nat.add_0_r in F. exact (W0 _ F z y x Z0 Y X).
  - exact (W1 _ F z y x Z0 Y X).
  - lia.
Qed.
End Deferred.

(** ** Coordinates *)
Lemma sheet_coord b a r c : 2 <= ndim a <= 4 -> sheet a r c = file_coord b a r c.
Proof.
  unfold sheet, file_coord. intros B. destruct (ndim a) as [|[|[|[|[|n]]]]]; try lia; reflexivity.
Qed.
Lemma forall_seq (f : nat -> bool) a n : forallb f (seq a n) = true -> forall k, a <= k < a + n -> f k = true.
Proof. intros F k B. rewrite forallb_forall in F. apply F. apply in_seq. exact B. Qed.
Lemma nth_mapped {A B : Type} (f : A -> B) l k d d' : k < length l -> nth k (map f l) d' = f (nth k l d).
Proof. intros L. rewrite (nth_indep _ d' (f d)) by (rewrite map_length; exact L). apply map_nth. Qed.

Lemma row_in s g y : grid_for g s -> y < g_y g -> row g y < length (i_lat s).
Proof. intros (_ & GY & _ & _ & PY & _) L. unfold row. destruct (g_flipped g); lia. Qed.
Lemma flip_nth g (l : list Q) y : g_flipped g = flipped l -> length l = g_y g -> y < g_y g -> nth y (if flipped l then rev l else l) 0%Q = nth (row g y) l 0%Q.
Proof.
  intros F L Y. unfold row. rewrite F. destruct (flipped l); [|reflexivity]. rewrite rev_nth by lia. f_equal. lia.
Qed.

Section Coord.
Variable close : Q -> Q -> bool.
Variables (s : subset) (g : gdims) (lon lat : arr Q) (c : lonlat).
Hypothesis GF : grid_for g s.
Hypothesis SD : ndim lat = ndim lon.
Hypothesis E : py_lonlat close s lon lat = Some c.
Hypothesis GFL : g_flipped g = grid_flipped c.

Lemma coord_lines : ndim lon = 1 -> forall y x, y < g_y g -> x < g_x g ->
  grid_lon c y x = file_coord false lon (file_row g s y) (file_col s x) /\ grid_lat c y x = file_coord true lat (file_row g s y) (file_col s x).
Proof.
  intros N y x Y X. destruct GF as (_ & GY & GX & _). unfold py_lonlat in E. rewrite N in E. injection E as E'. unfold file_coord. rewrite SD, N. subst c. cbn [grid_flipped grid_lon grid_lat] in *. split.
  - unfold sub1. rewrite (nth_mapped _ _ _ 0) by lia. reflexivity.
  - rewrite (flip_nth g); [|exact GFL|unfold sub1; rewrite map_length; lia|exact Y]. unfold sub1. rewrite (nth_mapped _ _ _ 0) by (apply row_in; [exact GF|exact Y]). reflexivity.
Qed.
Lemma coord_sheets : 2 <= ndim lon <= 4 -> forall y x, y < g_y g -> x < g_x g ->
  (grid_lon c y x = file_coord false lon (file_row g s y) (file_col s x) \/ close (grid_lon c y x) (file_coord false lon (file_row g s y) (file_col s x)) = true) /\
  (grid_lat c y x = file_coord true lat (file_row g s y) (file_col s x) \/ close (grid_lat c y x) (file_coord true lat (file_row g s y) (file_col s x)) = true).
Proof.
  intros N y x Y X. destruct GF as (_ & GY & GX & _). rewrite <- !sheet_coord by lia.
  unfold py_lonlat in E.
  assert (E' : Some
       (if forallb (fun y0 => forallb (fun x0 => close (sheet lon (nth 0 (i_lat s) 0) (nth x0 (i_lon s) 0)) (sheet lon (nth y0 (i_lat s) 0) (nth x0 (i_lon s) 0))) (seq 0 (length (i_lon s)))) (seq 1 (length (i_lat s) - 1)) &&
           forallb (fun x0 => forallb (fun y0 => close (sheet lat (nth y0 (i_lat s) 0) (nth 0 (i_lon s) 0)) (sheet lat (nth y0 (i_lat s) 0) (nth x0 (i_lon s) 0))) (seq 0 (length (i_lat s)))) (seq 1 (length (i_lon s) - 1))
        then Lines (map (fun x0 => sheet lon (nth 0 (i_lat s) 0) (nth x0 (i_lon s) 0)) (seq 0 (length (i_lon s)))) (map (fun y0 => sheet lat (nth y0 (i_lat s) 0) (nth 0 (i_lon s) 0)) (seq 0 (length (i_lat s))))
        else Sheets (fun y0 x0 => sheet lon (nth y0 (i_lat s) 0) (nth x0 (i_lon s) 0)) (fun y0 x0 => sheet lat (nth y0 (i_lat s) 0) (nth x0 (i_lon s) 0))) = Some c).
  { destruct (ndim lon) as [|[|[|[|[|n]]]]]; try lia; exact E. }
  injection E' as EC. destruct (_ && _) eqn:B in EC.
  - apply andb_prop in B. destruct B as [B1 B2]. subst c. cbn [grid_flipped grid_lon grid_lat] in *.
    rewrite (flip_nth g); [|exact GFL|rewrite map_length, seq_length; lia|exact Y].
    pose proof (row_in s g y GF Y) as RY.
    rewrite (nth_mapped _ _ _ 0) by (rewrite seq_length; lia). rewrite (nth_mapped _ _ _ 0) by (rewrite seq_length; exact RY).
    rewrite !seq_nth by lia. cbn [Nat.add]. unfold file_row, file_col. split.
    + destruct (Nat.eq_dec (row g y) 0) as [Z0|Z0]; [left; rewrite Z0; reflexivity|right].
      pose proof (forall_seq _ _ _ B1 (row g y) ltac:(lia)) as F. cbn beta in F. exact (forall_seq _ _ _ F x ltac:(lia)).
    + destruct (Nat.eq_dec x 0) as [Z0|Z0]; [left; rewrite Z0; reflexivity|right].
      pose proof (forall_seq _ _ _ B2 x ltac:(lia)) as F. cbn beta in F. exact (forall_seq _ _ _ F (row g y) ltac:(lia)).
  - subst c. cbn [grid_flipped grid_lon grid_lat] in *. unfold file_row, file_col, row. rewrite GFL. split; left; reflexivity.
Qed.
Lemma coord_depth depth t z y x : y < g_y g -> grid_depth s c depth t z y x = file_depth depth t (file_level s z) (file_row g s y) (file_col s x).
Proof.
  intros Y. destruct GF as (_ & GY & _). unfold grid_depth, file_depth, file_level, file_row, file_col, row. rewrite GFL, GY.
  destruct (grid_flipped c); destruct (ndim depth) as [|[|[|[|n]]]]; reflexivity.
Qed.
End Coord.
