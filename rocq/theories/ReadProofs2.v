(** Proofs for C55: files. *)
From Coq Require Import List Arith Bool QArith Lia.
From Verif Require Import ReadModel ReadSpec ReadProofs.
Import ListNotations.
Open Scope nat_scope.

Section Series.
Variable s : subset.
Let nz := length (i_depth s).
Let ny := length (i_lat s).
Let nx := length (i_lon s).
Hypothesis D1 : 0 < nz.

Definition holds (fs : series) (d : arr value) : Prop :=
  dims d = [length (frames fs); nz; ny; nx] /\
  forall t z y x l a i, nth_error (frames fs) t = Some (l, a, i) -> z < nz -> get d [t; z; y; x] = in_file s l a i z y x.

Lemma frames_cons l n a fs : frames ((l, n, a) :: fs) = map (fun i => (l, a, i)) (seq 0 n) ++ frames fs.
Proof. reflexivity. Qed.
Lemma nth_map_seq {B : Type} (f : nat -> B) n t : t < n -> nth_error (map f (seq 0 n)) t = Some (f t).
Proof.
  intros L. rewrite nth_error_map. rewrite (nth_error_nth' (seq 0 n) 0) by (rewrite seq_length; exact L). cbn. rewrite seq_nth by exact L. reflexivity.
Qed.

Lemma holds_one l n a : file_ok s l n a -> exists d, file_data s n a = Some d /\ holds [(l, n, a)] d.
Proof.
  intros OK. destruct (file_data_at s l n a OK D1) as (d & E & DD & G). exists d. split; [exact E|]. split.
  - rewrite frames_cons. cbn [frames flat_map]. rewrite app_nil_r, map_length, seq_length. exact DD.
  - intros t z y x l' a' i' N Z0. rewrite frames_cons in N. cbn [frames flat_map] in N. rewrite app_nil_r in N.
    assert (L : t < n) by (rewrite <- (seq_length n 0), <- (map_length (fun i => (l, a, i))); apply nth_error_Some; rewrite N; discriminate).
    rewrite (nth_map_seq _ _ _ L) in N. injection N as <- <- <-. apply G; assumption.
Qed.
Lemma holds_app l n a fs d e : holds [(l, n, a)] d -> holds fs e -> exists c, concat2 d e = Some c /\ holds ((l, n, a) :: fs) c.
Proof.
  intros (DD & GD) (DE & GE). rewrite frames_cons in DD. cbn [frames flat_map] in DD. rewrite app_nil_r, map_length, seq_length in DD.
  unfold concat2. rewrite DD, DE, same_refl. eexists. split; [reflexivity|]. split.
  - cbn [dims]. rewrite frames_cons, app_length, map_length, seq_length. reflexivity.
  - intros t z y x l' a' i' N Z0. cbn [get]. rewrite frames_cons in N. destruct (Nat.ltb_spec t n) as [L|L].
    + apply GD; [|exact Z0]. rewrite nth_error_app1 in N by (rewrite map_length, seq_length; exact L).
      unfold frames. cbn [flat_map]. rewrite app_nil_r. exact N.
    + apply GE; [|exact Z0]. rewrite nth_error_app2 in N by (rewrite map_length, seq_length; exact L).
      rewrite map_length, seq_length in N. exact N.
Qed.
Lemma load_all_at fs : series_ok s fs -> exists d, load_all s (files_of fs) = Some d /\ holds fs d.
Proof.
  intros (NE & F). unfold load_all. induction fs as [|[[l n] a] fs IH]; [contradiction|].
  inversion F as [|? ? FO FR]; subst. destruct (holds_one l n a FO) as (d & E & H).
  cbn [files_of map fst snd]. destruct fs as [|f fs].
  - cbn. rewrite E. cbn. exists d. split; [reflexivity|exact H].
  - destruct (IH ltac:(discriminate) FR) as (e & E' & H').
    destruct (all_some (map (fun f0 => file_data s (fst f0) (snd f0)) (files_of (f :: fs)))) as [r|] eqn:ER; [|discriminate].
    fold (files_of (f :: fs)). cbn [all_some]. rewrite E, ER. cbn [concat_all].
    destruct r as [|x r]; [discriminate|]. rewrite E'. apply holds_app; assumption.
Qed.

(** ** All at once *)
Lemma scaled_kept factor vmin vmax v w : kept vmin vmax v w ->
  kept_scaled factor vmin vmax v (match factor with None => w | Some f => times_factor f w end).
Proof. intros K. exists w. split; [exact K|]. destruct factor; reflexivity. Qed.
Lemma node_scale factor g a t z y x : node g (scale_loaded factor a) t z y x =
  match factor with None => node g a t z y x | Some f => times_factor f (node g a t z y x) end.
Proof. destruct factor; [|reflexivity]. apply node_map. Qed.

Lemma immediate_at g vmin vmax factor fs : series_ok s fs -> grid_for g s -> g_t g = length (frames fs) ->
  exists d, immediate g s vmin vmax factor false (files_of fs) = Some d /\ dims d = final_dims g /\
  (forall t z y x l a i, is_node g t z y x -> nth_error (frames fs) t = Some (l, a, i) ->
     kept_scaled factor vmin vmax (in_file s l a i z (row g y) x) (node g d t z y x)).
Proof.
  intros SO (GZ & GY & GX & _) GT. destruct (load_all_at fs SO) as (a & E & DA & GA).
  assert (DD : dims a = shape_of TZYX (g_t g) (g_z g) (g_y g) (g_x g)) by (rewrite DA, GT, GZ, GY, GX; reflexivity).
  destruct (init_at g TZYX false vmin vmax a I DD) as (d & E' & D' & K).
  unfold immediate. rewrite E, E'. eexists. split; [reflexivity|]. split; [destruct factor; exact D'|].
  intros t z y x l b i N F. rewrite node_scale. apply scaled_kept. specialize (K t z y x N). cbn [place_of] in K.
  rewrite (GA t z (row g y) x l b i F) in K by (unfold nz; rewrite <- GZ; apply N). exact K.
Qed.
Lemma immediate_added_at g vmin vmax factor fs : series_ok s fs -> grid_for g s -> g_t g = length (frames fs) -> 0 < g_t g ->
  exists d, immediate g s vmin vmax factor true (files_of fs) = Some d /\ dims d = final_dims (longer g) /\
  (forall t z y x l a i, is_node (longer g) t z y x -> nth_error (frames fs) (if t =? g_t g then 0 else t) = Some (l, a, i) ->
     kept_scaled factor vmin vmax (in_file s l a i z (row g y) x) (node g d t z y x)).
Proof.
  intros SO (GZ & GY & GX & _) GT P. destruct (load_all_at fs SO) as (a & E & DA & GA).
  assert (DD : dims a = shape_of TZYX (g_t g) (g_z g) (g_y g) (g_x g)) by (rewrite DA, GT, GZ, GY, GX; reflexivity).
  destruct (init_added_at g TZYX false vmin vmax a I DD P) as (d & E' & D' & K).
  unfold immediate. rewrite E, E'. eexists. split; [reflexivity|]. split; [destruct factor; exact D'|].
  intros t z y x l b i N F. rewrite node_scale. apply scaled_kept. specialize (K t z y x N). cbn [place_of] in K.
  rewrite (GA _ z (row g y) x l b i F) in K by (unfold nz; rewrite <- GZ; apply N). exact K.
Qed.

(** ** Two frames at a time *)
Section Window.
Variables (g : gdims) (vmin vmax factor : option Q).
Hypothesis GF : grid_for g s.
Hypothesis GT : g_t g = 2.

(** The frame [l, a, i] is in place [k]. *)
Definition in_memory (d : arr value) (k : nat) (f : layout * arr value * nat) : Prop :=
  let '(l, a, i) := f in
  forall z y x, z < g_z g -> y < g_y g -> x < g_x g -> node g d k z y x = rescale factor vmin vmax (in_file s l a i z (row g y) x).
Definition readable (f : layout * arr value * nat) (n : nat) (k : Z) : Prop := let '(l, a, i) := f in file_ok s l n a /\ means k i n.

Lemma two_at b c e : dims b = [1; nz; ny; nx] -> dims c = [1; nz; ny; nx] -> concat2 b c = Some e ->
  exists d, reshape g false (amap (rescale factor vmin vmax) e) = Some d /\ dims d = final_dims g /\
  (forall z y x, z < g_z g -> y < g_y g -> x < g_x g -> node g d 0 z y x = rescale factor vmin vmax (get b [0; z; row g y; x]) /\
     node g d 1 z y x = rescale factor vmin vmax (get c [0; z; row g y; x])).
Proof.
  intros DB DC E. destruct GF as (GZ & GY & GX & _). unfold concat2 in E. rewrite DB, DC, same_refl in E. injection E as <-.
  destruct (reshape_at g TZYX false (amap (rescale factor vmin vmax) (Arr (1 + 1 :: [nz; ny; nx])
    (fun i => match i with [] => get b i | k :: i' => if k <? 1 then get b i else get c (k - 1 :: i') end)))) as (d & E & DD & N).
  - exact I.
  - cbn. rewrite GT, GZ, GY, GX. reflexivity.
  - exists d. split; [exact E|]. split; [exact DD|]. intros z y x Z0 Y X. split.
    + rewrite (N 0 z y x) by (repeat split; try assumption; lia). reflexivity.
    + rewrite (N 1 z y x) by (repeat split; try assumption; lia). reflexivity.
Qed.

Lemma first_load_at f0 n0 k0 f1 n1 k1 : readable f0 n0 k0 -> readable f1 n1 k1 ->
  exists d, first_load g s vmin vmax factor (k0, snd (fst f0)) (k1, snd (fst f1)) = Some d /\ dims d = final_dims g /\
    in_memory d 0 f0 /\ in_memory d 1 f1.
Proof.
  destruct f0 as [[l0 a0] i0], f1 as [[l1 a1] i1]. intros (O0 & M0) (O1 & M1). destruct GF as (GZ & _).
  destruct (frame_data_at s l0 n0 a0 O0 D1 g k0 i0 GZ M0) as (b & EB & DB & GB).
  destruct (frame_data_at s l1 n1 a1 O1 D1 g k1 i1 GZ M1) as (c & EC & DC & GC).
  unfold first_load. cbn [fst snd]. rewrite EB, EC.
  assert (E : exists e, concat2 b c = Some e) by (unfold concat2; rewrite DB, DC, same_refl; eexists; reflexivity).
  destruct E as (e & E). rewrite E. destruct (two_at b c e DB DC E) as (d & ED & DD & N). exists d. split; [exact ED|]. split; [exact DD|].
  split; intros z y x Z0 Y X; destruct (N z y x Z0 Y X) as [N0 N1].
  - rewrite N0, GB by (unfold nz; rewrite <- GZ; exact Z0). reflexivity.
  - rewrite N1, GC by (unfold nz; rewrite <- GZ; exact Z0). reflexivity.
Qed.

Lemma node_set k {A : Type} (a b : arr A) j z y x : node g (set_frame k a (frame j b)) k z y x = node g b j z y x.
Proof. unfold node, set_frame, frame. cbn. destruct (g_z g =? 1); rewrite Nat.eqb_refl; reflexivity. Qed.
Lemma node_set_other k k' {A : Type} (a b : arr A) z y x : k' <> k -> node g (set_frame k a b) k' z y x = node g a k' z y x.
Proof. intros N. unfold node, set_frame. cbn. apply Nat.eqb_neq in N. destruct (g_z g =? 1); rewrite N; reflexivity. Qed.

Lemma next_load_at old other f0 f1 f2 n2 k2 : dims old = final_dims g -> dims other = [1; nz; ny; nx] ->
  in_memory old 0 f0 -> in_memory old 1 f1 -> readable f2 n2 k2 ->
  exists d, next_load g s vmin vmax factor old other (k2, snd (fst f2)) = Some d /\ dims d = final_dims g /\
    in_memory d 0 f1 /\ in_memory d 1 f2.
Proof.
  destruct f1 as [[l1 a1] i1], f2 as [[l2 a2] i2]. intros DO DT _ H1 (O2 & M2). destruct GF as (GZ & _).
  destruct (frame_data_at s l2 n2 a2 O2 D1 g k2 i2 GZ M2) as (c & EC & DC & GC).
  unfold next_load. cbn [fst snd]. rewrite EC.
  assert (E : exists e, concat2 other c = Some e) by (unfold concat2; rewrite DT, DC, same_refl; eexists; reflexivity).
  destruct E as (e & E). rewrite E. destruct (two_at other c e DT DC E) as (d & ED & DD & N). rewrite ED.
  eexists. split; [reflexivity|]. split; [exact DO|]. split; intros z y x Z0 Y X.
  - rewrite node_set_other by lia. rewrite node_set. apply H1; assumption.
  - rewrite node_set. destruct (N z y x Z0 Y X) as [_ ->]. rewrite GC by (unfold nz; rewrite <- GZ; exact Z0). reflexivity.
Qed.
Lemma back_load_at old other f0 f1 f2 n2 k2 : dims old = final_dims g -> dims other = [1; nz; ny; nx] ->
  in_memory old 0 f0 -> in_memory old 1 f1 -> readable f2 n2 k2 ->
  exists d, back_load g s vmin vmax factor old other (k2, snd (fst f2)) = Some d /\ dims d = final_dims g /\
    in_memory d 0 f2 /\ in_memory d 1 f0.
Proof.
  destruct f0 as [[l1 a1] i1], f2 as [[l2 a2] i2]. intros DO DT H1 _ (O2 & M2). destruct GF as (GZ & _).
  destruct (frame_data_at s l2 n2 a2 O2 D1 g k2 i2 GZ M2) as (c & EC & DC & GC).
  unfold back_load. cbn [fst snd]. rewrite EC.
  assert (E : exists e, concat2 c other = Some e) by (unfold concat2; rewrite DT, DC, same_refl; eexists; reflexivity).
  destruct E as (e & E). rewrite E. destruct (two_at c other e DC DT E) as (d & ED & DD & N). rewrite ED.
  eexists. split; [reflexivity|]. split; [exact DO|]. split; intros z y x Z0 Y X.
  - rewrite node_set. destruct (N z y x Z0 Y X) as [-> _]. rewrite GC by (unfold nz; rewrite <- GZ; exact Z0). reflexivity.
  - rewrite node_set_other by lia. rewrite node_set. apply H1; assumption.
Qed.
End Window.
End Series.

(** ** The same values *)
Lemma rescale_none vmin vmax v : rescale None vmin vmax v = clean vmin vmax v.
Proof. reflexivity. Qed.
Lemma rescale_free f v : ~ (f == 0)%Q -> rescale (Some f) None None v = times_factor f (clean None None v).
Proof.
  intros N. unfold rescale, clean, below, above. destruct (Qeq_bool f 0) eqn:E; [apply Qeq_bool_iff in E; contradiction|].
  destruct (not_nan v); reflexivity.
Qed.
Lemma rescale_kept factor vmin vmax v : factor = None \/ (vmin = None /\ vmax = None /\ exists f, factor = Some f /\ ~ (f == 0)%Q) ->
  kept_scaled factor vmin vmax v (rescale factor vmin vmax v).
Proof.
  intros [-> | (-> & -> & f & -> & N)].
  - rewrite rescale_none. exists (clean vmin vmax v). split; [apply clean_kept|reflexivity].
  - rewrite (rescale_free f v N). exists (clean None None v). split; [apply clean_kept|]. unfold times_factor. reflexivity.
Qed.
Lemma kept_scaled_unique factor vmin vmax v w w' : kept_scaled factor vmin vmax v w -> kept_scaled factor vmin vmax v w' -> w = w'.
Proof. intros (u & K & ->) (u' & K' & ->). rewrite (kept_unique _ _ _ _ _ K K'). reflexivity. Qed.
