(** C58: fields that are written to files and read back. *)
From Coq Require Import List Arith Bool QArith Qabs String Lia Lqa.
From Verif Require Import IdxModel GsetModel DateModel ReadModel ReadSpec ReadProofs ReadProps SaveModel SaveSpec SaveProofs SaveProofs2.
Import ListNotations.
Open Scope nat_scope.

(** * One field *)

(** Rectilinear fields, and curvilinear ones whose rows or columns are not all the same, come back with every value at the coordinates it had. *)
Theorem saved_field rw var f : loaded f -> times_ok f -> (exists lon lat, fg_c (f_grid f) = CLines lon lat) \/ bent f ->
  exists n f', write var f = WFile n /\ read rw false (f_name f) var n = Some f' /\ same_form f f' /\ same_nodes f f'.
Proof. intros L O H. destruct (field_again f rw var L O) as (n & f' & W & R & _ & SF & _ & SN & _). exists n, f'. split; [exact W|]. split; [exact R|]. split; [exact SF|apply SN; exact H]. Qed.
Print Assumptions saved_field.

(** Of any field every value comes back, near the coordinates it had, with its date, or with its time if times count from 0. *)
Theorem saved_field_near rw var f : loaded f -> times_ok f ->
  exists n f', write var f = WFile n /\ read rw false (f_name f) var n = Some f' /\ restored f f'.
Proof. intros L O. apply again_restored. split; assumption. Qed.
Print Assumptions saved_field_near.

(** Times that are numbers come back as the times after the first. *)
Theorem saved_numbers rw var f q : loaded f -> fg_origin (f_grid f) = PNum q ->
  exists n f', write var f = WFile n /\ read rw false (f_name f) var n = Some f' /\
    forall k, k < frames_of f -> (nth k (fg_time (f_grid f')) 0 == nth k (fg_time (f_grid f)) 0 - nth 0 (fg_time (f_grid f)) 0)%Q.
Proof.
  intros L EO. assert (O : times_ok f) by (unfold times_ok; rewrite EO; exact I). destruct (field_again f rw var L O) as (n & f' & W & R & _ & _ & _ & _ & _ & Q & _).
  exists n, f'. split; [exact W|]. split; [exact R|]. apply (Q q EO).
Qed.
Print Assumptions saved_numbers.

(** Read frame by frame, which is the default for more than two frames: the field has the same nodes, and wherever a run has got to, the
    two frames in memory are those of the field that was written. *)
Theorem saved_deferred rw var f : loaded f -> times_ok f -> (exists lon lat, fg_c (f_grid f) = CLines lon lat) \/ bent f -> 2 < frames_of f ->
  exists n f', write var f = WFile n /\ read rw true (f_name f) var n = Some f' /\ same_form f f' /\
    (forall y x, y < rows f -> x < columns f -> lon_at f' y x = lon_at f y x /\ lat_at f' y x = lat_at f y x) /\
    let g := Gdims 2 (levels f) (rows f) (columns f) false in
    forall other l j k, (forall j, dims (other j) = [1; levels f; rows f; columns f]) -> j + 1 < frames_of f -> reaches (frames_of f) j l k ->
      exists d, deferred g (everything n) None None None (fun j => (Z.of_nat j, n_data n)) other j l = Some (k, d) /\
        forall t z y x, t < 2 -> z < levels f -> y < rows f -> x < columns f -> node g d t z y x = value_at f (k + t) z y x.
Proof.
  intros L O H T. destruct (field_again f rw var L O) as (n & f' & W & R & RD & SF & _ & SN & _ & _ & _ & _ & EV & DD & V). specialize (SN H). specialize (RD T).
  exists n, (Field (f_name f) (f_grid f') None "linear" false). pose proof L as (_ & _ & _ & Z & Y & X & _ & NN & _).
  split; [exact W|]. split; [exact RD|]. split; [destruct SF as (_ & SF); split; [reflexivity|exact SF]|]. split.
  { intros y x HY HX. apply (SN 0 0 y x). repeat split; try assumption. lia. }
  intros g other l j k OT J RC. set (s := Subset (seq 0 (levels f)) (seq 0 (rows f)) (seq 0 (columns f))) in *. rewrite EV.
  assert (GF : grid_for g s) by (unfold g, s, grid_for; cbn [g_z g_y g_x i_depth i_lat i_lon]; rewrite !seq_length; repeat split; assumption).
  assert (FO : file_ok s TZYX (frames_of f) (n_data n)) by (exists (levels f), (rows f), (columns f); split; [exact DD|]; cbn [s i_depth i_lat i_lon]; repeat split; apply seq_below).
  set (fs := [(TZYX, frames_of f, n_data n)]).
  assert (FE : frames fs = map (fun i => (TZYX, n_data n, i)) (seq 0 (frames_of f))) by (cbn; apply app_nil_r).
  assert (LF : List.length (frames fs) = frames_of f) by (rewrite FE, map_length, seq_length; reflexivity).
  assert (NE : forall j, j < frames_of f -> nth_error (frames fs) j = Some (TZYX, n_data n, j)).
  { intros i I. rewrite FE, nth_error_map, nth_error_nth' with (d := 0) by (rewrite seq_length; lia). rewrite seq_nth by lia. reflexivity. }
  assert (RE : reads s fs (fun j => (Z.of_nat j, n_data n))).
  { intros i lo a ii E. assert (I : i < frames_of f) by (rewrite <- LF; apply nth_error_Some; congruence). rewrite NE in E by exact I. injection E as <- <- <-. split; [reflexivity|].
    exists (frames_of f). split; [exact FO|]. split; [exact I|left; reflexivity]. }
  destruct (data_from_files_deferred_partial s g None None None fs _ other GF eq_refl RE) with (l := l) (j := j) (k := k) as (d & D & KL & _ & K).
  - intros i. rewrite OT. cbn [s i_depth i_lat i_lon]. rewrite !seq_length. reflexivity.
  - left. reflexivity.
  - rewrite LF. exact J.
  - rewrite LF. exact RC.
  - exists d. split; [exact D|]. rewrite LF in KL. intros t z y x HT HZ HY HX.
    destruct (K t z y x TZYX (n_data n) (k + t) ltac:(repeat split; assumption) (NE (k + t) ltac:(lia))) as (w & (K1 & _) & E). rewrite E.
    assert (ND : is_node_of f (k + t) z y x) by (repeat split; try assumption; lia).
    unfold in_file in K1. cbn [place_of s i_depth i_lat i_lon] in K1. change (row g y) with y in K1. rewrite !seq_nth in K1 by lia. cbn [plus] in K1. rewrite V in K1 by exact ND.
    destruct (value_at f (k + t) z y x) as [q|] eqn:EQ; [|exfalso; exact (NN _ _ _ _ ND EQ)]. apply (K1 q eq_refl). split; intros m Hm; discriminate Hm.
Qed.
Print Assumptions saved_deferred.

(** * Field sets *)

(** FieldSet.write followed by FieldSet.from_parcels: every field comes back under its name, whatever the files were before; other files
    are left alone. *)
Theorem saved_set rw base u v l d0 : f_name u = "U"%string -> f_name v = "V"%string ->
  Forall (fun f => f_name f <> "U"%string /\ f_name f <> "V"%string) l -> NoDup (map f_name l) -> Forall (fun f => loaded f /\ times_ok f) (u :: v :: l) ->
  exists d fs', write_all base (Some (IField u)) (Some (IField v)) (map IField (u :: v :: l)) d0 = (true, d) /\
    from_parcels rw false base (map (fun f => (f_name f, f_name f)) l) d = Some fs' /\ Forall2 restored (l ++ [u; v]) fs' /\
    (forall s, (forall f, In f (u :: v :: l) -> s <> file_name base (f_name f)) -> d s = d0 s).
Proof.
  intros NU NV EX ND K. inversion K as [|? ? KU K']; subst. inversion K' as [|? ? KV KL]; subst. apply set_again; assumption.
Qed.
Print Assumptions saved_set.

(** * An example *)

(** Two frames, a day apart, on a grid of one level, two rows and three columns: the value is 100 t + 10 y + x. *)
Definition q (n : nat) : Q := inject_Z (Z.of_nat n).
Definition ex_val : arr value := Arr [2; 2; 3] (fun i => match i with [t; y; x] => Some (q (100 * t + 10 * y + x)) | _ => None end).
Definition day : Q := 86400.
Definition ex_field (name : string) (o : pyt) (times : list Q) (c : coords) : field :=
  Field name (FGrid c (Some [5%Q]) 2 times o "flat") (Some ex_val) "nearest" true.
Definition ex_lines : coords := CLines [1%Q; 2%Q; 4%Q] [(-10)%Q; 10%Q].
(** Rows that run from north to south and turn to the right. *)
Definition ex_sheets : coords := CSheets 2 3 (fun y x => q (10 * x + y)) (fun y x => q (50 - 10 * y - x)).
Lemma ex_loaded name o a b c : (a < b)%Q -> c = ex_lines \/ (exists X Y, c = CSheets 2 3 X Y) -> loaded (ex_field name o [a; b] c).
Proof.
  intros AB C. assert (R : rows (ex_field name o [a; b] c) = 2 /\ columns (ex_field name o [a; b] c) = 3) by (destruct C as [->|(X & Y & ->)]; split; reflexivity).
  destruct R as [R1 R2]. unfold loaded. rewrite R1, R2. split; [reflexivity|]. split; [cbn; lia|]. split; [|split; [cbn; lia|split; [lia|split; [lia|split; [|split]]]]].
  - intros i Hi. cbn in Hi |- *. assert (i = 0) by lia. subst. exact AB.
  - exists ex_val. split; reflexivity.
  - intros t z y x _. cbn. discriminate.
  - destruct C as [->|(X & Y & ->)]; cbn; [|exact I]. unfold Qle. cbn. lia.
Qed.
Definition no_rw : string -> Z -> option Z := fun _ _ => None.
(** What is seen of a field that was written as the variable v and read back. *)
Definition seen {A : Type} (deferred : bool) (look : file -> field -> A) (f : field) : option A :=
  match write "v" f with
  | WFile n => match read no_rw deferred (f_name f) "v" n with Some f' => Some (look n f') | None => None end
  | _ => None
  end.
Example saved_field_case :
  seen false (fun _ f' => (value_at f' 1 0 1 2, lon_at f' 1 2, lat_at f' 1 2, fg_mesh (f_grid f'))) (ex_field "P" (PDate 7) [0%Q; day] ex_lines) =
  Some (Some (q 112), 4%Q, 10%Q, "flat"%string).
Proof. vm_compute. reflexivity. Qed.
(** On the curvilinear grid. *)
Example saved_field_near_case :
  seen false (fun _ f' => (value_at f' 1 0 1 2, lon_at f' 1 2, lat_at f' 1 2, fg_origin (f_grid f'), map Qred (fg_time (f_grid f')))) (ex_field "P" (PDate 7) [day; (3 * day)%Q] ex_sheets) =
  Some (Some (q 112), q 21, q 38, PDate 86400000000007, [0%Q; 172800%Q]).
Proof. vm_compute. reflexivity. Qed.
Example saved_numbers_case :
  seen false (fun _ f' => map Qred (fg_time (f_grid f'))) (ex_field "P" (PNum 0) [day; (3 * day)%Q] ex_lines) = Some [0%Q; 172800%Q].
Proof. vm_compute. reflexivity. Qed.
(** Three frames, of which the last two are in memory after one move. *)
Definition ex_three : field := Field "P" (FGrid ex_lines (Some [5%Q]) 3 [0%Q; day; (3 * day)%Q] (PDate 7) "flat")
  (Some (Arr [3; 2; 3] (fun i => match i with [t; y; x] => Some (q (100 * t + 10 * y + x)) | _ => None end))) "linear" false.
Example saved_deferred_case :
  let g := Gdims 2 1 2 3 false in
  seen true (fun n f' => (f_name f', match deferred g (everything n) None None None (fun j => (Z.of_nat j, n_data n)) (fun _ => Arr [1; 1; 2; 3] (fun _ => None)) 0 [true] with
                                     | Some (k, d) => Some (k, node g d 0 0 1 2, node g d 1 0 1 2)
                                     | None => None
                                     end)) ex_three = Some ("P"%string, Some (1, Some (q 112), Some (q 212))).
Proof. vm_compute. reflexivity. Qed.
Example saved_set_case :
  let f n := ex_field n (PNum 0) [0%Q; day] ex_lines in
  let '(ok, d) := write_all "out/" (Some (IField (f "U"%string))) (Some (IField (f "V"%string))) [IField (f "U"%string); IField (f "V"%string); IField (f "Temp"%string)] (fun _ => None) in
  (ok, match d "out/Temp.nc"%string with Some _ => true | None => false end, match d "out/W.nc"%string with Some _ => true | None => false end,
   match from_parcels no_rw false "out/" [("Temp", "Temp")]%string d with Some fs' => map (fun f' => (f_name f', value_at f' 1 0 1 2)) fs' | None => [] end) =
  (true, true, false, [("Temp", Some (q 112)); ("U", Some (q 112)); ("V", Some (q 112))]%string).
Proof. vm_compute. reflexivity. Qed.

(** * What is lost *)

(** Times that are numbers and do not begin at 0 are shifted: the frame that was at 100 s is at 0 s. *)
Theorem saved_numbers_refuted rw var : exists f n f', loaded f /\ times_ok f /\ fg_time (f_grid f) = [100%Q; 200%Q] /\
  write var f = WFile n /\ read rw false (f_name f) var n = Some f' /\ (nth 0 (fg_time (f_grid f')) 0 == 0)%Q /\ (nth 1 (fg_time (f_grid f')) 0 == 100)%Q.
Proof.
  set (f := ex_field "P" (PNum 0) [100%Q; 200%Q] ex_lines). assert (L : loaded f) by (apply ex_loaded; [reflexivity|left; reflexivity]).
  destruct (saved_numbers rw var f 0 L eq_refl) as (n & f' & W & R & K). exists f, n, f'. split; [exact L|]. split; [exact I|]. split; [reflexivity|]. split; [exact W|]. split; [exact R|].
  split; [rewrite (K 0)|rewrite (K 1)]; try (cbn; lia); reflexivity.
Qed.
Print Assumptions saved_numbers_refuted.

(** A curvilinear grid that is nearly rectilinear comes back rectilinear, with other coordinates: here one row is off by a billionth. *)
Theorem saved_curvilinear_refuted rw var : exists f n f', loaded f /\ times_ok f /\ write var f = WFile n /\ read rw false (f_name f) var n = Some f' /\
  lon_at f 1 0 = (1 # 1000000000)%Q /\ lon_at f' 1 0 = 0%Q.
Proof.
  set (f := ex_field "P" (PNum 0) [0%Q; 1%Q] (CSheets 2 3 (fun y x => if y =? 0 then q x else (q x + (1 # 1000000000))%Q) (fun y x => q y))).
  assert (L : loaded f) by (apply ex_loaded; [reflexivity|right; do 2 eexists; reflexivity]).
  destruct (written f var L) as (z & d & EZ & W & DD & V). destruct (times_read f rw) as (stamps & origin & ts & ST & CO & LT & _); [cbn; lia|apply L|exact I|].
  destruct (lonlat_cases f var z d EZ) as [[_ C]|[(y & x & HY & HX & B) _]]; [cbn; lia|cbn; lia| |].
  - destruct (read_core f rw var z d _ stamps origin ts L EZ DD V C ST CO LT) as [(d' & R & _) _].
    exists f, (file_of var f z d). eexists. split; [exact L|]. split; [exact I|]. split; [exact W|]. split; [exact R|]. split; reflexivity.
  - exfalso. cbn in HY, HX. destruct B as [B|B]; apply B; apply isclose_near; destruct y as [|[|?]]; try lia; destruct x as [|[|[|?]]]; try lia; vm_compute; reflexivity.
Qed.
Print Assumptions saved_curvilinear_refuted.

(** The interpolation method is lost, and so is extrapolation in time. *)
Theorem saved_method_refuted rw var f : loaded f -> times_ok f ->
  exists n f', write var f = WFile n /\ read rw false (f_name f) var n = Some f' /\ f_interp f' = "linear"%string /\ f_extrapolates f' = false.
Proof. intros L O. destruct (field_again f rw var L O) as (n & f' & W & R & _ & _ & _ & _ & _ & _ & A & B & _). exists n, f'. repeat (split; [assumption|]). assumption. Qed.
Print Assumptions saved_method_refuted.

(** A field of more than two frames that was read back, as from_parcels does by default, cannot be written again before its data are loaded. *)
Theorem saved_again_refuted rw var f : loaded f -> times_ok f -> 2 < frames_of f ->
  exists n f', write var f = WFile n /\ read rw true (f_name f) var n = Some f' /\ write var f' = WAttribute.
Proof.
  intros L O T. destruct (field_again f rw var L O) as (n & f' & W & R & RD & SF & _). specialize (RD T). exists n, (Field (f_name f) (f_grid f') None "linear" false).
  split; [exact W|]. split; [exact RD|]. unfold write. cbn [f_grid f_data]. destruct SF as (_ & _ & EZ & _). rewrite EZ. destruct L as (_ & _ & _ & Z & _).
  unfold levels in Z. destruct (fg_z (f_grid f)); [reflexivity|lia].
Qed.
Print Assumptions saved_again_refuted.

(** A field with a period longer than its data, to which a frame was added, cannot be written: its grid still has the number of frames there were. *)
Theorem saved_periodic_refuted var f a : fg_z (f_grid f) <> None -> 0 < levels f -> 0 < rows f -> 0 < columns f ->
  S (fg_tdim (f_grid f)) = frames_of f -> f_data f = Some a ->
  dims a = (if levels f =? 1 then [frames_of f; rows f; columns f] else [frames_of f; levels f; rows f; columns f]) -> write var f = WValue.
Proof.
  intros EZ Z Y X T A D. unfold write. destruct (fg_z (f_grid f)) as [z|] eqn:E; [|congruence]. rewrite A. unfold np_reshape.
  assert (LE : levels f = List.length z) by (unfold levels; rewrite E; reflexivity).
  replace (prod (dims a)) with (frames_of f * (levels f * (rows f * columns f))).
  - change (n_rows (fg_c (f_grid f))) with (rows f). change (n_cols (fg_c (f_grid f))) with (columns f). rewrite <- LE. cbn [prod]. rewrite <- T, Nat.mul_1_r.
    set (m := levels f * (rows f * columns f)). assert (M : 0 < m) by (unfold m; repeat apply Nat.mul_pos_pos; assumption).
    replace (S (fg_tdim (f_grid f)) * m =? fg_tdim (f_grid f) * m) with false by (symmetry; apply Nat.eqb_neq; cbn; lia). reflexivity.
  - rewrite D. destruct (levels f =? 1) eqn:E1; cbn [prod]; rewrite ?Nat.mul_1_r; [apply Nat.eqb_eq in E1; rewrite E1; lia|reflexivity].
Qed.
Print Assumptions saved_periodic_refuted.

(** Once a particle set was made, the field set holds the vector field UV, and write raises; fields that were added later are not written. *)
Theorem saved_vector_refuted base u v p d0 : f_name u = "U"%string -> f_name v = "V"%string -> f_name p = "P"%string -> loaded u -> loaded v ->
  exists d, write_all base (Some (IField u)) (Some (IField v)) [IField u; IField v; IOther "UV"; IField p] d0 = (false, d) /\ d (file_name base "P") = d0 (file_name base "P").
Proof.
  intros NU NV NP LU LV. destruct (written u "vozocrtx" LU) as (zu & du & _ & WU & _). destruct (written v "vomecrty" LV) as (zv & dv & _ & WV & _).
  eexists. split.
  - unfold write_all, put_named, put_item. rewrite WU, WV. cbn [put_rest item_name]. rewrite NU, NV. cbn. reflexivity.
  - unfold put. destruct (String.eqb (file_name base "P") _) eqn:E; [apply String.eqb_eq, file_name_inj in E; congruence|].
    destruct (String.eqb (file_name base "P") (file_name base "U")) eqn:E2; [apply String.eqb_eq, file_name_inj in E2; congruence|reflexivity].
Qed.
Print Assumptions saved_vector_refuted.

(** The calendar is lost: if the standard calendar has another number of days between two dates than the calendar of the field, the later
    date comes back as another one. *)
Theorem saved_calendar_refuted rw var cal o o' a b : rw cal o = Some a -> rw cal o' = Some b -> b <> (a + (o' - o) * 1000)%Z -> (o < o')%Z ->
  exists f n f', loaded f /\ fg_origin (f_grid f) = PCf cal o /\ (nth 1 (fg_time (f_grid f)) 0 * 1000000 == inject_Z (o' - o))%Q /\
    write var f = WFile n /\ read rw false (f_name f) var n = Some f' /\ instant f' 0 (inject_Z a) /\ ~ instant f' 1 (inject_Z b).
Proof.
  intros RA RB NE LT. set (t := (inject_Z (o' - o) / 1000000)%Q). assert (TP : (0 < t)%Q).
  { unfold t. apply Qlt_shift_div_l; [reflexivity|]. setoid_replace (0 * 1000000)%Q with (inject_Z 0) by reflexivity. rewrite <- Zlt_Qlt. lia. }
  set (f := ex_field "P" (PCf cal o) [0%Q; t] ex_lines). assert (L : loaded f) by (apply ex_loaded; [exact TP|left; reflexivity]).
  destruct (written f var L) as (z & d & EZ & W & DD & V). destruct (lonlat_cases f var z d EZ) as [[_ C]|[B _]]; [cbn; lia|cbn; lia| |exfalso; exact (not_bent f _ _ eq_refl B)].
  set (k := py_int (t * per_s)%Q). assert (K : k = ((o' - o) * 1000)%Z).
  { unfold k. apply py_int_whole. unfold t, per_s. rewrite inject_Z_mult. change (inject_Z 1000) with 1000%Q. field. }
  set (dt := fun j => (inject_Z ((a + j) - (a + 0)) / per_s)%Q).
  assert (ST : all_some (map (decode rw (units_of (fg_origin (f_grid f)))) (fg_time (f_grid f))) = Some [PDate (a + 0); PDate (a + k)]).
  { cbn [f ex_field f_grid fg_time fg_origin units_of calendar_of map]. unfold decode. rewrite RA. reflexivity. }
  assert (CO : collect [PDate (a + 0); PDate (a + k)] = DOk (PDate (a + 0), [dt 0%Z; dt k])).
  { unfold collect. cbn [each reltime number]. fold (dt 0%Z). fold (dt k). cbn [pairs forallb]. replace (qlt (dt 0%Z) (dt k)) with true; [reflexivity|].
    symmetry. unfold qlt. apply negb_true_iff. destruct (Qle_bool _ _) eqn:E; [|reflexivity]. apply Qle_bool_iff in E. exfalso. unfold dt in E.
    replace (a + 0 - (a + 0))%Z with 0%Z in E by lia. replace (a + k - (a + 0))%Z with k in E by lia. unfold per_s in E.
    assert (KP : (0 < inject_Z k)%Q) by (change 0%Q with (inject_Z 0); rewrite <- Zlt_Qlt, K; clear - LT; lia).
    assert (Z0 : (inject_Z 0 / 1000000000 == 0)%Q) by reflexivity. rewrite Z0 in E. assert (P : (0 < inject_Z k / 1000000000)%Q) by (apply Qlt_shift_div_l; [reflexivity|lra]). lra. }
  destruct (read_core f rw var z d _ _ _ _ L EZ DD V C ST CO eq_refl) as [(d' & R & _) _].
  exists f, (file_of var f z d). eexists. split; [exact L|]. split; [reflexivity|]. split; [cbn; unfold t; field|]. split; [exact W|]. split; [exact R|]. split.
  - exists (a + 0)%Z. split; [reflexivity|]. cbn [f_grid fg_time nth]. unfold dt. replace (a + 0 - (a + 0))%Z with 0%Z by lia. rewrite Z.add_0_r. unfold per_s. field.
  - intros (oo & E & I). cbn [f_grid fg_origin fg_time nth] in E, I. injection E as <-. apply NE. unfold dt in I.
    replace (a + k - (a + 0))%Z with k in I by lia. rewrite Z.add_0_r in I. unfold per_s in I.
    assert (I2 : (inject_Z b == inject_Z (a + k))%Q) by (rewrite I, inject_Z_plus; field). rewrite K in I2. exact (proj1 (inject_Z_injective _ _) I2).
Qed.
Print Assumptions saved_calendar_refuted.
