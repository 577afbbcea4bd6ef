(** C59: fields read together have the coordinates, dates, values and units of their own files. *)
From Coq Require Import List Arith Bool ZArith QArith String Lia.
From Verif Require Import UnitModel TogModel TogSpec TogProofs TogProofs2 TogProofs3.
Import ListNotations.
Open Scope string_scope.
Open Scope nat_scope.

(** Every variable is read, under its name, with the coordinates of its own files. *)
Theorem together_coords w a r : uniform a -> from_netcdf w a = Some r ->
  map (fun p => (fst p, f_name (snd p))) r = a_vars a /\
  forall v f, In (v, f) r -> own_coords w a v (f_grid f).
Proof.
  intros U H. unfold from_netcdf in H.
  destruct (read_vars_ok w a (fun _ _ => True) U (fun _ _ _ => I) _ (fun _ _ _ _ _ _ _ _ => I) _ _ _ _ (alike_refl _ _) (Forall_nil _) H) as [G N].
  split; [exact N|]. intros v f K. rewrite Forall_forall in G. exact (proj1 (G _ K)).
Qed.
(** The frames of every field have the dates and values of the variable's own files if these have the same dates. *)
Theorem together_frames w a r : uniform a -> aligned w -> same_dates w a -> from_netcdf w a = Some r ->
  forall v f, In (v, f) r -> own_frames w a v (f_name f) f.
Proof.
  intros U A S H v f K. unfold from_netcdf in H.
  assert (T1 : forall v v' g fs tss, In v' (map fst (a_vars a)) -> times_ok w a v g -> own_dates w a v' fs tss -> times_ok w a v' g).
  { intros x x' g fs tss _ (fs0 & tss0 & Q1 & Q2 & Q3) OD. exists fs, tss. rewrite (S _ _ _ _ _ _ OD Q1). rewrite (S _ _ _ _ _ _ OD Q1) in OD. auto. }
  destruct (read_vars_ok w a (times_ok w a) U (fun _ _ X => X) _ T1 _ _ _ _ (alike_refl _ _) (Forall_nil _) H) as [G _].
  rewrite Forall_forall in G. destruct (G _ K) as (_ & RS & (fs & tss & Q1 & Q2 & Q3)).
  apply frames_ok; [exact A|exact RS|]. exists fs, tss. auto.
Qed.
(** Read frame by frame, the dates may be divided into files differently. *)
Theorem together_frames_deferred w a r : uniform a -> aligned w -> same_dates_overall w a -> a_deferred a = true -> from_netcdf w a = Some r ->
  forall v f, In (v, f) r -> own_frames w a v (f_name f) f.
Proof.
  intros U A S D H v f K. unfold from_netcdf in H.
  pose (Tm v g := exists fs tss, own_dates w a v fs tss /\ map (fun x => (g_origin g + x)%Z) (g_time g) = List.concat tss).
  assert (T0 : forall v g, times_ok w a v g -> Tm v g) by (intros x g (fs & tss & Q1 & Q2 & Q3); exists fs, tss; auto).
  assert (T1 : forall v v' g fs tss, In v' (map fst (a_vars a)) -> Tm v g -> own_dates w a v' fs tss -> Tm v' g).
  { intros x x' g fs tss _ (fs0 & tss0 & Q1 & Q3) OD. exists fs, tss. rewrite (proj1 (S _ _ _ _ _ _ OD Q1)). auto. }
  destruct (read_vars_ok w a Tm U T0 _ T1 _ _ _ _ (alike_refl _ _) (Forall_nil _) H) as [G _].
  rewrite Forall_forall in G. destruct (G _ K) as (_ & RS & (fs & tss & Q1 & Q3)).
  apply frames_ok; [exact A|exact RS|]. exists fs, tss. repeat split; auto. right.
  destruct RS as (d & i & fs1 & tss1 & il & ia & iz & RS). repeat (destruct RS as [_ RS]).
  destruct (f_data f) as [fr|]; [|reflexivity]. exfalso. destruct RS as (_ & _ & RS).
  destruct (S _ _ _ _ _ _ Q1 Q1) as [_ L]. rewrite <- Q3, map_length in L. destruct RS as [RS|RS]; [lia|congruence].
Qed.
(** If every variable can be read alone, they can be read together, and every field is the same as alone. *)
Theorem together_alone w a fs : regular a -> NoDup (map fst (a_vars a)) -> same_dates w a -> (forall l, a_type a <> FDict l) ->
  Forall2 (fun vn f => from_netcdf w (only a vn) = Some [(fst vn, f)]) (a_vars a) fs ->
  from_netcdf w a = Some (combine (map fst (a_vars a)) fs).
Proof.
  intros R N S T F. unfold from_netcdf. rewrite (read_vars_alone w a R S T (a_vars a) fs N (fun _ I => I) F _ [] (alike_refl _ _) (fun _ _ => eq_refl) (Forall_nil _)).
  reflexivity.
Qed.
(** Without a dictionary of field types every field has the unit conversion of its name, or of the one type given. *)
Theorem together_units w a r : (forall l, a_type a <> FDict l) -> from_netcdf w a = Some r ->
  forall v f, In (v, f) r -> f_units f = own_units (a_type a) (g_flat (f_grid f)) v.
Proof.
  intros N H v f K. unfold from_netcdf in H. pose proof (read_vars_units w a _ N _ _ _ _ (Forall_nil _) H) as G. rewrite Forall_forall in G. exact (G _ K).
Qed.
(** With a dictionary the first field has the conversion of its type. *)
Theorem together_units_first w a r : from_netcdf w a = Some r ->
  match r with [] => True | (v, f) :: _ => f_units f = own_units (a_type a) (g_flat (f_grid f)) v end.
Proof.
  unfold from_netcdf. destruct (a_vars a) as [|[var name] vs]; intro H; cbn in H.
  - injection H as <-. exact I.
  - destruct (resolve w (a_files a) var) as [[p fn']|]; try discriminate. destruct (of_var (a_dims a) var); try discriminate.
    destruct (of_var (a_inds a) var); try discriminate. destruct (next_type (a_type a) var) as [ft'|] eqn:E; try discriminate.
    destruct (read_field _ _ _ _ _ _ _ _ _ _ _) as [f|] eqn:E2; try discriminate.
    apply read_vars_prefix in H. destruct H as [r' ->]. cbn. eapply units_first; [exact E|]. eapply read_field_units; eauto.
Qed.

(** ** Examples *)
Definition line (l : list (string * list Q)) (k : string) : option (list Q) := find k l.
(** A file with lines x, y, the dates t and a variable whose frames have values c, c+1, ... plus 10 y + x. *)
Definition numbered (c : Z) (n : nat) : list frame :=
  map (fun q z y x => inject_Z (c + 1000 * Z.of_nat q + 100 * Z.of_nat z + 10 * Z.of_nat y + Z.of_nat x)) (seq 0 n).
Definition mk (lon lat : list Q) (ts : list Z) (name : string) (c : Z) : nfile :=
  NFile (line [("x", lon); ("y", lat)]) None (fun t => if string_dec t "t" then Some ts else None)
        (fun v => if string_dec v name then Some (NVar false (numbered c (List.length ts))) else None).
Definition disk : world :=
  World (fun s => if string_dec s "u*.nc" then ["u1.nc"; "u2.nc"] else if string_dec s "p*.nc" then ["p1.nc"; "p2.nc"] else [s])
        (fun s => find s [("u1.nc", mk [0; 1]%Q [5; 6]%Q [100; 110]%Z "vozo" 100000); ("u2.nc", mk [0; 1]%Q [5; 6]%Q [120]%Z "vozo" 200000);
                          ("p1.nc", mk [0; 1]%Q [5; 6]%Q [100; 110]%Z "chl" 300000); ("p2.nc", mk [0; 1]%Q [5; 6]%Q [120]%Z "chl" 400000);
                          ("all.nc", mk [0; 1]%Q [5; 6]%Q [100; 110; 120]%Z "chl" 500000);
                          ("late.nc", mk [0; 1]%Q [5; 6]%Q [500; 510; 520]%Z "chl" 600000);
                          ("m1.nc", mk [0; 1]%Q [5; 6]%Q [] "" 0); ("m2.nc", mk [20; 21]%Q [5; 6]%Q [] "" 0)]).
Definition dd : dimdict := DimDict "x" "y" None (Some "t").
Definition pd (m d : string) : paths := PerDim [(DLon, Glob m); (DLat, Glob m); (DData, Glob d)].
Definition ask (fn : filenames) (vs : list (string * string)) (ds : per dimdict) (i : option inds) (ft : ftype) (def : bool) : args :=
  Args fn vs ds (All i) ft false def.
(** What can be seen of the fields: coordinates, dates, one value of each of three frames, conversion. *)
Definition seen (w : world) (o : option (list (string * field))) :=
  match o with
  | None => None
  | Some r => Some (map (fun p => let f := snd p in
      (fst p, g_lon (f_grid f), g_lat (f_grid f), map (date_of f) [0; 1; 2; 3],
       map (fun j => match frame_of w f j with Some fr => Some (fr 0 0 1) | None => None end) [0; 1; 2], f_units f)) r)
  end.
Definition UP : list (string * string) := [("U", "vozo"); ("P", "chl")].

Example together_coords_case :
  seen disk (from_netcdf disk (ask (Vars [("U", pd "m1.nc" "u*.nc"); ("P", pd "m2.nc" "p*.nc")]) UP (All dd) None FNone true)) =
  Some [("U", [0; 1]%Q, [5; 6]%Q, [Some 100; Some 110; Some 120; None]%Z, [Some 100001; Some 101001; Some 200001]%Q, GeographicPolar);
        ("P", [20; 21]%Q, [5; 6]%Q, [Some 100; Some 110; Some 120; None]%Z, [Some 300001; Some 301001; Some 400001]%Q, NoConversion)].
Proof. vm_compute. reflexivity. Qed.
Example together_frames_case :
  seen disk (from_netcdf disk (ask (Vars [("U", Same (Glob "u*.nc")); ("P", Same (Files ["p1.nc"; "p2.nc"]))]) UP (All dd)
                                   (Some (Inds (Some [1; 0]) (Some [1]) None)) FNone false)) =
  Some [("U", [1; 0]%Q, [6]%Q, [Some 100; Some 110; Some 120; None]%Z, [Some 100010; Some 101010; Some 200010]%Q, GeographicPolar);
        ("P", [1; 0]%Q, [6]%Q, [Some 100; Some 110; Some 120; None]%Z, [Some 300010; Some 301010; Some 400010]%Q, NoConversion)].
Proof. vm_compute. reflexivity. Qed.
Example together_frames_deferred_case :
  seen disk (from_netcdf disk (ask (Vars [("U", pd "m1.nc" "u*.nc"); ("P", pd "m1.nc" "all.nc")]) UP (All dd) None FNone true)) =
  Some [("U", [0; 1]%Q, [5; 6]%Q, [Some 100; Some 110; Some 120; None]%Z, [Some 100001; Some 101001; Some 200001]%Q, GeographicPolar);
        ("P", [0; 1]%Q, [5; 6]%Q, [Some 100; Some 110; Some 120; None]%Z, [Some 500001; Some 501001; Some 502001]%Q, NoConversion)].
Proof. vm_compute. reflexivity. Qed.
(** The third variable shares the grid of the first one, and none of its files. *)
Example together_alone_case :
  let a := ask (Vars [("U", pd "m1.nc" "u*.nc"); ("P", pd "m2.nc" "p*.nc"); ("Q", pd "m1.nc" "p*.nc")])
               [("U", "vozo"); ("P", "chl"); ("Q", "chl")] (All dd) None FNone true in
  match map (fun vn => seen disk (from_netcdf disk (only a vn))) (a_vars a), seen disk (from_netcdf disk a) with
  | [Some [u]; Some [p]; Some [q]], Some r => r = [u; p; q] /\ fst (fst (fst (fst (fst q)))) = "Q" /\ u <> p
  | _, _ => False
  end.
Proof. vm_compute. split; [reflexivity|]. split; [reflexivity|discriminate]. Qed.
Example together_units_case :
  option_map (map (fun p => f_units (snd p)))
    (from_netcdf disk (ask (Plain (Glob "all.nc")) [("P", "chl"); ("V", "chl"); ("Kh_zonal", "chl")] (All dd) None FNone true)) =
  Some [NoConversion; Geographic; GeographicPolarSquare].
Proof. vm_compute. reflexivity. Qed.
Example together_units_first_case :
  option_map (map (fun p => f_units (snd p)))
    (from_netcdf disk (ask (Plain (Glob "all.nc")) [("east", "chl")] (All dd) None (FDict [("north", Some "V"); ("east", Some "U")]) true)) =
  Some [GeographicPolar].
Proof. vm_compute. reflexivity. Qed.

(** ** What does not hold *)
Lemma second {B} w a (g : field -> B) v b :
  option_map (fun r => option_map (fun p => (fst p, g (snd p))) (nth_error r 1)) (from_netcdf w a) = Some (Some (v, b)) ->
  exists r f, from_netcdf w a = Some r /\ In (v, f) r /\ g f = b.
Proof.
  destruct (from_netcdf w a) as [r|]; cbn [option_map fst snd]; try discriminate. destruct (nth_error r 1) as [[v' f]|] eqn:E; cbn [option_map fst snd]; try discriminate.
  intro H. injection H as -> <-. exists r, f. repeat split. eapply nth_error_In. exact E.
Qed.
Definition works {A} (o : option A) : bool := match o with Some _ => true | None => false end.
Lemma works_some {A} (o : option A) : works o = true -> exists r, o = Some r.
Proof. destruct o; [eauto|discriminate]. Qed.
Lemma works_none {A} (o : option A) : works o = false -> o = None.
Proof. destruct o; [discriminate|reflexivity]. Qed.

(** With a dictionary of field types later fields get the type of an earlier one: the northward velocity is converted as an
    eastward one. *)
Theorem together_units_refuted :
  exists w a r f, a_type a = FDict [("east", Some "U"); ("north", Some "V")] /\ from_netcdf w a = Some r /\ In ("north", f) r /\
    g_flat (f_grid f) = false /\ f_units f = GeographicPolar /\ own_units (a_type a) false "north" = Geographic.
Proof.
  exists disk, (ask (Plain (Glob "all.nc")) [("east", "chl"); ("north", "chl")] (All dd) None (FDict [("east", Some "U"); ("north", Some "V")]) true).
  destruct (second disk (ask (Plain (Glob "all.nc")) [("east", "chl"); ("north", "chl")] (All dd) None (FDict [("east", Some "U"); ("north", Some "V")]) true)
              (fun f => (g_flat (f_grid f), f_units f)) "north" (false, GeographicPolar) ltac:(vm_compute; reflexivity)) as (r & f & A & B & C).
  pose proof (f_equal fst C) as C1. pose proof (f_equal snd C) as C2. cbn [fst snd] in C1, C2. exists r, f. repeat split; auto.
Qed.
(** With dimensions for each variable a variable gets the coordinates of another one's files. *)
Theorem together_coords_refuted :
  exists w a r f, from_netcdf w a = Some r /\ In ("P", f) r /\ own_files w (a_files a) "P" DLon = Some ["m2.nc"] /\
    line_of w "m2.nc" "x" None [20; 21]%Q /\ of_var (a_dims a) "P" = Some (DimDict "x" "y" None (Some "t")) /\ g_lon (f_grid f) = [0; 1]%Q.
Proof.
  exists disk, (ask (Vars [("U", pd "m1.nc" "u*.nc"); ("P", pd "m2.nc" "p*.nc")]) UP (Each [("U", dd); ("P", dd)]) None FNone true).
  destruct (second disk (ask (Vars [("U", pd "m1.nc" "u*.nc"); ("P", pd "m2.nc" "p*.nc")]) UP (Each [("U", dd); ("P", dd)]) None FNone true)
              (fun f => g_lon (f_grid f)) "P" [0; 1]%Q ltac:(vm_compute; reflexivity)) as (r & f & A & B & C).
  exists r, f. repeat split; auto. exists (mk [20; 21]%Q [5; 6]%Q [] "" 0), [20; 21]%Q. repeat split; reflexivity.
Qed.
Lemma late_dates a : own_files disk (a_files a) "P" DData = Some ["late.nc"] -> of_var (a_dims a) "P" = Some dd ->
  own_dates disk a "P" ["late.nc"] [[500; 510; 520]%Z].
Proof.
  intros H K. exists dd. repeat split; auto. constructor; [|constructor].
  exists (mk [0; 1]%Q [5; 6]%Q [500; 510; 520]%Z "chl" 600000). split; reflexivity.
Qed.
(** A variable whose coordinates are in the same file as another one's gets the dates of the other one. *)
Theorem together_dates_refuted :
  exists w a r f, uniform a /\ from_netcdf w a = Some r /\ In ("P", f) r /\ own_dates w a "P" ["late.nc"] [[500; 510; 520]%Z] /\
    date_of f 0 = Some 100%Z /\ exists fr, frame_of w f 0 = Some fr /\ fr 0 0 1 = 600001%Q.
Proof.
  exists disk, (ask (Vars [("U", pd "m1.nc" "all.nc"); ("P", pd "m1.nc" "late.nc")]) [("U", "chl"); ("P", "chl")] (All dd) None FNone false).
  destruct (second disk (ask (Vars [("U", pd "m1.nc" "all.nc"); ("P", pd "m1.nc" "late.nc")]) [("U", "chl"); ("P", "chl")] (All dd) None FNone false)
              (fun f => (date_of f 0, option_map (fun fr => fr 0 0 1) (frame_of disk f 0))) "P" (Some 100%Z, Some 600001%Q) ltac:(vm_compute; reflexivity))
    as (r & f & A & B & C).
  pose proof (f_equal fst C) as C1. pose proof (f_equal snd C) as C2. cbn [fst snd] in C1, C2. exists r, f. split; [left; exists dd; reflexivity|]. split; [exact A|]. split; [exact B|]. split; [now apply late_dates|].
  split; [exact C1|]. destruct (frame_of disk f 0) as [fr|]; [|discriminate]. exists fr. split; [reflexivity|]. now injection C2.
Qed.
Lemma disk_aligned : aligned disk.
Proof.
  intros f n t ts name v A B C. unfold disk in A. cbn -[string_dec mk] in A.
  repeat match type of A with context [if string_dec ?x ?y then _ else _] => destruct (string_dec x y) end; try discriminate A; injection A as <-;
  unfold mk in B, C; cbn -[string_dec numbered] in B, C;
  destruct (string_dec t "t"); try discriminate B; injection B as <-;
  match type of C with context [string_dec ?x ?y] => destruct (string_dec x y) end; try discriminate C; injection C as <-;
  unfold numbered; cbn [v_frames]; rewrite map_length, seq_length; reflexivity.
Qed.
(** Read frame by frame, its first frame then has the values of the last one. *)
Theorem together_last_refuted :
  exists w a r f, uniform a /\ aligned w /\ from_netcdf w a = Some r /\ In ("P", f) r /\ own_dates w a "P" ["late.nc"] [[500; 510; 520]%Z] /\
    exists fr, frame_of w f 0 = Some fr /\ fr 0 0 1 = 602001%Q.
Proof.
  exists disk, (ask (Vars [("U", pd "m1.nc" "u*.nc"); ("P", pd "m1.nc" "late.nc")]) UP (All dd) None FNone true).
  destruct (second disk (ask (Vars [("U", pd "m1.nc" "u*.nc"); ("P", pd "m1.nc" "late.nc")]) UP (All dd) None FNone true)
              (fun f => option_map (fun fr => fr 0 0 1) (frame_of disk f 0)) "P" (Some 602001%Q) ltac:(vm_compute; reflexivity)) as (r & f & A & B & C).
  exists r, f. split; [left; exists dd; reflexivity|]. split; [apply disk_aligned|]. split; [exact A|]. split; [exact B|]. split; [now apply late_dates|].
  destruct (frame_of disk f 0) as [fr|]; [|discriminate]. exists fr. split; [reflexivity|]. now injection C.
Qed.
(** A string as field type for all variables fails when it contains the name of one. *)
Theorem together_type_refuted :
  exists w a, from_netcdf w a = None /\ a_type a = FStr "U" /\
    exists r, from_netcdf w (Args (a_files a) (a_vars a) (a_dims a) (a_inds a) FNone (a_flat a) (a_deferred a)) = Some r.
Proof.
  exists disk, (ask (Plain (Glob "all.nc")) [("U", "chl")] (All dd) None (FStr "U") true).
  split; [apply works_none; vm_compute; reflexivity|]. split; [reflexivity|]. apply works_some. vm_compute. reflexivity.
Qed.
(** Files of lon, lat and data for one variable and one file for another: both can be read, but not after each other. *)
Theorem together_mixed_refuted :
  exists w a, a_files a = Vars [("U", PerDim [(DLon, Glob "m1.nc"); (DLat, Glob "m1.nc"); (DData, Glob "all.nc")]); ("P", Same (Glob "all.nc"))] /\
    (exists d, a_dims a = All d) /\ from_netcdf w a = None /\ forall v, In v (a_vars a) -> exists r, from_netcdf w (only a v) = Some r.
Proof.
  exists disk, (ask (Vars [("U", pd "m1.nc" "all.nc"); ("P", Same (Glob "all.nc"))]) [("U", "chl"); ("P", "chl")] (All dd) None FNone true).
  split; [reflexivity|]. split; [exists dd; reflexivity|]. split; [apply works_none; vm_compute; reflexivity|].
  intros v [<-|[<-|[]]]; apply works_some; vm_compute; reflexivity.
Qed.
(** One dictionary {dim: files} for all variables, as documented, only works for one variable. *)
Theorem together_dims_refuted :
  exists w a, a_files a = Dims [(DLon, Glob "m1.nc"); (DLat, Glob "m1.nc"); (DData, Glob "all.nc")] /\ from_netcdf w a = None /\
    (forall v, In v (a_vars a) -> exists r, from_netcdf w (Args (a_files a) [v] (a_dims a) (a_inds a) (a_type a) (a_flat a) (a_deferred a)) = Some r).
Proof.
  exists disk, (ask (Dims [(DLon, Glob "m1.nc"); (DLat, Glob "m1.nc"); (DData, Glob "all.nc")]) [("P", "chl"); ("Q", "chl")] (All dd) None FNone true).
  split; [reflexivity|]. split; [apply works_none; vm_compute; reflexivity|]. intros v [<-|[<-|[]]]; apply works_some; vm_compute; reflexivity.
Qed.

Print Assumptions together_coords.
Print Assumptions together_frames.
Print Assumptions together_frames_deferred.
Print Assumptions together_alone.
Print Assumptions together_units.
Print Assumptions together_units_first.
Print Assumptions together_units_refuted.
Print Assumptions together_coords_refuted.
Print Assumptions together_dates_refuted.
Print Assumptions together_last_refuted.
Print Assumptions together_type_refuted.
Print Assumptions together_mixed_refuted.
Print Assumptions together_dims_refuted.
