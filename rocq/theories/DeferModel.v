(** Model of deferred loading: which two frames of a time series are in memory.

    Sources: parcels/grid.py 188-234 (Grid.computeTimeChunk), parcels/fieldset.py 1017-1168
    (FieldSet.computeTimeChunk), parcels/field.py 140-156, 182-183 (added last frame), 223-252
    (collect_timeslices), 1344-1379 (Field.computeTimeChunk), 1048-1078 (the periods stored by time_index);
    parcels/include/index_search.h 433-458 (the periods stored by search_time_index).

    Simplifications: times are rationals (the code uses doubles); a frame is one abstract value, so reshaping, halos,
    rescaling, depth fields and chunks are left out (chunks: ChunkModel). Fields that share a grid have the same time_periodic and
    allow_time_extrapolation, so that the call of Grid.computeTimeChunk for a further field of the grid, made
    only when the grid was not updated, repeats the result of the first (fieldset.py 1034-1037). Fields have
    files (dataFiles is not None). *)
From Coq Require Import List ZArith Bool QArith Qround.
From Verif Require Import IdxModel TimeModel.
Import ListNotations.
Open Scope Z_scope.

Section Defer.
Variable V : Type.

(** A time series in files: the times of each file, and the frame of a file at a position in it. *)
Record series := { se_files : list (list Q); se_added : option Q }.

(** field.py 238-239 dataFiles: the name of each file once for each of its times; 183: the first again for the
    added frame. *)
Fixpoint names_from (n : nat) (files : list (list Q)) : list nat :=
  match files with
  | [] => []
  | ts :: rest => repeat n (length ts) ++ names_from (S n) rest
  end.
Definition data_files (se : series) : list nat :=
  let l := names_from 0 (se_files se) in
  match se_added se with
  | None => l
  | Some _ => l ++ firstn 1 l
  end.

(** field.py 237, 242 time and 154-156: one more time, a period after the first. *)
Definition time_full (se : series) : list Q :=
  let l := concat (se_files se) in
  match se_added se, l with
  | Some period, t0 :: _ => l ++ [(t0 + period)%Q]
  | _, _ => l
  end.

(** field.py 1356-1366 and fieldfilebuffer.py 163: the frame read for position [pos] of the series and the
    window time [w]. Index -1 is the last frame of the file. *)
Definition read_frame (se : series) (content : nat -> Z -> V) (pos : Z) (w : Q) : option V :=
  if pos <? 0 then None
  else match nth_error (data_files se) (Z.to_nat pos) with
       | None => None
       | Some fi =>
           let ts := nth fi (se_files se) [] in
           let j := np_argmin (map (fun v => qle v w) ts) - 1 in
           let j' := if j <? 0 then j + zlen ts else j in
           if (0 <=? j') && (j' <? zlen ts) then Some (content fi j') else None
       end.

(** grid.py 61-66, field.py 438-439: ti, time and periods of a grid. *)
Record gstate := { s_ti : Z; s_time : list Q; s_periods : Z }.

Inductive status := NotUpdated | Updated | FirstUpdated.

(** A time, or plus or minus infinity. *)
Inductive ext := NegInf | Fin (q : Q) | PosInf.

Inductive chunked := Chunk (st : gstate) (u : status) (next : ext) | ChunkExtrap | ChunkBad.

(** time_full[i:i+2]. *)
Definition slice2 (l : list Q) (i : Z) : option (list Q) :=
  if i <? 0 then None else Some (firstn 2 (skipn (Z.to_nat i) l)).

Definition qeqb (a b : Q) : bool := Qeq_bool a b.
Fixpoint eq_times (a b : list Q) : bool :=
  match a, b with
  | x :: a', y :: b' => qeqb x y && eq_times a' b'
  | _, _ => true
  end.

(** field.py 1058-1065: time_index stores the periods when all or none of the times are before [t]. *)
Definition stores (periodic : bool) (tm : list Q) (t : Q) : bool :=
  let le := map (fun v => qle v t) tm in
  periodic && (np_all le || np_all (map negb le)).

(** grid.py 192-207: what the frames in memory say about [t]; the result is ti, time and update_status. *)
Definition chunk_move (full : list Q) (f0 fn w0 w1 : Q) (st : gstate) (t : Q) (sgn : Z) : option (Z * list Q * status) :=
  let t' := (t - inject_Z (s_periods st) * (fn - f0))%Q in
  if qlt t' w0 || qlt w1 t' then Some (-1, s_time st, NotUpdated)
  else if (0 <=? sgn) && (qlt t' f0 || qle fn t') then Some (-1, s_time st, NotUpdated)
  else if (sgn <? 0) && (qle t' f0 || qlt fn t') then Some (-1, s_time st, NotUpdated)
  else if (0 <=? sgn) && qle w1 t' && (s_ti st <? zlen full - 2) then
    match slice2 full (s_ti st + 1) with Some w => Some (s_ti st + 1, w, Updated) | None => None end
  else if (sgn <? 0) && qle t' w0 && (0 <? s_ti st) then
    match slice2 full (s_ti st - 1) with Some w => Some (s_ti st - 1, w, Updated) | None => None end
  else Some (s_ti st, s_time st, NotUpdated).

(** grid.py 208-229: the frames found from the whole time axis. The result also has the number of periods in the
    local variable, which is not always the one stored. *)
Definition chunk_reset (periodic extrapolate : bool) (full : list Q) (f0 fn : Q) (st : gstate) (t : Q) (sgn : Z) :
    (gstate * status * Z) + bool :=
  match py_time_index periodic extrapolate full f0 fn t with
  | TExtrap => inr true
  | TBad => inr false
  | TAt i p =>
      let stored := if stores periodic full t then p else s_periods st in
      let wrap := (sgn =? -1) && (i =? 0) && qeqb (t - inject_Z stored * (fn - f0)) f0 && periodic in
      let i1 := if wrap then zlen full - 1 else i in
      let local := if wrap then stored - 1 else stored in
      let i2 := if (sgn =? -1) && (0 <? i1) then i1 - 1 else i1 in
      let i3 := if zlen full - 1 <=? i2 then zlen full - 2 else i2 in
      match slice2 full i3 with
      | None => inr false
      | Some w =>
          let prev := s_time st in
          let u := if negb (zlen prev =? 2) || negb (zlen prev =? zlen w) then FirstUpdated
                   else if eq_times w prev then NotUpdated
                   else if eq_times (firstn 1 w) (firstn 1 prev) then Updated
                   else FirstUpdated in
          inl ({| s_ti := i3; s_time := w; s_periods := stored |}, u, local)
      end
  end.

(** grid.py 230-234. *)
Definition chunk_next (extrapolate : bool) (full : list Q) (f0 fn : Q) (ti : Z) (tm : list Q) (local : Z) (sgn : Z) : option ext :=
  match pyget tm 0, pyget tm 1 with
  | Some w0, Some w1 =>
      if (0 <=? sgn) && ((ti <? zlen full - 2) || negb extrapolate) then
        Some (Fin (w1 + inject_Z local * (fn - f0))%Q)
      else if (sgn <? 0) && ((0 <? ti) || negb extrapolate) then
        Some (Fin (w0 + inject_Z local * (fn - f0))%Q)
      else Some (if 0 <=? sgn then PosInf else NegInf)
  | _, _ => None
  end.

(** grid.py 188-234, called with update_status 'not_updated'; [sgn] is the sign of dt. *)
Definition grid_chunk (periodic extrapolate : bool) (full : list Q) (st : gstate) (t : Q) (sgn : Z) : chunked :=
  match pyget full 0, pyget full (-1) with
  | Some f0, Some fn =>
      let moved :=
        if 0 <=? s_ti st then
          match pyget (s_time st) 0, pyget (s_time st) 1 with
          | Some w0, Some w1 => chunk_move full f0 fn w0 w1 st t sgn
          | _, _ => None
          end
        else Some (s_ti st, s_time st, NotUpdated) in
      match moved with
      | None => ChunkBad
      | Some (ti, tm, u) =>
          let r :=
            if ti =? -1 then chunk_reset periodic extrapolate full f0 fn st t sgn
            else inl ({| s_ti := ti; s_time := tm; s_periods := s_periods st |}, u, s_periods st) in
          match r with
          | inr true => ChunkExtrap
          | inr false => ChunkBad
          | inl (st', u', local) =>
              match chunk_next extrapolate full f0 fn (s_ti st') (s_time st') local sgn with
              | None => ChunkBad
              | Some next => Chunk st' u' next
              end
          end
      end
  | _, _ => ChunkBad
  end.

(** A grid with its time series and its fields: the contents of their files, and the two frames in memory. *)
Record dgrid := {
  d_series : series; d_periodic : bool; d_extrapolate : bool;
  d_state : gstate; d_fields : list ((nat -> Z -> V) * option (V * V)) }.

Inductive result (A : Type) := Ok (a : A) | Extrap | Bad.
Arguments Ok {A}. Arguments Extrap {A}. Arguments Bad {A}.

(** fieldset.py 1044-1148: the frames in memory after an update. *)
Definition load_field (se : series) (st : gstate) (u : status) (sgn : Z) (f : (nat -> Z -> V) * option (V * V)) :
    option ((nat -> Z -> V) * option (V * V)) :=
  match pyget (s_time st) 0, pyget (s_time st) 1 with
  | Some w0, Some w1 =>
      let first := read_frame se (fst f) (s_ti st) w0 in
      let second := read_frame se (fst f) (s_ti st + 1) w1 in
      match u with
      | NotUpdated => Some f
      | FirstUpdated =>
          match first, second with Some a, Some b => Some (fst f, Some (a, b)) | _, _ => None end
      | Updated =>
          match snd f with
          | None => None
          | Some (a, b) =>
              if 0 <=? sgn then match second with Some b' => Some (fst f, Some (b, b')) | None => None end
              else match first with Some a' => Some (fst f, Some (a', a)) | None => None end
          end
      end
  | _, _ => None
  end.

Fixpoint map_opt {A B} (f : A -> option B) (l : list A) : option (list B) :=
  match l with
  | [] => Some []
  | a :: r => match f a, map_opt f r with Some b, Some bs => Some (b :: bs) | _, _ => None end
  end.

Definition ext_le (a b : ext) : bool :=
  match a, b with
  | NegInf, _ => true
  | _, PosInf => true
  | Fin x, Fin y => qle x y
  | _, _ => false
  end.
Definition ext_min (a b : ext) : ext := if ext_le b a then b else a.
Definition ext_max (a b : ext) : ext := if ext_le a b then b else a.

(** fieldset.py 1031-1038: the frames needed by each grid and the earliest (latest) time of a reload. *)
Fixpoint chunk_all (gs : list dgrid) (t : Q) (sgn : Z) (next : ext) : result (list (gstate * status) * ext) :=
  match gs with
  | [] => Ok ([], next)
  | g :: r =>
      match grid_chunk (d_periodic g) (d_extrapolate g) (time_full (d_series g)) (d_state g) t sgn with
      | ChunkExtrap => Extrap
      | ChunkBad => Bad
      | Chunk st u n =>
          if negb (sgn =? 0) && match n with Fin q => qeqb t q | _ => false end then Extrap
          else
            match chunk_all r t sgn (if 0 <=? sgn then ext_min next n else ext_max next n) with
            | Ok (l, n') => Ok ((st, u) :: l, n')
            | Extrap => Extrap
            | Bad => Bad
            end
      end
  end.

(** fieldset.py 1040-1148. *)
Fixpoint load_all (gs : list dgrid) (us : list (gstate * status)) (sgn : Z) : option (list dgrid) :=
  match gs, us with
  | [], [] => Some []
  | g :: gs', (st, u) :: us' =>
      match map_opt (load_field (d_series g) st u sgn) (d_fields g), load_all gs' us' sgn with
      | Some fs, Some r => Some ({| d_series := d_series g; d_periodic := d_periodic g; d_extrapolate := d_extrapolate g;
                                    d_state := st; d_fields := fs |} :: r)
      | _, _ => None
      end
  | _, _ => None
  end.

Definition qsign (q : Q) : Z := Z.sgn (Qnum q).
(** int() of a quotient: towards zero. *)
Definition qtrunc (q : Q) : Z := if qle 0 q then Qfloor q else Qceiling q.

(** fieldset.py 1161-1168. *)
Definition round_next (t dt : Q) (next : ext) : ext :=
  match next with
  | Fin n =>
      let steps := qtrunc ((n - t) / dt) in
      if steps =? 0 then Fin n else Fin (t + inject_Z steps * dt)%Q
  | e => e
  end.

(** fieldset.py 1017-1168: the grids after the call, and the time until which nothing has to be loaded. *)
Definition request (gs : list dgrid) (t dt : Q) : result (list dgrid * ext) :=
  let sgn := qsign dt in
  match chunk_all gs t sgn (if 0 <? sgn then PosInf else NegInf) with
  | Ok (us, next) =>
      match load_all gs us sgn with
      | Some gs' => Ok (gs', round_next t dt next)
      | None => Bad
      end
  | Extrap => Extrap
  | Bad => Bad
  end.

(** index_search.h 433-458: the periods stored after the search for [t] in the frames in memory; [None] when the
    recursion exceeds [k]. *)
Fixpoint c_periods (k : nat) (tm : list Q) (fmin fmax : Q) (t : Q) (p : Z) : option Z :=
  match k with
  | O => None
  | S k' =>
      match cget tm 0, cget tm (zlen tm - 1) with
      | Some t0, Some tn =>
          if qlt t t0 then
            let q := Qfloor ((t - fmin) / (fmax - fmin)) in
            let t1 := (t - inject_Z q * (fmax - fmin))%Q in
            if qlt t1 t0 then c_periods k' tm fmin fmax (t1 - inject_Z (q - 1) * (fmax - fmin))%Q (q - 1)
            else c_periods k' tm fmin fmax t1 q
          else if qlt tn t then
            let q := Qfloor ((t - fmin) / (fmax - fmin)) in
            c_periods k' tm fmin fmax (t - inject_Z q * (fmax - fmin))%Q q
          else Some p
      | _, _ => None
      end
  end.

(** Sampling a field of the grid at a time: only the stored periods may change. In JIT mode as above, in Scipy mode
    field.py 1058-1065. *)
Definition sample_periods (jit : bool) (k : nat) (g : dgrid) (s : Q) : option dgrid :=
  let full := time_full (d_series g) in
  let st := d_state g in
  match pyget full 0, pyget full (-1) with
  | Some f0, Some fn =>
      let p :=
        if negb (d_periodic g) then Some (s_periods st)
        else if jit then c_periods k (s_time st) f0 fn s (s_periods st)
        else Some (if stores true (s_time st) s then Qfloor ((s - f0) / (fn - f0)) else s_periods st) in
      match p with
      | None => None
      | Some p' => Some {| d_series := d_series g; d_periodic := d_periodic g; d_extrapolate := d_extrapolate g;
                           d_state := {| s_ti := s_ti st; s_time := s_time st; s_periods := p' |};
                           d_fields := d_fields g |}
      end
  | _, _ => None
  end.

(** What happens to the grids during a simulation. *)
Inductive event :=
  | Request (t dt : Q)
  | Sampled (jit : bool) (k n : nat) (s : Q).   (* a field of grid n at time s *)

Fixpoint update {A} (l : list A) (n : nat) (a : A) : list A :=
  match l, n with
  | [], _ => []
  | _ :: r, O => a :: r
  | b :: r, S n' => b :: update r n' a
  end.

Definition event_step (gs : list dgrid) (e : event) : option (list dgrid) :=
  match e with
  | Request t dt => match request gs t dt with Ok (gs', _) => Some gs' | _ => None end
  | Sampled jit k n s =>
      match nth_error gs n with
      | None => None
      | Some g => match sample_periods jit k g s with Some g' => Some (update gs n g') | None => None end
      end
  end.

Fixpoint history (gs : list dgrid) (es : list event) : option (list dgrid) :=
  match es with
  | [] => Some gs
  | e :: r => match event_step gs e with Some gs' => history gs' r | None => None end
  end.

(** field.py 438-440: a grid before anything is loaded. *)
Definition fresh_grid (se : series) (periodic extrapolate : bool) (contents : list (nat -> Z -> V)) : dgrid :=
  {| d_series := se; d_periodic := periodic; d_extrapolate := extrapolate;
     d_state := {| s_ti := -1; s_time := time_full se; s_periods := 0 |};
     d_fields := map (fun c => (c, None)) contents |}.
End Defer.

Arguments Ok {A}. Arguments Extrap {A}. Arguments Bad {A}.
