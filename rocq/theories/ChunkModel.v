(** Model of chunked fields in JIT mode: the chunk table, the lookup of a cell in C, the loading of chunks.

    Sources: parcels/field.py 1114-1177 (get_block, chunk_setup, chunk_data), 1188-1199 (ctypes_struct);
    parcels/include/parcels.h 284-371 (getBlock2D, getCell2D), 376-474 (getBlock3D, getCell3D);
    parcels/kernel.py 236-274 (execute_jit), 280-297 (execute_python), 411-415 (execute);
    parcels/fieldset.py 1069-1076, 1124-1127 (flags after new data).

    Simplifications: one grid; the functions for two and three dimensions are the same text up to the number of
    dimensions and are one function here, on the list of indices (y, x) or (z, y, x). A value has any type. Chunk
    sizes are those of dask and are given. Reads outside an array are [None] and give [CellBad]. *)
From Coq Require Import List ZArith Bool.
From Verif Require Import IdxModel.
Import ListNotations.
Open Scope Z_scope.

Definition rd {A} (l : list A) (i : Z) : option A := if i <? 0 then None else nth_error l (Z.to_nat i).
Definition wr {A} (l : list A) (i : Z) (a : A) : list A :=
  if i <? 0 then l
  else firstn (Z.to_nat i) l ++ match skipn (Z.to_nat i) l with [] => [] | _ :: t => a :: t end.
Definition zseq (n : Z) : list Z := map Z.of_nat (seq 0 (Z.to_nat n)).

(** The sizes of the chunks along each space dimension. *)
Definition chunks := list (list Z).
Definition shape (cs : chunks) : list Z := map zlen cs.
Definition zsum (l : list Z) : Z := fold_right Z.add 0 l.
Definition zprod (l : list Z) : Z := fold_right Z.mul 1 l.

(** field.py 1120-1144: number of dimensions, number of chunks per dimension, sizes of the chunks. *)
Definition chunk_info (cs : chunks) : list Z := zlen cs :: shape cs ++ concat cs.
Definition npartitions (cs : chunks) : Z := zprod (shape cs).

(** ** C *)
(** parcels.h 293-304: the loop on the chunks of a dimension, from [j] and the sum of the sizes before. *)
Fixpoint c_find (info : list Z) (base : Z) (n : nat) (j sum idx : Z) : option (Z * Z) :=
  match n with
  | O => Some (j, sum)
  | S n' =>
      match rd info (base + j) with
      | None => None
      | Some c => if idx <? sum + c then Some (j, sum) else c_find info base n' (j + 1) (sum + c) idx
      end
  end.

(** parcels.h 290-307 for each dimension, and the size of the chunk found (329-332, 422-426). *)
Record axis := mkAxis { x_shape : Z; x_block : Z; x_local : Z; x_dim : option Z }.
Fixpoint c_axes (info : list Z) (ndim i shift : Z) (idx : list Z) : option (list axis) :=
  match idx with
  | [] => Some []
  | x :: rest =>
      match rd info (1 + i) with
      | None => None
      | Some s =>
          match c_find info (1 + ndim + shift) (Z.to_nat s) 0 0 x with
          | None => None
          | Some (b, sum) =>
              match c_axes info ndim (i + 1) (shift + s) rest with
              | None => None
              | Some l => Some (mkAxis s b (x - sum) (rd info (1 + ndim + shift + b)) :: l)
              end
          end
      end
  end.
Definition c_getblock (info : list Z) (idx : list Z) : option (list axis) :=
  match rd info 0 with Some ndim => c_axes info ndim 0 0 idx | None => None end.

(** parcels.h 309-311, 401-404: block[0]*shape[1]*shape[2] + block[1]*shape[2] + block[2]. *)
Definition c_bid (l : list axis) : Z := fold_left (fun a x => a * x_shape x + x_block x) l 0.

(** A pointer to float [zdim][ydim][xdim]: the place of data[t][z][y][x] in memory. *)
Fixpoint c_offset (t : Z) (l : list (Z * Z)) : Z :=
  match l with [] => t | (d, i) :: rest => c_offset (t * d + i) rest end.

(** parcels.h 324-328: status of the chunk. *)
Definition c_touch (flags : list Z) (bid : Z) : option (bool * list Z) :=
  match rd flags bid with
  | None => None
  | Some f => if f <? 2 then Some (false, wr flags bid 1) else Some (true, wr flags bid 2)
  end.

Fixpoint all_dims (l : list axis) : option (list Z) :=
  match l with
  | [] => Some []
  | x :: rest => match x_dim x, all_dims rest with Some d, Some ds => Some (d :: ds) | _, _ => None end
  end.

Section values.
Context {V : Type}.
(** data_chunks: NULL or the values in memory. *)
Definition memory := list (option (list V)).

Definition c_read (mem : memory) (bid t : Z) (dims locs : list Z) : option V :=
  match rd mem bid with
  | Some (Some data) => rd data (c_offset t (combine dims locs))
  | _ => None
  end.

Inductive cellres := Repeat (flags : list Z) | Cell (vals : list V) (flags : list Z) | CellBad.

(** The corners of a cell, the last index running first. *)
Fixpoint bits (n : nat) : list (list Z) :=
  match n with O => [[]] | S n' => map (cons 0) (bits n') ++ map (cons 1) (bits n') end.
Fixpoint zadd (a b : list Z) : list Z := match a, b with x :: a', y :: b' => x + y :: zadd a' b' | _, _ => [] end.
Definition tsteps (first : bool) : list Z := if first then [0] else [0; 1].
Definition todo (first : bool) (n : nat) : list (Z * list Z) :=
  flat_map (fun t => map (fun b => (t, b)) (bits n)) (tsteps first).

(** parcels.h 336-358, 430-454: the cell is on multiple chunks. *)
Fixpoint c_multi (info : list Z) (mem : memory) (idx : list Z) (ti : Z) (l : list (Z * list Z)) (acc : list V)
    (flags : list Z) : cellres :=
  match l with
  | [] => Cell acc flags
  | (t, b) :: rest =>
      match c_getblock info (zadd idx b) with
      | None => CellBad
      | Some axes =>
          match c_touch flags (c_bid axes) with
          | None => CellBad
          | Some (false, fl) => Repeat fl
          | Some (true, fl) =>
              match all_dims axes with
              | None => CellBad
              | Some dims =>
                  match c_read mem (c_bid axes) (ti + t) dims (map x_local axes) with
                  | None => CellBad
                  | Some v => c_multi info mem idx ti rest (acc ++ [v]) fl
                  end
              end
          end
      end
  end.

(** parcels.h 360-371, 457-474: one chunk. A dimension of one point is read twice. *)
Fixpoint shifted (dims locs b : list Z) : list Z :=
  match dims, locs, b with
  | d :: dims', l :: locs', x :: b' => l + x * (if d =? 1 then 0 else 1) :: shifted dims' locs' b'
  | _, _, _ => []
  end.
Fixpoint c_single (mem : memory) (bid : Z) (dims locs : list Z) (ti : Z) (l : list (Z * list Z)) (acc : list V)
    (flags : list Z) : cellres :=
  match l with
  | [] => Cell acc flags
  | (t, b) :: rest =>
      match c_read mem bid (ti + t) dims (shifted dims locs b) with
      | None => CellBad
      | Some v => c_single mem bid dims locs ti rest (acc ++ [v]) flags
      end
  end.

(** parcels.h 334, 428 *)
Fixpoint straddles (dims locs : list Z) : bool :=
  match dims, locs with
  | d :: dims', l :: locs' => ((l =? d - 1) && (1 <? d)) || straddles dims' locs'
  | _, _ => false
  end.

(** parcels.h 313-374, 406-476. [mem] are the data_chunks of the field, [flags] the load_chunk of the grid. *)
Definition c_getcell (info : list Z) (mem : memory) (flags : list Z) (idx : list Z) (ti : Z) (first : bool) : cellres :=
  match c_getblock info idx with
  | None => CellBad
  | Some axes =>
      match c_touch flags (c_bid axes) with
      | None => CellBad
      | Some (false, fl) => Repeat fl
      | Some (true, fl) =>
          match all_dims axes with
          | None => CellBad
          | Some dims =>
              if straddles dims (map x_local axes)
              then c_multi info mem idx ti (todo first (length idx)) [] fl
              else c_single mem (c_bid axes) dims (map x_local axes) ti (todo first (length idx)) [] fl
          end
      end
  end.

(** ** Loading *)
(** A field of values, by time and indices. *)
Definition array := Z -> list Z -> V.

(** A C-contiguous copy of an array. *)
Fixpoint row_major (dims : list Z) (f : list Z -> V) : list V :=
  match dims with
  | [] => [f []]
  | d :: ds => flat_map (fun i => row_major ds (fun l => f (i :: l))) (zseq d)
  end.

(** np.unravel_index *)
Fixpoint unravel (sh : list Z) (b : Z) : list Z :=
  match sh with [] => [] | _ :: ss => b / zprod ss :: unravel ss (b mod zprod ss) end.

(** field.py 1153: np.array(self.data.blocks[(slice(tdim),) + block]); [block] by get_block (1117). *)
Fixpoint block_dims (cs : chunks) (blk : list Z) : list Z :=
  match cs, blk with c :: cs', b :: blk' => nth (Z.to_nat b) c 0 :: block_dims cs' blk' | _, _ => [] end.
Fixpoint block_origin (cs : chunks) (blk : list Z) : list Z :=
  match cs, blk with c :: cs', b :: blk' => zsum (firstn (Z.to_nat b) c) :: block_origin cs' blk' | _, _ => [] end.
Definition slab (dims : list Z) (origin : list Z) (tdim : Z) (a : array) : list V :=
  row_major (tdim :: dims) (fun l => match l with t :: idx => a t (zadd origin idx) | [] => a 0 [] end).
Definition block_values (cs : chunks) (tdim : Z) (a : array) (bid : Z) : list V :=
  let blk := unravel (shape cs) bid in slab (block_dims cs blk) (block_origin cs blk) tdim a.
(** field.py 1165-1169: data_chunks[0] = np.array(self.data). *)
Definition whole_values (cs : chunks) (tdim : Z) (a : array) : list V :=
  slab (map zsum cs) (map (fun _ => 0) cs) tdim a.

(** field.py 1150-1160, one block of a dask array. *)
Definition load_block (cs : chunks) (tdim : Z) (a : array) (bid flag : Z) (m : option (list V)) : option (list V) :=
  if flag =? 1 then Some (block_values cs tdim a bid)
  else if (flag =? 2) || (flag =? 3) then match m with None => Some (block_values cs tdim a bid) | Some d => Some d end
  else if flag =? 0 then None
  else m.
Fixpoint load_blocks (cs : chunks) (tdim : Z) (a : array) (bid : Z) (flags : list Z) (mem : memory) : memory :=
  match flags, mem with
  | f :: flags', m :: mem' => load_block cs tdim a bid f m :: load_blocks cs tdim a (bid + 1) flags' mem'
  | _, _ => []
  end.

(** A grid with its fields. [g_dask] says whether the data of a field are a dask array; [g_used] the fields the
    kernel running uses, if one is. *)
Record grid := mkGrid {
  g_flags : list Z; g_data : nat -> array; g_dask : nat -> bool; g_mem : nat -> memory; g_used : option (nat -> bool)
}.
Definition upd {A} (f : nat -> A) (n : nat) (a : A) : nat -> A := fun m => if (m =? n)%nat then a else f m.

(** field.py 1146-1169. *)
Definition chunk_data (cs : chunks) (tdim : Z) (g : grid) (n : nat) : grid :=
  if g_dask g n
  then mkGrid (g_flags g) (g_data g) (g_dask g)
         (upd (g_mem g) n (load_blocks cs tdim (g_data g n) 0 (g_flags g) (g_mem g n))) (g_used g)
  else mkGrid (wr (g_flags g) 0 2) (g_data g) (g_dask g)
         (upd (g_mem g) n (wr (g_mem g n) 0 (Some (whole_values cs tdim (g_data g n))))) (g_used g).
Definition drop_data (g : grid) (n : nat) : grid :=
  mkGrid (g_flags g) (g_data g) (g_dask g) (upd (g_mem g) n (map (fun _ => None) (g_mem g n))) (g_used g).
(** np.where(flags == a, b, flags) *)
Definition where_ (a b : Z) (flags : list Z) : list Z := map (fun f => if f =? a then b else f) flags.

Inductive event :=
  | NewData (data : nat -> array)      (* fieldset.computeTimeChunk has new data for the fields of the grid *)
  | Start                              (* Kernel.execute begins *)
  | Launch (used : nat -> bool)        (* execute_jit: the C function is called with these fields *)
  | Sample (n : nat) (idx : list Z) (ti : Z) (first : bool)   (* the C function reads a cell *)
  | Python.                            (* execute_python *)

Definition launch (cs : chunks) (tdim : Z) (nf : nat) (used : nat -> bool) (g : grid) : grid :=
  let g1 := fold_left (fun g n => if used n then chunk_data cs tdim g n else drop_data g n) (seq 0 nf) g in
  mkGrid (where_ 1 2 (g_flags g1)) (g_data g1) (g_dask g1) (g_mem g1) (Some used).

(** [None]: not a possible event (a cell read outside a launch, or of a field not given to the C function). *)
Definition step (cs : chunks) (tdim : Z) (nf : nat) (g : grid) (e : event) : option (grid * option cellres) :=
  match e with
  | NewData data => Some (mkGrid (where_ 3 0 (where_ 2 1 (g_flags g))) data (g_dask g) (g_mem g) None, None)
  | Start => Some (mkGrid (where_ 2 3 (g_flags g)) (g_data g) (g_dask g) (g_mem g) None, None)
  | Launch used => Some (launch cs tdim nf used g, None)
  | Python => Some (mkGrid (g_flags g) (g_data g) (fun n => if (n <? nf)%nat then false else g_dask g n) (g_mem g) None, None)
  | Sample n idx ti first =>
      match g_used g with
      | Some used =>
          if used n && (n <? nf)%nat then
            let r := c_getcell (chunk_info cs) (g_mem g n) (g_flags g) idx ti first in
            let fl := match r with Repeat f => f | Cell _ f => f | CellBad => g_flags g end in
            Some (mkGrid fl (g_data g) (g_dask g) (g_mem g) (g_used g), Some r)
          else None
      | None => None
      end
  end.

(** The state after chunk_setup, all data dask arrays. *)
Definition initial (cs : chunks) (data : nat -> array) : grid :=
  let n := Z.to_nat (npartitions cs) in
  mkGrid (repeat 0 n) data (fun _ => true) (fun _ => repeat None n) None.

Fixpoint run (cs : chunks) (tdim : Z) (nf : nat) (g : grid) (es : list event) : option grid :=
  match es with
  | [] => Some g
  | e :: rest => match step cs tdim nf g e with Some (g', _) => run cs tdim nf g' rest | None => None end
  end.
End values.
Arguments grid : clear implicits. Arguments event : clear implicits. Arguments array : clear implicits.
Arguments memory : clear implicits. Arguments cellres : clear implicits.
