(** Model of the sample program for the streams: compress_benchmark_core of sample/compdecomp_streams.cpp.

    The program compresses a buffer with a DataCompressionStream, collects the blocks, and decompresses them with a
    DataDecompressionStream.  The transition systems of the two streams are those of CompStreamModel and
    DecompStreamModel; here the main thread is added, and what handle_block does with the data.

    Simplifications: handle_block is one step; the main thread waits for a latch in one step; no allocation fails; *olen, time
    measurement, logging and the thread policy (MiscModel.v) are left out. *)
From Coq Require Import ZArith List Bool.
From Verif Require Import CBase ConcLib BarrierModel ChunkedModel StreamBlockModel CompStreamModel DecompStreamModel OclModel.
Import ListNotations.
Open Scope Z_scope.

(** Where the main thread is (compdecomp_streams.cpp:99-240).  [failed]: it will return false after the destructor. *)
Inductive mpc :=
| MReady                   (* lines 149-157 *)
| MStart1 | MStart2        (* lines 160-167 *)
| MClear                   (* lines 169-170 *)
| MFinalize                (* lines 171-175 *)
| MWait                    (* lines 177-179 *)
| MQuit1 (failed : bool) | MQuit2 (failed : bool) | MJoin (failed : bool)  (* line 183: the destructor of cstream *)
| MDReady                  (* lines 200-204 *)
| MDStart1 | MDStart2      (* line 208 *)
| MDPush (k : Z)           (* lines 209-212; k: the number of the next block *)
| MDFinalize               (* lines 214-220 *)
| MDWait                   (* lines 222-224 *)
| MDQuit1 (failed : bool) | MDQuit2 (failed : bool) | MDJoin (failed : bool)  (* line 227: the destructor of dstream *)
| MValidate                (* lines 232-239 *)
| MReturn (r : bool)       (* the function returned r *)
| MAbort                   (* an assertion failed *)
| MBroken.                 (* undefined behaviour *)

(** The state: the main thread, the two streams, comp_blocks, comp_error, the current latch (true: it is down), decompressed and decomp_error. (compdecomp_streams.cpp:104-227.) *)
Record sys := mkY { y_pc : mpc; y_c : cstate; y_blocks : list block; y_cerr : bool; y_latch : bool; y_d : dstate; y_mem : list Z; y_derr : bool }.

(** A step of the main thread (in push_block, notify_one chooses thread [j]), a step of thread [i] of a stream, a spurious wakeup of it. (No counterpart in /repo: the scheduler; compdecomp_streams.cpp:104-240.) *)
Inductive saction := YMain (j : nat) | YComp (i : nat) | YCompWake (i : nat) | YDecomp (i : nat) | YDecompWake (i : nat).

Section Sample.
(** compress_chunked and decompress_chunked of lib842impl; whether NDEBUG is defined. *)
Variable gc gd : chunked_impl.
Variable ndebug : bool.
(** The content and the address of in, the address of decompressed, num_threads. *)
Variable inp : list Z.
Variable iaddr daddr : Z.
Variable n : nat.
(** For the block at an offset: the initial content of chunk_rets, the address and the initial content of the chunk buffer; for the k-th block that is decompressed: the initial
    content of chunk_rets. *)
Variable crets : Z -> list Z.
Variable cbuf : Z -> Z * list Z.
Variable drets : Z -> list Z.

(** DataCompressionStream.cpp:149. *)
Definition the_block (off : Z) : outcome block := comp_handle_block gc (crets off) iaddr inp (fst (cbuf off)) (snd (cbuf off)) off.

(** The main thread goes to another place. (No counterpart in /repo: the control flow of compdecomp_streams.cpp:104-240.) *)
Definition goto (pc : mpc) (y : sys) : sys := mkY pc (y_c y) (y_blocks y) (y_cerr y) (y_latch y) (y_d y) (y_mem y) (y_derr y).
(** The compression stream changes. (compdecomp_streams.cpp:154.) *)
Definition with_c (c : cstate) (y : sys) : sys := mkY (y_pc y) c (y_blocks y) (y_cerr y) (y_latch y) (y_d y) (y_mem y) (y_derr y).
(** The decompression stream and the memory change. (compdecomp_streams.cpp:200, 104.) *)
Definition with_d (d : dstate) (mem : list Z) (y : sys) : sys := mkY (y_pc y) (y_c y) (y_blocks y) (y_cerr y) (y_latch y) d mem (y_derr y).

(** The callbacks given to the compression stream: lines 160-167 (with the block [b]) and 171-175. *)
Definition comp_callback (b : block) (evs : list event) (y : sys) : sys :=
  match evs with
  | [EBlock _ ok] =>
    let cerr := y_cerr y || negb ok in
    mkY (y_pc y) (y_c y) (if cerr then y_blocks y else y_blocks y ++ [b]) cerr (y_latch y) (y_d y) (y_mem y) (y_derr y)
  | [EDone ok] => mkY (y_pc y) (y_c y) (y_blocks y) (y_cerr y || negb ok) true (y_d y) (y_mem y) (y_derr y)
  | [ECrash] => goto MBroken y
  | _ => y
  end.
(** The callback given to the decompression stream: lines 216-220. *)
Definition decomp_callback (evs : list devent) (y : sys) : sys :=
  match evs with
  | [VDone ok] => mkY (y_pc y) (y_c y) (y_blocks y) (y_cerr y) true (y_d y) (y_mem y) (negb ok)
  | [VCrash] => goto MBroken y
  | _ => y
  end.

(** A step of thread [i] of the compression stream.  DataCompressionStream.cpp:153: handle_block failed if it returned a block with the offset SIZE_MAX. *)
Definition comp_thread (i : nat) (y : sys) : option sys :=
  let c := y_c y in
  let go (fail : bool) (b : block) :=
    match nth_error (c_thr c) i with
    | None => None
    | Some t =>
      match tstep (lenZ (c_thr c)) i fail (c_g c) t, cstep (AThread i fail) c with
      | Some (_, _, _, evs), Some c' => Some (comp_callback b evs (with_c c' y))
      | _, _ => None
      end
    end in
  match nth_error (c_thr c) i with
  | Some (CWork _ off, _) | Some (CCall _ off _, _) =>
    match the_block off with
    | Done b => go (b_offset b =? SIZE_MAX) b
    | _ => Some (goto MBroken y)
    end
  | _ => go false (mkBlock 0 0 None [] None)
  end.

(** A step of thread [i] of the decompression stream.  A block in its queue is represented by its number in comp_blocks. (DataDecompressionStream.cpp:91-208.) *)
Definition decomp_thread (i : nat) (y : sys) : option sys :=
  let d := y_d y in
  let go (fail : bool) (mem : list Z) :=
    match nth_error (d_thr d) i with
    | None => None
    | Some t =>
      match dtstep (lenZ (d_thr d)) i fail (d_g d) t, dstep (BThread i fail) d with
      | Some (_, _, _, evs), Some d' => Some (decomp_callback evs (with_d d' mem y))
      | _, _ => None
      end
    end in
  match nth_error (d_thr d) i with
  | Some (DHandle k, _) =>
    match nth_error (y_blocks y) (Z.to_nat k) with
    | Some b =>
      match decomp_handle_block ndebug gd (drets k) (h_ptr (d_g d)) (y_mem y) b with
      | Done (Some (ok, mem)) => go (negb ok) mem
      | Done None => Some (goto MAbort y)
      | _ => Some (goto MBroken y)
      end
    | None => Some (goto MBroken y)
    end
  | _ => go false (y_mem y)
  end.

(** The main thread calls a function of the compression stream. (compdecomp_streams.cpp:154-175, 183.) *)
Definition call_c (a : action) (pc : mpc) (y : sys) : option sys := match cstep a (y_c y) with Some c => Some (goto pc (with_c c y)) | None => None end.
(** The main thread calls a function of the decompression stream. (compdecomp_streams.cpp:200-220, 227.) *)
Definition call_d (a : daction) (pc : mpc) (y : sys) : option sys := match dstep a (y_d y) with Some d => Some (goto pc (with_d d (y_mem y) y)) | None => None end.

(** A thread of the compression stream that has not begun. (compdecomp_streams.cpp:157, DataCompressionStream.cpp:70-72.) *)
Definition not_started (t : thread) : bool := match fst t with CStart => true | _ => false end.
(** A thread of the decompression stream that has not begun. (compdecomp_streams.cpp:204, DataDecompressionStream.cpp:55-57.) *)
Definition dnot_started (t : dthread) : bool := match fst t with DStart => true | _ => false end.
(** A thread of the compression stream that has ended. (compdecomp_streams.cpp:183: the destructor joins the threads.) *)
Definition exited (t : thread) : bool := match fst t with CExit => true | _ => false end.
(** A thread of the decompression stream that has ended. (compdecomp_streams.cpp:227: the destructor joins the threads.) *)
Definition dexited (t : dthread) : bool := match fst t with DExit => true | _ => false end.

(** A step of the main thread. (compdecomp_streams.cpp:104-240.) *)
Definition main_step (j : nat) (y : sys) : option sys :=
  match y_pc y with
  | MReady => if existsb not_started (c_thr (y_c y)) then None else Some (goto MStart1 y)
  | MStart1 => call_c (AStart1 (lenZ inp)) MStart2 y
  | MStart2 => call_c AStart2 MClear y
  | MClear => Some (mkY MFinalize (y_c y) (y_blocks y) false false (y_d y) (y_mem y) (y_derr y))
  | MFinalize => call_c (AFinalize false) MWait y
  | MWait => if y_latch y then Some (goto (MQuit1 (y_cerr y)) y) else None
  | MQuit1 failed => call_c AQuit1 (MQuit2 failed) y
  | MQuit2 failed => call_c AQuit2 (MJoin failed) y
  | MJoin failed =>
    if forallb exited (c_thr (y_c y)) then
      Some (if failed : bool then goto (MReturn false) y
            else mkY MDReady (y_c y) (y_blocks y) (y_cerr y) false (new_dstream n) (y_mem y) false)
    else None
  | MDReady => if existsb dnot_started (d_thr (y_d y)) then None else Some (goto MDStart1 y)
  | MDStart1 => call_d (BStart1 daddr) MDStart2 y
  | MDStart2 => call_d BStart2 (MDPush 0) y
  | MDPush k =>
    if k <? lenZ (y_blocks y) then
      match dstep (BPush k j) (y_d y) with
      | Some d => Some (goto (match d_trace d with VPush _ true :: _ => MDPush (k + 1) | _ => MDFinalize end) (with_d d (y_mem y) y))
      | None => None
      end
    else Some (goto MDFinalize y)
  | MDFinalize => call_d (BFinalize false) MDWait y
  | MDWait => if y_latch y then Some (goto (MDQuit1 (y_derr y)) y) else None
  | MDQuit1 failed => call_d BQuit1 (MDQuit2 failed) y
  | MDQuit2 failed => call_d BQuit2 (MDJoin failed) y
  | MDJoin failed => if forallb dexited (d_thr (y_d y)) then Some (goto (if failed : bool then MReturn false else MValidate) y) else None
  | MValidate => Some (goto (MReturn ((lenZ inp =? u64 (lenZ (y_blocks y) * BLOCK_SIZE)) && list_eqb inp (y_mem y))) y)
  | MReturn _ | MAbort | MBroken => None
  end.

(** A step of the program; after an abort or undefined behaviour there are none. (No counterpart in /repo: the interleaving of the main thread (compdecomp_streams.cpp:104-240) and of the threads of the streams.) *)
Definition ystep (a : saction) (y : sys) : option sys :=
  match y_pc y with
  | MAbort | MBroken => None
  | _ =>
    match a with
    | YMain j => main_step j y
    | YComp i => comp_thread i y
    | YCompWake i => match cstep (ASpurious i) (y_c y) with Some c => Some (with_c c y) | None => None end
    | YDecomp i => decomp_thread i y
    | YDecompWake i => match dstep (BSpurious i) (y_d y) with Some d => Some (with_d d (y_mem y) y) | None => None end
    end
  end.

(** Lines 99-149: the start.  decompressed is filled with zeros.  The decompression stream does not exist yet: no threads. *)
Definition sample_start : sys := mkY MReady (new_stream n) [] false false (new_dstream 0) (List.repeat 0 (length inp)) false.
End Sample.
