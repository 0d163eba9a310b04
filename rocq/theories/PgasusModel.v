(** Model of the sample programs for machines with several NUMA nodes: sample/compdecomp_pgasus.cpp (workers of PGASUS) and
    sample/compdecomp_pgasus_omp.cpp (nested teams of OpenMP threads). *)
From Coq Require Import ZArith List Bool.
From Verif Require Import CBase ConcLib OclModel ChunkedModel.
Import ListNotations.
Open Scope Z_scope.

(** A thread of one of the two parallel phases: before its first statement; before the iteration for chunk [c] of its loop, which ends with chunk [last];
    behind the loop (compdecomp_pgasus.cpp:160-180, 186-207; compdecomp_pgasus_omp.cpp:155-174, 184-204). *)
Inductive worker := WNew | WAt (c last : Z) | WEnd.
(** The threads of one node, the counter from which they take their numbers, and the memory of the node that they write. (compdecomp_pgasus.cpp:156-207; compdecomp_pgasus_omp.cpp:150-205.) *)
Record team (M : Type) := mkTeam { t_mem : M; t_ids : Z; t_workers : list worker }.
Arguments mkTeam {M}. Arguments t_mem {M}. Arguments t_ids {M}. Arguments t_workers {M}.

Section Phase.
Context {M : Type}.
(** Which of the two programs it is. *)
Variable omp : bool.
(** chunks_per_cpu. *)
Variable cpc : Z.
(** The body of the loop for a node and a chunk; the result is the memory and err. *)
Variable work : nat -> Z -> M -> outcome (M * Z).

(** for (size_t chunkNum = chunkStartLocal; chunkNum <= chunkEndLocal; chunkNum++) (compdecomp_pgasus.cpp:167, 193). *)
Definition at_chunk (c last : Z) : worker := if c <=? last then WAt c last else WEnd.
(** compdecomp_pgasus.cpp:161-167, 187-193: the number of the thread, which is taken from the counter of the node, and its chunks.
    compdecomp_pgasus_omp.cpp:156-162, 185-191: the number is omp_get_thread_num(). *)
Definition first_chunk (t : nat) (tm : team M) : team M :=
  let id := if omp then Z.of_nat t else t_ids tm in
  let chunkStartLocal := u64 (id * cpc) in
  let chunkEndLocal := u64 (u64 (chunkStartLocal + cpc) - 1) in
  mkTeam (t_mem tm) (if omp then t_ids tm else u64 (t_ids tm + 1)) (setnth t (at_chunk chunkStartLocal chunkEndLocal) (t_workers tm)).
(** compdecomp_pgasus.cpp:167-179, 193-206: one iteration; an error ends the thread.  compdecomp_pgasus_omp.cpp:162-173, 191-203: an error does not.
    Simplification: the iteration is not interrupted. *)
Definition next_chunk (k t : nat) (c last : Z) (tm : team M) : outcome (team M) :=
  '(m, err) <- work k c (t_mem tm) ;;
  Done (mkTeam m (t_ids tm) (setnth t (if negb omp && negb (err =? 0) then WEnd else at_chunk (u64 (c + 1)) last) (t_workers tm))).
(** A step of thread [t] of node [k]; a thread that does not exist or has ended does nothing. (compdecomp_pgasus.cpp:160-207; compdecomp_pgasus_omp.cpp:155-204.) *)
Definition team_step (s : nat * nat) (w : list (team M)) : outcome (list (team M)) :=
  let '(k, t) := s in
  match nth_error w k with
  | None => Done w
  | Some tm =>
    match nth_error (t_workers tm) t with
    | Some WNew => Done (setnth k (first_chunk t tm) w)
    | Some (WAt c last) => tm <- next_chunk k t c last tm ;; Done (setnth k tm w)
    | Some WEnd | None => Done w
    end
  end.
(** The threads make steps in the order [sched]. (compdecomp_pgasus.cpp:160-207; compdecomp_pgasus_omp.cpp:155-204.) *)
Fixpoint team_run (sched : list (nat * nat)) (w : list (team M)) : outcome (list (team M)) :=
  match sched with
  | [] => Done w
  | s :: sched => w <- team_step s w ;; team_run sched w
  end.
(** numa::wait, or the end of the parallel regions (compdecomp_pgasus.cpp:159, 185; compdecomp_pgasus_omp.cpp:174-175, 204-205). *)
Definition team_ended (tm : team M) : bool := forallb (fun v => match v with WEnd => true | _ => false end) (t_workers tm).
(** A phase: [cpus] are the numbers of threads of the nodes, [mems] the memories of the nodes.  [NoFuel] if [sched] does not let all threads end. (compdecomp_pgasus.cpp:159-207; compdecomp_pgasus_omp.cpp:155-205.) *)
Definition phase (cpus : list Z) (mems : list M) (sched : list (nat * nat)) : outcome (list M) :=
  w <- team_run sched (map (fun p => mkTeam (snd p) 0 (repeat WNew (Z.to_nat (fst p)))) (combine cpus mems)) ;;
  if forallb team_ended w then Done (map t_mem w) else NoFuel.
End Phase.

Section Node.
(** The library functions: optsw842_compress and optsw842_decompress. *)
Variable compress decompress : chunk_func.
(** CHUNK_SIZE (compdecomp_pgasus.cpp:18; 65536 there). *)
Variable C : Z.
(** The addresses of the input, compressed and decompressed buffers of the nodes. *)
Variable iaddr oaddr daddr : nat -> Z.

(** compdecomp_pgasus.cpp:168-172 (compdecomp_pgasus_omp.cpp:163-167): compressing chunk [c] of node [k].  The memory is compressed_buffers[k] and compressed_chunk_sizes[k];
    [ins] are the input buffers.  The library function is given only the parts of the buffers that belong to the chunk. *)
Definition pg_compress (ins : list (list Z)) (k : nat) (c : Z) (m : list Z * list Z) : outcome (list Z * list Z * Z) :=
  let '(comp, sizes) := m in
  chunk_in <- load_bytes (nth k ins []) (c * C) C ;;
  chunk_out <- load_bytes comp (c * (C * 2)) (C * 2) ;;
  sizes <- aset sizes c (C * 2) ;;
  '(err, n, chunk_out) <- compress (iaddr k + c * C) (oaddr k + c * (C * 2)) chunk_in chunk_out (C * 2) ;;
  sizes <- aset sizes c n ;;
  comp <- store_bytes comp (c * (C * 2)) chunk_out ;;
  Done ((comp, sizes), err).
(** compdecomp_pgasus.cpp:194-200 (compdecomp_pgasus_omp.cpp:192-198): decompressing chunk [c] of node [k].  The memory is decompressed_buffers[k] and decompressed_chunk_sizes[k];
    [comps] are the memories of the first phase. *)
Definition pg_decompress (comps : list (list Z * list Z)) (k : nat) (c : Z) (m : list Z * list Z) : outcome (list Z * list Z * Z) :=
  let '(dec, sizes) := m in
  let '(comp, csizes) := nth k comps ([], []) in
  ilen <- aget csizes c ;;
  chunk_out <- load_bytes comp (c * (C * 2)) ilen ;;
  chunk_decomp <- load_bytes dec (c * C) C ;;
  sizes <- aset sizes c C ;;
  '(err, n, chunk_decomp) <- decompress (oaddr k + c * (C * 2)) (daddr k + c * C) chunk_out chunk_decomp C ;;
  sizes <- aset sizes c n ;;
  dec <- store_bytes dec (c * C) chunk_decomp ;;
  Done ((dec, sizes), err).

(** The conversion of the length of the file to int and back to size_t (compdecomp_pgasus.cpp:46, 51, 58). *)
Definition int_length (n : Z) : Z := u64 (if u32 n <? 2 ^ 31 then u32 n else u32 n - 2 ^ 32).
(** compdecomp_pgasus.cpp:36-41. *)
Definition getPaddedInputBufferLength (nprocs input : Z) : Z :=
  let unit := u64 (C * nprocs) in u64 (u64 (u64 (input + unit) - 1) / unit * unit).
(** compdecomp_pgasus.cpp:23-34. *)
Definition next_pow2 (x : Z) : Z :=
  let x := u64 (x - 1) in
  let x := Z.lor x (Z.shiftr x 1) in
  let x := Z.lor x (Z.shiftr x 2) in
  let x := Z.lor x (Z.shiftr x 4) in
  let x := Z.lor x (Z.shiftr x 8) in
  let x := Z.lor x (Z.shiftr x 16) in
  let x := Z.lor x (Z.shiftr x 32) in
  u64 (x + 1).
(** compdecomp_pgasus.cpp:64-67: the size of the memory source of a node with [len] bytes of input. *)
Definition node_msource_size (len : Z) : Z := next_pow2 (u64 (u64 (len + u64 (len * 2)) + len)).
(** compdecomp_pgasus.cpp:115-120, 151: the input buffer of node [k]: zeros, over which file.read writes what is left of the file. *)
Definition node_input (file : list Z) (len : Z) (k : nat) : list Z :=
  let part := firstn (Z.to_nat len) (skipn (Z.to_nat len * k) file) in part ++ repeat 0 (Z.to_nat len - length part).

(** compdecomp_pgasus.cpp:43-226 (compdecomp_pgasus_omp.cpp:42-222): the exit status and what the nodes have restored (decompressed_buffers) for a file with this content, [nprocs] processors in total and nodes with [cpus] threads.
    [junk n]: the content of an array of [n] elements from malloc.  Simplifications: opening the file and all allocations succeed
    (those of 0 bytes as well); every node has one worker for each of its processors. *)
Definition pgasus (omp : bool) (nprocs : Z) (cpus : list Z) (junk : Z -> list Z) (csched dsched : list (nat * nat)) (file : list Z) : outcome (Z * list (list Z)) :=
  let total := getPaddedInputBufferLength nprocs (int_length (lenZ file)) in
  let nodes := lenZ cpus in
  if nodes =? 0 then Undef else
  let len := total / nodes in
  let cpus_per_node := nprocs / nodes in
  let chunks_per_node := len / C in
  if cpus_per_node =? 0 then Undef else
  let cpc := chunks_per_node / cpus_per_node in
  let ins := map (node_input file len) (seq 0 (length cpus)) in
  comps <- phase omp cpc (pg_compress ins) cpus (map (fun _ => (repeat 0 (Z.to_nat (len * 2)), junk chunks_per_node)) cpus) csched ;;
  decs <- phase omp cpc (pg_decompress comps) cpus (map (fun _ => (repeat 0 (Z.to_nat len), junk chunks_per_node)) cpus) dsched ;;
  Done (if forallb (fun p => list_eqb (fst p) (fst (snd p))) (combine ins decs) then 0 else 209, map fst decs).
End Node.
