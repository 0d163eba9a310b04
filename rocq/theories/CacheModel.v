(** Model of the OpenCL program cache: /repo/src/ocl/cl842decompress.cpp:81-264 (program_cache, buildProgram). *)
From Coq Require Import ZArith List Bool.
From Verif Require Import CBase CrcModel.
Import ListNotations.
Open Scope Z_scope.

(** cl842decompress.cpp:94-102: the members of program_cache; strings are lists of bytes. *)
Record metadata := mkMeta { m_hash : Z; m_size : Z; m_stride : Z; m_format : Z; m_names : list (list Z) }.

(** Reading from a std::ifstream with exceptions for failbit and badbit (line 106).  [Fails]: std::ifstream::failure.  [Raises]: an exception of another type
    (std::length_error, std::bad_alloc). *)
Inductive reading (A : Type) := Got (a : A) (rest : list Z) | Fails | Raises | NoEnd.
Arguments Got {A}. Arguments Fails {A}. Arguments Raises {A}. Arguments NoEnd {A}.
(** Sequence of two readings; an exception (line 106) ends the first. *)
Definition rbind {A B} (r : reading A) (f : A -> list Z -> reading B) : reading B :=
  match r with Got a rest => f a rest | Fails => Fails | Raises => Raises | NoEnd => NoEnd end.
(** in.read(p, n): fails when fewer than n bytes are left. (cl842decompress.cpp:134-135 and the other calls of in.read.) *)
Definition read_raw (n : Z) (bs : list Z) : reading (list Z) :=
  if n <=? lenZ bs then Got (firstn (Z.to_nat n) bs) (skipn (Z.to_nat n) bs) else Fails.
(** Lines 134-140, 144, 155: in.read into an integer of [n] bytes. *)
Definition read_int (e : endian) (n : Z) (bs : list Z) : reading Z := rbind (read_raw n bs) (fun l rest => Got (native_val e l) rest).
(** Lines 143-146 and 154-157: a length, an allocation of this size ([alloc] says whether it succeeds), the content. *)
Definition read_blob (e : endian) (alloc : Z -> bool) (bs : list Z) : reading (list Z) :=
  rbind (read_int e 8 bs) (fun n rest => if alloc n then read_raw n rest else Raises).
(** Lines 142-148 and 153-159: the loops.  Every round reads eight bytes or more. *)
Fixpoint read_blobs (fuel : nat) (e : endian) (alloc : Z -> bool) (n : Z) (bs : list Z) : reading (list (list Z)) :=
  if n >? 0 then
    match fuel with
    | O => NoEnd
    | S f => rbind (read_blob e alloc bs) (fun b rest => rbind (read_blobs f e alloc (n - 1) rest) (fun l rest => Got (b :: l) rest))
    end
  else Got [] bs.
(** Lines 133-149: readMetadata. *)
Definition readMetadata (e : endian) (alloc : Z -> bool) (bs : list Z) : reading metadata :=
  rbind (read_int e 8 bs) (fun size bs =>
  rbind (read_int e 8 bs) (fun stride bs =>
  rbind (read_int e 4 bs) (fun format bs =>
  rbind (read_int e 4 bs) (fun hash bs =>
  rbind (read_int e 8 bs) (fun n bs =>
  rbind (read_blobs (S (length bs)) e alloc n bs) (fun names bs => Got (mkMeta hash size stride format names) bs)))))).

(** Lines 110-114: the comparison of the members. *)
Definition meta_eq_dec : forall a b : metadata, {a = b} + {a <> b}.
Proof. decide equality; try apply Z.eq_dec. apply (list_eq_dec (list_eq_dec Z.eq_dec)). Defined.

(** Lines 104-119: find.  [file] is the content of the cache file, if it can be opened. *)
Definition find (e : endian) (alloc : Z -> bool) (m : metadata) (file : option (list Z)) : reading (list (list Z)) :=
  match file with
  | None => Fails
  | Some bs =>
    rbind (readMetadata e alloc bs) (fun disk rest =>
      if meta_eq_dec m disk then read_blobs (S (length rest)) e alloc (lenZ (m_names m)) rest else Got [] rest)
  end.

(** Lines 173-175, 181-183: a length and the content. *)
Definition blob (e : endian) (b : list Z) : list Z := native_bytes e 8 (lenZ b) ++ b.
(** Lines 163-177: writeMetadata. *)
Definition writeMetadata (e : endian) (m : metadata) : list Z :=
  native_bytes e 8 (m_size m) ++ native_bytes e 8 (m_stride m) ++ native_bytes e 4 (m_format m) ++ native_bytes e 4 (m_hash m) ++
  native_bytes e 8 (lenZ (m_names m)) ++ concat (map (blob e) (m_names m)).
(** Lines 179-185: writeBinaries. *)
Definition writeBinaries (e : endian) (bins : list (list Z)) : list Z := concat (map (blob e) bins).
(** Lines 126-127: set writes the one and then the other. *)
Definition written (e : endian) (m : metadata) (bins : list (list Z)) : list Z := writeMetadata e m ++ writeBinaries e bins.

(** What may happen to the writing of the file (lines 121-128: opened with truncation, written through a buffer): it is written;
    it cannot be opened; after [k] bytes the device is full, which raises an exception unless it happens only in
    the destructor of the stream; after [k] bytes the process dies. *)
Inductive fate := Writes | Unwritable | Full (k : nat) (raises : bool) | Dies (k : nat).

(** What a decompressor is built for: the kernel source, the options that the cache knows, and the devices, of which the model knows
    only the name. (cl842decompress.cpp:94-102.) *)
Record config := mkConfig { g_source : list Z; g_size : Z; g_stride : Z; g_format : Z; g_devices : list (list Z) }.
(** What buildProgram (line 189) gives: a program with these binaries, or an exception. *)
Inductive result := Program (bins : list (list Z)) | Throws.

(** Lines 189-265: buildProgram.  [compile]: the binaries of the program built from source, or None if this fails.  [loads]: whether a program can be built
    from binaries.  The result (none if the process dies) and the file afterwards. *)
Definition buildProgram (e : endian) (alloc : Z -> bool) (compile : config -> option (list (list Z))) (loads : config -> list (list Z) -> bool)
  (c : config) (w : fate) (file : option (list Z)) : outcome (option result * option (list Z)) :=
  h <- crc32_be e 0 0 (g_source c) (lenZ (g_source c)) ;;
  let m := mkMeta h (g_size c) (g_stride c) (g_format c) (g_devices c) in
  let from_source :=
    match compile c with
    | None => Done (Some Throws, file)
    | Some bins =>
      let all := written e m bins in
      match w with
      | Writes => Done (Some (Program bins), Some all)
      | Unwritable => Done (Some Throws, file)
      | Full k raises => Done (Some (if raises then Throws else Program bins), Some (firstn k all))
      | Dies k => Done (None, Some (firstn k all))
      end
    end in
  match find e alloc m file with
  | NoEnd => NoFuel
  | Raises => Done (Some Throws, file)
  | Fails => from_source
  | Got [] _ => from_source
  | Got bins _ => if loads c bins then Done (Some (Program bins), file) else from_source
  end.

(** ** Several processes at once *)
(** A process that writes the file: its position and the bytes it has still to write.  Opening truncates the file. (cl842decompress.cpp:121-128.) *)
Record writer := mkW { w_pos : nat; w_left : list Z }.
(** Line 124: std::ofstream out(CACHE_PATH) truncates the file. *)
Definition open_file (all : list Z) : writer * list Z := (mkW 0 all, []).
(** The next [k] bytes are written at the position, with zeros between if the file has become shorter. (cl842decompress.cpp:126-127.) *)
Definition write_file (k : nat) (w : writer) (file : list Z) : writer * list Z :=
  let data := firstn k (w_left w) in
  (mkW (w_pos w + length data) (skipn k (w_left w)),
   firstn (w_pos w) (file ++ List.repeat 0 (w_pos w - length file)) ++ data ++ skipn (w_pos w + length data) file).
