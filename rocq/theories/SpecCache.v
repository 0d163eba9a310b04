(** What the statements about the program cache need. *)
From Coq Require Import ZArith List Bool.
From Verif Require Import SpecBits CBase SpecCrc CacheModel.
Import ListNotations.
Open Scope Z_scope.

(** A configuration as the types of the code have it, the binaries of its program (one for each device) and enough memory for them. *)
Definition string_ok (alloc : Z -> bool) (s : list Z) : Prop := is_bytes s /\ lenZ s < 2 ^ 64 /\ alloc (lenZ s) = true.
Definition config_ok (alloc : Z -> bool) (compile : config -> option (list (list Z))) (c : config) : Prop :=
  is_bytes (g_source c) /\ 0 <= g_size c < 2 ^ 64 /\ 0 <= g_stride c < 2 ^ 64 /\ 0 <= g_format c < 3 /\
  Forall (string_ok alloc) (g_devices c) /\ 0 < lenZ (g_devices c) < 2 ^ 64 /\
  forall bins, compile c = Some bins -> length bins = length (g_devices c) /\ Forall (string_ok alloc) bins.

(** Runs of the library, one after the other, from no file on: configuration, fate of the writing, result, and the file at the end. *)
Inductive runs (e : endian) (alloc : Z -> bool) (compile : config -> option (list (list Z))) (loads : config -> list (list Z) -> bool)
  : list (config * fate * option result) -> option (list Z) -> Prop :=
| no_runs : runs e alloc compile loads [] None
| one_more : forall h file c w r file', runs e alloc compile loads h file -> buildProgram e alloc compile loads c w file = Done (r, file') ->
    runs e alloc compile loads (h ++ [(c, w, r)]) file'.
Definition used (h : list (config * fate * option result)) : list config := map (fun x => fst (fst x)) h.

(** Configurations that differ at most in the source have different checksums of the source. *)
Definition hashes_differ (cs : list config) : Prop := forall c d, In c cs -> In d cs ->
  crc32 (g_source c) = crc32 (g_source d) -> g_source c = g_source d.

(** The writing raises an exception. *)
Definition write_raises (w : fate) : Prop := w = Unwritable \/ exists k, w = Full k true.
