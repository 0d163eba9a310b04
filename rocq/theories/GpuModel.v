(** Threads of a GPU that share memory and interleave at every access to it; the CUDA kernel
    /repo/src/cuda/842_decompress.cu as such a thread.  (CudaModel.v has the same kernel as a function that runs without interruption.) *)
From Coq Require Import ZArith List Bool.
From Verif Require Import CBase SerialCompModel SerialDecompModel OptCompModel ConcLib CudaModel.
Import ListNotations.
Open Scope Z_scope.

(** A thread: what it does up to its next access to the memory that others write too, and how it goes on.  The memory consists
    of several buffers; [b] is the number of the buffer.  (No counterpart in /repo: this is the execution model of CUDA and OpenCL without
    barriers and with a sequentially consistent memory.) *)
Inductive prog (A : Type) :=
| Ret (a : A)
| Load (b : nat) (i n : Z) (k : list Z -> prog A)
| Store (b : nat) (i : Z) (bs : list Z) (k : prog A)
| Fault
| Stuck.
Arguments Ret {A}. Arguments Load {A}. Arguments Store {A}. Arguments Fault {A}. Arguments Stuck {A}.
(** Sequence of two programs. (No counterpart in /repo: one access after another.) *)
Fixpoint pbind {A B} (p : prog A) (f : A -> prog B) : prog B :=
  match p with
  | Ret a => f a
  | Load b i n k => Load b i n (fun bs => pbind (k bs) f)
  | Store b i bs k => Store b i bs (pbind k f)
  | Fault => Fault
  | Stuck => Stuck
  end.
Notation "x <~ p ;; q" := (pbind p (fun x => q)) (at level 61, p at next level, right associativity).
Notation "' x <~ p ;; q" := (pbind p (fun x => q)) (at level 61, x pattern, p at next level, right associativity).
(** What does not access shared memory. (No counterpart in /repo: the statements of 842_decompress.cu that work on local variables.) *)
Definition lift {A} (o : outcome A) : prog A := match o with Done a => Ret a | Undef => Fault | NoFuel => Stuck end.

(** The machine: the buffers and the threads.  One step: thread [t] makes its next access.  An access outside of a buffer
    makes the thread a [Fault]. (No counterpart in /repo: the execution model of CUDA and OpenCL.) *)
Definition gmem := list (list Z).
(** The memory of the device and what each thread has still to do. (No counterpart in /repo: see [gmem].) *)
Record gsys := mkG { g_mem : gmem; g_thr : list (prog unit) }.
(** Thread [t] does its next access. (No counterpart in /repo: see [gmem].) *)
Definition gstep (t : nat) (s : gsys) : option gsys :=
  match nth_error (g_thr s) t with
  | Some (Load b i n k) =>
    match load_bytes (nth b (g_mem s) []) i n with
    | Done bs => Some (mkG (g_mem s) (setnth t (k bs) (g_thr s)))
    | _ => Some (mkG (g_mem s) (setnth t Fault (g_thr s)))
    end
  | Some (Store b i bs k) =>
    match store_bytes (nth b (g_mem s) []) i bs with
    | Done m => Some (mkG (setnth b m (g_mem s)) (setnth t k (g_thr s)))
    | _ => Some (mkG (g_mem s) (setnth t Fault (g_thr s)))
    end
  | _ => None
  end.
(** A turn of thread [t] when it may have ended already, and the turns of a schedule. (No counterpart in /repo: see [gmem].) *)
Definition gturn (s : gsys) (t : nat) : gsys := match gstep t s with Some s' => s' | None => s end.
(** The turns of a schedule, one after the other. (No counterpart in /repo: see [gmem].) *)
Definition gturns (s : gsys) (sched : list nat) : gsys := fold_left gturn sched s.
(** What a launch ends with: [NoFuel] if there is a thread that has not ended when the schedule is over. (No counterpart in /repo: see [gmem].) *)
Definition glaunch (s : gsys) (sched : list nat) : outcome gmem :=
  let s := gturns s sched in
  if existsb (fun p => match p with Fault => true | _ => false end) (g_thr s) then Undef
  else if forallb (fun p => match p with Ret _ => true | _ => false end) (g_thr s) then Done (g_mem s)
  else NoFuel.

(** ** The CUDA kernel.  The input is read only and not a part of the memory here; buffer 0 is the output. *)
(** 842_decompress.cu:3-9: struct sw842_param_decomp; [h_base] is p->ostart, [h_out] p->out - p->ostart (in words). *)
Record cthread := mkH { h_in : Z; h_bits : Z; h_buffer : Z; h_base : Z; h_out : Z }.
(** 842_decompress.cu:76-101: read_bits (only its own variables and the input). *)
Definition hread_bits (inp : list Z) (p : cthread) (n : Z) : prog (Z * cthread) :=
  lift ('(v, q) <- cread_bits inp (mkC (h_in p) (h_bits p) (h_buffer p) [] (h_out p)) n ;;
        Done (v, mkH (c_in q) (c_bits q) (c_buffer q) (h_base p) (h_out p))).
(** 842_decompress.cu:104-131: get_index (only its own variables). *)
Definition hget_index (p : cthread) (size index fsize : Z) : Z :=
  cget_index (mkC (h_in p) (h_bits p) (h_buffer p) [] (h_out p)) size index fsize.
(** 842_decompress.cu:195-229: the inline assembly: loads of 16 bits each, one after the other. *)
Definition hload (addr dst_size : Z) : prog Z :=
  b0 <~ Load 0 addr 2 Ret ;;
  b1 <~ (if dst_size >? 2 then Load 0 (addr + 2) 2 Ret else Ret []) ;;
  b2 <~ (if dst_size =? 8 then Load 0 (addr + 4) 2 Ret else Ret []) ;;
  b3 <~ (if dst_size =? 8 then Load 0 (addr + 6) 2 Ret else Ret []) ;;
  Ret (bswap64 (gshl (native_val LE (b0 ++ b1 ++ b2 ++ b3)) (64 - 8 * dst_size))).
(** 842_decompress.cu:181-233: the loop over the four fields of a template. *)
Fixpoint hfields (inp : list Z) (fs : list (Z * Z)) (p : cthread) (output_word bits : Z) : prog (Z * cthread) :=
  match fs with
  | [] => Ret (output_word, p)
  | (dec_template, dst_size) :: fs =>
    let is_index := Z.shiftr dec_template 7 in
    '(value, p) <~ hread_bits inp p (Z.land dec_template 0x7f) ;;
    value <~ (if negb (is_index =? 0) then hload (h_base p + hget_index p dst_size value (cfifo dst_size)) dst_size else Ret value) ;;
    hfields inp fs p (Z.lor output_word (gshl value (64 - dst_size * 8 - bits))) (bits + dst_size * 8)
  end.
(** "*p.out = w; p.out++" (842_decompress.cu:165-166, 170-171, 288). *)
Definition hput (p : cthread) (w : Z) : prog cthread :=
  Store 0 (h_base p + 8 * h_out p) (native_bytes LE 8 w) (Ret (mkH (h_in p) (h_bits p) (h_buffer p) (h_base p) (h_out p + 1))).
(** 842_decompress.cu:164-167: while (op-- > 0). *)
Fixpoint hrepeat (n : nat) (p : cthread) : prog cthread :=
  match n with
  | O => Ret p
  | S n =>
    bs <~ Load 0 (h_base p + 8 * (h_out p - 1)) 8 Ret ;;
    p <~ hput p (native_val LE bs) ;;
    hrepeat n p
  end.
(** 842_decompress.cu:153-291: one round of the loop. *)
Definition hstep (inp : list Z) (p : cthread) : prog (bool * cthread) :=
  '(op, p) <~ hread_bits inp p OP_BITS ;;
  if op =? OP_REPEAT then
    '(op, p) <~ hread_bits inp p REPEAT_BITS ;;
    p <~ hrepeat (Z.to_nat (op + 1)) p ;;
    Ret (false, p)
  else if op =? OP_ZEROS then p <~ hput p 0 ;; Ret (false, p)
  else if op =? OP_END then Ret (true, p)
  else
    match nth_error dec_templates (Z.to_nat op) with
    | None => Fault
    | Some fs =>
      '(output_word, p) <~ hfields inp fs p 0 0 ;;
      p <~ hput p (bswap64 output_word) ;;
      Ret (false, p)
    end.
(** 842_decompress.cu:152-292: the do-while loop, with fuel. *)
Fixpoint hloop (fuel : nat) (inp : list Z) (p : cthread) : prog unit :=
  match fuel with
  | O => Stuck
  | S f => '(last, p) <~ hstep inp p ;; if last : bool then Ret tt else hloop f inp p
  end.
(** 842_decompress.cu:137-144: the thread with number [t].  The offsets, in words, are unsigned 32-bit products. *)
Definition cuda_prog (inp : list Z) (t : Z) : prog unit :=
  let oaddr := 8 * u32 (1024 / 8 * t) in
  let inp := skipn (Z.to_nat (8 * u32 (1024 / 8 * 2 * t))) inp in
  hloop (S (Z.to_nat (8 * lenZ inp))) inp (mkH 0 0 0 oaddr 0).
(** A launch of [n] threads. (compdecomp.cu:185, 209, 227, 252, 262.) *)
Definition cuda_start (inp out : list Z) (n : Z) : gsys :=
  mkG [out] (map (fun t => cuda_prog inp (Z.of_nat t)) (seq 0 (Z.to_nat n))).
