(** The buffers of the OpenCL decompressor with null pointers instead of arrays. *)
From Verif Require Import CBase OclModel.

(** The array of output sizes is only given if [sizes], the array of return values only if [rets]. *)
Definition without (sizes rets : bool) (m : cl_mem) : cl_mem := mkM (m_out m) (if sizes then m_olen m else None) (if rets then m_ret m else None).
