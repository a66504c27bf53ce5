(** TP_WORKER_THREAD with tp_worker_thread_destroy (src/tp_worker_thread.c:116-138). Its users do not call destroy while one of them is in a call, and call nothing afterwards; the threads of the pool run
    work items whenever there are any. Destroy of NULL, which returns at once (118-122), is left out. execution_engine_dec_ref, sm_destroy and free (129-136) are one action, Life.release. *)
From Verif Require Import Common Prog Conc Life TpwModel.

(** tp_worker_thread.c:126 *)
Definition before_free (i : nat) : prog tpw res := tp_worker_thread_close_internal i.
Definition own (o : op) : bool := match o with Work => true | _ => false end.
Definition worker_life : system (lived tpw) (lop op) res := lifetime worker own (Close true) before_free.
