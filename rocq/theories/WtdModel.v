(** WORKER_THREAD with worker_thread_destroy (src/worker_thread.c:140-164). Its users do not call destroy while one of them is in a call, and call nothing afterwards; the thread that open creates runs
    whenever it can. Destroy of NULL, which returns at once (142-146), is left out. sm_destroy and free (160-162) are one action, Life.release. *)
From Verif Require Import Common Prog Conc Life WthModel.

(** worker_thread.c:152-157 *)
Definition before_free (i : nat) : prog wth res :=
  act* granted := sm_close_begin i in
  if granted : bool then
    act* _ := sm_drain in
    internal_close (act* _ := sm_close_end in Ret Void)
  else Ret Void.
Definition own (o : op) : bool := match o with Worker => true | _ => false end.
Definition worker_life : system (lived wth) (lop op) res := lifetime worker own (Close true) before_free.
