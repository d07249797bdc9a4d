(** Ports with a thread for each active object (win32_mt): the turn of such a
    thread and the event object it sleeps on. *)
From Verif Require Import Base M_RdyGrp M_Queue M_MemPool M_Kernel.
Local Open Scope N_scope.

(** portable/80x86/win32_mt/vc/rkhport.c: 99-117, one turn of the loop of
    [thread_function]: get, dispatch, garbage collection.  The critical section
    of rkh_queue_get (queue/src/rkhqueue.c: 172-214) starts with [rkh_sma_block]
    (rkhport.c: 163-172): with an empty queue the section is left and the thread
    waits, which is [Ret 1]; it starts again from here when it was woken, since
    the first thing it does then is to enter the section and to look at the
    quantity again.  [thread] is not zero: rkh_sma_terminate is not modelled
    here.  The ready set of the kernel model is kept up to date by the queue
    functions, but nothing reads it. *)
Definition mt_turn (c : kcfg) (o : nat) : prog :=
  Atom (fun s =>
    do a <- rd (k_ao s) o;
    if Nat.eqb (q_qty (ao_q a)) 0 then Ok (s, [], Ret 1)
    else match sma_get c o (fun e => User (UDispatch o e) (fwk_gc c e)) with
         | Atom f => f s
         | p => Ok (s, [], p)
         end).

(** rkhport.c: 174-178, [rkh_sma_setReady], called by the queue for each event
    it takes (rkhqueue.c: 241-244 and 286-289): SetEvent on the auto-reset event
    of the active object (created at rkhport.c: 256, not signalled).  SetEvent on
    a signalled event has no effect.  rkh_sma_setUnready does nothing
    (180-184). *)
Definition set_event (sig : nat -> bool) (x : klab) : nat -> bool :=
  match x with
  | KPut _ o _ => fun o' => if Nat.eqb o' o then true else sig o'
  | _ => sig
  end.
(** WaitForSingleObject on an auto-reset event (rkhport.c: 169): returns only
    when it is signalled, and resets it. *)
Definition wait_event (sig : nat -> bool) (o : nat) : option (nat -> bool) :=
  if sig o then Some (fun o' => if Nat.eqb o' o then false else sig o') else None.
