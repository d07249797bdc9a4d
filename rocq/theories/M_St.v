(** Host ports with one thread for all active objects (linux_st, win32_st): the
    loop of [rkh_fwk_enter] and the semaphore (or event object) it sleeps on. *)
From Verif Require Import Base M_RdyGrp M_Queue M_MemPool M_Kernel.
Local Open Scope N_scope.

(** The differences between the ports: the largest value of what the loop sleeps
    on, and whether [running] is set before or after the start hook
    (portable/80x86/linux_st/gnu/rkhport.c: 72, 161-163;
    portable/80x86/win32_st/vc/rkhport.c: 142, 153-155). *)
Record stport := mkPort { st_vmax : N; st_early : bool }.
(** linux_st/gnu/rkhport.c: 150, a POSIX semaphore starting at 0 (SEM_VALUE_MAX
    of glibc). *)
Definition linux_st : stport := mkPort 2147483647 true.
(** win32_st/vc/rkhport.c: 142, an auto-reset event, not signalled: one bit. *)
Definition win32_st : stport := mkPort 1 false.

(** linux_st/gnu/rkhport.c: 167-181 (win32_st/vc/rkhport.c: 159-173), the body of
    the loop.  Something ready: as in [sched_once] (M_Kernel).  Nothing ready:
    rkh_hook_idle is called inside the section; it leaves it, does what the
    application wants ([User UIdle]) and calls RKH_WAIT_FOR_EVENTS, which is
    [Ret 1].  (As in [sched_once] the table of active objects is read inside the
    section; the program reads it just after, line 173.) *)
Definition st_turn (c : kcfg) : prog :=
  Atom (fun s =>
    if rg_isReady (k_rg s) then
      do prio <- rg_findHighest (k_rg s);
      do x <- rd (k_sp s) (N.to_nat prio);
      Ok (s, match x with Some o => [KSel o] | None => [] end,
                 match x with
                 | None => Atom (fun _ => Fault (FUB UB_null))
                 | Some o => sma_get c o (fun e => User (UDispatch o e) (fwk_gc c e))
                 end)
    else Ok (s, [], User UIdle (Ret 1))).

(** linux_st/gnu/rkhport.c: 128-133 (win32_st/vc/rkhport.c: 125-130),
    [rkh_sma_setReady], called by the queue for each event it takes
    (queue/src/rkhqueue.c: 241-244, 286-289): sem_post, which fails at the
    largest value, the result being ignored; SetEvent on a signalled event has no
    effect. *)
Definition sem_up (pt : stport) (n : N) (x : klab) : N :=
  match x with KPut _ _ _ => if n <? st_vmax pt then n + 1 else n | _ => n end.
(** linux_st/gnu/rkhport.c: 116-120 (win32_st/vc/rkhport.c: 113-117), sem_wait
    or WaitForSingleObject: returns only above zero, and takes one. *)
Definition sem_down (n : N) : option N := if n =? 0 then None else Some (n - 1).

(** linux_st/gnu/rkhport.c: 161-165 (win32_st/vc/rkhport.c: 153-157), the start
    hook: it returns to the first test of [running] ([Ret 2]). *)
Definition st_start : prog := User UMain (Ret 2).
(** Line 161 of linux_st, before the hook, and line 155 of win32_st, after.
    linux_st/gnu/rkhport.c: 161; win32_st/vc/rkhport.c: 155. *)
Definition run_at_enter (pt : stport) (r : bool) : bool := if st_early pt then true else r.
(** linux_st/gnu/rkhport.c: 161; win32_st/vc/rkhport.c: 155. *)
Definition run_after_hook (pt : stport) (r : bool) : bool := if st_early pt then r else true.
