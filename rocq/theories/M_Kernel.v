(** Model of the event kernel on top of the queue, memory pool and ready group
    models:
    - source/fwk/inc/rkhevt.h (reference counting),
    - source/fwk/src/rkhfwk_evtpool.c, rkhfwk_dynevt.c (event pools, allocation,
      garbage collection),
    - source/fwk/src/rkhfwk_pubsub.c (publish/subscribe),
    - source/sma/src/rkhsma.c (registry, posts, deferral),
    - source/sma/src/rkhsma_prio.c, rkhsma_sync.c (ready set),
    - source/fwk/src/rkhfwk_sched.c (cooperative scheduler).

    A function is a [prog]: a sequence of atomic sections.  Every critical
    section of the C code is one [Atom], and so is every access to shared data
    outside a critical section; [User] marks the places where application code
    runs.  Interrupts can occur between two atoms.  Critical sections are taken
    to nest (RKH_ENTER_CRITICAL saves the status register, fwk/inc/rkhitl.h:
    2299-2301): the inner sections of a nested one are not interruption points.

    Pointers to events are addresses in the memory of M_MemPool; an event pointer
    may also point to a static event.  Active objects and deferral queues are
    numbered.  The tracing macros and RKH_HOOK_SIGNAL are omitted.  Every atom
    reports what it did to references as [klab]s; they are ghost output used by
    the specification, not C state.
    Configuration: dynamic events, pub/sub, deferral, LIFO posts, native
    scheduler, native event pools enabled. *)
From Verif Require Import Base M_RdyGrp M_Queue M_MemPool.
Local Open Scope N_scope.

(** What the first bytes of a block or of a static event hold: a free-list link
    (M_MemPool), an event header (fwk/inc/rkhevt.h: 124-146, RKH_EVT_T) or
    anything else. *)
Inductive cell := CLink (n : N) | CEvt (sig nref pool : N) | CRaw.
(** A read of the link of a free block (rkhmempool.c: 154). *)
Definition get_link (v : cell) : option N := match v with CLink n => Some n | _ => None end.

(** fwk/inc/rkhevt.h: 99-123 and the options of fwk/inc/rkhitl.h that size the tables. *)
Record kcfg := mkKCfg {
  k_qc : qcfg;            (* assertions, queues, ready groups *)
  k_mp : mpcfg;           (* memory pools *)
  k_maxpool : nat;        (* RKH_CFG_FWK_MAX_EVT_POOL *)
  k_maxch : nat;          (* RKH_CFG_FWK_MAX_SUBS_CHANNELS *)
  k_es_mod : N;           (* 2^RKH_CFG_FWK_SIZEOF_EVT_SIZE: range of RKH_ES_T *)
  k_sig_mod : N }.        (* 2^RKH_CFG_FWK_SIZEOF_EVT: range of RKH_SIG_T *)

(** sma/inc/rkhsma.h: RKH_SMA_T, the fields used here. *)
Record ao := mkAo { ao_prio : N; ao_q : queue N }.

(** The variables of the modules, each with its line. *)
Record kst := mkK {
  k_mem : @mem cell;
  k_ep : list mpool;           (* rkhfwk_evtpool.c: 74 *)
  k_mgr : list (option nat);   (* rkhfwk_dynevt.c: 73, field evtPool *)
  k_next : N;                  (* rkhfwk_dynevt.c: 80, nextFreeEvtPool *)
  k_rg : rdygrp;               (* rkhsma_prio.c: 67, readyGroup *)
  k_sp : list (option nat);    (* rkhsma.c: 87, rkh_sptbl *)
  k_ao : list ao;              (* the active objects of the application *)
  k_dq : list (queue N);       (* its deferral queues *)
  k_ch : list rdygrp }.        (* rkhfwk_pubsub.c: 87-91 and 103, observer *)

(** Record updates.
    Memory is written by rkhmempool.c: 122-128, 195 and through RKH_EVT_T, rkhevt.h: 124-146. *)
Definition set_mem (s : kst) m := mkK m (k_ep s) (k_mgr s) (k_next s) (k_rg s) (k_sp s) (k_ao s) (k_dq s) (k_ch s).
(** Assignment to the event pools and their registration (rkhfwk_evtpool.c, rkhfwk_dynevt.c). *)
Definition set_pools (s : kst) ep mgr nx := mkK (k_mem s) ep mgr nx (k_rg s) (k_sp s) (k_ao s) (k_dq s) (k_ch s).
(** Assignment to the ready group (rkhfwk_rdygrp.c). *)
Definition set_rg (s : kst) g := mkK (k_mem s) (k_ep s) (k_mgr s) (k_next s) g (k_sp s) (k_ao s) (k_dq s) (k_ch s).
(** Assignment to rkh_sptbl (rkhsma.c: 87). *)
Definition set_sp (s : kst) sp := mkK (k_mem s) (k_ep s) (k_mgr s) (k_next s) (k_rg s) sp (k_ao s) (k_dq s) (k_ch s).
(** Assignment to an active object.  sma/inc/rkhsma.h: 771-842. *)
Definition set_ao (s : kst) l := mkK (k_mem s) (k_ep s) (k_mgr s) (k_next s) (k_rg s) (k_sp s) l (k_dq s) (k_ch s).
(** Assignment to a deferral queue.  queue/inc/rkhqueue.h: 169-235. *)
Definition set_dq (s : kst) l := mkK (k_mem s) (k_ep s) (k_mgr s) (k_next s) (k_rg s) (k_sp s) (k_ao s) l (k_ch s).
(** Assignment to the observers (rkhfwk_pubsub.c: 103). *)
Definition set_ch (s : kst) l := mkK (k_mem s) (k_ep s) (k_mgr s) (k_next s) (k_rg s) (k_sp s) (k_ao s) (k_dq s) l.

(** What an atom did to references (ghost output).
    No C counterpart; the references are nref of rkhevt.h: 124-146. *)
Inductive klab :=
| KAlloc (i : nat) (a : N)             (* block [a] taken from pool [i] *)
| KStamp (i : nat) (a : N)             (* header written, counter 0 *)
| KPut (lifo : bool) (o : nat) (e : N) (* [e] put in the queue of active object [o] *)
| KGet (o : nat) (e : N)               (* [e] taken from the queue of [o] *)
| KDefer (d : nat) (e : N)             (* [e] put in deferral queue [d] *)
| KUndefer (d : nat) (e : N)           (* [e] taken from deferral queue [d] *)
| KInc (e : N)                         (* a reference without a queue *)
| KDec (e : N)                         (* such a reference dropped, others are left *)
| KDead (i : nat) (e : N)              (* the last one dropped *)
| KFree (i : nat) (e : N)              (* block returned to pool [i] *)
| KSel (o : nat)                       (* [o] chosen by the scheduler *)
| KInit (o : nat)                      (* queue of [o] initialised *)
| KReg (o : nat)                       (* [o] registered *)
| KOff (o : nat).                      (* [o] no longer registered *)

(** Application code that runs inside a kernel function.
    rkhsma.c: 159 and 229-233, rkhfwk_sched.c: 115-140. *)
Inductive ucode := UDispatch (o : nat) (e : N) | UIdle | UInit (o : nat) | UMain | UIsr.

(** A call that is under way: its next critical sections, and calls back into the application.
    Critical sections by fwk/inc/rkhitl.h: 2297-2307. *)
Inductive prog :=
| Ret (v : N)
| Atom (f : kst -> res (kst * list klab * prog))
| User (u : ucode) (k : prog).

(** Sequencing.  The semicolon of C; no counterpart in /repo. *)
Fixpoint pseq (p : prog) (k : N -> prog) : prog :=
  match p with
  | Ret v => k v
  | Atom f => Atom (fun s => match f s with Ok (s', l, p') => Ok (s', l, pseq p' k) | Fault e => Fault e end)
  | User u p' => User u (pseq p' k)
  end.

(** Reading and writing an event header through a pointer.
    fwk/inc/rkhevt.h: 124-146. *)
Definition hdr_rd (m : @mem cell) (e : N) : res (N * N * N) :=
  if e =? 0 then Fault (FUB UB_null) else
  match m e with
  | Some (CEvt sig nref pool) => Ok (sig, nref, pool)
  | Some _ => Fault (FUB UB_dangling)
  | None => Fault (FUB UB_bounds)
  end.
(** Writing the header, rkhevt.h: 124-146. *)
Definition hdr_wr (m : @mem cell) (e sig nref pool : N) : res (@mem cell) :=
  if e =? 0 then Fault (FUB UB_null) else mem_wr m e (CEvt sig nref pool).

Section Kernel.
Context (c : kcfg).
Notation asrt := (q_asrt (k_qc c)).

(** fwk/inc/rkhevt.h: 82-86, RKH_INC_REF; nref is an rui8_t. *)
Definition inc_ref (s : kst) (e : N) : res kst :=
  do (sig, nref, pool) <- hdr_rd (k_mem s) e;
  if pool =? 0 then Ok s
  else do m <- hdr_wr (k_mem s) e sig (u8 (nref + 1)) pool; Ok (set_mem s m).

(** *** rkhfwk_evtpool.c *)
(** rkhfwk_evtpool.c: 79-89, [rkh_evtPool_init]: nblocks = 0; the static array
    starts with zeros anyway. *)
Definition mp_zero : mpool := mkMP 0 0 0 0 0 0 0.
(** rkhfwk_evtpool.c: 79-89. *)
Definition evtPool_init : list mpool := repeat mp_zero (k_maxpool c).

(** The loop of [rkh_evtPool_getPool]: the first pool with nblocks == 0.
    rkhfwk_evtpool.c: 100-102. *)
Fixpoint find_unused (l : list mpool) (i : nat) : option nat :=
  match l with
  | [] => None
  | p :: l => if mp_nblocks p =? 0 then Some i else find_unused l (S i)
  end.

(** rkhfwk_evtpool.c: 91-114, [rkh_evtPool_getPool]; evtSize is converted to
    RKH_MPBS_T. *)
Definition evtPool_getPool (s : kst) (sstart ssize esize : N) : res (kst * option nat) :=
  match find_unused (k_ep s) 0 with
  | None => Ok (s, None)
  | Some i =>
    do (p, m) <- mp_init CLink get_link (k_mp c) (k_mem s) sstart ssize (esize mod bs_mod (k_mp c));
    do ep <- wr (k_ep s) i p;
    Ok (set_pools (set_mem s m) ep (k_mgr s) (k_next s), Some i)
  end.

(** rkhfwk_evtpool.c: 116-122, [rkh_evtPool_getBlockSize]; the result is an
    rui8_t. *)
Definition evtPool_getBlockSize (s : kst) (me : option nat) : res N :=
  do! rassert asrt 119 (match me with Some _ => true | None => false end);
  match me with
  | None => Fault (FUB UB_null)
  | Some i => do p <- rd (k_ep s) i; Ok (u8 (mp_bsize p))
  end.

(** rkhfwk_evtpool.c: 124-129, [rkh_evtPool_get]. *)
Definition evtPool_get (s : kst) (me : option nat) : res (kst * N) :=
  do! rassert asrt 127 (match me with Some _ => true | None => false end);
  match me with
  | None => Fault (FUB UB_null)
  | Some i =>
    do p <- rd (k_ep s) i;
    do (p, b) <- mp_get get_link (k_mp c) p (k_mem s);
    do ep <- wr (k_ep s) i p;
    Ok (set_pools s ep (k_mgr s) (k_next s), b)
  end.

(** rkhfwk_evtpool.c: 131-136, [rkh_evtPool_put]. *)
Definition evtPool_put (s : kst) (me : option nat) (evt : N) : res kst :=
  do! rassert asrt 134 (match me with Some _ => true | None => false end);
  match me with
  | None => Fault (FUB UB_null)
  | Some i =>
    do p <- rd (k_ep s) i;
    do (p, m) <- mp_put CLink (k_mp c) p (k_mem s) evt;
    do ep <- wr (k_ep s) i p;
    Ok (set_pools (set_mem s m) ep (k_mgr s) (k_next s))
  end.

(** rkhfwk_evtpool.c: 138-158, the queries; results are rui8_t. *)
Definition evtPool_getNumUsed (s : kst) (i : nat) : res N :=
  do p <- rd (k_ep s) i; Ok (u8 (mp_nblocks p + 256 * nb_mod (k_mp c) - mp_nfree p)).
(** rkhfwk_evtpool.c: 145-151. *)
Definition evtPool_getNumMin (s : kst) (i : nat) : res N :=
  do p <- rd (k_ep s) i; Ok (u8 (mp_nmin p)).
(** rkhfwk_evtpool.c: 153-158. *)
Definition evtPool_getNumBlock (s : kst) (i : nat) : res N :=
  do p <- rd (k_ep s) i; Ok (u8 (mp_nblocks p)).

(** *** rkhfwk_dynevt.c *)
(** rkhfwk_dynevt.c: 171-182, [rkh_dynEvt_init]; [ep] is never advanced, so only
    the first entry is cleared (all of them are zero at start-up). *)
Definition dynEvt_init (s : kst) : res kst :=
  do mgr <- wr (k_mgr s) 0 None; Ok (set_pools s (k_ep s) mgr 0).

(** rkhfwk_dynevt.c: 156-169, [rkh_fwk_registerEvtPool]; ssize is converted to
    rui16_t and esize is an RKH_ES_T; nextFreeEvtPool is an rui8_t. *)
Definition fwk_registerEvtPool (s : kst) (sstart ssize esize : N) : res kst :=
  do! rassert asrt 162 (k_next s + 1 <=? N.of_nat (k_maxpool c));
  do (s, ep) <- evtPool_getPool s sstart (u16 ssize) (esize mod k_es_mod c);
  do! rassert asrt 164 (match ep with Some _ => true | None => false end);
  do mgr <- wr (k_mgr s) (N.to_nat (k_next s)) ep;
  Ok (set_pools s (k_ep s) mgr (u8 (k_next s + 1))).

(** rkhfwk_dynevt.c: 135-141, the loop of [rkh_fwk_ae]: [k] bounds the number of
    turns by the number of registered pools. *)
Fixpoint ae_find (k : nat) (s : kst) (i : nat) (esize : N) : res nat :=
  match k with
  | O => Ok i
  | S k =>
    do ep <- rd (k_mgr s) i;
    do b <- evtPool_getBlockSize s ep;
    if b <? esize then ae_find k s (S i) esize else Ok i
  end.

(** rkhfwk_dynevt.c: 126-154, [rkh_fwk_ae].  The search reads block sizes, which
    no other function changes after registration; rkh_evtPool_get is one
    critical section (rkhmempool.c: 149-172); the header of the new event is
    written outside any. *)
Definition fwk_ae (esize sig : N) : prog :=
  let esize := esize mod k_es_mod c in
  Atom (fun s =>
    do i <- ae_find (N.to_nat (k_next s)) s 0 esize;
    do! rassert asrt 142 (N.of_nat i <? k_next s);
    do ep <- rd (k_mgr s) i;
    Ok (s, [], Atom (fun s =>
      do (s, evt) <- evtPool_get s ep;
      do! rassert asrt 144 (negb (evt =? 0));
      Ok (s, match ep with Some j => [KAlloc j evt] | None => [] end, Atom (fun s =>
        do m <- hdr_wr (k_mem s) evt (sig mod k_sig_mod c) 0 (u8 (N.of_nat i + 1));
        Ok (set_mem s m, match ep with Some j => [KStamp j evt] | None => [] end, Ret evt)))))).

(** rkhfwk_dynevt.c: 85-114, [rkh_fwk_gc].  The first test is outside the
    critical section (94-102 or 94-109), and so is rkh_evtPool_put, which has
    its own (rkhmempool.c: 192-200). *)
Definition fwk_gc (e : N) : prog :=
  Atom (fun s =>
    do (_, nref, _) <- hdr_rd (k_mem s) e;
    Ok (s, [], if nref =? 0 then Ret 0 else
    Atom (fun s =>
      do (sig, nref, pool) <- hdr_rd (k_mem s) e;
      if 1 <? nref then
        do m <- hdr_wr (k_mem s) e sig (nref - 1) pool;
        Ok (set_mem s m, [KDec e], Ret 0)
      else
        let idx := u8 (pool + 255) in
        do! rassert asrt 105 (idx <? k_next s);
        do ep <- rd (k_mgr s) (N.to_nat idx);
        Ok (s, match ep with Some j => [KDead j e] | None => [] end, Atom (fun s =>
          do s <- evtPool_put s ep e;
          Ok (s, match ep with Some j => [KFree j e] | None => [] end, Ret 0)))))).

(** rkhfwk_dynevt.c: 116-124, [rkh_fwk_reserve]. *)
Definition fwk_reserve (e : N) : prog :=
  Atom (fun s => do s <- inc_ref s e; Ok (s, [KInc e], Ret 0)).

(** *** rkhsma.c *)
(** The critical section of [rkh_sma_post_fifo] (rkhsma.c: 164-185) and
    [rkh_sma_post_lifo] (187-209). *)
Definition post_sec (lifo : bool) (s : kst) (o : nat) (e : N) : res (kst * list klab) :=
  do s <- inc_ref s e;
  do a <- rd (k_ao s) o;
  do (q, g) <- (if lifo then queue_put_lifo (k_qc c) (ao_q a) (k_rg s) (Some e)
                else queue_put_fifo (k_qc c) (ao_q a) (k_rg s) (Some e));
  do l <- wr (k_ao s) o (mkAo (ao_prio a) q);
  Ok (set_rg (set_ao s l) g, [KPut lifo o e]).
(** rkhsma.c: 164-209. *)
Definition sma_post (lifo : bool) (o : nat) (e : N) : prog :=
  Atom (fun s => do (s, l) <- post_sec lifo s o e; Ok (s, l, Ret 0)).

(** rkhsma.c: 211-227, [rkh_sma_get]: the critical section is that of
    rkh_queue_get (rkhqueue.c: 172-214); [k] is what the caller does with the
    event. *)
Definition sma_get (o : nat) (k : N -> prog) : prog :=
  Atom (fun s =>
    do a <- rd (k_ao s) o;
    do (q, g, e) <- queue_get (k_qc c) (ao_q a) (k_rg s);
    do l <- wr (k_ao s) o (mkAo (ao_prio a) q);
    do! rassert asrt 220 (match e with Some _ => true | None => false end);
    let e := match e with Some x => x | None => 0 end in
    Ok (set_rg (set_ao s l) g, [KGet o e], k e)).

(** rkhsma.c: 236-248, [rkh_sma_defer]. *)
Definition sma_defer (d : nat) (e : N) : prog :=
  Atom (fun s =>
    do s <- inc_ref s e;
    do q <- rd (k_dq s) d;
    do (q, g) <- queue_put_fifo (k_qc c) q (k_rg s) (Some e);
    do l <- wr (k_dq s) d q;
    Ok (set_rg (set_dq s l) g, [KDefer d e], Ret 0)).

(** rkhsma.c: 250-285, [rkh_sma_recall]: three critical sections, 256, 260 and
    261-282. *)
Definition sma_recall (o d : nat) : prog :=
  Atom (fun s =>
    do q <- rd (k_dq s) d;
    do (q, g, e) <- queue_get (k_qc c) q (k_rg s);
    do l <- wr (k_dq s) d q;
    let s := set_rg (set_dq s l) g in
    match e with
    | None => Ok (s, [], Ret 0)
    | Some e =>
      Ok (s, [KUndefer d e], Atom (fun s =>
        do (s, l) <- post_sec true s o e;
        Ok (s, l, Atom (fun s =>
          do (sig, nref, pool) <- hdr_rd (k_mem s) e;
          if nref =? 0 then Ok (s, [], Ret e) else
          do! rassert asrt 273 (1 <? nref);
          do m <- hdr_wr (k_mem s) e sig (nref - 1) pool;
          Ok (set_mem s m, [KDec e], Ret e)))))
    end).

(** rkhsma.c: 93-106, [rkh_sma_register]: the assertion is outside the critical
    section; RKH_LOWEST_PRIO is RKH_CFG_FWK_MAX_SMA - 1 (fwk/inc/rkhitl.h: 167). *)
Definition sma_register (o : nat) : prog :=
  Atom (fun s =>
    do a <- rd (k_ao s) o;
    let prio := ao_prio a in
    do free <- (if prio <=? max_sma (q_rg (k_qc c)) - 1
                then do x <- rd (k_sp s) (N.to_nat prio); Ok (match x with None => true | Some _ => false end)
                else Ok false);
    do! rassert asrt 99 free;
    Ok (s, [], Atom (fun s =>
      do sp <- wr (k_sp s) (N.to_nat prio) (Some o); Ok (set_sp s sp, [KReg o], Ret 0)))).

(** rkhsma.c: 108-121, [rkh_sma_unregister]; the test is [prio <=
    RKH_CFG_FWK_MAX_SMA]. *)
Definition sma_unregister (o : nat) : prog :=
  Atom (fun s =>
    do a <- rd (k_ao s) o;
    let prio := ao_prio a in
    do mine <- (if prio <=? max_sma (q_rg (k_qc c))
                then do x <- rd (k_sp s) (N.to_nat prio);
                     Ok (match x with Some y => Nat.eqb y o | None => false end)
                else Ok false);
    do! rassert asrt 114 mine;
    Ok (s, [], Atom (fun s =>
      do sp <- wr (k_sp s) (N.to_nat prio) None; Ok (set_sp s sp, [KOff o], Ret 0)))).

(** rkhsma.c: 138-145, [rkh_sma_terminate]. *)
Definition sma_terminate (o : nat) : prog := sma_unregister o.

(** rkhsma.c: 147-161, [rkh_sma_activate]: [qs] is the storage, not NULL;
    rkh_sm_init runs the initial transition, which is application code. *)
Definition sma_activate (o : nat) (qs : list (option N)) (qsize : nat) : prog :=
  Atom (fun s =>
    do! rassert asrt 155 (negb (Nat.eqb qsize 0));
    do a <- rd (k_ao s) o;
    do l <- wr (k_ao s) o (mkAo (ao_prio a) (queue_init qs qsize (Some (ao_prio a))));
    Ok (set_ao s l, [KInit o], pseq (sma_register o) (fun _ => User (UInit o) (Ret 0)))).

(** *** rkhfwk_pubsub.c *)
(** rkhfwk_pubsub.c: 106-118, [rkh_pubsub_init]. *)
Definition pubsub_init : list rdygrp := repeat (rg_init (q_rg (k_qc c))) (k_maxch c).

(** rkhfwk_pubsub.c: 120-130, [rkh_pubsub_subscribe]; channel is an rui8_t. *)
Definition ps_subscribe (ch : N) (o : nat) : prog :=
  Atom (fun s =>
    do! rassert asrt 125 (u8 ch <? N.of_nat (k_maxch c));
    do a <- rd (k_ao s) o;
    do g <- rd (k_ch s) (N.to_nat (u8 ch));
    do g <- rg_setReady (q_rg (k_qc c)) g (ao_prio a);
    do l <- wr (k_ch s) (N.to_nat (u8 ch)) g;
    Ok (set_ch s l, [], Ret 0)).

(** rkhfwk_pubsub.c: 132-142, [rkh_pubsub_unsubscribe]. *)
Definition ps_unsubscribe (ch : N) (o : nat) : prog :=
  Atom (fun s =>
    do! rassert asrt 137 (u8 ch <? N.of_nat (k_maxch c));
    do a <- rd (k_ao s) o;
    do g <- rd (k_ch s) (N.to_nat (u8 ch));
    do g <- rg_setUnready (q_rg (k_qc c)) g (ao_prio a);
    do l <- wr (k_ch s) (N.to_nat (u8 ch)) g;
    Ok (set_ch s l, [], Ret 0)).

(** The loop of [rkh_pubsub_unsubscribeAll].  rkhfwk_pubsub.c: 154-159. *)
Fixpoint unsub_all (l : list rdygrp) (prio : N) : res (list rdygrp) :=
  match l with
  | [] => Ok []
  | g :: l =>
    do g <- rg_setUnready (q_rg (k_qc c)) g prio;
    do l <- unsub_all l prio; Ok (g :: l)
  end.
(** rkhfwk_pubsub.c: 144-161, [rkh_pubsub_unsubscribeAll]. *)
Definition ps_unsubscribeAll (o : nat) : prog :=
  Atom (fun s =>
    do a <- rd (k_ao s) o;
    do l <- unsub_all (k_ch s) (ao_prio a);
    Ok (set_ch s l, [], Ret 0)).

(** rkhfwk_pubsub.c: 163-175, [publish], the traversal callback.  RKH_GET_SMA is
    sma/inc/rkhsma.h: 704-705. *)
Definition ps_cb (e : N) (sender : option nat) (prio : N) (w : kst * list klab) : res (kst * list klab) :=
  let (s, labs) := w in
  do x <- rd (k_sp s) (N.to_nat (u8 prio));
  do! rassert asrt 168 (match x with Some _ => true | None => false end);
  match x with
  | None => match sender with None => Ok w | Some _ => Fault (FUB UB_null) end
  | Some o =>
    if match sender with Some o' => Nat.eqb o o' | None => false end then Ok w
    else do (s, l) <- post_sec false s o e; Ok (s, labs ++ l)
  end.

(** rkhfwk_pubsub.c: 177-194, [rkh_pubsub_publish]: one critical section
    (187-191), then the garbage collector. *)
Definition ps_publish (ch : N) (e : N) (sender : option nat) : prog :=
  Atom (fun s =>
    do s <- inc_ref s e;
    do g <- rd (k_ch s) (N.to_nat (u8 ch));
    do (n, (s, labs)) <- rg_traverse g (ps_cb e sender) (s, [KInc e]);
    Ok (s, labs, pseq (fwk_gc e) (fun _ => Ret n))).

(** The posts of one [rkh_tmr_tick] (tmr/src/rkhtmr.c: 138-169), all inside its
    critical section (RKH_TICK_POST, line 161): [ps] lists target and event of
    the timers that expire, in list order; M_Tmr says which ones those are. *)
Definition tick_posts (ps : list (nat * N)) : prog :=
  Atom (fun s =>
    do (s, labs) <- fold_left (fun r pe =>
        do (s, labs) <- r; do (s, l) <- post_sec false s (fst pe) (snd pe); Ok (s, labs ++ l))
      ps (Ok (s, []));
    Ok (s, labs, Ret 0)).

(** *** rkhfwk_sched.c *)
(** rkhfwk_sched.c: 115-140, one turn of the loop of [rkh_fwk_enter]: interrupts
    are disabled from 117 to 122 or until the idle hook enables them. *)
Definition sched_once : prog :=
  Atom (fun s =>
    if rg_isReady (k_rg s) then
      do prio <- rg_findHighest (k_rg s);
      do x <- rd (k_sp s) (N.to_nat prio);
      Ok (s, match x with Some o => [KSel o] | None => [] end,
                 match x with
                 | None => Atom (fun _ => Fault (FUB UB_null))
                 | Some o => sma_get o (fun e => User (UDispatch o e) (fwk_gc e))
                 end)
    else Ok (s, [], User UIdle (Ret 0))).

(** The calls an application can make.
    The functions of rkhsma.c, rkhfwk_dynevt.c, rkhfwk_pubsub.c and rkhtmr.c: 138-169 that are cited above. *)
Inductive kop :=
| OAe (esize sig : N) | OGc (e : N) | OReserve (e : N)
| OPost (lifo : bool) (o : nat) (e : N) | OPublish (ch e : N) (sender : option nat)
| OSub (ch : N) (o : nat) | OUnsub (ch : N) (o : nat) | OUnsubAll (o : nat)
| ODefer (d : nat) (e : N) | ORecall (o d : nat)
| OActivate (o : nat) (qs : list (option N)) (qsize : nat)
| OTick (ps : list (nat * N))
| OTerm (o : nat).
(** The entry points, each cited at its own definition.
    rkhsma.c, rkhfwk_dynevt.c, rkhfwk_pubsub.c. *)
Definition api (op : kop) : prog :=
  match op with
  | OAe sz sig => fwk_ae sz sig
  | OGc e => fwk_gc e
  | OReserve e => fwk_reserve e
  | OPost lifo o e => sma_post lifo o e
  | OPublish ch e sn => ps_publish ch e sn
  | OSub ch o => ps_subscribe ch o
  | OUnsub ch o => ps_unsubscribe ch o
  | OUnsubAll o => ps_unsubscribeAll o
  | ODefer d e => sma_defer d e
  | ORecall o d => sma_recall o d
  | OActivate o qs n => sma_activate o qs n
  | OTick ps => tick_posts ps
  | OTerm o => sma_terminate o
  end.

(** A function without interrupts and with application code that does nothing.
    No C counterpart; the calls are those of rkhsma.c, rkhfwk_dynevt.c and rkhfwk_pubsub.c cited above. *)
Fixpoint exec (p : prog) (s : kst) : res (kst * list klab * N) :=
  match p with
  | Ret v => Ok (s, [], v)
  | Atom f =>
    match f s with
    | Ok (s', l, p') => match exec p' s' with Ok (s'', l', v) => Ok (s'', l ++ l', v) | Fault e => Fault e end
    | Fault e => Fault e
    end
  | User _ k => exec k s
  end.

(** Start-up: zeroed tables, application objects given by their priorities and
    deferral queues by their storage.
    rkhfwk_evtpool.c: 79-89, rkhfwk_pubsub.c: 106-118, static storage. *)
Definition kst0 (mem0 : @mem cell) (prios : list N) (dqs : list (list (option N) * nat)) : kst :=
  mkK mem0 evtPool_init (repeat None (k_maxpool c)) 0 (rg_init (q_rg (k_qc c)))
      (repeat None (N.to_nat (max_sma (q_rg (k_qc c)))))
      (map (fun p => mkAo p (queue_init [] 0 (Some p))) prios)
      (map (fun d => queue_init (fst d) (snd d) None) dqs)
      pubsub_init.
(** Registration of the event pools, in order.
    rkhfwk_dynevt.c: 156-169, called by the application. *)
Fixpoint boot (s : kst) (pools : list (N * N * N)) : res kst :=
  match pools with
  | [] => Ok s
  | (sstart, ssize, esize) :: l => do s <- fwk_registerEvtPool s sstart ssize esize; boot s l
  end.
End Kernel.
