(** Model of the trace records made by the event kernel, the queues and the
    memory pools: which figures of the state each of them shows.
    - source/sma/src/rkhsma.c (the RKH_TR_SMA records),
    - source/queue/src/rkhqueue.c (the RKH_TR_QUE records),
    - source/mempool/src/rkhmempool.c (the RKH_TR_MP records),
    - source/fwk/src/rkhfwk_dynevt.c (the RKH_TR_FWK records),
    with the macros of source/trc/inc/rkhtrc_record.h.
    Everything is enabled (all filters open).  Left out: symbols of
    senders, time stamp and number of the record (M_TrcRecord), the records of
    initialisation, activation and registration, and RKH_TR_SMA_RCALL, which shows
    a signal only. *)
From Verif Require Import Base M_RdyGrp M_Queue M_MemPool M_Kernel.
Local Open Scope N_scope.

(** The symbol of a queue: of an active object or for deferral.
    rkhtrc_record.h: 202-228, the first field. *)
Inductive qname := QAo (o : nat) | QDq (d : nat).

(** One record with its fields, in the order of rkhtrc_record.h. *)
Inductive krec :=
| TQuePut (lifo : bool) (q : qname) (nelem nmin : N)                     (* 202-228 *)
| TQueGet (q : qname) (nelem : N)                                        (* 183-187 *)
| TQueGetLast (q : qname)                                                (* 269-272 *)
| TSmaPost (lifo : bool) (o : nat) (sig pool nref nelem nmin : N)        (* 382-426 *)
| TSmaGet (o : nat) (sig pool nref nelem nmin : N)                       (* 352-362 *)
| TSmaDefer (d : nat) (sig : N)                                          (* 475-479 *)
| TMpGet (i : nat) (nfree nmin : N)                                      (* 110-115 *)
| TMpPut (i : nat) (nfree : N)                                           (* 128-132 *)
| TFwkAe (esize sig pool nref nused nmin : N)                            (* 1149-1158 *)
| TFwkGc (sig pool nref : N)                                             (* 1172-1177 *)
| TFwkGcr (sig pool nref nused nmin : N).                                (* 1198-1206 *)

Section Trc.
Context (c : kcfg).

(** [qty] and [nmin] of a queue.  queue/inc/rkhqueue.h: 181 and 224. *)
Definition que_at (s : kst) (q : qname) : res (N * N) :=
  match q with
  | QAo o => do a <- rd (k_ao s) o; Ok (N.of_nat (q_qty (ao_q a)), N.of_nat (q_nmin (ao_q a)))
  | QDq d => do q <- rd (k_dq s) d; Ok (N.of_nat (q_qty q), N.of_nat (q_nmin q))
  end.

(** rkhqueue.c: 254 and 298. *)
Definition que_put_rec (s : kst) (lifo : bool) (q : qname) : res krec :=
  do (n, m) <- que_at s q; Ok (TQuePut lifo q n m).
(** rkhqueue.c: 202-212; only a queue with an owner reports its last element so. *)
Definition que_get_rec (s : kst) (q : qname) : res krec :=
  do (n, _) <- que_at s q;
  Ok (match q with QAo _ => if n =? 0 then TQueGetLast q else TQueGet q n | QDq _ => TQueGet q n end).
(** rkhsma.c: 180-181 and 204-205. *)
Definition sma_post_rec (s : kst) (lifo : bool) (o : nat) (e : N) : res krec :=
  do (sig, nref, pool) <- hdr_rd (k_mem s) e;
  do (n, m) <- que_at s (QAo o);
  Ok (TSmaPost lifo o sig pool nref n m).
(** rkhsma.c: 223-224, after the critical section of the queue; [s] is the state
    then. *)
Definition sma_get_rec (s : kst) (o : nat) (e : N) : res krec :=
  do (sig, nref, pool) <- hdr_rd (k_mem s) e;
  do (n, m) <- que_at s (QAo o);
  Ok (TSmaGet o sig pool nref n m).
(** rkhsma.c: 245. *)
Definition sma_defer_rec (s : kst) (d : nat) (e : N) : res krec :=
  do (sig, _, _) <- hdr_rd (k_mem s) e; Ok (TSmaDefer d sig).
(** rkhmempool.c: 166-171 and 199. *)
Definition mp_get_rec (s : kst) (i : nat) : res krec :=
  do p <- rd (k_ep s) i; Ok (TMpGet i (mp_nfree p) (mp_nmin p)).
(** rkhmempool.c: 199. *)
Definition mp_put_rec (s : kst) (i : nat) : res krec :=
  do p <- rd (k_ep s) i; Ok (TMpPut i (mp_nfree p)).
(** rkhfwk_dynevt.c: 151-152, after the allocation and outside of any critical
    section; the pool number is cut to 8 bits after the subtraction. *)
Definition fwk_ae_rec (s : kst) (esize : N) (i : nat) (e : N) : res krec :=
  do (sig, nref, pool) <- hdr_rd (k_mem s) e;
  do u <- evtPool_getNumUsed c s i;
  do m <- evtPool_getNumMin s i;
  Ok (TFwkAe (esize mod k_es_mod c) sig (u8 (pool + 255)) nref u m).
(** rkhfwk_dynevt.c: 98, after the decrement. *)
Definition fwk_gc_rec (s : kst) (e : N) : res krec :=
  do (sig, nref, pool) <- hdr_rd (k_mem s) e; Ok (TFwkGc sig pool nref).
(** rkhfwk_dynevt.c: 107-108; getNumUsed is a byte, the difference an int, cut to
    the type of block counts. *)
Definition fwk_gcr_rec (s : kst) (i : nat) (e : N) : res krec :=
  do (sig, nref, pool) <- hdr_rd (k_mem s) e;
  do u <- evtPool_getNumUsed c s i;
  do m <- evtPool_getNumMin s i;
  Ok (TFwkGcr sig (u8 (pool + 255)) nref ((u + nb_mod (k_mp c) - 1) mod nb_mod (k_mp c)) m).

(** The records of a critical section that did one thing, [lab]; all of them are
    made at its end, in state [s]: rkhsma.c 164-209 and rkhqueue.c 216-300 (posts),
    rkhqueue.c 172-214 (gets), rkhsma.c 236-248 (defer), rkhmempool.c 149-172 and
    192-200, rkhfwk_dynevt.c 94-109.  The decrement of a recall (rkhsma.c: 261-282)
    makes no record with a counter, here it counts as the one of the collector. *)
Definition sec_recs (s : kst) (lab : klab) : res (list krec) :=
  match lab with
  | KPut lifo o e => do r <- que_put_rec s lifo (QAo o); do r' <- sma_post_rec s lifo o e; Ok [r; r']
  | KGet o _ => do r <- que_get_rec s (QAo o); Ok [r]
  | KDefer d e => do r <- que_put_rec s false (QDq d); do r' <- sma_defer_rec s d e; Ok [r; r']
  | KUndefer d _ => do r <- que_get_rec s (QDq d); Ok [r]
  | KAlloc i _ => do r <- mp_get_rec s i; Ok [r]
  | KFree i _ => do r <- mp_put_rec s i; Ok [r]
  | KDec e => do r <- fwk_gc_rec s e; Ok [r]
  | KDead i e => do r <- fwk_gcr_rec s i e; Ok [r]
  | _ => Ok []
  end.

(** Posts inside a critical section of the caller: the records come one by one.
    rkhfwk_pubsub.c: 163-175, [publish]. *)
Definition ps_cb_trc (e : N) (sender : option nat) (prio : N) (w : kst * list krec) : res (kst * list krec) :=
  let (s, rs) := w in
  do x <- rd (k_sp s) (N.to_nat (u8 prio));
  do! rassert (q_asrt (k_qc c)) 168 (match x with Some _ => true | None => false end);
  match x with
  | None => match sender with None => Ok w | Some _ => Fault (FUB UB_null) end
  | Some o =>
    if match sender with Some o' => Nat.eqb o o' | None => false end then Ok w
    else do (s, _) <- post_sec c false s o e;
         do r <- sec_recs s (KPut false o e); Ok (s, rs ++ r)
  end.
(** The records of the section of [rkh_pubsub_publish], rkhfwk_pubsub.c: 187-191. *)
Definition publish_trc (s : kst) (ch e : N) (sender : option nat) : res (list krec) :=
  do s <- inc_ref s e;
  do g <- rd (k_ch s) (N.to_nat (u8 ch));
  do (_, (_, rs)) <- rg_traverse g (ps_cb_trc e sender) (s, []);
  Ok rs.
End Trc.
