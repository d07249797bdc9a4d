(** Model of source/queue/src/rkhqueue.c, with the synchronisation calls of
    source/sma/src/rkhsma_sync.c it makes through cbRKHSmaBlock,
    cbRKHSmaSetReady and cbRKHSmaSetUnready (rkhqueue.c: 90-92).

    Pointers stored in the queue are [option E]: [None] is NULL.
    The storage array given to rkh_queue_init is a list; [pstart] is slot 0,
    [pend] is slot [nelems], [pin] and [pout] are slot numbers.
    Simplification: the tracing macros RKH_TR_QUE_* are omitted (no effect on
    the queue); [RKH_CFG_QUE_*] options are all enabled. *)
From Verif Require Import Base M_RdyGrp.

(** queue/inc/rkhqueue.h: 96-104 and the options of fwk/inc/rkhitl.h. *)
Record qcfg := mkQCfg {
  q_asrt : bool;       (* RKH_CFG_FWK_ASSERT_EN *)
  q_tmax : nat;        (* largest value of RKH_QUENE_T (255, 65535, ...) *)
  q_rg : rgcfg }.      (* configuration of the ready group *)

(** queue/inc/rkhqueue.h: RKH_QUEI_T, the statistics counters. *)
Record qinfo := mkQI { nputs : N; ngets : N; nreads : N; nempty : N; nfull : N }.
(** All counters 0 (rkhqueue.c: 100-130, 357-370). *)
Definition qinfo0 : qinfo := mkQI 0 0 0 0 0.

(** queue/inc/rkhqueue.h: RKH_QUEUE_T.  [q_sma] is the owner: its priority,
    which is all the queue uses of it (rkhsma_sync.c: 76-86). *)
Record queue (E : Type) := mkQ {
  q_sto : list (option E);
  q_nelems : nat;
  q_pin : nat;
  q_pout : nat;
  q_qty : nat;
  q_nmin : nat;
  q_sma : option N;
  q_info : qinfo }.
Arguments mkQ {E}. Arguments q_sto {E}. Arguments q_nelems {E}.
Arguments q_pin {E}. Arguments q_pout {E}. Arguments q_qty {E}.
Arguments q_nmin {E}. Arguments q_sma {E}. Arguments q_info {E}.

Section Queue.
Context {E : Type}.
Context (c : qcfg).

(** RKH_IUPDT_PUT/GET/READ/EMPTY/FULL, rkhqueue.c: 65-71; the counters are
    rui16_t. *)
Definition iu_put (i : qinfo) := mkQI (u16 (nputs i + 1)) (ngets i) (nreads i) (nempty i) (nfull i).
(** rkhqueue.c: 68. *)
Definition iu_get (i : qinfo) := mkQI (nputs i) (u16 (ngets i + 1)) (nreads i) (nempty i) (nfull i).
(** rkhqueue.c: 71. *)
Definition iu_read (i : qinfo) := mkQI (nputs i) (ngets i) (u16 (nreads i + 1)) (nempty i) (nfull i).
(** rkhqueue.c: 69. *)
Definition iu_empty (i : qinfo) := mkQI (nputs i) (ngets i) (nreads i) (u16 (nempty i + 1)) (nfull i).
(** rkhqueue.c: 70. *)
Definition iu_full (i : qinfo) := mkQI (nputs i) (ngets i) (nreads i) (nempty i) (u16 (nfull i + 1)).
(** Assignment to rqi.  rkhqueue.h: 233. *)
Definition set_info (q : queue E) (i : qinfo) : queue E :=
  mkQ (q_sto q) (q_nelems q) (q_pin q) (q_pout q) (q_qty q) (q_nmin q) (q_sma q) i.

(** rkhqueue.c: 99-119, [rkh_queue_init]. *)
Definition queue_init (sstart : list (option E)) (ssize : nat) (sma : option N) : queue E :=
  mkQ sstart ssize 0 0 0 ssize sma qinfo0.

(** rkhqueue.c: 121-136, [rkh_queue_is_full]. *)
Definition queue_is_full (q : queue E) : bool := q_qty q =? q_nelems q.

(** rkhqueue.c: 138-153, [rkh_queue_get_num]. *)
Definition queue_get_num (q : queue E) : nat := q_qty q.

(** rkhqueue.c: 155-170, [rkh_queue_get_lwm]. *)
Definition queue_get_lwm (q : queue E) : nat := q_nmin q.

(** [--q->qty] on an unsigned RKH_QUENE_T.  rkhqueue.c: 193. *)
Definition dec_qty (n : nat) : nat := match n with O => q_tmax c | S m => m end.

(** rkhqueue.c: 192-214 (tail of [rkh_queue_get] once an element is known or
    assumed to be present); 195-198 wrap, 200 counter, 202-207
    [cbRKHSmaSetUnready] = rkh_sma_setUnready, rkhsma_sync.c: 82-86. *)
Definition queue_take (q : queue E) (g : rdygrp) : res (queue E * rdygrp * option E) :=
  do e <- rd (q_sto q) (q_pout q);
  let pout := S (q_pout q) in
  let qty := dec_qty (q_qty q) in
  let pout := if pout =? q_nelems q then 0 else pout in
  let q' := mkQ (q_sto q) (q_nelems q) (q_pin q) pout qty (q_nmin q) (q_sma q)
                (iu_get (q_info q)) in
  match q_sma q with
  | Some p => if qty =? 0 then do g' <- rg_setUnready (q_rg c) g p; Ok (q', g', e)
              else Ok (q', g, e)
  | None => Ok (q', g, e)
  end.

(** rkhqueue.c: 172-214, [rkh_queue_get]; [cbRKHSmaBlock] = rkh_sma_block,
    rkhsma_sync.c: 70-74, asserts [me->equeue.qty != 0] where [equeue] of the
    owner is this very queue. *)
Definition queue_get (q : queue E) (g : rdygrp) : res (queue E * rdygrp * option E) :=
  match q_sma q with
  | Some _ =>
      do! rassert (q_asrt c) 73 (negb (q_qty q =? 0));
      queue_take q g
  | None =>
      if q_qty q =? 0 then Ok (set_info q (iu_empty (q_info q)), g, None)
      else queue_take q g
  end.

(** rkhqueue.c: 241-244 and 286-289, [cbRKHSmaSetReady] = rkh_sma_setReady,
    rkhsma_sync.c: 76-80. *)
Definition sync_ready (sma : option N) (g : rdygrp) : res rdygrp :=
  match sma with Some p => rg_setReady (q_rg c) g p | None => Ok g end.

(** rkhqueue.c: 246-251 and 291-296, update of the low-water mark. *)
Definition lwm_upd (nmin nelems qty : nat) : nat :=
  if nelems - qty <? nmin then nelems - qty else nmin.

(** rkhqueue.c: 216-255, [rkh_queue_put_fifo]. *)
Definition queue_put_fifo (q : queue E) (g : rdygrp) (pe : option E)
  : res (queue E * rdygrp) :=
  do! rassert (q_asrt c) 221 (match pe with Some _ => true | None => false end);
  do! rassert (q_asrt c) 223 (q_qty q <? q_nelems q);
  if q_nelems q <=? q_qty q then Ok (set_info q (iu_full (q_info q)), g) else
  do sto <- wr (q_sto q) (q_pin q) pe;
  let pin := S (q_pin q) in
  let qty := S (q_qty q) in
  let pin := if pin =? q_nelems q then 0 else pin in
  do g' <- sync_ready (q_sma q) g;
  Ok (mkQ sto (q_nelems q) pin (q_pout q) qty
          (lwm_upd (q_nmin q) (q_nelems q) qty) (q_sma q) (iu_put (q_info q)), g').

(** rkhqueue.c: 257-300, [rkh_queue_put_lifo]. *)
Definition queue_put_lifo (q : queue E) (g : rdygrp) (pe : option E)
  : res (queue E * rdygrp) :=
  do! rassert (q_asrt c) 263 (match pe with Some _ => true | None => false end);
  do! rassert (q_asrt c) 265 (q_qty q <? q_nelems q);
  if q_nelems q <=? q_qty q then Ok (set_info q (iu_full (q_info q)), g) else
  let pout := if q_pout q =? 0 then q_nelems q else q_pout q in
  let pout := pout - 1 in
  do sto <- wr (q_sto q) pout pe;
  let qty := S (q_qty q) in
  do g' <- sync_ready (q_sma q) g;
  Ok (mkQ sto (q_nelems q) (q_pin q) pout qty
          (lwm_upd (q_nmin q) (q_nelems q) qty) (q_sma q) (iu_put (q_info q)), g').

(** rkhqueue.c: 302-319, [rkh_queue_deplete]. *)
Definition queue_deplete (q : queue E) (g : rdygrp) : res (queue E * rdygrp) :=
  let q' := mkQ (q_sto q) (q_nelems q) 0 0 0 (q_nmin q) (q_sma q) (q_info q) in
  match q_sma q with
  | Some p => do g' <- rg_setUnready (q_rg c) g p; Ok (q', g')
  | None => Ok (q', g)
  end.

(** queue/inc/rkhqueue.h: RKH_QUE_OK, RKH_QUE_EMPTY. *)
Inductive qread := QUE_OK | QUE_EMPTY.

(** rkhqueue.c: 321-343, [rkh_queue_read].  [buf] is the content of the
    caller's object that the argument [pe] points to (asserted non-NULL,
    327).  Line 337, [pe = *q->pout], assigns the parameter itself, so the
    local pointer changes and the caller's object does not. *)
Definition queue_read (q : queue E) (buf : option E) : res (queue E * qread * option E) :=
  if q_qty q =? 0 then Ok (set_info q (iu_empty (q_info q)), QUE_EMPTY, buf)
  else
    do _pe <- rd (q_sto q) (q_pout q);
    Ok (set_info q (iu_read (q_info q)), QUE_OK, buf).

(** rkhqueue.c: 345-354, [rkh_queue_get_info]. *)
Definition queue_get_info (q : queue E) : qinfo := q_info q.

(** rkhqueue.c: 356-368, [rkh_queue_clear_info]. *)
Definition queue_clear_info (q : queue E) : queue E := set_info q qinfo0.

End Queue.
