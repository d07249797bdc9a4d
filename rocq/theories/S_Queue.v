(** Specification of the event queue: a plain list, a running minimum and
    plain counters.  Knows nothing about slots and indices. *)
From Verif Require Import Base M_Queue.

(** Calls and results visible to a client. *)
Inductive qop (E : Type) :=
| QPutFifo (pe : option E) | QPutLifo (pe : option E) | QGet | QDeplete
| QIsFull | QNum | QLwm | QRead (buf : option E) | QInfo | QClear.
Arguments QPutFifo {E}. Arguments QPutLifo {E}. Arguments QGet {E}. Arguments QDeplete {E}.
Arguments QIsFull {E}. Arguments QNum {E}. Arguments QLwm {E}. Arguments QRead {E}.
Arguments QInfo {E}. Arguments QClear {E}.

Inductive qout (E : Type) :=
| OUnit | OPtr (p : option E) | OBool (b : bool) | ONum (n : nat)
| ORead (s : qread) (buf : option E) | OInfo (i : qinfo).
Arguments OUnit {E}. Arguments OPtr {E}. Arguments OBool {E}. Arguments ONum {E}.
Arguments ORead {E}. Arguments OInfo {E}.

(** Abstract queue: the pending elements, front first; the least number of
    free entries seen so far; how often each thing happened. *)
Record aq (E : Type) := mkAQ {
  a_items : list (option E); a_low : nat;
  a_puts : N; a_gets : N; a_reads : N; a_empties : N; a_fulls : N }.
Arguments mkAQ {E}. Arguments a_items {E}. Arguments a_low {E}. Arguments a_puts {E}.
Arguments a_gets {E}. Arguments a_reads {E}. Arguments a_empties {E}. Arguments a_fulls {E}.

Section Spec.
Context {E : Type}.
Context (asrt owned : bool) (cap : nat).

Definition aq_init : aq E := mkAQ [] cap 0 0 0 0 0.

Definition aq_info (a : aq E) : qinfo :=
  mkQI (a_puts a mod 65536) (a_gets a mod 65536) (a_reads a mod 65536)
       (a_empties a mod 65536) (a_fulls a mod 65536).

(** New content: record it and refresh the historical minimum. *)
Definition aq_set (a : aq E) (l : list (option E)) (p g r e f : N) : aq E :=
  mkAQ l (Nat.min (a_low a) (cap - length l))
       (a_puts a + p) (a_gets a + g) (a_reads a + r) (a_empties a + e) (a_fulls a + f).

(** Accepting an element: [l'] is the content with the element in place. *)
Definition aq_put (line : nat) (a : aq E) (pe : option E) (l' : list (option E))
  : res (aq E * qout E) :=
  match pe, asrt with
  | None, true => Fault (FAssert line)
  | _, _ =>
    if length (a_items a) <? cap then Ok (aq_set a l' 1 0 0 0 0, OUnit)
    else if asrt then Fault (FAssert (line + 2))
    else Ok (aq_set a (a_items a) 0 0 0 0 1, OUnit)
  end.

Definition aq_step (a : aq E) (o : qop E) : res (aq E * qout E) :=
  match o with
  | QPutFifo pe => aq_put 221 a pe (a_items a ++ [pe])
  | QPutLifo pe => aq_put 263 a pe (pe :: a_items a)
  | QGet => match a_items a with
            | e :: l => Ok (aq_set a l 0 1 0 0 0, OPtr e)
            | [] => if owned then Fault (FAssert 73)
                    else Ok (aq_set a [] 0 0 0 1 0, OPtr None)
            end
  | QDeplete => Ok (aq_set a [] 0 0 0 0 0, OUnit)
  | QIsFull => Ok (a, OBool (length (a_items a) =? cap))
  | QNum => Ok (a, ONum (length (a_items a)))
  | QLwm => Ok (a, ONum (a_low a))
  | QRead buf => match a_items a with
                 | [] => Ok (aq_set a [] 0 0 0 1 0, ORead QUE_EMPTY buf)
                 | l => Ok (aq_set a l 0 0 1 0 0, ORead QUE_OK buf)
                 end
  | QInfo => Ok (a, OInfo (aq_info a))
  | QClear => Ok (mkAQ (a_items a) (a_low a) 0 0 0 0 0, OUnit)
  end.
End Spec.

(** A queue either has no owner or one with a valid priority. *)
Definition sma_ok (c : qcfg) (sma : option N) : Prop :=
  match sma with None => True | Some p => (p < M_RdyGrp.max_sma (q_rg c))%N end.
Definition owned (sma : option N) : bool :=
  match sma with Some _ => true | None => false end.

(** The model driven by the same calls. *)
Section Drive.
Context {E : Type}.
Context (c : qcfg).
Definition q_step (s : queue E * M_RdyGrp.rdygrp) (o : qop E)
  : res ((queue E * M_RdyGrp.rdygrp) * qout E) :=
  let (q, g) := s in
  match o with
  | QPutFifo pe => do s' <- queue_put_fifo c q g pe; Ok (s', OUnit)
  | QPutLifo pe => do s' <- queue_put_lifo c q g pe; Ok (s', OUnit)
  | QGet => do (q', g', e) <- queue_get c q g; Ok ((q', g'), OPtr e)
  | QDeplete => do s' <- queue_deplete c q g; Ok (s', OUnit)
  | QIsFull => Ok (s, OBool (queue_is_full q))
  | QNum => Ok (s, ONum (queue_get_num q))
  | QLwm => Ok (s, ONum (queue_get_lwm q))
  | QRead buf => do (q', st, b) <- queue_read q buf; Ok ((q', g), ORead st b)
  | QInfo => Ok (s, OInfo (queue_get_info q))
  | QClear => Ok ((queue_clear_info q, g), OUnit)
  end.
End Drive.

(** Results of a run, or the fault that ended it. *)
Definition outs {S R} (r : res (S * list R)) : res (list R) :=
  match r with Ok (_, l) => Ok l | Fault f => Fault f end.

(** Counting over the visible call/result trace, for the statistics. *)
Definition count {A} (f : A -> bool) (l : list A) : N := N.of_nat (length (filter f l)).

Section Count.
Context {E : Type}.
Definition is_clear (x : qop E * qout E) : bool :=
  match x with (QClear, _) => true | _ => false end.
Definition is_put (x : qop E * qout E) : bool :=
  match x with (QPutFifo _, _) | (QPutLifo _, _) => true | _ => false end.
Definition is_get (x : qop E * qout E) : bool :=
  match x with (QGet, _) => true | _ => false end.
Definition is_empty_get (x : qop E * qout E) : bool :=
  match x with (QGet, OPtr None) => true | _ => false end.
Definition is_read (x : qop E * qout E) : bool :=
  match x with (QRead _, _) => true | _ => false end.
Definition is_empty_read (x : qop E * qout E) : bool :=
  match x with (QRead _, ORead QUE_EMPTY _) => true | _ => false end.

(** The part of the trace after the last clear. *)
Definition since_clear (tr : list (qop E * qout E)) : list (qop E * qout E) :=
  fold_left (fun acc x => if is_clear x then [] else acc ++ [x]) tr [].
End Count.
