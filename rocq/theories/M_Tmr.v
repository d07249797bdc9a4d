(** Model of source/tmr/src/rkhtmr.c.

    Timers are structures in a heap indexed by identifiers (their addresses);
    a pointer is an [option N], NULL is [None].  The event and the target
    active object of a timer never change the behaviour of this module, so
    "post the event of timer t to its active object" is the parameter [post t];
    the expiration hook is the parameter [hook t], arbitrary user code that may
    change the timers (by calling this module) and the rest of the world [W].
    The statistics (RKH_CFG_TMR_GET_INFO_EN) are never updated by the C code
    and are omitted.  A tick runs in one critical section. *)
From Verif Require Import Base.
Local Open Scope N_scope.

(** tmr/inc/rkhtmr.h: 255-263 and RKH_CFG_FWK_ASSERT_EN. *)
Record tmcfg := mkTmCfg {
  tm_asrt : bool;        (* assertions compiled in *)
  tnt_mod : N }.         (* 2^RKH_CFG_TMR_SIZEOF_NTIMER: range of RKH_TNT_T *)

(** tmr/inc/rkhtmr.h: 314-360, RKH_TMR_T (evt, sma and info left out). *)
Record tmr := mkTmr {
  tm_next : option N;
  tm_ntick : N;
  tm_period : N;
  tm_used : bool }.

(** The module variable [thead] (rkhtmr.c: 93) and all timer structures. *)
Record tmst := mkTS { ts_head : option N; ts_heap : N -> tmr }.

(** Assignment to a whole timer structure.  tmr/inc/rkhtmr.h: 314-360. *)
Definition set_tmr (s : tmst) (t : N) (r : tmr) : tmst :=
  mkTS (ts_head s) (fun x => if x =? t then r else ts_heap s x).
(** t->tnext = p (rkhtmr.c: 106, 212). *)
Definition set_next (s : tmst) (t : N) (p : option N) : tmst :=
  let r := ts_heap s t in set_tmr s t (mkTmr p (tm_ntick r) (tm_period r) (tm_used r)).
(** t->ntick = n (rkhtmr.c: 147, 156, 187). *)
Definition set_ntick (s : tmst) (t : N) (n : N) : tmst :=
  let r := ts_heap s t in set_tmr s t (mkTmr (tm_next r) n (tm_period r) (tm_used r)).
(** t->used = b (rkhtmr.c: 108, 188, 214). *)
Definition set_used (s : tmst) (t : N) (b : bool) : tmst :=
  let r := ts_heap s t in set_tmr s t (mkTmr (tm_next r) (tm_ntick r) (tm_period r) b).
(** thead = p (rkhtmr.c: 102, 213, 247). *)
Definition set_head (s : tmst) (p : option N) : tmst := mkTS p (ts_heap s).

(** Comparison of pointers.  rkhtmr.c: 100. *)
Definition ptr_eqb (p : option N) (t : N) : bool :=
  match p with Some x => x =? t | None => false end.

(** rkhtmr.c: 97-110, [rem_from_list]. *)
Definition rem_from_list (s : tmst) (t : N) (tprev : option N) : res tmst :=
  do s1 <- (if ptr_eqb (ts_head s) t then Ok (set_head s (tm_next (ts_heap s t)))
            else match tprev with
                 | None => Fault (FUB UB_null)
                 | Some p => Ok (set_next s p (tm_next (ts_heap s t)))
                 end);
  Ok (set_used s1 t false).

(** rkhtmr.c: 117-119, the search loop of [searchAndRemove]. *)
Fixpoint tm_search (fuel : nat) (s : tmst) (t : N) (tprev telem : option N)
  : res (option N * option N) :=
  match telem with
  | None => Ok (tprev, None)
  | Some e => if e =? t then Ok (tprev, Some e) else
      match fuel with
      | O => Fault FFuel
      | S k => tm_search k s t (Some e) (tm_next (ts_heap s e))
      end
  end.

(** rkhtmr.c: 112-124, [searchAndRemove]. *)
Definition search_and_remove (fuel : nat) (s : tmst) (t : N) : res tmst :=
  do (tprev, telem) <- tm_search fuel s t None (ts_head s);
  match telem with
  | Some e => rem_from_list s e tprev
  | None => Ok s
  end.

Section Tick.
Context {W : Type} (c : tmcfg)
        (hook : N -> tmst -> W -> res (tmst * W)) (post : N -> W -> res W).

(** rkhtmr.c: 139-168, the loop of [rkh_tmr_tick]. *)
Fixpoint tm_loop (fuel : nat) (s : tmst) (w : W) (tprev t : option N) : res (tmst * W) :=
  match t with
  | None => Ok (s, w)
  | Some x =>
    match fuel with
    | O => Fault FFuel
    | S k =>
      if tm_used (ts_heap s x) then
        let n := (tm_ntick (ts_heap s x) + tnt_mod c - 1) mod tnt_mod c in
        let s := set_ntick s x n in
        if n =? 0 then
          do (s, tprev) <-
            (if tm_period (ts_heap s x) =? 0
             then do s <- rem_from_list s x tprev; Ok (s, tprev)
             else Ok (set_ntick s x (tm_period (ts_heap s x)), Some x));
          do (s, w) <- hook x s w;
          do w <- post x w;
          tm_loop k s w tprev (tm_next (ts_heap s x))
        else tm_loop k s w (Some x) (tm_next (ts_heap s x))
      else
        do s <- rem_from_list s x tprev;
        tm_loop k s w tprev (tm_next (ts_heap s x))
    end
  end.

(** rkhtmr.c: 127-170, [rkh_tmr_tick]. *)
Definition tm_tick (fuel : nat) (s : tmst) (w : W) : res (tmst * W) :=
  tm_loop fuel s w None (ts_head s).
End Tick.

(** rkhtmr.c: 172-194, [rkh_tmr_init_]. *)
Definition tm_init_ (fuel : nat) (s : tmst) (t : N) : res tmst :=
  do s <- (if tm_used (ts_heap s t) then search_and_remove fuel s t else Ok s);
  Ok (set_used (set_ntick s t 0) t false).

(** rkhtmr.c: 196-219, [rkh_tmr_start]; [t] and [sma] are not NULL. *)
Definition tm_start (c : tmcfg) (s : tmst) (t itick per : N) : res tmst :=
  do! rassert (tm_asrt c) 202 (negb (itick =? 0));
  let r := ts_heap s t in
  let s := set_tmr s t (mkTmr (tm_next r) itick per (tm_used r)) in
  if tm_used r then Ok s
  else Ok (set_used (set_head (set_next s t (ts_head s)) (Some t)) t true).

(** rkhtmr.c: 221-242, [rkh_tmr_stop]. *)
Definition tm_stop (fuel : nat) (s : tmst) (t : N) : res (tmst * bool) :=
  if tm_ntick (ts_heap s t) =? 0 then Ok (s, false)
  else do s <- search_and_remove fuel (set_ntick s t 0) t; Ok (s, true).

(** rkhtmr.c: 244-248, [rkh_tmr_init]; the structures hold anything. *)
Definition tm_init (h : N -> tmr) : tmst := mkTS None h.
