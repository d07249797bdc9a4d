(** Trace records of source/tmr/src/rkhtmr.c (RKH_CFG_TRC_TMR_EN), all filters open.

    The functions of M_Tmr again, with the records they make, in order
    (trc/inc/rkhtrc_record.h: 981-1061); names of events and active objects are left out.
    No hooks (RKH_CFG_TMR_HOOK_EN disabled).  [RPost t] is not a record of this module: it
    stands where the event of [t] is posted, with the records of that post (C72). *)
From Verif Require Import Base M_Tmr.
Local Open Scope N_scope.

(** trc/inc/rkhtrc_record.h: 981-1061, the records of the timers. *)
Inductive trec := RInit (t : N) | RStart (t n p : N) | RStop (t n p : N) | RTout (t : N) | RRem (t : N) | RPost (t : N).

(** rkhtmr.c: 97-110, [rem_from_list], the record at 109. *)
Definition rem_from_list_t (s : tmst) (t : N) (tprev : option N) : res (tmst * list trec) :=
  do s <- rem_from_list s t tprev; Ok (s, [RRem t]).

(** rkhtmr.c: 112-124, [searchAndRemove]. *)
Definition search_and_remove_t (fuel : nat) (s : tmst) (t : N) : res (tmst * list trec) :=
  do (tprev, telem) <- tm_search fuel s t None (ts_head s);
  match telem with
  | Some e => rem_from_list_t s e tprev
  | None => Ok (s, [])
  end.

(** rkhtmr.c: 139-168, the loop of [rkh_tmr_tick], the record at 149. *)
Fixpoint tm_loop_t (c : tmcfg) (fuel : nat) (s : tmst) (w : list trec) (tprev t : option N) : res (tmst * list trec) :=
  match t with
  | None => Ok (s, w)
  | Some x =>
    match fuel with
    | O => Fault FFuel
    | S k =>
      if tm_used (ts_heap s x) then
        let n := (tm_ntick (ts_heap s x) + tnt_mod c - 1) mod tnt_mod c in
        let s := set_ntick s x n in
        if n =? 0 then
          let w := w ++ [RTout x] in
          do (s, w, tprev) <-
            (if tm_period (ts_heap s x) =? 0
             then do (s, r) <- rem_from_list_t s x tprev; Ok (s, w ++ r, tprev)
             else Ok (set_ntick s x (tm_period (ts_heap s x)), w, Some x));
          let w := w ++ [RPost x] in
          tm_loop_t c k s w tprev (tm_next (ts_heap s x))
        else tm_loop_t c k s w (Some x) (tm_next (ts_heap s x))
      else
        do (s, r) <- rem_from_list_t s x tprev;
        tm_loop_t c k s (w ++ r) tprev (tm_next (ts_heap s x))
    end
  end.

(** rkhtmr.c: 127-170, [rkh_tmr_tick]. *)
Definition tm_tick_t (c : tmcfg) (fuel : nat) (s : tmst) : res (tmst * list trec) :=
  tm_loop_t c fuel s [] None (ts_head s).

(** rkhtmr.c: 172-194, [rkh_tmr_init_], the record at 190. *)
Definition tm_init_t (fuel : nat) (s : tmst) (t : N) : res (tmst * list trec) :=
  do (s, r) <- (if tm_used (ts_heap s t) then search_and_remove_t fuel s t else Ok (s, []));
  Ok (set_used (set_ntick s t 0) t false, r ++ [RInit t]).

(** rkhtmr.c: 196-219, [rkh_tmr_start], the record at 217: the argument [itick] and the
    period stored. *)
Definition tm_start_t (c : tmcfg) (s : tmst) (t itick per : N) : res (tmst * list trec) :=
  do s <- tm_start c s t itick per; Ok (s, [RStart t itick (tm_period (ts_heap s t))]).

(** rkhtmr.c: 221-242, [rkh_tmr_stop], the record at 229. *)
Definition tm_stop_t (fuel : nat) (s : tmst) (t : N) : res (tmst * bool * list trec) :=
  let r := [RStop t (tm_ntick (ts_heap s t)) (tm_period (ts_heap s t))] in
  if tm_ntick (ts_heap s t) =? 0 then Ok (s, false, r)
  else do (s, r') <- search_and_remove_t fuel (set_ntick s t 0) t; Ok (s, true, r ++ r').
