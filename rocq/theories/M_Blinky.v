(** Model of the two blinky applications: demo/cross/blinky/blinky.c, built without
    hierarchy, and demo/80x86/blinky/src/blinky.c, built with it.  The machine runs
    in [M_SmFlat] and [M_Sm], its one timer (timer 0) in [M_Tmr].  The queue is the
    list of the signals in it.  The functions that a dispatch calls are run in
    their order after the dispatch, which reads nothing that they write. *)
From Verif Require Import Base M_Sm S_SmRun M_SmFlat M_Tmr.

(** The two demos: demo/cross/blinky/blinky.c and demo/80x86/blinky/src/blinky.c. *)
Inductive version := Cross | X86.
(** The scratch memory of one dispatch: its arrays, and the static variable ix_n of
    the engine without hierarchy.  sm/src/rkhsm.c: 408-421. *)
Record scratch := mkScr { k_al : list nat; k_ixn : nat; k_ars : arrays }.

(** cross/blinky/blinky.h: 32-37 and 80x86/blinky/src/blinky.h: 32-36, the signals. *)
Definition sig_tout : N := 0.
(** cross/blinky/blinky.h: 35 and 80x86/blinky/src/blinky.h: 35, TERMINATE. *)
Definition sig_term : N := 1.
(** cross/blinky/rkhcfg.h: 44, 76, 207, 215, 715 and 80x86/blinky/src/rkhcfg.h, the
    same lines. *)
Definition bsm : smcfg := mkSm true 2 2 255.
(** rkhcfg.h: 76 and 715 of both: assertions, RKH_TNT_T of 16 bits. *)
Definition btm : tmcfg := mkTmCfg true 65536.

(** The states, and the functions: blinky_init or init, blinky_ledOn or nLedOn,
    blinky_ledOff or nLedOff.
    cross/blinky/blinky.c: 30; 80x86/blinky/src/blinky.c: 29. *)
Definition ledOn := 0. Definition ledOff := 1.
(** cross/blinky/blinky.c: 33-37; 80x86/blinky/src/blinky.c: 32-36: the names of the functions. *)
Definition f_init := 0. Definition f_on := 1. Definition f_off := 2.
(** cross/blinky/blinky.c: 43-51. *)
Definition m_cross : machine :=
  [ VBasic None None None [ mkT sig_tout None (Some f_off) (Some ledOff) ];
    VBasic None None None [ mkT sig_tout None (Some f_on) (Some ledOn) ] ].
(** 80x86/blinky/src/blinky.c: 41-49. *)
Definition m_x86 : machine :=
  [ VBasic (Some f_on) None None [ mkT sig_tout None None (Some ledOff) ];
    VBasic (Some f_off) None None [ mkT sig_tout None None (Some ledOn) ] ].

(** What is seen from outside: bsp_ledOn() and bsp_ledOff().
    cross/blinky/bsp.h: 69-70; 80x86/blinky/src/bsp.h: 30-31. *)
Inductive led := On | Off.
(** cross/blinky/blinky.c: 54-61 and 80x86/blinky/src/blinky.c: 52-59, struct Blinky: the state and the queue
    of its base, the timer (with the timer module, rkhtmr.c: 93) and cnt. *)
Record bl := mkBl { b_st : option nat; b_tm : tmst; b_q : list N; b_cnt : N }.

Section Blinky.
Context (v : version) (on off : N) (cap : nat).

(** cross/blinky/blinky.c: 95-103; 80x86/blinky/src/blinky.c: 87-93.  RKH_TMR_ONESHOT
    is rkh_tmr_start with period 0 (tmr/inc/rkhtmr.h: 187-188). *)
Definition do_on (s : bl) : res (bl * list led) :=
  do t <- tm_start btm (b_tm s) 0 on 0;
  Ok (mkBl (b_st s) t (b_q s) ((b_cnt s + 1) mod 256), [On]).
(** cross/blinky/blinky.c: 105-113; 80x86/blinky/src/blinky.c: 95-100. *)
Definition do_off (s : bl) : res (bl * list led) :=
  do t <- tm_start btm (b_tm s) 0 off 0;
  Ok (mkBl (b_st s) t (b_q s) (b_cnt s), [Off]).
(** cross/blinky/blinky.c: 80-92, the initial action, which turns the LED on itself;
    80x86/blinky/src/blinky.c: 71-84, which leaves that to the entry action. *)
Definition do_init (s : bl) : res (bl * list led) :=
  do t <- tm_init_ 1 (b_tm s) 0;
  match v with
  | Cross => do_on (mkBl (b_st s) t (b_q s) (b_cnt s))
  | X86 => Ok (mkBl (b_st s) t (b_q s) 0, [])
  end.
(** The call of a function by its name; no C counterpart.
    The functions are those of blinky.c: 33-37 or 32-36. *)
Definition do_fun (s : bl) (f : nat) : res (bl * list led) :=
  if f =? f_init then do_init s else if f =? f_on then do_on s else do_off s.
(** sm/src/rkhsm.c: 149-154, 190-254: the calls of one dispatch, in order. *)
Fixpoint do_funs (s : bl) (fs : list nat) : res (bl * list led) :=
  match fs with
  | [] => Ok (s, [])
  | f :: fs => do (s, o) <- do_fun s f; do (s, os) <- do_funs s fs; Ok (s, o ++ os)
  end.
(** The function called at one place of the log of [M_Sm]; no C counterpart.
    The calls are those of rkhsm.c: 149-154, 218 and 250. *)
Definition fun_of (x : xev) : list nat :=
  match x with XEff a _ => [a] | XEntry _ (Some a) => [a] | XExit _ (Some a) => [a] | _ => [] end.

(** sm/src/rkhsm.c: 389-760, [rkh_sm_dispatch] of the version, then the functions. *)
Definition b_dispatch (k : scratch) (s : bl) (e : N) : res (bl * list led) :=
  let d := mkD (b_st s) (fun _ => None) (fun _ => None) [] in
  do (d, _) <- match v with
    | Cross => flat_dispatch bsm m_cross (fun _ _ _ => true) ledOn (Some f_init) d (mkEv e 0) (k_al k) (k_ixn k)
    | X86 => dispatch bsm m_x86 (fun _ _ _ => true) 10 ledOn (Some f_init) d (mkEv e 0) (k_ars k)
    end;
  do_funs (mkBl (d_st d) (b_tm s) (b_q s) (b_cnt s)) (flat_map fun_of (d_log d)).

(** queue/src/rkhqueue.c: 216-255, [rkh_queue_put_fifo] into the queue of [cap] places. *)
Definition b_put (q : list N) (e : N) : res (list N) :=
  do! rassert true 223 (Nat.ltb (length q) cap); Ok (q ++ [e]).

(** cross/blinky/main.c: 35-41, 80x86/blinky/src/main.c: 30-36, [main], as far as the
    initial transition (sma/src/rkhsma.c: 147-161); [h] is the memory of the timers,
    cnt is 0 in static storage. *)
Definition b_start (k : scratch) (h : N -> tmr) : res (bl * list led) :=
  b_dispatch k (mkBl None (tm_init h) [] 0) (sig_creation bsm).

(** What can happen next: rkh_tmr_tick (no hooks), a turn of the framework's loop
    (rkh_fwk_enter: rkh_sma_get, rkh_sm_dispatch; idle if the queue is empty), the
    key ESC (libbsp/platform/80x86/linux/bsp_blinky.c: 117-125) before the threads
    have stopped. *)
Inductive bop := BTick | BTurn (k : scratch) | BEsc.
(** tmr/src/rkhtmr.c: 127-170; fwk/src/rkhfwk_sched.c, the loop's turn; bsp_blinky.c: 117-125. *)
Definition b_step (s : bl) (o : bop) : res (bl * list led) :=
  match o with
  | BTick =>
    do (t, q) <- tm_tick btm (fun _ t w => Ok (t, w)) (fun _ q => b_put q sig_tout) 2 (b_tm s) (b_q s);
    Ok (mkBl (b_st s) t q (b_cnt s), [])
  | BTurn k =>
    match b_q s with
    | [] => Ok (s, [])
    | e :: q => b_dispatch k (mkBl (b_st s) (b_tm s) q (b_cnt s)) e
    end
  | BEsc => do q <- b_put (b_q s) sig_term; Ok (mkBl (b_st s) (b_tm s) q (b_cnt s), [])
  end.
End Blinky.
