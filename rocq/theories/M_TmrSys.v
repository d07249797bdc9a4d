(** Software timers in the running system: rkhtmr.c on top of the kernel.  Every
    function of rkhtmr.c is one critical section, so each is one step here. *)
From Verif Require Import Base M_Tmr S_Tmr M_RdyGrp M_Queue M_MemPool M_Kernel S_Kernel.
Local Open Scope N_scope.

(** tmr/inc/rkhtmr.h, RKH_TMR_T: the members [sma] and [evt] of every timer, next
    to those of M_Tmr (with the list of timers that were initialised); and the
    kernel.  [y_hist]: the calls of the timer functions and their results, oldest
    first. *)
Record tsys := mkY {
  y_k : conf; y_t : tmst * list N; y_to : N -> nat; y_ev : N -> N; y_hist : list (tmop * tmout) }.

(** The next thing that happens: a step of the kernel (S_Kernel), a call of a timer
    function, or a tick.  rkhtmr.c: 127-248. *)
Inductive yop := YKern (ch : choice) | YInit (t e : N) | YStart (t : N) (o : nat) (n p : N) | YStop (t : N) | YTick.

(** An interrupt routine calls [rkh_tmr_tick] (rkhtmr.c: 127-170), whose posts are
    [ps]: the interrupt, the call and its critical section.  The function and the
    routine return later, by steps of the kernel. *)
Definition tick_isr (ps : list (nat * N)) : list choice :=
  [ChIrq; ChCall (OTick ps); ChGo].
(** A choice of the kernel that would be a tick; no C counterpart.
    rkhtmr.c: 127-170 is left to YTick. *)
Definition is_tick (ch : choice) : bool := match ch with ChCall (OTick _) => true | _ => false end.

Section Sys.
Context (tc : tmcfg) (c : kcfg) (statics : list (N * N)).

(** The calls of rkhtmr.c: 172-248 in the joint system. *)
Definition y_do (y : tsys) (o : tmop) : res (tsys * tmout) :=
  do (t', r) <- tm_step tc no_hook (y_t y) o;
  Ok (mkY (y_k y) t' (y_to y) (y_ev y) (y_hist y ++ [(o, r)]), r).

(** A running timer's active object leaves the registry; no C counterpart: the
    application stops an object's timers before it terminates the object.
    rkhsma.c: 138-145 does not do it. *)
Definition orphans (y : tsys) (x : conf) : bool :=
  existsb (fun t => running (track t None (y_hist y)) && negb (registered (c_s x) (y_to y t))) (snd (y_t y)).

(** - [YKern]: ticks come only from [YTick]; an object that a running timer is for
      is not terminated.
    - [YInit]: rkhtmr.c: 172-194, [rkh_tmr_init_]; [e] is a static event.
    - [YStart]: rkhtmr.c: 196-219, [rkh_tmr_start] of an initialised timer for a
      registered active object, with counts that fit the type.
    - [YStop]: rkhtmr.c: 221-242, [rkh_tmr_stop].
    - [YTick]: rkhtmr.c: 127-170, [rkh_tmr_tick]; the posts of line 161 in the order
      of the list.
    A call outside these rules is not made. *)
Definition ystep (y : tsys) (a : yop) : res tsys :=
  match a with
  | YKern ch =>
      if is_tick ch then Ok y else
      do x <- cstep c statics (y_k y) ch;
      if orphans y x then Ok y else Ok (mkY x (y_t y) (y_to y) (y_ev y) (y_hist y))
  | YInit t e =>
      if is_static statics e then
        do (y', _) <- y_do y (TInit t);
        Ok (mkY (y_k y') (y_t y') (y_to y') (fun t' => if t' =? t then e else y_ev y t') (y_hist y'))
      else Ok y
  | YStart t o n p =>
      if existsb (N.eqb t) (snd (y_t y)) && registered (c_s (y_k y)) o &&
         (0 <? n) && (n <? tnt_mod tc) && (p <? tnt_mod tc) then
        do (y', _) <- y_do y (TStart t n p);
        Ok (mkY (y_k y') (y_t y') (fun t' => if t' =? t then o else y_to y t') (y_ev y') (y_hist y'))
      else Ok y
  | YStop t => if existsb (N.eqb t) (snd (y_t y)) then do (y', _) <- y_do y (TStop t); Ok y' else Ok y
  | YTick =>
      do (y', r) <- y_do y TTick;
      match r with
      | TOTick fired =>
          do x <- crun c statics (y_k y') (tick_isr (map (fun t => (y_to y t, y_ev y t)) fired));
          Ok (mkY x (y_t y') (y_to y') (y_ev y') (y_hist y'))
      | _ => Ok y'
      end
  end.
(** A sequence of these; no C counterpart. *)
Fixpoint yrun (y : tsys) (l : list yop) : res tsys :=
  match l with [] => Ok y | a :: l => do y' <- ystep y a; yrun y' l end.

(** main(): the kernel at its start, the timer structures hold anything, and
    [rkh_tmr_init] (rkhtmr.c: 244-248). *)
Definition tsys0 (s : kst) (h : N -> tmr) (to : N -> nat) (ev : N -> N) : tsys :=
  mkY (conf0 s) (tm_init h, []) to ev [].
End Sys.
