(** Model of the "shared resource" application, demo/cross/shared: one server and
    a number of clients, as active objects that run on the state machine engine of
    M_Sm.  The application has four clients (client.h: 43-46); here their number is
    a parameter, and so are the sizes of the queues and of the event pool.

    Simplified: an active object's event queue is the list of its events (P_Queue
    shows that rkh_queue behaves as one); a one-shot timer is a flag that says
    whether it runs, and it may expire at any moment as long as it does; the
    reference counts of an event are left out: an event taken from the pool is
    given back after the turn that consumes it unless that turn defers it (P_Kernel
    shows that the counts have this effect); configured without pseudostates,
    which the machines below do not use.  Not modelled: the signal TERM, that ends
    the program. *)
From Verif Require Import Base M_Sm.

(** shared.h: 34-43. *)
Definition REQ : N := 0.
(** shared.h: 37. *)
Definition START : N := 1.
(** shared.h: 38. *)
Definition DONE : N := 2.
(** shared.h: 39. *)
Definition TOUT_REQ : N := 3.
(** shared.h: 40. *)
Definition TOUT_USING : N := 4.
(** shared.h: 41. *)
Definition PAUSE : N := 5.
(** shared.h: 42. *)
Definition TERM : N := 6.

(** rkhcfg.h: 90, 126, 270 and 279. *)
Definition sh_smc : smcfg := mkSm true 4 4 255.

(** server.c: 33-45, the functions of the server. *)
Definition server_init := 0%nat.
(** server.c: 36. *)
Definition server_start := 1%nat.
(** server.c: 37. *)
Definition server_end := 2%nat.
(** server.c: 38. *)
Definition server_defer := 3%nat.
(** server.c: 39. *)
Definition server_terminate := 4%nat.
(** server.c: 42. *)
Definition server_pause := 5%nat.
(** server.c: 45. *)
Definition server_resume := 6%nat.
(** server.c: 30, its states. *)
Definition server_idle := 0%nat.
(** server.c: 30. *)
Definition server_busy := 1%nat.
(** server.c: 30. *)
Definition server_paused := 2%nat.
(** server.c: 49-71, the states and their transition tables (RKH_TRINT has no
    target, RKH_TRREG has one: rkhsm.h: 811, 835). *)
Definition server_m : machine :=
  [ VBasic None None None
      [ mkT TERM None (Some server_terminate) None;
        mkT REQ None (Some server_start) (Some server_busy);
        mkT PAUSE None None (Some server_paused) ];
    VBasic None None None
      [ mkT REQ None (Some server_defer) None;
        mkT TERM None (Some server_terminate) None;
        mkT DONE None (Some server_end) (Some server_idle);
        mkT PAUSE None None (Some server_paused) ];
    VBasic (Some server_pause) (Some server_resume) None
      [ mkT REQ None (Some server_defer) None;
        mkT DONE None None None;
        mkT TERM None (Some server_terminate) None;
        mkT PAUSE None None (Some server_idle) ] ].

(** client.c: 37-49, the functions of a client. *)
Definition client_init := 0%nat.
(** client.c: 40. *)
Definition client_req := 1%nat.
(** client.c: 41. *)
Definition client_start := 2%nat.
(** client.c: 42. *)
Definition client_end := 3%nat.
(** client.c: 45. *)
Definition client_delay_req := 4%nat.
(** client.c: 46. *)
Definition client_pause := 5%nat.
(** client.c: 49. *)
Definition client_resume := 6%nat.
(** client.c: 34, its states. *)
Definition client_idle := 0%nat.
(** client.c: 34. *)
Definition client_waiting := 1%nat.
(** client.c: 34. *)
Definition client_using := 2%nat.
(** client.c: 34. *)
Definition client_paused := 3%nat.
(** client.c: 53-76, the states and their transition tables. *)
Definition client_m : machine :=
  [ VBasic (Some client_delay_req) None None
      [ mkT TOUT_REQ None (Some client_req) (Some client_waiting);
        mkT PAUSE None None (Some client_paused) ];
    VBasic None None None
      [ mkT START None (Some client_start) (Some client_using) ];
    VBasic None None None
      [ mkT TOUT_USING None (Some client_end) (Some client_idle);
        mkT PAUSE None None (Some client_paused) ];
    VBasic (Some client_pause) (Some client_resume) None
      [ mkT TOUT_USING None (Some client_end) None;
        mkT PAUSE None None (Some client_idle) ] ].

(** What the engine makes of one event: rkhsm.c: 389-760 by way of M_Sm, for a
    machine in state [st]: the new state and the functions called, in order.  No
    transition has a guard.  The log is empty at the start of a turn. *)
Definition acts_of (l : list xev) : list nat :=
  flat_map (fun x => match x with XEff a _ => [a] | XExit _ (Some a) | XEntry _ (Some a) => [a] | _ => [] end) l.
(** rkhsm.c: 389-760. *)
Definition turn (m : machine) (init : nat) (st : option nat) (sig : N) : res (option nat * list nat) :=
  do (d, r) <- dispatch sh_smc m (fun _ _ _ => true) 8 0 (Some init)
                 (mkD st (fun _ => None) (fun _ => None) []) (mkEv sig 0) (fun _ => (repeat 0%nat 4, repeat None 4));
  Ok (d_st d, acts_of (d_log d)).

(** shared.h: 46-56, an event with its signal and its clino, which only REQ and
    START have. *)
Record msg := mkMsg { m_sig : N; m_cli : nat }.
(** Is the event from a pool?  REQ (client.c: 134) and START (server.c: 126) are;
    the others are constants (client.c: 101-103, bsp_shared.c: 83-84). *)
Definition dynamic (e : msg) : bool := ((m_sig e =? REQ) || (m_sig e =? START))%N.

(** What can be seen of the application: the calls to the board support package
    (demo/cross/shared/bsp.h). *)
Inductive bsp :=
| BCliReq (p : nat)        (* bsp_cli_req *)
| BCliUsing (p : nat)      (* bsp_cli_using *)
| BCliDone (p : nat)       (* bsp_cli_done *)
| BCliWait (p : nat)       (* bsp_cli_wait_req *)
| BCliPaused (p : nat)     (* bsp_cli_paused *)
| BCliResumed (p : nat)    (* bsp_cli_resumed *)
| BSvrStart (p : nat)      (* bsp_svr_start *)
| BSvrRecall (p : nat)     (* bsp_svr_recall *)
| BSvrEnd                  (* bsp_svr_end *)
| BSvrPaused (ntot : N) (ncr : list N)   (* bsp_svr_paused *)
| BSvrResume.              (* bsp_svr_resume *)

(** client.c: 79-84 with the state and the queue of the active object. *)
Record cli := mkC { c_st : option nat; c_q : list msg; c_use : bool; c_wait : bool }.
(** server.c: 74-90 with the state and the queue of the active object; [s_dyn]: the
    number of events taken from the pool; [s_log]: the calls so far. *)
Record sys := mkS {
  s_st : option nat; s_q : list msg; s_def : list msg; s_ntot : N; s_ncr : list N;
  s_cli : list cli; s_dyn : nat; s_log : list bsp }.

(** Sizes: of the server's and of the clients' queues (main.c: 24), of queueReq
    (server.c: 24) and of the event pool (bsp_shared.c: 71-74). *)
Record shcfg := mkSh { h_sq : nat; h_cq : nat; h_def : nat; h_pool : nat }.

Section Shared.
Context (h : shcfg).

(** Changes of parts of a state, in the notation of C: s.q = q and so on.
    server.c: 74-80. *)
Definition set_sst (s : sys) x := mkS x (s_q s) (s_def s) (s_ntot s) (s_ncr s) (s_cli s) (s_dyn s) (s_log s).
(** Assignment to the server's queue.  server.c: 76, the equeue of sma. *)
Definition set_sq (s : sys) x := mkS (s_st s) x (s_def s) (s_ntot s) (s_ncr s) (s_cli s) (s_dyn s) (s_log s).
(** Assignment to the server's deferral queue.  server.c: 89. *)
Definition set_def (s : sys) x := mkS (s_st s) (s_q s) x (s_ntot s) (s_ncr s) (s_cli s) (s_dyn s) (s_log s).
(** Assignment to ntot and ncr (server.c). *)
Definition set_cnt (s : sys) x y := mkS (s_st s) (s_q s) (s_def s) x y (s_cli s) (s_dyn s) (s_log s).
(** Assignment to a client.  client.c: 79-84. *)
Definition set_cli (s : sys) x := mkS (s_st s) (s_q s) (s_def s) (s_ntot s) (s_ncr s) x (s_dyn s) (s_log s).
(** Assignment to the number of blocks in use.  bsp_shared.c: 71-74. *)
Definition set_dyn (s : sys) x := mkS (s_st s) (s_q s) (s_def s) (s_ntot s) (s_ncr s) (s_cli s) x (s_log s).
(** A call of the bsp functions (bsp.h) is seen from outside. *)
Definition call (s : sys) x := mkS (s_st s) (s_q s) (s_def s) (s_ntot s) (s_ncr s) (s_cli s) (s_dyn s) (s_log s ++ [x]).
(** Assignment to the state of a client.  client.c: 81. *)
Definition with_st (k : cli) x := mkC x (c_q k) (c_use k) (c_wait k).
(** Assignment to the queue of a client.  client.c: 81. *)
Definition with_q (k : cli) x := mkC (c_st k) x (c_use k) (c_wait k).
(** The timer for using runs or not.  client.c: 82. *)
Definition with_use (k : cli) x := mkC (c_st k) (c_q k) x (c_wait k).
(** The timer for requests runs or not.  client.c: 83. *)
Definition with_wait (k : cli) x := mkC (c_st k) (c_q k) (c_use k) x.
(** Access to the client with number [i] (client.c: 95, the array clis). *)
Definition on_cli (s : sys) (i : nat) (f : cli -> res cli) : res sys :=
  do k <- rd (s_cli s) i; do k <- f k; do l <- wr (s_cli s) i k; Ok (set_cli s l).

(** rkhqueue.c: 216-255 and 258-299 on a list, with assertions enabled. *)
Definition put_fifo (n : nat) (q : list msg) (e : msg) : res (list msg) :=
  do! rassert true 223 (Nat.ltb (length q) n); Ok (q ++ [e]).
(** rkhqueue.c: 258-299 on a list. *)
Definition put_lifo (n : nat) (q : list msg) (e : msg) : res (list msg) :=
  do! rassert true 265 (Nat.ltb (length q) n); Ok (e :: q).

(** rkhsma.c: 164-184, RKH_SMA_POST_FIFO to the server and to the client of
    priority [p]; the server has priority 0 and client [i] priority i+1 (server.c:
    82, client.c: 86-93). *)
Definition post_server (s : sys) (e : msg) : res sys :=
  do q <- put_fifo (h_sq h) (s_q s) e; Ok (set_sq s q).
(** rkhsma.c: 164-184 for the receiver of priority [p]. *)
Definition post_prio (s : sys) (p : nat) (e : msg) : res sys :=
  match p with
  | O => post_server s e
  | S i => on_cli s i (fun k => do q <- put_fifo (h_cq h) (c_q k) e; Ok (with_q k q))
  end.

(** rkhfwk_dynevt.c: 126-154, RKH_ALLOC_EVT; both events fit in one pool. *)
Definition alloc (s : sys) : res sys :=
  do! rassert true 144 (Nat.ltb (s_dyn s) (h_pool h)); Ok (set_dyn s (S (s_dyn s))).

(** rkhsma.c: 250-285, [rkh_sma_recall], followed by the call that server.c: 141-145
    and 179-183 make with the event. *)
Definition recall (s : sys) : res sys :=
  match s_def s with
  | [] => Ok s
  | e :: rest =>
    do q <- put_lifo (h_sq h) (s_q s) e;
    Ok (call (set_def (set_sq s q) rest) (BSvrRecall (m_cli e)))
  end.

(** server.c: 95-186, the functions of the server; [e] is the event. *)
Definition srv_act (e : msg) (s : sys) (a : nat) : res sys :=
  match a with
  | 0 => Ok (set_cnt (set_def s []) 0%N (map (fun _ => 0%N) (s_cli s)))            (* server_init *)
  | 1 =>                                                                          (* server_start *)
    do s <- alloc s;
    do s <- post_prio s (m_cli e) (mkMsg START (m_cli e));
    let s := call s (BSvrStart (m_cli e)) in
    do x <- rd (s_ncr s) (m_cli e - 1);
    do l <- wr (s_ncr s) (m_cli e - 1) ((x + 1) mod 2 ^ 32)%N;
    Ok (set_cnt s ((s_ntot s + 1) mod 2 ^ 32)%N l)
  | 2 => do s <- recall s; Ok (call s BSvrEnd)                                     (* server_end *)
  | 3 => do q <- put_fifo (h_def h) (s_def s) e; Ok (set_def s q)                   (* server_defer *)
  | 4 => Ok s                                                                     (* server_terminate *)
  | 5 => Ok (call s (BSvrPaused (s_ntot s) (s_ncr s)))                              (* server_pause *)
  | 6 => do s <- recall s; Ok (call s BSvrResume)                                  (* server_resume *)
  | _ => Fault (FUB UB_dangling)
  end.

(** client.c: 111-183, the functions of client [i]. *)
Definition cli_act (i : nat) (e : msg) (s : sys) (a : nat) : res sys :=
  match a with
  | 0 => on_cli s i (fun k => Ok (with_wait (with_use k false) false))              (* client_init *)
  | 1 =>                                                                          (* client_req *)
    do s <- alloc s;
    do s <- post_server s (mkMsg REQ (S i));
    Ok (call s (BCliReq (S i)))
  | 2 => do s <- on_cli s i (fun k => Ok (with_use k true));                        (* client_start *)
         Ok (call s (BCliUsing (m_cli e)))
  | 3 => do s <- post_server s (mkMsg DONE 0); Ok (call s (BCliDone (S i)))          (* client_end *)
  | 4 => do s <- on_cli s i (fun k => Ok (with_wait k true));                       (* client_delay_req *)
         Ok (call s (BCliWait (S i)))
  | 5 => do s <- on_cli s i (fun k => Ok (with_wait k false));                      (* client_pause *)
         Ok (call s (BCliPaused (S i)))
  | 6 => Ok (call s (BCliResumed (S i)))                                           (* client_resume *)
  | _ => Fault (FUB UB_dangling)
  end.

(** The functions of a turn in their order.  rkhsm.c: 149-154, 218 and 250. *)
Fixpoint acts (f : sys -> nat -> res sys) (l : list nat) (s : sys) : res sys :=
  match l with
  | [] => Ok s
  | a :: l => do s <- f s a; acts f l s
  end.

(** rkhfwk_dynevt.c: 85-114, RKH_FWK_GC after the turn (rkhfwk.c or the port's loop);
    [kept]: whether the event is in queueReq. *)
Definition gc (s : sys) (e : msg) (kept : bool) : sys :=
  if dynamic e && negb kept then set_dyn s (s_dyn s - 1) else s.

(** The loop of the native scheduler, linux_st/gnu/rkhport.c: 165-177, and of the
    threads (P_Life): one event of an active object; nothing if there is none. *)
Definition server_turn (s : sys) : res sys :=
  match s_q s with
  | [] => Ok s
  | e :: q =>
    do (st, l) <- turn server_m server_init (s_st s) (m_sig e);
    do s <- acts (srv_act e) l (set_sq s q);
    Ok (gc (set_sst s st) e (existsb (Nat.eqb server_defer) l))
  end.
(** One event of a client: linux_st/gnu/rkhport.c: 165-177. *)
Definition client_turn (s : sys) (i : nat) : res sys :=
  do k <- rd (s_cli s) i;
  match c_q k with
  | [] => Ok s
  | e :: q =>
    do (st, l) <- turn client_m client_init (c_st k) (m_sig e);
    do s <- on_cli s i (fun k => Ok (with_q k q));
    do s <- acts (cli_act i e) l s;
    do s <- on_cli s i (fun k => Ok (with_st k st));
    Ok (gc s e false)
  end.

(** rkhtmr.c: 129-219: a one-shot timer expires - it stops and posts its event. *)
Definition expire_wait (s : sys) (i : nat) : res sys :=
  do k <- rd (s_cli s) i;
  if c_wait k then
    do s <- on_cli s i (fun k => Ok (with_wait k false)); post_prio s (S i) (mkMsg TOUT_REQ 0)
  else Ok s.
(** rkhtmr.c: 129-219, the timer for using. *)
Definition expire_use (s : sys) (i : nat) : res sys :=
  do k <- rd (s_cli s) i;
  if c_use k then
    do s <- on_cli s i (fun k => Ok (with_use k false)); post_prio s (S i) (mkMsg TOUT_USING 0)
  else Ok s.

(** demo/libbsp/platform/80x86/linux/bsp_shared.c: 96-106, [publish] with PAUSE. *)
Fixpoint post_clients (n i : nat) (s : sys) : res sys :=
  match n with
  | O => Ok s
  | S n => do s <- post_prio s (S i) (mkMsg PAUSE 0); post_clients n (S i) s
  end.
(** bsp_shared.c: 96-106: PAUSE to the server and all clients. *)
Definition publish_pause (s : sys) : res sys :=
  do s <- post_server s (mkMsg PAUSE 0); post_clients (length (s_cli s)) 0 s.

(** What can happen next.
    linux_st/gnu/rkhport.c: 165-177, rkhtmr.c: 129-219, bsp_shared.c: 96-106. *)
Inductive op := OServer | OClient (i : nat) | OWait (i : nat) | OUse (i : nat) | OPause.
(** A turn, the end of a timer, or a key.
    linux_st/gnu/rkhport.c: 165-177, rkhtmr.c: 129-219, bsp_shared.c: 96-106. *)
Definition step (s : sys) (o : op) : res sys :=
  match o with
  | OServer => server_turn s
  | OClient i => client_turn s i
  | OWait i => expire_wait s i
  | OUse i => expire_use s i
  | OPause => publish_pause s
  end.

(** main.c: 64-69, RKH_SMA_ACTIVATE of the server and of every client: the creation
    event of the state machine (rkhsm.c: 375-379). *)
Definition activate_server (s : sys) : res sys :=
  do (st, l) <- turn server_m server_init (s_st s) (sig_creation sh_smc);
  do s <- acts (srv_act (mkMsg (sig_creation sh_smc) 0)) l s;
  Ok (set_sst s st).
(** main.c: 64-69 and rkhsm.c: 375-379, one client. *)
Definition activate_client (s : sys) (i : nat) : res sys :=
  do k <- rd (s_cli s) i;
  do (st, l) <- turn client_m client_init (c_st k) (sig_creation sh_smc);
  do s <- acts (cli_act i (mkMsg (sig_creation sh_smc) 0)) l s;
  on_cli s i (fun k => Ok (with_st k st)).
(** main.c: 66-69, the loop over the clients. *)
Fixpoint activate_clients (n i : nat) (s : sys) : res sys :=
  match n with
  | O => Ok s
  | S n => do s <- activate_client s i; activate_clients n (S i) s
  end.
(** main.c: 57-69, from memory that is all zero. *)
Definition main (n : nat) : res sys :=
  do s <- activate_server (mkS None [] [] 0 [] (repeat (mkC None [] false false) n) 0 []);
  activate_clients n 0 s.
End Shared.
