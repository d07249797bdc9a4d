(** Active objects as state machines: the two places where the kernel enters the
    state machine engine.  Actions and guards of a machine may make any calls to
    the kernel (that is what the executions of S_Kernel do while application code
    runs); what a guard answers depends on the event's signal and on what the same
    machine did before. *)
From Verif Require Import Base M_MemPool M_Kernel S_Kernel M_Sm.
Local Open Scope N_scope.

(** sma/inc/rkhsma.h: RKH_SMA_T and its ROM part: the machine of an active object,
    with the configuration of the engine, the meaning of its guards, the bound on
    loop turns of the model, and the contents that the work arrays happen to
    have. *)
Record smobj := mkObj {
  ob_c : smcfg; ob_M : machine; ob_grd : nat -> evt -> list xev -> bool;
  ob_fuel : nat; ob_ist : nat; ob_iact : option nat; ob_ars : nat -> nat -> list nat * list (option nat) }.

(** The state machines of all active objects: how often each was entered, and its
    RAM ([Fault] if it failed).
    sm/src/rkhsm.c: 389-424, the RAM that rkh_sm_dispatch works on. *)
Definition machines := nat -> nat * res dyn.
(** RAM before the first call.
    sma/inc/rkhsma.h: 348-363, RKH_SMA_CREATE: static storage. *)
Definition machines0 : machines := fun _ => (O, Ok (mkD None (fun _ => None) (fun _ => None) [])).

(** rkhsma.c: 159, the call of [rkh_sm_init] in [rkh_sma_activate]. *)
Definition sma_sm_init (ob : smobj) (m : nat * res dyn) : nat * res dyn :=
  (S (fst m),
   do d <- snd m;
   do (d', _) <- sm_init (ob_c ob) (ob_M ob) (ob_grd ob) (ob_fuel ob) (ob_ist ob) (ob_iact ob) d (ob_ars ob (fst m)); Ok d').
(** rkhsma.c: 229-233, [rkh_sma_dispatch], called from rkhfwk_sched.c: 126.  The
    event is the header at address [e]; its identity, which completion and creation
    events (0 and 1) do not share, is determined by the signal, payloads are not
    modelled. *)
Definition sma_dispatch (ob : smobj) (s : kst) (e : N) (m : nat * res dyn) : nat * res dyn :=
  (S (fst m),
   do d <- snd m;
   do (sig, _, _) <- hdr_rd (k_mem s) e;
   do (d', _) <- dispatch (ob_c ob) (ob_M ob) (ob_grd ob) (ob_fuel ob) (ob_ist ob) (ob_iact ob) d
                   (mkEv sig (2 + sig)) (ob_ars ob (fst m)); Ok d').
(** What the machines do when the kernel enters application code.
    sma/src/rkhsma.c: 159 and 229-233. *)
Definition deliver (obj : nat -> smobj) (s : kst) (ms : machines) (x : entry) : machines :=
  match x with
  | EU (UInit o) => fupd ms o (sma_sm_init (obj o) (ms o))
  | EU (UDispatch o e) => fupd ms o (sma_dispatch (obj o) s e (ms o))
  | _ => ms
  end.
