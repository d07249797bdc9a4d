(** Life of the thread of an active object in the ports that have one for each:
    80x86/win32_mt/vc/rkhport.c (Win32), ucos/v3.03.01/rkhport.c (Ucos) and
    arm-cortex/ksdk_os/ucosiii/kds/rkhport.c (Ksdk), all under source/portable.
    One active object is followed; the calls of everybody else that concern it, posts and
    rkh_sma_terminate, may come at any time.  Assertions are on.  What the waiting does is
    that of M_Threads for Win32 and of the operating system for the others: a thread that
    waits goes on when the queue is not empty.  Events are numbers; their memory is that
    of M_Kernel.  Posts are FIFO. *)
From Verif Require Import Base.
Local Open Scope N_scope.

(** The three ports: win32_mt/vc, ucos/v3.03.01 and ksdk_os/ucosiii/kds.
    win32_mt/vc/rkhport.c, ucos/v3.03.01/rkhport.c, ksdk_os/ucosiii/kds/rkhport.c. *)
Inductive port := Win32 | Ucos | Ksdk.
(** Which port it is; no C counterpart.  It stands for the choice of one rkhport.c. *)
Definition is_win32 (p : port) : bool := match p with Win32 => true | _ => false end.

(** Where rkh_sma_activate is: not called; queue created, object registered and machine
    initialised; thread created; done.
    win32_mt/vc/rkhport.c: 242-286; ucos/v3.03.01/rkhport.c: 166-211; ksdk_os/ucosiii/kds/rkhport.c: 237-269. *)
Inductive apc := A0 | A1 | A2 | A3.
(** Where thread_function is.
    win32_mt/vc/rkhport.c: 99-117; ucos/v3.03.01/rkhport.c: 70-87; ksdk_os/ucosiii/kds/rkhport.c: 88-107. *)
Inductive tpc := PNone | PTest | PGet | PDisp (e : N) | PGc (e : N) | PUnreg | PClose | PEnd.
(** [l_q]: the event queue, [None] if there is none; [l_reg]: rkh_sptbl has the object;
    [l_flag]: the member thread is not zero (Win32), the member running (others);
    [l_out]: the events dispatched.  sma/inc/rkhsma.h: 771-842. *)
Record life := mkLife { l_q : option (list N); l_reg : bool; l_flag : bool; l_act : apc; l_pc : tpc; l_out : list N }.
(** Members are zero before activation (RKH_SMA_CREATE).  sma/inc/rkhsma.h: 348-363. *)
Definition life0 : life := mkLife None false false A0 PNone [].

(** What can happen to the object; lines of win32_mt/vc/rkhport.c (Win32), ucos/v3.03.01/rkhport.c (Ucos) and ksdk_os/ucosiii/kds/rkhport.c (Ksdk). *)
Inductive lab :=
| AInit        (* Win32: 254-257; Ucos: 174-181; Ksdk: 247-255 *)
| ACreate      (* CreateThread: 258; OSTaskCreate: 195-207; OSA_TaskCreate: 258-265 *)
| ASet         (* the assignment of 258; 210; 268 *)
| Thread       (* the next step of thread_function *)
| Post (e : N)
| Terminate.   (* rkh_sma_terminate *)

(** Win32: 104 enters the loop by the get; Ucos: 77 and Ksdk: 95 by the test.
    Lines of rkhport.c of each port. *)
Definition start_pc (p : port) : tpc := if is_win32 p then PGet else PTest.
(** Ucos: 290 and Ksdk: 332, assertions in rkh_sma_get.
    Lines of rkhport.c of each port. *)
Definition get_line (p : port) : nat := match p with Ucos => 290 | Ksdk => 332 | Win32 => 0 end.
(** queue/src/rkhqueue.c: 223; Ucos: 235; Ksdk: 289. *)
Definition put_line (p : port) : nat := match p with Win32 => 223 | Ucos => 235 | Ksdk => 289 end.
(** Ucos: 163; Ksdk: 234.  Lines of rkhport.c of each port. *)
Definition del_line (p : port) : nat := match p with Ucos => 163 | Ksdk => 234 | Win32 => 0 end.

(** Win32: 99-117; Ucos: 70-87; Ksdk: 88-107.  [None]: the thread waits, or there is
    none.  A get from a deleted queue returns with an error.
    Lines of rkhport.c of each port. *)
Definition thread_step (p : port) (s : life) : option (res life) :=
  let at_ pc := Some (Ok (mkLife (l_q s) (l_reg s) (l_flag s) (l_act s) pc (l_out s))) in
  match l_pc s with
  | PNone | PEnd => None
  | PTest => at_ (if l_flag s then PGet else PUnreg)
  | PGet =>
    match l_q s with
    | None => Some (Fault (FAssert (get_line p)))
    | Some [] => None
    | Some (e :: q) => Some (Ok (mkLife (Some q) (l_reg s) (l_flag s) (l_act s) (PDisp e) (l_out s)))
    end
  | PDisp e => Some (Ok (mkLife (l_q s) (l_reg s) (l_flag s) (l_act s) (PGc e) (l_out s ++ [e])))
  | PGc _ => at_ PTest
  | PUnreg => Some (Ok (mkLife (l_q s) false (l_flag s) (l_act s) (if is_win32 p then PClose else PEnd) (l_out s)))
  | PClose => at_ PEnd
  end.

(** Win32: 242-286, 288-292; Ucos: 156-211, 213-242; Ksdk: 227-269, 271-294.  A post into a
    deleted queue, a second deletion and a post into a full queue fail.  In Win32 a post
    to an object that has ended puts the event in the queue and signals a closed handle,
    which fails unseen.  Lines of rkhport.c of each port. *)
Definition lstep (p : port) (cap : nat) (s : life) (x : lab) : option (res life) :=
  match x with
  | AInit =>
    match l_act s with A0 => Some (Ok (mkLife (Some []) true (l_flag s) A1 (l_pc s) (l_out s))) | _ => None end
  | ACreate =>
    match l_act s with A1 => Some (Ok (mkLife (l_q s) (l_reg s) (l_flag s) A2 (start_pc p) (l_out s))) | _ => None end
  | ASet =>
    match l_act s with A2 => Some (Ok (mkLife (l_q s) (l_reg s) true A3 (l_pc s) (l_out s))) | _ => None end
  | Thread => thread_step p s
  | Post e =>
    match l_act s with
    | A0 => None
    | _ =>
      match l_q s with
      | None => Some (Fault (FAssert (put_line p)))
      | Some q =>
        if Nat.ltb (length q) cap then Some (Ok (mkLife (Some (q ++ [e])) (l_reg s) (l_flag s) (l_act s) (l_pc s) (l_out s)))
        else Some (Fault (FAssert (put_line p)))
      end
    end
  | Terminate =>
    match l_act s with
    | A0 => None
    | _ =>
      if is_win32 p then Some (Ok (mkLife (l_q s) (l_reg s) false (l_act s) (l_pc s) (l_out s)))
      else match l_q s with
           | None => Some (Fault (FAssert (del_line p)))
           | Some _ => Some (Ok (mkLife None (l_reg s) false (l_act s) (l_pc s) (l_out s)))
           end
    end
  end.
