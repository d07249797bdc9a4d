(** Critical sections of the bare-metal ports, instruction by instruction.

    RKH_ENTER_CRITICAL() and RKH_EXIT_CRITICAL() of four families of ports
    (below [source/portable/]), each as the list of processor instructions it
    consists of, and a processor that may take an interrupt between any two
    instructions.

    The processor is reduced to what decides whether an interrupt is taken:
    an interrupt has a level, a higher level being more urgent, and there is
    one mask register.  [p_stacked] tells the two families apart:
    - S08 and ColdFire: taking an interrupt saves the status register, sets
      its mask to the level of the interrupt, and the return from interrupt
      restores it;
    - Cortex-M: BASEPRI is left alone by both, and an interrupt must be more
      urgent than the running handler as well.
    The general-purpose registers are saved and restored around a handler.
    The level that cannot be masked on the ColdFire (7) is numbered 8 here. *)
From Verif Require Import Base.
Local Open Scope N_scope.

(** The mask register and the static variables of all the modelled ports
    (each uses its own ones): [cnt]: crit_cnt of cfv1/rkhs/cw6_3/rkhport.c:70,
    critical_nesting of arm-cortex/rkhs/arm_cm4f/ciaa_nxp/rkhport.c:64 (and the
    same variable of arm_cm3/codered, arm_cm4f/cw_v10, arm_cm0/cw_v10),
    rkh_critical_nesting of arm_cm4f/stm32/rkhport.c:62; [srm]: sr_mem of
    cfv1/rkhs/cw6_3/rkhport.c:71; [stk], [sp]: ccr_sp_mem and ccr_sp of
    s08/rkhs/cw6_3/rkhport.c:70-71, [sp] as an index. *)
Record cst := mkC { mask : N; cnt : N; srm : N; stk : list N; sp : nat }.

(** The registers of a running activity (d0, A or r0 in [ra]; HX or the second
    register of stm32/rkhport.h:75 in [rx]) and the local variables `sr` of
    the functions that are inside a section, innermost first
    (fwk/inc/rkhitl.h:2297-2307, RKH_SR_ALLOC). *)
Record loc := mkL { ra : N; rx : nat; srs : list N }.

(** Record update.
    The mask register, written by s08/rkhs/cw6_3/rkhport.c:91-109 and the others. *)
Definition set_mask s v := mkC v (cnt s) (srm s) (stk s) (sp s).
(** Record update.  cfv1/rkhs/cw6_3/rkhport.c:70 and the others named at cst. *)
Definition set_cnt s v := mkC (mask s) v (srm s) (stk s) (sp s).
(** Record update.  cfv1/rkhs/cw6_3/rkhport.c:71. *)
Definition set_srm s v := mkC (mask s) (cnt s) v (stk s) (sp s).
(** Record update.  s08/rkhs/cw6_3/rkhport.c:70. *)
Definition set_stk s v := mkC (mask s) (cnt s) (srm s) v (sp s).
(** Record update.  s08/rkhs/cw6_3/rkhport.c:71. *)
Definition set_sp s v := mkC (mask s) (cnt s) (srm s) (stk s) v.
(** Record update.  Register of s08/rkhs/cw6_3/rkhport.c:91-109 and the others. *)
Definition set_ra l v := mkL v (rx l) (srs l).
(** Record update.  Register of s08/rkhs/cw6_3/rkhport.c:91-109 and the others. *)
Definition set_rx l v := mkL (ra l) v (srs l).
(** Record update.  fwk/inc/rkhitl.h:2297-2307. *)
Definition set_srs l v := mkL (ra l) (rx l) v.

(** Where the sequence goes on, or that it is over.
    The processor, no C counterpart; it runs the sequences of fwk/inc/rkhitl.h:2297-2307. *)
Inductive next := Goto (pc : nat) | Done.

(** One machine instruction of a sequence cited below.
    s08/rkhs/cw6_3/rkhport.c:91-109 and the others. *)
Definition instr := nat -> cst -> loc -> res (cst * loc * next).

(** A port: which processor family, and its two sequences.
    The rkhport.c and rkhport.h files cited below. *)
Record port := mkP { p_stacked : bool; p_enter : instr; p_exit : instr }.

(** s08/rkhs/cw6_3/rkhport.c:91-99: tpa; sei; ldhx ccr_sp; sta ,x; aix #1;
    sthx ccr_sp.  Of the condition codes only the interrupt mask is kept. *)
Definition s08_enter : instr := fun pc s l =>
  match pc with
  | 0%nat => Ok (s, set_ra l (mask s), Goto 1)
  | 1%nat => Ok (set_mask s 1, l, Goto 2)
  | 2%nat => Ok (s, set_rx l (sp s), Goto 3)
  | 3%nat => do k <- wr (stk s) (rx l) (ra l); Ok (set_stk s k, l, Goto 4)
  | 4%nat => Ok (s, set_rx l (S (rx l)), Goto 5)
  | _ => Ok (set_sp s (rx l), l, Done)
  end.

(** s08/rkhs/cw6_3/rkhport.c:101-109: ldhx ccr_sp; aix #-1; sthx ccr_sp;
    lda ,x; tap.  Going below the start of the array is a fault. *)
Definition s08_exit : instr := fun pc s l =>
  match pc with
  | 0%nat => Ok (s, set_rx l (sp s), Goto 1)
  | 1%nat => match rx l with
             | O => Fault (FUB UB_bounds)
             | S n => Ok (s, set_rx l n, Goto 2)
             end
  | 2%nat => Ok (set_sp s (rx l), l, Goto 3)
  | 3%nat => do v <- rd (stk s) (rx l); Ok (s, set_ra l v, Goto 4)
  | _ => Ok (set_mask s (ra l), l, Done)
  end.

(** s08/rkhs/cw6_3/rkhport.c:91-109. *)
Definition s08 : port := mkP true s08_enter s08_exit.

(** The mask of cfv1/rkhs/cw6_3/rkhport.c:65 (0x2700: level 7). *)
Definition cf_top : N := 7.

(** cfv1/rkhs/cw6_3/rkhport.c:91-108.  The compare and the branch on it
    (98-99) are one step, as are the flags (they live in the status register,
    which interrupts save). *)
Definition cf_enter : instr := fun pc s l =>
  match pc with
  | 0%nat => Ok (s, set_ra l (cnt s), Goto 1)
  | 1%nat => Ok (s, set_ra l (u16 (ra l + 1)), Goto 2)
  | 2%nat => Ok (set_cnt s (ra l), l, Goto 3)
  | 3%nat => Ok (s, l, if 1 <? ra l then Done else Goto 4)
  | 4%nat => Ok (s, set_ra l (mask s), Goto 5)
  | 5%nat => Ok (set_srm s (ra l), l, Goto 6)
  | 6%nat => Ok (s, set_ra l cf_top, Goto 7)
  | _ => Ok (set_mask s (ra l), l, Done)
  end.

(** cfv1/rkhs/cw6_3/rkhport.c:110-127.  Line 115-116 test the count; the
    branch of line 120 looks at the word just moved. *)
Definition cf_exit : instr := fun pc s l =>
  match pc with
  | 0%nat => Ok (s, l, if cnt s =? 0 then Goto 4 else Goto 1)
  | 1%nat => Ok (s, set_ra l (cnt s), Goto 2)
  | 2%nat => Ok (s, set_ra l (u16 (ra l + 65535)), Goto 3)
  | 3%nat => Ok (set_cnt s (ra l), l, if ra l =? 0 then Goto 4 else Done)
  | 4%nat => Ok (s, set_ra l (srm s), Goto 5)
  | _ => Ok (set_mask s (ra l), l, Done)
  end.

(** cfv1/rkhs/cw6_3/rkhport.c:91-127. *)
Definition cfv1 : port := mkP true cf_enter cf_exit.

(** arm-cortex/rkhs/arm_cm4f/ciaa_nxp/rkhport.c:84-94 (and the same text in
    arm_cm3/codered/rkhport.c:86-96, arm_cm4f/cw_v10/rkhport.c:88-97 and
    arm_cm0/cw_v10/rkhport.c:88-97).  [K] is HIGHEST_IRQ_PRI as a level; the
    increment of the counter is a load, an addition and a store. *)
Definition cm_enter (K : N) : instr := fun pc s l =>
  match pc with
  | 0%nat => Ok (s, set_ra l K, Goto 1)
  | 1%nat => Ok (set_mask s (ra l), l, Goto 2)
  | 2%nat => Ok (s, set_ra l (cnt s), Goto 3)
  | 3%nat => Ok (s, set_ra l (u32 (ra l + 1)), Goto 4)
  | _ => Ok (set_cnt s (ra l), l, Done)
  end.

(** arm-cortex/rkhs/arm_cm4f/ciaa_nxp/rkhport.c:96-112. *)
Definition cm_exit : instr := fun pc s l =>
  match pc with
  | 0%nat => Ok (s, set_ra l (cnt s), Goto 1)
  | 1%nat => Ok (s, set_ra l (u32 (ra l + 4294967295)), Goto 2)
  | 2%nat => Ok (set_cnt s (ra l), l, Goto 3)
  | 3%nat => Ok (s, l, if cnt s =? 0 then Goto 4 else Done)
  | 4%nat => Ok (s, set_ra l 0, Goto 5)
  | _ => Ok (set_mask s (ra l), l, Done)
  end.

(** arm-cortex/rkhs/arm_cm4f/ciaa_nxp/rkhport.c:84-112. *)
Definition cm (K : N) : port := mkP false (cm_enter K) cm_exit.

(** arm-cortex/rkhs/arm_cm4f/stm32/rkhport.h:73-87: mrs; mov; msr; then the
    local variable and the counter.  The value of `sr` is pushed on [srs],
    one entry for each function that is inside. *)
Definition stm_enter (K : N) : instr := fun pc s l =>
  match pc with
  | 0%nat => Ok (s, set_ra l (mask s), Goto 1)
  | 1%nat => Ok (set_mask s K, l, Goto 2)
  | 2%nat => Ok (s, set_srs l (ra l :: srs l), Goto 3)
  | 3%nat => Ok (s, set_ra l (cnt s), Goto 4)
  | 4%nat => Ok (s, set_ra l (u32 (ra l + 1)), Goto 5)
  | _ => Ok (set_cnt s (ra l), l, Done)
  end.

(** arm-cortex/rkhs/arm_cm4f/stm32/rkhport.h:90-100.  The function's `sr`
    goes away whether it is used or not. *)
Definition stm_exit : instr := fun pc s l =>
  match pc with
  | 0%nat => Ok (s, set_ra l (cnt s), Goto 1)
  | 1%nat => Ok (s, set_ra l (u32 (ra l + 4294967295)), Goto 2)
  | 2%nat => Ok (set_cnt s (ra l), l, Goto 3)
  | 3%nat => if cnt s =? 0 then Ok (s, l, Goto 4)
             else Ok (s, set_srs l (tl (srs l)), Done)
  | _ => match srs l with
         | [] => Fault (FUB UB_type)
         | v :: t => Ok (set_mask s v, set_srs l t, Done)
         end
  end.

(** arm-cortex/rkhs/arm_cm4f/stm32/rkhport.h:75-100. *)
Definition stm (K : N) : port := mkP false (stm_enter K) stm_exit.

(** What runs: instructions that have nothing to do with critical sections
    ([Work]) and critical sections, properly nested ([Sect] body rest), as
    the callers of fwk/inc/rkhitl.h:2297-2307 write them. *)
Inductive code := Nil | Work (k : code) | Sect (b k : code).

(** Where an activity is.
    The processor, no C counterpart; it runs the sequences of fwk/inc/rkhitl.h:2297-2307. *)
Inductive phase := Run (k : code) | Entering (pc : nat) (b k : code)
                 | Exiting (pc : nat).

(** The task or an interrupt handler: its level, the mask saved when it was
    taken, its registers, where it is, and what follows each of the sections
    it is inside of, innermost first.
    The processor, no C counterpart; it runs the sequences of fwk/inc/rkhitl.h:2297-2307. *)
Record frame := mkF { lvl : N; sav : N; lo : loc; ph : phase; opn : list code }.

(** Variables of the port, and the activities, the running one first, the
    last one being the task.
    The processor, no C counterpart; it runs the sequences of fwk/inc/rkhitl.h:2297-2307. *)
Record conf := mkCf { cs : cst; fs : list frame }.

(** An interrupt source: level and handler.
    The processor, no C counterpart; it runs the sequences of fwk/inc/rkhitl.h:2297-2307. *)
Definition source := (N * code)%type.

(** Is an interrupt of level [l] taken before the next instruction?
    The processor, no C counterpart; it runs the sequences of fwk/inc/rkhitl.h:2297-2307. *)
Definition accepts (p : port) (c : conf) (l : N) : bool :=
  (mask (cs c) <? l)
  && (p_stacked p || match fs c with f :: _ => lvl f <? l | [] => true end).

(** One instruction of the running activity.  A handler at its end returns,
    which restores the mask where that is part of the status register; the
    task at its end stays.
    The processor, no C counterpart; it runs the sequences of fwk/inc/rkhitl.h:2297-2307. *)
Definition go (p : port) (c : conf) : res conf :=
  match fs c with
  | [] => Ok c
  | f :: r =>
    match ph f with
    | Run (Work k) => Ok (mkCf (cs c) (mkF (lvl f) (sav f) (lo f) (Run k) (opn f) :: r))
    | Run (Sect b k) =>
        Ok (mkCf (cs c) (mkF (lvl f) (sav f) (lo f) (Entering 0 b k) (opn f) :: r))
    | Run Nil =>
        match opn f with
        | _ :: _ =>
            Ok (mkCf (cs c) (mkF (lvl f) (sav f) (lo f) (Exiting 0) (opn f) :: r))
        | [] =>
            match r with
            | [] => Ok c
            | _ => Ok (mkCf (if p_stacked p then set_mask (cs c) (sav f) else cs c) r)
            end
        end
    | Entering pc b k =>
        do (s, l, n) <- p_enter p pc (cs c) (lo f);
        match n with
        | Goto pc' => Ok (mkCf s (mkF (lvl f) (sav f) l (Entering pc' b k) (opn f) :: r))
        | Done => Ok (mkCf s (mkF (lvl f) (sav f) l (Run b) (k :: opn f) :: r))
        end
    | Exiting pc =>
        do (s, l, n) <- p_exit p pc (cs c) (lo f);
        match n with
        | Goto pc' => Ok (mkCf s (mkF (lvl f) (sav f) l (Exiting pc') (opn f) :: r))
        | Done => match opn f with
                  | [] => Fault (FUB UB_type)
                  | k :: o => Ok (mkCf s (mkF (lvl f) (sav f) l (Run k) o :: r))
                  end
        end
    end
  end.

(** Registers of a handler that starts: anything will do.
    The processor, no C counterpart; it runs the sequences of fwk/inc/rkhitl.h:2297-2307. *)
Definition loc0 : loc := mkL 0 0 [].

(** The interrupt is taken if the processor accepts it, and else waits.
    The processor, no C counterpart; it runs the sequences of fwk/inc/rkhitl.h:2297-2307. *)
Definition irq (p : port) (c : conf) (x : source) : conf :=
  if accepts p c (fst x) then
    mkCf (if p_stacked p then set_mask (cs c) (fst x) else cs c)
         (mkF (fst x) (mask (cs c)) loc0 (Run (snd x)) [] :: fs c)
  else c.

(** What happens next: the running activity goes on, or source [i] asks.
    The processor, no C counterpart; it runs the sequences of fwk/inc/rkhitl.h:2297-2307. *)
Inductive choice := ChGo | ChIrq (i : nat).

(** One step of the machine; no C counterpart.
    It runs the sequences of fwk/inc/rkhitl.h:2297-2307. *)
Definition cstep (p : port) (xs : list source) (c : conf) (h : choice) : res conf :=
  match h with
  | ChGo => go p c
  | ChIrq i => match nth_error xs i with Some x => Ok (irq p c x) | None => Ok c end
  end.

(** A sequence of steps; no C counterpart.
    It runs the sequences of fwk/inc/rkhitl.h:2297-2307. *)
Fixpoint crun (p : port) (xs : list source) (c : conf) (hs : list choice) : res conf :=
  match hs with
  | [] => Ok c
  | h :: t => do c1 <- cstep p xs c h; crun p xs c1 t
  end.

(** Before anything ran: the counters are 0, the array of
    s08/rkhs/cw6_3/rkhport.c:66-71 has eight places, and the task runs with
    the mask [m]. *)
Definition conf0 (p : port) (m : N) (main : code) : conf :=
  mkCf (mkC m 0 0 (repeat 0 8) 0)
       [mkF (if p_stacked p then m else 0) 0 loc0 (Run main) []].
