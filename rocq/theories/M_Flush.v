(** Model of rkh_trc_flush of the board support packages, which takes the bytes of
    the trace stream (M_TrcStream) and sends them, while other threads and interrupt
    routines put bytes into it, each put within a critical section:
    demo/libbsp/platform/80x86/win/trace_io.c: 166-195, cfv1/DEMOQUE128/trace_io.c:
    100-125, s08/DEMOQE128/trace_io.c: 100-125, the bsp files of arm-cortex, and
    80x86/linux/trace_io.c: 172-189.  The bytes sent are read through the pointer
    one by one, after the critical section.  One destination (file or line). *)
From Verif Require Import Base M_TrcStream.

(** What the loop calls: rkh_trc_get_block with nbytes = [n] (win/trace_io.c:
    175-179, where it is 128), or rkh_trc_get (linux/trace_io.c: 177). *)
Inductive reader := ByBlock (n : nat) | ByByte.
(** Where the loop is: about to take; sending byte [j] of the [k] at index [i];
    returned.  win/trace_io.c: 173-194; linux/trace_io.c: 177-188. *)
Inductive fpc := FTake | FSend (i k j : nat) | FRet.
(** rkhtrc_stream.c: 68-70, and the place in win/trace_io.c: 173-194 or linux/trace_io.c: 177-188. *)
Record fst_ := mkF { f_stm : stm; f_pc : fpc }.
(** What can happen, and what is seen of it.
    rkhtrc_stream.c: 142-158, a put; win/trace_io.c: 173-194, a step. *)
Inductive fop := FPut (b : N) | FStep.
(** win/trace_io.c: 178 and 182-188; linux/trace_io.c: 177-187; rkhtrc_stream.c: 142-158: what is seen of a step. *)
Inductive fout := OPut (b : N) | OTake | OSent (b : N) | ONull.

Section Flush.
Context (c : stcfg) (r : reader).
(** win/trace_io.c: 177-179, in the critical section; linux/trace_io.c: 177, if
    nothing is put meanwhile. *)
Definition take (s : stm) : stm * (option nat * nat) :=
  match r with
  | ByBlock n => st_get_block c s n
  | ByByte => let (s, p) := st_get c s in (s, (p, 1))
  end.
(** win/trace_io.c: 173-194; linux/trace_io.c: 177-188.  After it has returned the
    function is called again (80x86/linux/hook.c: 146-165, the idle hook). *)
Definition f_step (f : fst_) (o : fop) : res (fst_ * fout) :=
  match o with
  | FPut b => do s <- st_put c (f_stm f) b; Ok (mkF s (f_pc f), OPut b)
  | FStep =>
    match f_pc f with
    | FTake | FRet =>
      match take (f_stm f) with
      | (s, (None, _)) => Ok (mkF s FRet, ONull)
      | (s, (Some i, k)) => Ok (mkF s (if k =? 0 then FTake else FSend i k 0), OTake)
      end
    | FSend i k j =>
      do b <- rd (sb_buf (f_stm f)) (i + j);
      Ok (mkF (f_stm f) (if S j =? k then FTake else FSend i k (S j)), OSent b)
    end
  end.
End Flush.

(** * rkh_trc_get without a critical section, as linux/trace_io.c calls it *)
(** rkhtrc_stream.c: 84-103 statement by statement; a read of a variable and the
    write that follows it are two steps.  [d] is trByte. *)
Inductive lpc :=
| LTest                       (* 89: trcqty == 0 *)
| LOut                        (* 94: reads trcout *)
| LOutW (d : nat)             (* 94: writes trcout + 1 *)
| LQty (d : nat)              (* 95: reads trcqty *)
| LQtyW (d q : nat)           (* 95: writes trcqty - 1 *)
| LEnd (d : nat)              (* 97-100 *)
| LSend (d : nat)             (* linux/trace_io.c: 179-187 *)
| LRet.
(** rkhtrc_stream.c: 68-70, and the place. *)
Record lst := mkL { l_stm : stm; l_pc : lpc }.
Section Linux.
Context (c : stcfg).
(** The assignments to trcout of rkhtrc_stream.c: 94 and 99. *)
Definition w_out (s : stm) (o : nat) : stm := mkStm (sb_buf s) (sb_in s) o (sb_qty s).
(** The assignment to trcqty of rkhtrc_stream.c: 95. *)
Definition w_qty (s : stm) (q : nat) : stm := mkStm (sb_buf s) (sb_in s) (sb_out s) q.
(** A put is within a critical section, but the steps of the reader are not.
    rkhtrc_stream.c: 84-103; linux/trace_io.c: 177-187. *)
Definition l_step (f : lst) (o : fop) : res (lst * fout) :=
  let s := l_stm f in
  match o with
  | FPut b => do s <- st_put c s b; Ok (mkL s (l_pc f), OPut b)
  | FStep =>
    match l_pc f with
    | LTest | LRet => if sb_qty s =? 0 then Ok (mkL s LRet, ONull) else Ok (mkL s LOut, OTake)
    | LOut => Ok (mkL s (LOutW (sb_out s)), OTake)
    | LOutW d => Ok (mkL (w_out s (d + 1)) (LQty d), OTake)
    | LQty d => Ok (mkL s (LQtyW d (sb_qty s)), OTake)
    | LQtyW d q => Ok (mkL (w_qty s (qsub c q 1)) (LEnd d), OTake)
    | LEnd d => Ok (mkL (w_out s (st_wrap c (sb_out s))) (LSend d), OTake)
    | LSend d => do b <- rd (sb_buf s) d; Ok (mkL s LTest, OSent b)
    end
  end.
End Linux.
