(** The trace from its records to the line: records are written by the application
    and by interrupt routines, each one within a critical section
    (trc/inc/rkhtrc_define.h: 571-700), while rkh_trc_flush (M_Flush) sends what is
    in the stream. *)
From Verif Require Import Base M_TrcStream M_TrcRecord S_TrcRecord M_Flush.

(** Recorder and stream (M_TrcRecord), and where the loop of rkh_trc_flush is.
    rkhtrc_record.c: 90-91; win/trace_io.c: 173-194 or linux/trace_io.c: 177-188. *)
Record link := mkLink { k_trc : trc; k_pc : fpc }.
(** A whole record is written, or the loop does its next step.
    rkhtrc_define.h: 571-613; win/trace_io.c: 173-194. *)
Inductive kop := KRec (r : rec) | KStep.
(** What is seen of it.  rkhtrc_define.h: 571-613; win/trace_io.c: 173-194. *)
Inductive kout := KORec (r : rec) | KOStep (x : fout).

Section Link.
Context (c : rccfg) (rdr : reader).
(** trc/inc/rkhtrc_define.h: 571-613 (RKH_TRC_BEGIN ... RKH_TRC_END, the filter left
    out); win/trace_io.c: 173-194 or linux/trace_io.c: 177-188 (M_Flush). *)
Definition k_step (k : link) (o : kop) : res (link * kout) :=
  match o with
  | KRec r => do t <- do_rec c (k_trc k) r; Ok (mkLink t (k_pc k), KORec r)
  | KStep =>
    do (f, x) <- f_step (rc_st c) rdr (mkF (t_stm (k_trc k)) (k_pc k)) FStep;
    Ok (mkLink (mkTrc (f_stm f) (t_chk (k_trc k)) (t_nseq (k_trc k))) (f_pc f), KOStep x)
  end.
End Link.
