(** Model of source/trc/src/rkhtrc_record.c (on top of M_TrcStream).

    rkh_trc_getts() belongs to the port: the time stamp is an argument of
    [trc_begin].  RKH_HOOK_PUT_TRCEVT and RKH_TRC_FLUSH are application code
    that reads the stream; they are left out.  Critical sections surround whole
    records (trc/inc/rkhtrc_define.h: 571-700). *)
From Verif Require Import Base M_TrcStream.
Local Open Scope N_scope.

(** trc/inc/rkhtrc_define.h: 1214-1243, widths, and the options of rkhcfg.h. *)
Record rccfg := mkRcCfg {
  rc_st : stcfg;
  rc_idw : nat;        (* bytes of RKH_TE_ID_T: 1, 2 or 4 *)
  rc_nseq : bool;      (* RKH_CFG_TRC_NSEQ_EN *)
  rc_tsw : nat;        (* bytes of the time stamp, 0: RKH_CFG_TRC_TSTAMP_EN disabled *)
  rc_chk : bool;       (* RKH_CFG_TRC_CHK_EN *)
  rc_ptrw : nat;       (* bytes of RKH_TRC_SYM arguments: 2 or 4 *)
  rc_sigw : nat }.     (* bytes of RKH_TRC_SIG arguments: 1, 2 or 4 *)

(** rkhtrc_record.c: 90-91, together with the stream. *)
Record trc := mkTrc { t_stm : stm; t_chk : N; t_nseq : N }.

Section Record.
Context (c : rccfg).

(** The raw put of a byte (trc/inc/rkhtrc_define.h: 774-775, RKH_TRC_U8_RAW). *)
Definition trc_raw (t : trc) (b : N) : res trc :=
  do s <- st_put (rc_st c) (t_stm t) b; Ok (mkTrc s (t_chk t) (t_nseq t)).

(** rkhtrc_record.c: 96-102, [rkh_trc_init]. *)
Definition trc_init (buf : list N) : res trc :=
  do s <- st_init (rc_st c) buf; Ok (mkTrc s 0 0).

(** rkhtrc_record.c: 131-135, [rkh_trc_clear_chk]. *)
Definition trc_clear_chk (t : trc) : trc := mkTrc (t_stm t) 0 (t_nseq t).

(** rkhtrc_record.c: 137-150, [rkh_trc_u8]; [d] is converted to rui8_t. *)
Definition trc_u8 (t : trc) (d : N) : res trc :=
  let d := u8 d in
  let t := mkTrc (t_stm t) (u8 (t_chk t + d)) (t_nseq t) in
  if (d =? FLG) || (d =? ESC) then
    do t <- trc_raw t ESC; trc_raw t (N.lxor d XOR)
  else trc_raw t d.

(** rkhtrc_record.c: 152-158, [rkh_trc_u16]. *)
Definition trc_u16 (t : trc) (d : N) : res trc :=
  let d := u16 d in
  do t <- trc_u8 t d;
  let d := N.shiftr d 8 in
  trc_u8 t d.

(** rkhtrc_record.c: 160-170, [rkh_trc_u32]. *)
Definition trc_u32 (t : trc) (d : N) : res trc :=
  let d := u32 d in
  do t <- trc_u8 t d;
  let d := N.shiftr d 8 in
  do t <- trc_u8 t d;
  let d := N.shiftr d 8 in
  do t <- trc_u8 t d;
  let d := N.shiftr d 8 in
  trc_u8 t d.

(** The width-selected macros RKH_TRC_TE_ID (trc/inc/rkhtrc_define.h: 76-89),
    RKH_TRC_TSTAMP (rkhtrc_record.c: 68-84), RKH_TRC_SYM (rkhtrc_define.h:
    968-977) and RKH_TRC_SIG (rkhtrc_define.h: 1126-1138). *)
Definition trc_width (w : nat) (t : trc) (d : N) : res trc :=
  match w with
  | 0%nat => Ok t
  | 1%nat => trc_u8 t d
  | 2%nat => trc_u16 t d
  | _ => trc_u32 t d
  end.

(** rkhtrc_record.c: 104-114, [rkh_trc_begin]. *)
Definition trc_begin (t : trc) (eid ts : N) : res trc :=
  let t := mkTrc (t_stm t) 0 (t_nseq t) in
  do t <- trc_width (rc_idw c) t eid;
  do t <- (if rc_nseq c then
             do t <- trc_u8 t (t_nseq t);
             Ok (mkTrc (t_stm t) (t_chk t) (u8 (t_nseq t + 1)))
           else Ok t);
  trc_width (rc_tsw c) t ts.

(** trc/inc/rkhtrc_define.h: 746-750, RKH_TRC_BEGIN_DFT. *)
Definition trc_begin_dft (t : trc) (eid : N) : res trc :=
  trc_width (rc_idw c) (trc_clear_chk t) eid.

(** rkhtrc_record.c: 116-129, [rkh_trc_end]; ~chk + 1 as a rui8_t. *)
Definition trc_end (t : trc) : res trc :=
  do t <- (if rc_chk c then
             let k := u8 (255 - t_chk t + 1) in
             trc_u8 (mkTrc (t_stm t) k (t_nseq t)) k
           else Ok t);
  trc_raw t FLG.

(** rkhtrc_record.c: 172-178, [rkh_trc_str]; [mem] is the memory from [s] on. *)
Fixpoint trc_str (t : trc) (mem : list N) : res trc :=
  match mem with
  | [] => Fault (FUB UB_bounds)
  | ch :: mem => if ch =? 0 then trc_u8 t 0
                 else do t <- trc_u8 t ch; trc_str t mem
  end.

(** rkhtrc_record.c: 225-230, [rkh_trc_fmt_u8]. *)
Definition trc_fmt_u8 (t : trc) (fmt d : N) : res trc := do t <- trc_u8 t fmt; trc_u8 t d.
(** rkhtrc_record.c: 232-237, [rkh_trc_fmt_u16]. *)
Definition trc_fmt_u16 (t : trc) (fmt d : N) : res trc := do t <- trc_u8 t fmt; trc_u16 t d.
(** rkhtrc_record.c: 239-244, [rkh_trc_fmt_u32]. *)
Definition trc_fmt_u32 (t : trc) (fmt d : N) : res trc := do t <- trc_u8 t fmt; trc_u32 t d.

(** rkhtrc_record.c: 246-253, [rkh_trc_fmt_str]; RKH_STR_T is 7
    (trc/inc/rkhtrc_define.h: 1165-1179). *)
Definition trc_fmt_str (t : trc) (mem : list N) : res trc := do t <- trc_u8 t 7; trc_str t mem.

(** rkhtrc_record.c: 259-264, the loop of [rkh_trc_fmt_mem]. *)
Fixpoint trc_mem_loop (t : trc) (mem : list N) (size : nat) : res trc :=
  match size with
  | O => Ok t
  | S n => match mem with
           | [] => Fault (FUB UB_bounds)
           | b :: mem => do t <- trc_u8 t b; trc_mem_loop t mem n
           end
  end.

(** rkhtrc_record.c: 255-265, [rkh_trc_fmt_mem]; RKH_MEM_T is 8. *)
Definition trc_fmt_mem (t : trc) (mem : list N) (size : N) : res trc :=
  do t <- trc_u8 t 8;
  let size := u8 size in
  do t <- trc_u8 t size;
  trc_mem_loop t mem (N.to_nat size).

(** rkhtrc_record.c: 180-188 [rkh_trc_obj] and 200-208 [rkh_trc_ao]. *)
Definition trc_obj (t : trc) (tre ts obj : N) (name : list N) : res trc :=
  do t <- trc_begin t tre ts;
  do t <- trc_width (rc_ptrw c) t obj;
  do t <- trc_str t name;
  trc_end t.

(** rkhtrc_record.c: 190-198, [rkh_trc_sig]; [te] is RKH_TE_FWK_SIG. *)
Definition trc_sig (t : trc) (te ts sig : N) (name : list N) : res trc :=
  do t <- trc_begin t te ts;
  do t <- trc_width (rc_sigw c) t sig;
  do t <- trc_str t name;
  trc_end t.

(** rkhtrc_record.c: 210-222, [rkh_trc_state]; [te] is RKH_TE_FWK_PSTATE or
    RKH_TE_FWK_STATE according to the vertex type. *)
Definition trc_state (t : trc) (te ts ao state : N) (name : list N) : res trc :=
  do t <- trc_begin t te ts;
  do t <- trc_width (rc_ptrw c) t ao;
  do t <- trc_width (rc_ptrw c) t state;
  do t <- trc_str t name;
  trc_end t.
End Record.
