(** Model of source/trc/src/rkhtrc_filter.c and of the condition under which
    the macros RKH_TRC_BEGIN... emit a record.

    A filter is "off" when its bit is one: the record is then emitted. *)
From Verif Require Import Base M_BitTbl.
Local Open Scope N_scope.

(** Configuration; trc/inc/rkhtrc_define.h: 75, 137-147, 1214-1222 (width of an
    event identifier), rkhtrc_filter.h: 243-263 (type of a slot). *)
Record fcfg := mkFCfg {
  fl_asrt : bool;     (* assertions enabled *)
  fl_ev : N;          (* RKH_NBIT_EVENT_PER_GROUP: 5, 8 or 24 *)
  fl_idm : N;         (* 2^width of RKH_TE_ID_T, also of RKH_GM_OFFSET_T *)
  fl_fsm : N;         (* 2^width of RKH_TRC_FSLOT *)
  fl_sma_en : bool;   (* RKH_CFG_TRC_RTFIL_SMA_EN *)
  fl_sig_en : bool;   (* RKH_CFG_TRC_RTFIL_SIGNAL_EN *)
  fl_compl : N }.     (* RKH_COMPLETION_EVENT, fwk/inc/rkhitl.h: 144 *)

(** rkhtrc_filter.c: 87 trceftbl, 105 trcgfilter, 142 trcsigftbl, 126 trcsmaftbl. *)
Record flt := mkFlt { f_evt : list N; f_grp : N; f_sig : list N; f_sma : list N }.

(** rkhtrc_filter.c: 148-158, trcgmtbl, offset and range of each group;
    trc/inc/rkhtrc_define.h: 223-230 and 258-265. *)
Definition trcgmtbl : list (N * N) :=
  [(0, 1); (1, 1); (2, 2); (4, 3); (7, 1); (8, 3); (11, 4); (15, 2)].
(** RKH_TRC_MAX_EVENTS_IN_BYTES, rkhtrc_define.h: 236-252. *)
Definition EVT_BYTES : nat := 17.
Definition FILTER_OFF : N := 1.      (* rkhtrc_filter.h: 277-280 *)
Definition ECHANGE : N := 0.         (* rkhtrc_define.h: 279 *)
Definition ALL_GROUPS : N := 8.      (* rkhtrc_define.h: 286, 339 *)
Definition ALL_FILTERS : N := 0x80.  (* rkhtrc_define.h: 301 *)

(** The static tables start at zero; [nsig], [nsma] are RKH_TRC_MAX_SIGNALS and
    RKH_TRC_MAX_SMA.  rkhtrc_filter.c: 87, 105, 126, 142. *)
Definition fl_init (nsig nsma : nat) : flt := mkFlt (repeat 0 EVT_BYTES) 0 (repeat 0 nsig) (repeat 0 nsma).

Section Filter.
Context (c : fcfg).

(** rkhtrc_define.h: 292, 494-501: RKH_TRC_ALL_EVENTS. *)
Definition ALL_EVENTS : N := 7 * 2 ^ fl_ev c + 8.

(** rkhtrc_filter.c: 169-180, [setAllFilters]; [off] is the start of filterTbl in
    the array and ix a rui8_t. The fuel covers every iteration up to the first
    access past the array. *)
Fixpoint fl_all_loop (fuel : nat) (tbl : list N) (ft : nat) (ix cc size : N) : res (list N) :=
  match fuel with
  | O => Fault FFuel
  | S fuel =>
    if ix <? size then
      do tbl <- wr tbl ft cc;
      fl_all_loop fuel tbl (S ft) (u8 (ix + 1)) cc size
    else Ok tbl
  end.
(** rkhtrc_filter.c: 169-180. *)
Definition setAllFilters (tbl : list N) (off : nat) (value size : N) : res (list N) :=
  fl_all_loop (S (S (length tbl))) tbl off 0 (if value =? FILTER_OFF then 0xFF else 0) size.

(** rkhtrc_filter.c: 182-193, [setOneFilter]. *)
Definition setOneFilter (b value bitPos : N) : res N :=
  do m <- getBitMask bitPos;
  Ok (if value =? FILTER_OFF then N.lor b m else N.ldiff b m).

(** rkhtrc_filter.c: 195-204, [isOffFilter]; the argument is an RKH_TE_ID_T. *)
Definition isOffFilter (tbl : list N) (off : nat) (filter : N) : res bool :=
  let filter := filter mod fl_idm c in
  let y := N.shiftr filter 3 in
  let x := N.land filter 7 in
  do b <- rd tbl (off + N.to_nat y);
  do m <- getBitMask x;
  Ok (negb (N.land b m =? 0)).

(** rkhtrc_filter.c: 206-211, [getFilterTable]: RKHFilterSignal is 1. *)
Definition getFilterTable (f : flt) (fd : N) : res (list N) :=
  do! rassert (fl_asrt c) 209 (fd <? 3);
  Ok (if fd =? 1 then f_sig f else f_sma f).
(** rkhtrc_filter.c: 206-211, writing through the pointer. *)
Definition putFilterTable (f : flt) (fd : N) (tbl : list N) : flt :=
  if fd =? 1 then mkFlt (f_evt f) (f_grp f) tbl (f_sma f)
  else mkFlt (f_evt f) (f_grp f) (f_sig f) tbl.

(** rkhtrc_define.h: 274-277, GETGRP (an rui8_t) and GETEVT. *)
Definition getGrp (e : N) : N := u8 (N.shiftr (e mod fl_idm c) (fl_ev c)).
(** rkhtrc_define.h: 277, GETEVT. *)
Definition getEvt (e : N) : N := (e mod fl_idm c) mod 2 ^ fl_ev c.

(** rkhtrc_filter.c: 214-234, [rkh_trc_filter_group_]. *)
Definition fl_group (f : flt) (ctrl grp mode : N) : res flt :=
  let grp := u8 grp in
  if grp =? ALL_GROUPS then
    Ok (mkFlt (f_evt f) (if ctrl =? FILTER_OFF then 0xFF else 0) (f_sig f) (f_sma f))
  else
    do g <- setOneFilter (f_grp f) ctrl grp;
    let f := mkFlt (f_evt f) g (f_sig f) (f_sma f) in
    if mode =? ECHANGE then
      do (off, range) <- rd trcgmtbl (N.to_nat grp);
      do e <- setAllFilters (f_evt f) (N.to_nat off) ctrl range;
      Ok (mkFlt e (f_grp f) (f_sig f) (f_sma f))
    else Ok f.

(** rkhtrc_filter.c: 236-262, [rkh_trc_filter_event_]. *)
Definition fl_event (f : flt) (ctrl evt : N) : res flt :=
  let evt := evt mod fl_idm c in
  do! rassert (fl_asrt c) 243 (evt <=? ALL_EVENTS);
  if evt =? ALL_EVENTS then
    do e <- setAllFilters (f_evt f) 0 ctrl (N.of_nat EVT_BYTES);
    Ok (mkFlt e (if ctrl =? FILTER_OFF then 0xFF else 0) (f_sig f) (f_sma f))
  else
    let e := getEvt evt in
    let grp := getGrp evt in
    do (off, _) <- rd trcgmtbl (N.to_nat grp);
    let offset := (off + N.shiftr e 3) mod fl_idm c in
    do b <- rd (f_evt f) (N.to_nat offset);
    do b <- setOneFilter b ctrl (N.land e 7);
    do t <- wr (f_evt f) (N.to_nat offset) b;
    do m <- getBitMask grp;
    Ok (mkFlt t (if ctrl =? FILTER_OFF then N.lor (f_grp f) m else f_grp f) (f_sig f) (f_sma f)).

(** rkhtrc_filter.c: 264-277, [rkh_trc_isoff_]. *)
Definition fl_isoff (f : flt) (e : N) : res bool :=
  let evt := getEvt e in
  let grp := getGrp e in
  do (off, _) <- rd trcgmtbl (N.to_nat grp);
  do m <- getBitMask grp;
  if negb (N.land (f_grp f) m =? 0) then isOffFilter (f_evt f) (N.to_nat off) evt else Ok false.

(** rkhtrc_filter.c: 279-300, [rkh_trc_symFil]. *)
Definition fl_sym (f : flt) (fd slot mode : N) : res flt :=
  let slot := slot mod fl_fsm c in
  do tbl <- getFilterTable f fd;
  do! rassert (fl_asrt c) 287 (slot <=? 8 * N.of_nat (length tbl));
  let onoff := u8 (N.ldiff mode ALL_FILTERS) in
  if negb (N.land mode ALL_FILTERS =? 0) then
    do tbl <- setAllFilters tbl 0 onoff (N.of_nat (length tbl));
    Ok (putFilterTable f fd tbl)
  else
    let y := N.shiftr slot 3 in
    do b <- rd tbl (N.to_nat y);
    do b <- setOneFilter b onoff (N.land slot 7);
    do tbl <- wr tbl (N.to_nat y) b;
    Ok (putFilterTable f fd tbl).

(** rkhtrc_filter.c: 302-310, [rkh_trc_symFil_isoff]; the slot is converted to
    RKH_TE_ID_T. *)
Definition fl_sym_isoff (f : flt) (fd slot : N) : res bool :=
  let slot := slot mod fl_fsm c in
  do tbl <- getFilterTable f fd;
  do! rassert (fl_asrt c) 308 (slot <=? 8 * N.of_nat (length tbl));
  isOffFilter tbl 0 slot.

(** trc/inc/rkhtrc_define.h: 571-577 with 103-108, 112-113 and 127-133: the
    condition of RKH_TRC_BEGIN(eid, prio, sig). *)
Definition fl_gate (f : flt) (eid prio sig : N) : res bool :=
  do b <- fl_isoff f eid;
  if negb b then Ok false else
  do b <- (if fl_sma_en c then fl_sym_isoff f 2 prio else Ok true);
  if negb b then Ok false else
  if fl_sig_en c then
    if sig =? fl_compl c then Ok true else fl_sym_isoff f 1 sig
  else Ok true.
End Filter.
