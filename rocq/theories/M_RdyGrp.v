(** Model of source/fwk/src/rkhfwk_rdygrp.c (and rkhfwk_rdygrp.h). *)
From Verif Require Import Base M_BitTbl.
Local Open Scope N_scope.

(** Build-time configuration: RKH_CFG_FWK_MAX_SMA (1..64 by the check in
    fwk/inc/rkhitl.h: 1244-1250) and whether assertions are compiled in. *)
Record rgcfg := mkRgCfg { max_sma : N; rg_asrt : bool }.

(** rkhfwk_rdygrp.h: 66-82, [RKH_NUM_RDYGRP]: 1 for at most 8 active
    objects, 2 for at most 16, ..., 8 for at most 64. *)
Definition num_rdygrp (max : N) : nat :=
  if max <=? 8 then 1%nat else
  if max <=? 16 then 2%nat else
  if max <=? 24 then 3%nat else
  if max <=? 32 then 4%nat else
  if max <=? 40 then 5%nat else
  if max <=? 48 then 6%nat else
  if max <=? 56 then 7%nat else 8%nat.

(** rkhfwk_rdygrp.h: 120-140, [RKHRdyGrp]. *)
Record rdygrp := mkRG { rg_grp : N; rg_tbl : list N }.

(** rkhfwk_rdygrp.c: 71-81, [rkh_rdygrp_init]. *)
Definition rg_init (c : rgcfg) : rdygrp :=
  mkRG 0 (repeat 0 (num_rdygrp (max_sma c))).

(** rkhfwk_rdygrp.c: 83-87, [rkh_rdygrp_isReady]. *)
Definition rg_isReady (g : rdygrp) : bool := negb (rg_grp g =? 0).

(** rkhfwk_rdygrp.c: 89-95, [rkh_rdygrp_setReady]. *)
Definition rg_setReady (c : rgcfg) (g : rdygrp) (prio : N) : res rdygrp :=
  do! rassert (rg_asrt c) 92 (prio <? max_sma c);
  do m1 <- getBitMask (N.shiftr prio 3);
  let grp := N.lor (rg_grp g) m1 in
  do m2 <- getBitMask (N.land prio 0x07);
  do b <- rd (rg_tbl g) (N.to_nat (N.shiftr prio 3));
  do tbl <- wr (rg_tbl g) (N.to_nat (N.shiftr prio 3)) (N.lor b m2);
  Ok (mkRG grp tbl).

(** C [~m] on a promoted [rui8_t], as far as the low byte is concerned.
    rkhfwk_rdygrp.c: 101 and 103. *)
Definition cpl8 (m : N) : N := N.lxor m 0xff.

(** rkhfwk_rdygrp.c: 97-105, [rkh_rdygrp_setUnready]. *)
Definition rg_setUnready (c : rgcfg) (g : rdygrp) (prio : N) : res rdygrp :=
  do! rassert (rg_asrt c) 100 (prio <? max_sma c);
  do m2 <- getBitMask (N.land prio 0x07);
  do b <- rd (rg_tbl g) (N.to_nat (N.shiftr prio 3));
  let b' := N.land b (cpl8 m2) in
  do tbl <- wr (rg_tbl g) (N.to_nat (N.shiftr prio 3)) b';
  if b' =? 0 then
    do m1 <- getBitMask (N.shiftr prio 3);
    Ok (mkRG (N.land (rg_grp g) (cpl8 m1)) tbl)
  else Ok (mkRG (rg_grp g) tbl).

(** rkhfwk_rdygrp.c: 107-116, [rkh_rdygrp_findHighest]. *)
Definition rg_findHighest (g : rdygrp) : res N :=
  do p <- getLeastBitSetPos (rg_grp g);
  do b <- rd (rg_tbl g) (N.to_nat p);
  do l <- getLeastBitSetPos b;
  Ok (u8 (N.shiftl p 3 + l)).

(** rkhfwk_rdygrp.c: 128-140, the inner [for] over the bits of one row.
    [cb] is the callback as a state transformer of an arbitrary world [W];
    [k] counts the remaining values of [nBit] (8 - nBit). *)
Fixpoint rg_bits {W} (cb : N -> W -> res W) (row : N) (k : nat) (nBit column : N)
    (n : N) (w : W) : res (N * W) :=
  match k with
  | O => Ok (n, w)
  | S k' =>
      if column =? 0 then Ok (n, w) else
      if N.odd column then
        do w' <- cb (N.lor (N.shiftl row 3) nBit) w;
        rg_bits cb row k' (nBit + 1) (N.shiftr column 1) (u8 (n + 1)) w'
      else rg_bits cb row k' (nBit + 1) (N.shiftr column 1) n w
  end.

(** rkhfwk_rdygrp.c: 126-140, the outer [for] over the rows.  In C the row
    is read when the loop reaches it, and the callback could change the
    group; the model passes the table by value, i.e. it covers callbacks that
    do not modify the very group being traversed (pub/sub's callback posts
    into queues, which touches the scheduler's group, never the
    subscriber group). *)
Fixpoint rg_rows {W} (cb : N -> W -> res W) (row : N) (tbl : list N)
    (n : N) (w : W) : res (N * W) :=
  match tbl with
  | [] => Ok (n, w)
  | b :: t =>
      do (n', w') <- rg_bits cb row 8 0 b n w;
      rg_rows cb (row + 1) t n' w'
  end.

(** rkhfwk_rdygrp.c: 118-142, [rkh_rdygrp_traverse]. *)
Definition rg_traverse {W} (g : rdygrp) (cb : N -> W -> res W) (w : W)
  : res (N * W) :=
  if negb (rg_grp g =? 0) then rg_rows cb 0 (rg_tbl g) 0 w else Ok (0, w).
