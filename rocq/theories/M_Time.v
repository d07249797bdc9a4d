(** Conversion of times to ticks, fwk/inc/rkhitl.h: 1600-1621. *)
From Verif Require Import Base.
Local Open Scope N_scope.

(** RKH_CFG_FWK_TICK_RATE_HZ (only required to be above 0, rkhitl.h: 480), the
    ranges of RKH_TNT_T (2^RKH_CFG_TMR_SIZEOF_NTIMER) and of unsigned int. *)
Record timecfg := mkTime { tk_rate : N; tk_tnt : N; tk_uint : N }.

(** The operator / on unsigned values.  rkhitl.h: 1606-1620. *)
Definition cdiv (a b : N) : res N := if b =? 0 then Fault (FUB UB_div) else Ok (a / b).

(** rkhitl.h: 1606-1607, RKH_TICK_RATE_MS. *)
Definition tick_rate_ms (c : timecfg) : res N := do q <- cdiv 1000 (tk_rate c); Ok (q mod tk_tnt c).
(** rkhitl.h: 1618-1620, RKH_TIME_MS, RKH_TIME_SEC and RKH_TIME_MIN of unsigned
    arguments; the factor 1000u makes the product an unsigned int. *)
Definition time_ms (c : timecfg) (ms : N) : res N := do t <- tick_rate_ms c; cdiv ms t.
(** rkhitl.h: 1619, RKH_TIME_SEC. *)
Definition time_sec (c : timecfg) (s : N) : res N := do t <- tick_rate_ms c; cdiv (s * 1000 mod tk_uint c) t.
(** rkhitl.h: 1620, RKH_TIME_MIN. *)
Definition time_min (c : timecfg) (m : N) : res N :=
  do t <- tick_rate_ms c; cdiv (m * 60 mod tk_uint c * 1000 mod tk_uint c) t.
