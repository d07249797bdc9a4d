(** Model of source/trc/src/rkhtrc_stream.c.

    The static array trcstm is a list; the pointers trcin and trcout are
    indices into it, trcend is the index [sz] one past the end. *)
From Verif Require Import Base.

(** rkhtrc_stream.c: 68-70, size and width. *)
Record stcfg := mkStCfg {
  sz : nat;        (* RKH_CFG_TRC_SIZEOF_STREAM *)
  qmod : nat }.    (* 2^width of TRCQTY_T (trc/inc/rkhtrc_define.h: 1245-1249) *)

(** rkhtrc_stream.c: 68-70. *)
Record stm := mkStm {
  sb_buf : list N;
  sb_in : nat;
  sb_out : nat;
  sb_qty : nat }.

(** fwk/inc: RKH_FLG, trc/inc/rkhtrc_define.h: 304-311. *)
Definition FLG : N := 126.
(** trc/inc/rkhtrc_define.h: 311. *)
Definition ESC : N := 125.
(** trc/inc/rkhtrc_define.h: 305. *)
Definition XOR : N := 32.

Section Stream.
Context (c : stcfg).

(** Subtraction in TRCQTY_T.  rkhtrc_stream.c: 95, 132, 183. *)
Definition qsub (a b : nat) : nat := (a + qmod c - b) mod qmod c.

(** rkhtrc_stream.c: 142-158, [rkh_trc_put]. *)
Definition st_put (s : stm) (b : N) : res stm :=
  do buf <- wr (sb_buf s) (sb_in s) b;
  let i := sb_in s + 1 in
  let q := (sb_qty s + 1) mod qmod c in
  let i := if i =? sz c then 0 else i in
  if sz c <=? q then Ok (mkStm buf i i (sz c mod qmod c))
  else Ok (mkStm buf i (sb_out s) q).

(** rkhtrc_stream.c: 75-82, [rkh_trcStream_init]; [buf] is what the array held. *)
Definition st_init (buf : list N) : res stm := st_put (mkStm buf 0 0 0) FLG.

(** rkhtrc_stream.c: 99-102 and 134-137 and 185-188. *)
Definition st_wrap (o : nat) : nat := if sz c <=? o then 0 else o.

(** rkhtrc_stream.c: 84-103, [rkh_trc_get]; the pointer returned is an index. *)
Definition st_get (s : stm) : stm * option nat :=
  if sb_qty s =? 0 then (s, None)
  else (mkStm (sb_buf s) (sb_in s) (st_wrap (sb_out s + 1)) (qsub (sb_qty s) 1), Some (sb_out s)).

(** rkhtrc_stream.c: 105-140, [rkh_trc_get_block]; returns the pointer and the
    new value of *nget. *)
Definition st_get_block (s : stm) (nget : nat) : stm * (option nat * nat) :=
  if sb_qty s =? 0 then (s, (None, 0)) else
  let n := (sz c - sb_out s) mod qmod c in
  let n := if sb_qty s <? n then sb_qty s else n in
  let n := if nget <? n then nget else n in
  (mkStm (sb_buf s) (sb_in s) (st_wrap (sb_out s + n)) (qsub (sb_qty s) n), (Some (sb_out s), n)).

(** memcpy(dest + off, trcstm + o, n).  rkhtrc_stream.c: 181. *)
Definition st_memcpy (dest : list N) (off : nat) (s : stm) (n : nat) : res (list N) :=
  if (sb_out s + n <=? length (sb_buf s)) && (off + n <=? length dest)
  then Ok (firstn off dest ++ firstn n (skipn (sb_out s) (sb_buf s)) ++ skipn (off + n) dest)
  else Fault (FUB UB_bounds).

(** rkhtrc_stream.c: 178-193, the do-while loop of [rkh_trc_getWholeBlock]. *)
Fixpoint st_whole_loop (fuel : nat) (s : stm) (dest : list N) (off n ncons result : nat)
  : res (stm * (list N * nat)) :=
  match fuel with
  | O => Fault FFuel
  | S k =>
    do dest <- st_memcpy dest off s n;
    let s := mkStm (sb_buf s) (sb_in s) (st_wrap (sb_out s + n)) (qsub (sb_qty s) n) in
    let result := (result + n) mod qmod c in
    let ncons := qsub ncons n in
    if ncons =? 0 then Ok (s, (dest, result))
    else st_whole_loop k s dest n ncons ncons result
  end.

(** rkhtrc_stream.c: 160-196, [rkh_trc_getWholeBlock]; returns destBlock and the
    number of bytes.  Two turns of the loop are enough (proved). *)
Definition st_whole (s : stm) (dest : list N) (nelem : nat) : res (stm * (list N * nat)) :=
  if sb_qty s =? 0 then Ok (s, (dest, 0)) else
  let ncons := if sb_qty s <=? nelem then sb_qty s else nelem in
  let n := (sz c - sb_out s) mod qmod c in
  let n := if sb_qty s <? n then sb_qty s else n in
  let n := if nelem <? n then nelem else n in
  st_whole_loop 2 s dest 0 n ncons 0.
End Stream.
