(** Model of third-party/unitrazer/tzparse.c, the reader of the trace that the test
    harness uses (third-party/utrazer/platform/80x86/vc/bsp.c: 187-203).
    [char] is one byte; a message is the list of its characters. *)
From Verif Require Import Base.
Local Open Scope N_scope.

(** rkhtrc_define.h: 305, 308, 311. *)
Definition TZ_XOR : N := 0x20.
(** rkhtrc_define.h: 308. *)
Definition TZ_FLG : N := 0x7E.
(** rkhtrc_define.h: 311. *)
Definition TZ_ESC : N := 0x7D.
(** rkhtrc_define.h: 497-498 with 152, 214, 267-269 and RKH_TG_UT = 7. *)
Definition TE_UT_SUCCESS : N := 232.
(** rkhtrc_define.h: 497-498. *)
Definition TE_UT_FAIL : N := 233.
(** tzparse.c: 16. *)
Definition TZ_BUF : nat := 512.
(** unitrazer.h: 386; tzparse.c: 25. *)
Definition UT_SIZEOF_MSG : nat := 256.
(** tzparse.c: 25. *)
Definition SYMSTR : nat := 16.

(** tzparse.h: 33-36. *)
Inductive tz_state := WFlag | Collect | Escaping.
(** tzparse.c: 23-25: [z_ptr] is the index [ptr - tr]; [trix] is an unsigned char. *)
Record tz := mkTz { z_state : tz_state; z_tr : list N; z_ptr : nat; z_trix : N; z_sym : list N }.
(** unitrazer.h: 389-403; the array [msg] has UT_SIZEOF_MSG elements. *)
Inductive ut_status := UtSuccess | UtFail | UtBusy | UtInit.
(** unitrazer.h: 389-403. *)
Record ut_out := mkOut { u_status : ut_status; u_msg : list N; u_line : N }.
(** Calls of [parser] with the bytes collected (tzparse.c: 165) and of [utProcFail]
    (169). *)
Inductive tz_call := CallParser (data : list N) | CallProcFail.

(** tzparse.c: assignment to the state. *)
Definition set_state (z : tz) (s : tz_state) : tz := mkTz s (z_tr z) (z_ptr z) (z_trix z) (z_sym z).

(** tzparse.c: 33-43, [assemble], from [trb]; only the low 32 bits of the result are
    used.  Returns the new [trb] too. *)
Fixpoint assemble (size : nat) (sh : N) (tr : list N) (trb : nat) : res (N * nat) :=
  match size with
  | O => Ok (0, trb)
  | S n =>
    do b <- rd tr trb;
    do (d, trb) <- assemble n (sh + 8) tr (S trb);
    Ok (N.lor (N.shiftl b sh mod 2 ^ 32) d, trb)
  end.
(** tzparse.c: 45-56, [assemble_str], the loop: [k] bounds the number of turns; a turn
    outside of either array is a fault before that. *)
Fixpoint assemble_str (k : nat) (tr : list N) (trb : nat) (sym : list N) (p : nat) : res (list N) :=
  match k with
  | O => Fault FFuel
  | S k =>
    do b <- rd tr trb;
    if b =? 0 then wr sym p 0
    else do sym <- wr sym p b; assemble_str k tr (S trb) sym (S p)
  end.

(** tzparse.c: 58-64. *)
Definition parser_init (z : tz) : tz := mkTz (z_state z) (z_tr z) 0 0 (z_sym z).
(** tzparse.c: 66-76. *)
Definition parser_collect (z : tz) (d : N) : res tz :=
  let t := u8 (z_trix z + 1) in
  if 512 <? t then Ok (mkTz WFlag (z_tr z) (z_ptr z) t (z_sym z))
  else do tr <- wr (z_tr z) (z_ptr z) d;
       Ok (mkTz (z_state z) tr (S (z_ptr z)) t (z_sym z)).
(** tzparse.c: 78-89. *)
Definition parser_chk (z : tz) : bool :=
  fold_left (fun chk b => u8 (chk + b)) (firstn (N.to_nat (z_trix z)) (z_tr z)) 0 =? 0.

(** The C string at the start of an array, and strncpy into an array of [n].
    tzparse.c: 103. *)
Fixpoint str_of (l : list N) : list N :=
  match l with [] => [] | b :: l => if b =? 0 then [] else b :: str_of l end.
(** strncpy of the C library into an array of [n].  tzparse.c: 103. *)
Definition strncpy (n : nat) (s : list N) : list N := firstn n (s ++ repeat 0 n).

(** tzparse.c: 91-104. *)
Definition utFail (z : tz) (o : ut_out) : res (tz * ut_out) :=
  do (line, trb) <- assemble 4 0 (z_tr z) 1;
  do sym <- assemble_str (S TZ_BUF) (z_tr z) trb (z_sym z) 0;
  Ok (mkTz (z_state z) (z_tr z) (z_ptr z) (z_trix z) sym,
      mkOut UtFail (strncpy UT_SIZEOF_MSG (str_of sym)) line).
(** tzparse.c: 106-111. *)
Definition utSuccess (o : ut_out) : ut_out := mkOut UtSuccess (u_msg o) (u_line o).
(** tzparse.c: 113-120: "Trace stream checksum Error". *)
Definition chk_error : list N :=
  [84; 114; 97; 99; 101; 32; 115; 116; 114; 101; 97; 109; 32; 99; 104; 101; 99; 107; 115; 117; 109; 32; 69; 114; 114; 111; 114].
(** tzparse.c: 113-120. *)
Definition utProcFail (o : ut_out) : ut_out := mkOut UtFail (strncpy UT_SIZEOF_MSG chk_error) 0.
(** tzparse.c: 122-137. *)
Definition parser (z : tz) (o : ut_out) : res (tz * ut_out) :=
  do id <- rd (z_tr z) 0;
  if id =? TE_UT_FAIL then utFail z o
  else if id =? TE_UT_SUCCESS then Ok (z, utSuccess o)
  else Ok (z, o).

(** tzparse.c: 139-144. *)
Definition trazer_init (z : tz) : tz := set_state (parser_init z) Collect.
(** tzparse.c: 146-199. *)
Definition trazer_parse (z : tz) (o : ut_out) (d : N) : res (tz * ut_out * list tz_call) :=
  match z_state z with
  | WFlag =>
    if d =? TZ_FLG then Ok (set_state (parser_init z) Collect, o, []) else Ok (z, o, [])
  | Collect =>
    if d =? TZ_FLG then
      if 0 <? z_trix z then
        if parser_chk z then
          do (z', o) <- parser z o;
          Ok (parser_init z', o, [CallParser (firstn (N.to_nat (z_trix z)) (z_tr z))])
        else Ok (parser_init z, utProcFail o, [CallProcFail])
      else Ok (parser_init z, o, [])
    else if d =? TZ_ESC then Ok (set_state z Escaping, o, [])
    else do z <- parser_collect z d; Ok (z, o, [])
  | Escaping =>
    if d =? TZ_FLG then Ok (set_state (parser_init z) Collect, o, [])
    else do z <- parser_collect z (N.lxor d TZ_XOR); Ok (set_state z Collect, o, [])
  end.
(** bsp.c: 194-201 of the harness without its way out: the bytes one after the other. *)
Fixpoint trazer_run (z : tz) (o : ut_out) (l : list N) : res (tz * ut_out * list tz_call) :=
  match l with
  | [] => Ok (z, o, [])
  | d :: l =>
    do (z, o, a) <- trazer_parse z o d;
    do (z, o, b) <- trazer_run z o l;
    Ok (z, o, a ++ b)
  end.
(** tzparse.c: 23-25, static variables at start-up. *)
Definition tz0 : tz := mkTz WFlag (repeat 0 TZ_BUF) 0 0 (repeat 0 SYMSTR).
(** tzlink.c: 103-109, [unitrazer_resetOut]. *)
Definition out0 : ut_out := mkOut UtInit (repeat 0 UT_SIZEOF_MSG) 0.
