(** Model of source/fwk/src/rkhfwk_bittbl.c. *)
From Verif Require Import Base.
Local Open Scope N_scope.

(** rkhfwk_bittbl.c: 66-69, [bitMaskTbl]. *)
Definition bitMaskTbl : list N :=
  [0x01; 0x02; 0x04; 0x08; 0x10; 0x20; 0x40; 0x80].

(** rkhfwk_bittbl.c: 76-94, [leastBitSetTbl]; the sixteen rows verbatim. *)
Definition leastBitSetTbl : list N :=
  [0; 0; 1; 0; 2; 0; 1; 0; 3; 0; 1; 0; 2; 0; 1; 0;
   4; 0; 1; 0; 2; 0; 1; 0; 3; 0; 1; 0; 2; 0; 1; 0;
   5; 0; 1; 0; 2; 0; 1; 0; 3; 0; 1; 0; 2; 0; 1; 0;
   4; 0; 1; 0; 2; 0; 1; 0; 3; 0; 1; 0; 2; 0; 1; 0;
   6; 0; 1; 0; 2; 0; 1; 0; 3; 0; 1; 0; 2; 0; 1; 0;
   4; 0; 1; 0; 2; 0; 1; 0; 3; 0; 1; 0; 2; 0; 1; 0;
   5; 0; 1; 0; 2; 0; 1; 0; 3; 0; 1; 0; 2; 0; 1; 0;
   4; 0; 1; 0; 2; 0; 1; 0; 3; 0; 1; 0; 2; 0; 1; 0;
   7; 0; 1; 0; 2; 0; 1; 0; 3; 0; 1; 0; 2; 0; 1; 0;
   4; 0; 1; 0; 2; 0; 1; 0; 3; 0; 1; 0; 2; 0; 1; 0;
   5; 0; 1; 0; 2; 0; 1; 0; 3; 0; 1; 0; 2; 0; 1; 0;
   4; 0; 1; 0; 2; 0; 1; 0; 3; 0; 1; 0; 2; 0; 1; 0;
   6; 0; 1; 0; 2; 0; 1; 0; 3; 0; 1; 0; 2; 0; 1; 0;
   4; 0; 1; 0; 2; 0; 1; 0; 3; 0; 1; 0; 2; 0; 1; 0;
   5; 0; 1; 0; 2; 0; 1; 0; 3; 0; 1; 0; 2; 0; 1; 0;
   4; 0; 1; 0; 2; 0; 1; 0; 3; 0; 1; 0; 2; 0; 1; 0].

(** rkhfwk_bittbl.h: 66, [RKH_INVALID_BITPOS]. *)
Definition INVALID_BITPOS : N := 0xff.

(** rkhfwk_bittbl.c: 102-106, [rkh_bittbl_getBitMask]. *)
Definition getBitMask (bitPos : N) : res N :=
  if bitPos <? 8 then rd bitMaskTbl (N.to_nat bitPos) else Ok INVALID_BITPOS.

(** rkhfwk_bittbl.c: 108-112, [rkh_bittbl_getLeastBitSetPos]; the argument
    is a [rui8_t], so a value above 255 cannot be passed in C. *)
Definition getLeastBitSetPos (value : N) : res N :=
  rd leastBitSetTbl (N.to_nat value).
