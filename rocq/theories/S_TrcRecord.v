(** Specification of trace records: what a receiver on the other side of the
    line computes. *)
From Verif Require Import Base M_TrcStream S_TrcStream M_TrcRecord.
Local Open Scope N_scope.

(** Little-endian representation of [d] in [w] bytes and its reading. *)
Fixpoint le (w : nat) (d : N) : list N :=
  match w with O => [] | S w => d mod 256 :: le w (d / 256) end.
Fixpoint unle (l : list N) : N :=
  match l with [] => 0 | b :: l => b + 256 * unle l end.

(** The fields a record is made of. *)
Inductive item :=
| IWidth (w : nat) (d : N)            (* RKH_TRC_UI8 / UI16 / UI32 and the like *)
| IStr (mem : list N)                 (* RKH_TRC_STR *)
| IFmtU8 (fmt d : N) | IFmtU16 (fmt d : N) | IFmtU32 (fmt d : N)
| IFmtStr (mem : list N) | IFmtMem (mem : list N) (size : N).

(** The characters of a C string at the start of [mem], terminator included. *)
Fixpoint cstr (mem : list N) : list N :=
  match mem with [] => [] | ch :: mem => if ch =? 0 then [0] else ch :: cstr mem end.

Definition item_bytes (i : item) : list N :=
  match i with
  | IWidth w d => le w d
  | IStr m => cstr m
  | IFmtU8 f d => le 1 f ++ le 1 d
  | IFmtU16 f d => le 1 f ++ le 2 d
  | IFmtU32 f d => le 1 f ++ le 4 d
  | IFmtStr m => 7 :: cstr m
  | IFmtMem m n => 8 :: n :: firstn (N.to_nat n) m
  end.

Definition byte (b : N) : Prop := b < 256.
Definition width_ok (w : nat) : Prop := (w = 1 \/ w = 2 \/ w = 4)%nat.

(** Widths are those of C types; strings are terminated; a memory dump lies
    inside the memory and its size is a rui8_t. *)
Definition item_ok (i : item) : Prop :=
  match i with
  | IWidth w _ => width_ok w
  | IStr m | IFmtStr m => Forall byte m /\ In 0 m
  | IFmtMem m n => Forall byte m /\ byte n /\ (N.to_nat n <= length m)%nat
  | _ => True
  end.

(** A record to be written: identifier, time stamp, fields. *)
Record rec := mkRec { r_id : N; r_ts : N; r_items : list item }.

Section Write.
Context (c : rccfg).
Definition do_item (t : trc) (i : item) : res trc :=
  match i with
  | IWidth w d => trc_width c w t d
  | IStr m => trc_str c t m
  | IFmtU8 f d => trc_fmt_u8 c t f d
  | IFmtU16 f d => trc_fmt_u16 c t f d
  | IFmtU32 f d => trc_fmt_u32 c t f d
  | IFmtStr m => trc_fmt_str c t m
  | IFmtMem m n => trc_fmt_mem c t m n
  end.
Fixpoint do_items (t : trc) (l : list item) : res trc :=
  match l with [] => Ok t | i :: l => do t <- do_item t i; do_items t l end.
Definition do_rec (t : trc) (r : rec) : res trc :=
  do t <- trc_begin c t (r_id r) (r_ts r);
  do t <- do_items t (r_items r);
  trc_end c t.
Fixpoint do_recs (t : trc) (l : list rec) : res trc :=
  match l with [] => Ok t | r :: l => do t <- do_rec t r; do_recs t l end.
End Write.

Definition rc_cfg_ok (c : rccfg) : Prop :=
  st_cfg_ok (rc_st c) /\ width_ok (rc_idw c) /\ (rc_tsw c = 0%nat \/ width_ok (rc_tsw c)).
Definition rec_ok (r : rec) : Prop := Forall item_ok (r_items r).

(** *** The receiver *)
(** Frames terminated by a flag; what follows the last flag is incomplete. *)
Fixpoint frames_ (acc : list N) (l : list N) : list (list N) :=
  match l with
  | [] => []
  | b :: l => if b =? 0x7E then rev acc :: frames_ [] l else frames_ (b :: acc) l
  end.
Definition frames (l : list N) : list (list N) := frames_ [] l.

(** Remove the escaping; [None] if an escape byte ends the frame. *)
Fixpoint unescape (l : list N) : option (list N) :=
  match l with
  | [] => Some []
  | b :: l =>
    if b =? 0x7D then
      match l with
      | [] => None
      | x :: l => match unescape l with Some r => Some (N.lxor x 0x20 :: r) | None => None end
      end
    else match unescape l with Some r => Some (b :: r) | None => None end
  end.

Definition sum (l : list N) : N := fold_right N.add 0 l.

(** Check and remove the checksum. *)
Definition unchk (en : bool) (l : list N) : option (list N) :=
  if en then if (sum l mod 256 =? 0) && (1 <=? length l)%nat then Some (removelast l) else None
  else Some l.

(** A received record. *)
Record prec := mkPrec { p_id : N; p_seq : option N; p_ts : option N; p_pay : list N }.

Definition take (w : nat) (l : list N) : option (N * list N) :=
  if (w <=? length l)%nat then Some (unle (firstn w l), skipn w l) else None.

Definition parse (c : rccfg) (l : list N) : option prec :=
  match take (rc_idw c) l with
  | None => None
  | Some (id, l) =>
    let sq := if rc_nseq c then match take 1 l with Some (q, l) => Some (Some q, l) | None => None end
              else Some (None, l) in
    match sq with
    | None => None
    | Some (q, l) =>
      let ts := if (rc_tsw c =? 0)%nat then Some (None, l)
                else match take (rc_tsw c) l with Some (x, l) => Some (Some x, l) | None => None end in
      match ts with
      | None => None
      | Some (x, l) => Some (mkPrec id q x l)
      end
    end
  end.

Definition decode_frame (c : rccfg) (f : list N) : option prec :=
  match unescape f with
  | None => None
  | Some l => match unchk (rc_chk c) l with None => None | Some l => parse c l end
  end.

(** The receiver synchronises on the first flag. *)
Definition decode (c : rccfg) (l : list N) : list (option prec) :=
  map (decode_frame c) (tl (frames l)).

(** What the receiver should obtain for the [i]-th record written. *)
Definition sent (c : rccfg) (i : nat) (r : rec) : option prec :=
  Some (mkPrec (r_id r mod 256 ^ N.of_nat (rc_idw c))
               (if rc_nseq c then Some (N.of_nat i mod 256) else None)
               (if (rc_tsw c =? 0)%nat then None else Some (r_ts r mod 256 ^ N.of_nat (rc_tsw c)))
               (flat_map item_bytes (r_items r))).
Fixpoint sents (c : rccfg) (i : nat) (l : list rec) : list (option prec) :=
  match l with [] => [] | r :: l => sent c i r :: sents c (S i) l end.

(** The bytes in the stream, read with rkh_trc_getWholeBlock. *)
Definition readout (c : rccfg) (t : trc) : res (list N) :=
  do (_, (dest, k)) <- st_whole (rc_st c) (t_stm t) (repeat 0 (sz (rc_st c))) (sz (rc_st c));
  Ok (firstn k dest).

(** *** Space taken by a record *)
Definition special (b : N) : bool := (b =? 0x7E) || (b =? 0x7D).
(** The bytes of the [i]-th record before escaping, checksum included. *)
Definition rec_data (c : rccfg) (i : nat) (r : rec) : list N :=
  le (rc_idw c) (r_id r) ++ (if rc_nseq c then [N.of_nat i mod 256] else []) ++
  le (rc_tsw c) (r_ts r) ++ flat_map item_bytes (r_items r).
Definition with_chk (c : rccfg) (l : list N) : list N :=
  if rc_chk c then l ++ [(256 - sum l mod 256) mod 256] else l.
(** One byte for each, one more for each escaped one, one for the flag. *)
Definition cost (c : rccfg) (i : nat) (r : rec) : nat :=
  (length (with_chk c (rec_data c i r)) + length (filter special (with_chk c (rec_data c i r))) + 1)%nat.
Fixpoint costs (c : rccfg) (i : nat) (l : list rec) : nat :=
  match l with [] => 0%nat | r :: l => (cost c i r + costs c (S i) l)%nat end.

(** *** Writing and reading in turns *)
(** Each phase writes some records and then moves up to [n] bytes to the
    receiver's log. *)
Fixpoint phases (c : rccfg) (t : trc) (log : list N) (ph : list (list rec * nat)) : res (trc * list N) :=
  match ph with
  | [] => Ok (t, log)
  | (rs, n) :: ph =>
    do t <- do_recs c t rs;
    do (s, (dest, k)) <- st_whole (rc_st c) (t_stm t) (repeat 0 n) n;
    phases c (mkTrc s (t_chk t) (t_nseq t)) (log ++ firstn k dest) ph
  end.

(** No phase overruns the stream: [i] records written and [q] bytes unread so
    far. *)
Fixpoint no_overrun (c : rccfg) (i q : nat) (ph : list (list rec * nat)) : Prop :=
  match ph with
  | [] => True
  | (rs, n) :: ph =>
    (q + costs c i rs <= sz (rc_st c))%nat /\ (n < qmod (rc_st c))%nat /\
    no_overrun c (i + length rs) (q + costs c i rs - n) ph
  end.

(** *** Default records *)
(** A record between RKH_TRC_BEGIN_DFT and RKH_TRC_END_DFT; the receiver knows
    that it has neither number nor time stamp. *)
Definition do_dft (c : rccfg) (t : trc) (id : N) (items : list item) : res trc :=
  do t <- trc_begin_dft c t id;
  do t <- do_items c t items;
  trc_end c t.
Definition dft_cfg (c : rccfg) : rccfg :=
  mkRcCfg (rc_st c) (rc_idw c) false 0 (rc_chk c) (rc_ptrw c) (rc_sigw c).
