(** Specification of the trace stream: a window on a sequence of bytes. *)
From Verif Require Import Base M_TrcStream.

(** The last [n] elements of [l]. *)
Definition lastn {A} (n : nat) (l : list A) : list A := skipn (length l - n) l.

Inductive stop := SPut (b : N) | SGet | SBlock (n : nat) | SWhole (n : nat) (dest : list N).
Inductive sout := SOUnit | SOByte (b : option N) | SOBlock (p : option (list N)) (k : nat) | SOWhole (k : nat) (dest : list N).

(** A block read gives a pointer, or NULL, and a number of bytes.
    Reading through the pointers returned by the module: all bytes of a block
    must lie inside the buffer. *)
Definition peek (s : stm) (o n : nat) : res (list N) :=
  if o + n <=? length (sb_buf s) then Ok (firstn n (skipn o (sb_buf s))) else Fault (FUB UB_bounds).

Definition st_step (c : stcfg) (s : stm) (o : stop) : res (stm * sout) :=
  match o with
  | SPut b => do s <- st_put c s b; Ok (s, SOUnit)
  | SGet => let (s1, p) := st_get c s in
            match p with
            | None => Ok (s1, SOByte None)
            | Some i => do b <- rd (sb_buf s) i; Ok (s1, SOByte (Some b))
            end
  | SBlock n => let '(s1, (p, k)) := st_get_block c s n in
            match p with
            | None => Ok (s1, SOBlock None k)
            | Some i => do l <- peek s i k; Ok (s1, SOBlock (Some l) k)
            end
  | SWhole n dest => do (s1, (dest, k)) <- st_whole c s dest n; Ok (s1, SOWhole k dest)
  end.

(** Sizes accepted by the configuration checks (fwk/inc/rkhitl.h: 1229-1237,
    trc/inc/rkhtrc_define.h: 1245-1249) satisfy this. *)
Definition st_cfg_ok (c : stcfg) : Prop := 0 < sz c /\ sz c + 1 < qmod c.

(** A request is a value of TRCQTY_T and the destination is large enough. *)
Definition stop_ok (c : stcfg) (o : stop) : Prop :=
  match o with
  | SBlock n => n < qmod c
  | SWhole n dest => n < qmod c /\ n <= length dest
  | _ => True
  end.

(** What each call may do to the unread bytes [l] of a stream of [n] bytes. *)
Inductive st_spec (n : nat) : list N -> stop -> sout -> list N -> Prop :=
| SpPut l b : st_spec n l (SPut b) SOUnit (lastn n (l ++ [b]))
| SpGet0 : st_spec n [] SGet (SOByte None) []
| SpGet b l : st_spec n (b :: l) SGet (SOByte (Some b)) l
| SpBlock0 m : st_spec n [] (SBlock m) (SOBlock None 0) []
| SpBlock l m k : l <> [] -> k <= m -> k <= length l -> (0 < m -> 0 < k) ->
    st_spec n l (SBlock m) (SOBlock (Some (firstn k l)) k) (skipn k l)
| SpWhole l m dest k : k = Nat.min m (length l) ->
    st_spec n l (SWhole m dest) (SOWhole k (firstn k l ++ skipn k dest)) (skipn k l).

Inductive st_specs (n : nat) : list N -> list stop -> list sout -> list N -> Prop :=
| SpNil l : st_specs n l [] [] l
| SpCons l o r l1 os rs l2 : st_spec n l o r l1 -> st_specs n l1 os rs l2 ->
    st_specs n l (o :: os) (r :: rs) l2.

(** Only puts. *)
Definition puts (bs : list N) : list stop := map SPut bs.
